(** * Lemmas for Props_MassFloat *)

From Coq Require Import String List Bool Relations Permutation Lia Arith ZArith Reals Lra.
From Flocq Require Import Core.Core IEEE754.BinarySingleNaN.
Import ListNotations.
From Verif Require Import Scalar Model_Vec Model_Rigid Model_Average Model_Pose Model_Urdf Model_Squash Model_Text Model_UrdfText
  Spec_Urdf Spec_MassFloat F64Err Proofs_Urdf Proofs_Walk.
Local Open Scope R_scope.

Notation doc := (list (elem f64)).
Section Doc.
Variable L : libm64.
Local Instance S64m : Scalar f64 := F64Scalar L.

Definition lmass (l : Link f64) : R := match l_inertial l with Some i => v64 (i_mass i) | None => 0 end.
Definition lsum (ls : list (Link f64)) : R := fold_right (fun l s => lmass l + s) 0 ls.
Definition lproper (l : Link f64) : Prop := forall i, l_inertial l = Some i -> is_finite (i_mass i) = true /\ 0 <= v64 (i_mass i).

Lemma exact_lsum : forall d : doc, exact_mass d = lsum (links d).
Proof.
  intros d. unfold exact_mass, masses. induction (links d) as [|l ls IH]; [reflexivity|]. cbn [flat_map lsum fold_right].
  unfold lmass at 1. destruct (l_inertial l); cbn [app fold_right]; [f_equal; exact IH|rewrite Rplus_0_l; exact IH].
Qed.
Lemma proper_links : forall d : doc, proper_masses d <-> Forall lproper (links d).
Proof.
  intros d. unfold proper_masses, masses. rewrite Forall_forall. split.
  - intros h l hl i e. apply h. apply in_flat_map. exists l. split; [assumption|]. rewrite e. now left.
  - intros h m hm. apply in_flat_map in hm. destruct hm as [l [hl hm]]. destruct (l_inertial l) as [i|] eqn:e; [|contradiction].
    destruct hm as [<-|[]]. exact (h l hl i e).
Qed.

Definition set_at (n : string) (i : option (Inertial f64)) (l : Link f64) : Link f64 :=
  if (l_name l =? n)%string then set_inertial i l else l.
Lemma links_upd : forall (d : doc) n i, links (upd_link d n (set_inertial i)) = map (set_at n i) (links d).
Proof.
  intros d n i. unfold upd_link, links. induction d as [|[l|k|s] d IH]; cbn; [reflexivity| |assumption|assumption].
  unfold set_at at 1. destruct (l_name l =? n)%string; cbn; now rewrite IH.
Qed.
Lemma joints_upd : forall (d : doc) n f, joints (upd_link d n f) = joints d.
Proof.
  intros d n f. unfold upd_link, joints. induction d as [|[l|k|s] d IH]; cbn; [reflexivity| |now rewrite IH|assumption].
  destruct (l_name l =? n)%string; cbn; assumption.
Qed.
Lemma set_at_name : forall n i l, l_name (set_at n i l) = l_name l.
Proof. intros n i l. unfold set_at. destruct (l_name l =? n)%string; reflexivity. Qed.
Lemma names_upd : forall (d : doc) n i, link_names (upd_link d n (set_inertial i)) = link_names d.
Proof. intros d n i. unfold link_names. rewrite links_upd, map_map. apply map_ext. intros l. apply set_at_name. Qed.

Lemma set_at_other : forall n i ls, ~ In n (map (@l_name f64) ls) -> map (set_at n i) ls = ls.
Proof.
  intros n i ls. induction ls as [|l ls IH]; intros h; [reflexivity|]. cbn [map]. rewrite IH by (intros h'; apply h; now right).
  unfold set_at. destruct (l_name l =? n)%string eqn:e; [|reflexivity]. apply String.eqb_eq in e. exfalso. apply h. left. exact e.
Qed.
Lemma lsum_set : forall n i ls l, NoDup (map (@l_name f64) ls) -> find (fun l => (l_name l =? n)%string) ls = Some l ->
  lsum (map (set_at n i) ls) = lsum ls - lmass l + lmass (set_inertial i l).
Proof.
  intros n i ls l. induction ls as [|k ls IH]; intros hd hf; [discriminate|]. cbn [map] in hd. inversion hd as [|? ? h1 h2]; subst.
  cbn [find] in hf. cbn [map lsum fold_right]. destruct (l_name k =? n)%string eqn:e.
  - injection hf as ->. pose proof e as e'. apply String.eqb_eq in e. subst n. rewrite set_at_other by exact h1. unfold set_at. rewrite e'.
    unfold lsum. lra.
  - fold (lsum (map (set_at n i) ls)). fold (lsum ls). rewrite (IH h2 hf). unfold set_at. rewrite e. lra.
Qed.
Lemma proper_set : forall n i ls, Forall lproper ls -> (forall k, i = Some k -> is_finite (i_mass k) = true /\ 0 <= v64 (i_mass k)) ->
  Forall lproper (map (set_at n i) ls).
Proof.
  intros n i ls H h. rewrite Forall_forall in *. intros l hl. apply in_map_iff in hl. destruct hl as [k [<- hk]].
  unfold set_at. destruct (l_name k =? n)%string; [|now apply H]. intros x e. cbn in e. now apply h.
Qed.
Lemma find_set_other : forall n m i ls, m <> n -> find (fun l => (l_name l =? m)%string) (map (set_at n i) ls) = find (fun l => (l_name l =? m)%string) ls.
Proof.
  intros n m i ls h. induction ls as [|l ls IH]; [reflexivity|]. cbn [map find]. rewrite set_at_name.
  destruct (l_name l =? m)%string eqn:e; [|exact IH]. unfold set_at. destruct (l_name l =? n)%string eqn:e'; [|reflexivity].
  apply String.eqb_eq in e, e'. congruence.
Qed.
Lemma find_some : forall (d : doc) n, In n (link_names d) -> exists l, find_link d n = Some l /\ In l (links d) /\ l_name l = n.
Proof.
  intros d n h. unfold find_link. unfold link_names in h. apply in_map_iff in h. destruct h as [l [<- hl]].
  destruct (find (fun l0 => (l_name l0 =? l_name l)%string) (links d)) as [k|] eqn:e.
  - exists k. destruct (find_some _ _ e) as [h1 h2]. apply String.eqb_eq in h2. now repeat split.
  - exfalso. apply (find_none _ _ e) in hl. cbn in hl. rewrite String.eqb_refl in hl. discriminate.
Qed.
Lemma lmass_nonneg : forall l, lproper l -> 0 <= lmass l.
Proof. intros l h. unfold lmass. destruct (l_inertial l) as [i|] eqn:e; [apply (h i e)|lra]. Qed.
Lemma lsum_nonneg : forall ls, Forall lproper ls -> 0 <= lsum ls.
Proof. intros ls h. induction h as [|l ls h1 h2 IH]; [cbn; lra|]. cbn [lsum fold_right]. fold (lsum ls). pose proof (lmass_nonneg l h1). lra. Qed.
Lemma lsum_in : forall ls l, Forall lproper ls -> In l ls -> lmass l <= lsum ls.
Proof.
  intros ls l h. induction h as [|k ls h1 h2 IH]; intros hi; [contradiction|]. destruct hi as [hi|hi]; cbn [lsum fold_right]; fold (lsum ls).
  - subst k. pose proof (lsum_nonneg ls h2). lra.
  - specialize (IH hi). pose proof (lmass_nonneg k h1). lra.
Qed.
Lemma lsum_in2 : forall ls a b, Forall lproper ls -> In a ls -> In b ls -> l_name a <> l_name b -> lmass a + lmass b <= lsum ls.
Proof.
  intros ls a b h. induction h as [|k ls h1 h2 IH]; intros ha hb hn; [contradiction|]. cbn [lsum fold_right]. fold (lsum ls).
  destruct ha as [->|ha], hb as [->|hb].
  - contradiction.
  - pose proof (lsum_in ls b h2 hb). lra.
  - pose proof (lsum_in ls a h2 ha). lra.
  - specialize (IH ha hb hn). pose proof (lmass_nonneg k h1). lra.
Qed.

(** The mass of the compound body. *)
Lemma squashed_mass : forall j pi ci, i_mass (squashed j pi ci) =
  match pi with None => i_mass ci | Some p => Bplus mode_NE (i_mass p) (i_mass ci) end.
Proof. intros j [p|] ci; reflexivity. Qed.

Lemma u_u64 : u = u64.
Proof. unfold u. now rewrite u64_pow. Qed.

Lemma near_pos : forall x s : R, 0 <= s -> Rabs (x - s) <= u64 * s -> 0 <= x.
Proof. intros x s hs h. apply Rabs_le_inv in h. unfold u64 in h. lra. Qed.

Lemma near_same : forall x : R, 0 <= x -> Rabs (x - (0 + x)) <= u * (0 + x).
Proof. intros x h. replace (x - (0 + x)) with 0 by ring. rewrite Rabs_R0. rewrite u_u64. unfold u64. lra. Qed.

(** One merge. *)
Lemma merge_step : forall (d : doc) j, NoDup (link_names d) -> In (j_parent j) (link_names d) -> In (j_child j) (link_names d) ->
  j_parent j <> j_child j ->
  exists d', squash_joint d j = Ok d' /\ joints d' = joints d /\ link_names d' = link_names d /\
    (proper_masses d -> exact_mass d <= huge64 -> proper_masses d' /\ after_roundings 1 (exact_mass d) (exact_mass d')).
Proof.
  intros d j hd hp hc hne. unfold squash_joint. destruct (find_some d _ hc) as [c [ec [ic nc]]]. rewrite ec.
  assert (hu : 0 <= u <= 1) by (rewrite u_u64; unfold u64; lra).
  destruct (l_inertial c) as [ci|] eqn:ei.
  2:{ exists d. do 3 (split; [reflexivity|]). intros hm _. split; [exact hm|].
      pose proof (lsum_nonneg _ (proj1 (proper_links d) hm)) as h0. unfold after_roundings; rewrite ?exact_lsum; cbn [pow]; nra. }
  destruct (find_some d _ hp) as [p [ep [ip np]]]. rewrite ep. eexists. split; [reflexivity|].
  split; [now rewrite !joints_upd|]. split; [now rewrite !names_upd|]. intros hm hh.
  pose proof (proj1 (proper_links d) hm) as hl. rewrite exact_lsum in hh. pose proof (lsum_nonneg _ hl) as h0.
  pose proof (proj1 (Forall_forall _ _) hl c ic ci ei) as [fc gc].
  assert (hpc : lmass p + lmass c <= lsum (links d)) by (apply lsum_in2; try assumption; congruence).
  assert (hs : let m := i_mass (squashed j (l_inertial p) ci) in is_finite m = true /\ 0 <= v64 m /\
     Rabs (v64 m - (lmass p + lmass c)) <= u * (lmass p + lmass c)).
  { cbv zeta. rewrite squashed_mass. unfold lmass in hpc |- *. rewrite ei in hpc |- *. destruct (l_inertial p) as [pi|] eqn:epi in hpc |- *.
    - pose proof (proj1 (Forall_forall _ _) hl p ip pi epi) as [fp gp].
      destruct (add64_rel (i_mass pi) (i_mass ci) fp fc) as [h1 h2]; [rewrite Rabs_pos_eq by lra; lra|]. rewrite (Rabs_pos_eq (v64 (i_mass pi) + v64 (i_mass ci))) in h2 by lra.
      split; [exact h1|]. rewrite u_u64. split; [|exact h2]. apply (near_pos _ _ (Rplus_le_le_0_compat _ _ gp gc) h2).
    - split; [exact fc|]. split; [exact gc|]. apply (near_same _ gc). }
  cbv zeta in hs. destruct hs as [s1 [s2 s3]].
  split.
  - apply proper_links. rewrite !links_upd. apply proper_set; [apply proper_set; [exact hl|]|discriminate].
    intros k e. injection e as <-. split; assumption.
  - unfold after_roundings. rewrite !exact_lsum, !links_upd. cbn [pow].
    rewrite (lsum_set (j_child j) None (map (set_at (j_parent j) (Some (squashed j (l_inertial p) ci))) (links d)) c).
    2:{ rewrite map_map. erewrite map_ext by (intros; apply set_at_name). exact hd. }
    2:{ rewrite find_set_other by congruence. exact ec. }
    rewrite (lsum_set (j_parent j) _ (links d) p hd ep).
    change (lmass (set_inertial None c)) with 0. change (lmass (set_inertial (Some (squashed j (l_inertial p) ci)) p)) with (v64 (i_mass (squashed j (l_inertial p) ci))).
    apply Rabs_le_inv in s3. pose proof (lmass_nonneg p (proj1 (Forall_forall _ _) hl p ip)) as q1.
    pose proof (lmass_nonneg c (proj1 (Forall_forall _ _) hl c ic)) as q2. nra.
Qed.

(** ** Traversals *)
Lemma same_names : forall d D : doc, same_graph d D -> joint_names D = joint_names d.
Proof.
  intros d D h. unfold same_graph in h. unfold joint_names. apply (f_equal (map (fun x => fst (fst x)))) in h.
  rewrite !map_map in h. symmetry. exact h.
Qed.
Lemma same_in : forall (d D : doc) j', same_graph d D -> In j' (joints D) ->
  exists j, In j (joints d) /\ j_name j = j_name j' /\ j_parent j = j_parent j' /\ j_child j = j_child j'.
Proof.
  intros d D j' h hj. unfold same_graph in h.
  assert (hi : In (j_name j', j_parent j', j_child j') (map (fun j => (j_name j, j_parent j, j_child j)) (joints d))).
  { rewrite h. apply in_map_iff. exists j'. now split. }
  apply in_map_iff in hi. destruct hi as [j [e hi]]. injection e as e1 e2 e3. exists j. now repeat split.
Qed.

(** What a call of [finish] may do to the document. *)
Definition fstep (D : doc) (j : Joint f64) (D' : doc) : Prop :=
  squash_joint D j = Ok D' \/ D' = D \/ D' = upd_joint D (j_name j) (fun k => set_type k "fixed"%string).

Lemma upd_joint_links : forall (D : doc) n f, links (upd_joint D n f) = links D.
Proof.
  intros D n f. unfold links, upd_joint. induction D as [|[l|j|s] D IH]; cbn; [reflexivity|now rewrite IH| |assumption].
  destruct (j_name j =? n)%string; cbn; assumption.
Qed.
Lemma upd_joint_sg : forall (D : doc) n, same_graph D (upd_joint D n (fun k => set_type k "fixed"%string)).
Proof.
  intros D n. unfold same_graph, joints, upd_joint. induction D as [|[l|j|s] D IH]; cbn; [reflexivity|assumption| |assumption].
  rewrite map_app. destruct (j_name j =? n)%string; cbn; now rewrite IH.
Qed.
Lemma squash_shape : forall (D : doc) j D', squash_joint D j = Ok D' -> joints D' = joints D /\ link_names D' = link_names D.
Proof.
  intros D j D' e. unfold squash_joint in e. destruct (find_link D (j_child j)) as [c|]; [|discriminate].
  destruct (l_inertial c); [|injection e as <-; now split]. destruct (find_link D (j_parent j)); [|discriminate].
  injection e as <-. now rewrite !joints_upd, !names_upd.
Qed.
Lemma fstep_shape : forall D j D', fstep D j D' -> same_graph D D' /\ link_names D' = link_names D.
Proof.
  intros D j D' [e|[->| ->]].
  - destruct (squash_shape _ _ _ e) as [h1 h2]. split; [|exact h2]. unfold same_graph. now rewrite h1.
  - split; reflexivity.
  - split; [apply upd_joint_sg|]. unfold link_names. now rewrite upd_joint_links.
Qed.

Section Tree.
Variable t : tree f64.
Hypothesis hs : sound t.
Notation d := (t_doc t).
Notation root := (t_root t).

Definition like (D : doc) : Prop := same_graph d D /\ link_names D = link_names d.
Lemma like_step : forall D j D', like D -> fstep D j D' -> like D'.
Proof.
  intros D j D' [h1 h2] h. destruct (fstep_shape _ _ _ h) as [h3 h4]. split; [|now rewrite h4].
  unfold same_graph in *. now rewrite h1.
Qed.
Lemma ends_of : forall p j, path d root (p ++ [j]) (j_child j) -> In j (joints d) /\ j_parent j <> j_child j.
Proof.
  intros p j h. pose proof h as h'. apply path_snoc_inv in h'. destruct h' as [_ [hi h']]. split; [exact hi|].
  intros e. rewrite e in h'.
  pose proof (path_unique d root (sd_doc t hs) (proj2 (sd_root t hs root) eq_refl) _ _ _ h h') as ee.
  apply (f_equal (@length _)) in ee. rewrite app_length in ee. cbn in ee. lia.
Qed.
Lemma joint_of : forall D j j', like D -> In j (joints d) -> In j' (joints D) -> j_name j' = j_name j ->
  j_parent j' = j_parent j /\ j_child j' = j_child j.
Proof.
  intros D j j' [h1 _] hj hj' en. destruct (same_in d D j' h1 hj') as [k [hk [e1 [e2 e3]]]].
  assert (k = j) by (apply (name_inj d); [apply (sd_doc t hs)|assumption|assumption|congruence]). subst k. now split.
Qed.
Lemma merge_at : forall D p j j', like D -> path d root (p ++ [j]) (j_child j) -> In j' (joints D) -> j_name j' = j_name j ->
  exists D', squash_joint D j' = Ok D' /\
    (proper_masses D -> exact_mass D <= huge64 -> proper_masses D' /\ after_roundings 1 (exact_mass D) (exact_mass D')).
Proof.
  intros D p j j' hl hp hj' en. destruct (ends_of p j hp) as [hj hne]. destruct (joint_of D j j' hl hj hj' en) as [e1 e2].
  pose proof (sd_doc t hs) as w. destruct (wc_ends d w j hj) as [w1 w2]. destruct hl as [_ hl].
  destruct (merge_step D j') as [D' [h1 [_ [_ h2]]]]; [rewrite hl; apply w|rewrite hl, e1; exact w1|rewrite hl, e2; exact w2|congruence|].
  exists D'. now split.
Qed.

Lemma exact_joint : forall (D : doc) n f, exact_mass (upd_joint D n f) = exact_mass D.
Proof. intros D n f. now rewrite !exact_lsum, upd_joint_links. Qed.
Lemma proper_joint : forall (D : doc) n f, proper_masses D -> proper_masses (upd_joint D n f).
Proof. intros D n f. now rewrite !proper_links, upd_joint_links. Qed.

Lemma rnd_trans : forall k l x y z, after_roundings k x y -> after_roundings l y z -> after_roundings (k + l) x z.
Proof.
  intros k l x y z [h1 h2] [h3 h4]. unfold after_roundings.
  assert (hu : 0 <= u <= 1) by (rewrite u_u64; unfold u64; lra).
  assert (p1 : 0 <= (1 - u) ^ l) by (apply pow_le; lra). assert (p2 : 0 <= (1 + u) ^ l) by (apply pow_le; lra).
  rewrite !pow_add. split.
  - apply Rle_trans with (2 := h3). rewrite (Rmult_comm ((1 - u) ^ k)), Rmult_assoc. now apply Rmult_le_compat_l.
  - apply Rle_trans with (1 := h4). rewrite (Rmult_comm ((1 + u) ^ k)), Rmult_assoc. now apply Rmult_le_compat_l.
Qed.
Lemma rnd_more : forall k n x y, (k <= n)%nat -> 0 <= x -> after_roundings k x y -> after_roundings n x y.
Proof.
  intros k n x y hk hx [h1 h2]. assert (hu : 0 <= u <= 1) by (rewrite u_u64; unfold u64; lra).
  replace n with (k + (n - k))%nat by lia. split; rewrite pow_add.
  - apply Rle_trans with (2 := h1). apply Rmult_le_compat_r; [exact hx|].
    rewrite <- (Rmult_1_r ((1 - u) ^ k)) at 2. apply Rmult_le_compat_l; [apply pow_le; lra|].
    apply Rle_trans with (1 ^ (n - k)); [apply pow_incr; lra|rewrite pow1; lra].
  - apply Rle_trans with (1 := h2). apply Rmult_le_compat_r; [exact hx|].
    rewrite <- (Rmult_1_r ((1 + u) ^ k)) at 1. apply Rmult_le_compat_l; [apply pow_le; lra|].
    apply pow_R1_Rle. lra.
Qed.

Lemma runs_mass : forall {V} (vd : V -> doc) fin n, length (joints d) = n ->
  (forall v j v', fin v j = Ok v' -> fstep (vd v) j (vd v')) ->
  forall v h v', runs vd (fun v _ => Ok (v, true)) fin v h v' ->
  (forall m, In m (finished h) -> exists p j, path d root (p ++ [j]) (j_child j) /\ j_name j = m) ->
  forall k, (k + length (finished h) <= n)%nat -> like (vd v) -> proper_masses d -> proper_masses (vd v) ->
  (1 + u) ^ n * exact_mass d <= huge64 -> after_roundings k (exact_mass d) (exact_mass (vd v)) ->
  proper_masses (vd v') /\ after_roundings n (exact_mass d) (exact_mass (vd v')).
Proof.
  intros V vd fin n hn hf v h v' H.
  induction H as [v|v m j v1 b h v' hj hm e H IH|v m j v1 h v' hj hm e H IH]; intros hh k hk hlike hd hp hb hr.
  - split; [exact hp|]. apply (rnd_more k); [lia| |exact hr]. rewrite exact_lsum. apply lsum_nonneg. now apply proper_links.
  - injection e as <- <-. now apply (IH hh k).
  - cbn [finished flat_map app length] in hk. fold (finished h) in hk.
    assert (hh' : forall m0, In m0 (finished h) -> exists p j0, path d root (p ++ [j0]) (j_child j0) /\ j_name j0 = m0).
    { intros m0 h0. apply hh. right. exact h0. }
    pose proof (hf _ _ _ e) as fs. pose proof (like_step _ _ _ hlike fs) as hlike'.
    assert (hx : 0 <= exact_mass d) by (rewrite exact_lsum; apply lsum_nonneg; now apply proper_links).
    destruct fs as [es|[es|es]].
    + destruct (hh m (or_introl eq_refl)) as [p [j0 [hpath en]]].
      destruct (merge_at (vd v) p j0 j hlike hpath hj) as [D' [e1 e2]]; [congruence|]. rewrite es in e1. injection e1 as <-.
      destruct e2 as [e2 e3]; [exact hp| |].
      { apply Rle_trans with (2 := hb). apply (rnd_more k n); [lia|exact hx|exact hr]. }
      apply (IH hh' (k + 1)%nat); try assumption; [lia|]. now apply (rnd_trans k 1 _ (exact_mass (vd v))).
    + apply (IH hh' k); try assumption; [lia|rewrite es; assumption|rewrite es; assumption].
    + apply (IH hh' k); try assumption; [lia|rewrite es; now apply proper_joint|rewrite es, exact_joint; assumption].
Qed.

Lemma trav_mass : forall {V} (vd : V -> doc) fin v v',
  (forall v j v', fin v j = Ok v' -> fstep (vd v) j (vd v')) -> vd v = d -> proper_masses d ->
  (1 + u) ^ length (joints d) * exact_mass d <= huge64 ->
  traverse_joints t vd (fun v _ => Ok (v, true)) fin v = Ok v' ->
  proper_masses (vd v') /\ after_roundings (length (joints d)) (exact_mass d) (exact_mass (vd v')).
Proof.
  intros V vd fin v v' hf ev hp hb e.
  destruct (C46_once_proof t vd (fun v _ => Ok (v, true)) fin v v' hs) as [h [hr [h1 [h2 [_ [h3 _]]]]]]; try assumption.
  - intros x j x' b h ee. injection ee as <- <-. exact h.
  - intros x j x' h ee. destruct (fstep_shape _ _ _ (hf _ _ _ ee)) as [h1 _]. unfold same_graph in *. now rewrite h.
  - now rewrite ev.
  - assert (hin : forall m, In m (finished h) -> exists p j, path d root (p ++ [j]) (j_child j) /\ j_name j = m).
    { intros m hm. apply h3. now apply (Permutation_in _ h2). }
    apply (runs_mass vd fin _ eq_refl hf v h v' hr hin 0%nat); try assumption.
    + cbn [Nat.add]. rewrite (Permutation_length h2). apply Nat.le_trans with (length (joint_names d)).
      * apply NoDup_incl_length; [exact h1|]. intros m hm. destruct (h3 m hm) as [p [j [hp' en]]].
        apply in_map_iff. exists j. split; [exact en|]. apply (ends_of p j hp').
      * unfold joint_names. now rewrite map_length.
    + rewrite ev. now split.
    + now rewrite ev.
    + rewrite ev. unfold after_roundings. cbn [pow]. lra.
Qed.
End Tree.

Definition known_types (D : doc) : Prop := forall j, In j (joints D) -> type_of (j_type j) <> None.
Lemma sf_fstep : forall D j D', sf_finish D j = Ok D' -> fstep D j D'.
Proof.
  intros D j D' e. unfold sf_finish in e. unfold fstep. destruct (type_of (j_type j)) as [[]|]; try discriminate; try (injection e as <-; auto). auto.
Qed.
Lemma mm_fstep : forall (v : doc * list string) j v', mm_finish v j = Ok v' -> fstep (fst v) j (fst v').
Proof.
  intros [D l] j [D' l'] e. unfold mm_finish in e. unfold fstep. cbn [fst snd] in *.
  destruct (type_of (j_type j)) as [[]|]; try discriminate;
    try (destruct (find_link D (j_child j)) as [c|]; [|discriminate]; destruct (l_inertial c); injection e as <- <-; auto).
  destruct (squash_joint D j) as [D1| | |]; try discriminate. cbn in e. injection e as <- <-. auto.
Qed.
Lemma known_upd : forall (D : doc) n, known_types D -> known_types (upd_joint D n (fun k => set_type k "fixed"%string)).
Proof.
  intros D n h j hj. unfold joints, upd_joint in hj. apply in_flat_map in hj. destruct hj as [e [he hj]].
  apply in_map_iff in he. destruct he as [e0 [ee he]]. subst e. destruct e0 as [l|k|s]; cbn in hj; try contradiction.
  destruct (j_name k =? n)%string; destruct hj as [<-|[]]; [discriminate|]. apply h. apply in_flat_map. exists (EJoint k). split; [exact he|now left].
Qed.
Lemma known_step : forall D j D', known_types D -> fstep D j D' -> known_types D'.
Proof.
  intros D j D' h [e|[->| ->]]; [|exact h|now apply known_upd]. destruct (squash_shape _ _ _ e) as [e1 _]. unfold known_types. now rewrite e1.
Qed.

Lemma trav_total : forall t : tree f64, sound t -> forall V (vd : V -> doc) fin v,
  (forall v j v', fin v j = Ok v' -> fstep (vd v) j (vd v')) ->
  (forall v j D', type_of (j_type j) <> None -> squash_joint (vd v) j = Ok D' -> (exists c, find_link (vd v) (j_child j) = Some c) -> exists v', fin v j = Ok v') ->
  vd v = t_doc t -> known_types (t_doc t) ->
  exists v', traverse_joints t vd (fun v _ => Ok (v, true)) fin v = Ok v'.
Proof.
  intros t hs V vd fin v hf htot ev hk. unfold traverse_joints.
  assert (H : exists v', walk_joint vd (fun v _ => Ok (v, true)) fin (Datatypes.S (length (joints (t_doc t)))) (t_ix t) (t_root t) v = Ok v'
     /\ (like t (vd v') /\ known_types (vd v'))).
  { refine (walk_total t _ vd (fun v _ => Ok (v, true)) fin hs (fun _ v => like t (vd v) /\ known_types (vd v))
      _ _ _ (Datatypes.S (length (joints (t_doc t)))) nil (t_root t) v _ _ _); [| | |constructor|cbn; lia|rewrite ev; now repeat split].
    - intros p x [[h _] _]. exact h.
    - intros p x j j' _ h _ _. exists x, true. now split.
    - intros p x j j' hp [h1 h2] hj' en. destruct (merge_at t hs (vd x) p j j' h1 hp hj' en) as [D' [e _]].
      destruct (htot x j' D') as [x' e']; [now apply h2|exact e| |].
      { unfold squash_joint in e. destruct (find_link (vd x) (j_child j')) as [c|]; [now exists c|discriminate]. }
      exists x'. split; [exact e'|]. pose proof (hf _ _ _ e') as fs. split; [now apply (like_step t _ _ _ h1 fs)|now apply (known_step _ _ _ h2 fs)]. }
  destruct H as [v' [e _]]. now exists v'.
Qed.
End Doc.

Lemma C80_fixed_joints_proof : forall (L : libm64) (t : tree f64), sound t ->
  (forall j, In j (joints (t_doc t)) -> type_of (j_type j) <> None) ->
  let n := length (joints (t_doc t)) in
  proper_masses (t_doc t) -> (1 + u) ^ n * exact_mass (t_doc t) <= bpow radix2 1022 ->
  exists t', @squashFixedJointsMass f64 (F64Scalar L) t = Ok t' /\ proper_masses (t_doc t') /\
    after_roundings n (exact_mass (t_doc t)) (exact_mass (t_doc t')).
Proof.
  intros L t hs hk n hp hb.
  destruct (trav_total L t hs doc (fun D => D) (@sf_finish f64 (F64Scalar L)) (t_doc t)) as [D e]; try assumption; [apply sf_fstep| |reflexivity|].
  { intros D j D' h1 h2 _. unfold sf_finish. destruct (type_of (j_type j)) as [[]|]; try contradiction; eauto. }
  unfold squashFixedJointsMass. rewrite e. cbn [rbind]. eexists. split; [reflexivity|]. cbn [t_doc].
  apply (trav_mass L t hs (fun D => D) (@sf_finish f64 (F64Scalar L)) (t_doc t)); try assumption; [apply sf_fstep|reflexivity].
Qed.


Lemma C80_massless_joints_proof : forall (L : libm64) (t : tree f64), sound t ->
  (forall j, In j (joints (t_doc t)) -> type_of (j_type j) <> None) ->
  let n := length (joints (t_doc t)) in
  proper_masses (t_doc t) -> (1 + u) ^ n * exact_mass (t_doc t) <= bpow radix2 1022 ->
  exists t' names, @makeMasslessJointsFixed f64 (F64Scalar L) t = Ok (t', names) /\ proper_masses (t_doc t') /\
    after_roundings n (exact_mass (t_doc t)) (exact_mass (t_doc t')).
Proof.
  intros L t hs hk n hp hb.
  destruct (trav_total L t hs (doc * list string) fst (@mm_finish f64 (F64Scalar L)) (t_doc t, nil)) as [v e]; try assumption; [apply mm_fstep| |reflexivity|].
  { intros [D l] j D' h1 h2 [c hc]. unfold mm_finish. cbn [fst snd] in *. unfold S64m in h2. rewrite hc.
    destruct (type_of (j_type j)) as [[]|]; try contradiction; rewrite ?h2; cbn [rbind]; destruct (l_inertial c); eauto. }
  unfold makeMasslessJointsFixed. rewrite e. cbn [rbind]. eexists _, _. split; [reflexivity|]. cbn [t_doc].
  apply (trav_mass L t hs fst (@mm_finish f64 (F64Scalar L)) (t_doc t, nil)); try assumption; [apply mm_fstep|reflexivity].
Qed.


(** ** Centres *)
Lemma quot_err : forall s mc M c X e, 0 < M -> 0 <= X -> 0 <= e -> Rabs c <= X ->
  Rabs (s - M * c) <= 21 / 10 * u64 * (M * X) + 3 * e -> Rabs (mc - M) <= u64 * M ->
  0 < mc /\ Rabs (s / mc - c) <= 32 / 10 * u64 * X + 4 * (e / M).
Proof.
  intros s mc M c X e hM hX he hc hs hm.
  assert (m1 : (1 - u64) * M <= mc <= (1 + u64) * M) by (apply Rabs_le_inv in hm; lra).
  assert (mp : 0 < mc) by (unfold u64 in m1; lra). split; [exact mp|].
  assert (hd : Rabs (s - mc * c) <= 31 / 10 * u64 * (M * X) + 3 * e).
  { replace (s - mc * c) with ((s - M * c) + - ((mc - M) * c)) by ring. apply Rle_trans with (1 := Rabs_triang _ _).
    rewrite Rabs_Ropp, Rabs_mult.
    assert (Rabs (mc - M) * Rabs c <= u64 * M * X) by (apply Rmult_le_compat; try apply Rabs_pos; assumption). lra. }
  replace (s / mc - c) with ((s - mc * c) / mc) by (field; lra).
  unfold Rdiv at 1. rewrite Rabs_mult, Rabs_inv, (Rabs_pos_eq mc) by lra.
  apply Rmult_le_reg_r with mc; [exact mp|]. rewrite Rmult_assoc, Rinv_l, Rmult_1_r by lra.
  apply Rle_trans with (1 := hd).
  assert (hq : 0 <= e / M) by (apply Rmult_le_pos; [exact he|left; now apply Rinv_0_lt_compat]).
  assert (hp : 0 <= M * X) by (apply Rmult_le_pos; lra).
  apply Rle_trans with ((32 / 10 * u64 * X + 4 * (e / M)) * ((1 - u64) * M)).
  - replace ((32 / 10 * u64 * X + 4 * (e / M)) * ((1 - u64) * M))
      with ((1 - u64) * (32 / 10 * u64 * (M * X)) + 4 * (1 - u64) * (e / M * M)) by ring.
    replace (e / M * M) with e by (field; lra). unfold u64. lra.
  - apply Rmult_le_compat_l; [|lra]. unfold u64. lra.
Qed.

Lemma two_products : forall p q s a b X tx M, 0 <= a -> 0 <= b -> M = a + b -> 0 <= X -> 0 <= tx ->
  forall xa xb, Rabs xa <= X -> Rabs xb <= X ->
  Rabs (p - a * xa) <= u64 * Rabs (a * xa) + tx -> Rabs (q - b * xb) <= u64 * Rabs (b * xb) + tx ->
  Rabs (s - (p + q)) <= u64 * Rabs (p + q) ->
  Rabs (s - (a * xa + b * xb)) <= 21 / 10 * u64 * (M * X) + 3 * tx.
Proof.
  intros p q s a b X tx M ha hb -> hX ht xa xb hxa hxb h1 h2 h3. rewrite Rabs_mult in h1, h2. rewrite (Rabs_pos_eq a) in h1 by lra. rewrite (Rabs_pos_eq b) in h2 by lra.
  assert (k1 : Rabs (a * xa) <= a * X) by (rewrite Rabs_mult, (Rabs_pos_eq a) by lra; now apply Rmult_le_compat_l).
  assert (k2 : Rabs (b * xb) <= b * X) by (rewrite Rabs_mult, (Rabs_pos_eq b) by lra; now apply Rmult_le_compat_l).
  assert (j1 : a * Rabs xa <= a * X) by now apply Rmult_le_compat_l.
  assert (j2 : b * Rabs xb <= b * X) by now apply Rmult_le_compat_l.
  set (P := a * X) in *. set (Q := b * X) in *. replace ((a + b) * X) with (P + Q) by (unfold P, Q; ring).
  assert (0 <= P) by (unfold P; now apply Rmult_le_pos). assert (0 <= Q) by (unfold Q; now apply Rmult_le_pos).
  assert (hpq : Rabs (p + q) <= (1 + u64) * (P + Q) + 2 * tx).
  { apply Rabs_le_inv in h1, h2, k1, k2. apply Rabs_le. unfold u64 in *. lra. }
  set (A := a * xa) in *. set (B := b * xb) in *. clearbody A B P Q.
  apply Rabs_le_inv in h1, h2, h3. apply Rabs_le. unfold u64 in *. lra.
Qed.

Lemma huge_800 : bpow radix2 400 * bpow radix2 400 <= huge64.
Proof. rewrite <- bpow_plus. apply bpow_le. lia. Qed.
Lemma big_400 : 1000000 <= bpow radix2 400 /\ 100 * bpow radix2 800 <= huge64.
Proof.
  split.
  - apply Rle_trans with (bpow radix2 30); [cbn; lra|apply bpow_le; lia].
  - apply Rle_trans with (bpow radix2 7 * bpow radix2 800); [apply Rmult_le_compat_r; [apply bpow_ge_0|cbn; lra]|].
    rewrite <- bpow_plus. apply bpow_le. lia.
Qed.
Lemma small_675 : forall M, bpow radix2 (-400) <= M -> 0 <= tiny64 / M <= bpow radix2 (-675).
Proof.
  intros M h. pose proof (bpow_gt_0 radix2 (-400)) as hp. pose proof tiny64_pos as tp. split.
  - apply Rmult_le_pos; [lra|]. left. apply Rinv_0_lt_compat. lra.
  - apply Rmult_le_reg_r with M; [lra|]. unfold Rdiv. rewrite Rmult_assoc, Rinv_l, Rmult_1_r by lra.
    apply Rle_trans with (bpow radix2 (-675) * bpow radix2 (-400)); [|apply Rmult_le_compat_l; [apply bpow_ge_0|exact h]].
    rewrite <- bpow_plus. apply Rle_refl.
Qed.
Lemma eps_675 : 6 * bpow radix2 (-675) <= bpow radix2 (-600) /\ tiny64 <= bpow radix2 (-675).
Proof.
  split.
  - apply Rle_trans with (bpow radix2 3 * bpow radix2 (-675)); [apply Rmult_le_compat_r; [apply bpow_ge_0|cbn; lra]|].
    rewrite <- bpow_plus. apply bpow_le. lia.
  - apply bpow_le. lia.
Qed.

Lemma axis_centre : forall (ma mb xa xb : f64) X, is_finite ma = true -> is_finite mb = true -> is_finite xa = true -> is_finite xb = true ->
  0 <= v64 ma -> 0 <= v64 mb -> bpow radix2 (-400) <= v64 ma + v64 mb <= bpow radix2 400 -> X <= bpow radix2 400 ->
  Rabs (v64 xa) <= X -> Rabs (v64 xb) <= X ->
  let c := Bdiv mode_NE (Bplus mode_NE (Bmult mode_NE ma xa) (Bmult mode_NE mb xb)) (Bplus mode_NE ma mb) in
  is_finite c = true /\ Rabs (v64 c - centre (v64 ma) (v64 xa) (v64 mb) (v64 xb)) <= 5 * u64 * X + bpow radix2 (-600).
Proof.
  intros ma mb xa xb X fa fb fxa fxb ga gb [hM1 hM2] hX hxa hxb c. unfold c. clear c.
  pose proof (bpow_gt_0 radix2 (-400)) as hp. pose proof tiny64_pos as tp. destruct big_400 as [b1 b2]. destruct eps_675 as [e1 e2].
  pose proof tiny64_small as ts. pose proof huge64_big as hb. pose proof huge64_pos as hhp.
  assert (hX0 : 0 <= X) by (apply Rle_trans with (2 := hxa); apply Rabs_pos).
  assert (b8 : bpow radix2 400 * bpow radix2 400 = bpow radix2 800) by (rewrite <- bpow_plus; reflexivity).
  assert (pa : Rabs (v64 ma * v64 xa) <= bpow radix2 800).
  { rewrite Rabs_mult, (Rabs_pos_eq (v64 ma)) by lra. rewrite <- b8. apply Rmult_le_compat; try apply Rabs_pos; lra. }
  assert (pb : Rabs (v64 mb * v64 xb) <= bpow radix2 800).
  { rewrite Rabs_mult, (Rabs_pos_eq (v64 mb)) by lra. rewrite <- b8. apply Rmult_le_compat; try apply Rabs_pos; lra. }
  assert (b48 : bpow radix2 400 <= bpow radix2 800) by (apply bpow_le; lia).
  destruct (mul64_rd ma xa fa fxa) as [f1 v1]; [lra|]. destruct (mul64_rd mb xb fb fxb) as [f2 v2]; [lra|].
  pose proof (rd64_err (v64 ma * v64 xa)) as r1. rewrite <- v1 in r1. pose proof (rd64_err (v64 mb * v64 xb)) as r2. rewrite <- v2 in r2.
  set (P := Bmult mode_NE ma xa) in *. set (Q := Bmult mode_NE mb xb) in *. clearbody P Q. clear v1 v2.
  destruct (add64_rel P Q f1 f2) as [f3 r3].
  { apply Rle_trans with (1 := Rabs_triang _ _).
    assert (Rabs (v64 P) <= 3 * bpow radix2 800) by (apply Rabs_le_inv in pa; apply Rabs_le_inv in r1; apply Rabs_le; unfold u64 in r1;
      assert (Rabs (v64 ma * v64 xa) <= bpow radix2 800) by (apply Rabs_le; lra); lra).
    assert (Rabs (v64 Q) <= 3 * bpow radix2 800) by (apply Rabs_le_inv in pb; apply Rabs_le_inv in r2; apply Rabs_le; unfold u64 in r2;
      assert (Rabs (v64 mb * v64 xb) <= bpow radix2 800) by (apply Rabs_le; lra); lra). lra. }
  destruct (add64_rel ma mb fa fb) as [f4 r4]; [rewrite Rabs_pos_eq by lra; lra|]. rewrite (Rabs_pos_eq (v64 ma + v64 mb)) in r4 by lra.
  pose proof (two_products (v64 P) (v64 Q) _ (v64 ma) (v64 mb) X tiny64 _ ga gb eq_refl hX0 (Rlt_le _ _ tp) (v64 xa) (v64 xb) hxa hxb r1 r2 r3) as r5.
  set (s := Bplus mode_NE P Q) in *. set (m := Bplus mode_NE ma mb) in *. clearbody s m.
  set (M := v64 ma + v64 mb) in *. assert (hM : 0 < M) by lra.
  assert (hc : Rabs (centre (v64 ma) (v64 xa) (v64 mb) (v64 xb)) <= X).
  { unfold centre. fold M. unfold Rdiv. rewrite Rabs_mult, Rabs_inv, (Rabs_pos_eq M) by lra.
    apply Rmult_le_reg_r with M; [exact hM|]. rewrite Rmult_assoc, Rinv_l, Rmult_1_r by lra.
    apply Rle_trans with (1 := Rabs_triang _ _). rewrite !Rabs_mult, (Rabs_pos_eq (v64 ma)), (Rabs_pos_eq (v64 mb)) by lra.
    assert (v64 ma * Rabs (v64 xa) <= v64 ma * X) by now apply Rmult_le_compat_l.
    assert (v64 mb * Rabs (v64 xb) <= v64 mb * X) by now apply Rmult_le_compat_l.
    replace (X * M) with (v64 ma * X + v64 mb * X) by (unfold M; ring). lra. }
  assert (r5' : Rabs (v64 s - M * centre (v64 ma) (v64 xa) (v64 mb) (v64 xb)) <= 21 / 10 * u64 * (M * X) + 3 * tiny64).
  { replace (M * centre (v64 ma) (v64 xa) (v64 mb) (v64 xb)) with (v64 ma * v64 xa + v64 mb * v64 xb) by (unfold centre, M in *; field; lra). exact r5. }
  destruct (quot_err (v64 s) (v64 m) M _ X tiny64 hM hX0 (Rlt_le _ _ tp) hc r5' r4) as [mp r6].
  destruct (small_675 M hM1) as [q1 q2].
  set (C := centre (v64 ma) (v64 xa) (v64 mb) (v64 xb)) in *. clearbody C.
  assert (hq : Rabs (v64 s / v64 m) <= X + 32 / 10 * u64 * X + 4 * (tiny64 / M)).
  { replace (v64 s / v64 m) with (C + (v64 s / v64 m - C)) by ring. apply Rle_trans with (1 := Rabs_triang _ _). lra. }
  assert (b6 : bpow radix2 (-675) <= 1) by (change 1 with (bpow radix2 0); apply bpow_le; lia).
  destruct (div64_rd s m f3 f4) as [f5 v5]; [lra|unfold u64 in hq; lra|]. split; [exact f5|]. rewrite v5.
  pose proof (rd64_err (v64 s / v64 m)) as r7. set (w := v64 s / v64 m) in *. clearbody w.
  assert (r8 : u64 * Rabs w <= u64 * (X + 32 / 10 * u64 * X + 4 * (tiny64 / M))) by (apply Rmult_le_compat_l; [unfold u64; lra|exact hq]).
  apply Rabs_le_inv in r6. apply Rabs_le_inv in r7. apply Rabs_le. unfold u64 in *. lra.
Qed.

Lemma C80_centre_proof : forall (L : libm64) (ma mb : f64) (A B : Transform f64) (Ia Ib : Mat3 f64) (X : R),
  is_finite ma = true -> is_finite mb = true -> 0 <= B2R ma -> 0 <= B2R mb ->
  bpow radix2 (-400) <= B2R ma + B2R mb <= bpow radix2 400 -> X <= bpow radix2 400 ->
  (forall x, In x [t_r1c4 A; t_r2c4 A; t_r3c4 A; t_r1c4 B; t_r2c4 B; t_r3c4 B] -> is_finite x = true /\ Rabs (B2R x) <= X) ->
  let '(m, C, _) := @squashInertial f64 (F64Scalar L) ma A Ia mb B Ib in
  (is_finite m = true /\ after_roundings 1 (B2R ma + B2R mb) (B2R m)) /\
  let close x xa xb := is_finite x = true /\
    Rabs (B2R x - centre (B2R ma) (B2R xa) (B2R mb) (B2R xb)) <= 5 * u * X + bpow radix2 (-600) in
  close (t_r1c4 C) (t_r1c4 A) (t_r1c4 B) /\ close (t_r2c4 C) (t_r2c4 A) (t_r2c4 B) /\ close (t_r3c4 C) (t_r3c4 A) (t_r3c4 B).
Proof.
  intros L ma mb A B Ia Ib X fa fb ga gb hM hX hx. unfold squashInertial. cbv beta iota zeta. split.
  - pose proof (bpow_gt_0 radix2 (-400)) as hp. destruct big_400 as [b1 b2].
    assert (b48 : bpow radix2 400 <= bpow radix2 800) by (apply bpow_le; lia).
    destruct (add64_rel ma mb fa fb) as [f4 r4]; [rewrite Rabs_pos_eq by lra; lra|]. rewrite (Rabs_pos_eq (v64 ma + v64 mb)) in r4 by lra.
    split; [exact f4|]. unfold after_roundings. cbn [pow]. rewrite u_u64. cbn [s_add F64Scalar].
    set (m := Bplus mode_NE ma mb) in *. clearbody m. apply Rabs_le_inv in r4. lra.
  - rewrite u_u64. cbn [of_parts translation a0 a1 a2 fst snd t_r1c4 t_r2c4 t_r3c4 s_add s_mul s_div F64Scalar].
    split; [|split]; apply axis_centre; try assumption; apply hx; cbn [In]; tauto.
Qed.

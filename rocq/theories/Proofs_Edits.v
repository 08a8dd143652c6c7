(** * Lemmas for Props_Edits *)

From Coq Require Import String List Bool Relations Permutation Lia Arith ZArith Reals Lra.
Import ListNotations.
From Verif Require Import Scalar RInst RLemmas Model_Base Model_Vec Model_Rigid Model_Average Model_Pose Model_Urdf Model_Squash
  Spec_Geom Spec_Average Spec_Pose Spec_Urdf Spec_Reroot Spec_Squash Spec_Edits
  Proofs_Urdf Proofs_Walk Proofs_Reroot Proofs_Squash.
From Verif Require Props_Urdf Props_Squash.
Local Open Scope R_scope.

(** ** Documents that differ by the contents of their elements *)

Definition el (e e' : elem R) : Prop :=
  match e, e' with
  | EJoint j, EJoint j' => j_name j = j_name j' /\ j_mimic j = j_mimic j' /\ j_parent j = j_parent j' /\ j_child j = j_child j'
  | ELink l, ELink l' => l_name l = l_name l'
  | EOther s, EOther s' => s = s'
  | _, _ => False
  end.

Lemma el_refl : forall e, el e e.
Proof. intros [l|j|s]; cbn; auto. Qed.
Lemma el_trans : forall a b c, el a b -> el b c -> el a c.
Proof.
  intros [l|j|s] [l'|j'|s'] [l''|j''|s'']; cbn; try contradiction; try congruence.
  intros [h1 [h2 [h3 h4]]] [h5 [h6 [h7 h8]]]. repeat split; congruence.
Qed.
Lemma F2el_refl : forall d, Forall2 el d d.
Proof. induction d as [|e d IH]; constructor; [apply el_refl|assumption]. Qed.
Lemma F2el_trans : forall a b c, Forall2 el a b -> Forall2 el b c -> Forall2 el a c.
Proof. intros a b c h1 h2. exact (F2_trans el el el a b c h1 h2 el_trans). Qed.

Lemma kept_trans : forall a b c, kept a b -> kept b c -> kept a c.
Proof.
  intros a b c h. revert c. induction h as [|j j' d d' h IH h1 h2 h3|l l' d d' h IH h1|s d d' h IH|j d d' h IH|l d d' h IH]; intros c hc.
  - assumption.
  - inversion hc as [|k k' e e' g g1 g2 g3| | |k e e' g|]; subst.
    + constructor; [now apply IH|congruence|congruence|]. destruct h3 as [[]|[]], g3 as [[]|[]]; [left|right|right|left]; split; congruence.
    + apply drop_joint. now apply IH.
  - inversion hc as [| |k k' e e' g g1| | |k e e' g]; subst.
    + constructor; [now apply IH|congruence].
    + apply drop_link. now apply IH.
  - inversion hc as [| | |s' e e' g| |]; subst. constructor. now apply IH.
  - apply drop_joint. now apply IH.
  - apply drop_link. now apply IH.
Qed.
Lemma el_kept : forall d d', Forall2 el d d' -> kept d d'.
Proof.
  intros d d' h. induction h as [|e e' d d' he h IH]; [constructor|].
  destruct e as [l|j|s], e' as [l'|j'|s']; cbn in he; try contradiction.
  - now constructor.
  - destruct he as [h1 [h2 [h3 h4]]]. constructor; auto.
  - subst s'. now constructor.
Qed.
Lemma kept_filter : forall f d, (forall s, f (EOther s) = true) -> kept d (filter f d).
Proof.
  intros f d hf. induction d as [|e d IH]; [constructor|]. cbn [filter].
  destruct e as [l|j|s]; [destruct (f (ELink l))|destruct (f (EJoint j))|rewrite hf].
  - constructor; auto.
  - now apply drop_link.
  - constructor; auto.
  - now apply drop_joint.
  - now constructor.
Qed.
Lemma se_kept : forall d d', Forall2 same_element d d' -> kept d d'.
Proof.
  intros d d' h. induction h as [|e e' d d' he h IH]; [constructor|].
  destruct e as [l|j|s], e' as [l'|j'|s']; cbn in he; try contradiction.
  - now constructor.
  - destruct he as [h1 [h2 [h3 h4]]]. constructor; auto.
  - subst s'. now constructor.
Qed.

Lemma F2_joints : forall d d', Forall2 el d d' ->
  Forall2 (fun j j' => j_name j = j_name j' /\ j_mimic j = j_mimic j' /\ j_parent j = j_parent j' /\ j_child j = j_child j') (joints d) (joints d').
Proof.
  intros d d' h. induction h as [|e e' d d' he h IH]; [constructor|].
  destruct e as [l|j|s], e' as [l'|j'|s']; cbn in he; try contradiction; cbn [joints flat_map app]; try exact IH.
  constructor; assumption.
Qed.
Lemma F2_links : forall d d', Forall2 el d d' -> link_names d = link_names d'.
Proof.
  intros d d' h. unfold link_names. induction h as [|e e' d d' he h IH]; [reflexivity|].
  destruct e as [l|j|s], e' as [l'|j'|s']; cbn in he; try contradiction; cbn [links flat_map app map]; try exact IH.
  rewrite he. f_equal. exact IH.
Qed.
Lemma F2_maps : forall {A} (f : Joint R -> A) d d', Forall2 el d d' ->
  (forall j j', j_name j = j_name j' -> j_parent j = j_parent j' -> j_child j = j_child j' -> f j = f j') ->
  map f (joints d) = map f (joints d').
Proof.
  intros A f d d' h hf. apply F2_joints in h. induction h as [|j j' l l' [h1 [h2 [h3 h4]]] h IH]; [reflexivity|].
  cbn. now rewrite IH, (hf j j').
Qed.
Lemma el_sg : forall d d', Forall2 el d d' -> same_graph d d'.
Proof. intros d d' h. apply F2_maps; [assumption|]. intros. congruence. Qed.

Lemma el_path : forall d d' r p l, Forall2 el d d' -> path d r p l -> exists p', path d' r p' l.
Proof.
  intros d d' r p l h hp. induction hp as [|p j hp [p' IH] hj]; [exists nil; constructor|].
  destruct (F2_in _ _ _ (F2_joints _ _ h) j hj) as [j' [hj' [h1 [h2 [h3 h4]]]]].
  exists (p' ++ [j']). rewrite h4. constructor; [now rewrite <- h3|assumption].
Qed.

Lemma el_sound : forall (t : tree R) d', sound t -> Forall2 el (t_doc t) d' -> sound (mkTree d' (t_ix t) (t_root t)).
Proof.
  intros t d' hs h. destruct (sd_doc t hs) as [w1 w2 w3 w4].
  assert (en : joint_names d' = joint_names (t_doc t)) by (symmetry; apply F2_maps; [assumption|]; auto).
  assert (ec : map (@j_child R) (joints d') = map (@j_child R) (joints (t_doc t))) by (symmetry; apply F2_maps; [assumption|]; auto).
  assert (el' : link_names d' = link_names (t_doc t)) by (symmetry; now apply F2_links).
  constructor; cbn [t_doc t_ix t_root].
  - constructor; [now rewrite el'|now rewrite en|now rewrite ec|].
    intros j hj. destruct (F2_in' _ _ _ (F2_joints _ _ h) j hj) as [k [hk [h1 [h2 [h3 h4]]]]]. rewrite el', <- h3, <- h4. now apply w4.
  - intros r. rewrite <- (sd_root t hs r). unfold is_root. rewrite el'. split; intros [h1 h2]; (split; [assumption|]); intros j hj.
    + destruct (F2_in _ _ _ (F2_joints _ _ h) j hj) as [k [hk [_ [_ [_ h4]]]]]. rewrite h4. now apply h2.
    + destruct (F2_in' _ _ _ (F2_joints _ _ h) j hj) as [k [hk [_ [_ [_ h4]]]]]. rewrite <- h4. now apply h2.
  - rewrite en. apply (sd_index t hs).
Qed.

Lemma el_connected : forall d d' r, Forall2 el d d' -> connected d r -> connected d' r.
Proof.
  intros d d' r h hc l hl. rewrite <- (F2_links _ _ h) in hl. destruct (hc l hl) as [p hp]. now apply (el_path d d' r p).
Qed.

Lemma el_upd_joint : forall (d : list (elem R)) n f, (forall j, el (EJoint j) (EJoint (f j))) -> Forall2 el d (upd_joint d n f).
Proof.
  intros d n f hf. induction d as [|e d IH]; [constructor|]. constructor; [|exact IH].
  destruct e as [l|j|s]; try apply el_refl. destruct (j_name j =? n)%string; [apply hf|apply el_refl].
Qed.
Lemma el_set_type : forall j s, el (EJoint j) (EJoint (set_type j s)).
Proof. intros. cbn. auto. Qed.
Lemma el_upd_link : forall (d : list (elem R)) n i, Forall2 el d (upd_link d n (set_inertial i)).
Proof.
  intros d n i. induction d as [|e d IH]; [constructor|]. constructor; [|exact IH].
  destruct e as [l|j|s]; try apply el_refl. destruct (l_name l =? n)%string; [reflexivity|apply el_refl].
Qed.
Lemma el_squash : forall (d : list (elem R)) j d', squash_joint d j = Ok d' -> Forall2 el d d'.
Proof.
  intros d j d' h. unfold squash_joint in h. destruct (find_link d (j_child j)) as [c|]; [|discriminate].
  destruct (l_inertial c) as [ci|]; [|injection h as <-; apply F2el_refl].
  destruct (find_link d (j_parent j)) as [p|]; [|discriminate]. injection h as <-.
  eapply F2el_trans; apply el_upd_link.
Qed.

(** ** Traversals that edit the document *)

Lemma runs_el : forall {V} (doc : V -> list (elem R)) disc fin,
  (forall u j u' b, disc u j = Ok (u', b) -> Forall2 el (doc u) (doc u')) ->
  (forall u j u', fin u j = Ok u' -> Forall2 el (doc u) (doc u')) ->
  forall v h v', runs doc disc fin v h v' -> Forall2 el (doc v) (doc v').
Proof.
  intros V doc disc fin hd hf v h v' r. induction r as [v|v n j v1 b h v' _ _ e r IH|v n j v1 h v' _ _ e r IH].
  - apply F2el_refl.
  - apply F2el_trans with (doc v1); [now apply (hd v j v1 b)|assumption].
  - apply F2el_trans with (doc v1); [now apply (hf v j v1)|assumption].
Qed.
Lemma sg_el : forall (d : list (elem R)) u u', Forall2 el u u' -> same_graph d u -> same_graph d u'.
Proof. intros d u u' h h1. apply (sg_trans d u u' h1). now apply el_sg. Qed.

Lemma walk_el : forall {V} (t : tree R) (doc : V -> list (elem R)) disc fin v v', sound t -> doc v = t_doc t ->
  (forall u j u' b, disc u j = Ok (u', b) -> Forall2 el (doc u) (doc u')) ->
  (forall u j u', fin u j = Ok u' -> Forall2 el (doc u) (doc u')) ->
  traverse_joints t doc disc fin v = Ok v' -> Forall2 el (t_doc t) (doc v').
Proof.
  intros V t doc disc fin v v' hs e hd hf h.
  destruct (C46_once_proof t doc disc fin v v' hs) as [hh [r _]].
  - intros u j u' b h1 h2. apply (sg_el _ (doc u)); [now apply (hd u j u' b)|assumption].
  - intros u j u' h1 h2. apply (sg_el _ (doc u)); [now apply (hf u j u')|assumption].
  - rewrite e. apply sg_refl.
  - assumption.
  - rewrite <- e. now apply (runs_el doc disc fin hd hf v hh v').
Qed.
(** A traversal whose calls return or throw returns or throws. *)
Lemma walk_or_throw : forall {V} (t : tree R) (doc : V -> list (elem R)) disc fin v, sound t -> doc v = t_doc t ->
  (forall u j u' b, disc u j = Ok (u', b) -> Forall2 el (doc u) (doc u')) ->
  (forall u j u', fin u j = Ok u' -> Forall2 el (doc u) (doc u')) ->
  (forall u j, (exists x, disc u j = Ok x) \/ disc u j = Throw) ->
  (forall u j, (exists x, fin u j = Ok x) \/ fin u j = Throw) ->
  (exists v', traverse_joints t doc disc fin v = Ok v') \/ traverse_joints t doc disc fin v = Throw.
Proof.
  intros V t doc disc fin v hs e hd hf od off.
  destruct (C46_ends_proof t doc disc fin v hs) as [h|[h [v1 [j [_ [_ [[h1 h2]|[h1 h2]]]]]]]].
  - intros u j u' b h1 h2. apply (sg_el _ (doc u)); [now apply (hd u j u' b)|assumption].
  - intros u j u' h1 h2. apply (sg_el _ (doc u)); [now apply (hf u j u')|assumption].
  - rewrite e. apply sg_refl.
  - now left.
  - right. destruct (od v1 j) as [[x hx]|hx]; [now apply h1 in hx|]. rewrite hx in h2.
    destruct (traverse_joints t doc disc fin v); cbn in h2; congruence.
  - right. destruct (off v1 j) as [[x hx]|hx]; [now apply h1 in hx|]. rewrite hx in h2.
    destruct (traverse_joints t doc disc fin v); cbn in h2; congruence.
Qed.

Lemma mcf_el : forall (u : list (elem R) * list string) j u' b, mcf_discover u j = Ok (u', b) -> Forall2 el (fst u) (fst u').
Proof.
  intros u j u' b h. unfold mcf_discover in h. destruct (type_of (j_type j)) as [[]|]; try discriminate; injection h as <- _; cbn [fst]; try apply F2el_refl.
  apply el_upd_joint. intros. apply el_set_type.
Qed.
Lemma sf_el : forall (u : list (elem R)) j u', sf_finish u j = Ok u' -> Forall2 el u u'.
Proof.
  intros u j u' h. unfold sf_finish in h. destruct (type_of (j_type j)) as [[]|]; try discriminate; try (injection h as <-; apply F2el_refl).
  now apply el_squash in h.
Qed.
Lemma mm_el : forall (u : list (elem R) * list string) j u', mm_finish u j = Ok u' -> Forall2 el (fst u) (fst u').
Proof.
  assert (hx : forall (u : list (elem R) * list string) (j : Joint R) u',
    (match find_link (fst u) (j_child j) with
     | None => Throw
     | Some c => match l_inertial c with
                 | Some _ => Ok u
                 | None => Ok (upd_joint (fst u) (j_name j) (fun k => set_type k "fixed"), snd u ++ [j_name j])
                 end
     end) = Ok u' -> Forall2 el (fst u) (fst u')).
  { intros u j u' h. destruct (find_link (fst u) (j_child j)) as [c|]; [|discriminate].
    destruct (l_inertial c); injection h as <-; [apply F2el_refl|]. cbn [fst]. apply el_upd_joint. intros. apply el_set_type. }
  intros u j u' h. unfold mm_finish in h. destruct (type_of (j_type j)) as [[]|]; try discriminate; try (now apply (hx u j u')).
  destruct (squash_joint (fst u) j) as [d| | |] eqn:e; try discriminate. injection h as <-. now apply el_squash in e.
Qed.
Lemma squash_or : forall (d : list (elem R)) j, (exists x, squash_joint d j = Ok x) \/ squash_joint d j = Throw.
Proof.
  intros d j. unfold squash_joint. destruct (find_link d (j_child j)) as [c|]; [|now right].
  destruct (l_inertial c); [|left; eauto]. destruct (find_link d (j_parent j)); [left; eauto|now right].
Qed.

(** ** Removal of the root joint *)

Lemma rm_root_sound : forall t t' : tree R, sound t -> rm_root_joint t = Ok t' ->
  sound t' /\ exists j, In j (joints (t_doc t)) /\ j_parent j = t_root t /\
    t_doc t' = rm_joint (rm_link (t_doc t) (t_root t)) (j_name j) /\ t_root t' = j_child j /\
    (forall k, In k (joints (t_doc t)) -> j_parent k = t_root t -> k = j).
Proof.
  intros t t' hs h. unfold rm_root_joint in h. pose proof (sd_doc t hs) as w.
  destruct (resolve (t_doc t) (t_ix t) w (sd_index t hs)) as [js [hp [_ hc]]].
  rewrite hc in h. destruct (filter (fun j => (j_parent j =? t_root t)%string) js) as [|j [|? ?]] eqn:ef; try discriminate.
  cbn [map] in h. assert (hj : In j js /\ j_parent j = t_root t).
  { assert (hi : In j (filter (fun j => (j_parent j =? t_root t)%string) js)) by (rewrite ef; now left).
    apply filter_In in hi. now rewrite String.eqb_eq in hi. }
  destruct hj as [hj hpar]. apply (Permutation_in _ hp) in hj.
  assert (honly : forall k, In k (joints (t_doc t)) -> j_parent k = t_root t -> k = j).
  { intros k hk ek. assert (hi : In k (filter (fun j => (j_parent j =? t_root t)%string) js)).
    { apply filter_In. split; [now apply (Permutation_in _ (Permutation_sym hp))|now apply String.eqb_eq]. }
    rewrite ef in hi. destruct hi as [<-|[]]. reflexivity. }
  rewrite (proj2 (find_joint_iff _ _ _ w) (conj hj eq_refl)) in h.
  destruct (find_link (t_doc t) (t_root t)) as [rl|] eqn:er; [|discriminate]. injection h as <-.
  assert (hr : is_root (t_doc t) (t_root t)) by (now apply (sd_root t hs)).
  assert (jc : forall k, In k (joints (rm_joint (rm_link (t_doc t) (t_root t)) (j_name j))) <-> In k (joints (t_doc t)) /\ j_name k <> j_name j).
  { intros k. unfold rm_joint, rm_link. rewrite !joints_filter, !filter_In, negb_true_iff, String.eqb_neq. tauto. }
  assert (lc : forall l, In l (link_names (rm_joint (rm_link (t_doc t) (t_root t)) (j_name j))) <-> In l (link_names (t_doc t)) /\ l <> t_root t).
  { intros l. unfold link_names, rm_joint, rm_link. rewrite !links_filter, !in_map_iff. split.
    - intros [x [e h]]. rewrite !filter_In, negb_true_iff, String.eqb_neq in h. subst l. split; [exists x; tauto|tauto].
    - intros [[x [e h]] hn]. subst l. exists x. rewrite !filter_In, negb_true_iff, String.eqb_neq. tauto. }
  split; [|exists j; cbn [t_doc t_root]; tauto].
  constructor; cbn [t_doc t_ix t_root].
  - constructor.
    + unfold link_names, rm_link, rm_joint. rewrite !links_filter. do 2 apply NoDup_map_filter. apply (wc_links _ w).
    + unfold joint_names, rm_link, rm_joint. rewrite !joints_filter. do 2 apply NoDup_map_filter. apply (wc_joints _ w).
    + unfold rm_link, rm_joint. rewrite !joints_filter. do 2 apply NoDup_map_filter. apply (wc_children _ w).
    + intros k hk. apply jc in hk. destruct hk as [hk hne]. destruct (wc_ends _ w k hk) as [e1 e2].
      split; apply lc; (split; [assumption|]).
      * intros e. apply hne. f_equal. now apply honly.
      * now apply hr.
  - intros r. unfold is_root. rewrite lc. split.
    + intros [[h1 h2] h3]. destruct (string_dec r (j_child j)) as [e|ne]; [assumption|]. exfalso. apply h2. apply (sd_root t hs). split; [assumption|].
      intros k hk ek. destruct (string_dec (j_name k) (j_name j)) as [e|n].
      * assert (k = j) by (now apply (name_inj (t_doc t))). subst k. congruence.
      * apply (h3 k); [now apply jc|assumption].
    + intros ->. split; [split; [apply (wc_ends _ w j hj)|now apply hr]|].
      intros k hk ek. apply jc in hk. destruct hk as [hk hne]. apply hne. f_equal. now apply (child_inj (t_doc t)).
  - apply Permutation_trans with (filter (fun m => negb (m =? j_name j)%string) (joint_names (t_doc t))).
    + apply perm_filter. apply (sd_index t hs).
    + unfold joint_names, rm_link, rm_joint. rewrite !joints_filter.
      assert (e : forall l : list (Joint R), filter (fun _ => true) l = l).
      { induction l as [|a l IH]; [reflexivity|]. cbn. now rewrite IH. }
      rewrite e. clear. induction (joints (t_doc t)) as [|a l IH]; [constructor|]. cbn.
      destruct (negb (j_name a =? j_name j)%string); cbn; [now constructor|assumption].
Qed.

(** ** One edit *)

Lemma path_kept : forall (d d' : list (elem R)) r p l, path d r p l -> (forall k, In k p -> In k (joints d')) -> path d' r p l.
Proof.
  intros d d' r p l h. induction h as [|p j h IH hj]; intros hk; [constructor|].
  constructor; [apply IH; intros k h1; apply hk; apply in_or_app; now left|]. apply hk. apply in_or_app. right. now left.
Qed.

(** A joint of a path is its last or the parent of another. *)
Lemma path_next : forall (d : list (elem R)) r p l k, path d r p l -> In k p ->
  j_child k = l \/ exists k', In k' (joints d) /\ In k' p /\ j_parent k' = j_child k.
Proof.
  intros d r p l k h. induction h as [|p j h IH hj]; intros hk; [contradiction|].
  apply in_app_or in hk. destruct hk as [hk|[<-|[]]]; [|now left]. right.
  destruct (IH hk) as [e|[k' [h1 [h2 h3]]]].
  - exists j. split; [assumption|]. split; [apply in_or_app; right; now left|now symmetry].
  - exists k'. split; [assumption|]. split; [apply in_or_app; now left|assumption].
Qed.

Definition good (t t' : tree R) : Prop :=
  sound t' /\ kept (t_doc t) (t_doc t') /\ (connected (t_doc t) (t_root t) -> connected (t_doc t') (t_root t')).

Lemma good_el : forall (t : tree R) d', sound t -> Forall2 el (t_doc t) d' -> good t (mkTree d' (t_ix t) (t_root t)).
Proof.
  intros t d' hs h. split; [now apply el_sound|]. split; [now apply el_kept|]. now apply el_connected.
Qed.

Lemma good_root : forall t t', sound t -> rm_root_joint t = Ok t' -> good t t'.
Proof.
  intros t t' hs h. destruct (rm_root_sound t t' hs h) as [h1 [j [hj [hp [ed [er ho]]]]]].
  pose proof (sd_doc t hs) as w. assert (hr : is_root (t_doc t) (t_root t)) by (now apply (sd_root t hs)).
  split; [assumption|]. split.
  - rewrite ed. apply kept_trans with (rm_link (t_doc t) (t_root t)); apply kept_filter; reflexivity.
  - intros hc l hl. rewrite ed in hl |- *. rewrite er.
    assert (hl' : In l (link_names (t_doc t)) /\ l <> t_root t).
    { unfold link_names, rm_joint, rm_link in hl. rewrite !links_filter in hl. apply in_map_iff in hl. destruct hl as [x [<- hx]].
      rewrite !filter_In, negb_true_iff, String.eqb_neq in hx. unfold link_names. split; [apply in_map; tauto|tauto]. }
    destruct hl' as [hl1 hl2]. destruct (hc l hl1) as [p hpath]. destruct p as [|k p].
    + apply path_nil_inv in hpath. congruence.
    + destruct (path_tail _ _ _ _ _ hpath) as [ht [hk hkj]]. assert (k = j) by (now apply ho). subst k.
      exists p. apply path_kept with (t_doc t); [assumption|]. intros k hkp.
      assert (hkd : In k (joints (t_doc t))) by (apply (path_in _ _ _ _ _ ht hkp)).
      unfold rm_joint, rm_link. rewrite !joints_filter, !filter_In, negb_true_iff, String.eqb_neq. split; [split; [assumption|reflexivity]|].
      intros e. assert (k = j) by (now apply (name_inj (t_doc t))). subst k.
      assert (hnd : NoDup (j :: p)).
      { now apply (path_nodup (t_doc t) (t_root t) w hr _ l). }
      inversion hnd; contradiction.
Qed.

Lemma good_leaf : forall t n t', sound t -> rm_leaf_joint t n = Ok t' -> good t t'.
Proof.
  intros t n t' hs h. pose proof (sd_doc t hs) as w. pose proof h as h0. unfold rm_leaf_joint in h0.
  destruct (find_joint (t_doc t) n) as [j|] eqn:ej; [|discriminate].
  apply (find_joint_iff _ _ _ w) in ej. destruct ej as [hj <-].
  destruct (children (t_doc t) (t_ix t) (j_child j)) as [|] eqn:ec; [|discriminate].
  pose proof (proj1 (no_children _ _ (j_child j) w (sd_index t hs)) ec) as ec'. clear ec. rename ec' into ec.
  destruct (sound_cut t j hs hj ec) as [e hs']. rewrite e in h. injection h as <-.
  split; [assumption|]. cbn [t_doc t_root]. split.
  - unfold cut. apply kept_trans with (rm_joint (t_doc t) (j_name j)); apply kept_filter; reflexivity.
  - intros hc l hl. apply links_cut in hl. destruct hl as [hl1 hl2]. destruct (hc l hl1) as [p hp]. exists p.
    apply path_kept with (t_doc t); [assumption|]. intros k hk. apply joints_cut. pose proof (path_in _ _ _ _ _ hp hk) as hkd.
    split; [assumption|]. intros en. assert (k = j) by (now apply (name_inj (t_doc t))). subst k.
    destruct (path_next _ _ _ _ _ hp hk) as [el'|[k' [h1 [_ h2]]]]; [congruence|now apply (ec k')].
Qed.

Lemma good_define : forall t l t', sound t -> define_as_root_link t l = Ok t' -> good t t'.
Proof.
  intros t l t' hs h. destruct (C48_mechanism_proof t t' l hs h) as [h1 [h2 [h3 h4]]].
  split; [assumption|]. split; [now apply se_kept|]. intros hc n hn. rewrite h2.
  destruct (h4 (mkConfig (fun _ => 0) (fun _ v => v))) as [G [_ hG]].
  unfold link_names in hn. apply in_map_iff in hn. destruct hn as [x [<- hx]]. apply in_link_elem in hx.
  pose proof (F2_and _ _ _ _ h3 hG) as hF. destruct (F2_in' _ _ _ hF _ hx) as [e [he [hse hp]]].
  destruct e as [y|k|s]; cbn in hse; try contradiction.
  destruct (hc (l_name y)) as [p hpp]; [unfold link_names; apply in_map; now apply in_link_elem|].
  destruct (hp p hpp) as [p' [hp' _]]. now exists p'.
Qed.

Lemma good_remove : forall t pred t' names, sound t -> removeSubTreeIfJoint t pred = Ok (t', names) -> good t t'.
Proof.
  intros t pred t' names hs h. destruct (C47_removed_proof t pred hs) as [u [ns [e [_ [hn [hd [hr hs']]]]]]].
  rewrite e in h. injection h as <- <-. split; [assumption|]. rewrite hd, hr. split; [apply kept_filter; reflexivity|].
  pose proof (sd_doc t hs) as w. assert (hroot : is_root (t_doc t) (t_root t)) by (now apply (sd_root t hs)).
  intros hc l hl. unfold link_names, without in hl. rewrite links_filter in hl. apply in_map_iff in hl. destruct hl as [x [<- hx]].
  apply filter_In in hx. destruct hx as [hx hb]. apply negb_true_iff in hb.
  destruct (hc (l_name x)) as [p hp]; [unfold link_names; now apply in_map|]. exists p.
  apply path_kept with (t_doc t); [assumption|]. intros k hk. unfold without. rewrite joints_filter, filter_In.
  pose proof (path_in _ _ _ _ _ hp hk) as hkd. split; [assumption|]. apply negb_true_iff. apply not_true_iff_false. intros hm.
  apply mem_in in hm. apply hn in hm. destruct hm as [q [j [hq [ej [c [hcq hcp]]]]]].
  assert (hjd : In j (joints (t_doc t))). { apply (path_in _ _ _ _ _ hq). apply in_or_app. right. now left. }
  assert (j = k) by (now apply (name_inj (t_doc t))). subst j.
  apply in_split in hk. destruct hk as [p1 [p2 ->]].
  replace (p1 ++ k :: p2) with ((p1 ++ [k]) ++ p2) in hp by (rewrite <- app_assoc; reflexivity).
  destruct (path_split _ _ _ _ _ hp) as [b [hp1 _]]. pose proof hp1 as hp1'. apply path_snoc_inv in hp1'. destruct hp1' as [-> _].
  assert (eq : q ++ [k] = p1 ++ [k]) by (now apply (path_unique (t_doc t) (t_root t) w hroot _ _ (j_child k))).
  rewrite eq in hcq. destruct (p1 ++ [k]) as [|a0 r0] eqn:ep; [contradiction|].
  assert (hlast : exists m p3, (a0 :: r0) ++ p2 = p3 ++ [m]).
  { destruct (exists_last (l := (a0 :: r0) ++ p2)) as [ys [y ey]]; [discriminate|]. now exists y, ys. }
  destruct hlast as [m [p3 em]]. rewrite em in hp. pose proof hp as hpm. apply path_snoc_inv in hpm. destruct hpm as [exm [hmd _]].
  assert (hc1 : existsb (fun j => mem (j_name j) ns && (j_child j =? l_name x)%string)%bool (joints (t_doc t)) = true).
  { apply existsb_exists. exists m. split; [assumption|]. apply andb_true_iff. split; [|apply String.eqb_eq; now symmetry].
    apply mem_in. apply hn. exists p3, m. split; [now rewrite exm in hp|]. split; [reflexivity|]. exists c. split; [|assumption].
    rewrite <- em. apply in_or_app. now left. }
  congruence.
Qed.

Lemma good_transport : forall t o t', sound t -> transport_frame t o = Ok t' -> good t t'.
Proof.
  intros t o t' hs h. destruct (transport_rel t t' o _ hs h) as [h1 [h2 [h3 _]]].
  replace t' with (mkTree (t_doc t') (t_ix t) (t_root t)) by (destruct t'; cbn in *; congruence).
  apply good_el; [assumption|]. apply (F2_impl _ _ _ _ h1).
  intros [l|k|s] [l'|k'|s'] he; cbn in he |- *; try contradiction; try assumption.
  - symmetry. apply he.
  - destruct he as [x [-> _]]. cbn. tauto.
Qed.

Lemma good_apply : forall e t t', sound t -> apply e t = Ok t' -> good t t'.
Proof.
  intros e t t' hs h. destruct e as [|n|l|o|n|n| |pred|n| | ]; cbn [apply] in h.
  - now apply good_root.
  - now apply (good_leaf t n).
  - now apply (good_define t l).
  - now apply (good_transport t o).
  - unfold makeJointFixed in h. destruct (find_joint (t_doc t) n); [|discriminate]. injection h as <-.
    apply good_el; [assumption|]. apply el_upd_joint. intros. apply el_set_type.
  - unfold makeJointFloating in h. destruct (find_joint (t_doc t) n); [|discriminate]. injection h as <-.
    apply good_el; [assumption|]. apply el_upd_joint. intros. apply el_set_type.
  - unfold makeContinuousJointsFixed in h.
    destruct (traverse_joints t fst mcf_discover (fun v _ => Ok v) (t_doc t, [])) as [v| | |] eqn:ew; try discriminate.
    cbn in h. injection h as <-. apply good_el; [assumption|].
    refine (walk_el t fst mcf_discover (fun v _ => Ok v) (t_doc t, nil) v hs eq_refl mcf_el _ ew).
    intros u j u' hu. injection hu as <-. apply F2el_refl.
  - destruct (removeSubTreeIfJoint t pred) as [[u ns]| | |] eqn:er; try discriminate. injection h as <-. now apply (good_remove t pred u ns).
  - unfold squashJointMass in h. destruct (find_joint (t_doc t) n) as [j|]; [|discriminate].
    destruct (squash_joint (t_doc t) j) as [d| | |] eqn:es; try discriminate. injection h as <-.
    apply good_el; [assumption|]. now apply el_squash in es.
  - unfold squashFixedJointsMass in h.
    destruct (traverse_joints t (fun d => d) (fun d _ => Ok (d, true)) sf_finish (t_doc t)) as [v| | |] eqn:ew; try discriminate.
    cbn in h. injection h as <-. apply good_el; [assumption|].
    refine (walk_el t (fun d => d) (fun d _ => Ok (d, true)) sf_finish (t_doc t) v hs eq_refl _ sf_el ew).
    intros u j u' b hu. injection hu as <- _. apply F2el_refl.
  - unfold makeMasslessJointsFixed in h.
    destruct (traverse_joints t fst (fun v _ => Ok (v, true)) mm_finish (t_doc t, [])) as [v| | |] eqn:ew; try discriminate.
    cbn in h. injection h as <-. apply good_el; [assumption|].
    refine (walk_el t fst (fun v _ => Ok (v, true)) mm_finish (t_doc t, nil) v hs eq_refl _ mm_el ew).
    intros u j u' b hu. injection hu as <- _. apply F2el_refl.
Qed.

Lemma good_edited : forall t es t', sound t -> edited t es t' -> good t t'.
Proof.
  intros t es t' hs h. induction h as [|es e t1 t2 h IH he|es e t1 h IH ha he].
  - split; [assumption|]. split; [apply el_kept; apply F2el_refl|auto].
  - destruct IH as [h1 [h2 h3]]. destruct (good_apply e t1 t2 h1 he) as [g1 [g2 g3]].
    split; [assumption|]. split; [now apply kept_trans with (t_doc t1)|auto].
  - exact IH.
Qed.

Lemma mimic_kept : forall d d', kept d d' -> mimic_order d -> mimic_order d'.
Proof.
  assert (hx : forall d d', kept d d' -> forall l1' j' l2', joints d' = l1' ++ j' :: l2' ->
    exists l1 j l2, joints d = l1 ++ j :: l2 /\ j_name j = j_name j' /\ j_mimic j = j_mimic j' /\
      incl (map (@j_name R) l1') (map (@j_name R) l1) /\ incl (map (@j_mimic R) l1') (map (@j_mimic R) l1)).
  { intros d d' h. induction h as [|j j' d d' h IH h1 h2 h3|l l' d d' h IH h1|s d d' h IH|j d d' h IH|l d d' h IH]; intros l1' k' l2' e; cbn [joints flat_map app] in *.
    - destruct l1'; discriminate.
    - destruct l1' as [|a l1']; cbn [app] in e; injection e as e1 e2.
      + subst k'. exists nil, j, (joints d). split; [reflexivity|]. split; [assumption|]. split; [assumption|]. split; intros x [].
      + subst a. destruct (IH l1' k' l2' e2) as [l1 [k [l2 [g1 [g2 [g3 [g4 g5]]]]]]].
        exists (j :: l1), k, l2. split; [unfold joints in g1; now rewrite g1|]. split; [assumption|]. split; [assumption|]. cbn [map].
        split; intros x [<-|hx]; try (now left); right; [now apply g4|now apply g5].
    - exact (IH l1' k' l2' e).
    - exact (IH l1' k' l2' e).
    - destruct (IH l1' k' l2' e) as [l1 [k [l2 [g1 [g2 [g3 [g4 g5]]]]]]].
      exists (j :: l1), k, l2. split; [unfold joints in g1; now rewrite g1|]. split; [assumption|]. split; [assumption|]. cbn [map].
      split; intros x hx; right; [now apply g4|now apply g5].
    - exact (IH l1' k' l2' e). }
  intros d d' h ho l1' j' l2' m e em. destruct (hx d d' h l1' j' l2' e) as [l1 [j [l2 [g1 [g2 [g3 [g4 g5]]]]]]].
  destruct (ho l1 j l2 m g1) as [o1 o2]; [congruence|]. rewrite <- g2. split; [assumption|].
  intros hm k hk ek. assert (hmk : In (Some (j_name j)) (map (@j_mimic R) l1)).
  { apply g5. rewrite <- ek. now apply in_map. }
  apply in_map_iff in hmk. destruct hmk as [k2 [ek2 hk2]]. apply (o2 (g4 m hm) k2 hk2 ek2).
Qed.

Lemma C56_sound_proof : forall (d : list (elem R)) t es t', ctor d = Ok t -> edited t es t' ->
  sound t' /\ kept d (t_doc t') /\ (connected d (t_root t) -> connected (t_doc t') (t_root t')).
Proof.
  intros d t es t' h he. destruct (C44_or_throws_proof d) as [[_ [u [e [ed [_ hs]]]]]|[_ e]]; [|congruence].
  rewrite h in e. injection e as <-. destruct (good_edited t es t' hs he) as [h1 [h2 h3]]. rewrite ed in h2, h3. auto.
Qed.


Lemma C56_reload_proof : forall (d : list (elem R)) t es t', ctor d = Ok t -> edited t es t' ->
  (mimic_sources_exist (t_doc t') -> exists t'', ctor (t_doc t') = Ok t'' /\ t_doc t'' = t_doc t' /\ t_root t'' = t_root t') /\
  (~ mimic_sources_exist (t_doc t') -> ctor (t_doc t') = Throw).
Proof.
  intros d t es t' h he. destruct (C56_sound_proof d t es t' h he) as [hs [hk _]].
  assert (ha : accepted d) by (apply C44_accepts_proof; eauto). destruct ha as [_ [_ [_ ho]]].
  split; intros hm; destruct (C44_or_throws_proof (t_doc t')) as [[ha [u [e [ed [hr hsu]]]]]|[hn e]].
  - exists u. split; [assumption|]. split; [assumption|]. now apply (sd_root t' hs).
  - exfalso. apply hn. split; [apply (sd_doc t' hs)|]. split; [|split; [assumption|now apply (mimic_kept d)]].
    exists (t_root t'). split; [now apply (sd_root t' hs)|]. intros r hr. symmetry. now apply (sd_root t' hs).
  - exfalso. apply hm. apply ha.
  - assumption.
Qed.


Lemma C56_safe_proof : forall (d : list (elem R)) t es t' e, ctor d = Ok t -> edited t es t' ->
  (forall l, e <> DefineAsRoot l) -> (forall o, e <> TransportRoot o) -> (exists t'', apply e t' = Ok t'') \/ apply e t' = Throw.
Proof.
  intros d t0 es t e h he hne hne'. destruct (C56_sound_proof d t0 es t h he) as [hs _]. clear h he. pose proof (sd_doc t hs) as w.
  assert (elr : forall V (doc : V -> list (elem R)) u u' (b b' : bool), Ok (u, b) = Ok (u', b') -> Forall2 el (doc u) (doc u')).
  { intros V doc u u' b b' hu. injection hu as <- _. apply F2el_refl. }
  destruct e as [|n|l|o|n|n| |pred|n| | ]; cbn [apply].
  - unfold rm_root_joint. destruct (resolve (t_doc t) (t_ix t) w (sd_index t hs)) as [js [hp [_ hc]]]. rewrite hc.
    destruct (filter (fun j => (j_parent j =? t_root t)%string) js) as [|j [|? ?]] eqn:ef; cbn [map]; try (now right).
    assert (hi : In j (filter (fun j => (j_parent j =? t_root t)%string) js)) by (rewrite ef; now left).
    apply filter_In in hi. destruct hi as [hi _]. apply (Permutation_in _ hp) in hi.
    rewrite (proj2 (find_joint_iff _ _ _ w) (conj hi eq_refl)).
    destruct (find_at (t_doc t) (t_root t)) as [l [el' _]]; [apply (sd_root t hs); reflexivity|]. rewrite el'. left. eauto.
  - unfold rm_leaf_joint. destruct (find_joint (t_doc t) n) as [j|] eqn:ej; [|now right].
    apply (find_joint_iff _ _ _ w) in ej. destruct ej as [hj _].
    destruct (children (t_doc t) (t_ix t) (j_child j)); [|now right].
    destruct (find_at (t_doc t) (j_child j)) as [l [el' _]]; [apply (wc_ends _ w j hj)|]. rewrite el'. left. eauto.
  - now elim (hne l).
  - now elim (hne' o).
  - unfold makeJointFixed. destruct (find_joint (t_doc t) n); [left; eauto|now right].
  - unfold makeJointFloating. destruct (find_joint (t_doc t) n); [left; eauto|now right].
  - unfold makeContinuousJointsFixed.
    destruct (walk_or_throw t fst mcf_discover (fun v _ => Ok v) (t_doc t, nil) hs eq_refl mcf_el) as [[v e]|e].
    + intros u j u' hu. injection hu as <-. apply F2el_refl.
    + intros u j. unfold mcf_discover. destruct (type_of (j_type j)) as [[]|]; eauto.
    + intros u j. left. eauto.
    + left. rewrite e. cbn. eauto.
    + right. rewrite e. reflexivity.
  - left. destruct (C47_removed_proof t pred hs) as [u [ns [e _]]]. rewrite e. cbn. eauto.
  - unfold squashJointMass. destruct (find_joint (t_doc t) n) as [j|]; [|now right].
    destruct (squash_or (t_doc t) j) as [[x hx]|hx]; rewrite hx; cbn; eauto.
  - unfold squashFixedJointsMass.
    destruct (walk_or_throw t (fun d => d) (fun d _ => Ok (d, true)) sf_finish (t_doc t) hs eq_refl) as [[v e]|e].
    + intros u j u' b hu. now apply (elr _ (fun d => d) u u' true b).
    + apply sf_el.
    + intros u j. left. eauto.
    + intros u j. unfold sf_finish. destruct (type_of (j_type j)) as [[]|]; eauto using squash_or.
    + left. rewrite e. cbn. eauto.
    + right. rewrite e. reflexivity.
  - unfold makeMasslessJointsFixed.
    destruct (walk_or_throw t fst (fun v _ => Ok (v, true)) mm_finish (t_doc t, nil) hs eq_refl) as [[v e]|e].
    + intros u j u' b hu. now apply (elr _ fst u u' true b).
    + apply mm_el.
    + intros u j. left. eauto.
    + intros u j. unfold mm_finish.
      assert (hq : forall A (x : A) (g : Link R -> A), (exists y, match find_link (fst u) (j_child j) with None => Throw | Some c => match l_inertial c with Some _ => Ok x | None => Ok (g c) end end = Ok y) \/
        match find_link (fst u) (j_child j) with None => Throw | Some c => match l_inertial c with Some _ => Ok x | None => Ok (g c) end end = Throw).
      { intros A x g. destruct (find_link (fst u) (j_child j)) as [c|]; [|now right]. destruct (l_inertial c); eauto. }
      destruct (type_of (j_type j)) as [[]|]; eauto.
      destruct (squash_or (fst u) j) as [[x hx]|hx]; rewrite hx; cbn; eauto.
    + left. rewrite e. cbn. eauto.
    + right. rewrite e. reflexivity.
Qed.


(** ** The total mass *)

Lemma mass_links : forall d d' : list (elem R), links d = links d' -> total_mass d = total_mass d'.
Proof. intros d d' h. unfold total_mass, total. now rewrite h. Qed.
Lemma mass_mech : forall d r d' r', connected d r -> same_mechanism d r d' r' -> total_mass d' = total_mass d.
Proof.
  intros d0 r d0' r' hc [h3 h4].
  destruct (h4 (mkConfig (fun _ => 0) (fun _ v => v))) as [G [_ hG]].
  pose proof (F2_and _ _ _ _ h3 hG) as hF.
  assert (hl : forall x, In (ELink x) d0 -> exists p, path d0 r p (l_name x)).
  { intros x hx. apply hc. unfold link_names. apply in_map. now apply in_link_elem. }
  clear h3 h4 hG hc. revert hF hl. generalize (path d0' r') as P'. generalize (path d0 r) as P0.
  generalize d0 as d, d0' as d'. intros d d' P0 P' hF. unfold total_mass, total.
  induction hF as [|e e' d d' [hse he] hF IH]; intros hl; [reflexivity|].
  assert (hl' : forall x, In (ELink x) d -> exists p, P0 p (l_name x)) by (intros x hx; apply hl; now right).
  destruct e as [x|k|s], e' as [x'|k'|s']; cbn in hse; try contradiction; cbn [links flat_map app fold_right]; try exact (IH hl').
  cbn [links] in IH. fold (links d). fold (links d'). rewrite (IH hl'). f_equal.
  destruct (hl x (or_introl eq_refl)) as [p hp]. destruct (he p hp) as [p' [_ [_ [hi _]]]].
  unfold same_inertials in hi. destruct (l_inertial x) as [a|], (l_inertial x') as [b|]; try contradiction; [|reflexivity].
  destruct hi as [hi _]. injection hi as hm _ _ _ _ _ _. now symmetry.
Qed.
Lemma mass_define : forall t l t', sound t -> connected (t_doc t) (t_root t) -> define_as_root_link t l = Ok t' ->
  total_mass (t_doc t') = total_mass (t_doc t).
Proof.
  intros t l t' hs hc h. destruct (C48_mechanism_proof t t' l hs h) as [_ [_ hm]]. now apply (mass_mech (t_doc t) (t_root t) (t_doc t') l).
Qed.
Lemma upd_joint_mass : forall (d : list (elem R)) n f, total_mass (upd_joint d n f) = total_mass d.
Proof. intros. apply mass_links. apply links_upd_joint. Qed.
Lemma mass_mcf : forall (t : tree R) v', sound t ->
  traverse_joints t fst mcf_discover (fun v _ => Ok v) (t_doc t, []) = Ok v' -> total_mass (fst v') = total_mass (t_doc t).
Proof.
  intros t v' hs h. destruct (C46_once_proof t fst mcf_discover (fun v _ => Ok v) (t_doc t, nil) v' hs) as [hh [r _]].
  - intros u j u' b h1 h2. apply (sg_el _ (fst u)); [now apply (mcf_el u j u' b)|assumption].
  - intros u j u' h1 h2. injection h2 as <-. assumption.
  - apply sg_refl.
  - assumption.
  - assert (hx : forall v hh v', runs fst mcf_discover (fun v (_ : Joint R) => Ok v) v hh v' -> total_mass (fst v') = total_mass (fst v)).
    { clear. intros v hh v' r. induction r as [v|v n j v1 b h v' _ _ e r IH|v n j v1 h v' _ _ e r IH]; [reflexivity| |].
      - rewrite IH. unfold mcf_discover in e. destruct (type_of (j_type j)) as [[]|]; try discriminate; injection e as <- _; try reflexivity.
        apply upd_joint_mass.
      - injection e as <-. assumption. }
    exact (hx _ _ _ r).
Qed.

Lemma mass_apply : forall e t t', sound t -> connected (t_doc t) (t_root t) -> apply e t = Ok t' ->
  match e with RmRootJoint | RmLeafJoint _ | RemoveSubTree _ => False | _ => True end ->
  total_mass (t_doc t') = total_mass (t_doc t).
Proof.
  intros e t t' hs hc h hm. destruct e as [|n|l|o|n|n| |pred|n| | ]; try contradiction; cbn [apply] in h.
  - now apply (mass_define t l).
  - destruct (C48_transport_proof t t' o hs h) as [_ [_ [hm' _]]]. now apply (mass_mech (t_doc t) (t_root t) (t_doc t') (t_root t)).
  - unfold makeJointFixed in h. destruct (find_joint (t_doc t) n); [|discriminate]. injection h as <-. apply upd_joint_mass.
  - unfold makeJointFloating in h. destruct (find_joint (t_doc t) n); [|discriminate]. injection h as <-. apply upd_joint_mass.
  - unfold makeContinuousJointsFixed in h.
    destruct (traverse_joints t fst mcf_discover (fun v _ => Ok v) (t_doc t, [])) as [v| | |] eqn:ew; try discriminate.
    cbn in h. injection h as <-. now apply mass_mcf.
  - assert (h0 := h). unfold squashJointMass in h0. destruct (find_joint (t_doc t) n) as [j|] eqn:ej; [|discriminate].
    apply (find_joint_iff _ _ _ (sd_doc t hs)) in ej. destruct ej as [hj <-].
    destruct (C49_joint_mass_proof t j hs hj) as [u [eu hu]].
    + apply (attached_ends t hs j). destruct (hc (j_child j)) as [p hp]; [apply (wc_ends _ (sd_doc t hs) j hj)|].
      destruct p as [|k p _] using rev_ind.
      * apply path_nil_inv in hp. exfalso. apply (proj2 (proj2 (sd_root t hs (t_root t)) eq_refl) j hj). now symmetry.
      * exists p. pose proof hp as hp'. apply path_snoc_inv in hp'. destruct hp' as [e [hk _]].
        assert (j = k) by (now apply (child_inj (t_doc t) j k (sd_doc t hs))). now subst k.
    + rewrite eu in h. injection h as <-. apply hu.
  - unfold squashFixedJointsMass in h.
    destruct (traverse_joints t (fun d => d) (fun d _ => Ok (d, true)) sf_finish (t_doc t)) as [v| | |] eqn:ew; try discriminate.
    cbn in h. injection h as <-.
    apply (i_total _ _ _ _ _ (hist_inv t hs false (fun D : list (elem R) => D) sf_finish (fun _ => nil) (t_doc t) v eq_refl eq_refl
      (fun u j u' hu eu => sg_el _ u u' (sf_el u j u' eu) hu) (fun u j u' eu => sf_step u j u' eu) ew)).
  - unfold makeMasslessJointsFixed in h.
    destruct (traverse_joints t fst (fun v _ => Ok (v, true)) mm_finish (t_doc t, [])) as [v| | |] eqn:ew; try discriminate.
    cbn in h. injection h as <-.
    apply (i_total _ _ _ _ _ (hist_inv t hs true (@fst _ _) mm_finish (@snd _ _) (t_doc t, nil) v eq_refl eq_refl (mm_sg t) mm_step ew)).
Qed.

Lemma C56_mass_proof : forall (d : list (elem R)) t es t', ctor d = Ok t -> connected d (t_root t) -> edited t es t' ->
  (forall e, In e es -> match e with RmRootJoint | RmLeafJoint _ | RemoveSubTree _ => False | _ => True end) ->
  total_mass (t_doc t') = total_mass d.
Proof.
  intros d t es t' h hc he. destruct (C44_or_throws_proof d) as [[_ [u [e [ed [_ hs]]]]]|[_ e]]; [|congruence].
  rewrite h in e. injection e as <-. rewrite <- ed in hc |- *. clear h ed.
  induction he as [|es e t1 t2 he IH hee|es e t1 he IH ha hee]; intros hne.
  - reflexivity.
  - destruct (good_edited t es t1 hs he) as [g1 [_ g3]].
    rewrite (mass_apply e t1 t2 g1 (g3 hc) hee); [|apply hne; apply in_or_app; right; now left].
    apply IH. intros e' he'. apply hne. apply in_or_app. now left.
  - apply IH. intros e' he'. apply hne. apply in_or_app. now left.
Qed.

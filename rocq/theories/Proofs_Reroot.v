(** * Lemmas for Props_Reroot *)

From Coq Require Import String List Bool Relations Permutation Lia Arith ZArith Reals Lra Nsatz.
Import ListNotations.
From Verif Require Import Scalar RInst RLemmas Model_Base Model_Vec Model_Rigid Model_Average Model_Pose Model_Urdf
  Spec_Geom Spec_Average Spec_Pose Spec_Urdf Spec_Reroot SO3 SO3Quat Proofs_Geom Proofs_Quat Proofs_Average Proofs_Pose Proofs_Transform
  Proofs_Urdf Proofs_Walk.
From Verif Require Props_Urdf.
Local Open Scope R_scope.

(** ** Displacements *)

Lemma pm_id : forall v, pose_motion pose_id v = v.
Proof.
  intros v. unfold pose_motion, pose_id. cbn [p_rpy p_xyz]. change (@a_zero R RScalar) with (0,0,0).
  rewrite rpy_mat_0. apply vadd_0_r.
Qed.
Lemma rm_pose : forall p, rigid_motion (pose_motion p).
Proof.
  intros p. exists (toEigenTransform p). split; [exact (proj2 (C50_transform_proof p (0,0,0)))|].
  intros v. symmetry. apply motion_pose.
Qed.
Lemma rm_comp : forall F G, rigid_motion F -> rigid_motion G -> rigid_motion (fun v => F (G v)).
Proof.
  intros F G [t [h1 h2]] [u [h3 h4]]. exists (t_mul t u). split; [now apply rigid_mul|].
  intros v. rewrite h2, h4. symmetry. apply (C01_transform_mul_is_composition_proof t u v).
Qed.
Lemma rm_id : rigid_motion (fun v => v).
Proof. exists t_id. split; [apply rigid_mk; unfold so3; cbv [s_ofZ RScalar]; repeat split; lra|]. intros v. symmetry. apply (C01_transform_mul_is_composition_proof t_id t_id v). Qed.
Lemma rm_ext : forall F G, rigid_motion F -> (forall v, F v = G v) -> rigid_motion G.
Proof. intros F G [t [h1 h2]] e. exists t. split; [assumption|]. intros v. rewrite <- e. apply h2. Qed.

Lemma rotate_inv : forall n a v, vdot n n = 1 -> rotate (vneg n) a (rotate n a v) = v.
Proof.
  intros [[x y] z] a [[u v] w] h. unfold rotate, vneg, vadd, vscale, vcross, vdot, vx, vy, vz in *. cbn [fst snd] in *.
  pose proof (sin2_cos2 a) as t. unfold Rsqr in t. revert t. generalize (sin a) (cos a). intros s c t.
  pair_eq; nsatz.
Qed.
Lemma rotate_rm : forall n a, vdot n n = 1 -> rigid_motion (rotate n a).
Proof.
  intros [[x y] z] a h. unfold vdot, vx, vy, vz in h. cbn [fst snd] in h.
  pose proof (sin2_cos2 a) as t. unfold Rsqr in t. unfold rotate. revert t. generalize (sin a) (cos a). intros s c t.
  exists (mkTransform (c + (1-c)*x*x) (- s*z + (1-c)*x*y) (s*y + (1-c)*x*z) 0
                      (s*z + (1-c)*x*y) (c + (1-c)*y*y) (- s*x + (1-c)*y*z) 0
                      (- s*y + (1-c)*x*z) (s*x + (1-c)*y*z) (c + (1-c)*z*z) 0).
  split.
  - apply rigid_mk. unfold so3. repeat split; nsatz.
  - intros [[v0 v1] v2]. unfold motion. rewrite tmat_mk.
    unfold tpos, vadd, vscale, vcross, vdot, mapply, of_rows, vx, vy, vz. cbn [fst snd t_r1c4 t_r2c4 t_r3c4]. pair_eq; ring.
Qed.

Lemma vdot_neg : forall a, vdot (vneg a) (vneg a) = vdot a a.
Proof. intros [[x y] z]. unfold vdot, vneg, vx, vy, vz. cbn [fst snd]. ring. Qed.
Lemma unit_dir : forall a, vdot a a <> 0 -> vdot (vscale (/ vnorm a) a) (vscale (/ vnorm a) a) = 1.
Proof.
  intros a h. assert (p : 0 < vdot a a).
  { destruct a as [[x y] z]. unfold vdot, vx, vy, vz in *. cbn [fst snd] in *.
    pose proof (Rle_0_sqr x). pose proof (Rle_0_sqr y). pose proof (Rle_0_sqr z). unfold Rsqr in *. lra. }
  assert (e : vdot (vscale (/ vnorm a) a) (vscale (/ vnorm a) a) = / vnorm a * / vnorm a * vdot a a).
  { destruct a as [[x y] z]. unfold vdot, vscale, vx, vy, vz. cbn [fst snd]. ring. }
  rewrite e. unfold vnorm. revert p. generalize (vdot a a). intros D p.
  pose proof (sqrt_sqrt D (Rlt_le _ _ p)) as s. pose proof (sqrt_lt_R0 D p) as s'. revert s s'.
  generalize (sqrt D). intros x s s'. rewrite <- s. field. lra.
Qed.

(** Two joints that differ by the direction of their axis undo each other's motion. *)
Lemma jm_flip : forall (k k' : Joint R) q, j_name k' = j_name k -> j_type k' = j_type k ->
  ((type_of (j_type k) = Some fixed) \/
   ((type_of (j_type k) = Some revolute \/ type_of (j_type k) = Some continuous \/ type_of (j_type k) = Some prismatic) /\
    axis_of k' = vneg (axis_of k))) ->
  (forall v, joint_motion q k' (joint_motion q k v) = v) /\ rigid_motion (joint_motion q k').
Proof.
  intros k k' q en et h. unfold joint_motion. rewrite en, et. destruct h as [->|[h ea]].
  - split; [reflexivity|exact rm_id].
  - assert (ed : direction k' = vneg (direction k)).
    { unfold direction, vnorm. rewrite ea, vdot_neg. generalize (/ sqrt (vdot (axis_of k) (axis_of k))). intros s.
      destruct (axis_of k) as [[x y] z]. unfold vscale, vneg, vx, vy, vz. cbn [fst snd]. pair_eq; ring. }
    rewrite ea, vdot_neg, ed.
    destruct (Req_EM_T (vdot (axis_of k) (axis_of k)) 0) as [z|nz].
    + destruct h as [-> | [-> | ->]]; (split; [reflexivity|exact rm_id]).
    + pose proof (unit_dir _ nz) as hu. fold (direction k) in hu.
      destruct h as [-> | [-> | ->]].
      * split; [intros v; now apply rotate_inv|]. apply rotate_rm. now rewrite vdot_neg.
      * split; [intros v; now apply rotate_inv|]. apply rotate_rm. now rewrite vdot_neg.
      * split.
        -- intros [[u v] w]. destruct (direction k) as [[x y] z0]. unfold vadd, vscale, vneg, vx, vy, vz. cbn [fst snd]. pair_eq; ring.
        -- destruct (direction k) as [[x y] z0]. generalize (q_scalar q (j_name k)). intros a.
           exists (mkTransform 1 0 0 (- a*x) 0 1 0 (- a*y) 0 0 1 (- a*z0)). split; [apply rigid_mk; unfold so3; repeat split; lra|].
           intros [[u v] w]. unfold motion. rewrite tmat_mk.
           unfold tpos, vadd, vscale, vneg, mapply, of_rows, vx, vy, vz. cbn [fst snd t_r1c4 t_r2c4 t_r3c4]. pair_eq; ring.
Qed.

Lemma a_eqb_iff : forall u v : vec3, a_eqb (u : Array3d R) v = true <-> u = v.
Proof.
  intros [[x y] z] [[x' y'] z']. unfold a_eqb, a0, a1, a2. cbv [s_eqb RScalar fst snd].
  rewrite !andb_true_iff, !Reqb_iff. split.
  - intros [[-> ->] ->]. reflexivity.
  - intros e. injection e as -> -> ->. tauto.
Qed.
Lemma pose_eqb_iff : forall p q : Pose R, pose_eqb p q = true <-> p = q.
Proof.
  intros [x r] [x' r']. unfold pose_eqb. cbn [p_xyz p_rpy]. rewrite andb_true_iff, !a_eqb_iff. split.
  - intros [-> ->]. reflexivity.
  - intros e. injection e as -> ->. tauto.
Qed.

Definition moved_origin (O : Pose R) (o o' : option (Pose R)) : Prop :=
  forall v, pose_motion (pose_from o') v = pose_motion (pose_inverse O) (pose_motion (pose_from o) v).

Lemma premul_moved : forall O o np o', premul (pose_inverse O) O o np = Ok o' -> moved_origin O o o'.
Proof.
  intros O o np o' h v. unfold premul in h. rewrite (proj2 (pose_eqb_iff _ _) eq_refl) in h. cbn [negb] in h.
  destruct (pose_eqb (pose_from o) O) eqn:e.
  - apply pose_eqb_iff in e. rewrite e, (proj1 (C50_inverse_proof O v)). destruct np; injection h as <-; apply pm_id.
  - rewrite pose_to_R in h. destruct (is_zero _ && is_zero _)%bool; [discriminate|]. injection h as <-.
    apply C50_product_proof.
Qed.
Lemma premul_self : forall O np o', premul (pose_inverse O) O (Some O) np = Ok o' -> pose_from o' = pose_id.
Proof.
  intros O np o' h. unfold premul in h. rewrite (proj2 (pose_eqb_iff _ _) eq_refl) in h. cbn [negb pose_from] in h.
  rewrite (proj2 (pose_eqb_iff O O) eq_refl) in h. destruct np; injection h as <-; reflexivity.
Qed.
Lemma moved_id : forall o, moved_origin pose_id o o.
Proof. intros o v. rewrite (proj2 (proj2 (C50_neutral_proof pose_id))), pm_id. reflexivity. Qed.

(** ** The document after a flip *)

Section Rel.
Variable r : string.
Variable O : Pose R.

Definition moved_shapes (s s' : list (Shape R)) : Prop :=
  Forall2 (fun x x' => sh_geometry x = sh_geometry x' /\ moved_origin O (sh_origin x) (sh_origin x')) s s'.
Definition moved_inertial (i i' : option (Inertial R)) : Prop :=
  match i, i' with
  | None, None => True
  | Some a, Some b =>
      (i_mass a, i_ixx a, i_ixy a, i_ixz a, i_iyy a, i_iyz a, i_izz a) =
      (i_mass b, i_ixx b, i_ixy b, i_ixz b, i_iyy b, i_iyz b, i_izz b) /\
      moved_origin O (i_origin a) (i_origin b)
  | _, _ => False
  end.
Definition LT (l l' : Link R) : Prop :=
  l_name l' = l_name l /\
  (l_name l = r -> moved_inertial (l_inertial l) (l_inertial l') /\ moved_shapes (l_visuals l) (l_visuals l') /\
                   moved_shapes (l_collisions l) (l_collisions l')) /\
  (l_name l <> r -> l' = l).

(** After the transport of the frame of [r]. *)
Definition JT1 (k k' : Joint R) : Prop :=
  exists o', k' = set_origin k o' /\ (j_parent k = r -> moved_origin O (j_origin k) o') /\
             (j_parent k <> r -> o' = j_origin k).
Definition rel (J : Joint R -> Joint R -> Prop) (e e' : elem R) : Prop :=
  match e, e' with
  | EJoint k, EJoint k' => J k k'
  | ELink l, ELink l' => LT l l'
  | EOther s, EOther s' => s = s'
  | _, _ => False
  end.

(** After the flip of the joint [n]. *)
Definition JT (n : string) (k k' : Joint R) : Prop :=
  j_name k' = j_name k /\ j_type k' = j_type k /\ j_mimic k' = j_mimic k /\
  (j_name k = n -> j_parent k' = j_child k /\ j_child k' = j_parent k /\ pose_from (j_origin k') = pose_id /\
     forall q, (forall v, joint_motion q k' (joint_motion q k v) = v) /\ rigid_motion (joint_motion q k')) /\
  (j_name k <> n -> j_parent k' = j_parent k /\ j_child k' = j_child k /\
     (forall q v, joint_motion q k' v = joint_motion q k v) /\
     (j_parent k = r -> moved_origin O (j_origin k) (j_origin k')) /\ (j_parent k <> r -> k' = k)).

Lemma rel_joints : forall J d d', Forall2 (rel J) d d' -> Forall2 J (joints d) (joints d').
Proof.
  intros J d d' h. induction h as [|e e' d d' h hs IH]; [constructor|].
  destruct e as [l|k|s], e' as [l'|k'|s']; cbn in h; try contradiction; cbn; try assumption. now constructor.
Qed.
Lemma rel_links : forall J d d', Forall2 (rel J) d d' -> Forall2 LT (links d) (links d').
Proof.
  intros J d d' h. induction h as [|e e' d d' h hs IH]; [constructor|].
  destruct e as [l|k|s], e' as [l'|k'|s']; cbn in h; try contradiction; cbn; try assumption. now constructor.
Qed.
Lemma F2_in : forall {A B} (P : A -> B -> Prop) l l', Forall2 P l l' -> forall a, In a l -> exists b, In b l' /\ P a b.
Proof.
  intros A B P l l' h. induction h as [|a b l l' h hs IH]; intros x hx; [contradiction|].
  destruct hx as [<-|hx]; [exists b; split; [now left|assumption]|]. destruct (IH x hx) as [y [h1 h2]].
  exists y. split; [now right|assumption].
Qed.
Lemma F2_in' : forall {A B} (P : A -> B -> Prop) l l', Forall2 P l l' -> forall b, In b l' -> exists a, In a l /\ P a b.
Proof.
  intros A B P l l' h. induction h as [|a b l l' h hs IH]; intros x hx; [contradiction|].
  destruct hx as [<-|hx]; [exists a; split; [now left|assumption]|]. destruct (IH x hx) as [y [h1 h2]].
  exists y. split; [now right|assumption].
Qed.
Lemma F2_map : forall {A B C} (f : A -> C) (g : B -> C) P l l', Forall2 P l l' -> (forall a b, P a b -> f a = g b) -> map f l = map g l'.
Proof. intros A B C f g P l l' h hp. induction h as [|a b l l' h hs IH]; [reflexivity|]. cbn. f_equal; auto. Qed.
End Rel.

Lemma mapM_F2 : forall {A B} (f : A -> res B) l l', mapM f l = Ok l' -> Forall2 (fun a b => f a = Ok b) l l'.
Proof.
  intros A B f l. induction l as [|a l IH]; intros l' h; cbn in h.
  - injection h as <-. constructor.
  - destruct (f a) as [b| | |] eqn:e; try discriminate. cbn in h. destruct (mapM f l) as [bs| | |]; try discriminate.
    injection h as <-. constructor; [assumption|now apply IH].
Qed.
Lemma F2_impl : forall {A B} (P Q : A -> B -> Prop) l l', Forall2 P l l' -> (forall a b, P a b -> Q a b) -> Forall2 Q l l'.
Proof. intros A B P Q l l' h hp. induction h; constructor; auto. Qed.
Lemma F2_impl_in : forall {A B} (P Q : A -> B -> Prop) l l', Forall2 P l l' -> (forall a b, In a l -> P a b -> Q a b) -> Forall2 Q l l'.
Proof.
  intros A B P Q l l' h. induction h as [|a b l l' h hs IH]; intros hp; constructor.
  - apply hp; [now left|assumption].
  - apply IH. intros x y hx. apply hp. now right.
Qed.
Lemma F2_refl : forall {A} (P : A -> A -> Prop) l, (forall a, In a l -> P a a) -> Forall2 P l l.
Proof. intros A P l. induction l as [|a l IH]; intros h; constructor; [apply h; now left|apply IH; intros x hx; apply h; now right]. Qed.

Lemma transport_rel : forall (t t1 : tree R) O np, sound t -> transport_root_link_frame t O np = Ok t1 ->
  Forall2 (rel (t_root t) O (JT1 (t_root t) O)) (t_doc t) (t_doc t1) /\ t_ix t1 = t_ix t /\ t_root t1 = t_root t /\
  (forall j j1, In j (joints (t_doc t)) -> j_parent j = t_root t -> j_origin j = Some O ->
     In j1 (joints (t_doc t1)) -> j_name j1 = j_name j -> pose_from (j_origin j1) = pose_id).
Proof.
  intros t t1 O np hs h. unfold transport_root_link_frame in h. pose proof (sd_doc t hs) as w.
  destruct (find_link (t_doc t) (t_root t)) as [rl|]; [|discriminate].
  destruct (mapM _ (t_doc t)) as [d1| | |] eqn:em; try discriminate. injection h as <-. cbn [t_doc t_ix t_root].
  apply mapM_F2 in em.
  assert (hm : forall k, In k (joints (t_doc t)) ->
    (mem (j_name k) (children (t_doc t) (t_ix t) (t_root t)) = true <-> j_parent k = t_root t)).
  { intros k hk. rewrite mem_in. destruct (resolve _ _ w (sd_index t hs)) as [js [hp [_ hc]]]. rewrite hc, in_map_iff. split.
    - intros [x [e hx]]. apply filter_In in hx. destruct hx as [hx he].
      assert (x = k) by (apply (name_inj (t_doc t)); try assumption; now apply (Permutation_in x hp)). subst x.
      now apply String.eqb_eq.
    - intros e. exists k. split; [reflexivity|]. apply filter_In.
      split; [now apply (Permutation_in k (Permutation_sym hp))|now apply String.eqb_eq]. }
  assert (hin : forall k, In (EJoint k) (t_doc t) -> In k (joints (t_doc t))).
  { intros k hk. unfold joints. apply in_flat_map. exists (EJoint k). split; [assumption|now left]. }
  split; [|split; [reflexivity|split; [reflexivity|]]].
  - apply (F2_impl_in _ _ _ _ em). intros e e' he h. destruct e as [l|k|s].
    + destruct (l_name l =? t_root t)%string eqn:er.
      * apply String.eqb_eq in er. unfold transport_link in h.
        destruct (match l_inertial l with Some i => _ | None => _ end) as [i'| | |] eqn:ei; try discriminate. cbn [rbind] in h.
        destruct (mapM _ (l_visuals l)) as [v'| | |] eqn:ev; try discriminate. cbn [rbind] in h.
        destruct (mapM _ (l_collisions l)) as [c'| | |] eqn:ec; try discriminate. cbn [rbind] in h. injection h as <-.
        assert (hsh : forall s s', mapM (fun s => let! o := premul (pose_inverse O) O (sh_origin s) false in Ok (mkShape o (sh_geometry s))) s = Ok s' ->
          moved_shapes O s s').
        { intros s s' hm'. apply mapM_F2 in hm'. apply (F2_impl _ _ _ _ hm'). intros a b hab.
          destruct (premul (pose_inverse O) O (sh_origin a) false) as [o'| | |] eqn:eo; try discriminate. injection hab as <-.
          split; [reflexivity|]. cbn [sh_origin]. now apply premul_moved in eo. }
        split; [reflexivity|]. split; [|intros n; contradiction]. intros _. cbn [l_inertial l_visuals l_collisions].
        split; [|split; [now apply hsh|now apply hsh]].
        destruct (l_inertial l) as [i|].
        -- destruct (premul (pose_inverse O) O (i_origin i) false) as [o'| | |] eqn:eo; try discriminate. injection ei as <-.
           split; [reflexivity|]. cbn [i_origin set_i_origin]. now apply premul_moved in eo.
        -- injection ei as <-. exact I.
      * injection h as <-. apply String.eqb_neq in er. split; [reflexivity|]. split; [intros n; contradiction|reflexivity].
    + destruct (mem (j_name k) _) eqn:ek.
      * destruct (premul (pose_inverse O) O (j_origin k) (np (j_name k))) as [o'| | |] eqn:eo; try discriminate. injection h as <-.
        apply hm in ek; [|now apply hin]. exists o'. split; [reflexivity|]. split; [intros _; now apply premul_moved in eo|contradiction].
      * injection h as <-. exists (j_origin k). split; [now destruct k|]. split; [|reflexivity].
        intros e. apply hm in e; [congruence|now apply hin].
    + injection h as <-. reflexivity.
  - intros j j1 hj hpj ho hj1 en.
    unfold joints in hj1. apply in_flat_map in hj1. destruct hj1 as [e1 [he1 hj1]].
    destruct e1 as [l|k|s]; try contradiction. destruct hj1 as [->|[]].
    destruct (F2_in' _ _ _ em _ he1) as [e [he h]].
    destruct e as [l|k|s].
    + destruct (l_name l =? t_root t)%string; [|discriminate]. destruct (transport_link _ _ l); discriminate.
    + pose proof (hin k he) as hk.
      assert (ek : k = j).
      { apply (name_inj (t_doc t)); try assumption. rewrite <- en. destruct (mem (j_name k) _); [|now injection h as <-].
        destruct (premul (pose_inverse O) O (j_origin k) (np (j_name k))); try discriminate. now injection h as <-. }
      subst k. rewrite (proj2 (hm j hj) hpj) in h. rewrite ho in h.
      destruct (premul (pose_inverse O) O (Some O) (np (j_name j))) as [o'| | |] eqn:eo; try discriminate. injection h as <-.
      cbn [j_origin set_origin]. now apply premul_self in eo.
    + discriminate.
Qed.

Lemma find_upd : forall {T} (d : list (elem T)) n f, (forall k, j_name (f k) = j_name k) ->
  find_joint (upd_joint d n f) n = option_map f (find_joint d n).
Proof.
  intros T d n f hf. unfold find_joint, upd_joint, joints. induction d as [|e d IH]; [reflexivity|].
  destruct e as [l|k|s]; cbn; try assumption.
  destruct (j_name k =? n)%string eqn:e; cbn.
  - rewrite hf, e. reflexivity.
  - rewrite e. assumption.
Qed.
Lemma F2_mapr : forall {A B C} (P : A -> B -> Prop) (Q : A -> C -> Prop) (g : B -> C) l l', Forall2 P l l' ->
  (forall a b, In a l -> P a b -> Q a (g b)) -> Forall2 Q l (map g l').
Proof.
  intros A B C P Q g l l' h. induction h as [|a b l l' h hs IH]; intros hp; cbn; constructor.
  - apply hp; [now left|assumption].
  - apply IH. intros x y hx. apply hp. now right.
Qed.
Lemma in_joint_elem : forall {T} (d : list (elem T)) k, In k (joints d) <-> In (EJoint k) d.
Proof.
  intros T d k. unfold joints. rewrite in_flat_map. split.
  - intros [e [he hk]]. destruct e as [l|x|s]; try contradiction. destruct hk as [->|[]]. assumption.
  - intros h. exists (EJoint k). split; [assumption|now left].
Qed.
Lemma in_link_elem : forall {T} (d : list (elem T)) k, In k (links d) <-> In (ELink k) d.
Proof.
  intros T d k. unfold links. rewrite in_flat_map. split.
  - intros [e [he hk]]. destruct e as [l|x|s]; try contradiction. destruct hk as [->|[]]. assumption.
  - intros h. exists (ELink k). split; [assumption|now left].
Qed.

Lemma ix_split_eq : forall n ix b, In n ix -> exists l1 l2, ix_split n b ix = (b ++ l1, l2) /\ ix = l1 ++ n :: l2.
Proof.
  intros n. induction ix as [|m ix IH]; intros b h; [contradiction|]. cbn.
  destruct (m =? n)%string eqn:e.
  - apply String.eqb_eq in e. subst m. exists [], ix. now rewrite app_nil_r.
  - destruct h as [->|h]; [rewrite String.eqb_refl in e; discriminate|].
    destruct (IH (b ++ [m]) h) as [l1 [l2 [e1 e2]]]. exists (m :: l1), l2. rewrite e1, e2, <- app_assoc. now split.
Qed.
Lemma ix_modify_perm : forall {T} (d : list (elem T)) ix n, In n ix -> Permutation (ix_modify d ix n) ix.
Proof.
  intros T d ix n h. unfold ix_modify. destruct (ix_split_eq n ix [] h) as [l1 [l2 [e1 e2]]]. rewrite e1. cbn [app].
  destruct (_ && _)%bool; [apply Permutation_refl|].
  rewrite e2. apply Permutation_trans with (n :: l1 ++ l2); [apply ix_insert_perm|apply Permutation_middle].
Qed.

Lemma flip_axis_eq : forall (k k' : Joint R), flip_joint_axis k = Ok k' ->
  type_of (j_type k) <> Some floating -> type_of (j_type k) <> Some planar ->
  (exists a, k' = set_axis k a) /\
  ((type_of (j_type k) = Some fixed) \/
   ((type_of (j_type k) = Some revolute \/ type_of (j_type k) = Some continuous \/ type_of (j_type k) = Some prismatic) /\
    axis_of k' = vneg (axis_of k))).
Proof.
  intros k k' h h1 h2. unfold flip_joint_axis in h.
  assert (ha : joint_axis k = axis_of k) by reflexivity. rewrite ha in h.
  set (n := (s_neg (a0 (axis_of k)), s_neg (a1 (axis_of k)), s_neg (a2 (axis_of k)))) in h.
  assert (en : n = vneg (axis_of k)) by reflexivity.
  assert (hgo : forall k', Ok (set_axis k (if a_eqb n (s_ofZ 1, s_ofZ 0, s_ofZ 0) then None else Some n)) = Ok k' ->
    (exists a, k' = set_axis k a) /\ axis_of k' = vneg (axis_of k)).
  { intros x hx. injection hx as <-. split; [eexists; reflexivity|]. rewrite <- en. unfold axis_of at 1. cbn [j_axis set_axis].
    destruct (a_eqb n _) eqn:e; [|reflexivity]. apply a_eqb_iff in e. rewrite e. reflexivity. }
  destruct (type_of (j_type k)) as [[| | | | |]|]; try congruence.
  - destruct (hgo _ h) as [g1 g2]. split; [assumption|]. right. split; [tauto|assumption].
  - destruct (hgo _ h) as [g1 g2]. split; [assumption|]. right. split; [tauto|assumption].
  - destruct (hgo _ h) as [g1 g2]. split; [assumption|]. right. split; [tauto|assumption].
  - injection h as <-. split; [exists (j_axis k); now destruct k|now left].
Qed.

Lemma flip_rel : forall (t t' : tree R) j b, sound t -> In j (joints (t_doc t)) ->
  type_of (j_type j) <> Some floating -> type_of (j_type j) <> Some planar ->
  flip_root_link_joint t (j_name j) b = Ok t' ->
  j_parent j = t_root t /\
  Forall2 (rel (t_root t) (pose_from (j_origin j)) (JT (t_root t) (pose_from (j_origin j)) (j_name j))) (t_doc t) (t_doc t') /\
  t_root t' = j_child j /\ Permutation (t_ix t') (t_ix t).
Proof.
  intros t t' j b hs hj hfl hpl h. pose proof (sd_doc t hs) as w. unfold flip_root_link_joint in h.
  rewrite (proj2 (find_joint_iff _ _ _ w) (conj hj eq_refl)) in h.
  destruct (j_parent j =? t_root t)%string eqn:ep; [|discriminate]. apply String.eqb_eq in ep. cbn [negb] in h.
  split; [assumption|]. set (O := pose_from (j_origin j)).
  destruct (match j_origin j with None => Ok t | Some o => _ end) as [t1| | |] eqn:et; try discriminate. cbn [rbind] in h.
  assert (H1 : Forall2 (rel (t_root t) O (JT1 (t_root t) O)) (t_doc t) (t_doc t1) /\ t_ix t1 = t_ix t /\
    (forall j1, In j1 (joints (t_doc t1)) -> j_name j1 = j_name j -> pose_from (j_origin j1) = pose_id)).
  { unfold O. destruct (j_origin j) as [o|] eqn:eo; cbn [pose_from].
    - destruct (transport_rel t t1 o _ hs et) as [h1 [h2 [_ h4]]]. split; [assumption|]. split; [assumption|].
      intros j1 hj1 e1. exact (h4 j j1 hj ep eo hj1 e1).
    - injection et as <-. split; [|split; [reflexivity|]].
      + apply F2_refl. intros [l|k|s] _; cbn.
        * split; [reflexivity|]. split; [|reflexivity]. intros _. split; [|split].
          -- unfold moved_inertial. destruct (l_inertial l); [|exact I]. split; [reflexivity|apply moved_id].
          -- apply F2_refl. intros s _. split; [reflexivity|apply moved_id].
          -- apply F2_refl. intros s _. split; [reflexivity|apply moved_id].
        * exists (j_origin k). split; [now destruct k|]. split; [intros _; apply moved_id|reflexivity].
        * reflexivity.
      + intros j1 hj1 e1. assert (j1 = j) by (now apply (name_inj (t_doc t))). subst j1. now rewrite eo. }
  clear et. destruct H1 as [H1 [ex horig]].
  destruct (existsb _ (joints (t_doc t1))); [discriminate|].
  rewrite find_upd in h by reflexivity.
  destruct (find_joint (t_doc t1) (j_name j)) as [j1|] eqn:e1; [|discriminate]. cbn [option_map] in h.
  destruct (flip_joint_axis (flip_joint_links j1)) as [k'| | |] eqn:ek; try discriminate. cbn [rbind] in h. injection h as <-.
  cbn [t_doc t_root t_ix].
  assert (i1 : In j1 (joints (t_doc t1)) /\ j_name j1 = j_name j).
  { unfold find_joint in e1. apply find_some in e1. destruct e1 as [e1 e2]. apply String.eqb_eq in e2. now split. }
  destruct i1 as [i1 en1].
  destruct (F2_in' _ _ _ (rel_joints _ _ _ _ _ H1) _ i1) as [j0 [hj0 [o1 [ej1 _]]]].
  assert (j0 = j) by (apply (name_inj (t_doc t)); try assumption; rewrite <- en1, ej1; reflexivity). subst j0.
  assert (tj : j_type (flip_joint_links j1) = j_type j) by (rewrite ej1; reflexivity).
  destruct (flip_axis_eq _ _ ek) as [[a ea] hax]; [now rewrite tj|now rewrite tj|].
  split; [|split].
  - unfold upd_joint. rewrite map_map. apply (F2_mapr _ _ _ _ _ H1). intros e e' he hr.
    destruct e as [l|k|s], e' as [l'|x|s']; cbn in hr; try contradiction; cbn; try assumption.
    apply in_joint_elem in he. destruct hr as [o' [ex' [m1 m2]]].
    assert (enx : j_name x = j_name k) by (now rewrite ex').
    destruct (j_name x =? j_name j)%string eqn:e.
    + cbn. rewrite e. cbn. apply String.eqb_eq in e.
      assert (k = j) by (apply (name_inj (t_doc t)); congruence). subst k.
      unfold JT. rewrite ea, ej1. cbn [j_name j_type j_mimic j_parent j_child j_origin set_axis flip_joint_links set_origin].
      split; [reflexivity|]. split; [reflexivity|]. split; [reflexivity|]. split; [|intros n; contradiction].
      intros _. split; [reflexivity|]. split; [reflexivity|]. split.
      * specialize (horig j1 i1 en1). rewrite ej1 in horig. exact horig.
      * intros q. 
        assert (hk : set_axis (flip_joint_links (set_origin j o1)) a = k') by (now rewrite ea, ej1).
        cbn [flip_joint_links set_origin j_name j_type j_child j_parent j_origin j_axis j_mimic] in hk.
        rewrite hk. apply jm_flip.
        -- rewrite ea, ej1. reflexivity.
        -- rewrite ea, ej1. reflexivity.
        -- rewrite tj in hax. destruct hax as [hax|[hax hax2]]; [now left|]. right. split; [assumption|].
           rewrite hax2. rewrite ej1. reflexivity.
    + rewrite e. cbn. apply String.eqb_neq in e. rewrite ex'. unfold JT.
      cbn [j_name j_type j_mimic j_parent j_child j_origin set_origin].
      split; [reflexivity|]. split; [reflexivity|]. split; [reflexivity|]. split; [congruence|].
      intros _. split; [reflexivity|]. split; [reflexivity|]. split; [reflexivity|]. split; [assumption|].
      intros hn. rewrite (m2 hn). now destruct k.
  - rewrite ej1. reflexivity.
  - rewrite <- ex. apply ix_modify_perm. rewrite ex.
    apply (Permutation_in _ (Permutation_sym (sd_index t hs))). unfold joint_names. now apply in_map.
Qed.

(** ** The tree after a flip *)

Section Step.
Variable t t' : tree R.
Variable j : Joint R.
Hypothesis hs : sound t.
Hypothesis hj : In j (joints (t_doc t)).
Notation d := (t_doc t).
Notation d' := (t_doc t').
Notation root := (t_root t).
Notation O := (pose_from (j_origin j)).
Hypothesis hpj : j_parent j = root.
Hypothesis HR : Forall2 (rel root O (JT root O (j_name j))) d d'.
Hypothesis hroot : t_root t' = j_child j.
Hypothesis hix : Permutation (t_ix t') (t_ix t).

Lemma HJ : Forall2 (JT root O (j_name j)) (joints d) (joints d').
Proof. exact (rel_joints _ _ _ _ _ HR). Qed.
Lemma names_eq : joint_names d' = joint_names d.
Proof. symmetry. apply (F2_map _ _ _ _ _ HJ). intros a b [h _]. now symmetry. Qed.
Lemma lnames_eq : link_names d' = link_names d.
Proof. symmetry. apply (F2_map _ _ _ _ _ (rel_links _ _ _ _ _ HR)). intros a b [h _]. now symmetry. Qed.
Lemma child_eq : map (@j_child R) (joints d') = map (fun k => if (j_name k =? j_name j)%string then root else j_child k) (joints d).
Proof.
  symmetry. apply (F2_map _ _ _ _ _ (F2_impl_in _ (fun k k' => In k (joints d) /\ JT root O (j_name j) k k') _ _ HJ (fun a b h1 h2 => conj h1 h2))).
  intros a b [ia [_ [_ [_ [h1 h2]]]]]. destruct (j_name a =? j_name j)%string eqn:e.
  - apply String.eqb_eq in e. assert (a = j) by (apply (name_inj d); try assumption; apply (sd_doc t hs)). subst a.
    rewrite <- hpj. symmetry. apply (h1 eq_refl).
  - apply String.eqb_neq in e. symmetry. apply (h2 e).
Qed.
Lemma is_r : is_root d root.
Proof. now apply (sd_root t hs). Qed.

Lemma step_sound : sound t'.
Proof.
  pose proof (sd_doc t hs) as w.
  assert (hnc : j_child j <> root) by (apply (proj2 is_r j hj)).
  assert (nj : forall k, In k (joints d) -> j_name k = j_name j -> k = j) by (intros k hk e; now apply (name_inj d)).
  constructor.
  - constructor.
    + rewrite lnames_eq. apply (wc_links d w).
    + rewrite names_eq. apply (wc_joints d w).
    + rewrite child_eq. pose proof (wc_children d w) as hc. pose proof (wc_joints d w) as hn. unfold joint_names in hn.
      pose proof (proj2 is_r) as hr. revert hc hn hr. generalize (joints d).
      induction l as [|k l IH]; intros hc hn hr; [constructor|]. cbn in hc, hn |- *.
      inversion hc as [|? ? c1 c2]; subst. inversion hn as [|? ? m1 m2]; subst.
      constructor; [|apply IH; try assumption; intros x hx; apply hr; now right].
      intros hi. apply in_map_iff in hi. destruct hi as [x [ex hx]].
      destruct (j_name k =? j_name j)%string eqn:ek.
      * apply String.eqb_eq in ek. destruct (j_name x =? j_name j)%string eqn:exj.
        -- apply String.eqb_eq in exj. apply m1. rewrite ek, <- exj. now apply in_map.
        -- apply (hr x); [now right|assumption].
      * destruct (j_name x =? j_name j)%string eqn:exj.
        -- apply (hr k); [now left|now symmetry].
        -- apply c1. rewrite <- ex. now apply in_map.
    + intros k' hk'. destruct (F2_in' _ _ _ HJ k' hk') as [k [hk [_ [_ [_ [h1 h2]]]]]]. rewrite lnames_eq.
      destruct (wc_ends d w k hk) as [w1 w2].
      destruct (string_dec (j_name k) (j_name j)) as [e|ne].
      * destruct (h1 e) as [a1 [a2 _]]. rewrite a1, a2. now split.
      * destruct (h2 ne) as [a1 [a2 _]]. rewrite a1, a2. now split.
  - intros x. rewrite hroot. unfold is_root. rewrite lnames_eq.
    assert (hch : (forall k', In k' (joints d') -> j_child k' <> x) <->
      (forall k, In k (joints d) -> (if (j_name k =? j_name j)%string then root else j_child k) <> x)).
    { assert (hq : forall y, In y (map (@j_child R) (joints d')) <-> In y (map (fun k => if (j_name k =? j_name j)%string then root else j_child k) (joints d))) by (rewrite child_eq; tauto).
      split; intros hh k hk e.
      - assert (hi : In x (map (@j_child R) (joints d'))) by (apply hq, in_map_iff; exists k; now split).
        apply in_map_iff in hi. destruct hi as [k' [e' hk']]. exact (hh k' hk' e').
      - assert (hi : In x (map (fun k => if (j_name k =? j_name j)%string then root else j_child k) (joints d))) by (apply hq, in_map_iff; exists k; now split).
        apply in_map_iff in hi. destruct hi as [k' [e' hk']]. exact (hh k' hk' e'). }
    rewrite hch. split.
    + intros [h1 h2]. destruct (string_dec x (j_child j)) as [e|ne]; [assumption|]. exfalso.
      assert (hx : is_root d x).
      { split; [assumption|]. intros k hk e. specialize (h2 k hk). destruct (j_name k =? j_name j)%string eqn:ek; [|contradiction].
        apply String.eqb_eq in ek. rewrite (nj k hk ek) in e. congruence. }
      apply (sd_root t hs) in hx. apply (h2 j hj). rewrite String.eqb_refl. now symmetry.
    + intros ->. split; [apply (wc_ends d w j hj)|]. intros k hk e.
      destruct (j_name k =? j_name j)%string eqn:ek; [congruence|]. apply String.eqb_neq in ek. apply ek.
      f_equal. now apply (child_inj d).
  - rewrite names_eq. apply Permutation_trans with (t_ix t); [assumption|apply (sd_index t hs)].
Qed.

(** Joints that are not at the root are unchanged. *)
Lemma deep_same : forall k, In k (joints d) -> j_parent k <> root -> In k (joints d').
Proof.
  intros k hk hp. destruct (F2_in _ _ _ HJ k hk) as [k' [hk' [_ [_ [_ [_ h2]]]]]].
  assert (ne : j_name k <> j_name j).
  { intros e. apply hp. rewrite (name_inj d k j (sd_doc t hs) hk hj e). assumption. }
  destruct (h2 ne) as [_ [_ [_ [_ h]]]]. now rewrite <- (h hp).
Qed.
Lemma deep_path : forall a p l, path d a p l -> (exists q, q <> [] /\ path d root q a) -> path d' a p l.
Proof.
  intros a p l h [q [hq h0]]. induction h as [|p k h IH hk]; [constructor|].
  constructor; [exact IH|]. apply deep_same; [assumption|]. intros e.
  pose proof (path_app d root a (j_parent k) q p h0 h) as hh. rewrite e in hh.
  assert (hn : q ++ p <> []) by (destruct q; [contradiction|discriminate]).
  destruct (q ++ p) as [|x y _] using rev_ind; [contradiction|]. apply path_snoc_inv in hh.
  destruct hh as [e1 [hx _]]. apply (proj2 is_r x hx). now symmetry.
Qed.

Lemma joint_j : exists j', In j' (joints d') /\ j_parent j' = j_child j /\ j_child j' = root /\ pose_from (j_origin j') = pose_id /\
  forall q, (forall v, joint_motion q j' (joint_motion q j v) = v) /\ rigid_motion (joint_motion q j').
Proof.
  destruct (F2_in _ _ _ HJ j hj) as [j' [hj' [_ [_ [_ [h1 _]]]]]]. destruct (h1 eq_refl) as [a1 [a2 [a3 a4]]].
  exists j'. split; [assumption|]. split; [assumption|]. split; [congruence|]. split; assumption.
Qed.

Definition Gof (q : config) (j' : Joint R) : vec3 -> vec3 :=
  fun v => joint_motion q j' (pose_motion (pose_inverse O) v).

(** The new path to a link, and where it leads. *)
Lemma step_path : forall q, exists G, rigid_motion G /\
  forall p l, path d root p l -> exists p', path d' (t_root t') p' l /\
    (l <> root -> forall v, placement q p' v = G (placement q p v)) /\
    (l = root -> forall v, placement q p' (pose_motion (pose_inverse O) v) = G (placement q p v)).
Proof.
  intros q. destruct joint_j as [j' [hj' [a1 [a2 [a3 a4]]]]]. destruct (a4 q) as [a5 a6].
  exists (Gof q j'). split; [apply (rm_comp (joint_motion q j') (pose_motion (pose_inverse O))); [assumption|apply rm_pose]|].
  intros p l h. rewrite hroot. destruct p as [|k p].
  - apply path_nil_inv in h. subst l. exists (cons j' nil). split.
    + rewrite <- a1, <- a2. apply (path_cons d' j' []); [assumption|constructor].
    + split; [congruence|]. intros _ v. cbn [placement]. rewrite a3, pm_id. reflexivity.
  - assert (hl : l <> root).
    { intros e. subst l. pose proof h as h'. destruct (p) as [|x y _] using rev_ind.
      - apply path_cons_inv in h. destruct h as [_ [hk h]]. apply path_nil_inv in h. now apply (proj2 is_r k hk).
      - change (k :: y ++ [x]) with ((k :: y) ++ [x]) in h'. apply path_snoc_inv in h'. destruct h' as [e [hx _]].
        apply (proj2 is_r x hx). now symmetry. }
    apply path_cons_inv in h. destruct h as [ek [hk h]].
    assert (hdeep : path d' (j_child k) p l).
    { apply deep_path; [assumption|]. exists (cons k nil). split; [discriminate|]. rewrite ek. apply (path_cons d k []); [assumption|constructor]. }
    destruct (string_dec (j_name k) (j_name j)) as [en|ne].
    + assert (k = j) by (apply (name_inj d); try assumption; apply (sd_doc t hs)). subst k.
      exists p. split; [assumption|]. split; [|contradiction]. intros _ v. cbn [placement]. unfold Gof.
      rewrite (proj1 (C50_inverse_proof O _)), a5. reflexivity.
    + destruct (F2_in _ _ _ HJ k hk) as [k' [hk' [_ [_ [_ [_ h2]]]]]]. destruct (h2 ne) as [b1 [b2 [b3 [b4 _]]]].
      exists (j' :: k' :: p). split.
      * rewrite <- a1. apply path_cons; [assumption|]. rewrite a2. rewrite ek, <- b1. apply path_cons; [assumption|]. now rewrite b2.
      * split; [|contradiction]. intros _ v. cbn [placement]. unfold Gof. rewrite a3, pm_id. f_equal.
        rewrite b3. apply (b4 (eq_sym ek)).
Qed.

Lemma step_mechanism : same_mechanism d root d' (t_root t').
Proof.
  split.
  - apply (F2_impl_in _ _ _ _ HR). intros e e' he h. destruct e as [l|k|s], e' as [l'|k'|s']; cbn in h |- *; try contradiction; try assumption.
    + symmetry. apply (proj1 h).
    + destruct h as [h1 [h2 [h3 [h4 h5]]]]. split; [now symmetry|]. split; [now symmetry|]. split; [now symmetry|].
      destruct (string_dec (j_name k) (j_name j)) as [e|ne].
      * right. destruct (h4 e) as [x1 [x2 _]]. split; now symmetry.
      * left. destruct (h5 ne) as [x1 [x2 _]]. split; now symmetry.
  - intros q. destruct (step_path q) as [G [hG hp]]. exists G. split; [assumption|].
    apply (F2_impl _ _ _ _ HR). intros e e' h. destruct e as [l|k|s], e' as [l'|k'|s']; try exact I.
    cbn in h. destruct h as [en [h1 h2]]. intros p hpath. destruct (hp p _ hpath) as [p' [hp' [g1 g2]]].
    exists p'. split; [now rewrite en|]. destruct (string_dec (l_name l) root) as [e|ne].
    + destruct (h1 e) as [m1 [m2 m3]]. specialize (g2 e).
      assert (hpl : forall o o', moved_origin O o o' -> same_place q G p p' o o').
      { intros o o' ho v. rewrite ho. apply g2. }
      assert (hsh : forall s s', moved_shapes O s s' -> same_shapes q G p p' s s').
      { intros s s' hsh. apply (F2_impl _ _ _ _ hsh). intros x x' [x1 x2]. split; [assumption|now apply hpl]. }
      split; [now symmetry|]. split; [|split; now apply hsh].
      unfold moved_inertial in m1. unfold same_inertials. destruct (l_inertial l), (l_inertial l'); try assumption.
      destruct m1 as [m1 m1']. split; [assumption|now apply hpl].
    + rewrite (h2 ne). specialize (g1 ne).
      assert (hpl : forall o, same_place q G p p' o o) by (intros o v; apply g1).
      split; [reflexivity|]. split; [|split; apply F2_refl; intros x _; split; try reflexivity; apply hpl].
      unfold same_inertials. destruct (l_inertial l); [|exact I]. split; [reflexivity|apply hpl].
Qed.
End Step.

(** ** Several flips *)

Lemma F2_trans : forall {A B C} (P : A -> B -> Prop) (Q : B -> C -> Prop) (S : A -> C -> Prop) l l' l'',
  Forall2 P l l' -> Forall2 Q l' l'' -> (forall a b c, P a b -> Q b c -> S a c) -> Forall2 S l l''.
Proof.
  intros A B C P Q S l l' l'' h. revert l''. induction h as [|a b l l' h hs IH]; intros l'' h' hp; inversion h'; subst; constructor.
  - now apply hp with b.
  - now apply IH.
Qed.
Lemma place_trans : forall q F G p p' p'' o o' o'', same_place q F p p' o o' -> same_place q G p' p'' o' o'' ->
  same_place q (fun v => G (F v)) p p'' o o''.
Proof. intros q F G p p' p'' o o' o'' h1 h2 v. now rewrite h2, h1. Qed.
Lemma body_trans : forall q F G p p' p'' l l' l'', same_body q F p p' l l' -> same_body q G p' p'' l' l'' ->
  same_body q (fun v => G (F v)) p p'' l l''.
Proof.
  intros q F G p p' p'' l l' l'' [a1 [a2 [a3 a4]]] [b1 [b2 [b3 b4]]]. split; [congruence|]. split; [|split].
  - unfold same_inertials in *. destruct (l_inertial l), (l_inertial l'), (l_inertial l''); try contradiction; try exact I.
    destruct a2 as [a2 a2'], b2 as [b2 b2']. split; [congruence|]. now apply place_trans with p' (i_origin i0).
  - apply (F2_trans _ _ _ _ _ _ a3 b3). intros x y z [c1 c2] [d1 d2]. split; [congruence|]. now apply place_trans with p' (sh_origin y).
  - apply (F2_trans _ _ _ _ _ _ a4 b4). intros x y z [c1 c2] [d1 d2]. split; [congruence|]. now apply place_trans with p' (sh_origin y).
Qed.
Lemma F2_and : forall {A B} (P Q : A -> B -> Prop) l l', Forall2 P l l' -> Forall2 Q l l' -> Forall2 (fun a b => P a b /\ Q a b) l l'.
Proof. intros A B P Q l l' h. induction h; intros h'; inversion h'; subst; constructor; auto. Qed.
Lemma mech_trans : forall d r d' r' d'' r'', same_mechanism d r d' r' -> same_mechanism d' r' d'' r'' -> same_mechanism d r d'' r''.
Proof.
  intros d r d' r' d'' r'' [a1 a2] [b1 b2]. split.
  - apply (F2_trans _ _ _ _ _ _ a1 b1). intros x y z hx hy.
    destruct x as [l|k|s], y as [l'|k'|s'], z as [l''|k''|s'']; cbn in *; try contradiction; try congruence.
    destruct hx as [x1 [x2 [x3 x4]]], hy as [y1 [y2 [y3 y4]]]. split; [congruence|]. split; [congruence|]. split; [congruence|].
    destruct x4 as [[x4 x5]|[x4 x5]], y4 as [[y4 y5]|[y4 y5]]; [left|right|right|left]; split; congruence.
  - intros q. destruct (a2 q) as [F [hF a3]]. destruct (b2 q) as [G [hG b3]].
    exists (fun v => G (F v)). split; [now apply rm_comp|].
    apply (F2_trans _ _ _ _ _ _ (F2_and _ _ _ _ a1 a3) (F2_and _ _ _ _ b1 b3)). intros x y z [ex hx] [ey hy].
    destruct x as [l|k|s], y as [l'|k'|s'], z as [l''|k''|s'']; cbn in ex, ey; try exact I; try contradiction.
    intros p hp. destruct (hx p hp) as [p' [hp' h1]]. destruct (hy p' hp') as [p'' [hp'' h2]].
    exists p''. split; [assumption|]. exact (body_trans q F G p p' p'' l l' l'' h1 h2).
Qed.
Lemma mech_refl : forall d r, same_mechanism d r d r.
Proof.
  intros d r. split.
  - apply F2_refl. intros [l|k|s] _; cbn; try reflexivity. split; [reflexivity|]. split; [reflexivity|]. split; [reflexivity|]. left. now split.
  - intros q. exists (fun v => v). split; [exact rm_id|]. apply F2_refl. intros [l|k|s] _; try exact I.
    intros p hp. exists p. split; [assumption|]. split; [reflexivity|]. split; [|split; apply F2_refl; intros s _; now split].
    unfold same_inertials. destruct (l_inertial l); [now split|exact I].
Qed.

(** The joints whose type define_as_root_link can flip. *)
Definition one_dof (j : Joint R) : Prop :=
  type_of (j_type j) = Some fixed \/ type_of (j_type j) = Some revolute \/
  type_of (j_type j) = Some continuous \/ type_of (j_type j) = Some prismatic.
Lemma one_dof_or : forall j, one_dof j \/ (type_of (j_type j) = None \/ type_of (j_type j) = Some floating \/ type_of (j_type j) = Some planar).
Proof. intros j. unfold one_dof. destruct (type_of (j_type j)) as [[| | | | |]|]; tauto. Qed.

Lemma path_tail : forall (d : list (elem R)) r j p l, path d r (j :: p) l -> path d (j_child j) p l /\ j_parent j = r /\ In j (joints d).
Proof. intros d r j p l h. apply path_cons_inv in h. destruct h as [h1 [h2 h3]]. repeat split; try assumption. now symmetry. Qed.

Lemma flip_all_ok : forall p (t t' : tree R) link, sound t -> path (t_doc t) (t_root t) p link ->
  (forall k, In k p -> one_dof k) -> flip_all t (map (@j_name R) p) = Ok t' ->
  sound t' /\ t_root t' = link /\ same_mechanism (t_doc t) (t_root t) (t_doc t') (t_root t').
Proof.
  induction p as [|j p IH]; intros t t' link hs hp hd h; cbn [map flip_all] in h.
  - injection h as <-. apply path_nil_inv in hp. split; [assumption|]. split; [assumption|apply mech_refl].
  - destruct (path_tail _ _ _ _ _ hp) as [hp' [ep hj]].
    destruct (flip_root_link_joint t (j_name j) _) as [t1| | |] eqn:e1; try discriminate. cbn [rbind] in h.
    assert (hj1 : one_dof j) by (apply hd; now left).
    destruct (flip_rel t t1 j (match map (@j_name R) p with [] => false | _ => true end) hs hj) as [_ [HR [hr hix]]].
    + destruct hj1 as [e|[e|[e|e]]]; rewrite e; discriminate.
    + destruct hj1 as [e|[e|[e|e]]]; rewrite e; discriminate.
    + exact e1.
    + pose proof (step_sound t t1 j hs hj ep HR hr hix) as s1.
      pose proof (step_mechanism t t1 j hs hj ep HR hr) as m1.
      destruct (IH t1 t' link s1) as [s2 [r2 m2]]; try assumption.
      * rewrite hr. apply (deep_path t t1 j hs hj ep HR _ _ _ hp').
        exists (cons j nil). split; [discriminate|]. rewrite <- ep. apply (path_cons _ j nil); [assumption|constructor].
      * intros k hk. apply hd. now right.
      * split; [assumption|]. split; [assumption|]. now apply mech_trans with (t_doc t1) (t_root t1).
Qed.

Lemma path_to_root_eq : forall fuel (t : tree R) cur names, well_connected (t_doc t) ->
  path_to_root fuel t cur = Ok names ->
  exists p, path (t_doc t) (t_root t) p cur /\ rev names = map (@j_name R) p /\ forall k, In k p -> one_dof k.
Proof.
  induction fuel as [|fuel IH]; intros t cur names w h; cbn [path_to_root] in h.
  - destruct (cur =? t_root t)%string eqn:e; [|discriminate]. injection h as <-. apply String.eqb_eq in e. subst cur.
    exists nil. split; [constructor|]. split; [reflexivity|intros k []].
  - destruct (cur =? t_root t)%string eqn:e.
    + injection h as <-. apply String.eqb_eq in e. subst cur.
      exists nil. split; [constructor|]. split; [reflexivity|intros k []].
    + destruct (find_child (t_doc t) cur) as [j|] eqn:ej; [|discriminate].
      apply find_child_iff in ej; [|assumption]. destruct ej as [hj ec].
      assert (hgo : one_dof j -> (let! p := path_to_root fuel t (j_parent j) in Ok (j_name j :: p)) = Ok names ->
        exists p, path (t_doc t) (t_root t) p cur /\ rev names = map (@j_name R) p /\ forall k, In k p -> one_dof k).
      { intros ho hh. destruct (path_to_root fuel t (j_parent j)) as [ns| | |] eqn:er; try discriminate. injection hh as <-.
        destruct (IH t (j_parent j) ns w er) as [p [h1 [h2 h3]]]. exists (p ++ cons j nil). split; [|split].
        - rewrite <- ec. now constructor.
        - cbn [rev]. now rewrite h2, map_app.
        - intros k hk. apply in_app_or in hk. destruct hk as [hk|[<-|[]]]; [now apply h3|assumption]. }
      unfold one_dof in hgo at 1. destruct (type_of (j_type j)) as [[| | | | |]|]; try discriminate; apply hgo; try tauto.
Qed.

(** ** When it succeeds *)

Lemma usual_id : usual_angles pose_id.
Proof.
  unfold usual_angles, pose_id. cbn [p_rpy]. change (@a_zero R RScalar) with (0,0,0). unfold vx, vy, vz. cbn [fst snd].
  pose proof PI_RGT_0. lra.
Qed.
Lemma usual_unique : forall p q, usual_angles p -> usual_angles q -> same_motion p q -> p = q.
Proof.
  intros [xyz [[x y] z]] [xyz' [[x' y'] z']] (hx&hy&hz) (hx'&hy'&hz') h.
  cbn [p_rpy vx vy vz fst snd] in *. unfold vx, vy, vz in *. cbn [fst snd] in *.
  assert (ht : xyz = xyz').
  { specialize (h (0,0,0)). unfold pose_motion in h. cbn [p_xyz p_rpy] in h.
    assert (z0 : forall M, mapply M (0,0,0) = (0,0,0)).
    { intros M. unfold mapply, vx, vy, vz. cbn [fst snd]. pair_eq; ring. }
    now rewrite !z0, !vadd_0_l in h. }
  subst xyz'. f_equal.
  assert (hm : forall v, mapply (tmat (euler_tf x y z (0,0,0))) v = mapply (tmat (euler_tf x' y' z' (0,0,0))) v).
  { intros v. specialize (h v). unfold pose_motion in h. cbn [p_xyz p_rpy] in h.
    pose proof (euler_apply (x,y,z) (0,0,0) v) as e1. pose proof (euler_apply (x',y',z') (0,0,0) v) as e2.
    cbn [vx vy vz fst snd] in e1, e2. unfold vx, vy, vz in e1, e2. cbn [fst snd] in e1, e2. rewrite e1, e2.
    rewrite <- (vadd_vneg (mapply (rpy_mat (x, y, z)) v) xyz), h. apply vadd_vneg. }
  pose proof (hm (1,0,0)) as m1. pose proof (hm (0,1,0)) as m2. pose proof (hm (0,0,1)) as m3.
  unfold euler_tf in m1, m2, m3. rewrite !tmat_mk in m1, m2, m3.
  unfold mapply, of_rows, vx, vy, vz in m1, m2, m3. cbn [fst snd] in m1, m2, m3.
  injection m1 as a1 a2 a3. injection m2 as b1 b2 b3. injection m3 as c1 c2 c3.
  rewrite ?Rmult_1_r, ?Rmult_0_r, ?Rplus_0_r, ?Rplus_0_l in *.
  assert (ey : y = y').
  { assert (es : sin y = sin y') by lra. 
    rewrite <- (asin_sin y), <- (asin_sin y'), es; [reflexivity|lra|lra]. }
  subst y'. assert (cy : 0 < cos y) by (apply cos_gt_0; lra).
  assert (ex : x = x').
  { apply angle_unique; try assumption.
    - apply Rmult_eq_reg_l with (cos y); lra.
    - apply Rmult_eq_reg_l with (cos y); lra. }
  assert (ez : z = z').
  { apply angle_unique; try assumption.
    - apply Rmult_eq_reg_r with (cos y); lra.
    - apply Rmult_eq_reg_r with (cos y); lra. }
  now subst.
Qed.

Lemma premul_total : forall O o np, usual_angles O -> usual_angles (pose_from o) ->
  exists o', premul (pose_inverse O) O o np = Ok o'.
Proof.
  intros O o np hO ho. unfold premul. rewrite (proj2 (pose_eqb_iff _ _) eq_refl). cbn [negb].
  destruct (pose_eqb (pose_from o) O) eqn:e; [eexists; reflexivity|].
  rewrite pose_to_R. destruct (is_zero (p_xyz _) && is_zero (p_rpy _))%bool eqn:z; [|eexists; reflexivity].
  exfalso. apply andb_true_iff in z. destruct z as [z1 z2]. apply is_zero_iff in z1. apply is_zero_iff in z2.
  assert (hn : pose_from o <> O) by (intros h; apply pose_eqb_iff in h; congruence). apply hn.
  apply usual_unique; try assumption. intros v.
  pose proof (C50_product_proof (pose_inverse O) (pose_from o) v) as hp.
  set (m := pose_mul (pose_inverse O) (pose_from o)) in *.
  assert (hid : pose_motion m v = v).
  { unfold pose_motion. rewrite z1, z2, rpy_mat_0. apply vadd_0_r. }
  rewrite hid in hp. apply (f_equal (pose_motion O)) in hp. rewrite (proj2 (C50_inverse_proof O _)) in hp. now symmetry.
Qed.

Lemma mapM_total : forall {A B} (f : A -> res B) l, (forall a, In a l -> exists b, f a = Ok b) -> exists l', mapM f l = Ok l'.
Proof.
  intros A B f l. induction l as [|a l IH]; intros h; [eexists; reflexivity|]. cbn.
  destruct (h a (or_introl eq_refl)) as [b eb]. rewrite eb. cbn [rbind].
  destruct IH as [l' e]; [intros x hx; apply h; now right|]. rewrite e. eexists. reflexivity.
Qed.

(** The origins attached to a link have angles in the usual ranges. *)
Definition usual_at (d : list (elem R)) (x : string) : Prop :=
  (forall k, In k (joints d) -> j_parent k = x -> usual_angles (pose_from (j_origin k))) /\
  (forall l o, In l (links d) -> l_name l = x -> In o (origins_of (ELink l)) -> usual_angles (pose_from o)).

Lemma transport_total : forall (t : tree R) O np, sound t -> usual_angles O -> usual_at (t_doc t) (t_root t) ->
  exists t1, transport_root_link_frame t O np = Ok t1.
Proof.
  intros t O np hs hO [hk hl]. unfold transport_root_link_frame. pose proof (sd_doc t hs) as w.
  destruct (find_link (t_doc t) (t_root t)) as [rl|] eqn:el.
  2: { exfalso. pose proof (proj1 (is_r t hs)) as hr. unfold link_names in hr. apply in_map_iff in hr. destruct hr as [l [e h]].
       unfold find_link in el. apply find_none with (x := l) in el; [|assumption]. rewrite e, String.eqb_refl in el. discriminate. }
  destruct (mapM_total (fun e : elem R =>
        match e with
        | EJoint j =>
            if mem (j_name j) (children (t_doc t) (t_ix t) (t_root t)) then
              let! o := premul (pose_inverse O) O (j_origin j) (np (j_name j)) in
              Ok (EJoint (set_origin j o))
            else Ok e
        | ELink l =>
            if (l_name l =? t_root t)%string then
              let! l' := transport_link (pose_inverse O) O l in Ok (ELink l')
            else Ok e
        | EOther s => Ok e
        end) (t_doc t)) as [d1 e1]; [|rewrite e1; eexists; reflexivity].
  intros [l|k|s] he; [| |eexists; reflexivity].
  - destruct (l_name l =? t_root t)%string eqn:e; [|eexists; reflexivity]. apply String.eqb_eq in e.
    apply in_link_elem in he. specialize (hl l). cbn [origins_of] in hl.
    assert (hi : forall o, In o (origins_of (ELink l)) -> usual_angles (pose_from o)) by (intros o; now apply hl).
    cbn [origins_of] in hi. unfold transport_link.
    assert (hsh : forall s, (forall x, In x s -> usual_angles (pose_from (sh_origin x))) ->
      exists s', mapM (fun s => let! o := premul (pose_inverse O) O (sh_origin s) false in Ok (mkShape o (sh_geometry s))) s = Ok s').
    { intros s hx. apply mapM_total. intros a ha. destruct (premul_total O (sh_origin a) false hO (hx a ha)) as [o' eo].
      rewrite eo. eexists. reflexivity. }
    destruct (hsh (l_visuals l)) as [v' ev].
    { intros x hx. apply hi. apply in_or_app. right. apply in_or_app. left. now apply in_map. }
    destruct (hsh (l_collisions l)) as [c' ec].
    { intros x hx. apply hi. apply in_or_app. right. apply in_or_app. right. now apply in_map. }
    destruct (l_inertial l) as [i|].
    + destruct (premul_total O (i_origin i) false hO) as [o' eo]; [apply hi; apply in_or_app; left; now left|].
      rewrite eo. cbn [rbind]. rewrite ev. cbn [rbind]. rewrite ec. eexists. reflexivity.
    + cbn [rbind]. rewrite ev. cbn [rbind]. rewrite ec. eexists. reflexivity.
  - destruct (mem (j_name k) _) eqn:em; [|eexists; reflexivity].
    apply in_joint_elem in he.
    assert (hp : j_parent k = t_root t).
    { apply mem_in in em. destruct (resolve _ _ w (sd_index t hs)) as [js [hp [_ hc]]]. rewrite hc in em.
      apply in_map_iff in em. destruct em as [x [ex hx]]. apply filter_In in hx. destruct hx as [hx hxp].
      assert (x = k) by (apply (name_inj (t_doc t)); try assumption; now apply (Permutation_in x hp)). subst x.
      now apply String.eqb_eq. }
    destruct (premul_total O (j_origin k) (np (j_name k)) hO (hk k he hp)) as [o' eo]. rewrite eo. eexists. reflexivity.
Qed.

Lemma flip_total : forall (t : tree R) j b, sound t -> In j (joints (t_doc t)) -> j_parent j = t_root t -> one_dof j ->
  usual_at (t_doc t) (t_root t) -> exists t', flip_root_link_joint t (j_name j) b = Ok t'.
Proof.
  intros t j b hs hj hp ho hu. pose proof (sd_doc t hs) as w. unfold flip_root_link_joint.
  rewrite (proj2 (find_joint_iff _ _ _ w) (conj hj eq_refl)), hp, String.eqb_refl. cbn [negb].
  assert (H1 : exists t1, match j_origin j with None => Ok t | Some o => transport_root_link_frame t o (fun m => b && (m =? j_name j))%string%bool end = Ok t1 /\
    map (fun k => (j_name k, j_child k, j_type k)) (joints (t_doc t1)) = map (fun k => (j_name k, j_child k, j_type k)) (joints (t_doc t))).
  { pose proof (proj1 hu j hj hp) as huj. destruct (j_origin j) as [o|]; [|exists t; now split].
    destruct (transport_total t o (fun m => b && (m =? j_name j))%string%bool hs huj hu) as [t1 e1]. exists t1. split; [assumption|].
    destruct (transport_rel t t1 o _ hs e1) as [hR _]. symmetry. apply (F2_map _ _ _ _ _ (rel_joints _ _ _ _ _ hR)).
    intros k k' [o' [-> _]]. reflexivity. }
  destruct H1 as [t1 [e1 em]]. rewrite e1. cbn [rbind].
  assert (hmap : forall k1, In k1 (joints (t_doc t1)) -> exists k, In k (joints (t_doc t)) /\ j_name k = j_name k1 /\ j_child k = j_child k1 /\ j_type k = j_type k1).
  { intros k1 hk1. assert (hi : In (j_name k1, j_child k1, j_type k1) (map (fun k => (j_name k, j_child k, j_type k)) (joints (t_doc t)))).
    { rewrite <- em. apply (in_map (fun k => (j_name k, j_child k, j_type k)) _ _ hk1). }
    apply in_map_iff in hi. destruct hi as [k [e hk]]. injection e as x1 x2 x3. exists k. now repeat split. }
  destruct (existsb _ (joints (t_doc t1))) eqn:ee.
  { exfalso. apply existsb_exists in ee. destruct ee as [k1 [hk1 ee]]. apply andb_true_iff in ee. destruct ee as [ee _].
    apply String.eqb_eq in ee. destruct (hmap k1 hk1) as [k [hk [_ [ec _]]]]. apply (proj2 (is_r t hs) k hk). congruence. }
  rewrite find_upd by reflexivity.
  destruct (find_joint (t_doc t1) (j_name j)) as [j1|] eqn:ef.
  - cbn [option_map]. unfold find_joint in ef. apply find_some in ef. destruct ef as [i1 n1]. apply String.eqb_eq in n1.
    destruct (hmap j1 i1) as [k [hk [en [_ ety]]]]. assert (k = j) by (apply (name_inj (t_doc t)); congruence). subst k.
    assert (hf : exists k', flip_joint_axis (flip_joint_links j1) = Ok k').
    { unfold flip_joint_axis. cbn [j_type flip_joint_links]. rewrite <- ety.
      destruct ho as [e|[e|[e|e]]]; rewrite e; eexists; reflexivity. }
    destruct hf as [k' ek]. rewrite ek. eexists. reflexivity.
  - exfalso. assert (hi : In (j_name j, j_child j, j_type j) (map (fun k => (j_name k, j_child k, j_type k)) (joints (t_doc t1)))).
    { rewrite em. apply (in_map (fun k => (j_name k, j_child k, j_type k)) _ _ hj). }
    apply in_map_iff in hi. destruct hi as [k [e hk]]. injection e as x1 x2 x3.
    unfold find_joint in ef. apply find_none with (x := k) in ef; [|assumption]. rewrite x1, String.eqb_refl in ef. discriminate.
Qed.

Lemma flip_all_total : forall p (t : tree R) link, sound t -> path (t_doc t) (t_root t) p link ->
  (forall k, In k p -> one_dof k) -> usual_at (t_doc t) (t_root t) ->
  (forall k, In k p -> usual_at (t_doc t) (j_child k)) ->
  exists t', flip_all t (map (@j_name R) p) = Ok t'.
Proof.
  induction p as [|j p IH]; intros t link hs hp hd hu hus; cbn [map flip_all]; [eexists; reflexivity|].
  destruct (path_tail _ _ _ _ _ hp) as [hp' [ep hj]].
  assert (hj1 : one_dof j) by (apply hd; now left).
  destruct (flip_total t j (match map (@j_name R) p with [] => false | _ => true end) hs hj ep hj1 hu) as [t1 e1].
  rewrite e1. cbn [rbind].
  destruct (flip_rel t t1 j (match map (@j_name R) p with [] => false | _ => true end) hs hj) as [_ [HR [hr hix]]];
    [destruct hj1 as [e|[e|[e|e]]]; rewrite e; discriminate|destruct hj1 as [e|[e|[e|e]]]; rewrite e; discriminate|exact e1|].
  pose proof (step_sound t t1 j hs hj ep HR hr hix) as s1.
  assert (hu1 : forall x, x <> t_root t -> usual_at (t_doc t) x -> usual_at (t_doc t1) x).
  { intros x hx [u1 u2]. split.
    - intros k' hk' e'. destruct (F2_in' _ _ _ (rel_joints _ _ _ _ _ HR) k' hk') as [k [hk [_ [_ [_ [h1 h2]]]]]].
      destruct (string_dec (j_name k) (j_name j)) as [en|ne].
      + destruct (h1 en) as [_ [_ [ei _]]]. rewrite ei. exact usual_id.
      + destruct (h2 ne) as [p1 [_ [_ [_ hsame]]]]. rewrite p1 in e'. rewrite (hsame (fun e => hx (eq_trans (eq_sym e') e))) in *.
        now apply u1.
    - intros l' o hl' e' ho. destruct (F2_in' _ _ _ (rel_links _ _ _ _ _ HR) l' hl') as [l [hl [en [_ h2]]]].
      assert (el : l' = l) by (apply h2; intros e; apply hx; congruence). subst l'. now apply (u2 l o). }
  assert (hne : forall k, In k (j :: p) -> j_child k <> t_root t).
  { intros k hk. apply (proj2 (is_r t hs)). now apply (path_in _ _ _ _ _ hp). }
  apply (IH t1 link s1).
  - rewrite hr. apply (deep_path t t1 j hs hj ep HR _ _ _ hp').
    exists (cons j nil). split; [discriminate|]. rewrite <- ep. apply (path_cons _ j nil); [assumption|constructor].
  - intros k hk. apply hd. now right.
  - rewrite hr. apply hu1; [apply hne; now left|apply hus; now left].
  - intros k hk. apply hu1; [apply hne; now right|apply hus; now right].
Qed.

Lemma path_to_root_total : forall p (t : tree R) link fuel, sound t -> path (t_doc t) (t_root t) p link ->
  (length p <= fuel)%nat -> (forall k, In k p -> one_dof k) ->
  path_to_root fuel t link = Ok (rev (map (@j_name R) p)).
Proof.
  induction p as [|j p IH] using rev_ind; intros t link fuel hs hp hl hd.
  - apply path_nil_inv in hp. subst link. destruct fuel; cbn [path_to_root]; now rewrite String.eqb_refl.
  - pose proof (sd_doc t hs) as w. rewrite app_length in hl. cbn in hl. destruct fuel as [|fuel]; [lia|]. cbn [path_to_root].
    apply path_snoc_inv in hp. destruct hp as [-> [hj hp]].
    destruct (j_child j =? t_root t)%string eqn:e.
    { exfalso. apply String.eqb_eq in e. now apply (proj2 (is_r t hs) j hj). }
    rewrite (proj2 (find_child_iff _ _ _ w) (conj hj eq_refl)).
    rewrite (IH t (j_parent j) fuel hs hp); [|lia|intros k hk; apply hd, in_or_app; now left].
    rewrite map_app, rev_app_distr. cbn [map rev app rbind].
    assert (ho : one_dof j) by (apply hd, in_or_app; right; now left).
    destruct ho as [e1|[e1|[e1|e1]]]; rewrite e1; reflexivity.
Qed.
Lemma path_to_root_throw : forall p (t : tree R) link fuel, sound t -> path (t_doc t) (t_root t) p link ->
  (length p <= fuel)%nat -> (exists k, In k p /\ ~ one_dof k) -> path_to_root fuel t link = Throw.
Proof.
  induction p as [|j p IH] using rev_ind; intros t link fuel hs hp hl [k [hk hb]]; [contradiction|].
  pose proof (sd_doc t hs) as w. rewrite app_length in hl. cbn in hl. destruct fuel as [|fuel]; [lia|]. cbn [path_to_root].
  apply path_snoc_inv in hp. destruct hp as [-> [hj hp]].
  destruct (j_child j =? t_root t)%string eqn:e.
  { exfalso. apply String.eqb_eq in e. now apply (proj2 (is_r t hs) j hj). }
  rewrite (proj2 (find_child_iff _ _ _ w) (conj hj eq_refl)).
  apply in_app_or in hk. destruct hk as [hk|[<-|[]]].
  - rewrite (IH t (j_parent j) fuel hs hp); [|lia|now exists k].
    destruct (type_of (j_type j)) as [[| | | | |]|]; reflexivity.
  - destruct (one_dof_or j) as [ho|[e1|[e1|e1]]]; [contradiction| | |]; rewrite e1; reflexivity.
Qed.

Lemma C48_mechanism_proof : forall (t t' : tree R) link, sound t -> define_as_root_link t link = Ok t' ->
  sound t' /\ t_root t' = link /\ same_mechanism (t_doc t) (t_root t) (t_doc t') link.
Proof.
  intros t t' link hs h. unfold define_as_root_link in h.
  destruct (path_to_root _ t link) as [ns| | |] eqn:e; try discriminate. cbn [rbind] in h.
  destruct (path_to_root_eq _ t link ns (sd_doc t hs) e) as [p [hp [hn hd]]]. rewrite hn in h.
  destruct (flip_all_ok p t t' link hs hp hd h) as [h1 [h2 h3]]. rewrite h2 in h3. tauto.
Qed.


Lemma C48_returns_usual_proof : forall (t : tree R) link p, sound t -> usual_origins (t_doc t) ->
  path (t_doc t) (t_root t) p link ->
  ((forall k, In k p -> In (type_of (j_type k)) [Some fixed; Some revolute; Some continuous; Some prismatic]) ->
   exists t', define_as_root_link t link = Ok t') /\
  ((exists k, In k p /\ In (type_of (j_type k)) [None; Some floating; Some planar]) ->
   define_as_root_link t link = Throw).
Proof.
  intros t link p hs hu hp. pose proof (path_length _ _ (sd_doc t hs) (is_r t hs) p link hp) as hl. split.
  - intros hd. assert (hd' : forall k, In k p -> one_dof k).
    { intros k hk. specialize (hd k hk). unfold one_dof. cbn in hd. destruct hd as [e|[e|[e|[e|[]]]]]; symmetry in e; tauto. }
    unfold define_as_root_link. rewrite (path_to_root_total p t link _ hs hp (le_S _ _ hl) hd'). cbn [rbind]. rewrite rev_involutive.
    assert (hua : forall x, usual_at (t_doc t) x).
    { intros x. split.
      - intros k hk _. apply (hu (EJoint k)); [now apply in_joint_elem|now left].
      - intros l o hl' _ ho. apply (hu (ELink l)); [now apply in_link_elem|assumption]. }
    now apply (flip_all_total p t link).
  - intros [k [hk hb]]. unfold define_as_root_link.
    rewrite (path_to_root_throw p t link _ hs hp (le_S _ _ hl)); [reflexivity|]. exists k. split; [assumption|].
    unfold one_dof. intros ho. cbn in hb. destruct hb as [e|[e|[e|[]]]]; rewrite <- e in ho;
      destruct ho as [o|[o|[o|o]]]; discriminate.
Qed.


Lemma flip_all_frames : forall q p (t t' : tree R) link, sound t -> path (t_doc t) (t_root t) p link ->
  (forall k, In k p -> one_dof k) -> flip_all t (map (@j_name R) p) = Ok t' ->
  exists G, rigid_motion G /\ forall p0 l, path (t_doc t) (t_root t) p0 l -> ~ In l (map (@j_parent R) p) ->
    exists p', path (t_doc t') (t_root t') p' l /\ forall v, placement q p' v = G (placement q p0 v).
Proof.
  intros q. induction p as [|j p IH]; intros t t' link hs hp hd h; cbn [map flip_all] in h.
  - injection h as <-. exists (fun v => v). split; [exact rm_id|]. intros p0 l h0 _. exists p0. now split.
  - destruct (path_tail _ _ _ _ _ hp) as [hp' [ep hj]].
    destruct (flip_root_link_joint t (j_name j) _) as [t1| | |] eqn:e1; try discriminate. cbn [rbind] in h.
    assert (hj1 : one_dof j) by (apply hd; now left).
    destruct (flip_rel t t1 j (match map (@j_name R) p with [] => false | _ => true end) hs hj) as [_ [HR [hr hix]]].
    + destruct hj1 as [e|[e|[e|e]]]; rewrite e; discriminate.
    + destruct hj1 as [e|[e|[e|e]]]; rewrite e; discriminate.
    + exact e1.
    + pose proof (step_sound t t1 j hs hj ep HR hr hix) as s1.
      destruct (step_path t t1 j hs hj ep HR hr q) as [G1 [r1 g1]].
      destruct (IH t1 t' link s1) as [G2 [r2 g2]]; try assumption.
      * rewrite hr. apply (deep_path t t1 j hs hj ep HR _ _ _ hp').
        exists (cons j nil). split; [discriminate|]. rewrite <- ep. apply (path_cons _ j nil); [assumption|constructor].
      * intros k hk. apply hd. now right.
      * exists (fun v => G2 (G1 v)). split; [now apply rm_comp|].
        intros p0 l h0 hn. cbn [map] in hn. destruct (g1 p0 l h0) as [p1 [h1 [f1 _]]].
        assert (ne : l <> t_root t) by (intros ->; apply hn; left; exact ep).
        destruct (g2 p1 l h1) as [p2 [h2 f2]]; [intros hi; apply hn; now right|].
        exists p2. split; [assumption|]. intros v. now rewrite f2, f1.
Qed.

Lemma loop_up : forall (d : list (elem R)) x, well_connected d -> above d x x ->
  exists k, find_child d x = Some k /\ above d (j_parent k) (j_parent k).
Proof.
  intros d x w [p [hn hp]]. destruct p as [|k p _] using rev_ind; [contradiction|].
  apply path_snoc_inv in hp. destruct hp as [-> [hk hp]]. exists k. split; [now apply find_child_iff|].
  exists (k :: p). split; [discriminate|]. now apply path_cons.
Qed.
Lemma loop_not_root : forall (d : list (elem R)) r, is_root d r -> ~ above d r r.
Proof.
  intros d r hr [p [hn hp]]. destruct p as [|k p _] using rev_ind; [contradiction|].
  apply path_snoc_inv in hp. destruct hp as [e [hk _]]. apply (proj2 hr k hk). now symmetry.
Qed.
Lemma path_to_root_loop : forall fuel (t : tree R) x, sound t -> above (t_doc t) x x ->
  (forall k, In k (joints (t_doc t)) -> one_dof k) -> path_to_root fuel t x = UB.
Proof.
  induction fuel as [|fuel IH]; intros t x hs ha ho; cbn [path_to_root].
  - destruct (x =? t_root t)%string eqn:e; [|reflexivity]. apply String.eqb_eq in e. subst x.
    now apply (loop_not_root _ _ (is_r t hs)) in ha.
  - destruct (x =? t_root t)%string eqn:e.
    { apply String.eqb_eq in e. subst x. now apply (loop_not_root _ _ (is_r t hs)) in ha. }
    destruct (loop_up _ _ (sd_doc t hs) ha) as [k [ek hk]]. rewrite ek.
    assert (hi : In k (joints (t_doc t))) by (apply find_child_iff in ek; [apply ek|apply (sd_doc t hs)]).
    rewrite (IH t (j_parent k) hs hk ho). destruct (ho k hi) as [e1|[e1|[e1|e1]]]; rewrite e1; reflexivity.
Qed.

Lemma C48_frames_proof : forall (t t' : tree R) link p, sound t -> define_as_root_link t link = Ok t' ->
  path (t_doc t) (t_root t) p link ->
  forall q, exists G, rigid_motion G /\ forall p0 l, path (t_doc t) (t_root t) p0 l -> ~ In l (map (@j_parent R) p) ->
    exists p', path (t_doc t') link p' l /\ forall v, placement q p' v = G (placement q p0 v).
Proof.
  intros t t' link p hs h hp q. pose proof (C48_mechanism_proof t t' link hs h) as [_ [hr _]].
  unfold define_as_root_link in h.
  destruct (path_to_root _ t link) as [ns| | |] eqn:e; try discriminate. cbn [rbind] in h.
  destruct (path_to_root_eq _ t link ns (sd_doc t hs) e) as [p1 [hp1 [hn hd]]]. rewrite hn in h.
  assert (p1 = p) by (apply (path_unique _ _ (sd_doc t hs) (is_r t hs) p1 p link hp1 hp)). subst p1.
  destruct (flip_all_frames q p t t' link hs hp hd h) as [G [rG g]]. rewrite hr in g. now exists G.
Qed.


(** ** The frame of the root link *)

Lemma same_sound : forall (t t' : tree R), sound t -> same_graph (t_doc t) (t_doc t') -> link_names (t_doc t') = link_names (t_doc t) ->
  t_ix t' = t_ix t -> t_root t' = t_root t -> sound t'.
Proof.
  intros t t' hs hg hl hi hr. destruct (sd_doc t hs) as [w1 w2 w3 w4].
  assert (hin : forall f : string * string * string -> Prop, (forall j, In j (joints (t_doc t)) -> f (j_name j, j_parent j, j_child j)) ->
    forall j, In j (joints (t_doc t')) -> f (j_name j, j_parent j, j_child j)).
  { intros f hf j hj. assert (hm : In (j_name j, j_parent j, j_child j) (map (fun j => (j_name j, j_parent j, j_child j)) (joints (t_doc t)))).
    { unfold same_graph in hg. rewrite hg. apply in_map_iff. now exists j. }
    apply in_map_iff in hm. destruct hm as [k [e hk]]. rewrite <- e. now apply hf. }
  assert (hin' : forall f : string * string * string -> Prop, (forall j, In j (joints (t_doc t')) -> f (j_name j, j_parent j, j_child j)) ->
    forall j, In j (joints (t_doc t)) -> f (j_name j, j_parent j, j_child j)).
  { intros f hf j hj. assert (hm : In (j_name j, j_parent j, j_child j) (map (fun j => (j_name j, j_parent j, j_child j)) (joints (t_doc t')))).
    { unfold same_graph in hg. rewrite <- hg. apply in_map_iff. now exists j. }
    apply in_map_iff in hm. destruct hm as [k [e hk]]. rewrite <- e. now apply hf. }
  assert (en : joint_names (t_doc t') = joint_names (t_doc t)).
  { unfold same_graph in hg. apply (f_equal (map (fun x => fst (fst x)))) in hg. rewrite !map_map in hg. cbn in hg. now symmetry. }
  assert (ec : map (@j_child R) (joints (t_doc t')) = map (@j_child R) (joints (t_doc t))).
  { unfold same_graph in hg. apply (f_equal (map (fun x => snd x))) in hg. rewrite !map_map in hg. cbn in hg. now symmetry. }
  constructor.
  - constructor; [now rewrite hl|now rewrite en|now rewrite ec|]. rewrite hl.
    apply (hin (fun x => In (snd (fst x)) (link_names (t_doc t)) /\ In (snd x) (link_names (t_doc t)))). exact w4.
  - intros r. rewrite hr, <- (sd_root t hs r). unfold is_root. rewrite hl. split; intros [h1 h2]; (split; [assumption|]).
    + exact (hin' (fun x => snd x <> r) h2).
    + exact (hin (fun x => snd x <> r) h2).
  - rewrite hi, en. apply (sd_index t hs).
Qed.

Section Transport.
Variables t t' : tree R.
Variable O : Pose R.
Hypothesis hs : sound t.
Hypothesis ht : transport_frame t O = Ok t'.
Notation d := (t_doc t).
Notation d' := (t_doc t').
Notation root := (t_root t).

Lemma tr_rel : Forall2 (rel root O (JT1 root O)) d d'.
Proof. apply (transport_rel t t' O _ hs ht). Qed.
Lemma tr_joints : Forall2 (JT1 root O) (joints d) (joints d').
Proof. exact (rel_joints _ _ _ _ _ tr_rel). Qed.
Lemma tr_root : t_root t' = root.
Proof. apply (transport_rel t t' O _ hs ht). Qed.
Lemma tr_sound : sound t'.
Proof.
  apply (same_sound t t' hs).
  - apply (F2_map _ _ _ _ _ tr_joints). intros a b [o [-> _]]. reflexivity.
  - symmetry. apply (F2_map _ _ _ _ _ (rel_links _ _ _ _ _ tr_rel)). intros a b [h _]. now symmetry.
  - apply (transport_rel t t' O _ hs ht).
  - apply tr_root.
Qed.

Lemma tr_deep : forall a p l, path d a p l -> (exists q, q <> [] /\ path d root q a) -> path d' a p l.
Proof.
  intros a p l h [q [hq h0]]. induction h as [|p k h IH hk]; [constructor|].
  constructor; [exact IH|]. destruct (F2_in _ _ _ tr_joints k hk) as [k' [hk' [o [-> [_ e]]]]]. rewrite e in hk'; [now destruct k|].
  intros e'. pose proof (path_app d root a (j_parent k) q p h0 h) as hh. rewrite e' in hh.
  assert (hn : q ++ p <> []) by (destruct q; [contradiction|discriminate]).
  destruct (q ++ p) as [|x y _] using rev_ind; [contradiction|]. apply path_snoc_inv in hh.
  destruct hh as [e1 [hx _]]. apply (proj2 (is_r t hs) x hx). now symmetry.
Qed.

Lemma tr_path : forall q p l, path d root p l -> exists p', path d' root p' l /\
  (l <> root -> forall v, placement q p' v = pose_motion (pose_inverse O) (placement q p v)) /\
  (l = root -> p = [] /\ p' = []).
Proof.
  intros q p l h. destruct p as [|k p].
  - apply path_nil_inv in h. subst l. exists nil. split; [constructor|]. split; [congruence|tauto].
  - assert (hl : l <> root).
    { intros e. subst l. pose proof h as h'. destruct (p) as [|x y _] using rev_ind.
      - apply path_cons_inv in h. destruct h as [_ [hk h]]. apply path_nil_inv in h. now apply (proj2 (is_r t hs) k hk).
      - change (k :: y ++ [x]) with ((k :: y) ++ [x]) in h'. apply path_snoc_inv in h'. destruct h' as [e [hx _]].
        apply (proj2 (is_r t hs) x hx). now symmetry. }
    apply path_cons_inv in h. destruct h as [ek [hk h]].
    assert (hdeep : path d' (j_child k) p l).
    { apply tr_deep; [assumption|]. exists (cons k nil). split; [discriminate|]. rewrite ek. apply (path_cons d k []); [assumption|constructor]. }
    destruct (F2_in _ _ _ tr_joints k hk) as [k' [hk' [o [ek' [ho _]]]]].
    exists (k' :: p). split; [|split; [|contradiction]].
    + rewrite ek. replace (j_parent k) with (j_parent k') by (now rewrite ek'). apply path_cons; [assumption|]. now rewrite ek'.
    + intros _ v. cbn [placement]. rewrite ek'. cbn [j_origin set_origin].
      rewrite (ho (eq_sym ek)). reflexivity.
Qed.

Lemma tr_mechanism : same_mechanism d root d' root.
Proof.
  split.
  - apply (F2_impl_in _ _ _ _ tr_rel). intros e e' he h. destruct e as [l|k|s], e' as [l'|k'|s']; cbn in h |- *; try contradiction; try assumption.
    + symmetry. apply (proj1 h).
    + destruct h as [o [-> _]]. unfold same_joint. cbn. tauto.
  - intros q. exists (pose_motion (pose_inverse O)). split; [apply rm_pose|].
    apply (F2_impl _ _ _ _ tr_rel). intros e e' h. destruct e as [l|k|s], e' as [l'|k'|s']; try exact I.
    cbn in h. destruct h as [en [h1 h2]]. intros p hpath. destruct (tr_path q p _ hpath) as [p' [hp' [g1 g2]]].
    exists p'. split; [now rewrite en|]. destruct (string_dec (l_name l) root) as [e|ne].
    + destruct (h1 e) as [m1 [m2 m3]]. destruct (g2 e) as [-> ->].
      assert (hpl : forall o o', moved_origin O o o' -> same_place q (pose_motion (pose_inverse O)) [] [] o o').
      { intros o o' ho v. cbn [placement]. apply ho. }
      assert (hsh : forall s s', moved_shapes O s s' -> same_shapes q (pose_motion (pose_inverse O)) [] [] s s').
      { intros s s' hsh. apply (F2_impl _ _ _ _ hsh). intros x x' [x1 x2]. split; [assumption|now apply hpl]. }
      split; [now symmetry|]. split; [|split; now apply hsh].
      unfold moved_inertial in m1. unfold same_inertials. destruct (l_inertial l), (l_inertial l'); exact m1.
    + rewrite (h2 ne). specialize (g1 ne).
      assert (hpl : forall o, same_place q (pose_motion (pose_inverse O)) p p' o o) by (intros o v; apply g1).
      split; [reflexivity|]. split; [|split; apply F2_refl; intros x _; split; try reflexivity; apply hpl].
      unfold same_inertials. destruct (l_inertial l); [|exact I]. split; [reflexivity|apply hpl].
Qed.
End Transport.

Lemma C48_transport_proof : forall (t t' : tree R) pose, sound t -> transport_frame t pose = Ok t' ->
  sound t' /\ t_root t' = t_root t /\ same_mechanism (t_doc t) (t_root t) (t_doc t') (t_root t) /\
  forall q p l, path (t_doc t) (t_root t) p l -> l <> t_root t ->
    exists p', path (t_doc t') (t_root t) p' l /\ forall v, pose_motion pose (placement q p' v) = placement q p v.
Proof.
  intros t t' O hs h. split; [now apply (tr_sound t t' O)|]. split; [now apply (tr_root t t' O)|]. split; [now apply (tr_mechanism t t' O)|].
  intros q p l hp hl. destruct (tr_path t t' O hs h q p l hp) as [p' [h1 [h2 _]]]. exists p'. split; [assumption|].
  intros v. rewrite (h2 hl). apply (proj2 (C50_inverse_proof O _)).
Qed.


Lemma C48_transport_returns_usual_proof : forall (t : tree R) pose, sound t -> usual_angles pose -> usual_origins (t_doc t) ->
  exists t', transport_frame t pose = Ok t'.
Proof.
  intros t O hs hO hu. apply transport_total; [assumption|assumption|]. split.
  - intros k hk _. apply in_joint_elem in hk. apply (hu _ _ hk). now left.
  - intros l o hl _ ho. apply in_link_elem in hl. exact (hu _ _ hl ho).
Qed.


Lemma C48_unknown_proof : forall (t : tree R) link, sound t -> ~ In link (link_names (t_doc t)) ->
  define_as_root_link t link = Throw.
Proof.
  intros t link hs hn. unfold define_as_root_link. cbn [path_to_root].
  destruct (link =? t_root t)%string eqn:e.
  { apply String.eqb_eq in e. subst link. exfalso. apply hn. apply (proj1 (is_r t hs)). }
  destruct (find_child (t_doc t) link) as [k|] eqn:ek; [|reflexivity].
  exfalso. apply find_child_iff in ek; [|apply (sd_doc t hs)]. destruct ek as [hk <-]. apply hn.
  apply (wc_ends _ (sd_doc t hs) k hk).
Qed.


Lemma C48_loop_refuted_proof : forall (t : tree R) link, sound t -> above (t_doc t) link link ->
  (forall k, In k (joints (t_doc t)) -> In (type_of (j_type k)) [Some fixed; Some revolute; Some continuous; Some prismatic]) ->
  define_as_root_link t link = UB.
Proof.
  intros t link hs ha ho. unfold define_as_root_link. rewrite path_to_root_loop; try assumption; [reflexivity|].
  intros k hk. specialize (ho k hk). unfold one_dof. cbn in ho. destruct ho as [e|[e|[e|[e|[]]]]]; symmetry in e; tauto.
Qed.


Lemma rpy_of_id : forall m, rigid m -> (forall v, mapply (tmat m) v = v) -> rpy_of_matrix m = (0,0,0).
Proof.
  intros [a b c x d e f y g h i z] _ hv.
  pose proof (hv (1,0,0)) as m1. pose proof (hv (0,1,0)) as m2. pose proof (hv (0,0,1)) as m3.
  rewrite tmat_mk in m1, m2, m3. unfold mapply, of_rows, vx, vy, vz in m1, m2, m3. cbn [fst snd] in m1, m2, m3.
  injection m1 as a1 a2 a3. injection m2 as b1 b2 b3. injection m3 as c1 c2 c3.
  rewrite ?Rmult_1_r, ?Rmult_0_r, ?Rplus_0_r, ?Rplus_0_l in *. subst.
  unfold rpy_of_matrix. cbn [t_r1c1 t_r1c2 t_r1c3 t_r2c1 t_r2c2 t_r2c3 t_r3c1 t_r3c2 t_r3c3].
  cbv [s_atan2 s_sqrt s_mul s_add s_sub s_ltb s_pi s_neg s_sin s_cos s_ofZ RScalar].
  assert (h01 : Ratan2 0 1 = 0).
  { pose proof (Ratan2_cs 0) as hh. rewrite sin_0, cos_0 in hh. apply hh. pose proof PI_RGT_0. lra. }
  rewrite h01. destruct (Rltb_spec 0 0) as [neg|pos]; [lra|]. cbv zeta. rewrite sin_0, cos_0.
  replace (1 * 1 + 0 * 0) with 1 by ring. rewrite sqrt_1, Ropp_0, h01.
  replace (0 * 0 - 1 * 0) with 0 by ring. replace (1 * 1 - 0 * 0) with 1 by ring. now rewrite h01.
Qed.
Lemma mul_is_id : forall p q : Pose R, p_rpy p <> (0,0,0) -> p_rpy q <> (0,0,0) ->
  (forall v, mapply (rpy_mat (p_rpy (pose_mul p q))) v = v) -> p_rpy (pose_mul p q) = (0,0,0).
Proof.
  intros p q hp hq. unfold pose_mul. cbv zeta. cbn [p_rpy].
  destruct (is_zero (p_rpy p)) eqn:zp; [apply is_zero_iff in zp; contradiction|].
  destruct (is_zero (p_rpy q)) eqn:zq; [apply is_zero_iff in zq; contradiction|].
  pose proof (quaternion_of_mul _ _ _ _ (quat_of_rpy_of (p_rpy p) (0,0,0)) (quat_of_rpy_of (p_rpy q) (0,0,0))) as hm.
  intros hv. assert (hr : quaternion_of (q_mul (quat_of_rpy (p_rpy p)) (quat_of_rpy (p_rpy q))) (eq_matrix (q_mul (quat_of_rpy (p_rpy p)) (quat_of_rpy (p_rpy q))))) by (eapply toTransform_of, hm).
  apply rpy_of_id; [exact (quaternion_of_rigid _ _ hr)|].
  intros v. rewrite <- (hv v) at 2. symmetry. now apply (rpy_mat_of _ _ _ hr).
Qed.
Lemma inverse_is_id : forall O : Pose R, (forall v, mapply (rpy_mat (p_rpy O)) v = v) -> p_rpy (pose_inverse O) = (0,0,0).
Proof.
  intros O h. assert (hi : forall v, mapply (rpy_mat (p_rpy (pose_inverse O))) v = v).
  { intros v. rewrite <- (h v) at 1. apply (inverse_rpy O v). }
  revert hi. unfold pose_inverse. destruct (is_zero (p_rpy O)) eqn:z; [reflexivity|]. cbv zeta. cbn [p_rpy]. intros hi.
  pose proof (inverse_of _ _ (quat_of_rpy_of (p_rpy O) (0,0,0))) as hI.
  assert (hr : quaternion_of (eq_inverse (quat_of_rpy (p_rpy O))) (eq_matrix (eq_inverse (quat_of_rpy (p_rpy O))))) by (eapply toTransform_of, hI).
  apply rpy_of_id; [exact (quaternion_of_rigid _ _ hr)|].
  intros v. rewrite <- (hi v) at 2. symmetry. now apply (rpy_mat_of _ _ _ hr).
Qed.
Lemma mapply_zero : forall M, mapply M (0,0,0) = (0,0,0).
Proof. intros M. unfold mapply, vx, vy, vz. cbn [fst snd]. pair_eq; ring. Qed.
Lemma same_motion_parts : forall p q, same_motion p q ->
  p_xyz p = p_xyz q /\ forall v, mapply (rpy_mat (p_rpy p)) v = mapply (rpy_mat (p_rpy q)) v.
Proof.
  intros p q h. assert (hx : p_xyz p = p_xyz q).
  { specialize (h (0,0,0)). unfold pose_motion in h. rewrite !mapply_zero in h. now rewrite !vadd_0_l in h. }
  split; [exact hx|]. intros v. specialize (h v). unfold pose_motion in h. rewrite hx in h.
  rewrite <- (vadd_vneg (mapply (rpy_mat (p_rpy p)) v) (p_xyz q)), h. apply vadd_vneg.
Qed.

(** ** Exactly when it returns *)
Lemma premul_exact : forall O o np,
  ((exists o', premul (pose_inverse O) O o np = Ok o') /\ ~ rewritten (pose_from o) O) \/
  (premul (pose_inverse O) O o np = Abort /\ rewritten (pose_from o) O).
Proof.
  intros O o np. unfold premul. rewrite (proj2 (pose_eqb_iff _ _) eq_refl). cbn [negb].
  destruct (pose_eqb (pose_from o) O) eqn:e.
  { left. split; [eexists; reflexivity|]. apply pose_eqb_iff in e. intros (_&h&_). contradiction. }
  assert (hn : pose_from o <> O) by (intros h; apply pose_eqb_iff in h; congruence).
  set (P := pose_from o) in *. clearbody P.
  pose proof (C50_product_proof (pose_inverse O) P) as hp.
  assert (hm : p_rpy (pose_mul (pose_inverse O) P) = if is_zero (p_rpy (pose_inverse O)) then p_rpy P else if is_zero (p_rpy P) then p_rpy (pose_inverse O)
    else p_rpy (pose_mul (pose_inverse O) P)).
  { unfold pose_mul. cbv zeta. cbn [p_rpy]. now destruct (is_zero (p_rpy (pose_inverse O))), (is_zero (p_rpy P)). }
  pose proof (mul_is_id (pose_inverse O) P) as hid.
  rewrite pose_to_R. set (m := pose_mul (pose_inverse O) P) in *.
  destruct (is_zero (p_xyz m) && is_zero (p_rpy m))%bool eqn:z.
  - right. split; [reflexivity|]. 
    apply andb_true_iff in z. destruct z as [z1 z2]. apply is_zero_iff in z1. apply is_zero_iff in z2.
    split; [|split; [exact hn|]].
    + intros v. assert (hv : pose_motion m v = v) by (unfold pose_motion; rewrite z1, z2, rpy_mat_0; apply vadd_0_r).
      specialize (hp v). rewrite hv in hp. apply (f_equal (pose_motion O)) in hp. rewrite (proj2 (C50_inverse_proof O _)) in hp. now symmetry.
    + intros ht. assert (hr : forall v, mapply (rpy_mat (p_rpy O)) v = v).
      { intros v. specialize (ht v). unfold pose_motion in ht. rewrite <- (vadd_vneg (mapply (rpy_mat (p_rpy O)) v) (p_xyz O)), ht. apply vadd_vneg. }
      rewrite (proj2 (is_zero_iff _) (inverse_is_id O hr)) in hm. rewrite z2 in hm. now symmetry.
  - left. split; [eexists; reflexivity|]. intros (h1&_&h3).
    destruct (same_motion_parts _ _ h1) as [hx hv].
    assert (mid : forall v, pose_motion m v = v) by (intros v; rewrite hp, (h1 v); apply (C50_inverse_proof O v)).
    assert (mx : p_xyz m = (0,0,0)).
    { specialize (mid (0,0,0)). unfold pose_motion in mid. now rewrite mapply_zero, vadd_0_l in mid. }
    assert (mr : forall v, mapply (rpy_mat (p_rpy m)) v = v).
    { intros v. specialize (mid v). unfold pose_motion in mid. rewrite mx, vadd_0_r in mid. exact mid. }
    assert (mz : p_rpy m = (0,0,0)).
    { destruct (is_zero (p_rpy (pose_inverse O))) eqn:zi.
      - rewrite hm. apply h3. intros v. unfold pose_motion. f_equal. apply is_zero_iff in zi.
        pose proof (proj1 (inverse_rpy O v)) as hi. rewrite zi, rpy_mat_0 in hi. exact hi.
      - destruct (is_zero (p_rpy P)) eqn:zP.
        + exfalso. apply is_zero_iff in zP. assert (hz : p_rpy (pose_inverse O) = (0,0,0)).
          { apply inverse_is_id. intros v. rewrite <- hv, zP. apply rpy_mat_0. }
          rewrite (proj2 (is_zero_iff _) hz) in zi. discriminate.
        + apply hid; [| |exact mr]; intros h; apply is_zero_iff in h; congruence. }
    rewrite mx, mz, !(proj2 (is_zero_iff _) eq_refl) in z. discriminate.
Qed.

(** Ok when [good], Abort otherwise. *)
Definition outcome {A} (r : res A) (good : Prop) : Prop := ((exists a, r = Ok a) /\ good) \/ (r = Abort /\ ~ good).
Lemma outcome_iff : forall {A} (r : res A) P Q, (P <-> Q) -> outcome r P -> outcome r Q.
Proof. unfold outcome. intros. tauto. Qed.
Lemma outcome_bind : forall {A B} (r : res A) (k : A -> B) P, outcome r P -> outcome (let! x := r in Ok (k x)) P.
Proof.
  intros A B r k P [[[a ->] h]|[-> h]]; [left|right]; cbn [rbind]; split; try assumption; [eexists|]; reflexivity.
Qed.
Lemma outcome_seq : forall {A B} (r : res A) (k : A -> res B) P Q, outcome r P -> (forall a, r = Ok a -> outcome (k a) Q) ->
  outcome (let! x := r in k x) (P /\ Q).
Proof.
  intros A B r k P Q [[[a ->] h]|[-> h]] hk; cbn [rbind].
  - destruct (hk a eq_refl) as [[hb q]|[hb q]]; [left|right]; tauto.
  - right. split; [reflexivity|tauto].
Qed.
Lemma outcome_mapM : forall {A B} (f : A -> res B) (good : A -> Prop) l, (forall a, In a l -> outcome (f a) (good a)) ->
  outcome (mapM f l) (forall a, In a l -> good a).
Proof.
  intros A B f good l. induction l as [|a l IH]; intros h; cbn [mapM].
  - left. split; [eexists; reflexivity|]. intros a [].
  - apply (outcome_iff _ (good a /\ forall x, In x l -> good x)).
    + split; [intros [h1 h2] x [<-|hx]; auto|intros hx; split; [apply hx; now left|intros x hi; apply hx; now right]].
    + apply outcome_seq; [apply h; now left|]. intros b _. apply outcome_bind. apply IH. intros x hx. apply h. now right.
Qed.
Lemma premul_outcome : forall O o np, outcome (premul (pose_inverse O) O o np) (~ rewritten (pose_from o) O).
Proof. intros O o np. destruct (premul_exact O o np) as [h|[h1 h2]]; [left; exact h|right; tauto]. Qed.

Lemma transport_link_outcome : forall O (l : Link R),
  outcome (transport_link (pose_inverse O) O l) (forall o, In o (origins_of (ELink l)) -> ~ rewritten (pose_from o) O).
Proof.
  intros O l. unfold transport_link.
  set (sh := fun s : Shape R => let! o := premul (pose_inverse O) O (sh_origin s) false in Ok (mkShape o (sh_geometry s))).
  assert (hs : forall ss, outcome (mapM sh ss) (forall s, In s ss -> ~ rewritten (pose_from (sh_origin s)) O)).
  { intros ss. apply outcome_mapM. intros s _. unfold sh. apply outcome_bind. apply premul_outcome. }
  eapply outcome_iff; [|apply outcome_seq; [|intros i _; apply outcome_seq; [apply hs|intros v _; apply outcome_bind; apply hs]]].
  2: { instantiate (1 := forall i, l_inertial l = Some i -> ~ rewritten (pose_from (i_origin i)) O).
       destruct (l_inertial l) as [i|].
       - eapply outcome_iff; [|apply outcome_bind; apply premul_outcome].
         split; [intros h i' e; injection e as <-; exact h|intros h; now apply h].
       - left. split; [eexists; reflexivity|]. discriminate. }
  cbn [origins_of]. split.
  - intros [h1 [h2 h3]] o ho. apply in_app_or in ho. destruct ho as [ho|ho].
    + destruct (l_inertial l) as [i|]; [|contradiction]. destruct ho as [<-|[]]. now apply h1.
    + apply in_app_or in ho. destruct ho as [ho|ho]; apply in_map_iff in ho; destruct ho as [s [<- hi]]; auto.
  - intros h. split; [|split].
    + intros i e. apply h. rewrite e. apply in_or_app. left. now left.
    + intros s hi. apply h. apply in_or_app. right. apply in_or_app. left. now apply in_map.
    + intros s hi. apply h. apply in_or_app. right. apply in_or_app. right. now apply in_map.
Qed.

Lemma transport_outcome : forall (t : tree R) O np, sound t ->
  outcome (transport_root_link_frame t O np) (forall P, attached (t_doc t) (t_root t) P -> ~ rewritten P O).
Proof.
  intros t O np hs. unfold transport_root_link_frame. pose proof (sd_doc t hs) as w.
  destruct (find_link (t_doc t) (t_root t)) as [rl|] eqn:el.
  2: { exfalso. pose proof (proj1 (is_r t hs)) as hr. unfold link_names in hr. apply in_map_iff in hr. destruct hr as [l [e h]].
       unfold find_link in el. apply find_none with (x := l) in el; [|assumption]. rewrite e, String.eqb_refl in el. discriminate. }
  assert (hmem : forall k, In k (joints (t_doc t)) -> (mem (j_name k) (children (t_doc t) (t_ix t) (t_root t)) = true <-> j_parent k = t_root t)).
  { intros k hk. destruct (resolve _ _ w (sd_index t hs)) as [js [hp [_ hc]]]. rewrite mem_in, hc, in_map_iff. split.
    - intros [x [ex hx]]. apply filter_In in hx. destruct hx as [hx hxp].
      assert (x = k) by (apply (name_inj (t_doc t)); try assumption; now apply (Permutation_in x hp)). subst x.
      now apply String.eqb_eq.
    - intros e. exists k. split; [reflexivity|]. apply filter_In. split; [now apply (Permutation_in k (Permutation_sym hp))|].
      now apply String.eqb_eq. }
  cbv zeta.
  eapply outcome_iff; [|apply outcome_bind; apply (outcome_mapM _ (fun e : elem R => match e with
    | EJoint k => j_parent k = t_root t -> ~ rewritten (pose_from (j_origin k)) O
    | ELink l => l_name l = t_root t -> forall o, In o (origins_of (ELink l)) -> ~ rewritten (pose_from o) O
    | EOther _ => True end))].
  - split.
    + intros h P [(k&hk&e&->)|(l&o&hl&e&ho&->)].
      * apply in_joint_elem in hk. exact (h (EJoint k) hk e).
      * apply in_link_elem in hl. exact (h (ELink l) hl e o ho).
    + intros h [l|k|s] he; [| |exact Logic.I].
      * intros e o ho. apply h. right. exists l, o. split; [now apply in_link_elem|]. tauto.
      * intros e. apply h. left. exists k. split; [now apply in_joint_elem|]. tauto.
  - intros [l|k|s] he.
    + destruct (l_name l =? t_root t)%string eqn:e.
      * apply String.eqb_eq in e. apply outcome_bind. eapply outcome_iff; [|apply transport_link_outcome]. tauto.
      * apply String.eqb_neq in e. left. split; [eexists; reflexivity|]. intros h. contradiction.
    + apply in_joint_elem in he. destruct (mem (j_name k) _) eqn:em.
      * apply hmem in em; [|assumption]. apply outcome_bind. eapply outcome_iff; [|apply premul_outcome]. tauto.
      * left. split; [eexists; reflexivity|]. intros h. apply hmem in h; [|assumption]. congruence.
    + left. split; [eexists; reflexivity|exact Logic.I].
Qed.

Lemma flip_outcome : forall (t : tree R) j b, sound t -> In j (joints (t_doc t)) -> j_parent j = t_root t -> one_dof j ->
  outcome (flip_root_link_joint t (j_name j) b) (forall o, j_origin j = Some o -> forall P, attached (t_doc t) (t_root t) P -> ~ rewritten P o).
Proof.
  intros t j b hs hj hp ho. pose proof (sd_doc t hs) as w. unfold flip_root_link_joint.
  rewrite (proj2 (find_joint_iff _ _ _ w) (conj hj eq_refl)), hp, String.eqb_refl. cbn [negb].
  set (first := match j_origin j with None => Ok t | Some o => transport_root_link_frame t o (fun m => b && (m =? j_name j))%string%bool end).
  assert (H1 : outcome first (forall o, j_origin j = Some o -> forall P, attached (t_doc t) (t_root t) P -> ~ rewritten P o)).
  { unfold first. destruct (j_origin j) as [o|].
    - eapply outcome_iff; [|apply (transport_outcome t o _ hs)]. split; [intros h o' e; injection e as <-; exact h|intros h; now apply h].
    - left. split; [eexists; reflexivity|]. discriminate. }
  destruct H1 as [[[t1 e1] hg]|[e1 hg]]; [|right; rewrite e1; now split].
  left. split; [|exact hg]. rewrite e1. cbn [rbind].
  assert (em : map (fun k => (j_name k, j_child k, j_type k)) (joints (t_doc t1)) = map (fun k => (j_name k, j_child k, j_type k)) (joints (t_doc t))).
  { unfold first in e1. destruct (j_origin j) as [o|]; [|injection e1 as <-; reflexivity].
    destruct (transport_rel t t1 o _ hs e1) as [hR _]. symmetry. apply (F2_map _ _ _ _ _ (rel_joints _ _ _ _ _ hR)).
    intros k k' [o' [-> _]]. reflexivity. }
  clear e1 hg. clearbody first.
  assert (hmap : forall k1, In k1 (joints (t_doc t1)) -> exists k, In k (joints (t_doc t)) /\ j_name k = j_name k1 /\ j_child k = j_child k1 /\ j_type k = j_type k1).
  { intros k1 hk1. assert (hi : In (j_name k1, j_child k1, j_type k1) (map (fun k => (j_name k, j_child k, j_type k)) (joints (t_doc t)))).
    { rewrite <- em. apply (in_map (fun k => (j_name k, j_child k, j_type k)) _ _ hk1). }
    apply in_map_iff in hi. destruct hi as [k [e hk]]. injection e as x1 x2 x3. exists k. now repeat split. }
  destruct (existsb _ (joints (t_doc t1))) eqn:ee.
  { exfalso. apply existsb_exists in ee. destruct ee as [k1 [hk1 ee]]. apply andb_true_iff in ee. destruct ee as [ee _].
    apply String.eqb_eq in ee. destruct (hmap k1 hk1) as [k [hk [_ [ec _]]]]. apply (proj2 (is_r t hs) k hk). congruence. }
  rewrite find_upd by reflexivity.
  destruct (find_joint (t_doc t1) (j_name j)) as [j1|] eqn:ef.
  - cbn [option_map]. unfold find_joint in ef. apply find_some in ef. destruct ef as [i1 n1]. apply String.eqb_eq in n1.
    destruct (hmap j1 i1) as [k [hk [en [_ ety]]]]. assert (k = j) by (apply (name_inj (t_doc t)); congruence). subst k.
    assert (hf : exists k', flip_joint_axis (flip_joint_links j1) = Ok k').
    { unfold flip_joint_axis. cbn [j_type flip_joint_links]. rewrite <- ety.
      destruct ho as [e|[e|[e|e]]]; rewrite e; eexists; reflexivity. }
    destruct hf as [k' ek]. rewrite ek. eexists. reflexivity.
  - exfalso. assert (hi : In (j_name j, j_child j, j_type j) (map (fun k => (j_name k, j_child k, j_type k)) (joints (t_doc t1)))).
    { rewrite em. apply (in_map (fun k => (j_name k, j_child k, j_type k)) _ _ hj). }
    apply in_map_iff in hi. destruct hi as [k [e hk]]. injection e as x1 x2 x3.
    unfold find_joint in ef. apply find_none with (x := k) in ef; [|assumption]. rewrite x1, String.eqb_refl in ef. discriminate.
Qed.

(** What stops the flips of the joints of a path. *)
Definition clear_path (d : list (elem R)) (p : list (Joint R)) : Prop :=
  forall p1 k p2 o, p = (p1 ++ k :: p2)%list -> j_origin k = Some o ->
    (forall P, attached d (j_parent k) P -> ~ rewritten P o) /\ (p1 <> [] -> ~ rewritten pose_id o).

Lemma flip_all_outcome : forall p (t : tree R) link, sound t -> path (t_doc t) (t_root t) p link ->
  (forall k, In k p -> one_dof k) -> outcome (flip_all t (map (@j_name R) p)) (clear_path (t_doc t) p).
Proof.
  induction p as [|j p IH]; intros t link hs hp hd; cbn [map flip_all].
  { left. split; [eexists; reflexivity|]. intros p1 k p2 o e. destruct p1; discriminate. }
  destruct (path_tail _ _ _ _ _ hp) as [hp' [ep hj]].
  assert (hj1 : one_dof j) by (apply hd; now left).
  set (b := match map (@j_name R) p with [] => false | _ => true end).
  apply (outcome_iff _ ((forall o, j_origin j = Some o -> forall P, attached (t_doc t) (t_root t) P -> ~ rewritten P o) /\
    (forall p1 k p2 o, p = (p1 ++ k :: p2)%list -> j_origin k = Some o ->
      (forall P, attached (t_doc t) (j_parent k) P -> ~ rewritten P o) /\ ~ rewritten pose_id o))).
  { split.
    - intros [h1 h2] p1 k p2 o e eo. destruct p1 as [|j' p1]; cbn [app] in e; injection e as -> ->.
      + split; [|congruence]. rewrite ep. now apply h1.
      + destruct (h2 p1 k p2 o eq_refl eo) as [h3 h4]. split; [exact h3|intros _; exact h4].
    - intros h. split.
      + intros o eo. rewrite <- ep. apply (h [] j p o eq_refl eo).
      + intros p1 k p2 o e eo. subst p. destruct (h (j :: p1) k p2 o eq_refl eo) as [h3 h4]. split; [exact h3|apply h4; discriminate]. }
  apply outcome_seq; [now apply flip_outcome|].
  intros t1 e1.
  destruct (flip_rel t t1 j b hs hj) as [_ [HR [hr hix]]];
    [destruct hj1 as [e|[e|[e|e]]]; rewrite e; discriminate|destruct hj1 as [e|[e|[e|e]]]; rewrite e; discriminate|exact e1|].
  pose proof (step_sound t t1 j hs hj ep HR hr hix) as s1.
  assert (hne : forall k, In k (joints (t_doc t)) -> j_child k <> t_root t) by exact (proj2 (is_r t hs)).
  (* what is attached to the links other than the old root *)
  assert (AT : forall x P, x <> t_root t -> (attached (t_doc t1) x P <-> attached (t_doc t) x P \/ (x = j_child j /\ P = pose_id))).
  { intros x P hx. split.
    - intros [(k'&hk'&e'&->)|(l'&o&hl'&e'&ho&->)].
      + destruct (F2_in' _ _ _ (rel_joints _ _ _ _ _ HR) k' hk') as [k [hk [_ [_ [_ [h1 h2]]]]]].
        destruct (string_dec (j_name k) (j_name j)) as [en|ne].
        * right. destruct (h1 en) as [p1 [_ [ei _]]]. split; [|exact ei].
          assert (k = j) by (apply (name_inj (t_doc t)); try assumption; apply (sd_doc t hs)). subst k. congruence.
        * left. destruct (h2 ne) as [p1 [_ [_ [_ hsame]]]]. rewrite p1 in e'. rewrite (hsame (fun e => hx (eq_trans (eq_sym e') e))) in *.
          left. exists k. tauto.
      + left. destruct (F2_in' _ _ _ (rel_links _ _ _ _ _ HR) l' hl') as [l [hl [en [_ h2]]]].
        assert (el : l' = l) by (apply h2; intros e; apply hx; congruence). subst l'. right. exists l, o. tauto.
    - intros [[(k&hk&e&->)|(l&o&hl&e&ho&->)]|[-> ->]].
      + left. destruct (F2_in _ _ _ (rel_joints _ _ _ _ _ HR) k hk) as [k' [hk' [_ [_ [_ [h1 h2]]]]]].
        assert (ne : j_name k <> j_name j).
        { intros en. assert (k = j) by (apply (name_inj (t_doc t)); try assumption; apply (sd_doc t hs)). subst k. congruence. }
        destruct (h2 ne) as [_ [_ [_ [_ hsame]]]]. rewrite (hsame (fun e' => hx (eq_trans (eq_sym e) e'))) in hk'.
        exists k. tauto.
      + right. destruct (F2_in _ _ _ (rel_links _ _ _ _ _ HR) l hl) as [l' [hl' [en [_ h2]]]].
        assert (el : l' = l) by (apply h2; intros e'; apply hx; congruence). subst l'. exists l, o. tauto.
      + left. destruct (F2_in _ _ _ (rel_joints _ _ _ _ _ HR) j hj) as [k' [hk' [_ [_ [_ [h1 _]]]]]].
        destruct (h1 eq_refl) as [p1 [_ [ei _]]]. exists k'. split; [exact hk'|]. split; [exact p1|now symmetry]. }
  assert (hp1 : path (t_doc t1) (t_root t1) p link).
  { rewrite hr. apply (deep_path t t1 j hs hj ep HR _ _ _ hp').
    exists (cons j nil). split; [discriminate|]. rewrite <- ep. apply (path_cons _ j nil); [assumption|constructor]. }
  eapply outcome_iff; [|apply (IH t1 link s1 hp1); intros k hk; apply hd; now right].
  (* the parents of the joints of the path are not the old root *)
  assert (PK : forall p1 k p2, p = (p1 ++ k :: p2)%list -> j_parent k <> t_root t /\ (p1 = [] -> j_parent k = j_child j)).
  { intros p1 k p2 e. subst p. destruct p1 as [|x p1] using rev_ind.
    - cbn [app] in hp'. destruct (path_tail _ _ _ _ _ hp') as [_ [e' _]]. split; [rewrite e'; now apply hne|auto].
    - clear IHp1. rewrite <- app_assoc in hp'. cbn [app] in hp'.
      assert (X : j_parent k = j_child x /\ In x (joints (t_doc t))).
      { clear - hp'. revert hp'. generalize (j_child j). induction p1 as [|y p1 IH]; intros a h; cbn [app] in h;
          destruct (path_tail _ _ _ _ _ h) as [h1 [h2 h3]].
        - destruct (path_tail _ _ _ _ _ h1) as [_ [h4 _]]. split; assumption.
        - exact (IH _ h1). }
      destruct X as [-> hx]. split; [now apply hne|]. destruct p1; discriminate. }
  split.
  - intros h p1 k p2 o e eo. destruct (h p1 k p2 o e eo) as [h1 h2]. destruct (PK p1 k p2 e) as [n1 n2]. split.
    + intros P hP. apply h1. apply AT; [exact n1|now left].
    + destruct p1 as [|x p1]; [|apply h2; discriminate]. apply h1. apply AT; [exact n1|]. right. split; [now apply n2|reflexivity].
  - intros h p1 k p2 o e eo. destruct (h p1 k p2 o e eo) as [h1 h2]. destruct (PK p1 k p2 e) as [n1 n2]. split; [|intros _; exact h2].
    intros P hP. apply AT in hP; [|exact n1]. destruct hP as [hP|[_ ->]]; [now apply h1|exact h2].
Qed.

Lemma C48_returns_exact_proof : forall (t : tree R) link p, sound t -> path (t_doc t) (t_root t) p link ->
  (forall k, In k p -> In (type_of (j_type k)) [Some fixed; Some revolute; Some continuous; Some prismatic]) ->
  let fine := forall p1 k p2 o, p = (p1 ++ k :: p2)%list -> j_origin k = Some o ->
    (forall P, attached (t_doc t) (j_parent k) P -> ~ rewritten P o) /\
    (p1 <> [] -> ~ rewritten (mkPose (0,0,0) (0,0,0)) o) in
  ((exists t', define_as_root_link t link = Ok t') <-> fine) /\ (define_as_root_link t link = Abort <-> ~ fine).
Proof.
  intros t link p hs hp hd fine. pose proof (path_length _ _ (sd_doc t hs) (is_r t hs) p link hp) as hl.
  assert (hd' : forall k, In k p -> one_dof k).
  { intros k hk. specialize (hd k hk). unfold one_dof. cbn in hd. destruct hd as [e|[e|[e|[e|[]]]]]; symmetry in e; tauto. }
  unfold define_as_root_link. rewrite (path_to_root_total p t link _ hs hp (le_S _ _ hl) hd'). cbn [rbind]. rewrite rev_involutive.
  pose proof (flip_all_outcome p t link hs hp hd') as h. change (clear_path (t_doc t) p) with fine in h. clearbody fine.
  destruct h as [[[t' e] h]|[e h]]; rewrite e; (split; split); intros; try assumption; try contradiction; try discriminate; eauto.
  destruct H as [t' e']. discriminate.
Qed.


Lemma C48_transport_returns_exact_proof : forall (t : tree R) pose, sound t ->
  let fine := forall P, attached (t_doc t) (t_root t) P -> ~ rewritten P pose in
  ((exists t', transport_frame t pose = Ok t') <-> fine) /\ (transport_frame t pose = Abort <-> ~ fine).
Proof.
  intros t pose hs fine. pose proof (transport_outcome t pose (fun _ => false) hs) as h. fold fine in h. clearbody fine.
  unfold transport_frame. destruct h as [[[t' e] h]|[e h]]; rewrite e; (split; split); intros; try assumption; try contradiction; try discriminate; eauto.
  destruct H as [t' e']. discriminate.
Qed.


Definition twins (o1 o2 : Pose R) : list (elem R) :=
  [ELink (mkLink "base" None [] []); ELink (mkLink "a" None [] []); ELink (mkLink "b" None [] []);
   EJoint (mkJoint "ja" "fixed" "base" "a" (Some o1) None None);
   EJoint (mkJoint "jb" "fixed" "base" "b" (Some o2) None None)].
Definition twins_tree (o1 o2 : Pose R) : tree R := mkTree (twins o1 o2) ["ja"; "jb"]%string "base"%string.
Lemma twins_ok : forall o1 o2, ctor (twins o1 o2) = Ok (twins_tree o1 o2).
Proof. intros o1 o2. vm_compute. reflexivity. Qed.
Lemma twins_abort : forall o1 o2, premul (pose_inverse o1) o1 (Some o2) false = Abort ->
  define_as_root_link (twins_tree o1 o2) "a" = Abort.
Proof.
  intros o1 o2 h. unfold define_as_root_link.
  assert (e : path_to_root (Datatypes.S (List.length (joints (t_doc (twins_tree o1 o2))))) (twins_tree o1 o2) "a" = Ok (cons "ja"%string nil))
    by (vm_compute; reflexivity).
  rewrite e. cbn -[premul pose_inverse]. rewrite h.
  destruct (premul (pose_inverse o1) o1 (Some o1) false) eqn:e1; try reflexivity.
  all: exfalso; unfold premul in e1; rewrite !(proj2 (pose_eqb_iff _ _) eq_refl) in e1; discriminate.
Qed.
Lemma C48_whole_turn_refuted_proof : exists (d : list (elem R)) (t : tree R),
  ctor d = Ok t /\ define_as_root_link t "a" = Abort /\
  (exists p, path d (t_root t) p "a"%string /\ forall k, In k p -> type_of (j_type k) = Some fixed).
Proof.
  set (o1 := mkPose (0,0,0) (PI/2,0,0)). set (o2 := mkPose (0,0,0) (PI/2 + 2 * PI,0,0)).
  exists (twins o1 o2), (twins_tree o1 o2). split; [apply twins_ok|]. split.
  - apply twins_abort. unfold premul. rewrite (proj2 (pose_eqb_iff _ _) eq_refl). cbn [negb pose_from].
    destruct (pose_eqb o2 o1) eqn:e.
    { exfalso. apply pose_eqb_iff in e. injection e as e. pose proof PI_RGT_0. lra. }
    assert (hz : pose_to (pose_mul (pose_inverse o1) o2) = None); [|now rewrite hz].
    assert (hs : forall v, mapply (rpy_mat (p_rpy o2)) v = mapply (rpy_mat (p_rpy o1)) v).
    { intros v. unfold o1, o2. cbn [p_rpy]. unfold rpy_mat, vx, vy, vz. cbn [fst snd].
      assert (RX (PI/2 + 2 * PI) = RX (PI/2)) as ->; [|reflexivity].
      unfold RX. replace (PI/2 + 2 * PI) with (PI/2 + 2 * INR 1 * PI) by (cbn; ring). now rewrite cos_period, sin_period. }
    set (m := pose_mul (pose_inverse o1) o2).
    assert (hx : p_xyz m = (0,0,0)).
    { unfold m. rewrite mul_xyz, inverse_xyz. unfold o1, o2. cbn [p_xyz].
      unfold mapply, vneg, vadd, vx, vy, vz. cbn [fst snd]. pair_eq; ring. }
    assert (hr : forall v, mapply (rpy_mat (p_rpy m)) v = v).
    { intros v. unfold m. rewrite mul_rpy, hs. apply (inverse_rpy o1). }
    assert (hr0 : p_rpy m = (0,0,0)).
    { apply mul_is_id; [|unfold o2; cbn [p_rpy]; intros h; injection h as h; pose proof PI_RGT_0; lra|exact hr].
      intros h. pose proof (hr (0,1,0)) as h1. unfold m in h1. rewrite mul_rpy, h, rpy_mat_0, hs in h1.
      unfold o1 in h1. cbn [p_rpy] in h1. unfold rpy_mat, mapply, mmul, sum3, RX, RY, RZ, of_rows, vx, vy, vz in h1. cbn [fst snd] in h1.
      rewrite cos_0, sin_0, cos_PI2, sin_PI2 in h1. injection h1 as _ h1 _. lra. }
    rewrite pose_to_R, hx, hr0. rewrite !(proj2 (is_zero_iff _) eq_refl). reflexivity.
  - eexists. split.
    + apply (path_snoc _ _ nil (mkJoint "ja" "fixed" "base" "a" (Some o1) None None)); [constructor|]. cbn. tauto.
    + intros k [<-|[]]. reflexivity.
Qed.

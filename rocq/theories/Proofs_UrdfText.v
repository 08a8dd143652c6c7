(** * Lemmas for Props_UrdfText *)

From Coq Require Import String Ascii.
From Coq Require Import List ZArith Bool Lia.
From Flocq Require Import Core.Core IEEE754.BinarySingleNaN.
Import ListNotations.
From Verif Require Import Scalar Model_Vec Model_Rigid Model_Average Model_Pose Model_Urdf Model_Squash Model_Text Model_UrdfText.
From Verif Require Import Model_Anim Spec_UrdfText.
Local Open Scope string_scope.
Local Open Scope Z_scope.
From Verif Require Proofs_Text.

(** ** Paths *)
Lemma find_app k l1 l2 : ~ In k (map fst l1) -> Model_Anim.find_child k (l1 ++ l2)%list = Model_Anim.find_child k l2.
Proof.
  induction l1 as [|(k', c) l1 IH]; cbn [app map fst In Model_Anim.find_child]; [tauto|]. intros h.
  destruct (String.eqb_spec k' k); [tauto|]. apply IH. tauto.
Qed.
Lemma find_no k pt : no_child k pt -> Model_Anim.find_child k (pt_kids pt) = None.
Proof. intros h. rewrite <- (app_nil_r (pt_kids pt)). now rewrite find_app. Qed.
Lemma find_one k pt c : one_child k pt c -> Model_Anim.find_child k (pt_kids pt) = Some c.
Proof.
  intros (l1 & l2 & -> & h & _). rewrite find_app by exact h. cbn [Model_Anim.find_child]. now rewrite String.eqb_refl.
Qed.
Lemma at_child_at p pt r : at_path p pt r -> child_at p pt = r.
Proof.
  induction 1 as [pt|k p pt h|k p pt c r h _ IH]; cbn [child_at]; [reflexivity| |].
  - now rewrite find_no.
  - now rewrite (find_one _ _ _ h).
Qed.
Lemma reads_get {A} (tr : string -> option A) p pt r : reads tr p pt r ->
  get tr p pt = mandatory r /\ get_opt tr p pt = optional r
  /\ (forall d, get_or tr p d pt = defaulted d r) /\ (forall d, get_default tr p d pt = lenient d r).
Proof.
  unfold get, get_default, get_or, get_opt. intros [(h & ->)|(c & h & e)]; rewrite (at_child_at _ _ _ h); [repeat split|].
  destruct (tr (pt_data c)); subst r; repeat split.
Qed.

Lemma C59_readers_proof : forall pt,
  let number p r := reads get_double p pt r in
  let coords p r := reads array3d_get p pt r in
  let text p r := reads Some p pt r in
  (forall r, text ["<xmlattr>"; "name"] r -> el_name pt = mandatory r)
  /\ (forall r, text ["parent"; "<xmlattr>"; "link"] r -> el_parent_link pt = mandatory r)
  /\ (forall r, text ["child"; "<xmlattr>"; "link"] r -> el_child_link pt = mandatory r)
  /\ (forall r, text ["<xmlattr>"; "joint"] r -> mimic_joint pt = mandatory r)
  /\ (forall r, number ["<xmlattr>"; "multiplier"] r -> mimic_multiplier pt = defaulted (f64_ofZ 1) r)
  /\ (forall r, number ["<xmlattr>"; "offset"] r -> mimic_offset pt = defaulted (f64_ofZ 0) r)
  /\ (forall r, number ["mass"; "<xmlattr>"; "value"] r -> inertial_mass pt = mandatory r)
  /\ (forall m r, number ["inertia"; "<xmlattr>"; m] r -> inertial_member m pt = mandatory r)
  /\ (forall r, coords ["<xmlattr>"; "size"] r -> box_size pt = mandatory r)
  /\ (forall r, number ["<xmlattr>"; "radius"] r -> cylinder_radius pt = mandatory r /\ sphere_radius pt = mandatory r)
  /\ (forall r, number ["<xmlattr>"; "length"] r -> cylinder_length pt = mandatory r)
  /\ (forall r, text ["<xmlattr>"; "filename"] r -> mesh_filename pt = mandatory r)
  /\ (forall r r', coords ["<xmlattr>"; "xyz"] r -> coords ["<xmlattr>"; "rpy"] r' ->
      pose_from_ptree pt = (let zeros := (f64_ofZ 0, f64_ofZ 0, f64_ofZ 0) in
                            let! x := defaulted zeros r in let! y := defaulted zeros r' in Ok (mkPose x y)))
  /\ (forall r, coords ["<xmlattr>"; "scale"] r -> mesh_scale pt = lenient (f64_ofZ 1, f64_ofZ 1, f64_ofZ 1) r)
  /\ (forall r, coords ["axis"; "<xmlattr>"; "xyz"] r -> el_axis pt = lenient (f64_ofZ 1, f64_ofZ 0, f64_ofZ 0) r)
  /\ (forall r, number ["limit"; "<xmlattr>"; "effort"] r -> limit_effort pt = optional r)
  /\ (forall r, number ["limit"; "<xmlattr>"; "velocity"] r -> limit_velocity pt = optional r)
  /\ (forall r r', number ["limit"; "<xmlattr>"; "lower"] r -> number ["limit"; "<xmlattr>"; "upper"] r' ->
      limit_lower_upper pt = if match optional r, optional r' with None, None => true | _, _ => false end then None
                             else Some (lenient (f64_ofZ 0) r, lenient (f64_ofZ 0) r')).
Proof.
  intros pt number coords text. subst number coords text. cbv beta.
  repeat match goal with |- _ /\ _ => split end.
  13: { intros r r' h h'. unfold pose_from_ptree, get_pose_child_array3d, attr_of.
        rewrite (proj1 (proj2 (proj2 (reads_get _ _ _ _ h)))), (proj1 (proj2 (proj2 (reads_get _ _ _ _ h')))). reflexivity. }
  17: { intros r r' h h'. unfold limit_lower_upper, attr_of.
        rewrite (proj1 (proj2 (reads_get _ _ _ _ h))), (proj1 (proj2 (reads_get _ _ _ _ h'))).
        destruct r, r'; reflexivity. }
  all: intros; match goal with h : reads _ _ _ _ |- _ => apply reads_get in h; destruct h as (h1 & h2 & h3 & h4) end.
  all: first [exact h1 | exact h2 | apply h3 | apply h4 | split; exact h1].
Qed.


Lemma C59_kinds_proof : forall L pt,
  (forall r, reads Some ["<xmlattr>"; "type"] pt r ->
     (forall t, joint_type pt = Ok t <-> r = Value (match t with
        | revolute => "revolute" | continuous => "continuous" | prismatic => "prismatic"
        | fixed => "fixed" | floating => "floating" | planar => "planar" end)) /\
     (joint_type pt = Throw \/ exists t, joint_type pt = Ok t))
  /\ (at_path ["geometry"] pt None -> visual_geometry pt = Throw)
  /\ (forall g box cylinder sphere mesh, at_path ["geometry"] pt (Some g) ->
      at_path ["box"] g box -> at_path ["cylinder"] g cylinder -> at_path ["sphere"] g sphere -> at_path ["mesh"] g mesh ->
      visual_geometry pt =
        match box, cylinder, sphere, mesh with
        | Some c, _, _, _ => Ok (Box c)
        | None, Some c, _, _ => Ok (Cylinder c)
        | None, None, Some c, _ => Ok (Sphere c)
        | None, None, None, Some c => Ok (Mesh c)
        | None, None, None, None => Throw
        end)
  /\ (at_path ["origin"] pt None -> el_origin L pt = Ok (mkPose (f64_ofZ 0, f64_ofZ 0, f64_ofZ 0) (f64_ofZ 0, f64_ofZ 0, f64_ofZ 0)))
  /\ (forall o, at_path ["origin"] pt (Some o) -> el_origin L pt = pose_from_ptree o).
Proof.
  intros L pt. split; [|split; [|split; [|split]]].
  - intros r h. apply reads_get in h. destruct h as (h&_). unfold joint_type, attr_of.
    change as_string with (@Some string). rewrite h. destruct r as [| |s]; cbn [mandatory rbind].
    1,2: split; [intro t; split; intro k; discriminate|left; reflexivity].
    split; [|destruct (type_of s); eauto].
    intro t. unfold type_of.
    repeat match goal with |- context [String.eqb s ?w] => destruct (String.eqb_spec s w) as [->|?] end;
      destruct t; split; intro k; try reflexivity; try discriminate; injection k; intros; congruence.
  - intro h. unfold visual_geometry. rewrite (at_child_at _ _ _ h). reflexivity.
  - intros g b c s m hg hb hc hs hm. unfold visual_geometry.
    rewrite (at_child_at _ _ _ hg), (at_child_at _ _ _ hb), (at_child_at _ _ _ hc), (at_child_at _ _ _ hs), (at_child_at _ _ _ hm).
    destruct b, c, s, m; reflexivity.
  - intro h. unfold el_origin. rewrite (at_child_at _ _ _ h). reflexivity.
  - intros o h. unfold el_origin. rewrite (at_child_at _ _ _ h). reflexivity.
Qed.


Lemma C59_malformed_refuted_proof : exists pt, reads array3d_get ["axis"; "<xmlattr>"; "xyz"] pt Malformed
  /\ reads array3d_get ["<xmlattr>"; "scale"] pt Malformed
  /\ el_axis pt = (f64_ofZ 1, f64_ofZ 0, f64_ofZ 0) /\ mesh_scale pt = (f64_ofZ 1, f64_ofZ 1, f64_ofZ 1).
Proof.
  exists (PT "" [("axis", PT "" [("<xmlattr>", PT "" [("xyz", PT "0 0" [])])]); ("<xmlattr>", PT "" [("scale", PT "1 2 3m" [])])]).
  assert (one : forall k c l, ~ In k (map fst l) -> one_child k (PT "" ((k, c) :: l)) c)
    by (intros k c l h; exists [], l; repeat split; [intros [] | exact h]).
  split; [|split; [|split; reflexivity]].
  - right. exists (PT "0 0" []). split; [|reflexivity].
    eapply at_child; [apply one; cbn; intuition discriminate|]. eapply at_child; [apply one; cbn; tauto|].
    eapply at_child; [apply one; cbn; tauto|]. constructor.
  - right. exists (PT "1 2 3m" []). split; [|reflexivity].
    eapply at_child; [eexists [_], []; repeat split; cbn; [intuition discriminate | tauto]|].
    eapply at_child; [apply one; cbn; tauto|]. constructor.
Qed.


(** ** Poses *)
Lemma find_put k f l : Model_Anim.find_child k (match upd_first k f l with Some l' => l' | None => (l ++ [(k, f (PT "" []))])%list end)
  = Some (f (match Model_Anim.find_child k l with Some c => c | None => PT "" [] end)).
Proof.
  induction l as [|(k', c) l IH]; cbn [upd_first Model_Anim.find_child app]; [now rewrite String.eqb_refl|].
  destruct (String.eqb k' k) eqn:e; cbn [Model_Anim.find_child]; rewrite ?e; [reflexivity|].
  destruct (upd_first k f l) as [l'|]; cbn [option_map Model_Anim.find_child app] in *; now rewrite e.
Qed.
Lemma find_put_other k k' f l : k <> k' ->
  Model_Anim.find_child k (match upd_first k' f l with Some l' => l' | None => (l ++ [(k', f (PT "" []))])%list end) = Model_Anim.find_child k l.
Proof.
  intros hk. induction l as [|(k2, c) l IH]; cbn [upd_first Model_Anim.find_child app].
  - destruct (String.eqb_spec k' k); [congruence|reflexivity].
  - destruct (String.eqb_spec k2 k') as [->|h]; cbn [Model_Anim.find_child].
    + destruct (String.eqb_spec k' k); [congruence|reflexivity].
    + destruct (upd_first k' f l) as [l'|]; cbn [option_map Model_Anim.find_child app] in *; now rewrite IH.
Qed.
Lemma kids_put k f pt : pt_kids (put_kid k f pt) = match upd_first k f (pt_kids pt) with Some l' => l' | None => (pt_kids pt ++ [(k, f (PT "" []))])%list end.
Proof. reflexivity. Qed.
Lemma child_put p f pt : child_at p (put_at p f pt) = Some (f (match child_at p pt with Some c => c | None => PT "" [] end)).
Proof.
  revert pt. induction p as [|k p IH]; intros pt; cbn [child_at put_at]; [reflexivity|].
  rewrite kids_put, find_put, IH. destruct (Model_Anim.find_child k (pt_kids pt)); [reflexivity|].
  destruct p; reflexivity.
Qed.
(** Two paths such that none is the start of the other. *)
Fixpoint apart (p q : list string) : bool :=
  match p, q with
  | k :: p', k' :: q' => if String.eqb k k' then apart p' q' else true
  | _, _ => false
  end.
Lemma child_put_apart p q f pt : apart p q = true -> child_at p (put_at q f pt) = child_at p pt.
Proof.
  revert q pt. induction p as [|k p IH]; intros [|k' q] pt; cbn [apart]; try discriminate.
  destruct (String.eqb_spec k k') as [->|h]; intros h2; cbn [child_at put_at]; rewrite kids_put.
  - rewrite find_put, IH by exact h2. destruct (Model_Anim.find_child k' (pt_kids pt)); [reflexivity|].
    destruct p; [discriminate|reflexivity].
  - now rewrite find_put_other.
Qed.
Lemma child_erase k p pt : child_at (k :: p) (erase k pt) = None.
Proof.
  cbn [child_at]. unfold erase. cbn [set_kids pt_kids].
  assert (e : Model_Anim.find_child k (filter (fun c => negb (String.eqb (fst c) k)) (pt_kids pt)) = None).
  { induction (pt_kids pt) as [|(k', c) l IH]; cbn [filter fst]; [reflexivity|].
    destruct (String.eqb k' k) eqn:e; cbn [negb Model_Anim.find_child]; [exact IH|]. now rewrite e. }
  now rewrite e.
Qed.
Lemma child_erase_other k k' p pt : k' <> k -> child_at (k' :: p) (erase k pt) = child_at (k' :: p) pt.
Proof.
  intros h. cbn [child_at]. unfold erase. cbn [set_kids pt_kids].
  assert (e : Model_Anim.find_child k' (filter (fun c => negb (String.eqb (fst c) k)) (pt_kids pt)) = Model_Anim.find_child k' (pt_kids pt)).
  { induction (pt_kids pt) as [|(k2, c) l IH]; cbn [filter fst]; [reflexivity|].
    destruct (String.eqb_spec k2 k) as [->|h2]; cbn [negb Model_Anim.find_child].
    - destruct (String.eqb_spec k k'); [congruence|exact IH].
    - now rewrite IH. }
  now rewrite e.
Qed.

Lemma eqf_refl x : fin x -> eqf x x.
Proof. intros h. unfold eqf. rewrite Beqb_correct by exact h. now apply Raux.Req_bool_true. Qed.
Lemma eq3_refl v : fin3 v -> eq3 v v.
Proof. intros (h1 & h2 & h3). repeat split; now apply eqf_refl. Qed.

Notation zeros := (f64_ofZ 0, f64_ofZ 0, f64_ofZ 0).
Lemma fin_zero : fin (f64_ofZ 0).
Proof. reflexivity. Qed.
Lemma fin_zeros : fin3 zeros.
Proof. repeat split. Qed.
Lemma eqf_sym x y : fin x -> fin y -> eqf x y -> eqf y x.
Proof.
  unfold eqf. intros hx hy. rewrite !Beqb_correct by assumption. intros h.
  destruct (Raux.Req_bool_spec (B2R x) (B2R y)) as [e|]; [|discriminate]. rewrite e. now apply Raux.Req_bool_true.
Qed.
Lemma is_zero_eq3 L v : fin3 v -> @is_zero f64 (F64Scalar L) v = true <-> eq3 zeros v.
Proof.
  intros (f0 & f1 & f2). unfold is_zero, eq3. cbn [s_eqb s_ofZ F64Scalar a0 a1 a2 fst snd]. rewrite !andb_true_iff.
  assert (k : forall x, fin x -> Beqb x (f64_ofZ 0) = true <-> eqf (f64_ofZ 0) x)
    by (intros x hx; split; intros h; apply eqf_sym; try exact h; try exact hx; exact fin_zero).
  rewrite !k by assumption. tauto.
Qed.

Lemma get_or_put {A} (tr : string -> option A) p d v pt : get_or tr p d (put_string p v pt) = match tr v with Some a => Ok a | None => Throw end.
Proof. unfold get_or, put_string. now rewrite child_put. Qed.
Lemma get_or_apart {A} (tr : string -> option A) p q d f pt : apart p q = true -> get_or tr p d (put_at q f pt) = get_or tr p d pt.
Proof. intros h. unfold get_or. now rewrite child_put_apart. Qed.
Lemma get_opt_put {A} (tr : string -> option A) p v pt : get_opt tr p (put_string p v pt) = tr v.
Proof. unfold get_opt, put_string. now rewrite child_put. Qed.
Lemma get_opt_apart {A} (tr : string -> option A) p q f pt : apart p q = true -> get_opt tr p (put_at q f pt) = get_opt tr p pt.
Proof. intros h. unfold get_opt. now rewrite child_put_apart. Qed.
Lemma get_or_s {A} (tr : string -> option A) p q d v pt : apart p q = true -> get_or tr p d (put_string q v pt) = get_or tr p d pt.
Proof. apply get_or_apart. Qed.
Lemma get_opt_s {A} (tr : string -> option A) p q v pt : apart p q = true -> get_opt tr p (put_string q v pt) = get_opt tr p pt.
Proof. apply get_opt_apart. Qed.
Lemma array_put v : fin3 v -> array3d_get (array3d_put v) = Some v.
Proof. intros (h0 & h1 & h2). now apply Proofs_Text.C59_array3d_put_proof. Qed.
Lemma double_put x : fin x -> get_double (put_double x) = Some x.
Proof. intros h. now apply Proofs_Text.C59_double_proof. Qed.

Lemma pose_read L p t : fin_pose p -> pose_to_ptree L p = Some t ->
  pose_from_ptree t = Ok (mkPose (if @is_zero f64 (F64Scalar L) (p_xyz p) then zeros else p_xyz p)
                                 (if @is_zero f64 (F64Scalar L) (p_rpy p) then zeros else p_rpy p)).
Proof.
  intros (hx & hr). unfold pose_to_ptree, pose_from_ptree, get_pose_child_array3d. unfold S64.
  destruct (is_zero (p_xyz p)) eqn:ex, (is_zero (p_rpy p)) eqn:er; cbn [andb]; intros h; try discriminate h;
    injection h as <-; repeat (first [rewrite get_or_put | rewrite get_or_s by reflexivity]);
    rewrite ?(array_put _ hr), ?(array_put _ hx); reflexivity.
Qed.

Lemma C59_pose_proof : forall L p, fin_pose p ->
  exists q, pose_from_optional L (pose_to_ptree L p) = Ok q /\ eq_pose q p
  /\ (~ eq3 (f64_ofZ 0, f64_ofZ 0, f64_ofZ 0) (p_xyz p) -> p_xyz q = p_xyz p)
  /\ (~ eq3 (f64_ofZ 0, f64_ofZ 0, f64_ofZ 0) (p_rpy p) -> p_rpy q = p_rpy p).
Proof.
  intros L p hp. assert (hp2 := hp). destruct hp2 as (hx & hr).
  assert (zx := is_zero_eq3 L _ hx). assert (zr := is_zero_eq3 L _ hr).
  destruct (pose_to_ptree L p) as [t|] eqn:e; cbn [pose_from_optional].
  - rewrite (pose_read L p t hp e). eexists; split; [reflexivity|]. cbn [p_xyz p_rpy].
    destruct (is_zero (p_xyz p)), (is_zero (p_rpy p)); split; [split| |split| |split| |split|]; cbn [p_xyz p_rpy];
      try (now apply zx); try (now apply zr); try (now apply eq3_refl); split; intros h; try reflexivity; exfalso; apply h; tauto.
  - exists (@pose_id f64 (F64Scalar L)). split; [reflexivity|]. unfold pose_to_ptree in e. unfold S64 in e.
    destruct (is_zero (p_xyz p)), (is_zero (p_rpy p)); try discriminate e.
    change (p_xyz pose_id) with zeros. change (p_rpy pose_id) with zeros. repeat split; try (now apply zx); try (now apply zr);
      intros h; exfalso; apply h; tauto.
Qed.


(** ** Edits of elements *)
Definition mimic_of (pt : ptree) : res (option string) :=
  match joint_mimic pt with None => Ok None | Some m => rmap Some (mimic_joint m) end.
Lemma get_ok {A} (tr : string -> option A) p pt a : get tr p pt = Ok a <-> get_opt tr p pt = Some a.
Proof. unfold get. destruct (get_opt tr p pt); split; congruence. Qed.
Lemma joint_inv pt j : joint_of pt = Ok j <->
  get_opt as_string (attr_of "name") pt = Some (j_name j) /\ get_opt as_string (attr_of "type") pt = Some (j_type j)
  /\ get_opt as_string ("parent" :: attr_of "link") pt = Some (j_parent j) /\ get_opt as_string ("child" :: attr_of "link") pt = Some (j_child j)
  /\ origin_of pt = Ok (j_origin j) /\ mimic_of pt = Ok (j_mimic j) /\ get_opt array3d_get ("axis" :: attr_of "xyz") pt = j_axis j.
Proof.
  unfold joint_of. fold (mimic_of pt). rewrite <- !get_ok. fold (el_name pt) (el_parent_link pt) (el_child_link pt).
  destruct (el_name pt); cbn [rbind]; [|split; [discriminate|intros (h & _); discriminate]..].
  destruct (get as_string (attr_of "type") pt); cbn [rbind]; [|split; [discriminate|intros (_ & h & _); discriminate]..].
  destruct (el_parent_link pt); cbn [rbind]; [|split; [discriminate|intros (_ & _ & h & _); discriminate]..].
  destruct (el_child_link pt); cbn [rbind]; [|split; [discriminate|intros (_ & _ & _ & h & _); discriminate]..].
  destruct (origin_of pt); cbn [rbind]; [|split; [discriminate|intros (_ & _ & _ & _ & h & _); discriminate]..].
  destruct (mimic_of pt); cbn [rbind]; [|split; [discriminate|intros (_ & _ & _ & _ & _ & h & _); discriminate]..].
  split.
  - intros h. injection h as <-. repeat split.
  - destruct j as [n t p c o ax m]; cbn. intros (h1 & h2 & h3 & h4 & h5 & h6 & h7). congruence.
Qed.
Lemma origin_put_s q v pt : apart ["origin"] q = true -> origin_of (put_string q v pt) = origin_of pt.
Proof. intros h. unfold origin_of. unfold put_string. now rewrite child_put_apart. Qed.
Lemma mimic_put_s q v pt : apart ["mimic"] q = true -> mimic_of (put_string q v pt) = mimic_of pt.
Proof. intros h. unfold mimic_of, joint_mimic. unfold put_string. now rewrite child_put_apart. Qed.
Lemma get_opt_erase {A} (tr : string -> option A) k p pt : get_opt tr (k :: p) (erase k pt) = None.
Proof. unfold get_opt. now rewrite child_erase. Qed.
Lemma get_opt_erase_other {A} (tr : string -> option A) k k' p pt : String.eqb k' k = false -> get_opt tr (k' :: p) (erase k pt) = get_opt tr (k' :: p) pt.
Proof. intros h. unfold get_opt. rewrite child_erase_other; [reflexivity|]. now apply String.eqb_neq. Qed.
Lemma origin_erase k pt : String.eqb "origin" k = false -> origin_of (erase k pt) = origin_of pt.
Proof. intros h. unfold origin_of. rewrite child_erase_other; [reflexivity|]. now apply String.eqb_neq. Qed.
Lemma mimic_erase k pt : String.eqb "mimic" k = false -> mimic_of (erase k pt) = mimic_of pt.
Proof. intros h. unfold mimic_of, joint_mimic. rewrite child_erase_other; [reflexivity|]. now apply String.eqb_neq. Qed.
Lemma mimic_put_child q v pt : apart ["mimic"] q = true -> mimic_of (put_child q v pt) = mimic_of pt.
Proof. intros h. unfold mimic_of, joint_mimic. unfold put_child. now rewrite child_put_apart. Qed.
Lemma get_opt_c {A} (tr : string -> option A) p q v pt : apart p q = true -> get_opt tr p (put_child q v pt) = get_opt tr p pt.
Proof. apply get_opt_apart. Qed.

Ltac reread :=
  unfold attr_of in *;
  repeat (first
    [ rewrite get_opt_put | rewrite get_opt_erase
    | rewrite get_opt_s by reflexivity | rewrite get_opt_c by reflexivity | rewrite get_opt_erase_other by reflexivity
    | rewrite origin_put_s by reflexivity | rewrite mimic_put_s by reflexivity | rewrite mimic_put_child by reflexivity
    | rewrite origin_erase by reflexivity | rewrite mimic_erase by reflexivity ]).

Lemma C60_links_proof : forall pt j, joint_of pt = Ok j ->
  (exists pt', el_flip_links pt = Ok pt' /\ joint_of pt' = Ok (flip_joint_links j))
  /\ (forall type, joint_of (el_make type pt) = Ok (set_type j type))
  /\ (forall n, joint_of (put_name n pt) = Ok (mkJoint n (j_type j) (j_parent j) (j_child j) (j_origin j) (j_axis j) (j_mimic j))).
Proof.
  intros pt j h. apply joint_inv in h. destruct h as (h1 & h2 & h3 & h4 & h5 & h6 & h7). split; [|split].
  - unfold el_flip_links, el_parent_link, el_child_link, get. rewrite h3, h4. cbn [rbind].
    eexists; split; [reflexivity|]. apply joint_inv. destruct j as [jn jt jp jc jo ja jm]; cbn [flip_joint_links j_name j_type j_parent j_child j_origin j_axis j_mimic] in *.
    reread. repeat split; assumption.
  - intros t. apply joint_inv. unfold el_make. destruct j as [jn jt jp jc jo ja jm]; cbn [set_type j_name j_type j_parent j_child j_origin j_axis j_mimic] in *.
    reread. repeat split; assumption.
  - intros n. apply joint_inv. unfold put_name. destruct j as [jn jt jp jc jo ja jm]; cbn [j_name j_type j_parent j_child j_origin j_axis j_mimic] in *.
    reread. repeat split; assumption.
Qed.


Lemma fin_opp x : fin x -> fin (Bopp x).
Proof. intros h. unfold fin. now rewrite is_finite_Bopp. Qed.

Lemma C60_axis_proof : forall L pt j, joint_of pt = Ok j ->
  (forall a, j_axis j = Some a -> fin3 a) ->
  match @flip_joint_axis f64 (F64Scalar L) j with
  | Ok j' => exists pt', el_flip_axis L pt = Ok pt' /\ joint_of pt' = Ok j'
             /\ (type_of (j_type j) <> Some fixed -> type_of (j_type j) <> Some floating ->
                 eq3 (el_axis pt') (Bopp (a0 (el_axis pt)), Bopp (a1 (el_axis pt)), Bopp (a2 (el_axis pt))))
  | _ => el_flip_axis L pt = Throw
  end.
Proof.
  intros L pt j h ha. apply joint_inv in h. destruct h as (h1 & h2 & h3 & h4 & h5 & h6 & h7).
  unfold flip_joint_axis, el_flip_axis, joint_type, get. rewrite h2. cbn [rbind].
  assert (ea : el_axis pt = @joint_axis f64 (F64Scalar L) j).
  { unfold el_axis, get_default, joint_axis. rewrite h7. reflexivity. }
  assert (fa : fin3 (el_axis pt)).
  { rewrite ea. unfold joint_axis. destruct (j_axis j) as [a|]; [now apply ha|]. repeat split. }
  destruct (type_of (j_type j)) as [ty|]; [|reflexivity].
  set (nw := (Bopp (a0 (el_axis pt)), Bopp (a1 (el_axis pt)), Bopp (a2 (el_axis pt)))).
  assert (fn : fin3 nw) by (destruct fa as (f0 & f1 & f2); repeat split; now apply fin_opp).
  assert (go : exists pt',
    (if @a_eqb f64 (F64Scalar L) nw (f64_ofZ 1, f64_ofZ 0, f64_ofZ 0) then Ok (erase "axis" pt)
     else Ok (put_string ("axis" :: attr_of "xyz") (array3d_put nw) pt)) = Ok pt'
    /\ joint_of pt' = Ok (set_axis j (if @a_eqb f64 (F64Scalar L) nw (f64_ofZ 1, f64_ofZ 0, f64_ofZ 0) then None else Some nw))
    /\ eq3 (el_axis pt') nw).
  { destruct (@a_eqb f64 (F64Scalar L) nw (f64_ofZ 1, f64_ofZ 0, f64_ofZ 0)) eqn:e; eexists; (split; [reflexivity|]); split.
    - apply joint_inv. destruct j as [jn jt jp jc jo ja jm]; cbn [set_axis j_name j_type j_parent j_child j_origin j_axis j_mimic] in *. reread. repeat split; assumption.
    - unfold el_axis, get_default. rewrite get_opt_erase. unfold a_eqb in e. rewrite !andb_true_iff in e. destruct e as ((e1 & e2) & e3).
      destruct fn as (f0 & f1 & f2). repeat split; apply eqf_sym; try assumption; reflexivity.
    - apply joint_inv. destruct j as [jn jt jp jc jo ja jm]; cbn [set_axis j_name j_type j_parent j_child j_origin j_axis j_mimic] in *. reread. rewrite array_put by exact fn. repeat split; assumption.
    - unfold el_axis, get_default. rewrite get_opt_put, array_put by exact fn. now apply eq3_refl. }
  rewrite <- ea. cbn [s_neg s_ofZ F64Scalar]. unfold S64.
  destruct ty; try (destruct go as (pt' & g1 & g2 & g3); exists pt'; split; [exact g1|split; [exact g2|intros _ _; exact g3]]);
    exists pt; (split; [reflexivity|]); (split; [|intros; congruence]); apply joint_inv; repeat split; assumption.
Qed.


(** The outcome [r], which is not a value, as an outcome of another type. *)
Lemma origin_from L pt o : origin_of pt = Ok o -> pose_from_optional L (child_at ["origin"] pt) = Ok (@pose_from f64 (F64Scalar L) o).
Proof.
  unfold origin_of. destruct (child_at ["origin"] pt) as [c|]; cbn [pose_from_optional].
  - destruct (pose_from_ptree c); cbn [rmap]; try discriminate. intros h. injection h as <-. reflexivity.
  - intros h. injection h as <-. reflexivity.
Qed.
Lemma eq_pose_refl p : fin_pose p -> eq_pose p p.
Proof. intros (h1 & h2). split; now apply eq3_refl. Qed.
Lemma find_hd k l : Model_Anim.find_child k l = match map snd (filter (fun c : string * ptree => String.eqb (fst c) k) l) with [] => None | c :: _ => Some c end.
Proof. induction l as [|(k', c) l IH]; cbn [Model_Anim.find_child filter fst map snd]; [reflexivity|]. destruct (String.eqb k' k); [reflexivity|exact IH]. Qed.
Lemma named_put k k' f l : k' <> k -> map snd (filter (fun c : string * ptree => String.eqb (fst c) k')
   (match upd_first k f l with Some l' => l' | None => (l ++ [(k, f (PT "" []))])%list end))
  = map snd (filter (fun c : string * ptree => String.eqb (fst c) k') l).
Proof.
  intros hk. induction l as [|(k2, c) l IH]; cbn [upd_first app filter fst].
  - destruct (String.eqb_spec k k'); [congruence|reflexivity].
  - destruct (String.eqb_spec k2 k) as [->|h]; cbn [filter fst map snd].
    + destruct (String.eqb_spec k k'); [congruence|reflexivity].
    + destruct (upd_first k f l) as [l'|]; cbn [option_map filter fst map snd app] in *; destruct (String.eqb k2 k'); cbn [map snd]; now rewrite IH.
Qed.
Lemma named_erase k k' l : k' <> k -> map snd (filter (fun c : string * ptree => String.eqb (fst c) k') (filter (fun c => negb (String.eqb (fst c) k)) l))
  = map snd (filter (fun c : string * ptree => String.eqb (fst c) k') l).
Proof.
  intros hk. induction l as [|(k2, c) l IH]; cbn [filter fst]; [reflexivity|].
  destruct (String.eqb_spec k2 k) as [->|h]; cbn [negb filter fst].
  - destruct (String.eqb_spec k k'); [congruence|exact IH].
  - destruct (String.eqb k2 k'); cbn [map snd]; now rewrite IH.
Qed.

Lemma beq_zero_fin : forall x : f64, Beqb x (f64_ofZ 0) = true -> fin x.
Proof. intros [sx|[]| |[] mx ex bx]; unfold fin; cbn; try reflexivity; try discriminate. Qed.
Lemma zero_fin L v : @is_zero f64 (F64Scalar L) v = true -> fin3 v.
Proof.
  unfold is_zero. cbn [s_eqb s_ofZ F64Scalar]. rewrite !andb_true_iff. intros ((h0 & h1) & h2).
  repeat split; now apply beq_zero_fin.
Qed.
Lemma fin_unsigned L q : fin_pose (mkPose (@unsigned_zero f64 (F64Scalar L) (p_xyz q)) (@unsigned_zero f64 (F64Scalar L) (p_rpy q))) -> fin_pose q.
Proof.
  unfold fin_pose, unsigned_zero. cbn [p_xyz p_rpy]. intros (h1 & h2). split.
  - destruct (is_zero (p_xyz q)) eqn:z; [now apply (zero_fin L)|exact h1].
  - destruct (is_zero (p_rpy q)) eqn:z; [now apply (zero_fin L)|exact h2].
Qed.

Lemma premul_el L lhs ilhs np pt o : origin_of pt = Ok o ->
  match @premul f64 (F64Scalar L) lhs ilhs o np with
  | Ok o' => exists pt', el_premul L lhs ilhs np pt = Ok pt' /\ (fin_origin o' -> origin_of pt' = Ok o')
             /\ forall k, k <> "origin" -> kids_named k pt' = kids_named k pt
  | Abort => el_premul L lhs ilhs np pt = Abort
  | _ => False
  end.
Proof.
  intros ho. unfold premul, el_premul in *. unfold S64.
  destruct (negb (pose_eqb lhs (pose_inverse ilhs))); [reflexivity|].
  rewrite (origin_from L _ _ ho). cbn [rbind].
  destruct (@pose_eqb f64 (F64Scalar L) (@pose_from f64 (F64Scalar L) o) ilhs).
  - destruct np.
    + eexists; split; [reflexivity|]. split.
      * intros _. unfold origin_of, put_child; rewrite child_put; reflexivity.
      * intros k hk. unfold kids_named, put_child. cbn [put_at]. rewrite kids_put. now apply named_put.
    + eexists; split; [reflexivity|]. split.
      * intros _. unfold origin_of; now rewrite child_erase.
      * intros k hk. now apply named_erase.
  - set (q := @pose_mul f64 (F64Scalar L) lhs (@pose_from f64 (F64Scalar L) o)) in *. unfold pose_to in *.
    destruct (pose_to_ptree L q) as [t|] eqn:e.
    + assert (e0 := e). unfold pose_to_ptree in e0. unfold S64 in e0.
      destruct (is_zero (p_xyz q) && is_zero (p_rpy q))%bool; [discriminate e0|]. clear e0.
      eexists; split; [reflexivity|]. split.
      * intros hf. apply (fin_unsigned L) in hf. unfold origin_of, put_child; rewrite child_put, (pose_read L q t hf e); reflexivity.
      * intros k hk. unfold kids_named, put_child. cbn [put_at]. rewrite kids_put. now apply named_put.
    + unfold pose_to_ptree in e. unfold S64 in e. destruct (is_zero (p_xyz q) && is_zero (p_rpy q))%bool; [reflexivity|discriminate e].
Qed.

Lemma child_named k p pt pt' : kids_named k pt' = kids_named k pt -> child_at (k :: p) pt' = child_at (k :: p) pt.
Proof. intros h. cbn [child_at]. rewrite !find_hd. unfold kids_named in h. now rewrite h. Qed.
Lemma get_opt_named {A} (tr : string -> option A) k p pt pt' : kids_named k pt' = kids_named k pt -> get_opt tr (k :: p) pt' = get_opt tr (k :: p) pt.
Proof. intros h. unfold get_opt. now rewrite (child_named _ p _ _ h). Qed.

Lemma C60_origin_proof : forall L lhs ilhs noprune pt j, joint_of pt = Ok j ->
  match @premul f64 (F64Scalar L) lhs ilhs (j_origin j) noprune with
  | Ok o => exists pt', el_premul L lhs ilhs noprune pt = Ok pt' /\ (fin_origin o -> joint_of pt' = Ok (set_origin j o))
            /\ forall k, k <> "origin" -> kids_named k pt' = kids_named k pt
  | Abort => el_premul L lhs ilhs noprune pt = Abort
  | _ => False
  end.
Proof.
  intros L lhs ilhs np pt j h. apply joint_inv in h. destruct h as (h1 & h2 & h3 & h4 & h5 & h6 & h7).
  assert (k := premul_el L lhs ilhs np pt _ h5). destruct (premul lhs ilhs (j_origin j) np); try exact k.
  destruct k as (pt' & k1 & k2 & k4). exists pt'. split; [exact k1|]. split; [|assumption].
  intros hf. specialize (k2 hf). apply joint_inv. destruct j as [jn jt jp jc jo ja jm]; cbn [set_origin j_name j_type j_parent j_child j_origin j_axis j_mimic] in *.
  unfold attr_of in *. rewrite !(get_opt_named _ _ _ pt pt') by (apply k4; discriminate).
  unfold mimic_of, joint_mimic. rewrite (child_named "mimic" [] pt pt') by (apply k4; discriminate). repeat split; assumption.
Qed.


Lemma inertial_inv pt i : inertial_of pt = Ok i <->
  origin_of pt = Ok (i_origin i) /\ get_opt get_double ("mass" :: attr_of "value") pt = Some (i_mass i)
  /\ get_opt get_double ("inertia" :: attr_of "ixx") pt = Some (i_ixx i) /\ get_opt get_double ("inertia" :: attr_of "ixy") pt = Some (i_ixy i)
  /\ get_opt get_double ("inertia" :: attr_of "ixz") pt = Some (i_ixz i) /\ get_opt get_double ("inertia" :: attr_of "iyy") pt = Some (i_iyy i)
  /\ get_opt get_double ("inertia" :: attr_of "iyz") pt = Some (i_iyz i) /\ get_opt get_double ("inertia" :: attr_of "izz") pt = Some (i_izz i).
Proof.
  unfold inertial_of. rewrite <- !get_ok. fold (inertial_mass pt).
  fold (inertial_member "ixx" pt) (inertial_member "ixy" pt) (inertial_member "ixz" pt) (inertial_member "iyy" pt) (inertial_member "iyz" pt) (inertial_member "izz" pt).
  destruct (origin_of pt); cbn [rbind]; [|split; [discriminate|intros (h & _); discriminate]..].
  destruct (inertial_mass pt); cbn [rbind]; [|split; [discriminate|intros (_ & h & _); discriminate]..].
  destruct (inertial_member "ixx" pt); cbn [rbind]; [|split; [discriminate|intros (_ & _ & h & _); discriminate]..].
  destruct (inertial_member "ixy" pt); cbn [rbind]; [|split; [discriminate|intros (_ & _ & _ & h & _); discriminate]..].
  destruct (inertial_member "ixz" pt); cbn [rbind]; [|split; [discriminate|intros (_ & _ & _ & _ & h & _); discriminate]..].
  destruct (inertial_member "iyy" pt); cbn [rbind]; [|split; [discriminate|intros (_ & _ & _ & _ & _ & h & _); discriminate]..].
  destruct (inertial_member "iyz" pt); cbn [rbind]; [|split; [discriminate|intros (_ & _ & _ & _ & _ & _ & h & _); discriminate]..].
  destruct (inertial_member "izz" pt); cbn [rbind]; [|split; [discriminate|intros (_ & _ & _ & _ & _ & _ & _ & h); discriminate]..].
  split.
  - intros h. injection h as <-. repeat split.
  - destruct i; cbn. intros (h1 & h2 & h3 & h4 & h5 & h6 & h7 & h8). congruence.
Qed.

Lemma pose_parts pt p : pose_from_ptree pt = Ok p ->
  get_or array3d_get (attr_of "xyz") zeros pt = Ok (p_xyz p) /\ get_or array3d_get (attr_of "rpy") zeros pt = Ok (p_rpy p).
Proof.
  unfold pose_from_ptree, get_pose_child_array3d. destruct (get_or array3d_get (attr_of "xyz") zeros pt); cbn [rbind]; try discriminate.
  destruct (get_or array3d_get (attr_of "rpy") zeros pt); cbn [rbind]; try discriminate. intros h. injection h as <-. split; reflexivity.
Qed.
Lemma child_origin_put q f pt : child_at ["origin"] (put_at ("origin" :: q) f pt)
  = Some (put_at q f (match child_at ["origin"] pt with Some c => c | None => PT "" [] end)).
Proof. exact (child_put ["origin"] (put_at q f) pt). Qed.
Lemma origin_or pt o : origin_of pt = Ok o ->
  pose_from_ptree (match child_at ["origin"] pt with Some c => c | None => PT "" [] end) = Ok (match o with Some p => p | None => mkPose zeros zeros end).
Proof.
  unfold origin_of. destruct (child_at ["origin"] pt) as [c|]; cbn [rmap].
  - destruct (pose_from_ptree c); cbn [rmap]; try discriminate. intros h. now injection h as <-.
  - intros h. injection h as <-. reflexivity.
Qed.
Lemma origin_put_xyz v pt o : fin3 v -> origin_of pt = Ok o ->
  origin_of (put_string ("origin" :: attr_of "xyz") (array3d_put v) pt) = Ok (Some (mkPose v (match o with Some p => p_rpy p | None => zeros end))).
Proof.
  intros hv ho. apply origin_or in ho. unfold origin_of, put_string. rewrite child_origin_put.
  fold (put_string (attr_of "xyz") (array3d_put v)). revert ho. set (c := match child_at ["origin"] pt with Some c => c | None => PT "" [] end). intros ho.
  apply pose_parts in ho. destruct ho as (hx & hr). unfold pose_from_ptree, get_pose_child_array3d.
  rewrite get_or_put, get_or_s by reflexivity. rewrite hr, array_put by exact hv. cbn [rbind rmap]. destruct o; reflexivity.
Qed.
Lemma origin_put_rpy v pt o : fin3 v -> origin_of pt = Ok o ->
  origin_of (put_string ("origin" :: attr_of "rpy") (array3d_put v) pt) = Ok (Some (mkPose (match o with Some p => p_xyz p | None => zeros end) v)).
Proof.
  intros hv ho. apply origin_or in ho. unfold origin_of, put_string. rewrite child_origin_put.
  fold (put_string (attr_of "rpy") (array3d_put v)). revert ho. set (c := match child_at ["origin"] pt with Some c => c | None => PT "" [] end). intros ho.
  apply pose_parts in ho. destruct ho as (hx & hr). unfold pose_from_ptree, get_pose_child_array3d.
  rewrite get_or_put, get_or_s by reflexivity. rewrite hx, array_put by exact hv. cbn [rbind rmap]. destruct o; reflexivity.
Qed.

(** The last part of the squashing of masses: the origin of the new inertial element. *)
Lemma put_origin_el L pt i (pose : Transform f64) :
  inertial_of pt = Ok i ->
  (match @put_origin f64 (F64Scalar L) (i_origin i) pose with Some p => fin_pose p | None => True end) ->
  let r := if @is_zero f64 (F64Scalar L) (translation pose) then pt
           else put_string ("origin" :: attr_of "xyz") (array3d_put (translation pose)) pt in
  inertial_of (if @is_identity f64 (F64Scalar L) (linear pose) then r
               else put_string ("origin" :: attr_of "rpy") (array3d_put (@rpy_of_matrix f64 (F64Scalar L) pose)) r)
  = Ok (set_i_origin i (@put_origin f64 (F64Scalar L) (i_origin i) pose)).
Proof.
  intros h hf. apply inertial_inv in h. destruct h as (h1 & h2 & h3 & h4 & h5 & h6 & h7 & h8). cbv zeta. apply inertial_inv.
  destruct i as [io im ixx ixy ixz iyy iyz izz]. cbn [set_i_origin i_origin i_mass i_ixx i_ixy i_ixz i_iyy i_iyz i_izz] in *.
  unfold put_origin in *.
  destruct (@is_zero f64 (F64Scalar L) (translation pose)); destruct (@is_identity f64 (F64Scalar L) (linear pose)).
  - repeat split; assumption.
  - unfold attr_of in *. rewrite !get_opt_s by reflexivity.
    split; [|repeat split; assumption]. fold (attr_of "rpy"). rewrite (origin_put_rpy _ _ io); [|apply hf|exact h1]. destruct io; reflexivity.
  - unfold attr_of in *. rewrite !get_opt_s by reflexivity.
    split; [|repeat split; assumption]. fold (attr_of "xyz"). rewrite (origin_put_xyz _ _ io); [|apply hf|exact h1]. destruct io; reflexivity.
  - unfold attr_of in *. rewrite !get_opt_s by reflexivity.
    split; [|repeat split; assumption]. fold (attr_of "xyz") (attr_of "rpy"). cbn [pose_from p_xyz p_rpy] in hf.
    rewrite (origin_put_rpy _ _ (Some (mkPose (translation pose) (match io with Some p => p_rpy p | None => zeros end))));
      [reflexivity|apply hf|]. apply origin_put_xyz; [apply hf|exact h1].
Qed.

Local Opaque squashInertial t_mul toEigenTransform put_origin is_zero is_identity rpy_of_matrix get_double array3d_get put_double array3d_put inertial_of child_at put_at.

Lemma C60_inertial_proof : forall L joint j child_inertial ci parent_inertial pi,
  joint_of joint = Ok j -> inertial_of child_inertial = Ok ci ->
  (match parent_inertial, pi with None, None => True | Some x, Some y => inertial_of x = Ok y | _, _ => False end) ->
  exists pt, el_squashed L joint child_inertial parent_inertial = Ok pt
  /\ (fin_inertial (@squashed f64 (F64Scalar L) j pi ci) -> inertial_of pt = Ok (@squashed f64 (F64Scalar L) j pi ci)).
Proof.
  intros L joint j cpt ci ppt pi hj hc hp.
  assert (hjo : origin_of joint = Ok (j_origin j)) by (apply joint_inv in hj; tauto).
  assert (hco : origin_of cpt = Ok (i_origin ci)) by (apply inertial_inv in hc; tauto).
  unfold el_squashed, el_origin. rewrite (origin_from L _ _ hjo), (origin_from L _ _ hco). cbn [rbind].
  unfold squashed in *. unfold S64 in *.
  set (cp := t_mul (toEigenTransform (pose_from (j_origin j))) (toEigenTransform (pose_from (i_origin ci)))) in *.
  destruct ppt as [ppt|], pi as [pi|]; try contradiction.
  - assert (hpo : origin_of ppt = Ok (i_origin pi)) by (apply inertial_inv in hp; tauto).
    rewrite (origin_from L _ _ hpo), hp, hc. cbn [rbind].
    destruct (squashInertial (i_mass pi) _ _ _ _ _) as ((m & pose) & i) eqn:e. cbn [rbind].
    eexists; split; [reflexivity|]. intros (f0 & f1 & f2 & f3 & f4 & f5 & f6 & f7).
    cbn [i_origin i_mass i_ixx i_ixy i_ixz i_iyy i_iyz i_izz] in *.
    rewrite (put_origin_el L _ (mkInertial None m (x00 i) (x01 i) (x02 i) (x11 i) (x12 i) (x22 i))); [reflexivity| |exact f0].
    apply inertial_inv. cbn [i_origin i_mass i_ixx i_ixy i_ixz i_iyy i_iyz i_izz].
    split; [unfold attr_of; rewrite !origin_put_s by reflexivity; reflexivity|].
    repeat split; unfold attr_of; repeat (first [rewrite get_opt_put | rewrite get_opt_s by reflexivity]); now apply double_put.
  - cbn [rbind]. eexists; split; [reflexivity|]. intros (f0 & _). cbn [i_origin] in f0.
    rewrite (put_origin_el L _ ci _ hc f0). reflexivity.
Qed.

Local Transparent squashInertial t_mul toEigenTransform put_origin is_zero is_identity rpy_of_matrix get_double array3d_get put_double array3d_put inertial_of child_at put_at.

(** *** The children of the root link *)
Definition named (k : string) (l : list (string * ptree)) : list ptree := map snd (filter (fun c => String.eqb (fst c) k) l).
Definition cast {A B} (r : res A) : res B := match r with Ok _ => UB | Throw => Throw | Abort => Abort | UB => UB end.
Lemma kids_mapM L key lhs ilhs l :
  match mapM (el_premul L lhs ilhs false) (named key l) with
  | Ok cs => exists l', premul_kids L key lhs ilhs l = Ok l' /\ named key l' = cs /\ forall k, k <> key -> named k l' = named k l
  | r => premul_kids L key lhs ilhs l = cast r
  end.
Proof.
  induction l as [|(k, c) l IH].
  - exists []. repeat split.
  - unfold named in *. cbn [filter fst premul_kids]. destruct (String.eqb k key) eqn:e; cbn [map snd mapM rbind].
    + destruct (el_premul L lhs ilhs false c) as [c'| | |]; cbn [rbind cast]; try reflexivity.
      destruct (mapM _ _) as [cs| | |]; cbn [rbind cast] in *; try (rewrite IH; reflexivity).
      destruct IH as (l' & -> & h1 & h2). cbn [rbind]. eexists; split; [reflexivity|]. cbn [filter fst]. rewrite e. cbn [map snd]. split; [now rewrite h1|].
      intros k2 h. destruct (String.eqb_spec k k2) as [->|]; [|now apply h2].
      apply String.eqb_eq in e. congruence.
    + destruct (mapM _ _) as [cs| | |]; cbn [rbind cast] in *; try (rewrite IH; reflexivity).
      destruct IH as (l' & -> & h1 & h2). cbn [rbind]. eexists; split; [reflexivity|]. cbn [filter fst]. rewrite e. split; [exact h1|].
      intros k2 h. destruct (String.eqb k k2); cbn [map snd]; rewrite h2 by exact h; reflexivity.
Qed.

Definition premul_shape L ipose pose (s : Shape f64) : res (Shape f64) :=
  let! o := @premul f64 (F64Scalar L) ipose pose (sh_origin s) false in Ok (mkShape o (sh_geometry s)).
Lemma shapes_mapM L geo ipose pose cs : forall vs, mapM (shape_of geo) cs = Ok vs ->
  match mapM (premul_shape L ipose pose) vs with
  | Ok vs' => exists cs', mapM (el_premul L ipose pose false) cs = Ok cs'
              /\ ((forall v, In v vs' -> fin_origin (sh_origin v)) -> mapM (shape_of geo) cs' = Ok vs')
              /\ Forall2 same_but_origin cs cs'
  | r => mapM (el_premul L ipose pose false) cs = cast r
  end.
Proof.
  induction cs as [|c cs IH]; intros vs; cbn [mapM].
  - intros h. injection h as <-. cbn [mapM]. eexists; split; [reflexivity|]. split; [reflexivity|constructor].
  - destruct (shape_of geo c) as [v| | |] eqn:ev; cbn [rbind]; try discriminate.
    destruct (mapM (shape_of geo) cs) as [vs1| | |]; cbn [rbind]; try discriminate. intros h. injection h as <-.
    specialize (IH vs1 eq_refl). cbn [mapM].
    unfold shape_of in ev. destruct (origin_of c) as [o| | |] eqn:eo; cbn [rbind] in ev; try discriminate. injection ev as <-.
    assert (k := premul_el L ipose pose false c o eo).
    unfold premul_shape at 1. cbn [sh_origin sh_geometry]. destruct (premul ipose pose o false) as [o'| | |]; cbn [rbind cast]; try contradiction; [|rewrite k; reflexivity].
    destruct k as (c' & -> & k2 & k4). cbn [rbind].
    destruct (mapM (premul_shape L ipose pose) vs1) as [vs'| | |]; cbn [rbind cast] in *; try (rewrite IH; reflexivity).
    destruct IH as (cs' & -> & h1 & h2). cbn [rbind]. eexists; split; [reflexivity|]. split; [|constructor; [exact k4|exact h2]].
    intros hf. specialize (k2 (hf _ (or_introl eq_refl))). specialize (h1 (fun v hv => hf v (or_intror hv))).
    cbn [mapM]. unfold shape_of at 1. rewrite k2. cbn [rbind]. rewrite h1. cbn [rbind].
    do 3 f_equal. f_equal. apply child_named. apply k4. discriminate.
Qed.

Definition inertials_of (cs : list ptree) : res (option (Inertial f64)) :=
  match cs with [] => Ok None | c :: _ => rmap Some (inertial_of c) end.
Lemma link_inv geo pt l : link_of geo pt = Ok l <->
  get_opt as_string (attr_of "name") pt = Some (l_name l) /\ inertials_of (kids_named "inertial" pt) = Ok (l_inertial l)
  /\ mapM (shape_of geo) (kids_named "visual" pt) = Ok (l_visuals l) /\ mapM (shape_of geo) (kids_named "collision" pt) = Ok (l_collisions l).
Proof.
  unfold link_of. rewrite <- get_ok. fold (el_name pt).
  assert (e : inertials_of (kids_named "inertial" pt) = match child_at ["inertial"] pt with None => Ok None | Some c => rmap Some (inertial_of c) end).
  { cbn [child_at]. rewrite find_hd. unfold inertials_of, kids_named. now destruct (map snd _). }
  rewrite <- e.
  destruct (el_name pt); cbn [rbind]; [|split; [discriminate|intros (h & _); discriminate]..].
  destruct (inertials_of _); cbn [rbind]; [|split; [discriminate|intros (_ & h & _); discriminate]..].
  destruct (mapM (shape_of geo) (kids_named "visual" pt)); cbn [rbind]; [|split; [discriminate|intros (_ & _ & h & _); discriminate]..].
  destruct (mapM (shape_of geo) (kids_named "collision" pt)); cbn [rbind]; [|split; [discriminate|intros (_ & _ & _ & h); discriminate]..].
  split.
  - intros h. injection h as <-. repeat split.
  - destruct l; cbn. intros (h1 & h2 & h3 & h4). congruence.
Qed.

Lemma inertials_premul L ipose pose cs oi : (length cs <= 1)%nat -> inertials_of cs = Ok oi ->
  match (match oi with None => Ok None
         | Some i => let! o := @premul f64 (F64Scalar L) ipose pose (i_origin i) false in Ok (Some (set_i_origin i o)) end) with
  | Ok oi' => exists cs', mapM (el_premul L ipose pose false) cs = Ok cs'
              /\ ((forall i, oi' = Some i -> fin_origin (i_origin i)) -> inertials_of cs' = Ok oi')
              /\ Forall2 same_but_origin cs cs'
  | r => mapM (el_premul L ipose pose false) cs = cast r
  end.
Proof.
  intros hl h. destruct cs as [|c [|? ?]]; cbn [length] in hl; [| |lia]; cbn [inertials_of] in h.
  - injection h as <-. exists []. split; [reflexivity|]. split; [reflexivity|constructor].
  - destruct (inertial_of c) as [i| | |] eqn:ei; cbn [rmap] in h; try discriminate. injection h as <-.
    assert (hi := proj1 (inertial_inv c i) ei). destruct hi as (h1 & h2 & h3 & h4 & h5 & h6 & h7 & h8).
    assert (k := premul_el L ipose pose false c _ h1). cbn [mapM].
    destruct (premul ipose pose (i_origin i) false) as [o'| | |]; cbn [rbind cast]; try contradiction; [|rewrite k; reflexivity].
    destruct k as (c' & -> & k2 & k4). cbn [rbind]. eexists; split; [reflexivity|].
    split; [|constructor; [exact k4|constructor]]. intros hf. specialize (k2 (hf _ eq_refl)).
    cbn [inertials_of]. assert (e : inertial_of c' = Ok (set_i_origin i o')); [|now rewrite e].
    apply inertial_inv. destruct i; cbn [set_i_origin Model_Urdf.i_origin Model_Urdf.i_mass Model_Urdf.i_ixx Model_Urdf.i_ixy Model_Urdf.i_ixz Model_Urdf.i_iyy Model_Urdf.i_iyz Model_Urdf.i_izz] in *.
      unfold attr_of in *. rewrite !(get_opt_named _ _ _ c c') by (apply k4; discriminate). repeat split; assumption.
Qed.

Lemma C60_transport_proof : forall L geo ipose pose pt l, link_of geo pt = Ok l ->
  (length (kids_named "inertial" pt) <= 1)%nat ->
  match @transport_link f64 (F64Scalar L) ipose pose l with
  | Ok l1 => exists pt', el_transport L ipose pose pt = Ok pt' /\ (fin_link l1 -> link_of geo pt' = Ok l1)
             /\ (forall k, ~ In k ["inertial"; "visual"; "collision"] -> kids_named k pt' = kids_named k pt)
             /\ (forall k, Forall2 same_but_origin (kids_named k pt) (kids_named k pt'))
  | Abort => el_transport L ipose pose pt = Abort
  | _ => False
  end.
Proof.
  intros L geo ipose pose pt l h h1. apply link_inv in h. destruct h as (n & i & v & c).
  assert (ki := inertials_premul L ipose pose _ _ h1 i).
  assert (kv := shapes_mapM L geo ipose pose _ _ v).
  assert (kc := shapes_mapM L geo ipose pose _ _ c).
  unfold transport_link. fold (premul_shape L ipose pose).
  change (fun s : Shape f64 => let! o := premul ipose pose (sh_origin s) false in Ok (mkShape o (sh_geometry s))) with (premul_shape L ipose pose).
  unfold el_transport.
  assert (np : forall o, (exists o', @premul f64 (F64Scalar L) ipose pose o false = Ok o') \/ @premul f64 (F64Scalar L) ipose pose o false = Abort).
  { intros o. unfold premul. repeat match goal with |- context [if ?b then _ else _] => destruct b end; try tauto; try (left; eexists; reflexivity);
      destruct (@pose_to f64 (F64Scalar L) _); try (left; eexists; reflexivity); right; reflexivity. }
  assert (nm : forall vs, (exists vs', mapM (premul_shape L ipose pose) vs = Ok vs') \/ mapM (premul_shape L ipose pose) vs = Abort).
  { induction vs as [|s vs IH]; cbn [mapM]; [left; eexists; reflexivity|]. unfold premul_shape at 1 3.
    destruct (np (sh_origin s)) as [(o' & ->)| ->]; cbn [rbind]; [|right; reflexivity].
    destruct IH as [(vs' & ->)| ->]; cbn [rbind]; [left; eexists; reflexivity|right; reflexivity]. }
  assert (mi := kids_mapM L "inertial" ipose pose (pt_kids pt)). change (named "inertial" (pt_kids pt)) with (kids_named "inertial" pt) in mi.
  set (ri := match l_inertial l with None => Ok None | Some i => _ end) in *.
  assert (nri : (exists x, ri = Ok x) \/ ri = Abort).
  { subst ri. destruct (l_inertial l) as [i0|]; [|left; eexists; reflexivity].
    destruct (np (i_origin i0)) as [(o' & ->)| ->]; cbn [rbind]; [left; eexists; reflexivity|right; reflexivity]. }
  destruct nri as [(i' & ei)|ei]; rewrite ei in *; cbn [rbind].
  2: { rewrite ki in mi. cbn [cast] in mi. rewrite mi. reflexivity. }
  destruct ki as (ci & eci & ei2 & ei3). rewrite eci in mi. destruct mi as (li & -> & mi1 & mi2). cbn [rbind].
  assert (mv := kids_mapM L "visual" ipose pose li). rewrite (mi2 "visual") in mv by discriminate. change (named "visual" (pt_kids pt)) with (kids_named "visual" pt) in mv.
  destruct (nm (l_visuals l)) as [(v' & ev)|ev]; rewrite ev in *; cbn [rbind].
  2: { rewrite kv in mv. cbn [cast] in mv. rewrite mv. reflexivity. }
  destruct kv as (cv & ecv & ev2 & ev3). rewrite ecv in mv. destruct mv as (lv & -> & mv1 & mv2). cbn [rbind].
  assert (mc := kids_mapM L "collision" ipose pose lv). rewrite (mv2 "collision"), (mi2 "collision") in mc by discriminate. change (named "collision" (pt_kids pt)) with (kids_named "collision" pt) in mc.
  destruct (nm (l_collisions l)) as [(c' & ec)|ec]; rewrite ec in *; cbn [rbind].
  2: { rewrite kc in mc. cbn [cast] in mc. rewrite mc. reflexivity. }
  destruct kc as (cc & ecc & ec2 & ec3). rewrite ecc in mc. destruct mc as (lc & -> & mc1 & mc2). cbn [rbind].
  eexists. split; [reflexivity|].
  assert (fr : forall k, ~ In k ["inertial"; "visual"; "collision"] -> kids_named k (set_kids pt lc) = kids_named k pt).
  { intros k hk. cbn [In] in hk. change (named k lc = named k (pt_kids pt)). rewrite mc2, mv2, mi2 by intuition congruence. reflexivity. }
  split; [|split; [exact fr|]].
  2: { intros k. change (Forall2 same_but_origin (kids_named k pt) (named k lc)).
    destruct (String.eqb_spec k "collision") as [->|hk1]; [rewrite mc1; exact ec3|]. rewrite mc2 by exact hk1.
    destruct (String.eqb_spec k "visual") as [->|hk2]; [rewrite mv1; exact ev3|]. rewrite mv2 by exact hk2.
    destruct (String.eqb_spec k "inertial") as [->|hk3]; [rewrite mi1; exact ei3|]. rewrite mi2 by exact hk3.
    change (named k (pt_kids pt)) with (kids_named k pt). clear. induction (kids_named k pt); constructor; [intros ? _; reflexivity|assumption]. }
  intros (hfi & hfs).
  apply link_inv. cbn [l_name l_inertial l_visuals l_collisions] in *. split; [|split; [|split]].
    + unfold attr_of in *. rewrite (get_opt_named _ "<xmlattr>" _ pt); [exact n|]. apply fr. cbn. intuition discriminate.
    + change (kids_named "inertial" (set_kids pt lc)) with (named "inertial" lc). rewrite mc2, mv2, mi1 by discriminate. apply ei2. intros i1 ->. apply hfi.
    + change (kids_named "visual" (set_kids pt lc)) with (named "visual" lc). rewrite mc2, mv1 by discriminate. apply ev2. intros s hs. apply hfs, in_or_app. now left.
    + change (kids_named "collision" (set_kids pt lc)) with (named "collision" lc). rewrite mc1. apply ec2. intros s hs. apply hfs, in_or_app. now right.
Qed.


(** ** Names of files *)
Definition keys (t : ptree) : list string := map fst (pt_kids t).
Fixpoint first_ix (k : string) (l : list string) : option nat :=
  match l with
  | [] => None
  | k' :: l' => if String.eqb k' k then Some O else option_map Datatypes.S (first_ix k l')
  end.
Fixpoint hits (t : ptree) (pos : list nat) (ks : list (string * bool)) : bool :=
  match ks, pos with
  | [], [] => true
  | (k, b) :: ks', i :: pos' =>
      match nth_error (pt_kids t) i with
      | Some (k', c) =>
          String.eqb k' k && (if b : bool then match first_ix k (keys t) with Some j => Nat.eqb j i | None => false end else true)
          && hits c pos' ks'
      | None => false
      end
  | _, _ => false
  end.
Lemma first_ix_iff k l i : first_ix k (map fst l) = Some i <-> is_first l i k.
Proof.
  unfold is_first. revert i. induction l as [|(k', c) l IH]; intros i; cbn [map fst first_ix].
  - split; [discriminate|]. intros ((c & h) & _). destruct i; discriminate.
  - destruct (String.eqb_spec k' k) as [->|h].
    + split.
      * intros e. injection e as <-. split; [exists c; reflexivity|]. intros j c2 hj. lia.
      * intros ((c2 & h1) & h2). destruct i as [|i]; [reflexivity|]. exfalso. apply (h2 0%nat c); [lia|reflexivity].
    + destruct i as [|i].
      * split; [destruct (first_ix k (map fst l)); discriminate|]. intros ((c2 & h1) & _). injection h1 as e _. congruence.
      * split.
        { intros e. destruct (first_ix k (map fst l)) as [j|]; [|discriminate]. injection e as ->. destruct (proj1 (IH i) eq_refl) as (h1 & h2). split; [exact h1|].
          intros [|j] c2 hj e; [injection e as e _; congruence|]. exact (h2 j c2 ltac:(lia) e). }
        { intros (h1 & h2). rewrite (proj2 (IH i)); [reflexivity|]. split; [exact h1|]. intros j c2 hj. exact (h2 (Datatypes.S j) c2 ltac:(lia)). }
Qed.
Lemma hits_iff ks : forall t pos, hits t pos ks = true <-> exists r, follows t pos ks r.
Proof.
  induction ks as [|(k, b) ks IH]; intros t [|i pos]; cbn [hits].
  - split; [intros _; exists t; constructor|reflexivity].
  - split; [discriminate|]. intros (r & h). inversion h.
  - split; [discriminate|]. intros (r & h). inversion h.
  - split.
    + destruct (nth_error (pt_kids t) i) as [(k', c)|] eqn:e; [|discriminate]. rewrite !andb_true_iff. intros ((h1 & h2) & h3).
      apply String.eqb_eq in h1. subst k'. apply IH in h3. destruct h3 as (r & h3). exists r. destruct b.
      * destruct (first_ix k (keys t)) as [j|] eqn:ej; [|discriminate]. apply Nat.eqb_eq in h2. subst j. apply first_ix_iff in ej. eapply follows_first; eassumption.
      * eapply follows_any; eassumption.
    + intros (r & h). inversion h; subst; match goal with h : nth_error _ _ = _ |- _ => rewrite h end; rewrite String.eqb_refl; cbn [andb].
      * apply IH. eexists; eassumption.
      * match goal with h : is_first _ _ _ |- _ => apply first_ix_iff in h; unfold keys; rewrite h end. rewrite Nat.eqb_refl. cbn [andb]. apply IH. eexists; eassumption.
Qed.

Section Trans.
Variable op : string -> string.
Fixpoint trans (ks : list (string * bool)) (t : ptree) : ptree :=
  match ks with
  | [] => PT (op (pt_data t)) (pt_kids t)
  | (k, false) :: ks' => for_each k (trans ks') t
  | (k, true) :: ks' => match upd_first k (trans ks') (pt_kids t) with Some l => set_kids t l | None => t end
  end.
Lemma upd_none k f l : first_ix k (map fst l) = None -> upd_first k f l = None.
Proof.
  induction l as [|(k', c) l IH]; cbn [map fst first_ix upd_first]; [reflexivity|]. destruct (String.eqb k' k); [discriminate|].
  destruct (first_ix k (map fst l)); [discriminate|]. now rewrite IH.
Qed.
Lemma upd_some k f l j : first_ix k (map fst l) = Some j ->
  exists l', upd_first k f l = Some l' /\ map fst l' = map fst l
  /\ forall i, nth_error l' i = if Nat.eqb j i then option_map (fun c => (fst c, f (snd c))) (nth_error l i) else nth_error l i.
Proof.
  revert j. induction l as [|(k', c) l IH]; intros j; cbn [map fst first_ix upd_first]; [discriminate|]. destruct (String.eqb k' k).
  - intros e. injection e as <-. eexists; split; [reflexivity|]. split; [reflexivity|]. intros [|i]; reflexivity.
  - destruct (first_ix k (map fst l)) as [j'|]; [|discriminate]. intros e. injection e as <-. destruct (IH j' eq_refl) as (l' & -> & h1 & h2).
    cbn [option_map]. eexists; split; [reflexivity|]. cbn [map fst]. split; [now rewrite h1|]. intros [|i]; [reflexivity|]. exact (h2 i).
Qed.
Lemma trans_view ks : forall t pos,
  option_map (fun c => (keys c, pt_data c)) (node_at (trans ks t) pos)
  = option_map (fun c => (keys c, if hits t pos ks then op (pt_data c) else pt_data c)) (node_at t pos).
Proof.
  induction ks as [|(k, b) ks IH]; intros t pos.
  - destruct pos as [|i pos]; reflexivity.
  - destruct b; cbn [trans].
    + destruct (first_ix k (map fst (pt_kids t))) as [j|] eqn:ej.
      * destruct (upd_some k (trans ks) _ _ ej) as (l' & -> & h1 & h2). destruct pos as [|i pos].
        { cbn [node_at hits option_map]. unfold keys. cbn [set_kids pt_kids pt_data]. now rewrite h1. }
        cbn [node_at hits]. cbn [set_kids pt_kids]. rewrite h2. unfold keys at 3. rewrite ej.
        destruct (Nat.eqb_spec j i) as [->|hn].
        { destruct (proj1 (first_ix_iff k (pt_kids t) i) ej) as ((c & ec) & _). rewrite ec. cbn [option_map fst snd].
          rewrite IH, String.eqb_refl. reflexivity. }
        { destruct (nth_error (pt_kids t) i) as [(k', c)|]; [|reflexivity]. rewrite andb_false_r. reflexivity. }
      * rewrite (upd_none _ _ _ ej). destruct pos as [|i pos]; cbn [hits node_at]; [reflexivity|].
        destruct (nth_error (pt_kids t) i) as [(k', c)|]; [|reflexivity]. unfold keys at 3. rewrite ej, andb_false_r. reflexivity.
    + destruct pos as [|i pos]; unfold for_each.
      { cbn [node_at hits option_map]. unfold keys. cbn [set_kids pt_kids pt_data]. rewrite map_map.
        do 2 f_equal. apply map_ext. intros (k', c). cbn [fst snd]. destruct (String.eqb k' k); reflexivity. }
      cbn [node_at hits set_kids pt_kids]. rewrite nth_error_map. destruct (nth_error (pt_kids t) i) as [(k', c)|]; cbn [option_map fst snd]; [|reflexivity].
      destruct (String.eqb k' k); cbn [andb]; [apply IH|reflexivity].
Qed.
Lemma trans_shape ks t pos : option_map keys (node_at (trans ks t) pos) = option_map keys (node_at t pos).
Proof.
  assert (h := trans_view ks t pos). apply (f_equal (option_map fst)) in h.
  destruct (node_at (trans ks t) pos), (node_at t pos); cbn [option_map fst] in *; congruence.
Qed.
Lemma trans_text ks t pos : text_at (trans ks t) pos = option_map (fun s => if hits t pos ks then op s else s) (text_at t pos).
Proof.
  assert (h := trans_view ks t pos). apply (f_equal (option_map snd)) in h. unfold text_at.
  destruct (node_at (trans ks t) pos), (node_at t pos); cbn [option_map snd] in *; congruence.
Qed.
End Trans.

Lemma hits_shape ks : forall t t' pos, (forall pos, option_map keys (node_at t pos) = option_map keys (node_at t' pos)) -> hits t pos ks = hits t' pos ks.
Proof.
  induction ks as [|(k, b) ks IH]; intros t t' pos h; [destruct pos; reflexivity|]. destruct pos as [|i pos]; cbn [hits]; [reflexivity|].
  assert (h0 := h []). cbn [node_at option_map] in h0. injection h0 as h0.
  assert (h1 : nth_error (keys t) i = nth_error (keys t') i) by now rewrite h0.
  assert (h2 : forall q, option_map keys (node_at t (i :: q)) = option_map keys (node_at t' (i :: q))) by (intros q; apply h).
  cbn [node_at] in h2. unfold keys in h1. rewrite !nth_error_map in h1.
  destruct (nth_error (pt_kids t) i) as [(k1, c1)|], (nth_error (pt_kids t') i) as [(k2, c2)|]; cbn [option_map fst] in h1; try discriminate; [|reflexivity].
  injection h1 as ->. rewrite h0, (IH c1 c2 pos h2). reflexivity.
Qed.

(** *** The program *)
Section Program.
Variable op : string -> string.
Lemma set_kids_same t : set_kids t (pt_kids t) = t.
Proof. destruct t. reflexivity. Qed.
Lemma upd_ext k f g l : (forall c, Model_Anim.find_child k l = Some c -> f c = g c) -> upd_first k f l = upd_first k g l.
Proof.
  induction l as [|(k', c) l IH]; cbn [upd_first Model_Anim.find_child]; [reflexivity|]. destruct (String.eqb k' k).
  - intros h. now rewrite (h c eq_refl).
  - intros h. now rewrite IH.
Qed.
Lemma upd_id k l : upd_first k (fun c => c) l = match Model_Anim.find_child k l with Some _ => Some l | None => None end.
Proof.
  induction l as [|(k', c) l IH]; cbn [upd_first Model_Anim.find_child]; [reflexivity|]. destruct (String.eqb k' k); [reflexivity|].
  rewrite IH. destruct (Model_Anim.find_child k l); reflexivity.
Qed.
Lemma upd_find k f l : upd_first k f l = None <-> Model_Anim.find_child k l = None.
Proof.
  induction l as [|(k', c) l IH]; cbn [upd_first Model_Anim.find_child]; [tauto|]. destruct (String.eqb k' k); [split; discriminate|].
  rewrite <- IH. destruct (upd_first k f l); cbn [option_map]; split; congruence.
Qed.
Definition A : string * bool := ("<xmlattr>", true).
Definition F : string * bool := ("filename", true).
Lemma trans_first k ks t : trans op ((k, true) :: ks) t = match Model_Anim.find_child k (pt_kids t) with Some _ => put_kid k (trans op ks) t | None => t end.
Proof.
  cbn [trans]. unfold put_kid. destruct (upd_first k (trans op ks) (pt_kids t)) as [l|] eqn:e.
  - destruct (Model_Anim.find_child k (pt_kids t)) eqn:e2; [reflexivity|]. apply (upd_find k (trans op ks)) in e2. congruence.
  - apply upd_find in e. now rewrite e.
Qed.
Lemma put_kid_found k f g t c : Model_Anim.find_child k (pt_kids t) = Some c -> f c = g c -> put_kid k f t = put_kid k g t.
Proof.
  intros h e. unfold put_kid. rewrite (upd_ext k f g) by (intros c' hc; congruence).
  destruct (upd_first k g (pt_kids t)) eqn:e2; [reflexivity|]. apply upd_find in e2. congruence.
Qed.
Lemma put_kid_id k f t c : Model_Anim.find_child k (pt_kids t) = Some c -> f c = c -> put_kid k f t = t.
Proof.
  intros h e. rewrite (put_kid_found k f (fun c => c) t c h e). unfold put_kid. rewrite upd_id, h. apply set_kids_same.
Qed.
Lemma apply_op_trans t : apply_op op t = trans op [A; F] t.
Proof.
  unfold apply_op, A. rewrite trans_first. cbn [child_at]. destruct (Model_Anim.find_child "<xmlattr>" (pt_kids t)) as [a|] eqn:ea; [|reflexivity].
  destruct (Model_Anim.find_child "filename" (pt_kids a)) as [f|] eqn:ef.
  - unfold put_string. cbn [put_at]. apply (put_kid_found _ _ _ _ a ea). unfold F. rewrite trans_first, ef.
    apply (put_kid_found _ _ _ _ f ef). reflexivity.
  - symmetry. apply (put_kid_id _ _ _ a ea). unfold F. now rewrite trans_first, ef.
Qed.
Lemma for_each_ext k f g t : (forall c, f c = g c) -> for_each k f t = for_each k g t.
Proof. intros h. unfold for_each. f_equal. apply map_ext. intros (k', c). cbn [fst snd]. now rewrite h. Qed.
Lemma for_each_comp k f g t : for_each k (fun c => f (g c)) t = for_each k f (for_each k g t).
Proof.
  unfold for_each. cbn [set_kids pt_kids pt_data]. unfold set_kids. cbn [pt_data]. f_equal. rewrite map_map. apply map_ext.
  intros (k', c). cbn [fst snd]. destruct (String.eqb k' k) eqn:e; cbn [fst snd]; now rewrite e.
Qed.
Lemma put_kid_ext k f g t : (forall c, f c = g c) -> put_kid k f t = put_kid k g t.
Proof. intros h. unfold put_kid. rewrite (upd_ext k f g) by (intros; apply h). now rewrite h. Qed.
Lemma apply_texture_trans t : apply_texture op t = trans op [("texture", true); A; F] t.
Proof.
  unfold apply_texture. rewrite trans_first. cbn [child_at]. destruct (Model_Anim.find_child "texture" (pt_kids t)); [|reflexivity].
  cbn [put_at]. apply put_kid_ext. exact apply_op_trans.
Qed.
Definition G : list (string * bool) := [("geometry", true); ("mesh", false); A; F].
Definition M : list (string * bool) := [("material", false); ("texture", true); A; F].
Definition visual_ok (v : ptree) : bool := match child_at ["geometry"] v with Some _ => true | None => false end.
Lemma apply_visual_trans v : visual_ok v = true -> apply_visual op v = (true, trans op M (trans op G v)).
Proof.
  unfold visual_ok, apply_visual. destruct (child_at ["geometry"] v) as [g|] eqn:e; [|discriminate]. intros _. f_equal.
  unfold M. cbn [trans]. rewrite (for_each_ext "material" _ _ _ apply_texture_trans). f_equal.
  unfold G. rewrite trans_first. cbn [child_at] in e. destruct (Model_Anim.find_child "geometry" (pt_kids v)); [|discriminate].
  cbn [put_at]. apply put_kid_ext. intros c. cbn [trans]. apply for_each_ext. exact apply_op_trans.
Qed.
Lemma visual_false v : visual_ok v = false -> apply_visual op v = (false, v).
Proof. unfold visual_ok, apply_visual. destruct (child_at ["geometry"] v); [discriminate|reflexivity]. Qed.
Lemma until_ok k f g (ok : ptree -> bool) l : (forall c, ok c = true -> f c = (true, g c)) -> (forall c, ok c = false -> fst (f c) = false) ->
  if forallb (fun c => if String.eqb (fst c) k then ok (snd c) else true) l
  then for_each_until k f l = (true, map (fun c => if String.eqb (fst c) k then (fst c, g (snd c)) else c) l)
  else fst (for_each_until k f l) = false.
Proof.
  intros h1 h2. induction l as [|(k', c) l IH]; cbn [forallb for_each_until map fst snd]; [reflexivity|].
  destruct (String.eqb k' k).
  - destruct (ok c) eqn:e; cbn [andb].
    + rewrite (h1 c e). destruct (forallb _ l).
      * rewrite IH. reflexivity.
      * destruct (for_each_until k f l) as (b, r). cbn [fst] in *. exact IH.
    + assert (h := h2 c e). destruct (f c) as (b, c'). cbn [fst] in h. subst b. reflexivity.
  - cbn [andb]. destruct (forallb _ l).
    + rewrite IH. reflexivity.
    + destruct (for_each_until k f l) as (b, r). cbn [fst] in *. exact IH.
Qed.
Definition link_ok (t : ptree) : bool := forallb (fun c => if String.eqb (fst c) "visual" then visual_ok (snd c) else true) (pt_kids t).
Definition robot_ok (t : ptree) : bool := forallb (fun c => if String.eqb (fst c) "link" then link_ok (snd c) else true) (pt_kids t).
Lemma apply_link_trans t : (link_ok t = true -> apply_link op t = (true, trans op (("visual", false) :: M) (trans op (("visual", false) :: G) t)))
  /\ (link_ok t = false -> fst (apply_link op t) = false).
Proof.
  assert (h := until_ok "visual" (apply_visual op) (fun v => trans op M (trans op G v)) visual_ok (pt_kids t) apply_visual_trans
    (fun v e => f_equal fst (visual_false v e))). fold (link_ok t) in h. unfold apply_link.
  split; intros e; rewrite e in h.
  - rewrite h. f_equal. exact (for_each_comp "visual" (trans op M) (trans op G) t).
  - destruct (for_each_until _ _ _). exact h.
Qed.
Definition P1 := M.
Definition P2 : list (string * bool) := ("link", false) :: ("visual", false) :: G.
Definition P3 : list (string * bool) := ("link", false) :: ("visual", false) :: M.
Lemma material_links t : robot_ok (for_each "material" (apply_texture op) t) = robot_ok t.
Proof.
  unfold robot_ok, for_each. cbn [set_kids pt_kids]. induction (pt_kids t) as [|(k, c) l IH]; cbn [map forallb fst snd]; [reflexivity|].
  rewrite IH. f_equal. destruct (String.eqb_spec k "material") as [->|]; reflexivity.
Qed.
Lemma program t : (robot_ok t = true -> transform_filenames op t = (Ok tt, trans op P3 (trans op P2 (trans op P1 t))))
  /\ (robot_ok t = false -> fst (transform_filenames op t) = Throw).
Proof.
  unfold transform_filenames. set (r := for_each "material" (apply_texture op) t).
  assert (er : r = trans op P1 t) by (unfold P1, M; cbn [trans]; apply for_each_ext; exact apply_texture_trans).
  rewrite <- (material_links t). fold r.
  assert (h := until_ok "link" (apply_link op) (fun v => trans op (("visual", false) :: M) (trans op (("visual", false) :: G) v)) link_ok (pt_kids r)
    (fun c => proj1 (apply_link_trans c)) (fun c => proj2 (apply_link_trans c))). fold (robot_ok r) in h.
  split; intros e; rewrite e in h.
  - rewrite h, <- er. f_equal. exact (for_each_comp "link" (trans op (("visual", false) :: M)) (trans op (("visual", false) :: G)) r).
  - destruct (for_each_until _ _ _) as (b, l). cbn [fst] in h. subst b. reflexivity.
Qed.
End Program.

Lemma disjoint t pos p q : In p filename_paths -> In q filename_paths -> hits t pos p = true -> p <> q -> hits t pos q = false.
Proof.
  assert (k2 : forall a b, a <> b -> forall s, String.eqb s a = true -> String.eqb s b = false).
  { intros a b h s hs. apply String.eqb_eq in hs. subst s. now apply String.eqb_neq. }
  assert (d1 : forall t pos k k' r r', k <> k' -> hits t pos ((k, false) :: r) = true -> hits t pos ((k', false) :: r') = false).
  { intros t0 [|i pos0] k k' r r' hk; cbn [hits]; [reflexivity|]. destruct (nth_error (pt_kids t0) i) as [(s, c)|]; [|reflexivity].
    rewrite !andb_true_iff. intros ((h & _) & _). rewrite (k2 k k' hk s h). reflexivity. }
  assert (d2 : forall t pos k k' b b' r r', k <> k' -> hits t pos ((k, b) :: r) = true -> hits t pos ((k', b') :: r') = false).
  { intros t0 [|i pos0] k k' b b' r r' hk; cbn [hits]; [reflexivity|]. destruct (nth_error (pt_kids t0) i) as [(s, c)|]; [|reflexivity].
    rewrite !andb_true_iff. intros ((h & _) & _). rewrite (k2 k k' hk s h). reflexivity. }
  assert (d3 : forall t pos k r r', (forall t pos, hits t pos r = true -> hits t pos r' = false) -> hits t pos ((k, false) :: r) = true -> hits t pos ((k, false) :: r') = false).
  { intros t0 [|i pos0] k r r' hk; cbn [hits]; [reflexivity|]. destruct (nth_error (pt_kids t0) i) as [(s, c)|]; [|reflexivity].
    rewrite !andb_true_iff. intros (_ & h). rewrite (hk c pos0 h). apply andb_false_r. }
  unfold filename_paths. cbn [In].
  intros [<-|[<-|[<-|[]]]] [<-|[<-|[<-|[]]]] h hn; try congruence;
    first [ refine (d1 _ _ _ _ _ _ _ h); discriminate
          | refine (d3 _ _ _ _ _ _ h); intros t1 pos1; apply d3; intros t2 pos2; apply d2; discriminate ].
Qed.

Lemma P_paths : filename_paths = [P1; P2; P3].
Proof. reflexivity. Qed.

Lemma robot_ok_iff t : robot_ok t = false <-> exists l v, In ("link", l) (pt_kids t) /\ In ("visual", v) (pt_kids l) /\ no_child "geometry" v.
Proof.
  assert (ff : forall {X} (f : X -> bool) l, forallb f l = false <-> exists x, In x l /\ f x = false).
  { intros X f l. induction l as [|x l IH]; cbn [forallb In]; [split; [discriminate|intros (? & [] & _)]|].
    rewrite andb_false_iff, IH. split.
    - intros [h|(y & h1 & h2)]; [exists x; tauto|exists y; tauto].
    - intros (y & [<-|h1] & h2); [tauto|right; exists y; tauto]. }
  assert (nk : forall v, visual_ok v = false <-> no_child "geometry" v).
  { intros v. unfold visual_ok, no_child. cbn [child_at].
    assert (e : Model_Anim.find_child "geometry" (pt_kids v) = None <-> ~ In "geometry" (map fst (pt_kids v))).
    { induction (pt_kids v) as [|(k, c) l IH]; cbn [Model_Anim.find_child map fst In]; [tauto|].
      destruct (String.eqb_spec k "geometry"); [split; [discriminate|tauto]|]. rewrite IH. tauto. }
    rewrite <- e. destruct (Model_Anim.find_child "geometry" (pt_kids v)); split; congruence. }
  unfold robot_ok. rewrite ff. split.
  - intros ((k, l) & h1 & h2). cbn [fst snd] in h2. destruct (String.eqb_spec k "link") as [->|]; [|discriminate].
    unfold link_ok in h2. apply ff in h2. destruct h2 as ((k', v) & h2 & h3). cbn [fst snd] in h3.
    destruct (String.eqb_spec k' "visual") as [->|]; [|discriminate]. exists l, v. split; [exact h1|]. split; [exact h2|]. now apply nk.
  - intros (l & v & h1 & h2 & h3). exists ("link", l). split; [exact h1|]. cbn [fst snd]. rewrite String.eqb_refl. unfold link_ok.
    apply ff. exists ("visual", v). split; [exact h2|]. cbn [fst snd]. rewrite String.eqb_refl. now apply nk.
Qed.

Lemma C61_names_proof : forall op robot robot', transform_filenames op robot = (Ok tt, robot') ->
  shape_eq robot robot'
  /\ (forall pos, is_filename robot pos -> text_at robot' pos = option_map op (text_at robot pos))
  /\ (forall pos, ~ is_filename robot pos -> text_at robot' pos = text_at robot pos).
Proof.
  intros op t t' h. destruct (program op t) as (g1 & g2).
  destruct (robot_ok t) eqn:e; [|rewrite h in g2; discriminate (g2 eq_refl)]. rewrite (g1 eq_refl) in h. injection h as <-. clear g1 g2 e.
  assert (sh : forall ks t pos, option_map keys (node_at (trans op ks t) pos) = option_map keys (node_at t pos)) by (intros; apply trans_shape).
  assert (ht : forall pos, text_at (trans op P3 (trans op P2 (trans op P1 t))) pos
    = option_map (fun s => let s := if hits t pos P1 then op s else s in let s := if hits t pos P2 then op s else s in if hits t pos P3 then op s else s) (text_at t pos)).
  { intros pos. rewrite !trans_text. rewrite (hits_shape P3 (trans op P2 (trans op P1 t)) t) by (intros; now rewrite !sh).
    rewrite (hits_shape P2 (trans op P1 t) t) by (intros; now rewrite !sh). destruct (text_at t pos); reflexivity. }
  assert (fi : forall pos, is_filename t pos <-> exists ks, In ks filename_paths /\ hits t pos ks = true).
  { intros pos. unfold is_filename. split.
    - intros (ks & c & h1 & h2). exists ks. split; [exact h1|]. apply hits_iff. exists c. exact h2.
    - intros (ks & h1 & h2). apply hits_iff in h2. destruct h2 as (c & h2). exists ks, c. tauto. }
  split; [|split].
  - intros pos. symmetry. exact (eq_trans (sh P3 (trans op P2 (trans op P1 t)) pos) (eq_trans (sh P2 (trans op P1 t) pos) (sh P1 t pos))).
  - intros pos hp. rewrite ht. apply fi in hp. destruct hp as (ks & h1 & h2).
    assert (dj := fun q hq => disjoint t pos ks q h1 hq h2). rewrite P_paths in h1, dj. cbn [In] in h1, dj.
    destruct h1 as [<-|[<-|[<-|[]]]].
    + rewrite h2, (dj P2), (dj P3); [reflexivity|tauto|discriminate|tauto|discriminate].
    + rewrite h2, (dj P1), (dj P3); [reflexivity|tauto|discriminate|tauto|discriminate].
    + rewrite h2, (dj P1), (dj P2); [reflexivity|tauto|discriminate|tauto|discriminate].
  - intros pos hp. rewrite ht. rewrite fi in hp.
    assert (nh : forall ks, In ks filename_paths -> hits t pos ks = false).
    { intros ks hk. destruct (hits t pos ks) eqn:e; [|reflexivity]. exfalso. apply hp. exists ks. tauto. }
    rewrite P_paths in nh. cbn [In] in nh. rewrite !nh by tauto. destruct (text_at t pos); reflexivity.
Qed.


Lemma until_stop k (f : ptree -> bool * ptree) l : forall l', for_each_until k f l = (false, l') ->
  exists pre c post pre' c', l = (pre ++ (k, c) :: post)%list /\ f c = (false, c') /\ for_each_until k f pre = (true, pre') /\ l' = (pre' ++ (k, c') :: post)%list.
Proof.
  induction l as [|(k', c) l IH]; cbn [for_each_until]; intros l' h; [discriminate|].
  destruct (String.eqb_spec k' k) as [->|n].
  - destruct (f c) as [ok c'] eqn:e. destruct ok.
    + destruct (for_each_until k f l) as [ok' r]. injection h as -> <-. destruct (IH _ eq_refl) as (pre & d & post & pre' & d' & -> & h2 & h3 & ->).
      exists ((k, c) :: pre), d, post, ((k, c') :: pre'), d'. cbn [for_each_until app]. rewrite String.eqb_refl, e, h3. auto.
    + injection h as <-. exists [], c, l, [], c'. auto.
  - destruct (for_each_until k f l) as [ok' r]. injection h as -> <-. destruct (IH _ eq_refl) as (pre & d & post & pre' & d' & -> & h2 & h3 & ->).
    exists ((k', c) :: pre), d, post, ((k', c) :: pre'), d'. cbn [for_each_until app]. apply String.eqb_neq in n. rewrite n, h3. auto.
Qed.
Lemma until_app k (f : ptree -> bool * ptree) a : forall b a', for_each_until k f a = (true, a') ->
  for_each_until k f (a ++ b) = let '(ok, r) := for_each_until k f b in (ok, (a' ++ r)%list).
Proof.
  induction a as [|(k', c) a IH]; cbn [for_each_until app]; intros b a' h.
  - injection h as <-. now destruct (for_each_until k f b).
  - destruct (String.eqb k' k).
    + destruct (f c) as [ok c']. destruct ok; [|discriminate]. destruct (for_each_until k f a) as [ok' r]. injection h as -> <-.
      rewrite (IH b r eq_refl). now destruct (for_each_until k f b).
    + destruct (for_each_until k f a) as [ok' r]. injection h as -> <-. rewrite (IH b r eq_refl). now destruct (for_each_until k f b).
Qed.

Lemma C61_stopped_proof : forall op robot robot', transform_filenames op robot = (Throw, robot') ->
  exists pre l post vpre v vpost pre' vpre' post',
    (pt_kids robot = pre ++ ("link", l) :: post)%list /\ (pt_kids l = vpre ++ ("visual", v) :: vpost)%list /\ no_child "geometry" v /\
    (transform_filenames op (PT (pt_data robot) (pre ++ [("link", PT (pt_data l) vpre)]))
       = (Ok tt, PT (pt_data robot) (pre' ++ [("link", PT (pt_data l) vpre')])))%list /\
    (robot' = PT (pt_data robot) (pre' ++ ("link", PT (pt_data l) (vpre' ++ ("visual", v) :: vpost)) :: post'))%list /\
    Forall2 (fun c c' => if String.eqb (fst c) "material" then transform_filenames op (PT "" [c]) = (Ok tt, PT "" [c']) else c' = c) post post'.
Proof.
  intros op robot robot' h. unfold transform_filenames in h. cbn [for_each set_kids pt_kids] in h.
  set (fm := fun c : string * ptree => if String.eqb (fst c) "material" then (fst c, apply_texture op (snd c)) else c) in *.
  destruct (for_each_until "link" (apply_link op) (map fm (pt_kids robot))) as [ok l0] eqn:e. destruct ok; [discriminate|]. injection h as <-.
  destruct (until_stop _ _ _ _ e) as (pre & l & post & pre' & l' & e1 & e2 & e3 & ->).
  apply map_eq_app in e1. destruct e1 as (pre0 & r0 & er & <- & e1). apply map_eq_cons in e1. destruct e1 as (c0 & post0 & -> & e1 & <-).
  assert (ec : c0 = ("link", l)).
  { unfold fm in e1. destruct c0 as [k c]. cbn [fst snd] in e1. destruct (String.eqb_spec k "material") as [->|]; [discriminate e1|exact e1]. }
  subst c0. clear e1.
  unfold apply_link in e2. destruct (for_each_until "visual" (apply_visual op) (pt_kids l)) as [ok vl] eqn:ev. injection e2 as -> <-.
  destruct (until_stop _ _ _ _ ev) as (vpre & v & vpost & vpre' & v' & g1 & g2 & g3 & ->).
  unfold apply_visual in g2. destruct (child_at ["geometry"] v) as [gg|] eqn:eg; [discriminate|]. injection g2 as <-.
  exists pre0, l, post0, vpre, v, vpost, pre', vpre', (map fm post0). split; [exact er|]. split; [exact g1|]. split.
  { unfold no_child. cbn [child_at] in eg. clear - eg. induction (pt_kids v) as [|(k, c) r IH]; cbn [map fst In]; [tauto|].
    cbn [Model_Anim.find_child] in eg. destruct (String.eqb_spec k "geometry") as [->|n]; [discriminate|]. intros [a|a]; [exact (n a)|exact (IH eg a)]. }
  split.
  { unfold transform_filenames. cbn [for_each set_kids pt_kids pt_data]. fold fm. rewrite map_app. cbn [map]. change (fm ("link", ?x)) with ("link", x).
    rewrite (until_app _ _ _ _ _ e3). cbn [for_each_until]. rewrite String.eqb_refl.
    unfold apply_link. cbn [pt_kids set_kids pt_data]. rewrite g3. reflexivity. }
  split; [reflexivity|].
  clear. induction post0 as [|(k, c) r IH]; cbn [map]; constructor; [|exact IH]. unfold fm. cbn [fst snd].
  destruct (String.eqb_spec k "material") as [->|]; reflexivity.
Qed.



Lemma C61_throws_proof : forall op robot,
  (fst (transform_filenames op robot) = Ok tt \/ fst (transform_filenames op robot) = Throw)
  /\ (fst (transform_filenames op robot) = Throw <->
      exists l v, In ("link", l) (pt_kids robot) /\ In ("visual", v) (pt_kids l) /\ no_child "geometry" v).
Proof.
  intros op t. destruct (program op t) as (g1 & g2). rewrite <- robot_ok_iff.
  destruct (robot_ok t).
  - rewrite (g1 eq_refl). cbn [fst]. split; [tauto|split; discriminate].
  - rewrite (g2 eq_refl). tauto.
Qed.


Lemma C61_compose_proof : forall f g robot robot' robot'',
  transform_filenames f robot = (Ok tt, robot') -> transform_filenames g robot' = (Ok tt, robot'') ->
  transform_filenames (fun s => g (f s)) robot = (Ok tt, robot'')
  /\ snd (transform_filenames (fun s => s) robot) = robot.
Proof.
  assert (tw : forall t t', (forall pos, option_map keys (node_at t pos) = option_map keys (node_at t' pos)) -> (forall pos, text_at t pos = text_at t' pos) -> t = t').
  { fix rec 1. intros [d l] [d' l'] hk ht. f_equal.
    - assert (h := ht []). cbn [text_at node_at option_map pt_data] in h. now injection h.
    - assert (h0 := hk []). cbn [node_at option_map] in h0. injection h0 as h0. unfold keys in h0. cbn [pt_kids] in h0.
      assert (hk' : forall i pos, option_map keys (match nth_error l i with Some (_, c) => node_at c pos | None => None end) = option_map keys (match nth_error l' i with Some (_, c) => node_at c pos | None => None end))
        by (intros i pos; exact (hk (i :: pos))).
      assert (ht' : forall i pos, option_map pt_data (match nth_error l i with Some (_, c) => node_at c pos | None => None end) = option_map pt_data (match nth_error l' i with Some (_, c) => node_at c pos | None => None end))
        by (intros i pos; exact (ht (i :: pos))).
      clear hk ht. revert l' h0 hk' ht'. induction l as [|(k, c) l IH]; intros [|(k', c') l'] h0 hk' ht'; cbn [map fst] in h0; try discriminate; [reflexivity|].
      injection h0 as -> h0. f_equal.
      + f_equal. apply rec; [exact (hk' 0%nat)|exact (ht' 0%nat)].
      + apply IH; [exact h0|intros i; exact (hk' (Datatypes.S i))|intros i; exact (ht' (Datatypes.S i))]. }
  assert (det : forall op t t', transform_filenames op t = (Ok tt, t') -> t' = trans op P3 (trans op P2 (trans op P1 t)) /\ robot_ok t = true).
  { intros op t t' h. destruct (program op t) as (g1 & g2). destruct (robot_ok t); [rewrite (g1 eq_refl) in h; injection h as <-; tauto|].
    rewrite h in g2. discriminate (g2 eq_refl). }
  assert (fs : forall t t' pos, shape_eq t t' -> is_filename t' pos <-> is_filename t pos).
  { intros t t' pos hs. unfold is_filename. assert (hh : forall ks, hits t' pos ks = hits t pos ks) by (intros ks; apply hits_shape; intros p; symmetry; apply hs).
    split; intros (ks & c & h1 & h2); assert (hx : hits t' pos ks = true \/ hits t pos ks = true) by (first [left; apply hits_iff; eexists; exact h2 | right; apply hits_iff; eexists; exact h2]);
      rewrite hh in hx; assert (hx' : hits t pos ks = true) by tauto; [|rewrite <- hh in hx']; apply hits_iff in hx'; destruct hx' as (c' & hc); exists ks, c'; tauto. }
  assert (dec : forall t pos, is_filename t pos \/ ~ is_filename t pos).
  { intros t pos. destruct (existsb (hits t pos) filename_paths) eqn:e.
    - left. apply existsb_exists in e. destruct e as (ks & h1 & h2). apply hits_iff in h2. destruct h2 as (c & h2). exists ks, c. tauto.
    - right. intros (ks & c & h1 & h2). assert (h : existsb (hits t pos) filename_paths = true) by (apply existsb_exists; exists ks; split; [exact h1|apply hits_iff; eexists; exact h2]). congruence. }
  intros f g t t' t'' h1 h2. assert (ok := proj2 (det _ _ _ h1)). split.
  - rewrite (proj1 (program (fun s => g (f s)) t) ok). f_equal. set (r := trans _ P3 _).
    assert (h3 : transform_filenames (fun s => g (f s)) t = (Ok tt, r)) by exact (proj1 (program (fun s => g (f s)) t) ok).
    destruct (C61_names_proof _ _ _ h1) as (a1 & a2 & a3). destruct (C61_names_proof _ _ _ h2) as (b1 & b2 & b3). destruct (C61_names_proof _ _ _ h3) as (c1 & c2 & c3).
    apply tw.
    + intros pos. etransitivity; [symmetry; apply c1|]. etransitivity; [apply a1|]. apply b1.
    + intros pos. destruct (dec t pos) as [d|d].
      * rewrite (c2 pos d), (b2 pos), (a2 pos d) by (now apply (fs t t' pos a1)). destruct (text_at t pos); reflexivity.
      * rewrite (c3 pos d), (b3 pos), (a3 pos d) by (intros hx; apply d; now apply (fs t t' pos a1)). reflexivity.
  - assert (h3 : transform_filenames (fun s => s) t = (Ok tt, trans (fun s => s) P3 (trans (fun s => s) P2 (trans (fun s => s) P1 t)))) by exact (proj1 (program (fun s => s) t) ok).
    rewrite h3. cbn [snd]. destruct (C61_names_proof _ _ _ h3) as (c1 & c2 & c3). symmetry. apply tw; [exact c1|].
    intros pos. destruct (dec t pos) as [d|d]; [rewrite (c2 pos d)|rewrite (c3 pos d)]; destruct (text_at t pos); reflexivity.
Qed.


Lemma C61_atomic_refuted_proof : exists op robot robot', transform_filenames op robot = (Throw, robot') /\ robot' <> robot.
Proof.
  exists (fun s => s ++ ".dae"), (PT "" [("material", PT "" [("texture", PT "" [("<xmlattr>", PT "" [("filename", PT "a" [])])])]); ("link", PT "" [("visual", PT "" [])])]).
  eexists. split; [vm_compute; reflexivity|]. discriminate.
Qed.

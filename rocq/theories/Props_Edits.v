(** * Property C56: histories of edits of a robot *)
From Coq Require Import String List Bool Relations Permutation Lia Arith ZArith Reals Lra.
Import ListNotations.
From Verif Require Import Scalar RInst RLemmas Model_Base Model_Vec Model_Rigid Model_Average Model_Pose Model_Urdf Model_Squash
  Spec_Geom Spec_Average Spec_Pose Spec_Urdf Spec_Reroot Spec_Squash Spec_Edits
  Proofs_Urdf Proofs_Walk Proofs_Reroot Proofs_Squash.
From Verif Require Props_Urdf Props_Squash.
Local Open Scope R_scope.
From Verif Require Proofs_Edits.

(** C56. After any history of edits, the robot is still well formed: names are unique, the
    joints connect existing links, no link has two parents, there is exactly one root, which
    is the one the tree announces, and the index of the joints holds each of them once; all
    that is left comes from the original document; and if every link was below the root,
    then every link left is below the root. *)
Theorem C56_sound : forall (d : list (elem R)) t es t', ctor d = Ok t -> edited t es t' ->
  sound t' /\ kept d (t_doc t') /\ (connected d (t_root t) -> connected (t_doc t') (t_root t')).
Proof. exact @Proofs_Edits.C56_sound_proof. Qed.
Print Assumptions C56_sound.

(** C56. The edited document can be saved and loaded again, with the same root, exactly when
    no joint left mimics a joint that was removed. *)
Theorem C56_reload : forall (d : list (elem R)) t es t', ctor d = Ok t -> edited t es t' ->
  (mimic_sources_exist (t_doc t') -> exists t'', ctor (t_doc t') = Ok t'' /\ t_doc t'' = t_doc t' /\ t_root t'' = t_root t') /\
  (~ mimic_sources_exist (t_doc t') -> ctor (t_doc t') = Throw).
Proof. exact @Proofs_Edits.C56_reload_proof. Qed.
Print Assumptions C56_reload.

(** C56. No edit but define_as_root_link and transport_root_link_frame (see C48) ever fails
    otherwise than with an exception, whatever was done before. *)
Theorem C56_safe : forall (d : list (elem R)) t es t' e, ctor d = Ok t -> edited t es t' ->
  (forall l, e <> DefineAsRoot l) -> (forall o, e <> TransportRoot o) -> (exists t'', apply e t' = Ok t'') \/ apply e t' = Throw.
Proof. exact @Proofs_Edits.C56_safe_proof. Qed.
Print Assumptions C56_safe.

(** C56. If every link is below the root, a history without removals conserves the total
    mass. *)
Theorem C56_mass : forall (d : list (elem R)) t es t', ctor d = Ok t -> connected d (t_root t) -> edited t es t' ->
  (forall e, In e es -> match e with RmRootJoint | RmLeafJoint _ | RemoveSubTree _ => False | _ => True end) ->
  total_mass (t_doc t') = total_mass d.
Proof. exact @Proofs_Edits.C56_mass_proof. Qed.
Print Assumptions C56_mass.

(** ** Examples *)

(** A cart that carries a camera on a mast, with a wheel and a flag; the flag is removed, the
    mast becomes the root, the wheel is fixed, the mass of the camera is squashed, and an
    unknown joint is asked for on the way. *)
Definition cart (flag : bool) (root : bool) (wheel : string) : list (elem R) :=
  [ELink (mkLink "cart" (Some (mkInertial None 5 1 0 0 2 0 3)) [] []);
   ELink (mkLink "mast" None [] []); ELink (mkLink "wheel" None [] []);
   ELink (mkLink "camera" (Some (mkInertial None 2 1 0 0 1 0 1)) [] [])] ++
  (if flag then [ELink (mkLink "flag" None [] [])] else []) ++
  [EOther "material"%string;
   (if root then EJoint (mkJoint "weld" "fixed" "mast" "cart" None None None)
    else EJoint (mkJoint "weld" "fixed" "cart" "mast" None None None));
   EJoint (mkJoint "screw" "fixed" "mast" "camera" None None None);
   EJoint (mkJoint "axle" wheel "cart" "wheel" None None None)] ++
  (if flag then [EJoint (mkJoint "pole" "fixed" "cart" "flag" None None None)] else []).
Lemma cart_ok : ctor (cart true false "continuous") = Ok (mkTree (cart true false "continuous") ["weld"; "axle"; "pole"; "screw"]%string "cart").
Proof. unfold cart. generalize 0, 1, 2, 3, 5. intros. vm_compute. reflexivity. Qed.

Example C56_cart : exists t t',
  ctor (cart true false "continuous") = Ok t /\
  edited t [RmLeafJoint "pole"; MakeFloating "nothing"; DefineAsRoot "mast"; MakeContinuousFixed; SquashMass "screw"] t' /\
  sound t' /\ t_root t' = "mast"%string /\ total_mass (t_doc t') = 7.
Proof.
  pose (t1 := mkTree (cart false false "continuous") ["weld"; "axle"; "screw"]%string "cart").
  pose (t2 := mkTree (cart false true "continuous") ["axle"; "screw"; "weld"]%string "mast").
  pose (t3 := mkTree (cart false true "fixed") ["axle"; "screw"; "weld"]%string "mast").
  assert (e1 : apply (RmLeafJoint "pole") (mkTree (cart true false "continuous") ["weld"; "axle"; "pole"; "screw"]%string "cart") = Ok t1).
  { unfold t1, cart. generalize 0, 1, 2, 3, 5. intros. vm_compute. reflexivity. }
  assert (e2 : apply (MakeFloating "nothing") t1 = Throw).
  { unfold t1, cart. generalize 0, 1, 2, 3, 5. intros. vm_compute. reflexivity. }
  assert (e3 : apply (DefineAsRoot "mast") t1 = Ok t2).
  { unfold t1, t2, cart. generalize 0, 1, 2, 3, 5. intros. vm_compute. reflexivity. }
  assert (e4 : apply MakeContinuousFixed t2 = Ok t3).
  { unfold t2, t3, cart. generalize 0, 1, 2, 3, 5. intros. vm_compute. reflexivity. }
  pose proof (edited_ok _ nil _ _ _ (edited_nil _) e1) as h1. pose proof (edited_throw _ _ (MakeFloating "nothing") _ h1 Logic.I e2) as h2.
  pose proof (edited_ok _ _ _ _ _ h2 e3) as h3. pose proof (edited_ok _ _ _ _ _ h3 e4) as h4.
  assert (hs : sound t3) by (apply (C56_sound _ _ _ _ cart_ok h4)).
  destruct (Props_Squash.C49_joint_mass t3 (mkJoint "screw" "fixed" "mast" "camera" None None None) hs) as [t4 [e5 [er [_ [_ [_ [_ [_ hm]]]]]]]]; [cbn; tauto|discriminate|].
  pose proof (edited_ok _ _ (SquashMass "screw") _ _ h4 e5) as h5.
  eexists _, t4. split; [exact cart_ok|]. split; [exact h5|]. split; [apply (C56_sound _ _ _ _ cart_ok h5)|]. split; [exact er|].
  rewrite hm. unfold total_mass, total, t3, cart. cbn. ring.
Qed.

(** Every link of the cart is below its root. *)
Example C56_cart_connected : connected (cart true false "continuous") "cart".
Proof.
  assert (st : forall p j, In j (joints (cart true false "continuous")) -> path (cart true false "continuous") "cart" p (j_parent j) ->
    path (cart true false "continuous") "cart" (p ++ cons j nil) (j_child j)) by (intros p j h1 h2; now constructor).
  assert (hm : path (cart true false "continuous") "cart" (nil ++ cons (mkJoint "weld" "fixed" "cart" "mast" None None None) nil) "mast").
  { apply (st nil (mkJoint "weld" "fixed" "cart" "mast" None None None)); [cbn; tauto|constructor]. }
  intros l hl. cbn in hl. destruct hl as [<-|[<-|[<-|[<-|[<-|[]]]]]]; eexists.
  - constructor.
  - exact hm.
  - apply (st nil (mkJoint "axle" "continuous" "cart" "wheel" None None None)); [cbn; tauto|constructor].
  - eapply (st (nil ++ cons (mkJoint "weld" "fixed" "cart" "mast" None None None) nil) (mkJoint "screw" "fixed" "mast" "camera" None None None)); [cbn; tauto|exact hm].
  - apply (st nil (mkJoint "pole" "fixed" "cart" "flag" None None None)); [cbn; tauto|constructor].
Qed.

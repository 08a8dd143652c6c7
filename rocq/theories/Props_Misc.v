(** * The printed graph of a robot; fixing and freeing joints; pairs *)

From Coq Require Import String List Bool Permutation ZArith Reals Lra Lia.
Import ListNotations.
From Verif Require Import Scalar RInst Model_Base Model_Vec Model_Rigid Model_Urdf Model_Text Model_Misc.
From Verif Require Import Spec_Vec Spec_Urdf Spec_Misc.
From Verif Require Props_Urdf RLemmas Proofs_Urdf Proofs_Walk Proofs_Vectors Proofs_Collada.
Local Open Scope string_scope.
From Verif Require Proofs_Misc.

(** C64: printing the tree of a document never fails and appends to the stream one line per
    joint, "parent -> child [label=name];", in depth-first order, the joints below a same
    link in the order of the document. *)
Theorem C64_text : forall {T} (d : list (elem T)) t (os : string), ctor d = Ok t ->
  exists v l, dot_print t os = Ok v /\
    depth_first (joints d) (filter (fun j => j_parent j =? t_root t) (joints d)) l /\
    dot_os v = os ++ dot_edges l.
Proof. exact @Proofs_Misc.C64_text_proof. Qed.
Print Assumptions C64_text.

(** C64: after edits too, printing never fails and writes the joints in depth-first order,
    for some order of the joints below each link. *)
Theorem C64_edited : forall {T} (t : tree T) (os : string), sound t ->
  exists v l js, dot_print t os = Ok v /\ Permutation js (joints (t_doc t)) /\
    depth_first js (filter (fun j => j_parent j =? t_root t) js) l /\
    dot_os v = os ++ dot_edges l.
Proof. exact @Proofs_Misc.C64_edited_proof. Qed.
Print Assumptions C64_edited.

(** C64: unless the document has a loop, every joint has exactly one line. *)
Theorem C64_every_joint : forall {T} (t : tree T) (os : string), sound t -> (forall c, ~ above (t_doc t) c c) ->
  exists v l, dot_print t os = Ok v /\ Permutation l (joints (t_doc t)) /\ dot_os v = os ++ dot_edges l.
Proof. exact @Proofs_Misc.C64_every_joint_proof. Qed.
Print Assumptions C64_every_joint.

(** C64: the text determines the graph: two robots without loops, whose links have no space
    in their names and whose joints have no end of line in theirs, that are printed in the
    same way have the same edges. *)
Theorem C64_read_back : forall {T T'} (t : tree T) (t' : tree T') (os : string) v v',
  sound t -> sound t' -> (forall c, ~ above (t_doc t) c c) -> (forall c, ~ above (t_doc t') c c) ->
  plain_names (t_doc t) -> plain_names (t_doc t') ->
  dot_print t os = Ok v -> dot_print t' os = Ok v' -> dot_os v = dot_os v' ->
  Permutation (map edge (joints (t_doc t))) (map edge (joints (t_doc t'))).
Proof. exact @Proofs_Misc.C64_read_back_proof. Qed.
Print Assumptions C64_read_back.

(** C64, finding: the names are written as they are, without quotes, so that a robot with
    one joint may be printed like a robot with two. *)
Theorem C64_names_refuted : exists (d d' : list (elem nat)) t t' v v', ctor d = Ok t /\ ctor d' = Ok t' /\
  dot_print t "" = Ok v /\ dot_print t' "" = Ok v' /\ dot_os v = dot_os v' /\
  List.length (joints d) = 2%nat /\ List.length (joints d') = 1%nat.
Proof. exact @Proofs_Misc.C64_names_refuted_proof. Qed.
Print Assumptions C64_names_refuted.

(** C65: makeJointFixed and makeJointFloating change the type of that joint, erase its axis,
    and change nothing else; they throw exactly when there is no such joint. *)
Theorem C65_one : forall {T} (t : tree T) n, sound t ->
  (In n (joint_names (t_doc t)) ->
     makeJointFixed t n = Ok (mkTree (retyped (t_doc t) [n] "fixed") (t_ix t) (t_root t)) /\
     makeJointFloating t n = Ok (mkTree (retyped (t_doc t) [n] "floating") (t_ix t) (t_root t)) /\
     sound (mkTree (retyped (t_doc t) [n] "fixed") (t_ix t) (t_root t)) /\
     sound (mkTree (retyped (t_doc t) [n] "floating") (t_ix t) (t_root t))) /\
  (~ In n (joint_names (t_doc t)) -> makeJointFixed t n = Throw /\ makeJointFloating t n = Throw).
Proof. exact @Proofs_Misc.C65_one_proof. Qed.
Print Assumptions C65_one.

(** C65: makeContinuousJointsFixed fixes exactly the continuous joints of the tree, changes
    nothing else and returns their names, each once. *)
Theorem C65_continuous : forall {T} (t : tree T), sound t ->
  (forall j, In j (joints (t_doc t)) -> known_type (j_type j)) ->
  exists t' names, makeContinuousJointsFixed t = Ok (t', names) /\ NoDup names /\
    (forall n, In n names <-> exists j, reached t j /\ j_name j = n /\ j_type j = "continuous") /\
    t_doc t' = retyped (t_doc t) names "fixed" /\ t_root t' = t_root t /\ sound t'.
Proof. exact @Proofs_Misc.C65_continuous_proof. Qed.
Print Assumptions C65_continuous.

(** C65: makeContinuousJointsFixed throws when a joint of the tree has a type that URDF does
    not have. *)
Theorem C65_throws : forall {T} (t : tree T) j, sound t -> reached t j -> ~ known_type (j_type j) ->
  makeContinuousJointsFixed t = Throw.
Proof. exact @Proofs_Misc.C65_throws_proof. Qed.
Print Assumptions C65_throws.

(** C65: doing it again finds no joint and changes nothing. *)
Theorem C65_idempotent : forall {T} (t : tree T) t' names, sound t ->
  (forall j, In j (joints (t_doc t)) -> known_type (j_type j)) ->
  makeContinuousJointsFixed t = Ok (t', names) -> makeContinuousJointsFixed t' = Ok (t', []).
Proof. exact @Proofs_Misc.C65_idempotent_proof. Qed.
Print Assumptions C65_idempotent.

(** C26: the same holds for a position with a velocity and for a transform with a velocity;
    a position with a velocity is stored as these two numbers. *)
Theorem C26_pairs :
  is_tolerance (V := PositionAndVelocity R) (fun a => [pv_q a; pv_dq a]) pv_isNear /\
  is_tolerance (V := TransformAndVelocity6D R) (fun a => ct (tv_T a) ++ cv6 (tv_V a))%list tv_isNear /\
  (forall a : PositionAndVelocity R, pv_toVector a = [pv_q a; pv_dq a]).
Proof. exact @Proofs_Misc.C26_pairs_proof. Qed.
Print Assumptions C26_pairs.

(** A robot of four joints, one continuous, not in the order of the tree. *)

Definition dolly : list (elem nat) := [ELink (mkLink "base" None [] []); ELink (mkLink "mast" None [] []); ELink (mkLink "eye" None [] []); ELink (mkLink "left" None [] []); ELink (mkLink "right" None [] []); EJoint (mkJoint "look" "continuous" "mast" "eye" None (Some (0, 0, 1)%nat) None); EJoint (mkJoint "up" "prismatic" "base" "mast" None None None); EJoint (mkJoint "wl" "continuous" "base" "left" None None None); EJoint (mkJoint "wr" "continuous" "base" "right" None None (Some "wl"))].

(** Its text. *)
Example C64_dolly : exists t v, ctor dolly = Ok t /\ dot_print t "digraph {" = Ok v /\
  dot_os v = "digraph {base -> mast [label=up];
mast -> eye [label=look];
base -> left [label=wl];
base -> right [label=wr];
".
Proof. do 2 eexists. split; [vm_compute; reflexivity|]. split; vm_compute; reflexivity. Qed.

(** It meets the hypotheses of C64_text, C64_edited and C65_continuous. *)
Example C65_dolly : exists t, ctor dolly = Ok t /\ sound t /\
  (forall j, In j (joints dolly) -> known_type (j_type j)) /\
  exists t', makeContinuousJointsFixed t = Ok (t', ["look"; "wl"; "wr"]) /\
    joints (t_doc t') = [mkJoint "look" "fixed" "mast" "eye" None None None; mkJoint "up" "prismatic" "base" "mast" None None None;
      mkJoint "wl" "fixed" "base" "left" None None None; mkJoint "wr" "fixed" "base" "right" None None (Some "wl")].
Proof.
  destruct (Props_Urdf.C44_or_throws dolly) as [[_ [t [e [ed [_ hs]]]]]|[_ e]]; [|vm_compute in e; discriminate].
  exists t. split; [exact e|]. split; [exact hs|]. split.
  - intros j hj. cbn in hj. destruct hj as [<-|[<-|[<-|[<-|[]]]]]; cbn; tauto.
  - assert (E : exists t0, ctor dolly = Ok t0 /\ exists t', makeContinuousJointsFixed t0 = Ok (t', ["look"; "wl"; "wr"]) /\
      joints (t_doc t') = [mkJoint "look" "fixed" "mast" "eye" None None None; mkJoint "up" "prismatic" "base" "mast" None None None;
      mkJoint "wl" "fixed" "base" "left" None None None; mkJoint "wr" "fixed" "base" "right" None None (Some "wl")]).
    { eexists. split; [vm_compute; reflexivity|]. eexists. split; vm_compute; reflexivity. }
    destruct E as [t0 [e0 h0]]. rewrite e in e0. injection e0 as <-. exact h0.
Qed.

(** It has no loop, and its names are plain: the hypotheses of C64_every_joint and
    C64_read_back. *)
Example C64_dolly_plain : (forall c, ~ above dolly c c) /\ plain_names dolly.
Proof.
  split.
  - intros c [p [hp h]].
    assert (hr : forall l, path dolly c p l -> p <> [] ->
      (In l ["mast"; "left"; "right"] -> c = "base") /\ (l = "eye" -> c = "base" \/ c = "mast") /\ In l ["mast"; "left"; "right"; "eye"]).
    { clear. intros l hl. induction hl as [|p j hl IH hj]; intros hp; [now elim hp|].
      assert (hpar : j_parent j = "base" -> c = "base").
      { intros e. destruct p as [|x p]; [inversion hl as [e0|q k ? ? e0]; [congruence|destruct q; discriminate]|]. destruct (IH ltac:(discriminate)) as [_ [_ h]].
        rewrite e in h. cbn in h. destruct h as [h|[h|[h|[h|[]]]]]; discriminate. }
      assert (hpar' : j_parent j = "mast" -> c = "base" \/ c = "mast").
      { intros e. destruct p as [|x p]; [right; inversion hl as [e0|q k ? ? e0]; [congruence|destruct q; discriminate]|]. destruct (IH ltac:(discriminate)) as [h _].
        left. apply h. rewrite e. now left. }
      cbn in hj. destruct hj as [<-|[<-|[<-|[<-|[]]]]]; cbn in *; intuition discriminate. }
    destruct (hr c h hp) as [h1 [h2 h3]]. cbn in h3. destruct h3 as [<-|[<-|[<-|[<-|[]]]]].
    + specialize (h1 ltac:(cbn; tauto)). discriminate.
    + specialize (h1 ltac:(cbn; tauto)). discriminate.
    + specialize (h1 ltac:(cbn; tauto)). discriminate.
    + destruct (h2 eq_refl); discriminate.
  - intros j hj. cbn in hj. destruct hj as [<-|[<-|[<-|[<-|[]]]]]; cbn [j_parent j_child j_name]; repeat split; intros a b e;
      unfold space, line_feed in e;
      repeat (destruct a as [|? a]; [vm_compute in e; discriminate|cbn [append] in e; try discriminate e; injection e as _ e]).
Qed.

(** A joint of an unknown type: the hypotheses of C65_throws. *)
Example C65_unknown : exists (t : tree nat) j, ctor [ELink (mkLink "a" None [] []); ELink (mkLink "b" None [] []);
    EJoint (mkJoint "j" "ball" "a" "b" None None None)] = Ok t /\ reached t j /\ ~ known_type (j_type j) /\
  makeContinuousJointsFixed t = Throw.
Proof.
  do 2 eexists. split; [vm_compute; reflexivity|]. split; [|split].
  - exists []. apply (path_snoc _ _ [] (mkJoint "j" "ball" "a" "b" None None None)); [constructor|cbn; tauto].
  - cbn. intros h. decompose [or] h; try discriminate; contradiction.
  - vm_compute. reflexivity.
Qed.

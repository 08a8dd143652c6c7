(** * Properties C42 and C43: names checker, decorators and adapters of builders *)
From Coq Require Import String Ascii Bool Arith Lia Permutation List.
Import ListNotations.
From Verif Require Import Model_Builder Spec_Builder.
From Verif Require Proofs_Builder.

(** ** C42 *)

(** C42: whatever the builder behind the checker and whatever the sequence of calls, the
    calls that are accepted describe a tree rooted at the Galilean frame. *)
Theorem C42_tree : forall (T V M P B : Type) (f : call T V M P -> B -> bool * B) (root : string) (b : B) (cs : list (call T V M P)),
  let (rs, _) := run (names_checker f) cs (names_init root, b) in
  length rs = length cs /\ is_tree root (accepted cs rs).
Proof. exact @Proofs_Builder.C42_tree_proof. Qed.
Print Assumptions C42_tree.

(** C42: after any sequence of calls, a call that would break the tree is rejected, and
    neither the checker nor the builder behind is changed; any other call reaches the builder
    behind once, and has its outcome. *)
Theorem C42_exact : forall (T V M P B : Type) (f : call T V M P -> B -> bool * B) (root : string) (b : B) (cs : list (call T V M P)) c,
  let (rs, s) := run (names_checker f) cs (names_init root, b) in
  (admissible root (accepted cs rs) c ->
     fst (names_checker f c s) = fst (f c (snd s)) /\ snd (snd (names_checker f c s)) = snd (f c (snd s))) /\
  (~ admissible root (accepted cs rs) c -> names_checker f c s = (false, s)).
Proof. exact @Proofs_Builder.C42_exact_proof. Qed.
Print Assumptions C42_exact.

(** C42: a call rejected by the builder behind leaves no trace in the checker: the name may
    be used again. *)
Theorem C42_inner_failure : forall (T V M P B : Type) (f : call T V M P -> B -> bool * B) (n : Names) (b : B) (c : call T V M P),
  fst (names_checker f c (n, b)) = false -> fst (snd (names_checker f c (n, b))) = n.
Proof. exact @Proofs_Builder.C42_inner_failure_proof. Qed.
Print Assumptions C42_inner_failure.

(** C42: the builder behind receives exactly the accepted calls, unchanged and in order. *)
Theorem C42_forwards : forall (T V M P : Type) (root : string) (cs : list (call T V M P)),
  let '(rs, (_, received)) := run (names_checker recorder) cs (names_init root, []) in
  rev received = accepted cs rs.
Proof. exact @Proofs_Builder.C42_forwards_proof. Qed.
Print Assumptions C42_forwards.

(** Three accepted calls (the third is a frame on a body), and three rejected ones: an
    unknown parent, a link attached to a static frame and a name already used. *)
Example ex_C42 :
  let l p c j := AddLink (mkLink p c j tt Rx (mkBodyMass tt tt tt)) in
  let s p c j := AddStaticFrame (mkStaticFrame p c j tt) in
  let cs := [l ""%string "torso"%string "j0"%string; l "torso"%string "head"%string "j1"%string; s "head"%string "camera"%string "t1"%string;
             l "arm"%string "hand"%string "j2"%string; l "camera"%string "lens"%string "j3"%string; s ""%string "head"%string "t2"%string] in
  fst (run (names_checker recorder) cs (names_init ""%string, [])) = [true; true; true; false; false; false].
Proof. reflexivity. Qed.

(** ** C43 *)

(** C43: the inertia eraser forwards every call in order with its outcome, the only change
    being a null rotational inertia: names, pose, joint type, mass and centre of mass are
    those given. *)
Theorem C43_inertia_eraser : forall (T V M P B : Type) (zero : M) (f : call T V M P -> B -> bool * B) (cs : list (call T V M P)) (b : B),
  let erase c := match c with
    | AddLink (mkLink p nb j h t (mkBodyMass m com _)) => AddLink (mkLink p nb j h t (mkBodyMass m com zero))
    | AddStaticFrame _ => c end in
  run (inertia_eraser zero f) cs b = run f (map erase cs) b.
Proof. exact @Proofs_Builder.C43_inertia_eraser_proof. Qed.
Print Assumptions C43_inertia_eraser.

(** C43: the overloads of add make exactly one virtual call, whose members are the
    arguments, the joint name being given by the configuration when it is not an argument;
    those for static frames make none when static frames are disabled. *)
Theorem C43_add : forall (T V M P : Type) (cfg : Config) (parent name joint : string) (h : P) (t : JointType) (m : BodyMass T V M),
  add_link6 parent name h t m joint = [AddLink (mkLink parent name joint h t m)] /\
  add_link5 cfg parent name h t m = [AddLink (mkLink parent name (cfg_joint_name cfg name) h t m)] /\
  (cfg_no_static_frame cfg = true ->
     @add_frame4 T V M P cfg parent name h joint = [] /\ @add_frame3 T V M P cfg parent name h = []) /\
  (cfg_no_static_frame cfg = false ->
     @add_frame4 T V M P cfg parent name h joint = [AddStaticFrame (mkStaticFrame parent name joint h)] /\
     @add_frame3 T V M P cfg parent name h = [AddStaticFrame (mkStaticFrame parent name (cfg_joint_name cfg name) h)]).
Proof. exact @Proofs_Builder.C43_add_proof. Qed.
Print Assumptions C43_add.

(** C43: with the default configuration, different bodies have different joints. *)
Theorem C43_default_names : forall a b : string,
  cfg_joint_name default_config a = cfg_joint_name default_config b -> a = b.
Proof. exact @Proofs_Builder.C43_default_names_proof. Qed.
Print Assumptions C43_default_names.

(** C43: an adapter forwards every call in order with its outcome; names and joint type are
    kept, and every number is converted. *)
Theorem C43_adapter : forall (T V M P T' V' M' P' B : Type) ct cv cm cp
  (f : call T' V' M' P' -> B -> bool * B) (cs : list (call T V M P)) (b : B),
  let convert c := match c with
    | AddLink (mkLink p nb j h t (mkBodyMass m com i)) => AddLink (mkLink p nb j (cp h) t (mkBodyMass (ct m) (cv com) (cm i)))
    | AddStaticFrame (mkStaticFrame p nf s h) => AddStaticFrame (mkStaticFrame p nf s (cp h)) end in
  run (adapter ct cv cm cp f) cs b = run f (map convert cs) b.
Proof. exact @Proofs_Builder.C43_adapter_proof. Qed.
Print Assumptions C43_adapter.

(** C43: the decorators commute: checking the names before or after erasing the inertias
    gives the same outcomes and the same final states. *)
Theorem C43_commute : forall (T V M P B : Type) (zero : M) (f : call T V M P -> B -> bool * B) (cs : list (call T V M P)) s,
  run (names_checker (inertia_eraser zero f)) cs s = run (inertia_eraser zero (names_checker f)) cs s.
Proof. exact @Proofs_Builder.C43_commute_proof. Qed.
Print Assumptions C43_commute.

(** Static frames disabled: the frame is not added, and a call using it is then rejected. *)
Example ex_C43 :
  let cfg := mkConfig true default_joint_name ""%string in
  let cs := add_link5 cfg ""%string "torso"%string tt Rx (mkBodyMass 1 2 3) ++ add_frame3 cfg "torso"%string "camera"%string tt
            ++ add_link5 cfg "torso"%string "head"%string tt Ry (mkBodyMass 4 5 6) in
  snd (run (inertia_eraser 0 recorder) cs []) =
  [AddLink (mkLink "torso"%string "head"%string "head_joint"%string tt Ry (mkBodyMass 4 5 0));
   AddLink (mkLink ""%string "torso"%string "torso_joint"%string tt Rx (mkBodyMass 1 2 0))].
Proof. reflexivity. Qed.

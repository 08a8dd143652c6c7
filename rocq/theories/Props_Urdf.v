(** * Properties C44 and C45: construction of the URDF tree *)
From Coq Require Import String List Bool Relations Permutation Lia Arith Wellfounded.
Import ListNotations.
From Verif Require Import Scalar Model_Rigid Model_Average Model_Pose Model_Urdf Spec_Urdf.
From Verif Require Proofs_Urdf.

(** C44. A document is accepted exactly when names are unique, joints refer to existing
    links, no link has two parents, there is exactly one root (and the mimic joints refer
    to existing joints in a suitable order, see C45). *)
Theorem C44_accepts : forall {T} (d : list (elem T)), (exists t, ctor d = Ok t) <-> accepted d.
Proof. exact @Proofs_Urdf.C44_accepts_proof. Qed.
Print Assumptions C44_accepts.

(** C44. It is refused with an exception otherwise; no document makes the construction fail
    otherwise or loop. *)
Theorem C44_or_throws : forall {T} (d : list (elem T)),
  (accepted d /\ exists t, ctor d = Ok t /\ t_doc t = d /\ is_root d (t_root t) /\ sound t) \/
  (~ accepted d /\ ctor d = Throw).
Proof. exact @Proofs_Urdf.C44_or_throws_proof. Qed.
Print Assumptions C44_or_throws.

(** C44. In an accepted robot at most one sequence of joints leads from the root to a link,
    and it never uses a joint twice. *)
Theorem C44_unique_path : forall {T} (d : list (elem T)) t p p' l, ctor d = Ok t ->
  path d (t_root t) p l -> path d (t_root t) p' l -> p = p' /\ NoDup p.
Proof. exact @Proofs_Urdf.C44_unique_path_proof. Qed.
Print Assumptions C44_unique_path.

(** C44. Every link of an accepted robot is either reached from the root by exactly one
    path or hangs below a loop of joints (a link above itself), never both. *)
Theorem C44_links : forall {T} (d : list (elem T)) t l, ctor d = Ok t -> In l (link_names d) ->
  ((exists! p, path d (t_root t) p l) /\ ~ (exists c p, above d c c /\ path d c p l)) \/
  ((exists c p, above d c c /\ path d c p l) /\ ~ (exists p, path d (t_root t) p l)).
Proof. exact @Proofs_Urdf.C44_links_proof. Qed.
Print Assumptions C44_links.

(** C44, exactly: each link of an accepted robot is reachable from the root by exactly one
    path if and only if no link is above itself. *)
Theorem C44_tree_exact : forall {T} (d : list (elem T)) t, ctor d = Ok t ->
  ((forall l, In l (link_names d) -> exists! p, path d (t_root t) p l) <-> (forall c, ~ above d c c)).
Proof. exact @Proofs_Urdf.C44_tree_exact_proof. Qed.
Print Assumptions C44_tree_exact.

(** A robot: a base carrying a torso, which carries two arms; the right arm mimics the left
    one.  The links come in any order between the joints. *)
Definition robot1 : list (elem nat) :=
  [ELink (mkLink "torso" None [] []);
   EJoint (mkJoint "waist" "revolute" "base" "torso" None None None);
   ELink (mkLink "base" None [] []);
   EOther "material";
   EJoint (mkJoint "left" "revolute" "torso" "larm" None None None);
   ELink (mkLink "rarm" None [] []);
   EJoint (mkJoint "right" "revolute" "torso" "rarm" None None (Some "left"%string));
   ELink (mkLink "larm" None [] [])].

(*E*)
Example C44_robot1 : ctor robot1 = Ok (mkTree robot1 ["waist"; "left"; "right"]%string "base").
Proof. vm_compute. reflexivity. Qed.

(** It has no loop of joints, so that each of its links has exactly one path. *)
Example C44_robot1_tree : exists! p, path robot1 "base" p "rarm".
Proof.
  refine (proj2 (C44_tree_exact robot1 _ C44_robot1) _ "rarm"%string _); [|vm_compute; tauto].
  pose (h := fun s => if (s =? "base")%string then 0 else if (s =? "torso")%string then 1 else 2).
  assert (hp : forall a p b, path robot1 a p b -> h a + length p <= h b).
  { intros a p b H. induction H as [|p j H IH hj]; [cbn; lia|]. rewrite app_length. cbn [length].
    destruct hj as [<-|[<-|[<-|[]]]]; cbn in IH |- *; lia. }
  intros c [p [hn H]]. apply hp in H. destruct p; [congruence|cbn in H; lia].
Qed.

(** Documents that have to be refused: two roots, no root, a link with two parents. *)
Example C44_refused :
  ctor (ELink (mkLink "other" None [] []) :: robot1) = Throw /\
  ctor (EJoint (mkJoint "back" "fixed" "rarm" "base" None None None) :: robot1) = Throw /\
  ctor (EJoint (mkJoint "twice" "fixed" "larm" "rarm" None None None) :: robot1) = Throw.
Proof. vm_compute. repeat split. Qed.

(** C44 fails: a document with a loop of joints apart from the root is accepted, and the
    links of the loop are not reachable from the root. *)
Theorem C44_tree_refuted :
  exists (d : list (elem nat)) t l, ctor d = Ok t /\ In l (link_names d) /\
    ~ exists p, path d (t_root t) p l.
Proof. exact @Proofs_Urdf.C44_tree_refuted_proof. Qed.
Print Assumptions C44_tree_refuted.

(** C45. A robot whose mimic joints form a cycle is refused, in whatever order its joints
    come in the document. *)
Theorem C45_cycle_rejected : forall {T} (d : list (elem T)), mimic_cycle d -> ctor d = Throw.
Proof. exact @Proofs_Urdf.C45_cycle_rejected_proof. Qed.
Print Assumptions C45_cycle_rejected.

(** C45. A robot which is otherwise consistent and where every joint comes after the joint
    it mimics is accepted. *)
Theorem C45_sources_first : forall {T} (d : list (elem T)),
  well_connected d -> (exists! r, is_root d r) -> sources_first d -> exists t, ctor d = Ok t.
Proof. exact @Proofs_Urdf.C45_sources_first_proof. Qed.
Print Assumptions C45_sources_first.

(** C45. Exactly which documents are refused because of their mimic joints: those where a
    joint mimics itself, or comes after both the joint it mimics and a joint that mimics
    it. *)
Theorem C45_exact : forall {T} (d : list (elem T)),
  well_connected d -> (exists! r, is_root d r) -> mimic_sources_exist d ->
  (ctor d = Throw <-> ~ mimic_order d).
Proof. exact @Proofs_Urdf.C45_exact_proof. Qed.
Print Assumptions C45_exact.

(** C45 fails: a robot whose mimic joints form no cycle ([a] mimics [b], which mimics
    [c]) is refused when its joints come in the order c, a, b. *)
Theorem C45_acyclic_refuted :
  exists (d : list (elem nat)), well_connected d /\ (exists! r, is_root d r) /\
    mimic_sources_exist d /\ ~ mimic_cycle d /\ ctor d = Throw.
Proof. exact @Proofs_Urdf.C45_acyclic_refuted_proof. Qed.
Print Assumptions C45_acyclic_refuted.

(** A cycle of three joints, two of them before the third. *)
Example C45_cycle : mimic_cycle
  [EJoint (mkJoint "a" "revolute" "x" "y" None None (Some "b"%string) : Joint nat);
   EJoint (mkJoint "b" "revolute" "x" "z" None None (Some "c"%string));
   EJoint (mkJoint "c" "revolute" "x" "t" None None (Some "a"%string))].
Proof.
  exists "a"%string. apply t_trans with "b"%string; [|apply t_trans with "c"%string]; apply t_step.
  - eexists. split; [now left|now split].
  - eexists. split; [right; now left|now split].
  - eexists. split; [right; right; now left|now split].
Qed.

(** In the robot above every joint comes after the joint it mimics. *)
Example C45_robot1 : sources_first robot1.
Proof.
  intros l1 j l2 m e em. change (joints robot1) with
    [mkJoint "waist" "revolute" "base" "torso" None None None : Joint nat;
     mkJoint "left" "revolute" "torso" "larm" None None None;
     mkJoint "right" "revolute" "torso" "rarm" None None (Some "left"%string)] in e.
  destruct l1 as [|a l1]; [injection e as <- _; discriminate|]. injection e as <- e.
  destruct l1 as [|b l1]; [injection e as <- _; discriminate|]. injection e as <- e.
  destruct l1 as [|c l1]; [injection e as <- _; injection em as <-; right; now left|].
  injection e as _ e. destruct l1; discriminate.
Qed.

(** * Specification of the URDF kinematic tree

    Everything here is stated on the document (the joints and links of the robot element),
    without the library's indices. *)

From Coq Require Import String List Relations Permutation.
Import ListNotations.
From Verif Require Import Scalar Model_Rigid Model_Pose Model_Urdf.

Section Spec.
Context {T : Type}.
Implicit Types d : list (elem T).

Definition link_names d : list string := map (@l_name T) (links d).
Definition joint_names d : list string := map (@j_name T) (joints d).

(** A link which is the child of no joint. *)
Definition is_root d (r : string) : Prop :=
  In r (link_names d) /\ forall j, In j (joints d) -> j_child j <> r.

(** The joints connect existing links, no link has two parents, nothing is named twice. *)
Record well_connected d : Prop := {
  wc_links : NoDup (link_names d);
  wc_joints : NoDup (joint_names d);
  wc_children : NoDup (map (@j_child T) (joints d));
  wc_ends : forall j, In j (joints d) ->
    In (j_parent j) (link_names d) /\ In (j_child j) (link_names d)
}.

Definition mimic_sources_exist d : Prop :=
  forall j m, In j (joints d) -> j_mimic j = Some m -> In m (joint_names d).

(** [mimics d a b]: the joint named [a] mimics the one named [b]. *)
Definition mimics d (a b : string) : Prop :=
  exists j, In j (joints d) /\ j_name j = a /\ j_mimic j = Some b.
Definition mimic_cycle d : Prop := exists a, clos_trans string (mimics d) a a.

(** No joint comes, in the document, both after the joint it mimics (or mimics itself) and
    after a joint that mimics it. *)
Definition mimic_order d : Prop :=
  forall l1 j l2 m, joints d = l1 ++ j :: l2 -> j_mimic j = Some m ->
    m <> j_name j /\
    (In m (map (@j_name T) l1) -> forall k, In k l1 -> j_mimic k <> Some (j_name j)).

(** Every joint comes, in the document, after the joint it mimics. *)
Definition sources_first d : Prop :=
  forall l1 j l2 m, joints d = l1 ++ j :: l2 -> j_mimic j = Some m -> In m (map (@j_name T) l1).

(** The documents the constructor has to accept. *)
Definition accepted d : Prop :=
  well_connected d /\ (exists! r, is_root d r) /\ mimic_sources_exist d /\ mimic_order d.

(** [path d a p b]: the joints of [p] lead from link [a] down to link [b]. *)
Inductive path d (a : string) : list (Joint T) -> string -> Prop :=
| path_nil : path d a [] a
| path_snoc : forall p j, path d a p (j_parent j) -> In j (joints d) -> path d a (p ++ [j]) (j_child j).

(** [above d a b]: link [a] is an ancestor of link [b]; a loop is a link above itself. *)
Definition above d (a b : string) : Prop := exists p, p <> [] /\ path d a p b.

(** What RobotTree has to keep true of its document and its root. *)
Record sound (t : tree T) : Prop := {
  sd_doc : well_connected (t_doc t);
  sd_root : forall r, is_root (t_doc t) r <-> r = t_root t;
  sd_index : Permutation (t_ix t) (joint_names (t_doc t))
}.

(** ** Traversals

    The calls received by a visitor: [discover] of a joint with its answer, [finish]. *)
Inductive event := Disc (n : string) (b : bool) | Fin (n : string).

(** The calls a visitor has to receive for the joints of a list, [all] being all the joints
    of the robot: for each of them in turn [discover], then, if the answer was [true], the
    calls for the joints of which its child link is the parent, taken in the order of
    [all], then [finish]. *)
Inductive visits (all : list (Joint T)) : list (Joint T) -> list event -> Prop :=
| visits_nil : visits all [] []
| visits_enter : forall j js h1 h2,
    visits all (filter (fun k => j_parent k =? j_child j)%string all) h1 ->
    visits all js h2 ->
    visits all (j :: js) (Disc (j_name j) true :: h1 ++ Fin (j_name j) :: h2)
| visits_skip : forall j js h,
    visits all js h ->
    visits all (j :: js) (Disc (j_name j) false :: Fin (j_name j) :: h).

(** [runs doc discover finish v h v']: the calls of [h], made in this order from the state
    [v] of the visitor on the joints as they are then in its document, lead to [v']. *)
Inductive runs {V : Type} (doc : V -> list (elem T))
  (discover : V -> Joint T -> res (V * bool)) (finish : V -> Joint T -> res V)
  : V -> list event -> V -> Prop :=
| runs_nil : forall v, runs doc discover finish v [] v
| runs_disc : forall v n j v1 b h v',
    In j (joints (doc v)) -> j_name j = n -> discover v j = Ok (v1, b) ->
    runs doc discover finish v1 h v' -> runs doc discover finish v (Disc n b :: h) v'
| runs_fin : forall v n j v1 h v',
    In j (joints (doc v)) -> j_name j = n -> finish v j = Ok v1 ->
    runs doc discover finish v1 h v' -> runs doc discover finish v (Fin n :: h) v'.

Definition discovered (h : list event) : list string :=
  flat_map (fun e => match e with Disc n _ => [n] | Fin _ => [] end) h.
Definition finished (h : list event) : list string :=
  flat_map (fun e => match e with Fin n => [n] | Disc _ _ => [] end) h.

(** The joints between the same links, under the same names, in the same order. *)
Definition same_graph d d' : Prop :=
  map (fun j => (j_name j, j_parent j, j_child j)) (joints d) =
  map (fun j => (j_name j, j_parent j, j_child j)) (joints d').

(** ** Removals

    The document without the joints of [names] and their child links. *)
Definition without d (names : list string) : list (elem T) :=
  filter (fun e => match e with
                   | EJoint j => negb (mem (j_name j) names)
                   | ELink l => negb (existsb (fun j => mem (j_name j) names &&
                                                         (j_child j =? l_name l)%string)%bool
                                              (joints d))
                   | EOther _ => true
                   end) d.

(** [j] satisfies the predicate or is below a joint that does. *)
Definition condemned d (root : string) (pred : Joint T -> bool) (n : string) : Prop :=
  exists p j, path d root (p ++ [j]) (j_child j) /\ j_name j = n /\
              exists k, In k (p ++ [j]) /\ pred k = true.

End Spec.

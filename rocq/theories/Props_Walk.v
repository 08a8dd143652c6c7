(** * Properties C46 and C47: traversal of the URDF tree and removal of subtrees *)
From Coq Require Import String List Bool Relations Permutation Lia Arith ZArith Sorting.Sorted.
From Coq Require OrderedTypeEx.
Import ListNotations.
From Verif Require Import Scalar Model_Rigid Model_Average Model_Pose Model_Urdf Spec_Urdf Proofs_Urdf.
From Verif Require Props_Urdf.
From Verif Require Proofs_Walk.

(** Visitors have a state of any type, from which the document can be read; they may rewrite it, but not its graph. *)

(** C46. Traversing a robot just read from its document calls the visitor for every joint
    of the root link, in the order of the document: first [discover]; then, if the answer
    is [true], for the joints of the link below, in the same way; then [finish]. *)
Theorem C46_document_order : forall {T V} (d : list (elem T)) t (doc : V -> list (elem T)) discover finish v v',
  ctor d = Ok t ->
  (forall u j u' b, same_graph d (doc u) -> discover u j = Ok (u', b) -> same_graph d (doc u')) ->
  (forall u j u', same_graph d (doc u) -> finish u j = Ok u' -> same_graph d (doc u')) ->
  same_graph d (doc v) -> traverse_joints t doc discover finish v = Ok v' ->
  exists h, runs doc discover finish v h v' /\
    visits (joints d) (filter (fun j => j_parent j =? t_root t)%string (joints d)) h.
Proof. exact @Proofs_Walk.C46_document_order_proof. Qed.
Print Assumptions C46_document_order.

(** C46. Traversing a robot, whatever was done to it before: no joint is visited twice, nor
    finished twice; every joint visited is finished; a joint is visited exactly when the
    visitor accepted all the joints between the root and it; the joint above it has then
    been accepted before, and is finished after, once all the joints below it are. *)
Theorem C46_once : forall {T V} (t : tree T) (doc : V -> list (elem T)) discover finish v v',
  sound t ->
  (forall u j u' b, same_graph (t_doc t) (doc u) -> discover u j = Ok (u', b) -> same_graph (t_doc t) (doc u')) ->
  (forall u j u', same_graph (t_doc t) (doc u) -> finish u j = Ok u' -> same_graph (t_doc t) (doc u')) ->
  same_graph (t_doc t) (doc v) -> traverse_joints t doc discover finish v = Ok v' ->
  exists h, runs doc discover finish v h v' /\
    NoDup (discovered h) /\ Permutation (finished h) (discovered h) /\
    (forall p j, path (t_doc t) (t_root t) (p ++ [j]) (j_child j) ->
       (In (j_name j) (discovered h) <-> forall k, In k p -> In (Disc (j_name k) true) h)) /\
    (forall n, In n (discovered h) ->
       exists p j, path (t_doc t) (t_root t) (p ++ [j]) (j_child j) /\ j_name j = n) /\
    (forall h1 j b h2 k, h = h1 ++ Disc (j_name j) b :: h2 ->
       In j (joints (t_doc t)) -> In k (joints (t_doc t)) -> j_parent j = j_child k ->
       In (Disc (j_name k) true) h1 /\ In (Fin (j_name k)) h2) /\
    (forall a k b j, finished h = a ++ j_name k :: b ->
       In k (joints (t_doc t)) -> In j (joints (t_doc t)) -> j_parent j = j_child k -> ~ In (j_name j) b).
Proof. exact @Proofs_Walk.C46_once_proof. Qed.
Print Assumptions C46_once.

(** C46. A visitor that always accepts is called exactly once for each joint of the robot,
    if the robot has no loop of joints. *)
Theorem C46_every_joint : forall {T V} (t : tree T) (doc : V -> list (elem T)) discover finish v v',
  sound t -> (forall c, ~ above (t_doc t) c c) ->
  (forall u j u' b, same_graph (t_doc t) (doc u) -> discover u j = Ok (u', b) ->
     same_graph (t_doc t) (doc u') /\ b = true) ->
  (forall u j u', same_graph (t_doc t) (doc u) -> finish u j = Ok u' -> same_graph (t_doc t) (doc u')) ->
  same_graph (t_doc t) (doc v) -> traverse_joints t doc discover finish v = Ok v' ->
  exists h, runs doc discover finish v h v' /\
    Permutation (discovered h) (joint_names (t_doc t)) /\ Permutation (finished h) (joint_names (t_doc t)).
Proof. exact @Proofs_Walk.C46_every_joint_proof. Qed.
Print Assumptions C46_every_joint.

(** C46. A traversal always ends: either normally, or at the first call that fails, with
    the outcome of this call. *)
Theorem C46_ends : forall {T V} (t : tree T) (doc : V -> list (elem T)) discover finish v,
  sound t ->
  (forall u j u' b, same_graph (t_doc t) (doc u) -> discover u j = Ok (u', b) -> same_graph (t_doc t) (doc u')) ->
  (forall u j u', same_graph (t_doc t) (doc u) -> finish u j = Ok u' -> same_graph (t_doc t) (doc u')) ->
  same_graph (t_doc t) (doc v) ->
  (exists v', traverse_joints t doc discover finish v = Ok v') \/
  (exists h v1 j, runs doc discover finish v h v1 /\ In j (joints (doc v1)) /\
     ((forall x, discover v1 j <> Ok x) /\
      rmap (fun _ => tt) (traverse_joints t doc discover finish v) = rmap (fun _ => tt) (discover v1 j) \/
      (forall x, finish v1 j <> Ok x) /\
      rmap (fun _ => tt) (traverse_joints t doc discover finish v) = rmap (fun _ => tt) (finish v1 j))).
Proof. exact @Proofs_Walk.C46_ends_proof. Qed.
Print Assumptions C46_ends.

(** C46 fails for the joints of a loop, which the constructor lets through: they are never
    visited. *)
Theorem C46_loop_refuted :
  exists (d : list (elem nat)) t, ctor d = Ok t /\ joints d <> [] /\
    traverse_joints t (fun _ => d) (fun (v : list string) j => Ok (v ++ [j_name j], true)) (fun v _ => Ok v) [] = Ok [].
Proof. exact @Proofs_Walk.C46_loop_refuted_proof. Qed.
Print Assumptions C46_loop_refuted.

(** C47. removeSubTreeIfJoint removes exactly the joints that satisfy the predicate and
    those below them, with their child links, and nothing else; it returns their names,
    each once; what remains is a tree with the same root. *)
Theorem C47_removed : forall {T} (t : tree T) pred, sound t ->
  exists t' names, removeSubTreeIfJoint t pred = Ok (t', names) /\
    NoDup names /\ (forall n, In n names <-> condemned (t_doc t) (t_root t) pred n) /\
    t_doc t' = without (t_doc t) names /\ t_root t' = t_root t /\ sound t'.
Proof. exact @Proofs_Walk.C47_removed_proof. Qed.
Print Assumptions C47_removed.

(** C47. What remains may however mimic a joint that was removed: a document that the
    constructor refuses, and on which is_mimic_tree_flat fails its assertion. *)
Theorem C47_dangling_mimic :
  exists (d : list (elem nat)) t pred t' names, ctor d = Ok t /\
    removeSubTreeIfJoint t pred = Ok (t', names) /\
    ctor (t_doc t') = Throw /\ is_mimic_tree_flat t = Ok true /\ is_mimic_tree_flat t' = Abort.
Proof. exact @Proofs_Walk.C47_dangling_mimic_proof. Qed.
Print Assumptions C47_dangling_mimic.

(** A robot of six joints, its joints not in the order of the tree. *)
Definition robot2 : list (elem nat) :=
  [ELink (mkLink "base" None [] []); ELink (mkLink "torso" None [] []); ELink (mkLink "hand" None [] []);
   EOther "material"%string;
   ELink (mkLink "larm" None [] []); ELink (mkLink "rarm" None [] []); ELink (mkLink "head" None [] []);
   ELink (mkLink "finger" None [] []);
   EJoint (mkJoint "jfinger" "revolute" "hand" "finger" None None None);
   EJoint (mkJoint "jhead" "continuous" "torso" "head" None None None);
   EJoint (mkJoint "jwaist" "revolute" "base" "torso" None None None);
   EJoint (mkJoint "jlarm" "revolute" "torso" "larm" None None None);
   EJoint (mkJoint "jhand" "revolute" "larm" "hand" None None None);
   EJoint (mkJoint "jrarm" "revolute" "torso" "rarm" None None None)].

(*E*)
Lemma robot2_ok : exists t, ctor robot2 = Ok t /\ t_doc t = robot2 /\ t_root t = "base"%string.
Proof. eexists. split; [vm_compute; reflexivity|]. now split. Qed.

Lemma robot2_sound : forall t, ctor robot2 = Ok t -> sound t.
Proof.
  intros t e. destruct (Props_Urdf.C44_or_throws robot2) as [[_ [t' [e' [_ [_ h]]]]]|[_ e']]; [|congruence].
  rewrite e in e'. now injection e' as <-.
Qed.

Lemma robot2_no_loop : forall c, ~ above robot2 c c.
Proof.
  pose (h := fun s => if (s =? "base")%string then 0 else if (s =? "torso")%string then 1 else
     if (s =? "hand")%string then 3 else if (s =? "finger")%string then 4 else 2).
  assert (hp : forall a p b, path robot2 a p b -> h a + length p <= h b).
  { intros a p b H. induction H as [|p j H IH hj]; [cbn; lia|]. rewrite app_length. cbn [length].
    destruct hj as [<-|[<-|[<-|[<-|[<-|[<-|[]]]]]]]; cbn in IH |- *; lia. }
  intros c [p [hn H]]. apply hp in H. destruct p; [congruence|cbn in H; lia].
Qed.

(** A visitor that writes down its calls and declines the joint [jlarm]. *)
Example C46_log : exists t, ctor robot2 = Ok t /\
  traverse_joints t (fun _ => robot2)
    (fun (v : list event) j => let b := negb (j_name j =? "jlarm")%string in Ok (v ++ [Disc (j_name j) b], b))
    (fun v j => Ok (v ++ [Fin (j_name j)])) [] =
  Ok [Disc "jwaist" true; Disc "jhead" true; Fin "jhead"; Disc "jlarm" false; Fin "jlarm";
      Disc "jrarm" true; Fin "jrarm"; Fin "jwaist"]%string.
Proof. eexists. split; vm_compute; reflexivity. Qed.

(** It meets the hypotheses of C46_document_order, C46_once and C46_ends. *)
Example C46_log_visits : exists h, visits (joints robot2)
  (filter (fun j => j_parent j =? "base")%string (joints robot2)) h.
Proof.
  destruct C46_log as [t [e ew]]. destruct robot2_ok as [t' [e' [_ er]]]. rewrite e in e'. injection e' as <-.
  rewrite <- er.
  refine (match C46_document_order robot2 t (fun _ => robot2) _ _ _ _ e _ _ eq_refl ew with
          | ex_intro _ h (conj _ hv) => ex_intro _ h hv end); reflexivity.
Qed.

(** makeContinuousJointsFixed is such a traversal, whose visitor rewrites the document. *)
Example C46_continuous : exists t v', ctor robot2 = Ok t /\
  traverse_joints t fst mcf_discover (fun v _ => Ok v) (robot2, []) = Ok v' /\ snd v' = ["jhead"%string].
Proof. eexists. eexists. split; [vm_compute; reflexivity|]. split; vm_compute; reflexivity. Qed.

(** A visitor that accepts everything is called for the six joints. *)
Example C46_six : exists (h : list event),
  Permutation (discovered h) ["jfinger"; "jhead"; "jwaist"; "jlarm"; "jhand"; "jrarm"]%string.
Proof.
  destruct robot2_ok as [t [e [ed er]]].
  assert (ew : exists v', traverse_joints t (fun _ => robot2) (fun (v : nat) j => Ok (v + 1, true)) (fun v _ => Ok v) 0 = Ok v').
  { assert (e' := e). vm_compute in e'. injection e' as <-. eexists. vm_compute. reflexivity. }
  destruct ew as [v' ew].
  destruct (C46_every_joint t (fun _ => robot2) (fun (v : nat) j => Ok (v + 1, true)) (fun v _ => Ok v) 0 v') as [h [_ [hp _]]].
  - now apply robot2_sound.
  - rewrite ed. exact robot2_no_loop.
  - intros u j u' b _ h. injection h as _ <-. split; [now rewrite ed|reflexivity].
  - intros u j u' _ _. now rewrite ed.
  - now rewrite ed.
  - assumption.
  - exists h. rewrite ed in hp. exact hp.
Qed.

(** Removing what is below the left arm and the head. *)
Example C47_robot2 : exists t t', ctor robot2 = Ok t /\ sound t /\
  removeSubTreeIfJoint t (fun j => (j_name j =? "jlarm")%string || (j_name j =? "jhead")%string)%bool =
    Ok (t', ["jhead"; "jlarm"; "jhand"; "jfinger"]%string) /\
  t_doc t' = [ELink (mkLink "base" None [] []); ELink (mkLink "torso" None [] []); EOther "material"%string;
    ELink (mkLink "rarm" None [] []);
    EJoint (mkJoint "jwaist" "revolute" "base" "torso" None None None);
    EJoint (mkJoint "jrarm" "revolute" "torso" "rarm" None None None)].
Proof.
  destruct robot2_ok as [t [e _]]. exists t. eexists. split; [assumption|]. split; [now apply robot2_sound|].
  assert (e' := e). vm_compute in e'. injection e' as <-. split; vm_compute; reflexivity.
Qed.

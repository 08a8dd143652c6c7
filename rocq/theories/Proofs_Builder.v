(** * Lemmas for Props_Builder *)

From Coq Require Import String Ascii Bool Arith Lia Permutation List.
Import ListNotations.
From Verif Require Import Model_Builder Spec_Builder.


Section Names.
Context {T V M P : Type}.
Notation call := (call T V M P).

Lemma mem_In : forall s l, mem s l = true <-> In s l.
Proof.
  intros s l. unfold mem. rewrite existsb_exists. split.
  - intros [x [i e]]. apply String.eqb_eq in e. subst. exact i.
  - intro i. exists s. split; [exact i|]. apply String.eqb_refl.
Qed.

(** What the checker knows after the accepted calls [acc]. *)
Definition inv (root : string) (acc : list call) (n : Names) : Prop :=
  (forall s, In s (n_bodies n) <-> s = root \/ exists l, In (AddLink l) acc /\ l_body l = s) /\
  (forall s, In s (n_sframes n) <-> exists q, In (AddStaticFrame q) acc /\ f_frame q = s) /\
  (forall s, In s (n_joints n) <-> exists l, In (AddLink l) acc /\ l_joint l = s) /\
  (forall s, In s (n_stransforms n) <-> exists q, In (AddStaticFrame q) acc /\ f_transform q = s).

Lemma known_frame : forall root acc n s, inv root acc n ->
  (knownFrame n s = true <-> In s (root :: map new_frame acc)).
Proof.
  intros root acc n s [h1 [h2 _]]. unfold knownFrame, knownBody. rewrite orb_true_iff, !mem_In, h1, h2. cbn [In]. rewrite in_map_iff.
  split.
  - intros [[->|[l [i e]]]|[q [i e]]]; [left; reflexivity|right; exists (AddLink l); auto|right; exists (AddStaticFrame q); auto].
  - intros [->|[[l|q] [e i]]]; [left; left; reflexivity|left; right; exists l; auto|right; exists q; auto].
Qed.

Lemma known_transform : forall root acc n s, inv root acc n ->
  (knownTransform n s = true <-> In s (map edge_name acc)).
Proof.
  intros root acc n s [_ [_ [h1 h2]]]. unfold knownTransform, knownJoint. rewrite orb_true_iff, !mem_In, h1, h2, in_map_iff.
  split.
  - intros [[l [i e]]|[q [i e]]]; [exists (AddLink l); auto|exists (AddStaticFrame q); auto].
  - intros [[l|q] [e i]]; [left; exists l; auto|right; exists q; auto].
Qed.

Lemma known_body : forall root acc n s, inv root acc n ->
  (knownBody n s = true <-> s = root \/ exists l', In (AddLink l') acc /\ l_body l' = s).
Proof. intros root acc n s [h1 _]. unfold knownBody. rewrite mem_In. apply h1. Qed.

Lemma nin_false : forall b Q, (b = true <-> Q) -> ~ Q -> b = false.
Proof. intros [] Q h n; [|reflexivity]. exfalso. apply n. apply h. reflexivity. Qed.

Lemma inv_snoc : forall root acc n c, inv root acc n ->
  inv root (acc ++ [c]) (match c with
    | AddLink l => mkNames (l_body l :: n_bodies n) (l_joint l :: n_joints n) (n_sframes n) (n_stransforms n)
    | AddStaticFrame q => mkNames (n_bodies n) (n_joints n) (f_frame q :: n_sframes n) (f_transform q :: n_stransforms n) end).
Proof.
  intros root acc n c [h1 [h2 [h3 h4]]].
  destruct c as [l|q]; unfold inv; cbn [n_bodies n_joints n_sframes n_stransforms].
  - split; [|split; [|split]]; intro s; cbn [In]; rewrite ?h1, ?h2, ?h3, ?h4.
    + split.
      * intros [<-|[->|[l' [i e]]]]; [right; exists l; rewrite in_app_iff; cbn; auto|auto|right; exists l'; rewrite in_app_iff; auto].
      * intros [->|[l' [i e]]]; [auto|]. rewrite in_app_iff in i. destruct i as [i|[i|[]]]; [right; right; eauto|].
        injection i as ->. left. exact e.
    + split.
      * intros [q [i e]]. exists q. rewrite in_app_iff. auto.
      * intros [q [i e]]. rewrite in_app_iff in i. destruct i as [i|[i|[]]]; [eauto|discriminate].
    + split.
      * intros [<-|[l' [i e]]]; [exists l; rewrite in_app_iff; cbn; auto|exists l'; rewrite in_app_iff; auto].
      * intros [l' [i e]]. rewrite in_app_iff in i. destruct i as [i|[i|[]]]; [right; eauto|]. injection i as ->. left. exact e.
    + split.
      * intros [q [i e]]. exists q. rewrite in_app_iff. auto.
      * intros [q [i e]]. rewrite in_app_iff in i. destruct i as [i|[i|[]]]; [eauto|discriminate].
  - split; [|split; [|split]]; intro s; cbn [In]; rewrite ?h1, ?h2, ?h3, ?h4.
    + split.
      * intros [->|[l [i e]]]; [auto|]. right. exists l. rewrite in_app_iff. auto.
      * intros [->|[l [i e]]]; [auto|]. rewrite in_app_iff in i. destruct i as [i|[i|[]]]; [right; eauto|discriminate].
    + split.
      * intros [<-|[l' [i e]]]; [exists q; rewrite in_app_iff; cbn; auto|exists l'; rewrite in_app_iff; auto].
      * intros [l' [i e]]. rewrite in_app_iff in i. destruct i as [i|[i|[]]]; [right; eauto|]. injection i as ->. left. exact e.
    + split.
      * intros [l [i e]]. exists l. rewrite in_app_iff. auto.
      * intros [l [i e]]. rewrite in_app_iff in i. destruct i as [i|[i|[]]]; [eauto|discriminate].
    + split.
      * intros [<-|[l' [i e]]]; [exists q; rewrite in_app_iff; cbn; auto|exists l'; rewrite in_app_iff; auto].
      * intros [l' [i e]]. rewrite in_app_iff in i. destruct i as [i|[i|[]]]; [right; eauto|]. injection i as ->. left. exact e.
Qed.

(** One call, exactly. *)
Lemma check_admissible : forall B (f : call -> B -> bool * B) root acc n b c, inv root acc n -> admissible root acc c ->
  exists n', names_checker f c (n, b) = (fst (f c b), (n', snd (f c b))) /\
    inv root (if fst (f c b) then acc ++ [c] else acc) n'.
Proof.
  intros B f root acc n b c I [a1 [a2 a3]].
  generalize (inv_snoc root acc n c I). destruct c as [l|q]; cbn [new_frame edge_name] in *; unfold names_checker; intro K.
  - rewrite (proj2 (known_body root acc n (l_parent l) I) a3).
    rewrite (nin_false _ _ (known_frame root acc n (l_body l) I) a1).
    rewrite (nin_false _ _ (known_transform root acc n (l_joint l) I) a2). cbn [negb].
    destruct (f (AddLink l) b) as [[] b']; cbn [fst snd]; eexists; split; try reflexivity; assumption.
  - rewrite (proj2 (known_frame root acc n (f_parent q) I) a3).
    rewrite (nin_false _ _ (known_frame root acc n (f_frame q) I) a1).
    rewrite (nin_false _ _ (known_transform root acc n (f_transform q) I) a2). cbn [negb].
    destruct (f (AddStaticFrame q) b) as [[] b']; cbn [fst snd]; eexists; split; try reflexivity; assumption.
Qed.

Lemma check_not_admissible : forall B (f : call -> B -> bool * B) root acc n b c, inv root acc n -> ~ admissible root acc c ->
  names_checker f c (n, b) = (false, (n, b)).
Proof.
  intros B f root acc n b c I a. destruct c as [l|q]; cbn [names_checker].
  - destruct (knownBody n (l_parent l)) eqn:E1; [|reflexivity]. cbn [negb].
    destruct (knownFrame n (l_body l)) eqn:E2; [reflexivity|].
    destruct (knownTransform n (l_joint l)) eqn:E3; [reflexivity|]. exfalso. apply a.
    split; [|split]; cbn [new_frame edge_name].
    + intro h. apply (known_frame root acc n) in h; [|exact I]. rewrite h in E2. discriminate.
    + intro h. apply (known_transform root acc n) in h; [|exact I]. rewrite h in E3. discriminate.
    + apply (known_body root acc n); assumption.
  - destruct (knownFrame n (f_parent q)) eqn:E1; [|reflexivity]. cbn [negb].
    destruct (knownFrame n (f_frame q)) eqn:E2; [reflexivity|].
    destruct (knownTransform n (f_transform q)) eqn:E3; [reflexivity|]. exfalso. apply a.
    split; [|split]; cbn [new_frame edge_name].
    + intro h. apply (known_frame root acc n) in h; [|exact I]. rewrite h in E2. discriminate.
    + intro h. apply (known_transform root acc n) in h; [|exact I]. rewrite h in E3. discriminate.
    + apply (known_frame root acc n); assumption.
Qed.

Lemma string_in_dec : forall (s : string) l, {In s l} + {~ In s l}.
Proof. exact (fun s l => in_dec string_dec s l). Qed.

Lemma admissible_dec : forall root (acc : list call) c n, inv root acc n -> admissible root acc c \/ ~ admissible root acc c.
Proof.
  intros root acc c n I. unfold admissible.
  destruct (string_in_dec (new_frame c) (root :: map new_frame acc)) as [i|i]; [right; tauto|].
  destruct (string_in_dec (edge_name c) (map edge_name acc)) as [j|j]; [right; tauto|].
  destruct c as [l|q].
  - destruct (knownBody n (l_parent l)) eqn:E.
    + left. split; [exact i|]. split; [exact j|]. apply (known_body root acc n); assumption.
    + right. intros [_ [_ h]]. apply (known_body root acc n) in h; [|exact I]. rewrite h in E. discriminate.
  - destruct (string_in_dec (f_parent q) (root :: map new_frame acc)); [left|right]; tauto.
Qed.

Lemma path_mono : forall root (cs ds : list call) f p, incl cs ds -> path root cs f p -> path root ds f p.
Proof.
  intros root cs ds f p h H. induction H as [|c p i H IH]; [apply path_root|]. apply path_step; [apply h; exact i|exact IH].
Qed.

Lemma new_frame_inj : forall (cs : list call), NoDup (map new_frame cs) ->
  forall c d, In c cs -> In d cs -> new_frame c = new_frame d -> c = d.
Proof.
  induction cs as [|a cs IH]; intros nd c d ic id e; [contradiction|].
  cbn [map] in nd. inversion nd as [|x l n1 n2]; subst. destruct ic as [<-|ic]; destruct id as [<-|id]; auto.
  - exfalso. apply n1. rewrite e. apply in_map. exact id.
  - exfalso. apply n1. rewrite <- e. apply in_map. exact ic.
Qed.

Lemma path_unique : forall root (cs : list call), NoDup (root :: map new_frame cs) ->
  forall f p, path root cs f p -> forall q, path root cs f q -> p = q.
Proof.
  intros root cs nd f p H. inversion nd as [|x l n1 n2]; subst.
  induction H as [|c p i H IH]; intros q Hq.
  - inversion Hq as [|c p' i' H' e]; [reflexivity|]. exfalso. apply n1. rewrite <- e. apply in_map. exact i'.
  - inversion Hq as [e|d p' i' H' e].
    + exfalso. apply n1. rewrite e. apply in_map. exact i.
    + assert (c = d) by (apply (new_frame_inj cs n2); auto). subst d. f_equal. apply IH. exact H'.
Qed.

Lemma tree_snoc : forall root (acc : list call) c, is_tree root acc -> admissible root acc c -> is_tree root (acc ++ [c]).
Proof.
  intros root acc c [t1 [t2 [t3 [t4 t5]]]] [a1 [a2 a3]].
  assert (N : NoDup (root :: map new_frame (acc ++ [c]))).
  { rewrite map_app. cbn [map]. apply (Permutation_NoDup (l := new_frame c :: root :: map new_frame acc)).
    - change (root :: map new_frame acc ++ [new_frame c]) with ((root :: map new_frame acc) ++ [new_frame c]).
      apply Permutation_cons_append.
    - constructor; assumption. }
  assert (S : incl acc (acc ++ [c])) by (intros x h; rewrite in_app_iff; auto).
  split; [exact N|]. split; [|split; [|split]].
  - rewrite map_app. cbn [map]. apply (Permutation_NoDup (l := edge_name c :: map edge_name acc)).
    + apply Permutation_cons_append.
    + constructor; assumption.
  - intros d h. rewrite in_app_iff in h. destruct h as [h|[<-|[]]].
    + destruct (t3 d h) as [p hp]. exists p. apply (path_mono root acc); assumption.
    + assert (K : exists p, path root acc (parent_of c) p).
      { assert (X : In (parent_of c) (root :: map new_frame acc)).
        { destruct c as [l|q]; cbn [parent_of] in *; [|exact a3].
          destruct a3 as [->|[l' [i e]]]; [left; reflexivity|]. right. rewrite <- e. apply (in_map new_frame acc (AddLink l')). exact i. }
        destruct X as [<-|X]; [exists []; apply path_root|]. apply in_map_iff in X. destruct X as [d [e i]]. rewrite <- e. apply t3. exact i. }
      destruct K as [p hp]. exists (parent_of c :: p). apply path_step; [rewrite in_app_iff; cbn; auto|].
      apply (path_mono root acc); assumption.
  - intros f p q hp hq. apply (path_unique root (acc ++ [c]) N f p hp q hq).
  - intros l h. rewrite in_app_iff in h. destruct h as [h|[h|[]]].
    + destruct (t5 l h) as [e|[l' [i e]]]; [auto|]. right. exists l'. rewrite in_app_iff. auto.
    + subst c. destruct a3 as [e|[l' [i e]]]; [auto|]. right. exists l'. rewrite in_app_iff. auto.
Qed.

Lemma accepted_cons : forall c (cs : list call) r rs,
  accepted (c :: cs) (r :: rs) = (if r then [c] else []) ++ accepted cs rs.
Proof. intros c cs [] rs; reflexivity. Qed.

Lemma run_inv : forall B (f : call -> B -> bool * B) root cs n b acc, inv root acc n -> is_tree root acc ->
  let '(rs, (n', b')) := run (names_checker f) cs (n, b) in
  inv root (acc ++ accepted cs rs) n' /\ is_tree root (acc ++ accepted cs rs) /\ length rs = length cs.
Proof.
  intros B f root cs. induction cs as [|c cs IH]; intros n b acc I t.
  - cbn. rewrite app_nil_r. auto.
  - cbn [run]. destruct (admissible_dec root acc c n I) as [a|a].
    + destruct (check_admissible B f root acc n b c I a) as [n1 [e J]]. rewrite e.
      destruct (f c b) as [r b1]. cbn [fst snd] in *.
      assert (t1 : is_tree root (if r then acc ++ [c] else acc)) by (destruct r; [apply tree_snoc|]; assumption).
      specialize (IH n1 b1 _ J t1). destruct (run (names_checker f) cs (n1, b1)) as [rs [n' b']].
      rewrite accepted_cons. cbn [length]. destruct IH as [k1 [k2 k3]]. rewrite k3.
      destruct r; [rewrite <- app_assoc in k1, k2|]; auto.
    + rewrite (check_not_admissible B f root acc n b c I a).
      specialize (IH n b _ I t). destruct (run (names_checker f) cs (n, b)) as [rs [n' b']].
      rewrite accepted_cons. cbn [length app]. destruct IH as [k1 [k2 k3]]. rewrite k3. auto.
Qed.

Lemma inv_init : forall root, inv root [] (names_init root).
Proof.
  intro root. unfold inv, names_init. cbn. split; [|split; [|split]]; intro s.
  - split; [intros [->|[]]; auto|]. intros [->|[l [[] _]]]. auto.
  - split; [contradiction|]. intros [q [[] _]].
  - split; [contradiction|]. intros [q [[] _]].
  - split; [contradiction|]. intros [q [[] _]].
Qed.

Lemma tree_nil : forall root, is_tree root (@nil call).
Proof.
  intro root. unfold is_tree. cbn. split; [repeat constructor; auto|]. split; [constructor|]. split; [contradiction|].
  split; [|contradiction]. intros f p q hp hq. apply (path_unique root [] ltac:(cbn; repeat constructor; auto) f p hp q hq).
Qed.

End Names.

Lemma C42_tree_proof : forall (T V M P B : Type) (f : call T V M P -> B -> bool * B) (root : string) (b : B) (cs : list (call T V M P)),
  let (rs, _) := run (names_checker f) cs (names_init root, b) in
  length rs = length cs /\ is_tree root (accepted cs rs).
Proof.
  intros T V M P B f root b cs. generalize (run_inv B f root cs _ b [] (inv_init root) (tree_nil root)).
  destruct (run (names_checker f) cs (names_init root, b)) as [rs [n' b']]. cbn [app]. tauto.
Qed.


Lemma C42_exact_proof : forall (T V M P B : Type) (f : call T V M P -> B -> bool * B) (root : string) (b : B) (cs : list (call T V M P)) c,
  let (rs, s) := run (names_checker f) cs (names_init root, b) in
  (admissible root (accepted cs rs) c ->
     fst (names_checker f c s) = fst (f c (snd s)) /\ snd (snd (names_checker f c s)) = snd (f c (snd s))) /\
  (~ admissible root (accepted cs rs) c -> names_checker f c s = (false, s)).
Proof.
  intros T V M P B f root b cs c. generalize (run_inv B f root cs _ b [] (inv_init root) (tree_nil root)).
  destruct (run (names_checker f) cs (names_init root, b)) as [rs [n' b']]. cbn [app]. intros [I _]. split; intro a.
  - destruct (check_admissible B f root _ n' b' c I a) as [n2 [e _]]. rewrite e. auto.
  - apply (check_not_admissible B f root _ n' b' c I a).
Qed.


Lemma C42_inner_failure_proof : forall (T V M P B : Type) (f : call T V M P -> B -> bool * B) (n : Names) (b : B) (c : call T V M P),
  fst (names_checker f c (n, b)) = false -> fst (snd (names_checker f c (n, b))) = n.
Proof.
  intros T V M P B f n b [l|q]; cbn [names_checker].
  - destruct (negb _); [reflexivity|]. destruct (knownFrame _ _); [reflexivity|]. destruct (knownTransform _ _); [reflexivity|].
    destruct (f (AddLink l) b) as [[] b']; cbn; [discriminate|reflexivity].
  - destruct (negb _); [reflexivity|]. destruct (knownFrame _ _); [reflexivity|]. destruct (knownTransform _ _); [reflexivity|].
    destruct (f (AddStaticFrame q) b) as [[] b']; cbn; [discriminate|reflexivity].
Qed.


Lemma C42_forwards_proof : forall (T V M P : Type) (root : string) (cs : list (call T V M P)),
  let '(rs, (_, received)) := run (names_checker recorder) cs (names_init root, []) in
  rev received = accepted cs rs.
Proof.
  intros T V M P root cs.
  assert (G : forall n b, let '(rs, (_, received)) := run (names_checker recorder) cs (n, b) in rev received = rev b ++ accepted cs rs).
  { induction cs as [|c cs IH]; intros n b; [cbn; rewrite app_nil_r; reflexivity|].
    cbn [run].
    assert (K : (exists n', names_checker recorder c (n, b) = (true, (n', c :: b))) \/ names_checker recorder c (n, b) = (false, (n, b))).
    { destruct c as [l|q]; cbn [names_checker]; destruct (negb _); auto; destruct (knownFrame _ _); auto; destruct (knownTransform _ _); auto;
      left; eexists; reflexivity. }
    destruct K as [[n' ->]| ->].
    - specialize (IH n' (c :: b)). destruct (run (names_checker recorder) cs (n', c :: b)) as [rs [n2 rc]].
      rewrite IH. cbn [rev]. rewrite <- app_assoc. reflexivity.
    - specialize (IH n b). destruct (run (names_checker recorder) cs (n, b)) as [rs [n2 rc]]. exact IH. }
  specialize (G (names_init root) []). destruct (run (names_checker recorder) cs (names_init root, [])) as [rs [n rc]]. exact G.
Qed.




Lemma C43_inertia_eraser_proof : forall (T V M P B : Type) (zero : M) (f : call T V M P -> B -> bool * B) (cs : list (call T V M P)) (b : B),
  let erase c := match c with
    | AddLink (mkLink p nb j h t (mkBodyMass m com _)) => AddLink (mkLink p nb j h t (mkBodyMass m com zero))
    | AddStaticFrame _ => c end in
  run (inertia_eraser zero f) cs b = run f (map erase cs) b.
Proof.
  intros T V M P B zero f cs. cbv zeta. induction cs as [|c cs IH]; intro b; [reflexivity|].
  cbn [run map]. destruct c as [[p nb j h t [m com i]]|q]; cbn [inertia_eraser erase_inertia l_parent l_body l_joint l_pose l_type l_mass bm_mass bm_com].
  - destruct (f _ b) as [r b']. rewrite IH. reflexivity.
  - destruct (f _ b) as [r b']. rewrite IH. reflexivity.
Qed.


Lemma C43_add_proof : forall (T V M P : Type) (cfg : Config) (parent name joint : string) (h : P) (t : JointType) (m : BodyMass T V M),
  add_link6 parent name h t m joint = [AddLink (mkLink parent name joint h t m)] /\
  add_link5 cfg parent name h t m = [AddLink (mkLink parent name (cfg_joint_name cfg name) h t m)] /\
  (cfg_no_static_frame cfg = true ->
     @add_frame4 T V M P cfg parent name h joint = [] /\ @add_frame3 T V M P cfg parent name h = []) /\
  (cfg_no_static_frame cfg = false ->
     @add_frame4 T V M P cfg parent name h joint = [AddStaticFrame (mkStaticFrame parent name joint h)] /\
     @add_frame3 T V M P cfg parent name h = [AddStaticFrame (mkStaticFrame parent name (cfg_joint_name cfg name) h)]).
Proof.
  intros T V M P cfg parent name joint h t m. split; [reflexivity|]. split; [reflexivity|].
  unfold add_frame3, add_frame4. split; intro e; rewrite e; auto.
Qed.


Lemma append_inj : forall a b s, (a ++ s)%string = (b ++ s)%string -> a = b.
Proof.
  assert (L : forall x y, String.length (x ++ y) = (String.length x + String.length y)%nat)
    by (induction x as [|c x IHx]; intro y; cbn; auto).
  induction a as [|c a IH]; intros [|d b] s h.
  - reflexivity.
  - exfalso. apply (f_equal String.length) in h. cbn in h. rewrite L in h. lia.
  - exfalso. apply (f_equal String.length) in h. cbn in h. rewrite L in h. lia.
  - cbn in h. injection h as -> h. f_equal. apply (IH b s h).
Qed.

Lemma C43_default_names_proof : forall a b : string,
  cfg_joint_name default_config a = cfg_joint_name default_config b -> a = b.
Proof. intros a b h. cbn in h. unfold default_joint_name in h. apply (append_inj a b "_joint"%string h). Qed.


Lemma C43_adapter_proof : forall (T V M P T' V' M' P' B : Type) ct cv cm cp
  (f : call T' V' M' P' -> B -> bool * B) (cs : list (call T V M P)) (b : B),
  let convert c := match c with
    | AddLink (mkLink p nb j h t (mkBodyMass m com i)) => AddLink (mkLink p nb j (cp h) t (mkBodyMass (ct m) (cv com) (cm i)))
    | AddStaticFrame (mkStaticFrame p nf s h) => AddStaticFrame (mkStaticFrame p nf s (cp h)) end in
  run (adapter ct cv cm cp f) cs b = run f (map convert cs) b.
Proof.
  intros T V M P T' V' M' P' B ct cv cm cp f cs. cbv zeta. induction cs as [|c cs IH]; intro b; [reflexivity|].
  cbn [run map]. unfold adapter at 1. destruct c as [[p nb j h t [m com i]]|[p nf s h]]; cbn [cast_call cast_mass l_parent l_body l_joint l_pose l_type l_mass bm_mass bm_com bm_inertia f_parent f_frame f_transform f_pose].
  - destruct (f _ b) as [r b']. rewrite IH. reflexivity.
  - destruct (f _ b) as [r b']. rewrite IH. reflexivity.
Qed.


Lemma C43_commute_proof : forall (T V M P B : Type) (zero : M) (f : call T V M P -> B -> bool * B) (cs : list (call T V M P)) s,
  run (names_checker (inertia_eraser zero f)) cs s = run (inertia_eraser zero (names_checker f)) cs s.
Proof.
  intros T V M P B zero f cs. induction cs as [|c cs IH]; intros [n b]; [reflexivity|].
  cbn [run]. assert (E : names_checker (inertia_eraser zero f) c (n, b) = inertia_eraser zero (names_checker f) c (n, b)).
  { destruct c as [l|q]; reflexivity. }
  rewrite E. destruct (inertia_eraser zero (names_checker f) c (n, b)) as [r s']. rewrite IH. reflexivity.
Qed.

(** * Lemmas for Props_Misc *)


From Coq Require Import String List Bool Permutation ZArith Reals Lra Lia.
Import ListNotations.
From Verif Require Import Scalar RInst Model_Base Model_Vec Model_Rigid Model_Urdf Model_Text Model_Misc.
From Verif Require Import Spec_Vec Spec_Urdf Spec_Misc.
From Verif Require Props_Urdf RLemmas Proofs_Urdf Proofs_Walk Proofs_Vectors Proofs_Collada.
Local Open Scope string_scope.

Section S.
Context {T : Type}.
Implicit Types j k : Joint T.

Lemma dot_edges_app : forall l1 l2 : list (Joint T), dot_edges (l1 ++ l2)%list = dot_edges l1 ++ dot_edges l2.
Proof.
  induction l1 as [|j l IH]; intros l2; cbn [dot_edges app]; [reflexivity|].
  rewrite IH. symmetry. apply Proofs_Collada.append_assoc.
Qed.

(** The calls on the printer. *)
Lemma dot_runs : forall (d : list (elem T)) v h v', well_connected d ->
  runs (fun _ => d) dot_discover dot_finish v h v' -> dot_indent v = false ->
  dot_indent v' = false /\ (forall n b, In (Disc n b) h -> b = true) /\
  exists l, incl l (joints d) /\ map (@j_name T) l = discovered h /\ dot_os v' = dot_os v ++ dot_edges l.
Proof.
  intros d v h v' w r. induction r as [v|v n j v1 b h v' hi hn e r IH|v n j v1 h v' hi hn e r IH]; intros hv.
  - split; [assumption|]. split; [contradiction|]. exists []. cbn. split; [now intros x|]. split; [reflexivity|].
    clear. induction (dot_os v) as [|c s IH]; cbn; [reflexivity|now rewrite <- IH].
  - unfold dot_discover in e. injection e as e1 e2. subst v1 b. rewrite hv in *. destruct (IH eq_refl) as [h1 [h2 [l [hl [hm ho]]]]].
    split; [assumption|]. split.
    { intros m c [hm'|hm']; [now injection hm'|]. exact (h2 m c hm'). }
    exists (j :: l). split; [intros x [<-|hx]; [assumption|now apply hl]|]. split; [cbn; now rewrite hn, hm|].
    rewrite ho. unfold dot_edges; fold (dot_edges l). unfold dot_edge, newline. cbn [dot_os].
    rewrite !Proofs_Collada.append_assoc. repeat (cbn [append]; rewrite ?Proofs_Collada.append_assoc). reflexivity.
  - unfold dot_finish in e. injection e as e1. subst v1. destruct (IH hv) as [h1 [h2 [l [hl [hm ho]]]]].
    split; [assumption|]. split.
    { intros m c [hm'|hm']; [discriminate|]. exact (h2 m c hm'). }
    exists l. auto.
Qed.

Lemma visits_df : forall all l h, visits (T := T) all l h -> incl l all -> (forall n b, In (Disc n b) h -> b = true) ->
  exists o, depth_first all l o /\ incl o all /\ map (@j_name T) o = discovered h.
Proof.
  intros all l h V. induction V as [|j js h1 h2 V1 IH1 V2 IH2|j js h V IH]; intros hl hb.
  - exists []. split; [constructor|]. split; [intros x []|reflexivity].
  - destruct IH1 as [o1 [d1 [i1 m1]]].
    { intros x hx. apply filter_In in hx. tauto. }
    { intros n b hn. apply (hb n b). right. apply in_or_app. now left. }
    destruct IH2 as [o2 [d2 [i2 m2]]].
    { intros x hx. apply hl. now right. }
    { intros n b hn. apply (hb n b). right. apply in_or_app. right. now right. }
    exists (j :: o1 ++ o2)%list. split; [now constructor|]. split.
    { intros x [<-|hx]; [apply hl; now left|]. apply in_app_or in hx. destruct hx; [now apply i1|now apply i2]. }
    cbn [map discovered flat_map app]. f_equal. unfold discovered. rewrite flat_map_app, map_app.
    cbn [flat_map app]. f_equal; assumption.
  - specialize (hb (j_name j) false (or_introl eq_refl)). discriminate.
Qed.

Lemma names_inj : forall (d : list (elem T)) l l', well_connected d -> incl l (joints d) -> incl l' (joints d) ->
  map (@j_name T) l = map (@j_name T) l' -> l = l'.
Proof.
  intros d l l' w. revert l'. induction l as [|j l IH]; intros [|j' l'] i i' e; try discriminate; [reflexivity|].
  cbn in e. injection e as e1 e2. f_equal.
  - apply (Proofs_Urdf.name_inj d j j' w); [apply i; now left|apply i'; now left|assumption].
  - apply IH; [| |assumption]; intros x hx; [apply i|apply i']; now right.
Qed.

Lemma dot_printed : forall (t : tree T) os, sound t -> exists v, dot_print t os = Ok v.
Proof.
  intros t os hs. unfold dot_print.
  destruct (Proofs_Walk.C46_ends_proof t (fun _ => t_doc t) dot_discover dot_finish (dot_new os) hs
    (fun _ _ _ _ h _ => h) (fun _ _ _ h _ => h) eq_refl) as [e|[h [v1 [j [_ [_ [[hd _]|[hd _]]]]]]]]; [exact e| |].
  - exfalso. eapply hd. reflexivity.
  - exfalso. eapply hd. reflexivity.
Qed.

Lemma dot_core : forall (t : tree T) os v, sound t -> dot_print t os = Ok v ->
  forall js, Permutation js (joints (t_doc t)) ->
  (forall l, children (t_doc t) (t_ix t) l = map (@j_name T) (filter (fun j => j_parent j =? l) js)) ->
  exists l, depth_first js (filter (fun j => j_parent j =? t_root t) js) l /\ dot_os v = os ++ dot_edges l.
Proof.
  intros t os v hs e js hp hc. unfold dot_print, traverse_joints in e.
  destruct (Proofs_Walk.walk_runs t dot_printer (fun _ => t_doc t) dot_discover dot_finish hs js hp hc
    (fun _ _ _ _ h _ => h) (fun _ _ _ h _ => h) _ _ _ _ eq_refl e) as [_ [h [r V]]].
  destruct (dot_runs (t_doc t) _ _ _ (sd_doc t hs) r eq_refl) as [_ [hb [l [hl [hm ho]]]]].
  destruct (visits_df _ _ _ V) as [o [hd [hi ho']]].
  - intros x hx. apply filter_In in hx. tauto.
  - exact hb.
  - exists o. split; [exact hd|]. rewrite (names_inj (t_doc t) o l (sd_doc t hs)); [exact ho| |exact hl|congruence].
    intros x hx. apply (Permutation_in _ hp). now apply hi.
Qed.

End S.

Lemma C64_text_proof : forall {T} (d : list (elem T)) t (os : string), ctor d = Ok t ->
  exists v l, dot_print t os = Ok v /\
    depth_first (joints d) (filter (fun j => j_parent j =? t_root t) (joints d)) l /\
    dot_os v = os ++ dot_edges l.
Proof.
  intros T d t os e.
  destruct (Proofs_Urdf.C44_or_throws_proof d) as [[_ [t' [e' [ed [_ hs]]]]]|[_ e']]; [|congruence].
  rewrite e in e'. injection e' as <-.
  assert (hi : forall l, children (t_doc t) (t_ix t) l = map (@j_name T) (filter (fun j => j_parent j =? l) (joints d))).
  { destruct (Proofs_Urdf.ctor_eq d) as [[[w _] [r [_ e']]]|[_ e']]; [|congruence]. rewrite e in e'. injection e' as ->. cbn.
    intros l. now apply Proofs_Walk.index_children. }
  subst d. destruct (dot_printed t os hs) as [v ev].
  destruct (dot_core t os v hs ev (joints (t_doc t)) (Permutation_refl _) hi) as [l [h1 h2]].
  exists v, l. auto.
Qed.


Lemma C64_edited_proof : forall {T} (t : tree T) (os : string), sound t ->
  exists v l js, dot_print t os = Ok v /\ Permutation js (joints (t_doc t)) /\
    depth_first js (filter (fun j => j_parent j =? t_root t) js) l /\
    dot_os v = os ++ dot_edges l.
Proof.
  intros T t os hs. destruct (dot_printed t os hs) as [v ev].
  destruct (Proofs_Walk.resolve (t_doc t) (t_ix t) (sd_doc t hs) (sd_index t hs)) as [js [hp [_ hc]]].
  destruct (dot_core t os v hs ev js hp hc) as [l [h1 h2]]. exists v, l, js. auto.
Qed.


Lemma C64_every_joint_proof : forall {T} (t : tree T) (os : string), sound t -> (forall c, ~ above (t_doc t) c c) ->
  exists v l, dot_print t os = Ok v /\ Permutation l (joints (t_doc t)) /\ dot_os v = os ++ dot_edges l.
Proof.
  intros T t os hs hl. destruct (dot_printed t os hs) as [v ev].
  destruct (Proofs_Walk.C46_every_joint_proof t (fun _ => t_doc t) dot_discover dot_finish (dot_new os) v hs hl) as [h [r [hp _]]].
  - intros u j u' b hu e. unfold dot_discover in e. injection e as <- <-. split; [assumption|reflexivity].
  - intros u j u' hu _. exact hu.
  - reflexivity.
  - exact ev.
  - destruct (dot_runs (t_doc t) _ _ _ (sd_doc t hs) r eq_refl) as [_ [_ [l [hi [hm ho]]]]].
    exists v, l. split; [assumption|]. split; [|assumption].
    assert (hnd : NoDup (joint_names (t_doc t))) by apply (sd_doc t hs).
    apply NoDup_Permutation.
    + apply (NoDup_map_inv (@j_name T)). rewrite hm. apply (Permutation_NoDup (Permutation_sym hp)). assumption.
    + apply (NoDup_map_inv (@j_name T)). assumption.
    + intros x. split; [apply hi|]. intros hx.
      assert (hn : In (j_name x) (map (@j_name T) l)).
      { rewrite hm. apply (Permutation_in _ (Permutation_sym hp)). unfold joint_names. now apply in_map. }
      apply in_map_iff in hn. destruct hn as [y [ey hy]].
      rewrite <- (Proofs_Urdf.name_inj (t_doc t) y x (sd_doc t hs) (hi y hy) hx ey). assumption.
Qed.


Lemma split_at : forall c p1 p2 r1 r2, without_char c p1 -> without_char c p2 ->
  p1 ++ String c r1 = p2 ++ String c r2 -> p1 = p2 /\ r1 = r2.
Proof.
  intros c. induction p1 as [|a p1 IH]; intros [|b p2] r1 r2 h1 h2 e; cbn in e.
  - injection e as e. auto.
  - injection e as e1 e2. exfalso. apply (h2 "" p2). now rewrite e1.
  - injection e as e1 e2. exfalso. apply (h1 "" p1). now rewrite e1.
  - injection e as -> e. destruct (IH p2 r1 r2) as [e1 e2].
    + intros x y ex. apply (h1 (String b x) y). cbn. now rewrite ex.
    + intros x y ex. apply (h2 (String b x) y). cbn. now rewrite ex.
    + exact e.
    + now rewrite e1, e2.
Qed.

Lemma append_inj_r : forall a b s : string, a ++ s = b ++ s -> a = b.
Proof.
  assert (hl : forall a s : string, String.length (a ++ s) = (String.length a + String.length s)%nat).
  { induction a as [|x a IH]; intros s; cbn; [reflexivity|now rewrite IH]. }
  induction a as [|x a IH]; intros [|y b] s e; cbn in e.
  - reflexivity.
  - exfalso. pose proof (f_equal String.length e) as h. cbn in h. rewrite hl in h. lia.
  - exfalso. pose proof (f_equal String.length e) as h. cbn in h. rewrite hl in h. lia.
  - injection e as -> e. now rewrite (IH b s e).
Qed.

Lemma without_app : forall c a b, without_char c a -> without_char c b -> without_char c (a ++ b).
Proof.
  intros c. induction a as [|x a IH]; intros b ha hb u v e; [exact (hb u v e)|].
  destruct u as [|y u]; cbn in e; injection e as e1 e2.
  - apply (ha "" a). now rewrite e1.
  - refine (IH b _ hb u v e2). intros p q ep. apply (ha (String x p) q). cbn. now rewrite ep.
Qed.

Lemma without_bracket : without_char line_feed "];".
Proof.
  intros [|a [|b [|c s]]] q e; cbn in e; discriminate.
Qed.

Lemma edges_inj : forall {T T'} (l : list (Joint T)) (l' : list (Joint T')),
  (forall j, In j l -> without_char space (j_parent j) /\ without_char space (j_child j) /\ without_char line_feed (j_name j)) ->
  (forall j, In j l' -> without_char space (j_parent j) /\ without_char space (j_child j) /\ without_char line_feed (j_name j)) ->
  dot_edges l = dot_edges l' -> map edge l = map edge l'.
Proof.
  intros T T'. induction l as [|j l IH]; intros [|j' l'] h h' e.
  - reflexivity.
  - exfalso. cbn in e. unfold dot_edge in e. destruct (j_parent j'); discriminate.
  - exfalso. cbn in e. unfold dot_edge in e. destruct (j_parent j); discriminate.
  - destruct (h j (or_introl eq_refl)) as [a1 [a2 a3]]. destruct (h' j' (or_introl eq_refl)) as [b1 [b2 b3]].
    cbn [dot_edges] in e. unfold dot_edge in e. rewrite !Proofs_Collada.append_assoc in e. cbn [append] in e.
    apply split_at in e; [|assumption|assumption]. destruct e as [e1 e].
    injection e as e. apply split_at in e; [|assumption|assumption]. destruct e as [e2 e].
    injection e as e.
    change (j_name j ++ "];" ++ String line_feed (dot_edges l) = j_name j' ++ "];" ++ String line_feed (dot_edges l')) in e.
    rewrite <- !Proofs_Collada.append_assoc in e.
    apply split_at in e; [|now apply without_app; [|apply without_bracket]|now apply without_app; [|apply without_bracket]].
    destruct e as [e3 e]. apply append_inj_r in e3.
    cbn [map]. unfold edge at 1 3. rewrite e1, e2, e3. f_equal.
    apply IH; [intros x hx; apply h; now right|intros x hx; apply h'; now right|exact e].
Qed.

Lemma C64_read_back_proof : forall {T T'} (t : tree T) (t' : tree T') (os : string) v v',
  sound t -> sound t' -> (forall c, ~ above (t_doc t) c c) -> (forall c, ~ above (t_doc t') c c) ->
  plain_names (t_doc t) -> plain_names (t_doc t') ->
  dot_print t os = Ok v -> dot_print t' os = Ok v' -> dot_os v = dot_os v' ->
  Permutation (map edge (joints (t_doc t))) (map edge (joints (t_doc t'))).
Proof.
  intros T T' t t' os v v' hs hs' hl hl' hp hp' e e' eo.
  destruct (C64_every_joint_proof t os hs hl) as [w [l [ew [pl ho]]]]. rewrite e in ew. injection ew as <-.
  destruct (C64_every_joint_proof t' os hs' hl') as [w' [l' [ew' [pl' ho']]]]. rewrite e' in ew'. injection ew' as <-.
  rewrite ho, ho' in eo. apply Proofs_Collada.append_inj in eo.
  assert (em : map edge l = map edge l').
  { apply edges_inj; [| |exact eo].
    - intros j hj. apply hp. now apply (Permutation_in _ pl).
    - intros j hj. apply hp'. now apply (Permutation_in _ pl'). }
  apply (Permutation_trans (Permutation_sym (Permutation_map edge pl))). rewrite em. now apply Permutation_map.
Qed.


Lemma C64_names_refuted_proof : exists (d d' : list (elem nat)) t t' v v', ctor d = Ok t /\ ctor d' = Ok t' /\
  dot_print t "" = Ok v /\ dot_print t' "" = Ok v' /\ dot_os v = dot_os v' /\
  List.length (joints d) = 2%nat /\ List.length (joints d') = 1%nat.
Proof.
  exists [ELink (mkLink "a" None [] []); ELink (mkLink "b" None [] []); ELink (mkLink "c" None [] []);
    EJoint (mkJoint "j" "fixed" "a" "b" None None None); EJoint (mkJoint "k" "fixed" "a" "c" None None None)].
  exists [ELink (mkLink "a" None [] []); ELink (mkLink "b" None [] []);
    EJoint (mkJoint ("j];" ++ newline ++ "a -> c [label=k") "fixed" "a" "b" None None None)].
  do 4 eexists. split; [vm_compute; reflexivity|]. split; [vm_compute; reflexivity|].
  split; [vm_compute; reflexivity|]. split; [vm_compute; reflexivity|].
  split; [vm_compute; reflexivity|]. split; reflexivity.
Qed.


(** ** Types of joints *)

Section S2.
Context {T : Type}.
Implicit Types d : list (elem T).

Lemma mem_iff : forall s l, mem s l = true <-> In s l.
Proof.
  intros s l. unfold mem. rewrite existsb_exists. split.
  - intros [x [hx e]]. apply String.eqb_eq in e. now subst.
  - intros h. exists s. split; [assumption|apply String.eqb_refl].
Qed.

Lemma retyped_nil : forall d ty, retyped d [] ty = d.
Proof.
  intros d ty. unfold retyped. rewrite <- (map_id d) at 2. apply map_ext. intros [l|j|o]; reflexivity.
Qed.

Lemma upd_one : forall d n ty, upd_joint d n (fun k => set_type k ty) = retyped d [n] ty.
Proof.
  intros d n ty. unfold upd_joint, retyped. apply map_ext. intros [l|j|o]; try reflexivity.
  cbn [mem existsb]. rewrite orb_false_r. reflexivity.
Qed.

Lemma retyped_snoc : forall d L n ty, upd_joint (retyped d L ty) n (fun k => set_type k ty) = retyped d (L ++ [n])%list ty.
Proof.
  intros d L n ty. unfold upd_joint, retyped. rewrite map_map. apply map_ext. intros [l|j|o]; try reflexivity.
  assert (em : mem (j_name j) (L ++ [n])%list = (mem (j_name j) L || (j_name j =? n))%bool).
  { unfold mem. rewrite existsb_app. cbn [existsb]. now rewrite orb_false_r. }
  rewrite em. destruct (mem (j_name j) L); cbn [orb j_name].
  - destruct (j_name j =? n); [|reflexivity]. unfold set_type. reflexivity.
  - destruct (j_name j =? n); reflexivity.
Qed.

Lemma joints_retyped : forall d L ty, joints (retyped d L ty) = map (fun j => if mem (j_name j) L
  then mkJoint (j_name j) ty (j_parent j) (j_child j) (j_origin j) None (j_mimic j) else j) (joints d).
Proof.
  induction d as [|[l|j|o] d IH]; intros L ty; cbn; try apply IH; [reflexivity|].
  destruct (mem (j_name j) L); cbn; f_equal; apply IH.
Qed.

Lemma in_retyped_fresh : forall d L ty j, In j (joints (retyped d L ty)) -> ~ In (j_name j) L -> In j (joints d).
Proof.
  intros d L ty j h hn. rewrite joints_retyped in h. apply in_map_iff in h. destruct h as [k [e hk]].
  destruct (mem (j_name k) L) eqn:em; [|now subst]. exfalso. apply hn. rewrite <- e. cbn. now apply mem_iff.
Qed.

Lemma retyped_graph : forall d L ty, same_graph d (retyped d L ty).
Proof.
  intros d L ty. unfold same_graph. rewrite joints_retyped, map_map. apply map_ext. intros j.
  destruct (mem (j_name j) L); reflexivity.
Qed.

Lemma links_retyped : forall d L ty, links (retyped d L ty) = links d.
Proof.
  induction d as [|[l|j|o] d IH]; intros L ty; cbn.
  - reflexivity.
  - f_equal. apply IH.
  - destruct (mem (j_name j) L); cbn; apply IH.
  - apply IH.
Qed.

Lemma retyped_ext : forall d L L' ty, (forall j, In j (joints d) -> In (j_name j) L <-> In (j_name j) L') ->
  retyped d L ty = retyped d L' ty.
Proof.
  induction d as [|e d IH]; intros L L' ty h; [reflexivity|]. unfold retyped in *. cbn [map]. f_equal.
  - destruct e as [l|j|o]; try reflexivity. specialize (h j (or_introl eq_refl)).
    replace (mem (j_name j) L') with (mem (j_name j) L); [reflexivity|].
    apply eq_true_iff_eq. now rewrite !mem_iff.
  - apply IH. intros j hj. apply h. destruct e; cbn; tauto.
Qed.

Lemma sound_retyped : forall (t : tree T) L ty, sound t -> sound (mkTree (retyped (t_doc t) L ty) (t_ix t) (t_root t)).
Proof.
  intros t L ty hs. pose proof (retyped_graph (t_doc t) L ty) as hg. unfold same_graph in hg.
  assert (en : joint_names (retyped (t_doc t) L ty) = joint_names (t_doc t)).
  { unfold joint_names. apply (f_equal (map (fun x : string * string * string => fst (fst x)))) in hg. now rewrite !map_map in hg. }
  assert (ec : map (@j_child T) (joints (retyped (t_doc t) L ty)) = map (@j_child T) (joints (t_doc t))).
  { apply (f_equal (map (fun x : string * string * string => snd x))) in hg. now rewrite !map_map in hg. }
  assert (el : link_names (retyped (t_doc t) L ty) = link_names (t_doc t)) by (unfold link_names; now rewrite links_retyped).
  destruct hs as [[w1 w2 w3 w4] hr hi]. split; cbn [t_doc t_ix t_root].
  - split; [now rewrite el|now rewrite en|now rewrite ec|].
    intros j hj. rewrite el. rewrite joints_retyped in hj. apply in_map_iff in hj. destruct hj as [k [<- hk]].
    destruct (mem (j_name k) L); apply (w4 k hk).
  - intros r. rewrite <- hr. unfold is_root. rewrite el.
    assert (hh : forall e : list (elem T), (forall j, In j (joints e) -> j_child j <> r) <-> ~ In r (map (@j_child T) (joints e))).
    { intros e. rewrite in_map_iff. split; [intros h [j [e1 h1]]; now apply (h j)|intros h j h1 e1; apply h; eauto]. }
    rewrite !hh, ec. reflexivity.
  - now rewrite en.
Qed.

Lemma type_known : forall s, known_type s <-> type_of s <> None.
Proof.
  intros s. unfold known_type, type_of. cbn [In]. split.
  - intros [<-|[<-|[<-|[<-|[<-|[<-|[]]]]]]]; discriminate.
  - intros h. repeat match type of h with context [if ?a =? ?b then _ else _] =>
      let E := fresh "E" in destruct (a =? b) eqn:E; [apply String.eqb_eq in E; subst; tauto|] end.
    now elim h.
Qed.

Lemma type_continuous : forall s, type_of s = Some continuous <-> s = "continuous".
Proof.
  intros s. unfold type_of. split; [|now intros ->].
  intros h. repeat match type of h with context [if ?a =? ?b then _ else _] =>
      let E := fresh "E" in destruct (a =? b) eqn:E; [apply String.eqb_eq in E; subst; try discriminate h; try reflexivity|] end.
  discriminate.
Qed.

Notation fin := (fun (v : list (elem T) * list string) (_ : Joint T) => Ok v).

Lemma mcf_runs : forall d v h v', well_connected d -> runs fst mcf_discover fin v h v' ->
  forall L, v = (retyped d L "fixed", L) -> NoDup (discovered h) -> (forall n, In n L -> ~ In n (discovered h)) ->
  (forall j, In j (joints d) -> In (j_name j) (discovered h) -> known_type (j_type j)) /\
  (forall n b, In (Disc n b) h -> b = true) /\
  exists L', v' = (retyped d (L ++ L')%list "fixed", (L ++ L')%list) /\ NoDup L' /\ incl L' (discovered h) /\
    (forall j, In j (joints d) -> (In (j_name j) L' <-> In (j_name j) (discovered h) /\ j_type j = "continuous")) /\
    (forall n, In n L' -> In n (joint_names d)).
Proof.
  intros d v h v' w r. induction r as [v|v n j v1 b h v' hi hn e r IH|v n j v1 h v' hi hn e r IH]; intros L ev nd hd.
  - split; [intros j _ []|]. split; [intros n b []|]. exists []. rewrite app_nil_r. split; [assumption|]. split; [constructor|].
    split; [intros x []|]. split; [|intros n []]. intros j _. split; [intros []|intros [[] _]].
  - change (discovered (Disc n b :: h)) with (n :: discovered h) in *.
    inversion nd as [|? ? nn nd']; subst x l.
    assert (nL : ~ In n L) by (intros hL; apply (hd n hL); now left).
    subst v. cbn [fst] in hi. assert (hj : In j (joints d)) by (apply (in_retyped_fresh d L "fixed"); [assumption|now rewrite hn]).
    unfold mcf_discover in e. cbn [fst snd] in e.
    destruct (type_of (j_type j)) as [ty|] eqn:et; [|discriminate].
    assert (hk : known_type (j_type j)) by (apply type_known; congruence).
    assert (huniq : forall k, In k (joints d) -> j_name k = n -> k = j)
      by (intros k hk' e'; apply (Proofs_Urdf.name_inj d k j w hk' hj); congruence).
    destruct (string_dec (j_type j) "continuous") as [ec|ec].
    + assert (ty = continuous) as -> by (apply type_continuous in ec; congruence).
      injection e as e1 e2. subst b v1. rewrite retyped_snoc, hn in IH.
      destruct (IH (L ++ [n])%list eq_refl nd') as [k1 [k2 [L' [k3 [k4 [k5 [k6 k7]]]]]]].
      { intros m hm hm'. apply in_app_or in hm. destruct hm as [hm|[<-|[]]]; [|contradiction]. apply (hd m hm). now right. }
      split. { intros k hk' [e'|e']; [rewrite (huniq k hk' (eq_sym e')); assumption|now apply k1]. }
      split. { intros m c [hm|hm]; [congruence|]. exact (k2 m c hm). }
      exists (n :: L'). rewrite <- app_assoc in k3. cbn [app] in k3. split; [assumption|].
      split; [constructor; [intros hx; apply nn; now apply k5|assumption]|].
      split; [intros x [<-|hx]; [now left|right; now apply k5]|]. split.
      * intros k hk'. cbn [In]. rewrite (k6 k hk'). split.
        -- intros [e'|[e' e'']]; [split; [now left|now rewrite (huniq k hk' (eq_sym e'))]|auto].
        -- intros [[e'|e'] e'']; auto.
      * intros m [<-|hm]; [|now apply k7]. unfold joint_names. rewrite <- hn. now apply in_map.
    + assert (e' : (retyped d L "fixed", L, true) = (v1, b)).
      { destruct ty; try (injection e as e1 e2; now subst). exfalso. apply ec. now apply type_continuous. }
      injection e' as e1 e2. subst b v1. destruct (IH L eq_refl nd') as [k1 [k2 [L' [k3 [k4 [k5 [k6 k7]]]]]]].
      { intros m hm hm'. apply (hd m hm). now right. }
      split. { intros k hk' [e'|e']; [rewrite (huniq k hk' (eq_sym e')); assumption|now apply k1]. }
      split. { intros m c [hm|hm]; [congruence|]. exact (k2 m c hm). }
      exists L'. split; [assumption|]. split; [assumption|]. split; [intros x hx; right; now apply k5|]. split; [|assumption].
      intros k hk'. rewrite (k6 k hk'). cbn [In]. split; [tauto|]. intros [[e'|e'] e'']; [|tauto].
      exfalso. apply ec. now rewrite <- (huniq k hk' (eq_sym e')).
  - injection e as <-. change (discovered (Fin n :: h)) with (discovered h) in *.
    destruct (IH L ev nd hd) as [k1 [k2 k3]]. split; [assumption|]. split; [|assumption].
    intros m c [hm|hm]; [discriminate|]. exact (k2 m c hm).
Qed.

Lemma mcf_graph : forall d (u : list (elem T) * list string) j u' b, same_graph d (fst u) -> mcf_discover u j = Ok (u', b) -> same_graph d (fst u').
Proof.
  intros d u j u' b h e. unfold mcf_discover in e. destruct (type_of (j_type j)) as [[]|]; try discriminate; injection e as <- _; try exact h.
  cbn [fst]. rewrite upd_one. unfold same_graph in *. rewrite h. apply retyped_graph.
Qed.

Lemma mcf_ok : forall (t : tree T) t' names, sound t -> makeContinuousJointsFixed t = Ok (t', names) ->
  (forall j, reached t j -> known_type (j_type j)) /\ NoDup names /\
  (forall n, In n names <-> exists j, reached t j /\ j_name j = n /\ j_type j = "continuous") /\
  t_doc t' = retyped (t_doc t) names "fixed" /\ t_root t' = t_root t /\ sound t'.
Proof.
  intros t t' names hs e. unfold makeContinuousJointsFixed in e.
  destruct (traverse_joints t fst mcf_discover fin (t_doc t, [])) as [v| | |] eqn:ew; try discriminate.
  cbn in e. injection e as et en.
  destruct (Proofs_Walk.C46_once_proof t fst mcf_discover fin (t_doc t, []) v hs) as [h [r [nd [_ [hw [hp _]]]]]].
  - intros u j u' b. apply mcf_graph.
  - intros u j u' hu eu. injection eu as <-. exact hu.
  - reflexivity.
  - exact ew.
  - destruct (mcf_runs (t_doc t) _ h v (sd_doc t hs) r []) as [k1 [k2 [L [k3 [k4 [k5 [k6 k7]]]]]]].
    + now rewrite retyped_nil.
    + assumption.
    + intros n [].
    + cbn [app] in k3. subst v. cbn [fst snd] in *. subst t' L.
      assert (hall : forall p l, path (t_doc t) (t_root t) p l -> forall k, In k p -> In (j_name k) (discovered h)).
      { induction p as [|x q IH] using rev_ind; intros l hq k hk; [contradiction|].
        pose proof hq as hq'. apply Proofs_Urdf.path_snoc_inv in hq'. destruct hq' as [-> [_ hq']].
        apply in_app_or in hk. destruct hk as [hk|[<-|[]]]; [exact (IH _ hq' k hk)|].
        apply (hw q x hq). intros y hy. pose proof (IH _ hq' y hy) as hd.
        unfold discovered in hd. apply in_flat_map in hd. destruct hd as [[m b|m] [h1 h2]]; [|contradiction].
        destruct h2 as [<-|[]]. now rewrite (k2 m b h1) in h1. }
      assert (hr : forall j, reached t j -> In j (joints (t_doc t)) /\ In (j_name j) (discovered h)).
      { intros j [p hj]. split; [apply Proofs_Urdf.path_snoc_inv in hj; tauto|].
        apply (hall _ _ hj). apply in_or_app. right. now left. }
      split; [intros j hj; destruct (hr j hj); now apply k1|]. split; [assumption|]. split.
      * intros n. split.
        -- intros hn. destruct (hp n (k5 n hn)) as [p [j [hj <-]]]. exists j. split; [now exists p|]. split; [reflexivity|].
           apply k6; [|assumption]. apply Proofs_Urdf.path_snoc_inv in hj; tauto.
        -- intros [j [hj [<- ec]]]. destruct (hr j hj). now apply k6.
      * cbn [t_doc t_root]. split; [reflexivity|]. split; [reflexivity|]. now apply sound_retyped.
Qed.

End S2.

Lemma C65_one_proof : forall {T} (t : tree T) n, sound t ->
  (In n (joint_names (t_doc t)) ->
     makeJointFixed t n = Ok (mkTree (retyped (t_doc t) [n] "fixed") (t_ix t) (t_root t)) /\
     makeJointFloating t n = Ok (mkTree (retyped (t_doc t) [n] "floating") (t_ix t) (t_root t)) /\
     sound (mkTree (retyped (t_doc t) [n] "fixed") (t_ix t) (t_root t)) /\
     sound (mkTree (retyped (t_doc t) [n] "floating") (t_ix t) (t_root t))) /\
  (~ In n (joint_names (t_doc t)) -> makeJointFixed t n = Throw /\ makeJointFloating t n = Throw).
Proof.
  intros T t n hs. unfold makeJointFixed, makeJointFloating. rewrite !upd_one.
  destruct (find_joint (t_doc t) n) as [j|] eqn:ef.
  - assert (hj : In n (joint_names (t_doc t))).
    { apply (Proofs_Urdf.find_joint_iff _ _ _ (sd_doc t hs)) in ef. destruct ef as [h1 <-]. unfold joint_names. now apply in_map. }
    split; [|contradiction]. intros _. split; [reflexivity|]. split; [reflexivity|]. split; now apply sound_retyped.
  - split; [|now split]. intros hn. exfalso. unfold joint_names in hn. apply in_map_iff in hn. destruct hn as [j [e hj]].
    assert (find_joint (t_doc t) n = Some j) by (apply (Proofs_Urdf.find_joint_iff _ _ _ (sd_doc t hs)); auto). congruence.
Qed.


Lemma C65_continuous_proof : forall {T} (t : tree T), sound t ->
  (forall j, In j (joints (t_doc t)) -> known_type (j_type j)) ->
  exists t' names, makeContinuousJointsFixed t = Ok (t', names) /\ NoDup names /\
    (forall n, In n names <-> exists j, reached t j /\ j_name j = n /\ j_type j = "continuous") /\
    t_doc t' = retyped (t_doc t) names "fixed" /\ t_root t' = t_root t /\ sound t'.
Proof.
  intros T t hs hk.
  assert (hex : exists r, makeContinuousJointsFixed t = Ok r).
  { unfold makeContinuousJointsFixed.
    destruct (Proofs_Walk.C46_ends_proof t fst mcf_discover (fun v _ => Ok v) (t_doc t, []) hs) as [[v e]|[h [v1 [j [hr [hj hx]]]]]].
    - intros u j u' b. apply mcf_graph.
    - intros u j u' hu eu. injection eu as <-. exact hu.
    - reflexivity.
    - rewrite e. cbn. eauto.
    - exfalso.
      assert (hinv : forall v h v', runs (T := T) fst mcf_discover (fun v _ => Ok v) v h v' ->
        (forall j, In j (joints (fst v)) -> known_type (j_type j)) -> forall j, In j (joints (fst v')) -> known_type (j_type j)).
      { clear. intros v h v' r. induction r as [v|v n j v1 b h v' hi hn e r IH|v n j v1 h v' hi hn e r IH]; intros hv.
        - exact hv.
        - apply IH. unfold mcf_discover in e. destruct (type_of (j_type j)) as [[]|]; try discriminate; injection e as <- _; try exact hv.
          cbn [fst]. rewrite upd_one, joints_retyped. intros k hk. apply in_map_iff in hk. destruct hk as [k' [<- hk]].
          destruct (mem (j_name k') [j_name j]); [cbn; tauto|now apply hv].
        - injection e as <-. now apply IH. }
      assert (hkj := hinv _ _ _ hr hk j hj). apply type_known in hkj.
      destruct hx as [[hx _]|[hx _]].
      + unfold mcf_discover in hx. destruct (type_of (j_type j)) as [[]|]; try (eapply hx; reflexivity). now apply hkj.
      + eapply hx. reflexivity. }
  destruct hex as [[t' names] e]. exists t', names. split; [exact e|].
  exact (proj2 (mcf_ok t t' names hs e)).
Qed.


Lemma C65_throws_proof : forall {T} (t : tree T) j, sound t -> reached t j -> ~ known_type (j_type j) ->
  makeContinuousJointsFixed t = Throw.
Proof.
  intros T t j hs hr hk.
  destruct (makeContinuousJointsFixed t) as [[t' names]| | |] eqn:e; [|reflexivity| |]; exfalso.
  - apply hk. exact (proj1 (mcf_ok t t' names hs e) j hr).
  - unfold makeContinuousJointsFixed in e.
    destruct (Proofs_Walk.C46_ends_proof t fst mcf_discover (fun v _ => Ok v) (t_doc t, []) hs) as [[v ev]|[h [v1 [k [_ [_ hx]]]]]].
    + intros u i u' b. apply mcf_graph.
    + intros u i u' hu eu. injection eu as <-. exact hu.
    + reflexivity.
    + rewrite ev in e. discriminate.
    + destruct (traverse_joints t fst mcf_discover (fun v _ => Ok v) (t_doc t, [])) as [v| | |]; try discriminate.
      destruct hx as [[_ hx]|[_ hx]]; cbn in hx; [|discriminate].
      unfold mcf_discover in hx. destruct (type_of (j_type k)) as [[]|]; discriminate.
  - unfold makeContinuousJointsFixed in e.
    destruct (Proofs_Walk.C46_ends_proof t fst mcf_discover (fun v _ => Ok v) (t_doc t, []) hs) as [[v ev]|[h [v1 [k [_ [_ hx]]]]]].
    + intros u i u' b. apply mcf_graph.
    + intros u i u' hu eu. injection eu as <-. exact hu.
    + reflexivity.
    + rewrite ev in e. discriminate.
    + destruct (traverse_joints t fst mcf_discover (fun v _ => Ok v) (t_doc t, [])) as [v| | |]; try discriminate.
      destruct hx as [[_ hx]|[_ hx]]; cbn in hx; [|discriminate].
      unfold mcf_discover in hx. destruct (type_of (j_type k)) as [[]|]; discriminate.
Qed.


Lemma C65_idempotent_proof : forall {T} (t : tree T) t' names, sound t ->
  (forall j, In j (joints (t_doc t)) -> known_type (j_type j)) ->
  makeContinuousJointsFixed t = Ok (t', names) -> makeContinuousJointsFixed t' = Ok (t', []).
Proof.
  intros T t t' names hs hk e. destruct (mcf_ok t t' names hs e) as [_ [nd [hn [ed [er hs']]]]].
  assert (hk' : forall j, In j (joints (t_doc t')) -> known_type (j_type j)).
  { intros j hj. rewrite ed, joints_retyped in hj. apply in_map_iff in hj. destruct hj as [k [<- hj]].
    destruct (mem (j_name k) names); [cbn; tauto|now apply hk]. }
  destruct (C65_continuous_proof t' hs' hk') as [t2 [names2 [e2 [nd2 [hn2 [ed2 [er2 hs2]]]]]]].
  assert (en : names2 = []).
  { destruct names2 as [|n l]; [reflexivity|]. exfalso.
    destruct (proj1 (hn2 n) (or_introl eq_refl)) as [j [[p hp] [_ ec]]].
    assert (hj : In j (joints (t_doc t'))) by (apply Proofs_Urdf.path_snoc_inv in hp; tauto).
    assert (hpath : forall q l, path (t_doc t') (t_root t') q l -> exists q', path (t_doc t) (t_root t) q' l).
    { intros q l0 hq. induction hq as [|q k hq IH hk0]; [rewrite er; exists []; constructor|].
      destruct IH as [q' hq']. rewrite ed, joints_retyped in hk0. apply in_map_iff in hk0. destruct hk0 as [k' [<- hk0]].
      exists (q' ++ [k'])%list. replace (j_child _) with (j_child k') by (destruct (mem (j_name k') names); reflexivity).
      constructor; [|assumption]. destruct (mem (j_name k') names); exact hq'. }
    pose proof hj as hj'. rewrite ed, joints_retyped in hj'. apply in_map_iff in hj'. destruct hj' as [k [ek hk0]].
    destruct (mem (j_name k) names) eqn:em; [subst j; discriminate ec|]. subst j.
    assert (hin : In (j_name k) names).
    { apply hn. exists k. split; [|auto]. pose proof hp as hp'. apply Proofs_Urdf.path_snoc_inv in hp'. destruct hp' as [_ [_ hp']].
      destruct (hpath _ _ hp') as [q hq]. exists q. now constructor. }
    apply mem_iff in hin. congruence. }
  subst names2. rewrite e2. f_equal. f_equal.
  unfold makeContinuousJointsFixed in e2.
  destruct (traverse_joints t' fst mcf_discover (fun v _ => Ok v) (t_doc t', [])) as [v| | |]; try discriminate.
  cbn in e2. injection e2 as <- _. cbn [t_doc t_root] in *. rewrite retyped_nil in ed2. rewrite ed2. now destruct t'.
Qed.


Lemma C26_pairs_proof :
  is_tolerance (V := PositionAndVelocity R) (fun a => [pv_q a; pv_dq a]) pv_isNear /\
  is_tolerance (V := TransformAndVelocity6D R) (fun a => ct (tv_T a) ++ cv6 (tv_V a))%list tv_isNear /\
  (forall a : PositionAndVelocity R, pv_toVector a = [pv_q a; pv_dq a]).
Proof.
  Local Open Scope R_scope.
  split; [|split; [|reflexivity]].
  - assert (h : forall (a b : PositionAndVelocity R) eps, pv_isNear a b eps = true <->
      Rabs (pv_q a - pv_q b) <= eps /\ Rabs (pv_dq a - pv_dq b) <= eps).
    { intros a b eps. unfold pv_isNear. cbn [s_abs s_sub s_leb RScalar]. rewrite andb_true_iff. rewrite !RLemmas.Rleb_iff. reflexivity. }
    split; [|split; [|split; [|split]]].
    + intros a b eps. rewrite h. cbn [combine]. split.
      * intros [h1 h2]. constructor; [assumption|]. constructor; [assumption|]. constructor.
      * intros hf. inversion hf as [|? ? h1 hf']; subst. inversion hf' as [|? ? h2 hf'']; subst. auto.
    + intros a eps he. apply h. replace (pv_q a - pv_q a) with 0 by ring. replace (pv_dq a - pv_dq a) with 0 by ring. rewrite Rabs_R0. auto.
    + intros a b eps. apply eq_true_iff_eq. rewrite !h. rewrite (Rabs_minus_sym (pv_q a)), (Rabs_minus_sym (pv_dq a)). reflexivity.
    + intros a b eps eps' he hn. apply h. apply h in hn. lra.
    + intros a b hn. apply h in hn. destruct a as [a1 a2], b as [b1 b2]. cbn [pv_q pv_dq] in hn. destruct hn as [h1 h2].
      assert (Z : forall x y, Rabs (x - y) <= 0 -> x = y) by (intros x y hz; apply Rminus_diag_uniq; destruct (Req_dec (x - y) 0) as [z|z]; [exact z|apply Rabs_pos_lt in z; lra]).
      now rewrite (Z a1 b1 h1), (Z a2 b2 h2).
  - destruct Proofs_Vectors.C26_tolerance_proof as [_ [_ [_ [_ [V6 [_ [_ [_ TR]]]]]]]].
    destruct V6 as [v1 [v2 [v3 [v4 v5]]]]. destruct TR as [t1 [t2 [t3 [t4 t5]]]].
    assert (hc : forall a b : TransformAndVelocity6D R, combine (ct (tv_T a) ++ cv6 (tv_V a)) (ct (tv_T b) ++ cv6 (tv_V b)) =
      (combine (ct (tv_T a)) (ct (tv_T b)) ++ combine (cv6 (tv_V a)) (cv6 (tv_V b)))%list) by (intros a b; reflexivity).
    unfold tv_isNear. split; [|split; [|split; [|split]]].
    + intros a b eps. rewrite hc, Forall_app, <- t1, <- v1. apply andb_true_iff.
    + intros a eps he. now rewrite t2, v2.
    + intros a b eps. now rewrite t3, v3.
    + intros a b eps eps' he hn. apply andb_true_iff in hn. apply andb_true_iff. destruct hn as [h1 h2]. split; [now apply (t4 _ _ eps)|now apply (v4 _ _ eps)].
    + intros [aT aV] [bT bV] hn. cbn [tv_T tv_V] in hn. apply andb_true_iff in hn. destruct hn as [h1 h2]. now rewrite (t5 _ _ h1), (v5 _ _ h2).
Qed.

(** * Lemmas for Props_Walk *)

From Coq Require Import String List Bool Relations Permutation Lia Arith ZArith Sorting.Sorted.
From Coq Require OrderedTypeEx.
Import ListNotations.
From Verif Require Import Scalar Model_Rigid Model_Average Model_Pose Model_Urdf Spec_Urdf Proofs_Urdf.
From Verif Require Props_Urdf.

Section S.
Context {T : Type}.
Implicit Types d : list (elem T).
Implicit Types j k : Joint T.

(** ** Order of the index *)

Lemma ltb_lt : forall a b, String.ltb a b = true <-> OrderedTypeEx.String_as_OT.lt a b.
Proof.
  intros a b. rewrite <- OrderedTypeEx.String_as_OT.cmp_lt. unfold String.ltb, OrderedTypeEx.String_as_OT.cmp.
  destruct (String.compare a b); split; intros h; congruence.
Qed.
Lemma key_ltb_irrefl : forall a, key_ltb a a = false.
Proof.
  intros [a|]; [|reflexivity]. cbn. destruct (String.ltb a a) eqn:e; [|reflexivity].
  apply ltb_lt in e. exfalso. exact (OrderedTypeEx.String_as_OT.lt_not_eq _ _ e eq_refl).
Qed.
Lemma key_ltb_trans : forall a b c, key_ltb a b = true -> key_ltb b c = true -> key_ltb a c = true.
Proof.
  intros [a|] [b|] [c|]; cbn; try congruence. rewrite !ltb_lt. apply OrderedTypeEx.String_as_OT.lt_trans.
Qed.
(** Of two keys one is smaller or they are equal. *)
Lemma key_ltb_total : forall a b, key_ltb a b = false -> key_ltb b a = false -> a = b.
Proof.
  intros [a|] [b|]; cbn; try congruence. intros h1 h2. f_equal.
  unfold String.ltb in *. destruct (String.compare a b) eqn:e; try discriminate.
  - now apply String.compare_eq_iff.
  - rewrite String.compare_antisym, e in h2. discriminate.
Qed.

(** The order of the index: no element is followed by one of a smaller key. *)
Definition ix_sorted d (ix : list string) : Prop :=
  StronglySorted (fun a b => key_ltb (key d b) (key d a) = false) ix.

Lemma ix_insert_sorted : forall d n ix, ix_sorted d ix -> ix_sorted d (ix_insert d n ix).
Proof.
  intros d n. induction ix as [|m r IH]; intros h; cbn.
  - constructor; constructor.
  - apply StronglySorted_inv in h. destruct h as [h1 h2].
    destruct (key_ltb (key d n) (key d m)) eqn:e.
    + constructor; [now constructor|]. constructor.
      * destruct (key_ltb (key d m) (key d n)) eqn:e2; [|reflexivity].
        pose proof (key_ltb_trans _ _ _ e e2) as x. rewrite key_ltb_irrefl in x. discriminate.
      * rewrite Forall_forall in *. intros x hx. specialize (h2 x hx).
        destruct (key_ltb (key d x) (key d n)) eqn:e2; [|reflexivity].
        rewrite (key_ltb_trans _ _ _ e2 e) in h2. discriminate.
    + constructor; [now apply IH|]. rewrite Forall_forall in *. intros x hx.
      apply (Permutation_in x (ix_insert_perm d n r)) in hx. destruct hx as [<-|hx]; [assumption|now apply h2].
Qed.

Definition has_parent d (l n : string) : bool := match key d n with Some p => (p =? l)%string | None => false end.
Lemma children_eq : forall d ix l, children d ix l = filter (has_parent d l) ix.
Proof. reflexivity. Qed.

(** An element goes after those of the same parent. *)
Lemma children_insert : forall d n ix l, ix_sorted d ix ->
  children d (ix_insert d n ix) l = children d ix l ++ (if has_parent d l n then [n] else []).
Proof.
  intros d n ix l h. rewrite !children_eq. induction ix as [|m r IH]; cbn [ix_insert filter].
  - destruct (has_parent d l n); reflexivity.
  - apply StronglySorted_inv in h. destruct h as [h1 h2].
    destruct (key_ltb (key d n) (key d m)) eqn:e; cbn [filter].
    + assert (hz : has_parent d l n = true -> filter (has_parent d l) (m :: r) = []).
      { intros hn. assert (hx : forall x, In x (m :: r) -> has_parent d l x = false).
        { intros x hx. unfold has_parent in *. destruct (key d x) as [px|] eqn:ex; [|reflexivity].
          destruct (px =? l)%string eqn:ep; [|reflexivity]. exfalso. apply String.eqb_eq in ep. subst px.
          destruct (key d n) as [pn|] eqn:en; [|discriminate]. apply String.eqb_eq in hn. subst pn.
          destruct hx as [<-|hx].
          - rewrite ex in e. rewrite key_ltb_irrefl in e. discriminate.
          - rewrite Forall_forall in h2. specialize (h2 x hx). cbn beta in h2. rewrite ex in h2. congruence. }
        clear -hx. induction (m :: r) as [|a q IH]; [reflexivity|]. cbn. rewrite (hx a (or_introl eq_refl)).
        apply IH. intros x h. apply hx. now right. }
      destruct (has_parent d l n) eqn:en.
      * specialize (hz eq_refl). cbn [filter] in hz. destruct (has_parent d l m); [discriminate|]. rewrite hz. reflexivity.
      * rewrite app_nil_r. reflexivity.
    + rewrite (IH h1). destruct (has_parent d l m); reflexivity.
Qed.

Lemma fold_index : forall d l js ix, ix_sorted d ix ->
  ix_sorted d (fold_left (fun ix j => ix_insert d (j_name j) ix) js ix) /\
  children d (fold_left (fun ix j => ix_insert d (j_name j) ix) js ix) l =
    children d ix l ++ filter (has_parent d l) (map (@j_name T) js).
Proof.
  intros d l. induction js as [|j js IH]; intros ix h; cbn [fold_left map filter].
  - rewrite app_nil_r. split; [assumption|reflexivity].
  - destruct (IH (ix_insert d (j_name j) ix) (ix_insert_sorted d _ ix h)) as [h1 h2]. split; [assumption|].
    rewrite h2, children_insert by assumption. rewrite <- app_assoc.
    destruct (has_parent d l (j_name j)); reflexivity.
Qed.

Lemma key_of : forall d j, well_connected d -> In j (joints d) -> key d (j_name j) = Some (j_parent j).
Proof.
  intros d j w hj. unfold key. now rewrite (proj2 (find_joint_iff d (j_name j) j w) (conj hj eq_refl)).
Qed.
Lemma filter_names : forall d l js, well_connected d -> incl js (joints d) ->
  filter (has_parent d l) (map (@j_name T) js) = map (@j_name T) (filter (fun j => (j_parent j =? l)%string) js).
Proof.
  intros d l js w. induction js as [|j js IH]; intros hi; [reflexivity|]. cbn.
  unfold has_parent at 1. rewrite key_of by (try assumption; apply hi; now left).
  rewrite IH by (intros x hx; apply hi; now right).
  destruct (j_parent j =? l)%string; reflexivity.
Qed.
Lemma index_children : forall d l, well_connected d ->
  children d (index_of d) l = map (@j_name T) (filter (fun j => (j_parent j =? l)%string) (joints d)).
Proof.
  intros d l w. unfold index_of.
  destruct (fold_index d l (joints d) []) as [_ h]; [constructor|]. rewrite h. cbn [children app filter].
  apply filter_names; [assumption|apply incl_refl].
Qed.
Lemma index_sorted : forall d, ix_sorted d (index_of d).
Proof. intros d. unfold index_of. apply (fold_index d ""%string (joints d) []). constructor. Qed.

(** The joints in the order of the index. *)
Lemma resolve : forall d ix, well_connected d -> Permutation ix (joint_names d) ->
  exists js, Permutation js (joints d) /\ map (@j_name T) js = ix /\
  forall l, children d ix l = map (@j_name T) (filter (fun j => (j_parent j =? l)%string) js).
Proof.
  intros d ix w h. unfold joint_names in h. apply Permutation_map_inv in h.
  destruct h as [js [e h]]. exists js. split; [now apply Permutation_sym|]. split; [now symmetry|].
  intros l. rewrite children_eq, e. apply filter_names; [assumption|].
  intros x hx. apply (Permutation_in x (Permutation_sym h) hx).
Qed.

(** ** Documents with the same graph *)

Lemma sg_find : forall d d' n, well_connected d -> same_graph d d' ->
  forall j, In j (joints d) -> j_name j = n ->
  exists j', find_joint d' n = Some j' /\ j_name j' = n /\ j_parent j' = j_parent j /\ j_child j' = j_child j.
Proof.
  intros d d' n w h j hj e. unfold same_graph in h. unfold find_joint.
  destruct w as [_ w _ _]. unfold joint_names in w.
  revert h hj w. generalize (joints d) as l, (joints d') as l'.
  induction l as [|a l IH]; intros [|a' l'] h hj w; try discriminate; [contradiction|].
  cbn in h. injection h as h1 h2 h3 h4. cbn [find map] in *. inversion w as [|? ? w1 w2]; subst.
  destruct hj as [<-|hj].
  - exists a'. rewrite <- h1, String.eqb_refl. repeat split; congruence.
  - destruct (j_name a' =? j_name j)%string eqn:ea.
    + exfalso. apply String.eqb_eq in ea. apply w1. rewrite h1, ea. now apply in_map.
    + now apply IH.
Qed.
Lemma sg_refl : forall d, same_graph d d.
Proof. reflexivity. Qed.
Lemma sg_none : forall d d' n, same_graph d d' -> find_joint d n = None -> find_joint d' n = None.
Proof.
  intros d d' n h. unfold same_graph in h. unfold find_joint. revert h. generalize (joints d) as l, (joints d') as l'.
  induction l as [|a l IH]; intros [|a' l'] h; try discriminate; [reflexivity|].
  cbn in h. injection h as h1 h2 h3 h4. cbn. rewrite <- h1. destruct (j_name a =? n)%string; [discriminate|]. now apply IH.
Qed.
Lemma sg_children : forall d d' ix l, well_connected d -> same_graph d d' -> children d' ix l = children d ix l.
Proof.
  intros d d' ix l w h. rewrite !children_eq. apply filter_ext. intros n. unfold has_parent, key.
  destruct (find_joint d n) as [j|] eqn:e.
  - apply find_joint_iff in e; [|assumption]. destruct e as [hj e].
    destruct (sg_find d d' n w h j hj e) as [j' [e1 [_ [e2 _]]]]. rewrite e1. cbn. now rewrite e2.
  - now rewrite (sg_none d d' n h e).
Qed.

(** ** The recursion *)

Lemma runs_app : forall {V} doc disc fin (v1 : V) h1 v2, runs doc disc fin v1 h1 v2 ->
  forall h2 v3, runs (T := T) doc disc fin v2 h2 v3 -> runs doc disc fin v1 (h1 ++ h2) v3.
Proof.
  intros V doc disc fin v1 h1 v2 R. induction R as [|v n j va b h v' hi hn e R IH|v n j va h v' hi hn e R IH]; intros h2 v3 R2.
  - assumption.
  - cbn. apply runs_disc with (j := j) (v1 := va); auto.
  - cbn. apply runs_fin with (j := j) (v1 := va); auto.
Qed.

Section Visitor.
Variable t : tree T.
Variable V : Type.
Variable doc : V -> list (elem T).
Variable discover : V -> Joint T -> res (V * bool).
Variable finish : V -> Joint T -> res V.
Notation d := (t_doc t).
Notation root := (t_root t).
Hypothesis hsound : sound t.

Definition wlk (fuel : nat) (link : string) (v : V) : res V :=
  walk_joint doc discover finish fuel (t_ix t) link v.
Definition wloop (fuel : nat) : list string -> V -> res V :=
  fix loop (range : list string) (v : V) : res V :=
    match range with
    | [] => Ok v
    | n :: r =>
        match find_joint (doc v) n with
        | None => UB
        | Some j =>
            let! vb := discover v j in
            let '(v, b) := vb in
            let! v :=
              if b then
                match find_joint (doc v) n with
                | None => UB
                | Some j => wlk fuel (j_child j) v
                end
              else Ok v in
            match find_joint (doc v) n with
            | None => UB
            | Some j => let! v := finish v j in loop r v
            end
        end
    end.
Lemma wlk_S : forall f link v, wlk (Datatypes.S f) link v = wloop f (children (doc v) (t_ix t) link) v.
Proof. reflexivity. Qed.

Lemma is_root_t : is_root d root.
Proof. now apply (sd_root t hsound). Qed.

Definition below (js : list (Joint T)) (link : string) : list (Joint T) :=
  filter (fun k => (j_parent k =? link)%string) js.
Lemma in_below : forall js link j, In j (below js link) <-> In j js /\ j_parent j = link.
Proof. intros js link j. unfold below. rewrite filter_In, String.eqb_eq. reflexivity. Qed.

(** Whatever the visitor does, if the traversal ends normally the calls are those of a
    history of the right form. *)
Lemma walk_runs : forall js, Permutation js (joints d) ->
  (forall l, children d (t_ix t) l = map (@j_name T) (below js l)) ->
  (forall v j v' b, same_graph d (doc v) -> discover v j = Ok (v', b) -> same_graph d (doc v')) ->
  (forall v j v', same_graph d (doc v) -> finish v j = Ok v' -> same_graph d (doc v')) ->
  forall fuel link v v', same_graph d (doc v) -> wlk fuel link v = Ok v' ->
  same_graph d (doc v') /\
  exists h, runs doc discover finish v h v' /\ visits js (below js link) h.
Proof.
  intros js hp hc hd hf. pose proof (sd_doc t hsound) as w.
  assert (hin : forall l j, In j (below js l) -> In j (joints d)).
  { intros l j h. apply in_below in h. now apply (Permutation_in j hp). }
  induction fuel as [|fuel IH]; intros link v v' hs e; [discriminate|].
  rewrite wlk_S, (sg_children d (doc v) _ _ w hs), hc in e.
  assert (hloop : forall l v v', incl l (joints d) -> same_graph d (doc v) ->
    wloop fuel (map (@j_name T) l) v = Ok v' ->
    same_graph d (doc v') /\ exists h, runs doc discover finish v h v' /\ visits js l h).
  { clear link v v' hs e. induction l as [|j l IHl]; intros v v' hi hs e.
    - injection e as <-. split; [assumption|]. exists []. split; constructor.
    - cbn [map wloop] in e.
      assert (hj : In j (joints d)) by (apply hi; now left).
      assert (hi' : incl l (joints d)) by (intros x hx; apply hi; now right).
      destruct (sg_find d (doc v) (j_name j) w hs j hj eq_refl) as [j1 [e1 [n1 [_ c1]]]].
      assert (i1 : In j1 (joints (doc v))) by (unfold find_joint in e1; now apply find_some in e1).
      rewrite e1 in e. destruct (discover v j1) as [[v1 b]| | |] eqn:ed; try discriminate. cbn [rbind] in e.
      pose proof (hd v j1 v1 b hs ed) as hs1.
      destruct b.
      + destruct (sg_find d (doc v1) (j_name j) w hs1 j hj eq_refl) as [j2 [e2 [n2 [_ c2]]]].
        rewrite e2, c2 in e. destruct (wlk fuel (j_child j) v1) as [v2| | |] eqn:ew; try discriminate. cbn [rbind] in e.
        destruct (IH (j_child j) v1 v2 hs1 ew) as [hs2 [h1 [r1 vi1]]].
        destruct (sg_find d (doc v2) (j_name j) w hs2 j hj eq_refl) as [j3 [e3 [n3 _]]].
        assert (i3 : In j3 (joints (doc v2))) by (unfold find_joint in e3; now apply find_some in e3).
        rewrite e3 in e. destruct (finish v2 j3) as [v3| | |] eqn:ef; try discriminate. cbn [rbind] in e.
        pose proof (hf v2 j3 v3 hs2 ef) as hs3.
        destruct (IHl v3 v' hi' hs3 e) as [hs4 [h2 [r2 vi2]]].
        split; [assumption|]. exists (Disc (j_name j) true :: h1 ++ Fin (j_name j) :: h2). split.
        * apply runs_disc with (j := j1) (v1 := v1); try assumption.
          apply runs_app with (v2 := v2); [assumption|]. now apply runs_fin with (j := j3) (v1 := v3).
        * now constructor.
      + cbn [rbind] in e.
        destruct (sg_find d (doc v1) (j_name j) w hs1 j hj eq_refl) as [j3 [e3 [n3 _]]].
        assert (i3 : In j3 (joints (doc v1))) by (unfold find_joint in e3; now apply find_some in e3).
        rewrite e3 in e. destruct (finish v1 j3) as [v3| | |] eqn:ef; try discriminate. cbn [rbind] in e.
        pose proof (hf v1 j3 v3 hs1 ef) as hs3.
        destruct (IHl v3 v' hi' hs3 e) as [hs4 [h2 [r2 vi2]]].
        split; [assumption|]. exists (Disc (j_name j) false :: Fin (j_name j) :: h2). split.
        * apply runs_disc with (j := j1) (v1 := v1); try assumption.
          now apply runs_fin with (j := j3) (v1 := v3).
        * now constructor. }
  apply (hloop (below js link) v v'); [|assumption|assumption].
  intros x hx. exact (hin link x hx).
Qed.

(** A traversal ends normally when the calls never fail in the states that can be met;
    [Inv p v]: the state [v] may be met between the calls, inside the joints [p]. *)
Lemma walk_total : forall (Inv : list (Joint T) -> V -> Prop),
  (forall p v, Inv p v -> same_graph d (doc v)) ->
  (forall p v j j', path d root (p ++ [j]) (j_child j) -> Inv p v -> In j' (joints (doc v)) -> j_name j' = j_name j ->
     exists v' b, discover v j' = Ok (v', b) /\ Inv (p ++ [j]) v') ->
  (forall p v j j', path d root (p ++ [j]) (j_child j) -> Inv (p ++ [j]) v -> In j' (joints (doc v)) -> j_name j' = j_name j ->
     exists v', finish v j' = Ok v' /\ Inv p v') ->
  forall fuel p link v, path d root p link -> length (joints d) < length p + fuel -> Inv p v ->
  exists v', wlk fuel link v = Ok v' /\ Inv p v'.
Proof.
  intros Inv hI hd hf. pose proof (sd_doc t hsound) as w. pose proof is_root_t as hr.
  destruct (resolve d (t_ix t) w (sd_index t hsound)) as [js [hp [_ hc]]].
  induction fuel as [|fuel IH]; intros p link v hpath hlen hv.
  { exfalso. pose proof (path_length d root w hr p link hpath). lia. }
  rewrite wlk_S, (sg_children d (doc v) _ _ w (hI p v hv)), hc.
  fold (below js link).
  assert (hloop : forall l v, (forall j, In j l -> In j (joints d) /\ j_parent j = link) -> Inv p v ->
    exists v', wloop fuel (map (@j_name T) l) v = Ok v' /\ Inv p v').
  { clear v hv. induction l as [|j l IHl]; intros v hl hv; [exists v; now split|].
    cbn [map wloop]. destruct (hl j (or_introl eq_refl)) as [hj hpj].
    assert (hpath' : path d root (p ++ [j]) (j_child j)) by (constructor; [now rewrite hpj|assumption]).
    destruct (sg_find d (doc v) (j_name j) w (hI p v hv) j hj eq_refl) as [j1 [e1 [n1 _]]].
    assert (i1 : In j1 (joints (doc v))) by (unfold find_joint in e1; now apply find_some in e1).
    rewrite e1. destruct (hd p v j j1 hpath' hv i1 n1) as [v1 [b [ed hv1]]]. rewrite ed. cbn [rbind].
    assert (hmid : exists v2, (if b then match find_joint (doc v1) (j_name j) with None => UB | Some j => wlk fuel (j_child j) v1 end else Ok v1) = Ok v2 /\ Inv (p ++ [j]) v2).
    { destruct b; [|exists v1; now split].
      destruct (sg_find d (doc v1) (j_name j) w (hI _ v1 hv1) j hj eq_refl) as [j2 [e2 [n2 [_ c2]]]].
      rewrite e2, c2. apply (IH (p ++ [j])); [assumption| |assumption].
      rewrite app_length. cbn. lia. }
    destruct hmid as [v2 [e2 hv2]]. rewrite e2. cbn [rbind].
    destruct (sg_find d (doc v2) (j_name j) w (hI _ v2 hv2) j hj eq_refl) as [j3 [e3 [n3 _]]].
    assert (i3 : In j3 (joints (doc v2))) by (unfold find_joint in e3; now apply find_some in e3).
    rewrite e3. destruct (hf p v2 j j3 hpath' hv2 i3 n3) as [v3 [ef hv3]]. rewrite ef. cbn [rbind].
    apply IHl; [|assumption]. intros x hx. apply hl. now right. }
  apply hloop; [|assumption]. intros j hj. apply in_below in hj. destruct hj as [h1 h2].
  split; [now apply (Permutation_in j hp)|assumption].
Qed.
End Visitor.

(** ** Consequences of the form of the history *)

Lemma disc_app : forall h h', discovered (h ++ h') = discovered h ++ discovered h'.
Proof. intros. unfold discovered. apply flat_map_app. Qed.
Lemma disc_in : forall h n b, In (Disc n b) h -> In n (discovered h).
Proof. intros h n b hi. unfold discovered. apply in_flat_map. exists (Disc n b). split; [assumption|now left]. Qed.

Section History.
Variable t : tree T.
Notation d := (t_doc t).
Notation root := (t_root t).
Hypothesis hsound : sound t.
Variable js : list (Joint T).
Hypothesis hp : Permutation js (joints d).

Lemma joint_path_unique : forall p p' j j', path d root (p ++ [j]) (j_child j) ->
  path d root (p' ++ [j']) (j_child j') -> j_name j = j_name j' -> p = p' /\ j = j'.
Proof.
  intros p p' j j' h h' e. pose proof (sd_doc t hsound) as w.
  destruct (path_snoc_inv _ _ _ _ _ h) as [_ [hj _]]. destruct (path_snoc_inv _ _ _ _ _ h') as [_ [hj' _]].
  assert (j = j') by (now apply (name_inj d)). subst j'.
  pose proof (path_unique d root w (is_root_t t hsound) _ _ _ h h') as ee.
  apply app_inj_tail in ee. tauto.
Qed.

(** [reach p l n q j]: the joint [j] named [n] is at the end of the path made of [p], of one
    joint of [l] and of others, [q] being this path without [j]. *)
Definition reach (p l : list (Joint T)) (n : string) (q : list (Joint T)) (j : Joint T) : Prop :=
  j_name j = n /\ path d root (q ++ [j]) (j_child j) /\ exists k r, In k l /\ q ++ [j] = p ++ k :: r.

Lemma in_js : forall j, In j js <-> In j (joints d).
Proof. intros j. split; intros h; [now apply (Permutation_in j hp)|now apply (Permutation_in j (Permutation_sym hp))]. Qed.

Lemma reach_sub : forall p j l n q k, reach (p ++ [j]) l n q k -> reach p (j :: []) n q k.
Proof.
  intros p j l n q k [h1 [h2 [x [r [_ e]]]]]. split; [assumption|]. split; [assumption|].
  exists j, (x :: r). split; [now left|]. rewrite e, <- app_assoc. reflexivity.
Qed.
Lemma reach_mono : forall p l l' n q j, incl l l' -> reach p l n q j -> reach p l' n q j.
Proof.
  intros p l l' n q j hi [h1 [h2 [x [r [hx e]]]]]. split; [assumption|]. split; [assumption|].
  exists x, r. split; [now apply hi|assumption].
Qed.
(** A joint is reached through one sibling only. *)
Lemma reach_disjoint : forall p l l' n q j q' j', (forall x, In x l -> In x l' -> False) ->
  reach p l n q j -> reach p l' n q' j' -> False.
Proof.
  intros p l l' n q j q' j' hd [h1 [h2 [x [r [hx e]]]]] [h1' [h2' [x' [r' [hx' e']]]]].
  destruct (joint_path_unique q q' j j' h2 h2') as [-> ->]; [congruence|].
  rewrite e in e'. apply app_inv_head in e'. injection e' as -> _. exact (hd x' hx hx').
Qed.
Lemma reach_self : forall p j, path d root (p ++ [j]) (j_child j) -> reach p [j] (j_name j) p j.
Proof. intros p j h. split; [reflexivity|]. split; [assumption|]. exists j, []. split; [now left|reflexivity]. Qed.
Lemma reach_not_self : forall p j l n q k, path d root (p ++ [j]) (j_child j) ->
  reach (p ++ [j]) l n q k -> n <> j_name j.
Proof.
  intros p j l n q k h [h1 [h2 [x [r [hx e]]]]] en.
  destruct (joint_path_unique p q j k h h2) as [-> ->]; [congruence|].
  apply (f_equal (@length (Joint T))) in e. rewrite !app_length in e. cbn in e. lia.
Qed.

Lemma level_below : forall p j, path d root (p ++ [j]) (j_child j) ->
  forall k, In k (below js (j_child j)) -> path d root ((p ++ [j]) ++ [k]) (j_child k).
Proof.
  intros p j h k hk. apply in_below in hk. destruct hk as [hk e]. constructor; [now rewrite e|now apply in_js].
Qed.
Lemma below_nodup : forall l, NoDup (below js l).
Proof.
  intros l. apply NoDup_filter. apply (Permutation_NoDup (Permutation_sym hp)).
  pose proof (wc_joints d (sd_doc t hsound)) as h. unfold joint_names in h. now apply NoDup_map_inv in h.
Qed.

Lemma visits_facts : forall l h, visits js l h ->
  forall p, NoDup l -> (forall j, In j l -> path d root (p ++ [j]) (j_child j)) ->
  NoDup (discovered h) /\ (forall n, In n (discovered h) -> exists q j, reach p l n q j).
Proof.
  intros l h H. induction H as [|j l h1 h2 H1 IH1 H2 IH2|j l h H IH]; intros p hn hl.
  - split; [constructor|intros n []].
  - inversion hn as [|? ? hj hn']; subst.
    pose proof (hl j (or_introl eq_refl)) as pj.
    destruct (IH1 (p ++ [j]) (below_nodup (j_child j)) (level_below p j pj)) as [n1 r1].
    destruct (IH2 p hn' (fun x hx => hl x (or_intror hx))) as [n2 r2].
    assert (e : discovered (Disc (j_name j) true :: h1 ++ Fin (j_name j) :: h2) =
      j_name j :: discovered h1 ++ discovered h2) by (cbn; now rewrite disc_app).
    rewrite e. split.
    + constructor.
      * intros hi. apply in_app_or in hi. destruct hi as [hi|hi].
        -- destruct (r1 _ hi) as [q [k hr]]. now apply (reach_not_self p j _ _ q k pj hr).
        -- destruct (r2 _ hi) as [q [k hr]].
           apply (reach_disjoint p [j] l (j_name j) p j q k); [|now apply reach_self|assumption].
           intros x [<-|[]]. assumption.
      * assert (happ : forall (a b : list string), NoDup a -> NoDup b -> (forall x, In x a -> In x b -> False) -> NoDup (a ++ b)).
        { induction a as [|x a IHa]; intros b ha hb hd; [assumption|]. inversion ha; subst. cbn. constructor.
          - intros hx. apply in_app_or in hx. destruct hx as [hx|hx]; [contradiction|]. apply (hd x); [now left|assumption].
          - apply IHa; try assumption. intros y hy. apply hd. now right. }
        apply happ; try assumption. intros n i1 i2.
        destruct (r1 n i1) as [q1 [k1 hr1]], (r2 n i2) as [q2 [k2 hr2]].
        apply (reach_disjoint p [j] l n q1 k1 q2 k2); [|now apply reach_sub in hr1|assumption].
        intros x [<-|[]]. assumption.
    + intros n [<-|hi].
      * exists p, j. apply (reach_mono p [j]); [intros x [<-|[]]; now left|now apply reach_self].
      * apply in_app_or in hi. destruct hi as [hi|hi].
        -- destruct (r1 n hi) as [q [k hr]]. exists q, k. apply (reach_mono p [j]); [intros x [<-|[]]; now left|].
           now apply reach_sub in hr.
        -- destruct (r2 n hi) as [q [k hr]]. exists q, k. apply (reach_mono p l); [intros x hx; now right|assumption].
  - inversion hn as [|? ? hj hn']; subst. pose proof (hl j (or_introl eq_refl)) as pj.
    destruct (IH p hn' (fun x hx => hl x (or_intror hx))) as [n2 r2].
    change (discovered (Disc (j_name j) false :: Fin (j_name j) :: h)) with (j_name j :: discovered h). split.
    + constructor; [|assumption]. intros hi. destruct (r2 _ hi) as [q [k hr]].
      apply (reach_disjoint p [j] l (j_name j) p j q k); [|now apply reach_self|assumption].
      intros x [<-|[]]. assumption.
    + intros n [<-|hi].
      * exists p, j. apply (reach_mono p [j]); [intros x [<-|[]]; now left|now apply reach_self].
      * destruct (r2 n hi) as [q [k hr]]. exists q, k. apply (reach_mono p l); [intros x hx; now right|assumption].
Qed.

(** Which joints are visited: those all of whose ancestors (from [p] on) were accepted. *)
Lemma visits_which : forall l h, visits js l h ->
  forall p, NoDup l -> (forall j, In j l -> path d root (p ++ [j]) (j_child j)) ->
  forall r j, path d root (p ++ r ++ [j]) (j_child j) -> (match r ++ [j] with k :: _ => In k l | [] => False end) ->
  (In (j_name j) (discovered h) <-> forall k, In k r -> In (Disc (j_name k) true) h).
Proof.
  intros l h H. induction H as [|j l h1 h2 H1 IH1 H2 IH2|j l h H IH]; intros p hn hl r x hx hfst.
  - destruct (r ++ [x]); contradiction.
  - inversion hn as [|? ? hj hn']; subst.
    pose proof (hl j (or_introl eq_refl)) as pj.
    pose proof (below_nodup (j_child j)) as bn. pose proof (level_below p j pj) as bl.
    destruct (visits_facts _ _ H1 (p ++ [j]) bn bl) as [n1 r1].
    destruct (visits_facts _ _ H2 p hn' (fun x hx => hl x (or_intror hx))) as [n2 r2].
    assert (e : discovered (Disc (j_name j) true :: h1 ++ Fin (j_name j) :: h2) =
      j_name j :: discovered h1 ++ discovered h2) by (cbn; now rewrite disc_app).
    assert (hev : forall n b, In (Disc n b) (Disc (j_name j) true :: h1 ++ Fin (j_name j) :: h2) <->
      (n = j_name j /\ b = true) \/ In (Disc n b) h1 \/ In (Disc n b) h2).
    { intros n b. cbn. rewrite in_app_iff. cbn. split.
      - intros [a|[a|[a|a]]]; try discriminate; [injection a as -> ->; tauto| |]; tauto.
      - intros [[-> ->]|[a|a]]; tauto. }
    rewrite e. destruct r as [|k r].
    + cbn [app] in hfst, hx. split; [intros _ k []|intros _].
      destruct hfst as [<-|hfst]; [now left|]. right. apply in_or_app. right.
      apply (IH2 p hn' (fun x hx => hl x (or_intror hx)) [] x hx hfst). intros k [].
    + cbn [app] in hfst, hx.
      assert (hr : forall k0, In k0 l \/ k0 = j -> k = k0 -> forall y r', (exists s, k :: r = r' ++ y :: s) -> exists q, reach p [k0] (j_name y) q y).
      { intros k0 _ -> y r' [s es]. exists (p ++ r').
        assert (hy : path d root ((p ++ r') ++ [y]) (j_child y)).
        { change (p ++ k0 :: r ++ [x]) with (p ++ (k0 :: r) ++ [x]) in hx. rewrite es in hx.
          replace (p ++ (r' ++ y :: s) ++ [x]) with (((p ++ r') ++ [y]) ++ s ++ [x]) in hx by (rewrite <- !app_assoc; reflexivity).
          destruct (path_split _ _ _ _ _ hx) as [b [hb _]]. pose proof hb as hb'. apply path_snoc_inv in hb'. destruct hb' as [-> _]. assumption. }
        split; [reflexivity|]. split; [assumption|].
        destruct r' as [|z r']; cbn in es; injection es as -> es.
        - exists y, []. split; [now left|]. rewrite app_nil_r. reflexivity.
        - exists z, (r' ++ [y]). split; [now left|]. rewrite <- app_assoc. reflexivity. }
      assert (hxr : forall k0, k = k0 -> reach p [k0] (j_name x) (p ++ k :: r) x).
      { intros k0 <-. split; [reflexivity|]. split; [rewrite <- app_assoc; exact hx|].
        exists k, (r ++ [x]). split; [now left|]. rewrite <- app_assoc. reflexivity. }
      destruct hfst as [ek|hfst].
      * subst k.
        assert (hx' : path d root ((p ++ [j]) ++ r ++ [x]) (j_child x)) by (rewrite <- app_assoc; exact hx).
        assert (hf' : match r ++ [x] with k :: _ => In k (below js (j_child j)) | [] => False end).
        { destruct (path_split _ _ (p ++ [j]) (r ++ [x]) _ hx') as [b [hb hb2]].
          apply path_snoc_inv in hb. destruct hb as [-> _].
          destruct (r ++ [x]) as [|k0 r0] eqn:er; [destruct r; discriminate|].
          apply path_cons_inv in hb2. destruct hb2 as [eb [hk0 _]]. apply in_below. split; [now apply in_js|now symmetry]. }
        specialize (IH1 (p ++ [j]) bn bl r x hx' hf').
        split.
        -- intros [hi|hi] k hk.
           ++ exfalso. 
              assert (hrr : reach (p ++ [j]) (below js (j_child j)) (j_name x) (p ++ j :: r) x).
              { destruct (hxr j eq_refl) as [a1 [a2 _]]. split; [assumption|]. split; [assumption|].
                destruct (r ++ [x]) as [|k0 r0] eqn:er; [destruct r; discriminate|].
                exists k0, r0. split; [assumption|]. rewrite <- app_assoc. cbn. rewrite er. rewrite <- app_assoc. reflexivity. }
              apply (reach_not_self p j _ _ _ _ pj hrr). now symmetry.
           ++ apply hev. destruct hk as [<-|hk]; [left; now split|]. right.
              apply in_app_or in hi. destruct hi as [hi|hi].
              ** left. now apply IH1.
              ** exfalso. destruct (r2 _ hi) as [q [y hy]].
                 apply (reach_disjoint p [j] l (j_name x) (p ++ j :: r) x q y); [|now apply hxr|assumption].
                 intros z [<-|[]]. assumption.
        -- intros hk. right. apply in_or_app. left. apply IH1. intros k hkr.
           specialize (hk k (or_intror hkr)). apply hev in hk.
           assert (hkr' : exists s1 s2, r = s1 ++ k :: s2) by (now apply in_split).
           destruct hkr' as [s1 [s2 er]].
           destruct (hr j (or_intror eq_refl) eq_refl k (j :: s1)) as [q hq]; [exists s2; now rewrite er|].
           destruct hk as [[ek _]|[hk|hk]]; [exfalso|assumption|exfalso].
           ++ destruct hq as [_ [hq [z [s [_ ez]]]]].
              assert (hh : path d root ((p ++ j :: s1) ++ [k]) (j_child k)).
              { rewrite er in hx'. replace ((p ++ [j]) ++ (s1 ++ k :: s2) ++ [x]) with (((p ++ j :: s1) ++ [k]) ++ s2 ++ [x]) in hx'
                  by (rewrite <- !app_assoc; reflexivity).
                destruct (path_split _ _ _ _ _ hx') as [b [hb _]]. pose proof hb as hb'. apply path_snoc_inv in hb'. destruct hb' as [-> _]. assumption. }
              destruct (joint_path_unique _ _ _ _ hh pj ek) as [ee _].
              apply (f_equal (@length (Joint T))) in ee. rewrite app_length in ee. cbn in ee. lia.
           ++ apply disc_in in hk. destruct (r2 _ hk) as [q' [y hy]].
              apply (reach_disjoint p [j] l (j_name k) q k q' y); [|assumption|assumption].
              intros z [<-|[]]. assumption.
      * assert (njk : k <> j) by (intros ->; contradiction).
        specialize (IH2 p hn' (fun x hx => hl x (or_intror hx)) (k :: r) x hx hfst).
        split.
        -- intros [hi|hi] y hy.
           ++ exfalso. apply (reach_disjoint p [k] [j] (j_name x) (p ++ k :: r) x p j).
              ** intros z [<-|[]] [e1|[]]. now apply njk.
              ** now apply hxr.
              ** rewrite <- hi. now apply reach_self.
           ++ apply hev. right. right. apply in_app_or in hi. destruct hi as [hi|hi]; [exfalso|now apply IH2].
              destruct (r1 _ hi) as [q [z hz]]. apply reach_sub in hz.
              apply (reach_disjoint p [k] [j] (j_name x) (p ++ k :: r) x q z); [|now apply hxr|assumption].
              intros u [<-|[]] [e1|[]]. now apply njk.
        -- intros hk. right. apply in_or_app. right. apply IH2. intros y hy. specialize (hk y hy). apply hev in hk.
           assert (hy' : exists s1 s2, k :: r = s1 ++ y :: s2) by (now apply in_split).
           destruct hy' as [s1 [s2 er]].
           destruct (hr k (or_introl hfst) eq_refl y s1) as [q hq]; [now exists s2|].
           destruct hk as [[ek _]|[hk|hk]]; [exfalso|exfalso|assumption].
           ++ apply (reach_disjoint p [k] [j] (j_name y) q y p j); [|assumption|rewrite ek; now apply reach_self].
              intros u [<-|[]] [e1|[]]. now apply njk.
           ++ apply disc_in in hk. destruct (r1 _ hk) as [q' [z hz]]. apply reach_sub in hz.
              apply (reach_disjoint p [k] [j] (j_name y) q y q' z); [|assumption|assumption].
              intros u [<-|[]] [e1|[]]. now apply njk.
  - inversion hn as [|? ? hj hn']; subst. pose proof (hl j (or_introl eq_refl)) as pj.
    destruct (visits_facts _ _ H p hn' (fun x hx => hl x (or_intror hx))) as [n2 r2].
    change (discovered (Disc (j_name j) false :: Fin (j_name j) :: h)) with (j_name j :: discovered h).
    assert (hev : forall n, In (Disc n true) (Disc (j_name j) false :: Fin (j_name j) :: h) <-> In (Disc n true) h).
    { intros n. cbn. split; [intros [a|[a|a]]; try discriminate; assumption|tauto]. }
    destruct r as [|k r].
    + cbn [app] in hfst, hx. split; [intros _ k []|intros _].
      destruct hfst as [<-|hfst]; [now left|]. right.
      apply (IH p hn' (fun x hx => hl x (or_intror hx)) [] x hx hfst). intros k [].
    + cbn [app] in hfst, hx.
      assert (hxr : reach p [k] (j_name x) (p ++ k :: r) x).
      { split; [reflexivity|]. split; [rewrite <- app_assoc; exact hx|].
        exists k, (r ++ [x]). split; [now left|]. rewrite <- app_assoc. reflexivity. }
      assert (hxj : j_name x <> j_name j).
      { intros ee. destruct hxr as [_ [a2 _]]. destruct (joint_path_unique _ _ _ _ a2 pj ee) as [eq _].
        apply (f_equal (@length (Joint T))) in eq. rewrite app_length in eq. cbn in eq. lia. }
      destruct hfst as [ek|hfst].
      * subst k. split.
        -- intros [hi|hi]; [exfalso; apply hxj; now symmetry|]. exfalso.
           destruct (r2 _ hi) as [q [y hy]].
           apply (reach_disjoint p [j] l (j_name x) (p ++ j :: r) x q y); [|assumption|assumption].
           intros z [<-|[]]. assumption.
        -- intros hk. exfalso. specialize (hk j (or_introl eq_refl)). apply hev in hk. apply disc_in in hk.
           destruct (r2 _ hk) as [q [y hy]].
           apply (reach_disjoint p [j] l (j_name j) p j q y); [|now apply reach_self|assumption].
           intros z [<-|[]]. assumption.
      * specialize (IH p hn' (fun x hx => hl x (or_intror hx)) (k :: r) x hx hfst). split.
        -- intros [hi|hi]; [exfalso; apply hxj; now symmetry|]. intros y hy. apply hev. now apply IH.
        -- intros hk. right. apply IH. intros y hy. apply hev. now apply hk.
Qed.


Lemma visits_finished : forall l h, visits js l h -> Permutation (finished h) (discovered h).
Proof.
  intros l h H. induction H as [|j l h1 h2 H1 IH1 H2 IH2|j l h H IH].
  - constructor.
  - assert (e : finished (Disc (j_name j) true :: h1 ++ Fin (j_name j) :: h2) =
      finished h1 ++ j_name j :: finished h2) by (unfold finished; cbn; now rewrite flat_map_app).
    assert (e' : discovered (Disc (j_name j) true :: h1 ++ Fin (j_name j) :: h2) =
      j_name j :: discovered h1 ++ discovered h2) by (cbn; now rewrite disc_app).
    rewrite e, e'. apply Permutation_trans with (j_name j :: finished h1 ++ finished h2).
    + apply Permutation_sym, Permutation_middle.
    + constructor. now apply Permutation_app.
  - cbn. now constructor.
Qed.
Lemma fin_in : forall h n, In n (finished h) <-> In (Fin n) h.
Proof.
  intros h n. unfold finished. rewrite in_flat_map. split.
  - intros [e [h1 h2]]. destruct e as [m b|m]; [contradiction|]. destruct h2 as [->|[]]. assumption.
  - intros h1. exists (Fin n). split; [assumption|now left].
Qed.

Lemma visits_parent : forall l h, visits js l h ->
  forall p, NoDup l -> (forall j, In j l -> path d root (p ++ [j]) (j_child j)) ->
  forall h1 n b h2, h = h1 ++ Disc n b :: h2 ->
  (exists j, In j l /\ j_name j = n) \/
  exists j k, In j js /\ j_name j = n /\ j_parent j = j_child k /\ In k js /\
    In (Disc (j_name k) true) h1 /\ ~ In (Fin (j_name k)) h1.
Proof.
  intros l h H. induction H as [|j l ha hb H1 IH1 H2 IH2|j l h H IH]; intros p hn hl h1 n b h2 e.
  - destruct h1; discriminate.
  - inversion hn as [|? ? hj hn']; subst.
    pose proof (hl j (or_introl eq_refl)) as pj.
    pose proof (below_nodup (j_child j)) as bn. pose proof (level_below p j pj) as bl.
    destruct (visits_facts _ _ H1 (p ++ [j]) bn bl) as [n1 r1].
    destruct (visits_facts _ _ H2 p hn' (fun x hx => hl x (or_intror hx))) as [n2 r2].
    assert (jj : In j js) by (apply in_js; apply path_snoc_inv in pj; tauto).
    assert (fa : forall m, In (Fin m) ha -> In m (discovered ha)).
    { intros m hm. apply fin_in in hm. exact (Permutation_in m (visits_finished _ _ H1) hm). }
    destruct h1 as [|x h1]; [injection e as <- _ _; left; exists j; split; [now left|reflexivity]|].
    injection e as <- e. destruct (app_eq_app _ _ _ _ e) as [z [[e1 e2]|[e1 e2]]].
    + destruct z as [|y z].
      * rewrite app_nil_r in e1. cbn in e2. discriminate.
      * cbn in e2. injection e2 as <- e2. subst h2. right.
        destruct (IH1 (p ++ [j]) bn bl h1 n b z e1) as [[k [hk ek]]|[k [k' [a1 [a2 [a3 [a4 [a5 a6]]]]]]]].
        -- exists k, j. apply in_below in hk. destruct hk as [hk ep].
           repeat split; try assumption; [now left|]. intros [hf|hf]; [discriminate|].
           assert (hf' : In (Fin (j_name j)) ha) by (rewrite e1; apply in_or_app; now left).
           apply fa in hf'. destruct (r1 _ hf') as [q [y hr]]. now apply (reach_not_self p j _ _ q y pj hr).
        -- exists k, k'. repeat split; try assumption; [now right|]. intros [hf|hf]; [discriminate|contradiction].
    + destruct z as [|y z].
      * cbn in e2. discriminate.
      * cbn in e2. injection e2 as <- e2. subst h1.
        destruct (IH2 p hn' (fun x hx => hl x (or_intror hx)) z n b h2 e2) as [[k [hk ek]]|[k [k' [a1 [a2 [a3 [a4 [a5 a6]]]]]]]].
        -- left. exists k. split; [now right|assumption].
        -- right. exists k, k'. repeat split; try assumption.
           ++ right. apply in_or_app. right. now right.
           ++ assert (hk' : In (j_name k') (discovered hb)).
              { rewrite e2, disc_app. apply in_or_app. left. exact (disc_in _ _ _ a5). }
              destruct (r2 _ hk') as [q [y hr]].
              intros [hf|hf]; [discriminate|]. apply in_app_or in hf. destruct hf as [hf|[hf|hf]]; [| |contradiction].
              ** apply fa in hf. destruct (r1 _ hf) as [q' [y' hr']]. apply reach_sub in hr'.
                 apply (reach_disjoint p [j] l (j_name k') q' y' q y); [|assumption|assumption].
                 intros u [<-|[]]. assumption.
              ** injection hf as hf. rewrite <- hf in hr.
                 apply (reach_disjoint p [j] l (j_name j) p j q y); [|now apply reach_self|assumption].
                 intros u [<-|[]]. assumption.
  - inversion hn as [|? ? hj hn']; subst.
    pose proof (hl j (or_introl eq_refl)) as pj.
    destruct (visits_facts _ _ H p hn' (fun x hx => hl x (or_intror hx))) as [n2 r2].
    destruct h1 as [|x h1]; [injection e as <- _ _; left; exists j; split; [now left|reflexivity]|].
    injection e as <- e. destruct h1 as [|y h1]; [discriminate|]. injection e as <- e.
    destruct (IH p hn' (fun x hx => hl x (or_intror hx)) h1 n b h2 e) as [[k [hk ek]]|[k [k' [a1 [a2 [a3 [a4 [a5 a6]]]]]]]].
    + left. exists k. split; [now right|assumption].
    + right. exists k, k'. repeat split; try assumption; [right; now right|].
      assert (hk' : In (j_name k') (discovered h)).
      { rewrite e, disc_app. apply in_or_app. left. exact (disc_in _ _ _ a5). }
      destruct (r2 _ hk') as [q [y hr]].
      intros [hf|[hf|hf]]; [discriminate| |contradiction].
      injection hf as hf. rewrite <- hf in hr.
      apply (reach_disjoint p [j] l (j_name j) p j q y); [|now apply reach_self|assumption].
      intros u [<-|[]]. assumption.
Qed.

Lemma fin_app : forall h h', finished (h ++ h') = finished h ++ finished h'.
Proof. intros. unfold finished. apply flat_map_app. Qed.
Lemma reach_child : forall p l k q x, reach p l (j_name k) q k -> In x js -> j_parent x = j_child k ->
  reach p l (j_name x) (q ++ [k]) x.
Proof.
  intros p l k q x [h1 [h2 [y [r [hy e]]]]] hx ex. split; [reflexivity|]. split.
  - constructor; [now rewrite ex|now apply in_js].
  - exists y, (r ++ [x]). split; [assumption|]. now rewrite e, <- app_assoc.
Qed.
(** The joints below a joint are finished before it. *)
Lemma visits_last : forall l h, visits js l h ->
  forall p, NoDup l -> (forall j, In j l -> path d root (p ++ [j]) (j_child j)) ->
  forall a k b x, finished h = a ++ j_name k :: b -> In k js -> In x js -> j_parent x = j_child k -> ~ In (j_name x) b.
Proof.
  intros l h H. induction H as [|j l ha hb H1 IH1 H2 IH2|j l h H IH]; intros p hn hl a k b x e hk hx ex hi.
  - destruct a; discriminate.
  - inversion hn as [|? ? hj hn']; subst.
    pose proof (hl j (or_introl eq_refl)) as pj.
    pose proof (below_nodup (j_child j)) as bn. pose proof (level_below p j pj) as bl.
    destruct (visits_facts _ _ H1 (p ++ [j]) bn bl) as [n1 r1].
    destruct (visits_facts _ _ H2 p hn' (fun x hx => hl x (or_intror hx))) as [n2 r2].
    assert (nk : forall q y, path d root (q ++ [y]) (j_child y) -> j_name y = j_name k -> y = k).
    { intros q y hy ey. apply (name_inj d); [apply (sd_doc t hsound)| | |assumption]; [apply path_snoc_inv in hy; tauto|now apply in_js]. }
    assert (fa : forall m, In m (finished ha) -> exists q y, reach (p ++ [j]) (below js (j_child j)) m q y).
    { intros m hm. apply r1. exact (Permutation_in m (visits_finished _ _ H1) hm). }
    assert (fb : forall m, In m (finished hb) -> exists q y, reach p l m q y).
    { intros m hm. apply r2. exact (Permutation_in m (visits_finished _ _ H2) hm). }
    assert (e0 : finished (Disc (j_name j) true :: ha ++ Fin (j_name j) :: hb) = finished ha ++ j_name j :: finished hb)
      by (cbn; now rewrite fin_app).
    rewrite e0 in e. clear e0.
    assert (hbj : forall q, reach p [j] (j_name k) q k -> ~ In (j_name x) (finished hb)).
    { intros q hr hxb. destruct (fb _ hxb) as [q' [y hr']].
      apply (reach_disjoint p [j] l (j_name x) (q ++ [k]) x q' y); [|now apply reach_child|assumption].
      intros u [<-|[]]. assumption. }
    destruct (app_eq_app _ _ _ _ e) as [z [[e1 e2]|[e1 e2]]].
    + destruct z as [|y z].
      * rewrite app_nil_r in e1. cbn in e2. injection e2 as e2 e3. subst b.
        assert (j = k) by (apply (nk p); [assumption|now symmetry]). subst k.
        apply (hbj p); [now apply reach_self|assumption].
      * cbn in e2. injection e2 as <- e2. subst b.
        destruct (fa (j_name k)) as [q [y hr]]; [rewrite e1; apply in_or_app; right; now left|].
        assert (y = k) by (apply (nk q); apply hr). subst y.
        apply in_app_or in hi. destruct hi as [hi|[hi|hi]].
        -- exact (IH1 (p ++ [j]) bn bl a k z x e1 hk hx ex hi).
        -- apply (reach_not_self p j _ (j_name x) (q ++ [k]) x pj (reach_child _ _ _ _ x hr hx ex)). now symmetry.
        -- apply (hbj q); [now apply reach_sub in hr|assumption].
    + destruct z as [|y z].
      * cbn in e2. injection e2 as e2 e3. subst b.
        assert (j = k) by (apply (nk p); [assumption|now symmetry]). subst k.
        apply (hbj p); [now apply reach_self|assumption].
      * cbn in e2. injection e2 as <- e2.
        exact (IH2 p hn' (fun x hx => hl x (or_intror hx)) z k b x e2 hk hx ex hi).
  - inversion hn as [|? ? hj hn']; subst.
    pose proof (hl j (or_introl eq_refl)) as pj.
    destruct (visits_facts _ _ H p hn' (fun x hx => hl x (or_intror hx))) as [n2 r2].
    cbn in e. change (j_name j :: finished h = a ++ j_name k :: b) in e. destruct a as [|y a].
    + cbn in e. injection e as e e3. subst b.
      assert (j = k) by (apply (name_inj d); [apply (sd_doc t hsound)|apply path_snoc_inv in pj; tauto|now apply in_js|assumption]). subst k.
      assert (hxb := Permutation_in _ (visits_finished _ _ H) hi). destruct (r2 _ hxb) as [q' [y hr']].
      apply (reach_disjoint p [j] l (j_name x) (p ++ [j]) x q' y); [|apply reach_child; try assumption; now apply reach_self|assumption].
      intros u [<-|[]]. assumption.
    + cbn in e. injection e as <- e. exact (IH p hn' (fun x hx => hl x (or_intror hx)) a k b x e hk hx ex hi).
Qed.

(** The joints of the list are all visited. *)
Lemma visits_list : forall l h, visits js l h -> forall j, In j l -> In (j_name j) (discovered h).
Proof.
  intros l h H. induction H as [|j l h1 h2 H1 IH1 H2 IH2|j l h H IH]; intros k hk.
  - contradiction.
  - destruct hk as [<-|hk]; [now left|]. right. change (In (j_name k) (discovered (h1 ++ Fin (j_name j) :: h2))).
    rewrite disc_app. apply in_or_app. right. now apply IH2.
  - destruct hk as [<-|hk]; [now left|]. right. now apply IH.
Qed.

Lemma top_level : forall j, In j (below js root) -> path d root ([] ++ [j]) (j_child j).
Proof. intros j hj. apply in_below in hj. destruct hj as [hj e]. constructor; [rewrite e; constructor|now apply in_js]. Qed.

Lemma top_which : forall h, visits js (below js root) h ->
  forall p j, path d root (p ++ [j]) (j_child j) ->
  (In (j_name j) (discovered h) <-> forall k, In k p -> In (Disc (j_name k) true) h).
Proof.
  intros h H p j hj. apply (visits_which (below js root) h H [] (below_nodup root) top_level p j hj).
  destruct (p ++ [j]) as [|k r] eqn:e; [destruct p; discriminate|].
  apply path_cons_inv in hj. destruct hj as [hr [hk _]]. apply in_below. split; [now apply in_js|now symmetry].
Qed.
Lemma top_path : forall h, visits js (below js root) h -> forall n, In n (discovered h) ->
  exists p j, path d root (p ++ [j]) (j_child j) /\ j_name j = n.
Proof.
  intros h H n hn. destruct (visits_facts _ _ H [] (below_nodup root) top_level) as [_ hr].
  destruct (hr n hn) as [q [j [h1 [h2 _]]]]. exists q, j. now split.
Qed.
Lemma top_parent : forall h, visits js (below js root) h ->
  forall h1 j b h2 k, h = h1 ++ Disc (j_name j) b :: h2 -> In j (joints d) -> In k (joints d) ->
  j_parent j = j_child k -> In (Disc (j_name k) true) h1 /\ In (Fin (j_name k)) h2.
Proof.
  intros h H h1 j b h2 k e hj hk ep. pose proof (sd_doc t hsound) as w.
  destruct (visits_parent _ _ H [] (below_nodup root) top_level h1 (j_name j) b h2 e)
    as [[j' [a1 a2]]|[j' [k' [a1 [a2 [a3 [a4 [a5 a6]]]]]]]].
  - exfalso. apply in_below in a1. destruct a1 as [a1 a3]. apply in_js in a1.
    assert (j' = j) by (now apply (name_inj d)). subst j'.
    destruct (is_root_t t hsound) as [_ hr]. apply (hr k hk). congruence.
  - apply in_js in a1. apply in_js in a4. assert (j' = j) by (now apply (name_inj d)). subst j'.
    assert (k' = k) by (apply (child_inj d); try assumption; congruence). subst k'. split; [assumption|].
    assert (hf : In (Fin (j_name k)) h).
    { apply fin_in. apply (Permutation_in (j_name k) (Permutation_sym (visits_finished _ _ H))).
      apply disc_in with true. rewrite e. apply in_or_app. now left. }
    rewrite e in hf. apply in_app_or in hf. destruct hf as [hf|[hf|hf]]; [contradiction|discriminate|assumption].
Qed.

End History.

(** ** Outcome of a traversal *)
Section Outcome.
Variable t : tree T.
Variable V : Type.
Variable doc : V -> list (elem T).
Variable discover : V -> Joint T -> res (V * bool).
Variable finish : V -> Joint T -> res V.
Notation d := (t_doc t).
Notation root := (t_root t).
Hypothesis hsound : sound t.
Hypothesis hd : forall v j v' b, same_graph d (doc v) -> discover v j = Ok (v', b) -> same_graph d (doc v').
Hypothesis hf : forall v j v', same_graph d (doc v) -> finish v j = Ok v' -> same_graph d (doc v').

(** The traversal [r] from [v] stopped at a call that failed. *)
Definition stopped (v : V) (r : res V) : Prop :=
  exists h v1 j, runs doc discover finish v h v1 /\ In j (joints (doc v1)) /\
    ((forall x, discover v1 j <> Ok x) /\ rmap (fun _ => tt) r = rmap (fun _ => tt) (discover v1 j) \/
     (forall x, finish v1 j <> Ok x) /\ rmap (fun _ => tt) r = rmap (fun _ => tt) (finish v1 j)).

Lemma stopped_app : forall v h v1 r, runs doc discover finish v h v1 -> stopped v1 r -> stopped v r.
Proof.
  intros v h v1 r R [h' [v2 [j [R' hs]]]]. exists (h ++ h'), v2, j. split; [|assumption].
  now apply runs_app with (v2 := v1).
Qed.
Lemma stopped_bind : forall v r (g : V -> res V), stopped v r -> (forall x, r <> Ok x) -> stopped v (rbind r g).
Proof.
  intros v r g [h [v1 [j [R [hj hs]]]]] hn. exists h, v1, j. split; [assumption|]. split; [assumption|].
  destruct r; cbn in *; try assumption. exfalso. now apply (hn a).
Qed.

Lemma walk_outcome : forall fuel p link v, path d root p link -> length (joints d) < length p + fuel ->
  same_graph d (doc v) ->
  (exists v' h, wlk t V doc discover finish fuel link v = Ok v' /\ same_graph d (doc v') /\ runs doc discover finish v h v') \/
  ((forall x, wlk t V doc discover finish fuel link v <> Ok x) /\ stopped v (wlk t V doc discover finish fuel link v)).
Proof.
  pose proof (sd_doc t hsound) as w. pose proof (is_root_t t hsound) as hr.
  destruct (resolve d (t_ix t) w (sd_index t hsound)) as [js [hp [_ hc]]].
  induction fuel as [|fuel IH]; intros p link v hpath hlen hv.
  { exfalso. pose proof (path_length d root w hr p link hpath). lia. }
  rewrite wlk_S, (sg_children d (doc v) _ _ w hv), hc. fold (below js link).
  assert (hloop : forall l v, (forall j, In j l -> In j (joints d) /\ j_parent j = link) -> same_graph d (doc v) ->
    (exists v' h, wloop t V doc discover finish fuel (map (@j_name T) l) v = Ok v' /\ same_graph d (doc v') /\ runs doc discover finish v h v') \/
    ((forall x, wloop t V doc discover finish fuel (map (@j_name T) l) v <> Ok x) /\ stopped v (wloop t V doc discover finish fuel (map (@j_name T) l) v))).
  { clear v hv. induction l as [|j l IHl]; intros v hl hv.
    - left. exists v, []. split; [reflexivity|]. split; [assumption|constructor].
    - cbn [map wloop]. destruct (hl j (or_introl eq_refl)) as [hj hpj].
      assert (hpath' : path d root (p ++ [j]) (j_child j)) by (constructor; [now rewrite hpj|assumption]).
      destruct (sg_find d (doc v) (j_name j) w hv j hj eq_refl) as [j1 [e1 [n1 _]]].
      assert (i1 : In j1 (joints (doc v))) by (unfold find_joint in e1; now apply find_some in e1).
      rewrite e1.
      destruct (discover v j1) as [[v1 b]| | |] eqn:ed; cbn [rbind].
      2,3,4: right; split; [discriminate|]; exists [], v, j1; split; [constructor|]; split; [assumption|];
        left; rewrite ed; split; [discriminate|reflexivity].
      pose proof (hd v j1 v1 b hv ed) as hv1.
      assert (R1 : runs doc discover finish v [Disc (j_name j) b] v1).
      { apply runs_disc with (j := j1) (v1 := v1); try assumption. constructor. }
      set (mid := if b then _ else _).
      assert (hmid : (exists v2 h, mid = Ok v2 /\ same_graph d (doc v2) /\ runs doc discover finish v h v2) \/
        ((forall x, mid <> Ok x) /\ stopped v mid)).
      { unfold mid. destruct b; [|left; exists v1, [Disc (j_name j) false]; now split].
        destruct (sg_find d (doc v1) (j_name j) w hv1 j hj eq_refl) as [j2 [e2 [n2 [_ c2]]]].
        rewrite e2, c2. destruct (IH (p ++ [j]) (j_child j) v1) as [[v2 [h [e [s R]]]]|[hn st]]; try assumption.
        - rewrite app_length. cbn. lia.
        - left. exists v2, ([Disc (j_name j) true] ++ h). split; [assumption|]. split; [assumption|].
          now apply runs_app with (v2 := v1).
        - right. split; [assumption|]. now apply stopped_app with (h := [Disc (j_name j) true]) (v1 := v1). }
      destruct hmid as [[v2 [h2 [e2 [hv2 R2]]]]|[hn st]].
      2: { right. split; [|now apply stopped_bind]. intros x hx. destruct mid as [a| | |]; try discriminate. now apply (hn a). }
      rewrite e2. cbn [rbind].
      destruct (sg_find d (doc v2) (j_name j) w hv2 j hj eq_refl) as [j3 [e3 [n3 _]]].
      assert (i3 : In j3 (joints (doc v2))) by (unfold find_joint in e3; now apply find_some in e3).
      rewrite e3. destruct (finish v2 j3) as [v3| | |] eqn:ef; cbn [rbind].
      2,3,4: right; split; [discriminate|]; exists h2, v2, j3; split; [assumption|]; split; [assumption|];
        right; rewrite ef; split; [discriminate|reflexivity].
      pose proof (hf v2 j3 v3 hv2 ef) as hv3.
      assert (R3 : runs doc discover finish v (h2 ++ [Fin (j_name j)]) v3).
      { apply runs_app with (v2 := v2); [assumption|]. apply runs_fin with (j := j3) (v1 := v3); try assumption. constructor. }
      destruct (IHl v3) as [[v4 [h4 [e4 [hv4 R4]]]]|[hn st]]; [intros x hx; apply hl; now right|assumption| |].
      + left. exists v4, ((h2 ++ [Fin (j_name j)]) ++ h4). split; [assumption|]. split; [assumption|].
        now apply runs_app with (v2 := v3).
      + right. split; [assumption|]. now apply stopped_app with (h := h2 ++ [Fin (j_name j)]) (v1 := v3). }
  apply hloop; [|assumption]. intros j hj. apply in_below in hj. destruct hj as [h1 h2].
  split; [now apply (Permutation_in j hp)|assumption].
Qed.
End Outcome.

(** ** Removal of a leaf *)

Lemma joints_filter : forall f d, joints (filter f d) = filter (fun j => f (EJoint j)) (joints d).
Proof.
  intros f d. unfold joints. induction d as [|e d IH]; [reflexivity|]. destruct e as [l|j|s]; cbn.
  - destruct (f (ELink l)); cbn; assumption.
  - destruct (f (EJoint j)); cbn; rewrite IH; reflexivity.
  - destruct (f (EOther s)); cbn; assumption.
Qed.
Lemma links_filter : forall f d, links (filter f d) = filter (fun l => f (ELink l)) (links d).
Proof.
  intros f d. unfold links. induction d as [|e d IH]; [reflexivity|]. destruct e as [l|j|s]; cbn.
  - destruct (f (ELink l)); cbn; rewrite IH; reflexivity.
  - destruct (f (EJoint j)); cbn; assumption.
  - destruct (f (EOther s)); cbn; assumption.
Qed.
Lemma NoDup_map_filter : forall {A B} (f : A -> B) g l, NoDup (map f l) -> NoDup (map f (filter g l)).
Proof.
  intros A B f g l. induction l as [|a l IH]; intros h; [constructor|]. cbn in h. inversion h as [|? ? h1 h2]; subst.
  cbn. destruct (g a); [|now apply IH]. cbn. constructor; [|now apply IH].
  intros hi. apply h1. apply in_map_iff in hi. destruct hi as [b [e hb]]. apply filter_In in hb.
  apply in_map_iff. exists b. tauto.
Qed.

Definition cut d n c : list (elem T) := rm_link (rm_joint d n) c.
Lemma joints_cut : forall d n c k, In k (joints (cut d n c)) <-> In k (joints d) /\ j_name k <> n.
Proof.
  intros d n c k. unfold cut, rm_link, rm_joint. rewrite !joints_filter, !filter_In, negb_true_iff, String.eqb_neq. tauto.
Qed.
Lemma links_cut : forall d n c l, In l (link_names (cut d n c)) <-> In l (link_names d) /\ l <> c.
Proof.
  intros d n c l. unfold link_names, cut, rm_link, rm_joint. rewrite !links_filter, !in_map_iff. split.
  - intros [x [e h]]. rewrite !filter_In, negb_true_iff, String.eqb_neq in h. subst l. split; [exists x; tauto|tauto].
  - intros [[x [e h]] hn]. subst l. exists x. rewrite !filter_In, negb_true_iff, String.eqb_neq. tauto.
Qed.

Lemma no_children : forall d ix l, well_connected d -> Permutation ix (joint_names d) ->
  (children d ix l = [] <-> forall k, In k (joints d) -> j_parent k <> l).
Proof.
  intros d ix l w hp. destruct (resolve d ix w hp) as [js [h1 [_ hc]]]. rewrite hc. split.
  - intros e k hk ek. apply map_eq_nil in e.
    assert (hi : In k (filter (fun j => (j_parent j =? l)%string) js)).
    { apply filter_In. split; [now apply (Permutation_in k (Permutation_sym h1))|]. now apply String.eqb_eq. }
    now rewrite e in hi.
  - intros h. destruct (filter _ js) as [|k r] eqn:e; [reflexivity|]. exfalso.
    assert (hi : In k (filter (fun j => (j_parent j =? l)%string) js)) by (rewrite e; now left).
    apply filter_In in hi. destruct hi as [hi he]. apply String.eqb_eq in he.
    apply (h k); [now apply (Permutation_in k h1)|assumption].
Qed.

Lemma perm_filter : forall {A} (f : A -> bool) l l', Permutation l l' -> Permutation (filter f l) (filter f l').
Proof.
  intros A f l l' h. induction h as [|x l l' h IH|x y l|l l' l'' h1 IH1 h2 IH2]; cbn.
  - constructor.
  - destruct (f x); [now constructor|assumption].
  - destruct (f x), (f y); try apply Permutation_refl. constructor.
  - now apply Permutation_trans with (filter f l').
Qed.

Lemma sound_cut : forall (t : tree T) j, sound t -> In j (joints (t_doc t)) ->
  (forall k, In k (joints (t_doc t)) -> j_parent k <> j_child j) ->
  rm_leaf_joint t (j_name j) =
    Ok (mkTree (cut (t_doc t) (j_name j) (j_child j)) (filter (fun m => negb (m =? j_name j)%string) (t_ix t)) (t_root t)) /\
  sound (mkTree (cut (t_doc t) (j_name j) (j_child j)) (filter (fun m => negb (m =? j_name j)%string) (t_ix t)) (t_root t)).
Proof.
  intros t j hs hj hn. pose proof (sd_doc t hs) as w. split.
  - unfold rm_leaf_joint. rewrite (proj2 (find_joint_iff _ _ _ w) (conj hj eq_refl)).
    rewrite (proj2 (no_children _ _ (j_child j) w (sd_index t hs)) hn).
    destruct (find_link (t_doc t) (j_child j)) as [x|] eqn:e; [reflexivity|]. exfalso.
    pose proof (proj2 (wc_ends _ w j hj)) as hc. unfold link_names in hc. apply in_map_iff in hc. destruct hc as [l [el hl]].
    unfold find_link in e. apply find_none with (x := l) in e; [|assumption]. rewrite el, String.eqb_refl in e. discriminate.
  - constructor; cbn [t_doc t_ix t_root].
    + constructor.
      * unfold link_names, cut, rm_link, rm_joint. rewrite !links_filter. do 2 apply NoDup_map_filter. apply (wc_links _ w).
      * unfold joint_names, cut, rm_link, rm_joint. rewrite !joints_filter. do 2 apply NoDup_map_filter. apply (wc_joints _ w).
      * unfold cut, rm_link, rm_joint. rewrite !joints_filter. do 2 apply NoDup_map_filter. apply (wc_children _ w).
      * intros k hk. apply joints_cut in hk. destruct hk as [hk hne]. destruct (wc_ends _ w k hk) as [e1 e2].
        split; apply links_cut; (split; [assumption|]).
        -- now apply hn.
        -- intros e. apply hne. f_equal. now apply (child_inj (t_doc t)).
    + intros r. rewrite <- (sd_root t hs r). unfold is_root. rewrite links_cut. split.
      * intros [[h1 h2] h3]. split; [assumption|]. intros k hk ek.
        destruct (string_dec (j_name k) (j_name j)) as [e|ne].
        -- assert (k = j) by (now apply (name_inj (t_doc t))). subst k. congruence.
        -- apply (h3 k); [now apply joints_cut|assumption].
      * intros [h1 h2]. split; [split; [assumption|]|].
        -- intros e. now apply (h2 j).
        -- intros k hk. apply joints_cut in hk. now apply h2.
    + apply Permutation_trans with (filter (fun m => negb (m =? j_name j)%string) (joint_names (t_doc t))).
      * apply perm_filter. apply (sd_index t hs).
      * unfold joint_names, cut, rm_link, rm_joint. rewrite !joints_filter.
        assert (e : forall l : list (Joint T), filter (fun _ => true) l = l).
        { induction l as [|a l IH]; [reflexivity|]. cbn. now rewrite IH. }
        rewrite e. clear. induction (joints (t_doc t)) as [|a l IH]; [constructor|]. cbn.
        destruct (negb (j_name a =? j_name j)%string); cbn; [now constructor|assumption].
Qed.

Lemma without_nil : forall d, without d [] = d.
Proof.
  intros d. unfold without.
  assert (h : forall D e, (fun e => match e with
     | EJoint j => negb (mem (j_name j) [])
     | ELink l => negb (existsb (fun j => mem (j_name j) [] && (j_child j =? l_name l)%string)%bool (joints D))
     | EOther _ => true end) (e : elem T) = true).
  { intros D [l|j|s]; try reflexivity. cbn. apply negb_true_iff. induction (joints D); [reflexivity|assumption]. }
  specialize (h d). revert h. generalize (fun e : elem T => match e with
     | EJoint j => negb (mem (j_name j) [])
     | ELink l => negb (existsb (fun j => mem (j_name j) [] && (j_child j =? l_name l)%string)%bool (joints d))
     | EOther _ => true end) as f. intros f h. induction d as [|a l IH]; [reflexivity|]. cbn. now rewrite h, IH.
Qed.

Lemma mem_app : forall s a b, mem s (a ++ b) = (mem s a || mem s b)%bool.
Proof. intros. apply existsb_app. Qed.
Lemma filter_filter : forall {A} (f g : A -> bool) l, filter f (filter g l) = filter (fun x => (g x && f x)%bool) l.
Proof.
  intros A f g l. induction l as [|a l IH]; [reflexivity|]. cbn. destruct (g a); cbn; [|assumption].
  destruct (f a); now rewrite IH.
Qed.
Lemma without_snoc : forall d j L, well_connected d -> In j (joints d) -> ~ In (j_name j) L ->
  without d (L ++ [j_name j]) = without (cut d (j_name j) (j_child j)) L.
Proof.
  intros d j L w hj hn. unfold without at 2. unfold cut at 2, rm_link at 1, rm_joint at 1.
  rewrite !filter_filter. unfold without. apply filter_ext_in.
  intros [l|k|s] he; [| |reflexivity].
  - cbn. rewrite <- negb_orb. f_equal.
    apply eq_true_iff_eq. rewrite orb_true_iff, !existsb_exists, String.eqb_eq. split.
    + intros [k [hk e]]. apply andb_true_iff in e. destruct e as [e1 e2]. rewrite mem_app in e1. apply orb_true_iff in e1.
      apply String.eqb_eq in e2.
      destruct (string_dec (j_name k) (j_name j)) as [en|ne].
      * left. assert (k = j) by (now apply (name_inj d)). subst k. now symmetry.
      * right. exists k. split; [now apply joints_cut|]. rewrite e2, String.eqb_refl, andb_true_r.
        destruct e1 as [e1|e1]; [assumption|]. apply mem_in in e1. destruct e1 as [e1|[]]. congruence.
    + intros [e|[k [hk e]]].
      * exists j. split; [assumption|]. rewrite mem_app. apply andb_true_iff. split; [|now apply String.eqb_eq].
        apply orb_true_iff. right. apply mem_in. now left.
      * exists k. apply joints_cut in hk. split; [tauto|]. apply andb_true_iff in e. rewrite mem_app. rewrite (proj1 e). cbn. tauto.
  - cbn. rewrite mem_app, negb_orb. cbn. rewrite orb_false_r, ?andb_true_r. apply andb_comm.
Qed.

Lemma rm_leaves_ok : forall L (t : tree T), sound t -> NoDup L -> (forall n, In n L -> In n (joint_names (t_doc t))) ->
  (forall j k, In j (joints (t_doc t)) -> In k (joints (t_doc t)) -> j_parent k = j_child j -> In (j_name j) L ->
     exists L1 L2, L = L1 ++ j_name j :: L2 /\ In (j_name k) L2) ->
  exists t', rm_leaves t (rev L) = Ok t' /\ sound t' /\ t_doc t' = without (t_doc t) L /\ t_root t' = t_root t.
Proof.
  induction L as [|n L IH] using rev_ind; intros t hs hnd hin hord.
  - exists t. cbn [rev rm_leaves]. rewrite without_nil. split; [reflexivity|]. split; [assumption|]. now split.
  - rewrite rev_app_distr. cbn [rev app rm_leaves].
    assert (hn : In n (joint_names (t_doc t))) by (apply hin, in_or_app; right; now left).
    unfold joint_names in hn. apply in_map_iff in hn. destruct hn as [j [en hj]]. subst n.
    assert (nL : ~ In (j_name j) L).
    { apply NoDup_remove_2 in hnd. now rewrite app_nil_r in hnd. }
    assert (split2 : forall n L1 L2, L ++ [j_name j] = L1 ++ n :: L2 ->
      (n = j_name j /\ L2 = []) \/ exists L3, L2 = L3 ++ [j_name j] /\ L = L1 ++ n :: L3).
    { intros n L1 L2 e. destruct L2 as [|x L2 _] using rev_ind.
      - apply app_inj_tail in e. left. split; [symmetry; tauto|reflexivity].
      - right. exists L2. change (L1 ++ n :: L2 ++ [x]) with (L1 ++ (n :: L2) ++ [x]) in e. rewrite app_assoc in e.
        apply app_inj_tail in e. destruct e as [-> ->]. now split. }
    destruct (sound_cut t j hs hj) as [e1 s1].
    { intros k hk ek. destruct (hord j k hj hk ek) as [L1 [L2 [e hk2]]]; [apply in_or_app; right; now left|].
      destruct (split2 _ _ _ e) as [[_ ->]|[L3 [-> e3]]]; [contradiction|].
      apply nL. rewrite e3. apply in_or_app. right. now left. }
    rewrite e1. cbn [rbind].
    destruct (IH _ s1) as [t' [e' [s' [d' r']]]].
    + apply NoDup_remove_1 in hnd. now rewrite app_nil_r in hnd.
    + cbn [t_doc]. intros n hn. assert (hn' : In n (joint_names (t_doc t))) by (apply hin, in_or_app; now left).
      unfold joint_names in *. apply in_map_iff in hn'. destruct hn' as [k [ek hk]]. apply in_map_iff. exists k. split; [assumption|].
      apply joints_cut. split; [assumption|]. congruence.
    + cbn [t_doc]. intros x k hx hk ep hxL. apply joints_cut in hx. apply joints_cut in hk.
      destruct (hord x k (proj1 hx) (proj1 hk) ep) as [L1 [L2 [e hk2]]]; [apply in_or_app; now left|].
      destruct (split2 _ _ _ e) as [[ee _]|[L3 [-> e3]]]; [tauto|].
      exists L1, L3. split; [assumption|]. apply in_app_or in hk2. destruct hk2 as [hk2|[hk2|[]]]; [assumption|].
      exfalso. apply (proj2 hk). now symmetry.
    + exists t'. split; [assumption|]. split; [assumption|]. split; [|assumption].
      rewrite d'. cbn [t_doc]. symmetry. apply without_snoc; try assumption. apply (sd_doc t hs).
Qed.

(** ** Which joints are listed *)
Section Listed.
Variable t : tree T.
Variable pred : Joint T -> bool.
Notation d := (t_doc t).
Notation root := (t_root t).
Hypothesis hsound : sound t.
Variable js : list (Joint T).
Hypothesis hp : Permutation js (joints d).

Definition cnt (p : list (Joint T)) : Z := Z.of_nat (length (filter pred p)).
Lemma cnt_snoc : forall p j, cnt (p ++ [j]) = if pred j then (cnt p + 1)%Z else cnt p.
Proof.
  intros p j. unfold cnt. rewrite filter_app, app_length. cbn. destruct (pred j); cbn [length]; lia.
Qed.
Lemma cnt_pos : forall p, (0 < cnt p)%Z <-> exists k, In k p /\ pred k = true.
Proof.
  intros p. unfold cnt. split.
  - intros h. destruct (filter pred p) as [|k r] eqn:e; [cbn in h; lia|]. exists k.
    apply filter_In. rewrite e. now left.
  - intros [k hk]. apply filter_In in hk. destruct (filter pred p); [contradiction|]. cbn [length]. lia.
Qed.
Lemma condemned_iff : forall p j, path d root (p ++ [j]) (j_child j) ->
  (condemned d root pred (j_name j) <-> (0 < cnt (p ++ [j]))%Z).
Proof.
  intros p j h. rewrite cnt_pos. split.
  - intros [p' [j' [h' [e hk]]]]. destruct (joint_path_unique t hsound p' p j' j h' h e) as [-> ->]. assumption.
  - intros hk. exists p, j. now repeat split.
Qed.

Notation ldoc := (fun _ : Z * list string => d).
Notation rns := (runs ldoc (lj_discover pred) (lj_finish pred)).
Lemma runs_split : forall {V} doc disc fin h1 h2 (v v' : V), runs (T := T) doc disc fin v (h1 ++ h2) v' ->
  exists v1, runs doc disc fin v h1 v1 /\ runs doc disc fin v1 h2 v'.
Proof.
  intros V doc disc fin h1. induction h1 as [|e h1 IH]; intros h2 v v' R; [exists v; split; [constructor|assumption]|].
  cbn in R. inversion R as [|? n j v1 b ? ? a1 a2 a3 a4|? n j v1 ? ? a1 a2 a3 a4]; subst.
  - destruct (IH _ _ _ a4) as [v2 [b1 b2]]. exists v2. split; [|assumption]. now apply runs_disc with (j := j) (v1 := v1).
  - destruct (IH _ _ _ a4) as [v2 [b1 b2]]. exists v2. split; [|assumption]. now apply runs_fin with (j := j) (v1 := v1).
Qed.

Lemma listed : forall l h, visits js l h ->
  forall p, NoDup l -> (forall j, In j l -> path d root (p ++ [j]) (j_child j)) ->
  forall names v', rns (cnt p, names) h v' ->
  exists L, v' = (cnt p, names ++ L) /\ NoDup L /\
    (forall n, In n L <-> In n (discovered h) /\ condemned d root pred n) /\
    (forall x k, In (j_name x) L -> In x (joints d) -> In k (joints d) -> j_parent k = j_child x ->
       exists L1 L2, L = L1 ++ j_name x :: L2 /\ In (j_name k) L2) /\
    (forall r j, path d root (p ++ r ++ [j]) (j_child j) -> match r ++ [j] with k :: _ => In k l | [] => False end ->
       In (j_name j) (discovered h)).
Proof.
  intros l h H. induction H as [|j l h1 h2 H1 IH1 H2 IH2|j l h H IH]; intros p hn hl names v' R.
  - inversion R; subst. exists []. rewrite app_nil_r. split; [reflexivity|]. split; [constructor|].
    split; [cbn; tauto|]. split; [intros x k []|]. intros r j _ hx. destruct (r ++ [j]); contradiction.
  - inversion hn as [|? ? hj hn']; subst. pose proof (sd_doc t hsound) as w.
    pose proof (hl j (or_introl eq_refl)) as pj.
    pose proof (below_nodup t hsound js hp (j_child j)) as bn. pose proof (level_below t js hp p j pj) as bl.
    destruct (visits_facts t hsound js hp _ _ H1 (p ++ [j]) bn bl) as [n1 r1].
    destruct (visits_facts t hsound js hp _ _ H2 p hn' (fun x hx => hl x (or_intror hx))) as [n2 r2].
    assert (hjd : In j (joints d)) by (apply path_snoc_inv in pj; tauto).
    inversion R as [|? ? j1 v1 ? ? ? i1 en1 ed R1|]; subst. cbn beta in i1.
    assert (j1 = j) by (now apply (name_inj d)). subst j1.
    unfold lj_discover in ed. cbn [fst snd] in ed. rewrite <- cnt_snoc in ed. injection ed as ev1. clear en1.
    apply runs_split in R1. destruct R1 as [v2 [R1 R2]].
    set (La := if (0 <? cnt (p ++ [j]))%Z then [j_name j] else []).
    assert (ev1' : v1 = (cnt (p ++ [j]), names ++ La)).
    { rewrite <- ev1. f_equal. unfold La. destruct (0 <? cnt (p ++ [j]))%Z; [reflexivity|now rewrite app_nil_r]. }
    rewrite ev1' in R1. clear ev1 ev1'.
    destruct (IH1 (p ++ [j]) bn bl _ _ R1) as [L1 [e1 [d1 [c1 [o1 w1]]]]]. subst v2.
    inversion R2 as [| |? ? j1 v3 ? ? i1' en1 ef R3]; subst. cbn beta in i1'.
    assert (j1 = j) by (now apply (name_inj d)). subst j1.
    unfold lj_finish in ef. cbn [fst snd] in ef.
    assert (ec : (if pred j then (cnt (p ++ [j]) - 1)%Z else cnt (p ++ [j])) = cnt p)
      by (rewrite cnt_snoc; destruct (pred j); lia).
    rewrite ec in ef. destruct (0 <=? cnt p)%Z; [|discriminate]. injection ef as <-.
    destruct (IH2 p hn' (fun x hx => hl x (or_intror hx)) _ _ R3) as [L2 [e2 [d2 [c2 [o2 w2]]]]].
    assert (ed : discovered (Disc (j_name j) true :: h1 ++ Fin (j_name j) :: h2) =
      j_name j :: discovered h1 ++ discovered h2) by (cbn; now rewrite disc_app).
    pose proof (condemned_iff p j pj) as hcj.
    assert (cLa : forall n, In n La <-> n = j_name j /\ condemned d root pred n).
    { intros n. unfold La. destruct (0 <? cnt (p ++ [j]))%Z eqn:ez.
      - apply Z.ltb_lt in ez. split; [intros [<-|[]]; tauto|intros [-> _]; now left].
      - apply Z.ltb_ge in ez. split; [contradiction|]. intros [-> hc]. apply hcj in hc. lia. }
    assert (nj1 : ~ In (j_name j) (discovered h1)).
    { intros hi. destruct (r1 _ hi) as [q [k hr]]. now apply (reach_not_self t hsound p j _ _ q k pj hr). }
    assert (nj2 : ~ In (j_name j) (discovered h2)).
    { intros hi. destruct (r2 _ hi) as [q [k hr]].
      apply (reach_disjoint t hsound p [j] l (j_name j) p j q k); [|now apply reach_self|assumption].
      intros x [<-|[]]. assumption. }
    assert (n12 : forall n, In n (discovered h1) -> In n (discovered h2) -> False).
    { intros n k1 k2. destruct (r1 n k1) as [q1 [x1 hr1]], (r2 n k2) as [q2 [x2 hr2]]. apply reach_sub in hr1.
      apply (reach_disjoint t hsound p [j] l n q1 x1 q2 x2); [|assumption|assumption].
      intros x [<-|[]]. assumption. }
    exists (La ++ L1 ++ L2). split; [rewrite e2; now rewrite <- !app_assoc|].
    assert (happ : forall (a b : list string), NoDup a -> NoDup b -> (forall x, In x a -> In x b -> False) -> NoDup (a ++ b)).
    { induction a as [|x a IHa]; intros b ha hb hd; [assumption|]. inversion ha; subst. cbn. constructor.
      - intros hx. apply in_app_or in hx. destruct hx as [hx|hx]; [contradiction|]. apply (hd x); [now left|assumption].
      - apply IHa; try assumption. intros y hy. apply hd. now right. }
    split; [|split; [|split]].
    + apply happ; [unfold La; destruct (0 <? cnt (p ++ [j]))%Z; repeat constructor; intros [] | |].
      * apply happ; try assumption. intros n k1 k2. apply c1 in k1. apply c2 in k2. exact (n12 n (proj1 k1) (proj1 k2)).
      * intros n k1 k2. apply cLa in k1. destruct k1 as [-> _]. apply in_app_or in k2. destruct k2 as [k2|k2].
        -- apply c1 in k2. tauto.
        -- apply c2 in k2. tauto.
    + intros n. rewrite ed, !in_app_iff, cLa, c1, c2. cbn [In]. rewrite in_app_iff. split; [intros [[-> k1]|[k1|k1]]; tauto|intros [[<-|[k1|k1]] k2]; tauto].
    + intros x k hx ix ik ep. apply in_app_or in hx. destruct hx as [hx|hx].
      * apply cLa in hx. destruct hx as [en hc]. assert (x = j) by (now apply (name_inj d)). subst x.
        apply hcj in hc. assert (eLa : La = [j_name j]) by (unfold La; apply Z.ltb_lt in hc; now rewrite hc).
        rewrite eLa. exists [], (L1 ++ L2). split; [reflexivity|]. apply in_or_app. left.
        assert (kb : In k (below js (j_child j))) by (apply in_below; split; [now apply (in_js t js hp)|assumption]).
        apply c1. split; [now apply (visits_list js _ _ H1)|].
        apply (condemned_iff (p ++ [j]) k (bl k kb)). rewrite cnt_snoc. destruct (pred k); lia.
      * apply in_app_or in hx. destruct hx as [hx|hx].
        -- destruct (o1 x k hx ix ik ep) as [A [B [eA hB]]]. exists (La ++ A), (B ++ L2).
           split; [rewrite eA, <- !app_assoc; reflexivity|apply in_or_app; now left].
        -- destruct (o2 x k hx ix ik ep) as [A [B [eA hB]]]. exists (La ++ L1 ++ A), B.
           split; [rewrite eA, <- !app_assoc; reflexivity|assumption].
    + intros r x hx hfst. rewrite ed. destruct r as [|k r].
      * cbn [app] in hfst, hx. destruct hfst as [<-|hfst]; [now left|]. right. apply in_or_app. right.
        exact (w2 [] x hx hfst).
      * cbn [app] in hfst, hx. right. apply in_or_app. destruct hfst as [<-|hfst].
        -- left. assert (hx' : path d root ((p ++ [j]) ++ r ++ [x]) (j_child x)) by (rewrite <- app_assoc; exact hx).
           apply (w1 r x hx').
           destruct (path_split _ _ (p ++ [j]) (r ++ [x]) _ hx') as [b [hb hb2]].
           apply path_snoc_inv in hb. destruct hb as [-> _].
           destruct (r ++ [x]) as [|k0 r0] eqn:er; [destruct r; discriminate|].
           apply path_cons_inv in hb2. destruct hb2 as [eb [hk0 _]]. apply in_below. split; [now apply (in_js t js hp)|now symmetry].
        -- right. exact (w2 (k :: r) x hx hfst).
  - exfalso. inversion R as [|? ? j1 v1 ? ? ? i1 en1 ed R1|]; subst. unfold lj_discover in ed. discriminate.
Qed.

End Listed.

Section Removal.
Variable t : tree T.
Variable pred : Joint T -> bool.
Notation d := (t_doc t).
Notation root := (t_root t).
Hypothesis hsound : sound t.
Notation ldoc := (fun _ : Z * list string => d).

Lemma removal : exists t' names, removeSubTreeIfJoint t pred = Ok (t', names) /\
  NoDup names /\ (forall n, In n names <-> condemned d root pred n) /\
  t_doc t' = without d names /\ t_root t' = root /\ sound t'.
Proof.
  pose proof (sd_doc t hsound) as w.
  set (Inv := fun (p : list (Joint T)) (v : Z * list string) => fst v = cnt pred p).
  destruct (walk_total t (Z * list string) ldoc (lj_discover pred) (lj_finish pred) hsound Inv) with
    (fuel := Datatypes.S (length (joints d))) (p := @nil (Joint T)) (link := root) (v := (0%Z, @nil string)) as [v' [ew iv]].
  - intros p v _. apply sg_refl.
  - intros p v j j' hpath iv hj' en. assert (hjd : In j (joints d)) by (apply path_snoc_inv in hpath; tauto).
    assert (j' = j) by (now apply (name_inj d)). subst j'.
    eexists _, _. split; [reflexivity|]. unfold Inv in *. cbn. rewrite iv, cnt_snoc. reflexivity.
  - intros p v j j' hpath iv hj' en. assert (hjd : In j (joints d)) by (apply path_snoc_inv in hpath; tauto).
    assert (j' = j) by (now apply (name_inj d)). subst j'.
    exists (cnt pred p, snd v). split; [|reflexivity]. unfold lj_finish, Inv in *. rewrite iv.
    assert (ec : (if pred j then (cnt pred (p ++ [j]) - 1)%Z else cnt pred (p ++ [j])) = cnt pred p)
      by (rewrite cnt_snoc; destruct (pred j); lia).
    rewrite ec. destruct (0 <=? cnt pred p)%Z eqn:ez; [reflexivity|]. apply Z.leb_gt in ez. unfold cnt in ez. lia.
  - constructor.
  - cbn. lia.
  - reflexivity.
  - unfold removeSubTreeIfJoint, traverse_joints. unfold wlk in ew. rewrite ew. cbn [rbind].
    destruct (resolve d (t_ix t) w (sd_index t hsound)) as [ks [hks [_ hc]]].
    destruct (walk_runs t (Z * list string) ldoc (lj_discover pred) (lj_finish pred) hsound ks hks hc
      (fun _ _ _ _ _ _ => sg_refl d) (fun _ _ _ _ _ => sg_refl d) _ _ _ _ (sg_refl d) ew) as [_ [h [R vi]]].
    assert (hlist : exists L, v' = (cnt pred [], [] ++ L) /\ NoDup L /\
      (forall n, In n L <-> In n (discovered h) /\ condemned d root pred n) /\
      (forall x k, In (j_name x) L -> In x (joints d) -> In k (joints d) -> j_parent k = j_child x ->
         exists L1 L2, L = L1 ++ j_name x :: L2 /\ In (j_name k) L2) /\
      (forall r j, path d root ([] ++ r ++ [j]) (j_child j) -> match r ++ [j] with k :: _ => In k (below ks root) | [] => False end ->
         In (j_name j) (discovered h))).
    { exact (listed t pred hsound ks hks _ h vi [] (below_nodup t hsound ks hks root)
        (top_level t ks hks) [] v' R). }
    destruct hlist as [L [ev [nd [hL [ho hdsc]]]]]. subst v'. cbn [snd app].
    destruct (rm_leaves_ok L t hsound nd) as [t' [e' [s' [d' r']]]].
    + intros n hn. apply hL in hn. destruct hn as [_ [p [j [hpj [en _]]]]]. subst n.
      unfold joint_names. apply in_map. apply path_snoc_inv in hpj. tauto.
    + intros j k hj hk ep hn. exact (ho j k hn hj hk ep).
    + rewrite e'. cbn [rbind]. exists t', L. split; [reflexivity|]. split; [assumption|]. split; [|split; [assumption|split; assumption]].
      intros n. rewrite hL. split; [tauto|]. intros hc'. split; [|assumption].
      destruct hc' as [p [j [hpj [en _]]]]. subst n. apply (hdsc p j hpj).
      destruct (p ++ [j]) as [|k r] eqn:e; [destruct p; discriminate|].
      apply path_cons_inv in hpj. destruct hpj as [hr [hk _]]. apply in_below.
      split; [now apply (Permutation_in k (Permutation_sym hks))|now symmetry].
Qed.
End Removal.
End S.


Lemma C46_document_order_proof : forall {T V} (d : list (elem T)) t (doc : V -> list (elem T)) discover finish v v',
  ctor d = Ok t ->
  (forall u j u' b, same_graph d (doc u) -> discover u j = Ok (u', b) -> same_graph d (doc u')) ->
  (forall u j u', same_graph d (doc u) -> finish u j = Ok u' -> same_graph d (doc u')) ->
  same_graph d (doc v) -> traverse_joints t doc discover finish v = Ok v' ->
  exists h, runs doc discover finish v h v' /\
    visits (joints d) (filter (fun j => j_parent j =? t_root t)%string (joints d)) h.
Proof.
  intros T V d t doc discover finish v v' e hd hf hv ew.
  destruct (C44_or_throws_proof d) as [[_ [t' [e' [ed [_ hs]]]]]|[_ e']]; [|congruence].
  rewrite e in e'. injection e' as <-.
  assert (hi : forall l, children (t_doc t) (t_ix t) l = map (@j_name T) (below (joints d) l)).
  { destruct (ctor_eq d) as [[[w _] [r [_ e']]]|[_ e']]; [|congruence]. rewrite e in e'. injection e' as ->. cbn.
    intros l. now apply index_children. }
  subst d. unfold traverse_joints in ew.
  destruct (walk_runs t V doc discover finish hs (joints (t_doc t)) (Permutation_refl _) hi hd hf _ _ _ _ hv ew) as [_ [h hh]].
  now exists h.
Qed.


Lemma C46_once_proof : forall {T V} (t : tree T) (doc : V -> list (elem T)) discover finish v v',
  sound t ->
  (forall u j u' b, same_graph (t_doc t) (doc u) -> discover u j = Ok (u', b) -> same_graph (t_doc t) (doc u')) ->
  (forall u j u', same_graph (t_doc t) (doc u) -> finish u j = Ok u' -> same_graph (t_doc t) (doc u')) ->
  same_graph (t_doc t) (doc v) -> traverse_joints t doc discover finish v = Ok v' ->
  exists h, runs doc discover finish v h v' /\
    NoDup (discovered h) /\ Permutation (finished h) (discovered h) /\
    (forall p j, path (t_doc t) (t_root t) (p ++ [j]) (j_child j) ->
       (In (j_name j) (discovered h) <-> forall k, In k p -> In (Disc (j_name k) true) h)) /\
    (forall n, In n (discovered h) ->
       exists p j, path (t_doc t) (t_root t) (p ++ [j]) (j_child j) /\ j_name j = n) /\
    (forall h1 j b h2 k, h = h1 ++ Disc (j_name j) b :: h2 ->
       In j (joints (t_doc t)) -> In k (joints (t_doc t)) -> j_parent j = j_child k ->
       In (Disc (j_name k) true) h1 /\ In (Fin (j_name k)) h2) /\
    (forall a k b j, finished h = a ++ j_name k :: b ->
       In k (joints (t_doc t)) -> In j (joints (t_doc t)) -> j_parent j = j_child k -> ~ In (j_name j) b).
Proof.
  intros T V t doc discover finish v v' hs hd hf hv ew. unfold traverse_joints in ew.
  destruct (resolve (t_doc t) (t_ix t) (sd_doc t hs) (sd_index t hs)) as [js [hp [_ hc]]].
  destruct (walk_runs t V doc discover finish hs js hp hc hd hf _ _ _ _ hv ew) as [_ [h [R vi]]].
  exists h. split; [assumption|].
  split; [exact (proj1 (visits_facts t hs js hp _ _ vi [] (below_nodup t hs js hp _) (top_level t js hp)))|].
  split; [exact (visits_finished js _ _ vi)|].
  split; [intros p j hj; exact (top_which t hs js hp h vi p j hj)|].
  split; [exact (top_path t hs js hp h vi)|].
  split; [intros h1 j b h2 k e hj hk ep; exact (top_parent t hs js hp h vi h1 j b h2 k e hj hk ep)|].
  intros a k b j e hk hj ep. apply (visits_last t hs js hp _ _ vi [] (below_nodup t hs js hp _) (top_level t js hp) a k b j e); try assumption;
    now apply (in_js t js hp).
Qed.


Lemma C46_every_joint_proof : forall {T V} (t : tree T) (doc : V -> list (elem T)) discover finish v v',
  sound t -> (forall c, ~ above (t_doc t) c c) ->
  (forall u j u' b, same_graph (t_doc t) (doc u) -> discover u j = Ok (u', b) ->
     same_graph (t_doc t) (doc u') /\ b = true) ->
  (forall u j u', same_graph (t_doc t) (doc u) -> finish u j = Ok u' -> same_graph (t_doc t) (doc u')) ->
  same_graph (t_doc t) (doc v) -> traverse_joints t doc discover finish v = Ok v' ->
  exists h, runs doc discover finish v h v' /\
    Permutation (discovered h) (joint_names (t_doc t)) /\ Permutation (finished h) (joint_names (t_doc t)).
Proof.
  intros T V t doc discover finish v v' hs hl hd hf hv ew.
  destruct (C46_once_proof t doc discover finish v v' hs (fun u j u' b h e => proj1 (hd u j u' b h e)) hf hv ew)
    as [h [R [nd [pf [hw [hp _]]]]]].
  exists h. split; [assumption|].
  assert (P : Permutation (discovered h) (joint_names (t_doc t))).
  { apply NoDup_Permutation; [assumption|apply (wc_joints _ (sd_doc t hs))|].
    assert (ht : forall n b, In (Disc n b) h -> b = true).
    { assert (hg : forall u h u', runs doc discover finish u h u' -> same_graph (t_doc t) (doc u) -> forall n b, In (Disc n b) h -> b = true).
      { intros u g u' R'. induction R' as [|u n j u1 b g u' hi hn e R' IH|u n j u1 g u' hi hn e R' IH]; intros hu m c hm.
        - contradiction.
        - destruct hm as [hm|hm]; [injection hm as _ <-; now apply (hd u j u1)|]. apply (IH (proj1 (hd u j u1 b hu e)) m c hm).
        - destruct hm as [hm|hm]; [discriminate|]. apply (IH (hf u j u1 hu e) m c hm). }
      exact (hg v h v' R hv). }
    assert (hdb : forall n, In n (discovered h) -> In (Disc n true) h).
    { intros n hn. unfold discovered in hn. apply in_flat_map in hn. destruct hn as [[m b|m] [h1 h2]]; [|contradiction].
      destruct h2 as [->|[]]. rewrite <- (ht n b h1) at 1. assumption. }
    intros n. split.
    - intros hn. destruct (hp n hn) as [p [j [hpj <-]]]. unfold joint_names. apply in_map.
      apply path_snoc_inv in hpj. tauto.
    - intros hn. unfold joint_names in hn. apply in_map_iff in hn. destruct hn as [j [<- hj]].
      destruct (link_cases (t_doc t) (t_root t) (sd_doc t hs) (proj2 (sd_root t hs _) eq_refl)
        (fun x hx => proj1 (sd_root t hs x) hx) (j_parent j) (proj1 (wc_ends _ (sd_doc t hs) j hj))) as [[p hpj]|[c [p [hc _]]]].
      + assert (hall : forall p l, path (t_doc t) (t_root t) p l -> forall k, In k p -> In (j_name k) (discovered h)).
        { induction p0 as [|x q IH] using rev_ind; intros l hq k hk; [contradiction|].
          pose proof hq as hq'. apply path_snoc_inv in hq'. destruct hq' as [-> [_ hq']].
          apply in_app_or in hk. destruct hk as [hk|[<-|[]]]; [exact (IH _ hq' k hk)|].
          apply (hw q x hq). intros y hy. apply hdb. exact (IH _ hq' y hy). }
        apply (hall (p ++ [j]) (j_child j)); [now constructor|]. apply in_or_app. right. now left.
      + exfalso. exact (hl c hc). }
  split; [assumption|]. now apply Permutation_trans with (discovered h).
Qed.


Lemma C46_ends_proof : forall {T V} (t : tree T) (doc : V -> list (elem T)) discover finish v,
  sound t ->
  (forall u j u' b, same_graph (t_doc t) (doc u) -> discover u j = Ok (u', b) -> same_graph (t_doc t) (doc u')) ->
  (forall u j u', same_graph (t_doc t) (doc u) -> finish u j = Ok u' -> same_graph (t_doc t) (doc u')) ->
  same_graph (t_doc t) (doc v) ->
  (exists v', traverse_joints t doc discover finish v = Ok v') \/
  (exists h v1 j, runs doc discover finish v h v1 /\ In j (joints (doc v1)) /\
     ((forall x, discover v1 j <> Ok x) /\
      rmap (fun _ => tt) (traverse_joints t doc discover finish v) = rmap (fun _ => tt) (discover v1 j) \/
      (forall x, finish v1 j <> Ok x) /\
      rmap (fun _ => tt) (traverse_joints t doc discover finish v) = rmap (fun _ => tt) (finish v1 j))).
Proof.
  intros T V t doc discover finish v hs hd hf hv.
  destruct (walk_outcome t V doc discover finish hs hd hf (Datatypes.S (length (joints (t_doc t)))) [] (t_root t) v)
    as [[v' [h [e _]]]|[_ st]].
  - constructor.
  - cbn. lia.
  - assumption.
  - left. now exists v'.
  - right. exact st.
Qed.


Lemma C46_loop_refuted_proof :
  exists (d : list (elem nat)) t, ctor d = Ok t /\ joints d <> [] /\
    traverse_joints t (fun _ => d) (fun (v : list string) j => Ok (v ++ [j_name j], true)) (fun v _ => Ok v) [] = Ok [].
Proof.
  exists [ELink (mkLink "base" None [] []); ELink (mkLink "a" None [] []); ELink (mkLink "b" None [] []);
          EJoint (mkJoint "ab" "fixed" "a" "b" None None None); EJoint (mkJoint "ba" "fixed" "b" "a" None None None)].
  eexists. split; [vm_compute; reflexivity|]. split; [discriminate|]. vm_compute. reflexivity.
Qed.


Lemma C47_removed_proof : forall {T} (t : tree T) pred, sound t ->
  exists t' names, removeSubTreeIfJoint t pred = Ok (t', names) /\
    NoDup names /\ (forall n, In n names <-> condemned (t_doc t) (t_root t) pred n) /\
    t_doc t' = without (t_doc t) names /\ t_root t' = t_root t /\ sound t'.
Proof. intros T t pred hs. exact (removal t pred hs). Qed.


Lemma C47_dangling_mimic_proof :
  exists (d : list (elem nat)) t pred t' names, ctor d = Ok t /\
    removeSubTreeIfJoint t pred = Ok (t', names) /\
    ctor (t_doc t') = Throw /\ is_mimic_tree_flat t = Ok true /\ is_mimic_tree_flat t' = Abort.
Proof.
  exists [ELink (mkLink "base" None [] []); ELink (mkLink "a" None [] []); ELink (mkLink "b" None [] []);
          EJoint (mkJoint "ja" "revolute" "base" "a" None None None);
          EJoint (mkJoint "jb" "revolute" "base" "b" None None (Some "ja"%string))].
  eexists. exists (fun j => (j_name j =? "ja")%string). eexists. eexists.
  split; [vm_compute; reflexivity|]. split; [vm_compute; reflexivity|]. vm_compute. repeat split.
Qed.

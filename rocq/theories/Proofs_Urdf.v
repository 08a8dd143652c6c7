(** * Lemmas for Props_Urdf *)

From Coq Require Import String List Bool Relations Permutation Lia Arith Wellfounded.
Import ListNotations.
From Verif Require Import Scalar Model_Rigid Model_Average Model_Pose Model_Urdf Spec_Urdf.

Section S.
Context {T : Type}.
Implicit Types d : list (elem T).
Implicit Types j k : Joint T.

Lemma mem_in : forall s l, mem s l = true <-> In s l.
Proof.
  intros s l. unfold mem. rewrite existsb_exists. split.
  - intros [x [hx e]]. apply String.eqb_eq in e. now subst.
  - intros h. exists s. split; [assumption|apply String.eqb_refl].
Qed.
Lemma mem_nin : forall s l, mem s l = false <-> ~ In s l.
Proof.
  intros s l. rewrite <- mem_in. destruct (mem s l); split; intros h; congruence.
Qed.
Lemma ex_name : forall {A} (f : A -> string) s l,
  existsb (fun x => (f x =? s)%string) l = true <-> In s (map f l).
Proof.
  intros A f s l. rewrite existsb_exists, in_map_iff. split; intros [x [h1 h2]]; exists x.
  - apply String.eqb_eq in h2. tauto.
  - split; [assumption|]. now apply String.eqb_eq.
Qed.
Lemma ex_nname : forall {A} (f : A -> string) s l,
  existsb (fun x => (f x =? s)%string) l = false <-> ~ In s (map f l).
Proof.
  intros A f s l. rewrite <- ex_name. destruct (existsb _ l); split; intros h; congruence.
Qed.

(** ** Links *)

Lemma ctor_links_eq : forall d acc, NoDup acc ->
  (NoDup (acc ++ link_names d) /\ ctor_links d acc = Ok (acc ++ link_names d)) \/
  (~ NoDup (acc ++ link_names d) /\ ctor_links d acc = Throw).
Proof.
  induction d as [|e d IH]; intros acc ha.
  - left. cbn. rewrite app_nil_r. split; [assumption|reflexivity].
  - destruct e as [l|j|s]; cbn [ctor_links]; try exact (IH acc ha).
    replace (acc ++ link_names (ELink l :: d)) with ((acc ++ [l_name l]) ++ link_names d)
      by (unfold link_names; cbn [links flat_map]; cbn; rewrite <- app_assoc; reflexivity).
    destruct (mem (l_name l) acc) eqn:e.
    + right. split; [|reflexivity]. intros h.
      rewrite <- app_assoc in h. cbn in h. apply NoDup_remove_2 in h. apply h.
      apply in_or_app. left. now apply mem_in.
    + apply IH. apply mem_nin in e.
      rewrite <- (rev_involutive (acc ++ [l_name l])). apply NoDup_rev.
      rewrite rev_app_distr. cbn. constructor; [now rewrite <- in_rev|now apply NoDup_rev].
Qed.

(** ** Joints *)

Lemma tm_two : forall (js : list (Joint T)) lhs rhs f,
  transitively_mimics (Datatypes.S (Datatypes.S f)) js lhs rhs =
  Ok (existsb (fun k => match j_mimic k with Some m => (m =? rhs)%string | None => false end) js).
Proof.
  intros js lhs rhs f.
  set (range := filter (fun j => match j_mimic j with Some m => (m =? rhs)%string | None => false end) js).
  assert (h1 : forall x g, transitively_mimics (Datatypes.S g) js x rhs =
    (fix loop (range : list (Joint T)) : res bool :=
         match range with
         | [] => Ok false
         | j :: r =>
             if (j_name j =? x)%string then Ok true
             else let! b := transitively_mimics g js (j_name j) rhs in
                  if b then Ok true else loop r
         end) range) by reflexivity.
  rewrite h1.
  assert (h0 : forall P, existsb P js = match filter P js with [] => false | _ => true end).
  { intros P. induction js as [|a js IH]; [reflexivity|]. cbn. destruct (P a); [reflexivity|].
    cbn. apply IH; intros; reflexivity. }
  rewrite h0. fold range. destruct range as [|a r] eqn:er; [reflexivity|].
  destruct (j_name a =? lhs)%string eqn:e; [reflexivity|].
  rewrite h1. cbn [rbind]. rewrite String.eqb_refl. reflexivity.
Qed.

(** What one joint has to satisfy when [js] have been added. *)
Definition mimic_ok (js : list (Joint T)) j : Prop :=
  forall m, j_mimic j = Some m -> m <> j_name j /\
    (In m (map (@j_name T) js) -> forall k, In k js -> j_mimic k <> Some (j_name j)).
Definition joint_ok (names : list string) (js : list (Joint T)) j : Prop :=
  ~ In (j_name j) (map (@j_name T) js) /\ In (j_parent j) names /\ In (j_child j) names /\
  ~ In (j_child j) (map (@j_child T) js) /\ mimic_ok js j.
Definition roots_of (names : list string) (js : list (Joint T)) : list string :=
  filter (fun l => negb (mem l (map (@j_child T) js))) names.
Fixpoint all_ok (names : list string) (js l : list (Joint T)) : Prop :=
  match l with
  | [] => True
  | j :: r => joint_ok names js j /\ roots_of names (js ++ [j]) <> [] /\ all_ok names (js ++ [j]) r
  end.

Lemma roots_snoc : forall names js j,
  filter (fun l => negb (l =? j_child j)%string) (roots_of names js) = roots_of names (js ++ [j]).
Proof.
  intros names js j. unfold roots_of. induction names as [|a names IH]; [reflexivity|].
  cbn [filter]. rewrite map_app. cbn [map].
  assert (e : mem a (map (@j_child T) js ++ [j_child j]) = mem a (map (@j_child T) js) || (a =? j_child j)%string).
  { unfold mem. rewrite existsb_app. cbn. now rewrite orb_false_r. }
  rewrite e. destruct (mem a (map (@j_child T) js)) eqn:e1; cbn [orb negb].
  - rewrite IH, map_app. reflexivity.
  - cbn [filter]. destruct (a =? j_child j)%string; cbn [negb]; rewrite IH, map_app; reflexivity.
Qed.

Lemma mimic_dec : forall js j, mimic_ok js j \/ ~ mimic_ok js j.
Proof.
  intros js j. unfold mimic_ok. destruct (j_mimic j) as [m|] eqn:e.
  - destruct (string_dec m (j_name j)) as [h|h].
    + right. intros H. now destruct (H m eq_refl).
    + destruct (in_dec string_dec m (map (@j_name T) js)) as [i|i].
      * destruct (existsb (fun k => match j_mimic k with Some x => (x =? j_name j)%string | None => false end) js) eqn:ex.
        -- right. intros H. destruct (H m eq_refl) as [_ H2]. apply existsb_exists in ex.
           destruct ex as [k [hk e2]]. apply (H2 i k hk).
           destruct (j_mimic k); [|discriminate]. apply String.eqb_eq in e2. now subst.
        -- left. intros m' em. injection em as <-. split; [assumption|]. intros _ k hk ek.
           rewrite <- not_true_iff_false in ex. apply ex. apply existsb_exists. exists k.
           rewrite ek. split; [assumption|apply String.eqb_refl].
      * left. intros m' em. injection em as <-. split; [assumption|]. intros x. contradiction.
  - left. discriminate.
Qed.

Lemma mimic_test : forall js j,
  (match j_mimic j with
   | None => Ok false
   | Some src =>
       if (j_name j =? src)%string then Ok true
       else if existsb (fun k => (j_name k =? src)%string) js then
         transitively_mimics (2 + List.length js) js src (j_name j)
       else Ok false
   end = Ok false /\ mimic_ok js j) \/
  (match j_mimic j with
   | None => Ok false
   | Some src =>
       if (j_name j =? src)%string then Ok true
       else if existsb (fun k => (j_name k =? src)%string) js then
         transitively_mimics (2 + List.length js) js src (j_name j)
       else Ok false
   end = Ok true /\ ~ mimic_ok js j).
Proof.
  intros js j. unfold mimic_ok. destruct (j_mimic j) as [m|] eqn:e.
  2:{ left. split; [reflexivity|discriminate]. }
  destruct (j_name j =? m)%string eqn:e1.
  { right. split; [reflexivity|]. intros H. apply String.eqb_eq in e1. destruct (H m eq_refl). congruence. }
  apply String.eqb_neq in e1.
  destruct (existsb (fun k => (j_name k =? m)%string) js) eqn:e2.
  - change (2 + List.length js) with (Datatypes.S (Datatypes.S (List.length js))). rewrite tm_two.
    destruct (existsb (fun k => match j_mimic k with Some x => (x =? j_name j)%string | None => false end) js) eqn:e3.
    + right. split; [reflexivity|]. intros H. destruct (H m eq_refl) as [_ H2].
      apply ex_name in e2. apply existsb_exists in e3. destruct e3 as [k [hk e3]].
      apply (H2 e2 k hk). destruct (j_mimic k); [|discriminate]. apply String.eqb_eq in e3. now subst.
    + left. split; [reflexivity|]. intros m' em. injection em as <-. split; [congruence|].
      intros _ k hk ek. rewrite <- not_true_iff_false in e3. apply e3. apply existsb_exists. exists k.
      rewrite ek. split; [assumption|apply String.eqb_refl].
  - left. split; [reflexivity|]. intros m' em. injection em as <-. split; [congruence|].
    intros hm. apply ex_nname in e2. contradiction.
Qed.

Lemma ctor_joints_eq : forall names d js,
  (all_ok names js (joints d) /\
   ctor_joints d names js (roots_of names js) = Ok (js ++ joints d, roots_of names (js ++ joints d))) \/
  (~ all_ok names js (joints d) /\ ctor_joints d names js (roots_of names js) = Throw).
Proof.
  intros names. induction d as [|e d IH]; intros js.
  - left. cbn. rewrite app_nil_r. split; [exact I|reflexivity].
  - destruct e as [l|j|s]; try exact (IH js).
    change (joints (EJoint j :: d)) with (j :: joints d). cbn [ctor_joints all_ok].
    destruct (existsb (fun k => (j_name k =? j_name j)%string) js) eqn:e1.
    { right. apply ex_name in e1. split; [|reflexivity]. intros [[h _] _]. contradiction. }
    apply ex_nname in e1.
    destruct (mem (j_parent j) names) eqn:e2; cbn [negb].
    2:{ right. apply mem_nin in e2. split; [|reflexivity]. intros [[_ [h _]] _]. contradiction. }
    apply mem_in in e2.
    destruct (mem (j_child j) names) eqn:e3; cbn [negb].
    2:{ right. apply mem_nin in e3. split; [|reflexivity]. intros [[_ [_ [h _]]] _]. contradiction. }
    apply mem_in in e3.
    destruct (existsb (fun k => (j_child k =? j_child j)%string) js) eqn:e4.
    { right. apply ex_name in e4. split; [|reflexivity]. intros [[_ [_ [_ [h _]]]] _]. contradiction. }
    apply ex_nname in e4.
    destruct (mimic_test js j) as [[e5 hm]|[e5 hm]]; rewrite e5; cbn [rbind].
    2:{ right. split; [|reflexivity]. intros [[_ [_ [_ [_ h]]]] _]. contradiction. }
    assert (e6 : mem (j_child j) (roots_of names js) = true).
    { apply mem_in. unfold roots_of. apply filter_In. split; [assumption|].
      apply negb_true_iff. now apply mem_nin. }
    rewrite e6. cbn [negb]. rewrite roots_snoc.
    destruct (roots_of names (js ++ [j])) as [|r rs] eqn:er.
    { right. split; [|reflexivity]. intros [_ [h _]]. now apply h. }
    rewrite <- er.
    destruct (IH (js ++ [j])) as [[h1 h2]|[h1 h2]].
    + left. rewrite h2, <- app_assoc. split; [|reflexivity].
      split; [repeat split; try assumption; apply hm; assumption|]. split; [rewrite er; discriminate|assumption].
    + right. rewrite h2. split; [|reflexivity]. tauto.
Qed.

(** ** The declarative conditions *)

Lemma NoDup_snoc : forall {A} (l : list A) a, NoDup l -> ~ In a l -> NoDup (l ++ [a]).
Proof.
  intros A l a h n. rewrite <- (rev_involutive (l ++ [a])). apply NoDup_rev.
  rewrite rev_app_distr. cbn. constructor; [now rewrite <- in_rev|now apply NoDup_rev].
Qed.

Lemma all_ok_cond : forall names l js, all_ok names js l ->
  NoDup (map (@j_name T) js) -> NoDup (map (@j_child T) js) ->
  NoDup (map (@j_name T) (js ++ l)) /\ NoDup (map (@j_child T) (js ++ l)) /\
  (forall j, In j l -> In (j_parent j) names /\ In (j_child j) names) /\
  (forall l1 j l2, l = l1 ++ j :: l2 -> mimic_ok (js ++ l1) j).
Proof.
  intros names. induction l as [|j l IH]; intros js h h1 h2.
  - rewrite app_nil_r. repeat split; try assumption; try contradiction.
    1, 2: destruct l1; discriminate.
  - cbn [all_ok] in h. destruct h as [[a1 [a2 [a3 [a4 a5]]]] [_ h]].
    destruct (IH (js ++ [j]) h) as [b1 [b2 [b3 b4]]].
    + rewrite map_app. now apply NoDup_snoc.
    + rewrite map_app. now apply NoDup_snoc.
    + rewrite <- app_assoc in b1, b2. split; [exact b1|]. split; [exact b2|]. split.
      * intros k [<-|hk]; [tauto|now apply b3].
      * intros l1 k l2 e. destruct l1 as [|a l1].
        -- injection e as -> ->. rewrite app_nil_r. exact a5.
        -- injection e as -> ->. specialize (b4 l1 k l2 eq_refl). rewrite <- app_assoc in b4. exact b4.
Qed.

Lemma all_ok_intro : forall names l js,
  NoDup (map (@j_name T) (js ++ l)) -> NoDup (map (@j_child T) (js ++ l)) ->
  (forall j, In j l -> In (j_parent j) names /\ In (j_child j) names) ->
  (forall l1 j l2, l = l1 ++ j :: l2 -> mimic_ok (js ++ l1) j) ->
  (exists r, In r names /\ ~ In r (map (@j_child T) (js ++ l))) ->
  all_ok names js l.
Proof.
  intros names. induction l as [|j l IH]; intros js h1 h2 h3 h4 h5; [exact I|].
  cbn [all_ok]. assert (e : js ++ j :: l = (js ++ [j]) ++ l) by (rewrite <- app_assoc; reflexivity).
  split; [|split].
  - split; [|split; [|split; [|split]]].
    + rewrite map_app in h1. cbn in h1. apply NoDup_remove_2 in h1. intros h. apply h1.
      apply in_or_app. now left.
    + apply (h3 j). now left.
    + apply (h3 j). now left.
    + rewrite map_app in h2. cbn in h2. apply NoDup_remove_2 in h2. intros h. apply h2.
      apply in_or_app. now left.
    + specialize (h4 [] j l eq_refl). now rewrite app_nil_r in h4.
  - destruct h5 as [r [hr n]]. intros e0.
    assert (hin : In r (roots_of names (js ++ [j]))).
    { unfold roots_of. apply filter_In. split; [assumption|]. apply negb_true_iff, mem_nin.
      intros h. apply n. rewrite e, map_app. apply in_or_app. now left. }
    rewrite e0 in hin. contradiction.
  - apply IH.
    + now rewrite <- e. 
    + now rewrite <- e.
    + intros k hk. apply h3. now right.
    + intros l1 k l2 el. subst l. rewrite <- app_assoc. cbn. apply (h4 (j :: l1) k l2). reflexivity.
    + now rewrite <- e.
Qed.

Lemma roots_is_root : forall d r, In r (roots_of (link_names d) (joints d)) <-> is_root d r.
Proof.
  intros d r. unfold roots_of, is_root. rewrite filter_In, negb_true_iff, mem_nin, in_map_iff.
  split; intros [h1 h2]; (split; [assumption|]).
  - intros j hj e. apply h2. exists j. tauto.
  - intros [j [e hj]]. now apply (h2 j).
Qed.

Lemma roots_nodup : forall names js, NoDup names -> NoDup (roots_of names js).
Proof. intros. now apply NoDup_filter. Qed.

Lemma mimic_order_eq : forall d, mimic_order d <-> forall l1 j l2, joints d = l1 ++ j :: l2 -> mimic_ok l1 j.
Proof.
  intros d. unfold mimic_order, mimic_ok. split.
  - intros h l1 j l2 e m em. exact (h l1 j l2 m e em).
  - intros h l1 j l2 m e em. exact (h l1 j l2 e m em).
Qed.

Definition sources_test (js : list (Joint T)) : bool :=
  forallb (fun j => match j_mimic j with
                    | Some src => existsb (fun k => (j_name k =? src)%string) js
                    | None => true
                    end) js.
Lemma sources_test_eq : forall d, sources_test (joints d) = true <-> mimic_sources_exist d.
Proof.
  intros d. unfold sources_test, mimic_sources_exist. rewrite forallb_forall. split.
  - intros h j m hj em. specialize (h j hj). rewrite em in h. now apply ex_name in h.
  - intros h j hj. destruct (j_mimic j) as [m|] eqn:em; [|reflexivity].
    apply ex_name. exact (h j m hj em).
Qed.

Definition index_of d : list string := fold_left (fun ix j => ix_insert d (j_name j) ix) (joints d) [].

Lemma ctor_eq : forall d,
  (accepted d /\ exists r, is_root d r /\ ctor d = Ok (mkTree d (index_of d) r)) \/
  (~ accepted d /\ ctor d = Throw).
Proof.
  intros d. unfold ctor.
  destruct (ctor_links_eq d [] (NoDup_nil _)) as [[h0 e0]|[h0 e0]]; cbn [app] in h0, e0; rewrite e0; cbn [rbind].
  2:{ right. split; [|reflexivity]. intros [[h _ _ _] _]. contradiction. }
  destruct (link_names d) as [|n0 ns] eqn:en.
  { right. split; [|reflexivity]. intros [_ [[r [[h _] _]] _]]. rewrite en in h. contradiction. }
  assert (hne : link_names d <> []) by (rewrite en; discriminate).
  rewrite <- en in *. clear n0 ns en.
  assert (er0 : roots_of (link_names d) [] = link_names d).
  { clear. unfold roots_of. cbn. induction (link_names d) as [|a l IH]; [reflexivity|]. cbn. now rewrite IH. }
  pose proof (ctor_joints_eq (link_names d) d []) as hj. rewrite er0 in hj. cbn [app] in hj.
  destruct hj as [[h1 e1]|[h1 e1]]; rewrite e1; cbn [rbind].
  2:{ right. split; [|reflexivity]. intros [[w1 w2 w3 w4] [[r [[hr1 hr2] _]] [_ hm]]]. apply h1.
      apply all_ok_intro; cbn [app]; try assumption.
      - now apply mimic_order_eq.
      - exists r. split; [assumption|]. rewrite in_map_iff. intros [j [e hj]]. now apply (hr2 j). }
  destruct (all_ok_cond _ _ _ h1) as [b1 [b2 [b3 b4]]]; [constructor|constructor|].
  cbn [app] in b1, b2, b4.
  pose proof (fun r => roots_is_root d r) as hroot.
  pose proof (roots_nodup (link_names d) (joints d) h0) as hn.
  destruct (roots_of (link_names d) (joints d)) as [|r [|r' rs]] eqn:er.
  - exfalso. clear e1. destruct (joints d) as [|j js] eqn:ej.
    + rewrite er0 in er. contradiction.
    + assert (hx : forall l js, l <> [] -> all_ok (link_names d) js l -> roots_of (link_names d) (js ++ l) <> []).
      { induction l as [|a l IH]; intros js0 hl ha; [congruence|]. cbn [all_ok] in ha. destruct ha as [_ [ha1 ha2]].
        destruct l as [|b l]; [exact ha1|]. replace (js0 ++ a :: b :: l) with ((js0 ++ [a]) ++ b :: l) by (rewrite <- app_assoc; reflexivity).
        apply IH; [discriminate|assumption]. }
      apply (hx (j :: js) []); [discriminate|exact h1|exact er].
  - fold (sources_test (joints d)).
    assert (hu : exists! r, is_root d r).
    { exists r. split; [apply hroot; now left|]. intros r' h. apply hroot in h. destruct h as [h|[]]. now symmetry. }
    destruct (sources_test (joints d)) eqn:es.
    + left. split; [split; [|split; [assumption|split]]|].
      * constructor; assumption.
      * now apply sources_test_eq.
      * now apply mimic_order_eq.
      * exists r. split; [apply hroot; now left|reflexivity].
    + right. split; [|reflexivity]. intros [_ [_ [h _]]]. apply sources_test_eq in h. congruence.
  - right. split; [|reflexivity]. intros [_ [[x [_ hx]] _]].
    assert (x = r) by (apply hx, hroot; now left). assert (x = r') by (apply hx, hroot; right; now left).
    subst. inversion hn as [|? ? n _]. apply n. now left.
Qed.

(** ** The index *)

Lemma ix_insert_perm : forall d n ix, Permutation (ix_insert d n ix) (n :: ix).
Proof.
  intros d n. induction ix as [|m r IH]; [reflexivity|]. cbn.
  destruct (key_ltb (key d n) (key d m)); [reflexivity|].
  rewrite IH. apply perm_swap.
Qed.
Lemma fold_perm : forall d js ix,
  Permutation (fold_left (fun ix j => ix_insert d (j_name j) ix) js ix) (ix ++ map (@j_name T) js).
Proof.
  intros d. induction js as [|j js IH]; intros ix; cbn [fold_left map]; [now rewrite app_nil_r|].
  rewrite IH, ix_insert_perm. apply (Permutation_middle ix (map (@j_name T) js) (j_name j)).
Qed.
Lemma index_of_perm : forall d, Permutation (index_of d) (joint_names d).
Proof. intros d. exact (fold_perm d (joints d) []). Qed.

(** ** Names *)

Lemma NoDup_map_inj : forall {A B} (f : A -> B) l a b, NoDup (map f l) -> In a l -> In b l -> f a = f b -> a = b.
Proof.
  intros A B f. induction l as [|x l IH]; intros a b h ha hb e; [contradiction|].
  cbn in h. inversion h as [|? ? n h']; subst.
  destruct ha as [<-|ha], hb as [<-|hb].
  - reflexivity.
  - exfalso. apply n. rewrite e. now apply in_map.
  - exfalso. apply n. rewrite <- e. now apply in_map.
  - now apply IH.
Qed.
Lemma child_inj : forall d j k, well_connected d -> In j (joints d) -> In k (joints d) ->
  j_child j = j_child k -> j = k.
Proof. intros d j k w. apply NoDup_map_inj. apply w. Qed.
Lemma name_inj : forall d j k, well_connected d -> In j (joints d) -> In k (joints d) ->
  j_name j = j_name k -> j = k.
Proof. intros d j k w. apply NoDup_map_inj. apply w. Qed.
Lemma find_joint_iff : forall d n j, well_connected d ->
  (find_joint d n = Some j <-> In j (joints d) /\ j_name j = n).
Proof.
  intros d n j w. unfold find_joint. split.
  - intros h. apply find_some in h. destruct h as [h1 h2]. apply String.eqb_eq in h2. tauto.
  - intros [h <-]. destruct (find (fun k => (j_name k =? j_name j)%string) (joints d)) as [k|] eqn:e.
    + apply find_some in e. destruct e as [e1 e2]. apply String.eqb_eq in e2. f_equal.
      now apply (name_inj d).
    + apply (find_none _ _ e) in h. rewrite String.eqb_refl in h. discriminate.
Qed.
Lemma find_child_iff : forall d n j, well_connected d ->
  (find_child d n = Some j <-> In j (joints d) /\ j_child j = n).
Proof.
  intros d n j w. unfold find_child. split.
  - intros h. apply find_some in h. destruct h as [h1 h2]. apply String.eqb_eq in h2. tauto.
  - intros [h <-]. destruct (find (fun k => (j_child k =? j_child j)%string) (joints d)) as [k|] eqn:e.
    + apply find_some in e. destruct e as [e1 e2]. apply String.eqb_eq in e2. f_equal.
      now apply (child_inj d).
    + apply (find_none _ _ e) in h. rewrite String.eqb_refl in h. discriminate.
Qed.
Lemma find_child_none : forall d n, find_child d n = None <-> ~ In n (map (@j_child T) (joints d)).
Proof.
  intros d n. unfold find_child. rewrite in_map_iff. split.
  - intros h [j [e hj]]. apply (find_none _ _ h) in hj. rewrite e, String.eqb_refl in hj. discriminate.
  - intros h. destruct (find (fun k => (j_child k =? n)%string) (joints d)) as [k|] eqn:e; [|reflexivity].
    apply find_some in e. destruct e as [e1 e2]. apply String.eqb_eq in e2. exfalso. apply h. now exists k.
Qed.

(** ** Paths *)

Lemma path_snoc_inv : forall d a p j b, path d a (p ++ [j]) b ->
  b = j_child j /\ In j (joints d) /\ path d a p (j_parent j).
Proof.
  intros d a p j b h. inversion h as [e|p' j' h1 h2 e1 e2].
  - destruct p; discriminate.
  - apply app_inj_tail in e1. destruct e1 as [-> ->]. tauto.
Qed.
Lemma path_nil_inv : forall d a b, path d a [] b -> a = b.
Proof.
  intros d a b h. inversion h as [e|p' j' h1 h2 e1 e2]; [reflexivity|]. destruct p'; discriminate.
Qed.
Lemma path_app : forall d a b c p q, path d a p b -> path d b q c -> path d a (p ++ q) c.
Proof.
  intros d a b c p q hp hq. revert p hp. induction hq as [|q j hq IH hj]; intros p hp.
  - now rewrite app_nil_r.
  - rewrite app_assoc. constructor; [now apply IH|assumption].
Qed.
Lemma path_split : forall d a p q c, path d a (p ++ q) c -> exists b, path d a p b /\ path d b q c.
Proof.
  intros d a p. induction q as [|j q IH] using rev_ind; intros c h.
  - rewrite app_nil_r in h. exists c. split; [assumption|constructor].
  - rewrite app_assoc in h. apply path_snoc_inv in h. destruct h as [-> [hj h]].
    destruct (IH _ h) as [b [h1 h2]]. exists b. split; [assumption|]. now constructor.
Qed.
Lemma path_cons_inv : forall d a j p c, path d a (j :: p) c ->
  a = j_parent j /\ In j (joints d) /\ path d (j_child j) p c.
Proof.
  intros d a j p c h. destruct (path_split d a [j] p c h) as [b [h1 h2]].
  apply (path_snoc_inv d a [] j b) in h1. destruct h1 as [-> [hj h1]]. apply path_nil_inv in h1. tauto.
Qed.
Lemma path_cons : forall d j p c, In j (joints d) -> path d (j_child j) p c -> path d (j_parent j) (j :: p) c.
Proof.
  intros d j p c hj h. apply (path_app d (j_parent j) (j_child j) c [j] p); [|assumption].
  apply (path_snoc d (j_parent j) [] j); [constructor|assumption].
Qed.

Lemma path_unique : forall d r, well_connected d -> is_root d r ->
  forall p p' l, path d r p l -> path d r p' l -> p = p'.
Proof.
  intros d r w [_ hr]. induction p as [|j p IH] using rev_ind; intros p' l h h'.
  - apply path_nil_inv in h. subst l. destruct p' as [|k p' _] using rev_ind; [reflexivity|].
    apply path_snoc_inv in h'. destruct h' as [e [hk _]]. exfalso. now apply (hr k).
  - apply path_snoc_inv in h. destruct h as [-> [hj h]].
    destruct p' as [|k p' _] using rev_ind.
    + apply path_nil_inv in h'. exfalso. apply (hr j hj). now symmetry.
    + apply path_snoc_inv in h'. destruct h' as [e [hk h']].
      assert (j = k) by (now apply (child_inj d)). subst k. f_equal. now apply (IH p' (j_parent j)).
Qed.

(** A path from the root does not use a joint twice. *)
Lemma path_nodup : forall d r, well_connected d -> is_root d r ->
  forall p l, path d r p l -> NoDup p.
Proof.
  intros d r w hr. induction p as [|j p IH] using rev_ind; intros l h; [constructor|].
  pose proof h as h0. apply path_snoc_inv in h0. destruct h0 as [e [hj h1]].
  apply NoDup_snoc; [now apply (IH (j_parent j))|].
  intros hin. apply in_split in hin. destruct hin as [p1 [p2 ->]].
  replace (p1 ++ j :: p2) with ((p1 ++ [j]) ++ p2) in h1 by (rewrite <- app_assoc; reflexivity).
  destruct (path_split d r _ _ _ h1) as [b [h2 _]].
  pose proof h2 as h3. apply path_snoc_inv in h3. destruct h3 as [-> _].
  assert (ee : p1 ++ [j] = (p1 ++ j :: p2) ++ [j]).
  { apply (path_unique d r w hr _ _ (j_child j)); [assumption|]. rewrite <- e. assumption. }
  apply (f_equal (@length (Joint T))) in ee. rewrite !app_length in ee. cbn in ee. lia.
Qed.
Lemma path_in : forall d a p l j, path d a p l -> In j p -> In j (joints d).
Proof.
  intros d a p l j h. induction h as [|p k h IH hk]; intros hj; [contradiction|].
  apply in_app_or in hj. destruct hj as [hj|[<-|[]]]; [now apply IH|assumption].
Qed.
Lemma path_length : forall d r, well_connected d -> is_root d r ->
  forall p l, path d r p l -> length p <= length (joints d).
Proof.
  intros d r w hr p l h. apply NoDup_incl_length; [now apply (path_nodup d r w hr p l)|].
  intros j hj. now apply (path_in d r p l).
Qed.

(** Going up from a link: either the root is reached, or a link is met twice. *)
Lemma up_walk : forall d r, well_connected d -> is_root d r -> (forall x, is_root d x -> x = r) ->
  forall n seen cur l p0, NoDup seen -> incl seen (link_names d) ->
  length (link_names d) <= n + length seen -> In cur (link_names d) ->
  path d cur p0 l -> (forall s, In s seen -> exists p, p <> [] /\ path d cur p s) ->
  (exists c, In c seen \/ c = cur) -> (forall s, In s seen -> exists p, path d s p l) ->
  (exists p, path d r p l) \/ (exists c p, above d c c /\ path d c p l).
Proof.
  intros d r w hr hu. induction n as [|n IH]; intros seen cur l p0 hn hi hlen hcur hp hs _ hl.
  - assert (hc : In cur seen).
    { cbn in hlen. apply (NoDup_length_incl hn hlen hi). assumption. }
    right. exists cur, p0. split; [|assumption]. now apply hs.
  - destruct (in_dec string_dec cur seen) as [hc|hc].
    { right. exists cur, p0. split; [|assumption]. now apply hs. }
    destruct (find_child d cur) as [j|] eqn:e.
    + apply find_child_iff in e; [|assumption]. destruct e as [hj e].
      apply (IH (cur :: seen) (j_parent j) l (j :: p0)).
      * now constructor.
      * intros s [<-|h]; [assumption|now apply hi].
      * cbn. lia.
      * now apply (wc_ends d w j).
      * apply path_cons; [assumption|]. now rewrite e.
      * intros s [<-|h].
        -- exists [j]. split; [discriminate|]. rewrite <- e. apply (path_cons d j []); [assumption|constructor].
        -- destruct (hs s h) as [p [_ hp']]. exists (j :: p). split; [discriminate|].
           apply path_cons; [assumption|]. now rewrite e.
      * exists cur. left. now left.
      * intros s [<-|h]; [now exists p0|now apply hl].
    + left. apply find_child_none in e. assert (cur = r).
      { apply hu. split; [assumption|]. intros j hj ej. apply e. rewrite <- ej. now apply in_map. }
      subst cur. now exists p0.
Qed.

Lemma link_cases : forall d r, well_connected d -> is_root d r -> (forall x, is_root d x -> x = r) ->
  forall l, In l (link_names d) ->
  (exists p, path d r p l) \/ (exists c p, above d c c /\ path d c p l).
Proof.
  intros d r w hr hu l hl.
  apply (up_walk d r w hr hu (length (link_names d)) [] l l []).
  - constructor.
  - intros s [].
  - cbn. lia.
  - assumption.
  - constructor.
  - intros s [].
  - exists l. now right.
  - intros s [].
Qed.

Lemma loop_no_path : forall d r c p l p', well_connected d -> is_root d r ->
  above d c c -> path d c p l -> path d r p' l -> False.
Proof.
  intros d r c p l p' w hr [q [hq hc]] hp hp'.
  assert (hsuf : forall p l p', path d c p l -> path d r p' l -> exists p1, path d r p1 c).
  { induction p0 as [|j p0 IH] using rev_ind; intros l0 p0' h h'.
    - apply path_nil_inv in h. subst l0. now exists p0'.
    - apply path_snoc_inv in h. destruct h as [-> [hj h]].
      destruct p0' as [|k p0' _] using rev_ind.
      + apply path_nil_inv in h'. exfalso. destruct hr as [_ hr]. apply (hr j hj). now symmetry.
      + apply path_snoc_inv in h'. destruct h' as [e [hk h']].
        assert (j = k) by (now apply (child_inj d)). subst k. now apply (IH (j_parent j) p0'). }
  destruct (hsuf _ _ _ hp hp') as [p1 h1].
  assert (e : p1 = p1 ++ q).
  { apply (path_unique d r w hr _ _ c); [assumption|]. now apply (path_app d r c c). }
  apply (f_equal (@length (Joint T))) in e. rewrite app_length in e. destruct q; [congruence|cbn in e; lia].
Qed.

(** ** Mimic cycles *)

Lemma ct_rt : forall {A} (R : relation A) x y, clos_trans A R x y -> clos_refl_trans A R x y.
Proof.
  intros A R x y h. induction h as [x y h|x y z h1 IH1 h2 IH2]; [now apply rt_step|now apply rt_trans with y].
Qed.
Lemma mimic_sub : forall (js : list (Joint T)),
  NoDup (map (@j_name T) js) ->
  (forall l1 j l2, js = l1 ++ j :: l2 -> mimic_ok l1 j) ->
  forall a, ~ clos_trans string (fun x y => exists j, In j js /\ j_name j = x /\ j_mimic j = Some y) a a.
Proof.
  induction js as [|j js IH] using rev_ind; intros hn hm a hc.
  - apply clos_trans_t1n in hc. destruct hc as [y [k [[] _]]|y z [k [[] _]] _].
  - set (R := fun l => fun x y => exists k, In k l /\ j_name k = x /\ j_mimic k = Some y).
    change (clos_trans string (R (js ++ [j])) a a) in hc.
    assert (hn' : NoDup (map (@j_name T) js) /\ ~ In (j_name j) (map (@j_name T) js)).
    { rewrite map_app in hn. cbn in hn. apply NoDup_remove in hn. now rewrite app_nil_r in hn. }
    assert (hm' : forall l1 j l2, js = l1 ++ j :: l2 -> mimic_ok l1 j).
    { intros l1 k l2 e. apply (hm l1 k (l2 ++ [j])). rewrite e, <- app_assoc. reflexivity. }
    assert (hcase : forall x y, clos_trans string (R (js ++ [j])) x y ->
      clos_trans string (R js) x y \/
      (clos_refl_trans string (R (js ++ [j])) x (j_name j) /\ clos_trans string (R (js ++ [j])) (j_name j) y)).
    { intros x y h. induction h as [x y h|x y z h1 IH1 h2 IH2].
      - destruct h as [k [hk [e1 e2]]]. apply in_app_or in hk. destruct hk as [hk|[<-|[]]].
        + left. apply t_step. now exists k.
        + right. split; [rewrite e1; apply rt_refl|]. apply t_step. exists j.
          split; [apply in_or_app; right; now left|]. now split.
      - destruct IH1 as [a1|[a1 a2]].
        + destruct IH2 as [b1|[b1 b2]]; [left; now apply (t_trans _ _ x y z)|].
          right. split; [|assumption]. apply rt_trans with y; [|assumption].
          apply ct_rt. assumption.
        + right. split; [assumption|]. now apply (t_trans _ _ _ y z). }
    assert (hjj : clos_trans string (R (js ++ [j])) (j_name j) (j_name j)).
    { destruct (hcase a a hc) as [h|[h1 h2]].
      - exfalso. exact (IH (proj1 hn') hm' a h).
      - apply clos_rt_t with a; [|]. 1: now apply ct_rt.
        apply clos_rt_rtn1 in h1. destruct h1 as [|y z h0 h1].
        + assumption.
        + apply clos_rtn1_rt in h1. apply clos_rt_t with y; [assumption|now apply t_step]. }
    assert (hfirst : exists s, j_mimic j = Some s /\ (s = j_name j \/ In s (map (@j_name T) js))).
    { pose proof hjj as h. apply clos_trans_t1n in h.
      assert (hs : forall y z, clos_trans_1n string (R (js ++ [j])) y z -> In y (map (@j_name T) (js ++ [j]))).
      { intros y z h'. destruct h' as [z [k [hk [e1 _]]]|z u [k [hk [e1 _]]] _]; rewrite <- e1; now apply in_map. }
      inversion h as [y hy|y z hy hz]; subst.
      - destruct hy as [k [hk [e1 e2]]]. apply in_app_or in hk. destruct hk as [hk|[<-|[]]].
        + exfalso. apply (proj2 hn'). rewrite <- e1. now apply in_map.
        + exists (j_name j). tauto.
      - destruct hy as [k [hk [e1 e2]]]. apply in_app_or in hk. destruct hk as [hk|[<-|[]]].
        + exfalso. apply (proj2 hn'). rewrite <- e1. now apply in_map.
        + exists y. split; [assumption|]. apply hs in hz. rewrite map_app in hz. apply in_app_or in hz.
          destruct hz as [hz|[hz|[]]]; [now right|now left]. }
    assert (hlast : exists k, In k (js ++ [j]) /\ j_mimic k = Some (j_name j)).
    { apply clos_trans_tn1 in hjj. inversion hjj as [y [k [hk [_ e2]]]|y z [k [hk [_ e2]]] _]; exists k; tauto. }
    destruct hfirst as [s [es hs]], hlast as [k [hk ek]].
    destruct (hm js j [] eq_refl s es) as [ns hm2].
    destruct hs as [hs|hs]; [contradiction|].
    apply in_app_or in hk. destruct hk as [hk|[<-|[]]].
    + exact (hm2 hs k hk ek).
    + congruence.
Qed.

Lemma sources_first_order : forall d, well_connected d -> sources_first d -> mimic_order d.
Proof.
  intros d w hs l1 j l2 m e em. pose proof (hs l1 j l2 m e em) as hm.
  assert (hn : NoDup (map (@j_name T) (l1 ++ j :: l2))) by (rewrite <- e; apply w).
  rewrite map_app in hn. cbn in hn. apply NoDup_remove_2 in hn. split.
  - intros ->. apply hn. apply in_or_app. now left.
  - intros _ k hk ek. apply in_split in hk. destruct hk as [l3 [l4 ->]].
    rewrite <- app_assoc in e. cbn in e. pose proof (hs l3 k (l4 ++ j :: l2) (j_name j) e ek) as hc.
    apply hn. rewrite map_app. apply in_or_app. left. apply in_or_app. now left.
Qed.
Lemma sources_first_exist : forall d, sources_first d -> mimic_sources_exist d.
Proof.
  intros d hs j m hj em. apply in_split in hj. destruct hj as [l1 [l2 e]].
  pose proof (hs l1 j l2 m e em) as h. unfold joint_names. rewrite e, map_app. apply in_or_app. now left.
Qed.

End S.

Lemma C44_accepts_proof : forall {T} (d : list (elem T)), (exists t, ctor d = Ok t) <-> accepted d.
Proof.
  intros T d. destruct (ctor_eq d) as [[h [r [_ e]]]|[h e]]; rewrite e.
  - split; [intros _; assumption|intros _; eauto].
  - split; [intros [t et]; discriminate|intros x; contradiction].
Qed.


Lemma C44_or_throws_proof : forall {T} (d : list (elem T)),
  (accepted d /\ exists t, ctor d = Ok t /\ t_doc t = d /\ is_root d (t_root t) /\ sound t) \/
  (~ accepted d /\ ctor d = Throw).
Proof.
  intros T d. destruct (ctor_eq d) as [[h [r [hr e]]]|[h e]]; [|tauto].
  left. split; [assumption|]. exists (mkTree d (index_of d) r). split; [assumption|]. split; [reflexivity|].
  split; [assumption|]. destruct h as [w [[r0 [hr0 hu]] _]]. constructor; cbn.
  - assumption.
  - intros x. split; [|now intros ->]. intros hx. rewrite <- (hu x hx). now apply hu.
  - apply index_of_perm.
Qed.


Lemma C44_unique_path_proof : forall {T} (d : list (elem T)) t p p' l, ctor d = Ok t ->
  path d (t_root t) p l -> path d (t_root t) p' l -> p = p' /\ NoDup p.
Proof.
  intros T d t p p' l e h h'. destruct (C44_or_throws_proof d) as [[_ [t' [e' [_ [hr s]]]]]|[_ e']]; [|congruence].
  rewrite e in e'. injection e' as <-. destruct (ctor_eq d) as [[hw _]|[_ e']]; [|congruence].
  destruct hw as [w _]. split.
  - now apply (path_unique d (t_root t) w hr p p' l).
  - now apply (path_nodup d (t_root t) w hr p l).
Qed.


Lemma C44_links_proof : forall {T} (d : list (elem T)) t l, ctor d = Ok t -> In l (link_names d) ->
  ((exists! p, path d (t_root t) p l) /\ ~ (exists c p, above d c c /\ path d c p l)) \/
  ((exists c p, above d c c /\ path d c p l) /\ ~ (exists p, path d (t_root t) p l)).
Proof.
  intros T d t l e hl. destruct (C44_or_throws_proof d) as [[[w [[r0 [_ hu]] _]] [t' [e' [_ [hr s]]]]]|[_ e']]; [|congruence].
  rewrite e in e'. injection e' as <-.
  assert (hu' : forall x, is_root d x -> x = t_root t).
  { intros x hx. rewrite <- (hu x hx). now apply hu. }
  destruct (link_cases d (t_root t) w hr hu' l hl) as [[p hp]|[c [p [hc hp]]]].
  - left. split.
    + exists p. split; [assumption|]. intros p' hp'. now apply (path_unique d (t_root t) w hr p p' l).
    + intros [c [q [hc hq]]]. exact (loop_no_path d (t_root t) c q l p w hr hc hq hp).
  - right. split; [now exists c, p|]. intros [q hq]. exact (loop_no_path d (t_root t) c p l q w hr hc hp hq).
Qed.


Lemma C44_tree_exact_proof : forall {T} (d : list (elem T)) t, ctor d = Ok t ->
  ((forall l, In l (link_names d) -> exists! p, path d (t_root t) p l) <-> (forall c, ~ above d c c)).
Proof.
  intros T d t e. split.
  - intros h c hc. 
    assert (hl : In c (link_names d)).
    { destruct (C44_or_throws_proof d) as [[[w _] _]|[_ e']]; [|congruence].
      destruct hc as [p [hp h2]]. destruct h2 as [|p j h2 hj]; [congruence|]. exact (proj2 (wc_ends d w j hj)). }
    destruct (C44_links_proof d t c e hl) as [[_ n]|[_ n]].
    + apply n. exists c, []. split; [exact hc|constructor].
    + apply n. destruct (h c hl) as [p [hp _]]. exists p. exact hp.
  - intros hc l hl. destruct (C44_links_proof d t l e hl) as [[h _]|[[c [p [h _]]] _]]; [assumption|].
    exfalso. exact (hc c h).
Qed.





Lemma C44_tree_refuted_proof :
  exists (d : list (elem nat)) t l, ctor d = Ok t /\ In l (link_names d) /\
    ~ exists p, path d (t_root t) p l.
Proof.
  set (d := [ELink (mkLink "base" None [] []); ELink (mkLink "a" None [] []); ELink (mkLink "b" None [] []);
   EJoint (mkJoint "ab" "fixed" "a" "b" None None None);
   EJoint (mkJoint "ba" "fixed" "b" "a" None None None)] : list (elem nat)).
  exists d, (mkTree d ["ab"%string; "ba"%string] "base"), "a"%string.
  assert (e : ctor d = Ok (mkTree d ["ab"%string; "ba"%string] "base"%string)) by (vm_compute; reflexivity).
  split; [exact e|]. assert (hl : In "a"%string (link_names d)) by (vm_compute; tauto).
  split; [exact hl|].
  destruct (C44_links_proof d _ "a" e hl) as [[_ h]|[_ h]]; [|exact h].
  exfalso. apply h. set (ab := mkJoint "ab" "fixed" "a" "b" None None None : Joint nat).
  set (ba := mkJoint "ba" "fixed" "b" "a" None None None : Joint nat).
  exists "a"%string, []. split; [|constructor]. exists [ab; ba]. split; [discriminate|].
  apply (path_cons d ab [ba] "a"); [now left|].
  apply (path_cons d ba [] "a"); [right; now left|]. constructor.
Qed.


Lemma C45_cycle_rejected_proof : forall {T} (d : list (elem T)), mimic_cycle d -> ctor d = Throw.
Proof.
  intros T d [a ha]. destruct (C44_or_throws_proof d) as [[[w [_ [_ hm]]] _]|[_ e]]; [exfalso|exact e].
  apply (mimic_sub (joints d) (wc_joints d w) (proj1 (mimic_order_eq d) hm) a). exact ha.
Qed.


Lemma C45_sources_first_proof : forall {T} (d : list (elem T)),
  well_connected d -> (exists! r, is_root d r) -> sources_first d -> exists t, ctor d = Ok t.
Proof.
  intros T d w hr hs. apply C44_accepts_proof. split; [assumption|]. split; [assumption|]. split.
  - now apply sources_first_exist.
  - now apply sources_first_order.
Qed.


Lemma C45_exact_proof : forall {T} (d : list (elem T)),
  well_connected d -> (exists! r, is_root d r) -> mimic_sources_exist d ->
  (ctor d = Throw <-> ~ mimic_order d).
Proof.
  intros T d w hr hs. destruct (C44_or_throws_proof d) as [[h [t [e _]]]|[h e]]; rewrite e.
  - split; [discriminate|]. intros n. destruct h as [_ [_ [_ h]]]. contradiction.
  - split; [|reflexivity]. intros _ hm. apply h. split; [assumption|]. split; [assumption|]. now split.
Qed.


Lemma C45_acyclic_refuted_proof :
  exists (d : list (elem nat)), well_connected d /\ (exists! r, is_root d r) /\
    mimic_sources_exist d /\ ~ mimic_cycle d /\ ctor d = Throw.
Proof.
  set (c := mkJoint "c" "revolute" "base" "l1" None None None : Joint nat).
  set (a := mkJoint "a" "revolute" "base" "l2" None None (Some "b"%string) : Joint nat).
  set (b := mkJoint "b" "revolute" "base" "l3" None None (Some "c"%string) : Joint nat).
  set (d := [ELink (mkLink "base" None [] []); ELink (mkLink "l1" None [] []);
             ELink (mkLink "l2" None [] []); ELink (mkLink "l3" None [] []);
             EJoint c; EJoint a; EJoint b] : list (elem nat)).
  exists d.
  assert (ej : joints d = [c; a; b]) by reflexivity.
  assert (nd : forall l : list string, (if nodup string_dec l then true else true) = true -> nodup string_dec l = l -> NoDup l).
  { intros l _ e. rewrite <- e. apply NoDup_nodup. }
  split; [|split; [|split; [|split]]].
  - constructor; try (apply nd; reflexivity).
    intros j. rewrite ej. intros [<-|[<-|[<-|[]]]]; vm_compute; tauto.
  - exists "base"%string. split.
    + split; [now left|]. intros j. rewrite ej. intros [<-|[<-|[<-|[]]]]; discriminate.
    + intros r [h1 h2]. rewrite ej in h2. vm_compute in h1.
      destruct h1 as [h1|[h1|[h1|[h1|[]]]]]; [assumption| | |]; exfalso.
      * now apply (h2 c); [now left|].
      * now apply (h2 a); [right; now left|].
      * now apply (h2 b); [right; right; now left|].
  - intros j m. rewrite ej. intros [<-|[<-|[<-|[]]]]; cbn; intros h; try discriminate; injection h as <-; vm_compute; tauto.
  - intros [x hx]. set (f := fun s => if (s =? "a")%string then 2 else if (s =? "b")%string then 1 else 0).
    assert (hf : forall x y, clos_trans string (mimics d) x y -> f y < f x).
    { intros u v h. induction h as [u v h|u v z h1 IH1 h2 IH2]; [|lia].
      destruct h as [j [hj [e1 e2]]]. rewrite ej in hj. destruct hj as [<-|[<-|[<-|[]]]].
      - discriminate.
      - cbn in e1, e2. subst u. injection e2 as <-. cbn. lia.
      - cbn in e1, e2. subst u. injection e2 as <-. cbn. lia. }
    specialize (hf x x hx). lia.
  - vm_compute. reflexivity.
Qed.

(** * Lemmas for Props_Dsp *)

From Coq Require Import Reals List Lra Lia Psatz Bool Arith ZArith.
Import ListNotations.
From Flocq Require Import IEEE754.BinarySingleNaN.
From Verif Require Import Scalar RInst F32 RLemmas Model_Base Model_Dsp Spec_Dsp.
Local Open Scope R_scope.


Lemma wsum_S : forall n f, wsum (S n) f = f 0%nat + wsum n (fun i => f (S i)).
Proof. intros n f. unfold wsum. cbn [seq map fold_right]. rewrite <- seq_shift, map_map. reflexivity. Qed.

Lemma wsum_ext : forall n f g, (forall i, (i < n)%nat -> f i = g i) -> wsum n f = wsum n g.
Proof.
  intros n f g h. unfold wsum. f_equal. apply map_ext_in. intros i hi. apply in_seq in hi. apply h. lia.
Qed.

Lemma wsum_lin : forall n f g a b, wsum n (fun i => a * f i + b * g i) = a * wsum n f + b * wsum n g.
Proof.
  induction n as [|n IH]; intros f g a b; [unfold wsum; cbn; ring|].
  rewrite !wsum_S, (IH (fun i => f (S i)) (fun i => g (S i))). ring.
Qed.

Definition lastn {A} (n : nat) (l : list A) : list A := skipn (length l - n) l.

Lemma lastn_length : forall A n (l : list A), length (lastn n l) = Nat.min n (length l).
Proof. intros. unfold lastn. rewrite skipn_length. lia. Qed.

Lemma push_lastn : forall A n (l : list A) x,
  cb_push (mkCbuf n (lastn n l)) x = mkCbuf n (lastn n (l ++ [x])).
Proof.
  intros A n l x. unfold cb_push, cb_full. cbn [cb_cap cb_elts]. rewrite lastn_length.
  destruct (Nat.eqb_spec n 0) as [->|n0].
  - unfold lastn. rewrite !skipn_all2 by lia. reflexivity.
  - unfold lastn. rewrite app_length. cbn [length].
    destruct (Nat.eqb_spec (Nat.min n (length l)) n) as [e|e].
    + f_equal. rewrite skipn_app. replace (length l + 1 - n - length l)%nat with 0%nat by lia.
      cbn [skipn]. f_equal. replace (length l + 1 - n)%nat with (S (length l - n)) by lia.
      generalize (length l - n)%nat. clear. intro d. revert d.
      induction l as [|a l IH]; intros [|d]; try reflexivity. cbn [skipn]. destruct l as [|b l]; [destruct d; reflexivity|].
      rewrite IH. reflexivity.
    + replace (length l - n)%nat with 0%nat by lia. replace (length l + 1 - n)%nat with 0%nat by lia. reflexivity.
Qed.

Lemma accumulate_spec : forall w l d out, (d + length w <= length l)%nat ->
  accumulate (skipn d l) w out = Ok (out + wsum (length w) (fun i => at_ w i * at_ l (d + i))).
Proof.
  induction w as [|a w IH]; intros l d out h.
  - unfold wsum. cbn. destruct (skipn d l); cbn; f_equal; ring.
  - cbn [length] in *.
    assert (E : skipn d l = at_ l d :: skipn (S d) l).
    { clear - h. revert d h. induction l as [|b l IHl]; intros d h; [cbn in h; lia|].
      destruct d as [|d]; [reflexivity|]. cbn [skipn]. rewrite IHl by (cbn in h; lia). reflexivity. }
    rewrite E. cbn [accumulate]. rsimp. rewrite (IH l (S d)) by lia. f_equal.
    rewrite wsum_S. unfold at_ at 4. cbn [nth]. rewrite Nat.add_0_r. 
    rewrite (wsum_ext _ (fun i => at_ (a :: w) (S i) * at_ l (d + S i)) (fun i => at_ w i * at_ l (S d + i))).
    + cbn. ring.
    + intros i _. replace (d + S i)%nat with (S d + i)%nat by lia. reflexivity.
Qed.

(** The filter after the inputs [xs] and outputs [ys]. *)
Definition state_after (wIn wOut : list R) (g : R) (xs ys : list R) : DigitalFilter R :=
  mkFilter (mkCbuf (length wIn) (lastn (length wIn) (map (fun x => x / g) xs)))
           (mkCbuf (length wOut) (lastn (length wOut) ys)) g wIn wOut.

Lemma run_snoc : forall (f : DigitalFilter R) xs x, run_filter f (xs ++ [x]) =
  rbind (run_filter f xs) (fun r => rbind (processFilter (snd r) x) (fun q => Ok (fst r ++ [fst q], snd q))).
Proof.
  intros f xs x. revert f. induction xs as [|a xs IH]; intro f.
  - cbn [app run_filter rbind fst snd]. destruct (processFilter f x) as [[y f']| | |]; reflexivity.
  - cbn [app run_filter]. destruct (processFilter f a) as [[y f']| | |]; try reflexivity. cbn [rbind].
    rewrite IH. destruct (run_filter f' xs) as [[ys f'']| | |]; try reflexivity. cbn [rbind fst snd].
    destruct (processFilter f'' x) as [[z f3]| | |]; reflexivity.
Qed.

Lemma at_app1 : forall l x k, (k < length l)%nat -> at_ (l ++ [x]) k = at_ l k.
Proof. intros. unfold at_. apply app_nth1. assumption. Qed.
Lemma at_last : forall l x, at_ (l ++ [x]) (length l) = x.
Proof. intros. unfold at_. rewrite app_nth2, Nat.sub_diag by lia. reflexivity. Qed.

Lemma process_state : forall wIn wOut g xs ys x, length ys = length xs -> exists y,
  processFilter (state_after wIn wOut g xs ys) x = Ok (y, state_after wIn wOut g (xs ++ [x]) (ys ++ [y])) /\
  y = if (length xs + 1 <? length wIn)%nat || (length xs <? length wOut)%nat then x
      else wsum (length wIn) (fun i => at_ wIn i * (at_ (xs ++ [x]) (length xs + 1 - length wIn + i) / g))
           + wsum (length wOut) (fun j => at_ wOut j * at_ ys (length xs - length wOut + j)).
Proof.
  intros wIn wOut g xs ys x L. unfold processFilter, state_after. cbn [df_in df_out df_gain df_wIn df_wOut]. rsimp.
  rewrite push_lastn. set (zs := map (fun x => x / g) xs ++ [x / g]).
  assert (Z : zs = map (fun x => x / g) (xs ++ [x])) by (unfold zs; rewrite map_app; reflexivity).
  assert (LZ : length zs = (length xs + 1)%nat) by (rewrite Z, map_length, app_length; reflexivity).
  unfold cb_full. cbn [cb_cap cb_elts]. rewrite !lastn_length, LZ, L.
  set (n := length wIn) in *. set (m := length wOut) in *.
  destruct (Nat.ltb_spec (length xs + 1) n) as [c|c].
  - replace (Nat.eqb (Nat.min n (length xs + 1)) n) with false by (symmetry; apply Nat.eqb_neq; lia).
    cbn [andb orb rbind]. exists x. split; [|reflexivity]. rewrite push_lastn, Z. reflexivity.
  - replace (Nat.eqb (Nat.min n (length xs + 1)) n) with true by (symmetry; apply Nat.eqb_eq; lia). cbn [andb orb].
    destruct (Nat.ltb_spec (length xs) m) as [d|d].
    + replace (Nat.eqb (Nat.min m (length xs)) m) with false by (symmetry; apply Nat.eqb_neq; lia).
      cbn [rbind]. exists x. split; [|reflexivity]. rewrite push_lastn, Z. reflexivity.
    + replace (Nat.eqb (Nat.min m (length xs)) m) with true by (symmetry; apply Nat.eqb_eq; lia).
      unfold lastn at 1 2. rewrite LZ, L. rewrite accumulate_spec by (fold n; lia). cbn [rbind].
      rewrite accumulate_spec by (fold m; lia). cbn [rbind]. rewrite push_lastn, Z. eexists. split; [reflexivity|].
      fold n m. rewrite Rplus_0_l. f_equal. apply wsum_ext. intros i hi. f_equal. 
      unfold at_. rewrite (nth_indep _ 0 (0 / g)) by (rewrite map_length, app_length; cbn; lia).
      rewrite (map_nth (fun x => x / g)). reflexivity.
Qed.

Lemma run_equation : forall wIn wOut g xs, exists ys,
  run_filter (state_after wIn wOut g [] []) xs = Ok (ys, state_after wIn wOut g xs ys) /\
  difference_equation wIn wOut g xs ys.
Proof.
  intros wIn wOut g xs. induction xs as [|x xs IH] using rev_ind.
  - exists []. split; [reflexivity|]. split; [reflexivity|]. intros k h. cbn in h. lia.
  - destruct IH as [ys [r [L E]]].
    destruct (process_state wIn wOut g xs ys x L) as [y [p ey]].
    exists (ys ++ [y]). split.
    + rewrite run_snoc, r. cbn [rbind fst snd]. rewrite p. reflexivity.
    + split; [rewrite !app_length, L; reflexivity|].
      intros k hk. rewrite app_length in hk. cbn [length] in hk.
      destruct (Nat.eq_dec k (length xs)) as [e|e].
      * subst k. rewrite <- L at 1. rewrite !at_last, ey.
        destruct (_ || _) eqn:EE; [reflexivity|]. f_equal.
        apply orb_false_iff in EE. destruct EE as [_ EE]. apply Nat.ltb_ge in EE.
        apply wsum_ext. intros j hj. rewrite at_app1 by lia. reflexivity.
      * rewrite !at_app1 by lia. rewrite (E k) by lia.
        destruct ((k + 1 <? length wIn)%nat || (k <? length wOut)%nat) eqn:EE; [reflexivity|].
        apply orb_false_iff in EE. destruct EE as [E1 E2]. apply Nat.ltb_ge in E1, E2.
        f_equal; apply wsum_ext; intros j hj; rewrite at_app1 by lia; reflexivity.
Qed.

Lemma reset_state : forall f wIn wOut g, resetFilter (configureFilter f wIn wOut g) = state_after wIn wOut g [] [].
Proof. reflexivity. Qed.

Lemma C35_difference_equation_proof : forall (f : DigitalFilter R) (wIn wOut : list R) (gain : R) (xs : list R), gain <> 0 ->
  exists ys f', run_filter (resetFilter (configureFilter f wIn wOut gain)) xs = Ok (ys, f') /\
    difference_equation wIn wOut gain xs ys.
Proof.
  intros f wIn wOut g xs _. rewrite reset_state. destruct (run_equation wIn wOut g xs) as [ys [r e]]. eauto.
Qed.


Lemma equation_unique_lin : forall wIn wOut g a b xs xs' zs ys ys' ws, 
  difference_equation wIn wOut g xs ys -> difference_equation wIn wOut g xs' ys' -> difference_equation wIn wOut g zs ws ->
  length xs' = length xs -> length zs = length xs ->
  (forall k, (k < length xs)%nat -> at_ zs k = a * at_ xs k + b * at_ xs' k) ->
  forall k, (k < length xs)%nat -> at_ ws k = a * at_ ys k + b * at_ ys' k.
Proof.
  intros wIn wOut g a b xs xs' zs ys ys' ws [L1 E1] [L2 E2] [L3 E3] h1 h2 hz.
  induction k as [k IH] using lt_wf_ind. intro hk.
  rewrite (E1 k), (E2 k), (E3 k) by lia.
  destruct ((k + 1 <? length wIn)%nat || (k <? length wOut)%nat) eqn:EE; [apply hz; exact hk|].
  apply orb_false_iff in EE. destruct EE as [F1 F2]. apply Nat.ltb_ge in F1, F2.
  rewrite (wsum_ext _ (fun i => at_ wIn i * (at_ zs (k + 1 - length wIn + i) / g))
    (fun i => a * (at_ wIn i * (at_ xs (k + 1 - length wIn + i) / g)) + b * (at_ wIn i * (at_ xs' (k + 1 - length wIn + i) / g)))).
  2:{ intros i hi. rewrite hz by lia. unfold Rdiv. ring. }
  rewrite (wsum_ext _ (fun j => at_ wOut j * at_ ws (k - length wOut + j))
    (fun j => a * (at_ wOut j * at_ ys (k - length wOut + j)) + b * (at_ wOut j * at_ ys' (k - length wOut + j)))).
  2:{ intros j hj. rewrite IH by lia. ring. }
  rewrite !wsum_lin. ring.
Qed.

Lemma C35_superposition_proof : forall (f : DigitalFilter R) (wIn wOut : list R) (gain a b : R) (xs xs' : list R),
  length xs' = length xs ->
  let f0 := resetFilter (configureFilter f wIn wOut gain) in
  let mix := fun u v : list R => map (fun p => a * fst p + b * snd p) (combine u v) in
  exists ys ys' f1 f2 f3, run_filter f0 xs = Ok (ys, f1) /\ run_filter f0 xs' = Ok (ys', f2) /\
    run_filter f0 (mix xs xs') = Ok (mix ys ys', f3).
Proof.
  intros f wIn wOut g a b xs xs' L. cbv zeta. rewrite reset_state.
  destruct (run_equation wIn wOut g xs) as [ys [r1 e1]].
  destruct (run_equation wIn wOut g xs') as [ys' [r2 e2]].
  set (zs := map (fun p => a * fst p + b * snd p) (combine xs xs')).
  destruct (run_equation wIn wOut g zs) as [ws [r3 e3]].
  exists ys, ys'. do 3 eexists. split; [exact r1|]. split; [exact r2|]. rewrite r3. do 2 f_equal.
  assert (LZ : length zs = length xs) by (unfold zs; rewrite map_length, combine_length; lia).
  assert (M : forall u v k, length u = length v -> (k < length u)%nat ->
    at_ (map (fun p => a * fst p + b * snd p) (combine u v)) k = a * at_ u k + b * at_ v k).
  { intros u v k luv hk. unfold at_. rewrite (nth_indep _ 0 ((fun p => a * fst p + b * snd p) (0, 0))) by (rewrite map_length, combine_length; lia).
    rewrite (map_nth (fun p => a * fst p + b * snd p)), combine_nth by exact luv. reflexivity. }
  generalize (equation_unique_lin wIn wOut g a b xs xs' zs ys ys' ws e1 e2 e3 L LZ). intro U.
  destruct e1 as [l1 _]. destruct e2 as [l2 _]. destruct e3 as [l3 _].
  apply (nth_ext _ _ 0 0).
  - rewrite map_length, combine_length. lia.
  - intros k hk. change (at_ ws k = at_ (map (fun p => a * fst p + b * snd p) (combine ys ys')) k).
    rewrite M by lia. apply U; [|lia]. intros j hj. unfold zs. apply M; lia.
Qed.


Definition wf_filter {T} (f : DigitalFilter T) : Prop :=
  cb_cap (df_in f) = length (df_wIn f) /\ cb_cap (df_out f) = length (df_wOut f) /\
  (length (cb_elts (df_in f)) <= length (df_wIn f))%nat /\ (length (cb_elts (df_out f)) <= length (df_wOut f))%nat.

Lemma accumulate_ok : forall T (S : Scalar T) w l out, (length w <= length l)%nat -> exists r, accumulate l w out = Ok r.
Proof.
  intros T S. induction w as [|a w IH]; intros l out h; [destruct l; cbn; eauto|].
  destruct l as [|b l]; [cbn in h; lia|]. cbn [accumulate]. apply IH. cbn in h. lia.
Qed.

Lemma push_len : forall T n (l : list T) x, (length l <= n)%nat ->
  cb_cap (cb_push (mkCbuf n l) x) = n /\ (length (cb_elts (cb_push (mkCbuf n l) x)) <= n)%nat.
Proof.
  intros T n l x h. unfold cb_push, cb_full. cbn [cb_cap cb_elts].
  destruct (Nat.eqb_spec n 0); [auto|]. destruct (Nat.eqb_spec (length l) n); cbn [cb_cap cb_elts]; split; auto.
  - rewrite app_length. destruct l; cbn in *; lia.
  - rewrite app_length. cbn. lia.
Qed.

Lemma wf_process : forall T (S : Scalar T) (f : DigitalFilter T) x, wf_filter f ->
  exists y f', processFilter f x = Ok (y, f') /\ wf_filter f' /\
    df_wIn f' = df_wIn f /\ df_wOut f' = df_wOut f /\ df_gain f' = df_gain f.
Proof.
  intros T S [[ci li] [co lo] g wi wo] x [h1 [h2 [h3 h4]]]. cbn [df_in df_out df_wIn df_wOut cb_cap cb_elts] in *.
  unfold processFilter. cbn [df_in df_out df_gain df_wIn df_wOut].
  subst ci co. destruct (push_len T (length wi) li (s_div x g) h3) as [p1 p2].
  destruct (cb_push (mkCbuf (length wi) li) (s_div x g)) as [ci' li'] eqn:E. cbn [cb_cap cb_elts] in *. subst ci'.
  assert (Y : exists y, (if cb_full (mkCbuf (length wi) li') && cb_full (mkCbuf (length wo) lo)
     then rbind (accumulate li' wi (s_ofZ 0)) (fun s => accumulate lo wo s) else Ok x) = Ok y).
  { unfold cb_full. cbn [cb_cap cb_elts]. destruct (Nat.eqb_spec (length li') (length wi)) as [a|a]; cbn [andb]; [|eauto].
    destruct (Nat.eqb_spec (length lo) (length wo)) as [b|b]; [|eauto].
    destruct (accumulate_ok T S wi li' (s_ofZ 0)) as [r er]; [lia|]. rewrite er. cbn [rbind].
    apply accumulate_ok. lia. }
  destruct Y as [y ey]. exists y. cbn [cb_elts]. rewrite ey. cbn [rbind]. eexists. split; [reflexivity|].
  cbn [df_wIn df_wOut df_gain]. split; [|auto].
  destruct (push_len T (length wo) lo y h4) as [q1 q2]. unfold wf_filter. cbn [df_in df_out df_wIn df_wOut cb_cap cb_elts].
  auto.
Qed.

Lemma wf_configure : forall T (f : DigitalFilter T) wi wo g, wf_filter (configureFilter f wi wo g).
Proof.
  intros. unfold wf_filter, configureFilter, cb_set_capacity. cbn [df_in df_out df_wIn df_wOut cb_cap cb_elts].
  rewrite !firstn_length. repeat split; apply Nat.le_min_l.
Qed.

Lemma C35_no_ub_once_configured_proof : forall (T : Type) (S : Scalar T) (f : DigitalFilter T) wIn wOut gain (h : list (filter_call T)),
  exists f', run_calls (configureFilter f wIn wOut gain) h = Ok f'.
Proof.
  intros T S f wIn wOut gain h. generalize (wf_configure T f wIn wOut gain).
  generalize (configureFilter f wIn wOut gain). induction h as [|c h IH]; intros g hg; [cbn; eauto|].
  destruct c as [wi wo k| |x]; cbn [run_calls].
  - apply IH. apply wf_configure.
  - apply IH. destruct hg as [h1 [h2 _]]. unfold wf_filter, resetFilter, cb_clear. cbn. repeat split; auto; lia.
  - destruct (wf_process T S g x hg) as [y [g' [e [w _]]]]. rewrite e. cbn [rbind]. apply IH. exact w.
Qed.


Lemma C35_reset_erases_proof : forall (T : Type) (S : Scalar T) (f : DigitalFilter T) wIn wOut gain (xs : list T) ys f',
  run_filter (configureFilter f wIn wOut gain) xs = Ok (ys, f') ->
  resetFilter f' = resetFilter (configureFilter df_default wIn wOut gain).
Proof.
  intros T S f wIn wOut gain xs. 
  assert (G : forall g ys f', wf_filter g -> run_filter g xs = Ok (ys, f') ->
    wf_filter f' /\ df_wIn f' = df_wIn g /\ df_wOut f' = df_wOut g /\ df_gain f' = df_gain g).
  { induction xs as [|x xs IH]; intros g ys f' hg e.
    - cbn in e. injection e as <- <-. auto.
    - cbn [run_filter] in e. destruct (wf_process T S g x hg) as [y [g' [p [w [k1 [k2 k3]]]]]]. rewrite p in e. cbn [rbind] in e.
      destruct (run_filter g' xs) as [[zs g'']| | |] eqn:R; try discriminate. cbn [rbind] in e. injection e as <- <-.
      destruct (IH g' zs g'' w R) as [u1 [u2 [u3 u4]]]. rewrite u2, u3, u4. auto. }
  intros ys f' e. destruct (G _ _ _ (wf_configure T f wIn wOut gain) e) as [[c1 [c2 _]] [k1 [k2 k3]]].
  unfold resetFilter, cb_clear. rewrite c1, c2, k1, k2, k3. reflexivity.
Qed.


Lemma C35_default_refuted_proof : forall (T : Type) (S : Scalar T) (x : T), processFilter df_default x = UB.
Proof. reflexivity. Qed.


Lemma C35_reconfigure_refuted_proof :
  let f := configureFilter df_default [1] [] 1 in
  exists f1 f2 f3, processFilter f 5 = Ok (5, f1) /\ processFilter (configureFilter f1 [1; 1] [] 1) 1 = Ok (6, f2) /\
    processFilter (configureFilter df_default [1; 1] [] 1) 1 = Ok (1, f3).
Proof.
  cbv zeta. unfold processFilter, configureFilter, df_default, cb_default, cb_set_capacity.
  cbn. rsimp. do 3 eexists. 
  replace (0 + 5 / 1 * 1) with 5 by field. split; [reflexivity|]. cbn. rsimp.
  replace (0 + 5 / 1 * 1 + 1 / 1 * 1) with 6 by field. split; reflexivity.
Qed.




Lemma deadband_code : forall th e, 0 <= th ->
  (if Rltb th e then e - th else if Rltb e (- th) then e + th else 0) = deadband th e.
Proof.
  intros th e h. unfold deadband, Rmax, Rmin.
  destruct (Rltb_spec th e); destruct (Rle_dec (e - th) 0); destruct (Rle_dec (e + th) 0);
    try destruct (Rltb_spec e (- th)); lra.
Qed.

Lemma absolute_code : forall th e, (if Rltb th e then e - th else 0) = Rmax (e - th) 0.
Proof. intros th e. unfold Rmax. destruct (Rltb_spec th e); destruct (Rle_dec (e - th) 0); lra. Qed.

Definition pid_step (c : PIDController R) (op : pid_call) : PIDController R :=
  match op with
  | CallFeedback a b p => snd (computeFeedback c a b p)
  | CallAbsolute e => snd (computeFeedbackAbsolute c e)
  | CallSetGains kp kv ki => snd (pid_setGains c kp kv ki)
  end.

Definition pid_gains (c : PIDController R) := (pid_Kp c, pid_Kv c, pid_Ki c).

(** State after the errors [es]. *)
Definition pid_inv (T th off : R) (g : R * R * R) (es : list R) (c : PIDController R) : Prop :=
  pid_period c = T /\ pid_threshold c = th /\ pid_offset c = off /\ pid_gains c = g /\
  pid_err c = last es 0 /\ pid_iErr c = sum_list es * T /\ pid_first c = match es with [] => true | _ => false end.

Lemma sum_app : forall l x, sum_list (l ++ [x]) = sum_list l + x.
Proof. intros l x. unfold sum_list. induction l as [|a l IH]; cbn; [ring|]. rewrite IH. ring. Qed.

Lemma gains_step : forall c kp kv ki, pid_gains (snd (pid_setGains c kp kv ki)) =
  (if Rle_dec 0 kp then if Rle_dec 0 kv then if Rle_dec 0 ki then (kp, kv, ki) else pid_gains c else pid_gains c else pid_gains c).
Proof.
  intros c kp kv ki. unfold pid_setGains, checkPositif. rsimp.
  destruct (Rltb_spec kp 0), (Rle_dec 0 kp); try lra; cbn [negb andb]; try reflexivity.
  destruct (Rltb_spec kv 0), (Rle_dec 0 kv); try lra; cbn [negb andb]; try reflexivity.
  destruct (Rltb_spec ki 0), (Rle_dec 0 ki); try lra; cbn [negb andb]; try reflexivity.
Qed.

Lemma feedback_spec : forall T th off g es c a b p, 0 <= th -> pid_inv T th off g es c ->
  let e := deadband th (a - b) in
  fst (computeFeedback c a b p) = pid_law g off T e (change es e) (sum_list (es ++ [e])) /\
  pid_inv T th off g (es ++ [e]) (snd (computeFeedback c a b p)).
Proof.
  intros T th off g es c a b p hth [i1 [i2 [i3 [i4 [i5 [i6 i7]]]]]]. cbv zeta.
  unfold computeFeedback, pid_finish. rsimp. rewrite i1, i2, i3, i5, i6, i7.
  replace (if Rltb 0 p then T else T) with T by (destruct (Rltb 0 p); reflexivity).
  rewrite deadband_code by exact hth. set (e := deadband th (a - b)).
  unfold pid_gains in i4. subst g. unfold pid_law. cbn [fst snd]. rewrite sum_app. split.
  - unfold change. destruct es; unfold Rdiv; ring.
  - unfold pid_inv, pid_gains. cbn. rewrite sum_app, last_last. repeat split; try ring. destruct es; reflexivity.
Qed.

Lemma absolute_spec : forall T th off g es c x, pid_inv T th off g es c ->
  let e := Rmax (x - th) 0 in
  fst (computeFeedbackAbsolute c x) = pid_law g off T e (Rabs (change es e)) (sum_list (es ++ [e])) /\
  pid_inv T th off g (es ++ [e]) (snd (computeFeedbackAbsolute c x)).
Proof.
  intros T th off g es c x [i1 [i2 [i3 [i4 [i5 [i6 i7]]]]]]. cbv zeta.
  unfold computeFeedbackAbsolute, pid_finish. rsimp. rewrite i1, i2, i3, i5, i6, i7.
  rewrite absolute_code. set (e := Rmax (x - th) 0).
  unfold pid_gains in i4. subst g. unfold pid_law. cbn [fst snd]. rewrite sum_app. split.
  - unfold change. destruct es; [rewrite Rabs_R0|]; unfold Rdiv; ring.
  - unfold pid_inv, pid_gains. cbn. rewrite sum_app, last_last. repeat split; try ring. destruct es; reflexivity.
Qed.

Lemma history_inv : forall h T th off g es c, 0 <= th -> pid_inv T th off g es c ->
  pid_inv T th off (gains g h) (es ++ errors th h) (fold_left pid_step h c).
Proof.
  induction h as [|op h IH]; intros T th off g es c hth hc.
  - cbn. rewrite app_nil_r. exact hc.
  - cbn [fold_left errors gains]. destruct op as [a b p|x|kp kv ki].
    + destruct (feedback_spec T th off g es c a b p hth hc) as [_ k].
      generalize (IH T th off g _ _ hth k). rewrite <- app_assoc. exact (fun z => z).
    + destruct (absolute_spec T th off g es c x hc) as [_ k].
      generalize (IH T th off g _ _ hth k). rewrite <- app_assoc. exact (fun z => z).
    + apply IH; [exact hth|]. destruct hc as [i1 [i2 [i3 [i4 [i5 [i6 i7]]]]]]. 
      unfold pid_inv. rewrite <- i4, <- gains_step.
      assert (F : forall b c', pid_setGains c kp kv ki = (b, c') -> pid_period c' = pid_period c /\ pid_threshold c' = pid_threshold c /\
        pid_offset c' = pid_offset c /\ pid_err c' = pid_err c /\ pid_iErr c' = pid_iErr c /\ pid_first c' = pid_first c).
      { intros b c' e. unfold pid_setGains in e. destruct (_ && _); injection e as <- <-; cbn; auto 10. }
      cbn [pid_step]. destruct (pid_setGains c kp kv ki) as [b c'] eqn:E. destruct (F b c' eq_refl) as [f1 [f2 [f3 [f4 [f5 f6]]]]].
      cbn [snd]. rewrite f1, f2, f3, f4, f5, f6. auto 10.
Qed.

Definition valid (kp kv ki th off T : R) : Prop := 0 <= kp /\ 0 <= kv /\ 0 <= ki /\ 0 <= th /\ 0 <= off /\ 0 < T.

Lemma check_valid : forall c : PIDController R, pid_checkData c = true <->
  valid (pid_Kp c) (pid_Kv c) (pid_Ki c) (pid_threshold c) (pid_offset c) (pid_period c).
Proof.
  intro c. unfold pid_checkData, checkPositif, checkStriclyPositif, valid. rsimp.
  rewrite !andb_true_iff, !negb_true_iff.
  assert (P : forall x, Rltb x 0 = false <-> 0 <= x) by (intro x; destruct (Rltb_spec x 0); split; intros; auto; try lra; discriminate).
  assert (Q : forall x, Rleb x 0 = false <-> 0 < x) by (intro x; destruct (Rleb_spec x 0); split; intros; auto; try lra; discriminate).
  rewrite !P, Q. tauto.
Qed.

Lemma fresh_inv : forall c kp kv ki th off T, 
  pid_new kp kv ki th off T = Ok c \/ (exists c0, pid_initialize c0 kp kv ki th off T = (true, c)) ->
  valid kp kv ki th off T /\ pid_inv T th off (kp, kv, ki) [] c.
Proof.
  intros c kp kv ki th off T h. unfold pid_new, pid_initialize in h. destruct h as [h|[c0 h]].
  - destruct (pid_checkData _) eqn:E; [|discriminate]. injection h as <-. apply check_valid in E. cbn in E.
    split; [exact E|]. unfold pid_inv, pid_gains, sum_list. cbn. repeat split; ring.
  - destruct (pid_checkData _) eqn:E; [|discriminate]. injection h as <-. apply check_valid in E. cbn in E.
    split; [exact E|]. unfold pid_inv, pid_gains, sum_list. cbn. repeat split; ring.
Qed.

Lemma C36_law_proof : forall (kp kv ki th off T : R) (c : PIDController R) (h : list pid_call),
  pid_new kp kv ki th off T = Ok c \/ (exists c0, pid_initialize c0 kp kv ki th off T = (true, c)) ->
  let c' := fold_left (fun s op => match op with
     | CallFeedback a b p => snd (computeFeedback s a b p)
     | CallAbsolute x => snd (computeFeedbackAbsolute s x)
     | CallSetGains a b d => snd (pid_setGains s a b d) end) h c in
  let past := errors th h in
  (forall command sensor p, let e := deadband th (command - sensor) in
     fst (computeFeedback c' command sensor p) =
     pid_law (gains (kp, kv, ki) h) off T e (change past e) (sum_list past + e)) /\
  (forall x, let e := Rmax (x - th) 0 in
     fst (computeFeedbackAbsolute c' x) =
     pid_law (gains (kp, kv, ki) h) off T e (Rabs (change past e)) (sum_list past + e)).
Proof.
  intros kp kv ki th off T c h hc. cbv zeta.
  destruct (fresh_inv c kp kv ki th off T hc) as [V I]. destruct V as [_ [_ [_ [hth _]]]].
  generalize (history_inv h T th off _ _ _ hth I). cbn [app]. intro K.
  split.
  - intros a b p. rewrite <- sum_app. apply (feedback_spec T th off _ _ _ a b p hth K).
  - intro x. rewrite <- sum_app. apply (absolute_spec T th off _ _ _ x K).
Qed.


Lemma C36_checks_proof : forall (c : PIDController R) (kp kv ki th off T : R),
  let ok := 0 <= kp /\ 0 <= kv /\ 0 <= ki /\ 0 <= th /\ 0 <= off /\ 0 < T in
  ((exists c', pid_new kp kv ki th off T = Ok c') <-> ok) /\ (~ ok -> pid_new kp kv ki th off T = Throw) /\
  (fst (pid_initialize c kp kv ki th off T) = true <-> ok) /\
  (fst (pid_setGains c kp kv ki) = true <-> 0 <= kp /\ 0 <= kv /\ 0 <= ki) /\
  (fst (pid_setGains c kp kv ki) = false -> snd (pid_setGains c kp kv ki) = c).
Proof.
  intros c kp kv ki th off T. cbv zeta. fold (valid kp kv ki th off T).
  unfold pid_new, pid_initialize.
  assert (P : forall x, Rltb x 0 = false <-> 0 <= x) by (intro x; destruct (Rltb_spec x 0); split; intros; auto; try lra; discriminate).
  split; [|split; [|split; [|split]]].
  - destruct (pid_checkData _) eqn:E.
    + apply check_valid in E. cbn in E. split; eauto.
    + split; [intros [c' e]; discriminate|]. intro v.
      assert (X : pid_checkData (mkPID kp kv ki T th off 0 0 0 0 true) = true) by (apply check_valid; exact v).
      exfalso. revert X. rsimp. rewrite E. discriminate.
  - intro n. destruct (pid_checkData _) eqn:E; [|reflexivity]. apply check_valid in E. cbn in E. contradiction.
  - destruct (pid_checkData _) eqn:E; cbn [fst].
    + apply check_valid in E. cbn in E. tauto.
    + split; [discriminate|]. intro v. rewrite <- E. apply check_valid. exact v.
  - unfold pid_setGains, checkPositif. rsimp. destruct (_ && _) eqn:E; cbn [fst].
    + rewrite !andb_true_iff, !negb_true_iff, !P in E. tauto.
    + split; [discriminate|]. rewrite <- E, !andb_true_iff, !negb_true_iff, !P. tauto.
  - unfold pid_setGains. destruct (_ && _); cbn [fst snd]; [discriminate|reflexivity].
Qed.


Lemma C36_reset_proof : forall (c : PIDController R),
  fst (pid_initialize c (pid_Kp c) (pid_Kv c) (pid_Ki c) (pid_threshold c) (pid_offset c) (pid_period c)) = true ->
  pid_initialize0 c = snd (pid_initialize c (pid_Kp c) (pid_Kv c) (pid_Ki c) (pid_threshold c) (pid_offset c) (pid_period c)).
Proof.
  intros c. unfold pid_initialize. destruct (pid_checkData _); [reflexivity|discriminate].
Qed.


Lemma C36_absolute_integral_grows_proof : forall (c : PIDController R) x, 0 < pid_period c ->
  pid_iErr c <= pid_iErr (snd (computeFeedbackAbsolute c x)).
Proof.
  intros c x h. unfold computeFeedbackAbsolute, pid_finish. cbn [snd pid_iErr]. rsimp. rewrite absolute_code.
  generalize (Rmax_r (x - pid_threshold c) 0). intro k. nra.
Qed.


Lemma C36_period_refuted_proof : forall (T : Type) (S : Scalar T) (c : PIDController T) command sensor p p',
  computeFeedback c command sensor p = computeFeedback c command sensor p'.
Proof.
  intros T S c a b p p'. unfold computeFeedback.
  destruct (s_ltb (s_ofZ 0) p), (s_ltb (s_ofZ 0) p'); reflexivity.
Qed.


Lemma C36_initialize_atomic_refuted_proof : exists c' : PIDController R,
  pid_initialize pid_default 1 2 3 0 0 0 = (false, c') /\ c' <> pid_default /\ pid_period c' = 0 /\ pid_Kp c' = 1.
Proof.
  unfold pid_initialize, pid_checkData, checkPositif, checkStriclyPositif. cbn [pid_Kp pid_Kv pid_Ki pid_threshold pid_offset pid_period]. rsimp.
  rewrite !(Rltb_false _ 0), Rleb_true by lra. cbn [negb andb]. eexists. split; [reflexivity|].
  split; [|split; reflexivity]. intro e. apply (f_equal (@pid_Kp R)) in e. cbn in e. lra.
Qed.


Lemma C36_nan_refuted_proof : forall L : libm32, let S := F32Scalar L in
  exists c, pid_new B754_nan B754_nan B754_nan B754_nan B754_nan B754_nan = Ok c /\ pid_period c = B754_nan.
Proof. intro L. eexists. split; reflexivity. Qed.


Lemma C36_default_proof : forall kp kv ki : R, 0 <= kp -> 0 <= kv -> 0 <= ki ->
  exists c, pid_setGains pid_default kp kv ki = (true, c) /\ pid_new kp kv ki 0 0 1 = Ok c.
Proof.
  intros kp kv ki h1 h2 h3. destruct (C36_checks_proof pid_default kp kv ki 0 0 1) as (h & _ & _ & g & _).
  destruct (proj2 h ltac:(lra)) as [c e]. exists c. split; [|exact e].
  assert (k := proj2 g (conj h1 (conj h2 h3))). unfold pid_setGains in *. destruct (_ && _); [|discriminate]. f_equal.
  unfold pid_new in e. destruct (pid_checkData _); [|discriminate]. injection e as <-. reflexivity.
Qed.

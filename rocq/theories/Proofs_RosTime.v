(** * Lemmas for Props_RosTime *)

From Coq Require Import ZArith Lia Bool.
From Verif Require Import Scalar Model_RosTime Spec_RosTime.
Local Open Scope Z_scope.


Lemma to_ros_eq : forall n, toValidRosTime n =
  let m := Z.min last_ns (Z.max 1 n) in Ok (mkTime (m / 1000000000) (m mod 1000000000)).
Proof.
  intro n. unfold toValidRosTime. cbv zeta.
  change (negb (1 =? to_int64 (toNSec TIME_MIN))) with false.
  change (negb (999999999 + (2 ^ 32 - 1) * 1000000000 =? to_int64 (toNSec TIME_MAX))) with false. cbv iota.
  change (999999999 + (2 ^ 32 - 1) * 1000000000) with last_ns.
  assert (hm : 1 <= Z.min last_ns (Z.max 1 n) <= last_ns) by (unfold last_ns; lia).
  set (m := Z.min last_ns (Z.max 1 n)) in *. clearbody m. unfold to_uint64, last_ns in *. rewrite Z.mod_small by lia.
  unfold fromNSec. assert (m / 1000000000 <= 2^32 - 1) by (apply Z.lt_succ_r, Z.div_lt_upper_bound; lia).
  destruct (Z.ltb_spec (2^32 - 1) (m / 1000000000)); [lia|]. reflexivity.
Qed.

Lemma C53_clamp_proof : forall n, is_count n ->
  exists t, toValidRosTime n = Ok t /\ valid t /\
    (1 <= n <= last_ns -> nanoseconds t = n) /\ (n < 1 -> t = TIME_MIN) /\ (last_ns < n -> t = TIME_MAX).
Proof.
  intros n hn. rewrite to_ros_eq. cbv zeta. eexists. split; [reflexivity|]. set (m := Z.min last_ns (Z.max 1 n)).
  assert (hm : 1 <= m <= last_ns) by (unfold m, last_ns; lia).
  assert (hd : 0 <= m / 1000000000 < 2^32) by (split; [apply Z.div_pos; lia|apply Z.div_lt_upper_bound; unfold last_ns in hm; lia]).
  generalize (Z.mod_pos_bound m 1000000000 ltac:(lia)). intro hr.
  assert (E : nanoseconds (mkTime (m / 1000000000) (m mod 1000000000)) = m) by (unfold nanoseconds; cbn [t_sec t_nsec]; rewrite (Z.div_mod m 1000000000) at 3 by lia; lia).
  split; [|split; [|split]].
  - split; [split|].
    + split; cbn [t_sec t_nsec]; lia.
    + cbn [t_nsec]. lia.
    + rewrite E. lia.
  - intro h. rewrite E. unfold m. lia.
  - intro h. assert (e : m = 1) by (unfold m, last_ns; lia). rewrite e. reflexivity.
  - intro h. assert (e : m = last_ns) by (unfold m; lia). rewrite e. reflexivity.
Qed.

Lemma C53_round_trip_proof : (forall n, 1 <= n <= last_ns -> exists t, toValidRosTime n = Ok t /\ toQiDuration t = Ok n) /\
  (forall t, valid t -> exists n, toQiDuration t = Ok n /\ n = nanoseconds t /\ toValidRosTime n = Ok t).
Proof.
  assert (Q : forall t, normalized t -> toQiDuration t = Ok (nanoseconds t)).
  { intros [s ns] [[h1 h2] h3]. cbn [t_sec t_nsec] in *. unfold toQiDuration, time_le, TIME_MAX, toNSec, nanoseconds. cbn [t_sec t_nsec].
    assert (e : (if s <? 2^32 - 1 then true else if (s =? 2^32 - 1) && (ns <=? 999999999) then true else false) = true).
    { destruct (Z.ltb_spec s (2^32 - 1)); [reflexivity|]. destruct (Z.eqb_spec s (2^32 - 1)); [|lia]. destruct (Z.leb_spec ns 999999999); [reflexivity|lia]. }
    rewrite e. cbn [negb]. unfold to_int64. rewrite (Z.mod_small (s * 1000000000 + ns)) by lia. rewrite Z.mod_small by lia. f_equal. lia. }
  assert (A : forall n, 1 <= n <= last_ns -> exists t, toValidRosTime n = Ok t /\ toQiDuration t = Ok n).
  { intros n h. destruct (C53_clamp_proof n) as (t & h1 & h2 & h3 & _); [unfold is_count, last_ns in *; lia|]. exists t. split; [exact h1|].
    rewrite (Q t (proj1 h2)), (h3 h). reflexivity. }
  split; [exact A|]. intros t h. exists (nanoseconds t). split; [apply Q, h|]. split; [reflexivity|].
  assert (b : 1 <= nanoseconds t <= last_ns). { destruct h as [[[h1 h2] h3] h4]. split; [exact h4|]. unfold nanoseconds, last_ns. lia. }
  rewrite to_ros_eq. cbv zeta. replace (Z.min last_ns (Z.max 1 (nanoseconds t))) with (nanoseconds t) by lia.
  destruct t as [s ns], h as [[[h1 h2] h3] h4]. cbn [t_sec t_nsec] in *. unfold nanoseconds in *. cbn [t_sec t_nsec] in *.
  do 2 f_equal; symmetry; [apply (Z.div_unique _ _ _ ns)|apply (Z.mod_unique _ _ s)]; lia.
Qed.

Lemma C53_monotone_proof : forall n n' t t', n <= n' -> toValidRosTime n = Ok t -> toValidRosTime n' = Ok t' -> time_le t t' = true.
Proof.
  intros n n' t t' h. rewrite !to_ros_eq. cbv zeta. intros e e'. injection e as <-. injection e' as <-.
  set (m := Z.min last_ns (Z.max 1 n)). set (m' := Z.min last_ns (Z.max 1 n')). assert (hm : m <= m') by (unfold m, m'; lia). clearbody m m'.
  unfold time_le. cbn [t_sec t_nsec]. generalize (Z.div_le_mono m m' 1000000000 ltac:(lia) hm). intro hd.
  destruct (Z.ltb_spec (m / 1000000000) (m' / 1000000000)); [reflexivity|]. destruct (Z.eqb_spec (m / 1000000000) (m' / 1000000000)) as [e|]; [|lia].
  destruct (Z.leb_spec (m mod 1000000000) (m' mod 1000000000)) as [|l]; [reflexivity|].
  rewrite (Z.div_mod m 1000000000), (Z.div_mod m' 1000000000), e in hm by lia. lia.
Qed.

Lemma C53_any_time_proof : forall t, representable t ->
  toQiDuration t = Ok (nanoseconds t) \/ (toQiDuration t = Abort /\ time_le t TIME_MAX = false).
Proof.
  intros [s ns] [h1 h2]. cbn [t_sec t_nsec] in *. unfold toQiDuration. destruct (time_le (mkTime s ns) TIME_MAX); [left|right; auto].
  cbn [negb]. unfold to_int64, toNSec, nanoseconds. cbn [t_sec t_nsec]. rewrite (Z.mod_small (s * 1000000000 + ns)) by lia. rewrite Z.mod_small by lia. f_equal. lia.
Qed.

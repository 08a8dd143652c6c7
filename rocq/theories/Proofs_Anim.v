(** * Lemmas for Props_Anim *)

From Coq Require Import String Ascii.
From Coq Require Import List ZArith Bool Arith Lia Sorting.Sorted.
From Coq Require Decimal DecimalString DecimalZ DecimalFacts DecimalPos.
Import ListNotations.
From Verif Require Import Scalar Model_Anim Spec_Anim.
Local Open Scope string_scope.
Local Open Scope list_scope.
Local Open Scope Z_scope.


(** *** Printing and reading ints *)

Lemma read_digits_pos : forall d p, read_digits (DecimalString.NilEmpty.string_of_uint d) (Zpos p) = (Zpos (Pos.of_uint_acc d p), "").
Proof.
  induction d; intro p; cbn [DecimalString.NilEmpty.string_of_uint Pos.of_uint_acc]; [reflexivity|..];
  (rewrite <- IHd; cbn [read_digits]; match goal with |- context [digit ?c] => let v := eval vm_compute in (digit c) in change (digit c) with v end; cbv iota beta; f_equal; lia).
Qed.
Lemma read_digits_0 : forall d, read_digits (DecimalString.NilEmpty.string_of_uint d) 0 = (Z.of_N (Pos.of_uint d), "").
Proof.
  induction d; cbn [DecimalString.NilEmpty.string_of_uint Pos.of_uint Z.of_N]; [reflexivity| exact IHd |..];
  (rewrite <- read_digits_pos; cbn [read_digits]; match goal with |- context [digit ?c] => let v := eval vm_compute in (digit c) in change (digit c) with v end; reflexivity).
Qed.
Lemma read_nat_uint : forall d, d <> Decimal.Nil -> read_nat (DecimalString.NilZero.string_of_uint d) = Some (Z.of_N (Pos.of_uint d), "").
Proof.
  intros d h. assert (e : DecimalString.NilZero.string_of_uint d = DecimalString.NilEmpty.string_of_uint d) by (destruct d; [congruence|reflexivity..]).
  rewrite e. clear e. rewrite <- read_digits_0.
  destruct d; [congruence|..]; reflexivity.
Qed.
Lemma to_uint_nonnil : forall p, Pos.to_uint p <> Decimal.Nil.
Proof. intros p e. generalize (DecimalPos.Unsigned.of_to p). rewrite e. cbn. congruence. Qed.

Lemma parse_nonneg : forall d, d <> Decimal.Nil -> - 2^31 <= Z.of_N (Pos.of_uint d) < 2^31 ->
  parse_int (DecimalString.NilZero.string_of_uint d) = Some (Z.of_N (Pos.of_uint d)).
Proof.
  intros d h b. assert (e : exists c s, DecimalString.NilZero.string_of_uint d = String c s /\ is_space c = false /\ c <> "-"%char /\ c <> "+"%char)
    by (destruct d; [congruence|..]; cbn; do 2 eexists; (split; [reflexivity|]; split; [reflexivity|]; split; discriminate)).
  destruct e as (c & s & e & h1 & h2 & h3). unfold parse_int.
  assert (ed : drop_spaces (DecimalString.NilZero.string_of_uint d) = DecimalString.NilZero.string_of_uint d) by (rewrite e; cbn; rewrite h1; reflexivity).
  rewrite ed. generalize (read_nat_uint d h). rewrite e. intro r.
  assert (E : match String c s with String "-" s' => (true, s') | String "+" s' => (false, s') | _ => (false, String c s) end = (false, String c s)).
  { clear -h2 h3. destruct c as [[|] [|] [|] [|] [|] [|] [|] [|]]; try reflexivity; congruence. }
  rewrite E, r. cbn [drop_spaces]. cbn [String.eqb andb].
  destruct (Z.leb_spec (- 2^31) (Z.of_N (Pos.of_uint d))); [|lia]. destruct (Z.ltb_spec (Z.of_N (Pos.of_uint d)) (2^31)); [|lia]. reflexivity.
Qed.


Lemma parse_print : forall z, - 2^31 <= z < 2^31 -> parse_int (print_int z) = Some z.
Proof.
  intros z b. unfold print_int. destruct z as [|p|p]; cbn [Z.to_int DecimalString.NilZero.string_of_int].
  - reflexivity.
  - generalize (parse_nonneg (Pos.to_uint p) (to_uint_nonnil p)). rewrite DecimalPos.Unsigned.of_to. cbn [Z.of_N]. intro h. apply h. lia.
  - generalize (read_nat_uint _ (to_uint_nonnil p)). rewrite DecimalPos.Unsigned.of_to. generalize (DecimalString.NilZero.string_of_uint (Pos.to_uint p)). intros s e.
    change (match read_nat s with
            | Some (n, s) => if (String.eqb (drop_spaces s) "" && (- 2^31 <=? - n) && (- n <? 2^31))%bool then Some (- n) else None
            | None => None end = Some (Z.neg p)). rewrite e.
    cbn [Z.of_N drop_spaces String.eqb andb Z.opp].
    destruct (Z.leb_spec (- 2^31) (Z.neg p)); [|lia]. destruct (Z.ltb_spec (Z.neg p) (2^31)); [|lia]. reflexivity.
Qed.

(** *** Children and attributes *)

Lemma upd_first_none : forall key f l, upd_first key f l = None <-> find_child key l = None.
Proof.
  induction l as [|[k c] l IH]; cbn; [tauto|]. destruct (String.eqb k key); [split; discriminate|].
  destruct (upd_first key f l); cbn; [|tauto]. rewrite <- IH. split; discriminate.
Qed.
Lemma find_upd_same : forall key f l l', upd_first key f l = Some l' ->
  exists c, find_child key l = Some c /\ find_child key l' = Some (f c).
Proof.
  induction l as [|[k c] l IH]; cbn; [discriminate|]. intros l' e. destruct (String.eqb k key) eqn:ek.
  - injection e as <-. exists c. cbn. rewrite ek. auto.
  - destruct (upd_first key f l) as [l1|]; [|discriminate]. injection e as <-.
    destruct (IH l1 eq_refl) as (c' & h1 & h2). exists c'. cbn. rewrite ek. auto.
Qed.
Lemma find_upd_other : forall key key' f l l', key <> key' -> upd_first key f l = Some l' -> find_child key' l' = find_child key' l.
Proof.
  induction l as [|[k c] l IH]; cbn; [discriminate|]. intros l' n e. destruct (String.eqb_spec k key) as [->|nk].
  - injection e as <-. cbn. destruct (String.eqb_spec key key'); [congruence|reflexivity].
  - destruct (upd_first key f l) as [l1|]; [|discriminate]. injection e as <-. cbn. rewrite (IH l1 n eq_refl). reflexivity.
Qed.
Lemma find_app : forall key l l', find_child key (l ++ l') = match find_child key l with Some c => Some c | None => find_child key l' end.
Proof. induction l as [|[k c] l IH]; intro l'; cbn; [reflexivity|]. destruct (String.eqb k key); auto. Qed.
Definition dflt (o : option ptree) : ptree := match o with Some c => c | None => PT "" [] end.
Lemma find_put_same : forall key f pt,
  find_child key (pt_kids (put_kid key f pt)) = Some (f (dflt (find_child key (pt_kids pt)))).
Proof.
  intros key f pt. unfold put_kid, set_kids. cbn [pt_kids]. destruct (upd_first key f (pt_kids pt)) as [l|] eqn:e.
  - destruct (find_upd_same _ _ _ _ e) as (c & h1 & h2). rewrite h1, h2. reflexivity.
  - apply upd_first_none in e. rewrite find_app, e. cbn. rewrite String.eqb_refl. reflexivity.
Qed.
Lemma find_put_other : forall key key' f pt, key <> key' ->
  find_child key' (pt_kids (put_kid key f pt)) = find_child key' (pt_kids pt).
Proof.
  intros key key' f pt n. unfold put_kid, set_kids. cbn [pt_kids]. destruct (upd_first key f (pt_kids pt)) as [l|] eqn:e.
  - apply (find_upd_other _ _ _ _ _ n e).
  - rewrite find_app. cbn. destruct (String.eqb_spec key key'); [congruence|]. destruct (find_child key' (pt_kids pt)); reflexivity.
Qed.
Lemma attr_put_same : forall name v pt, attr name (put_attr name v pt) = Some v.
Proof. intros. unfold attr, put_attr. rewrite find_put_same, find_put_same. reflexivity. Qed.
Lemma attr_put_other : forall name name' v pt, name <> name' -> attr name' (put_attr name v pt) = attr name' pt.
Proof.
  intros name name' v pt n. unfold attr, put_attr. rewrite find_put_same, (find_put_other _ _ _ _ n).
  destruct (find_child "<xmlattr>" (pt_kids pt)); reflexivity.
Qed.
Lemma get_frame_attr : forall k k', attr "frame" k = attr "frame" k' -> get_frame k = get_frame k'.
Proof. intros k k' e. unfold get_frame, get_int. rewrite e. reflexivity. Qed.
Lemma get_frame_put : forall f k, is_frame f -> get_frame (put_attr "frame" (print_int f) k) = Ok f.
Proof.
  intros f k h. unfold is_frame in h. unfold get_frame, get_int. rewrite attr_put_same, parse_print by lia. cbn [rbind].
  destruct (Z.ltb_spec f 0); [lia|reflexivity].
Qed.
Lemma get_frame_nonneg : forall k f, get_frame k = Ok f -> 0 <= f.
Proof.
  intros k f. unfold get_frame. destruct (get_int "frame" k) as [z| | |]; cbn [rbind]; try discriminate.
  destruct (Z.ltb_spec z 0); [discriminate|]. congruence.
Qed.

Lemma C51_ints_proof : forall name z pt, - 2^31 <= z < 2^31 ->
  get_int name (put_attr name (print_int z) pt) = Ok z /\
  (forall name', name' <> name -> attr name' (put_attr name (print_int z) pt) = attr name' pt).
Proof.
  intros name z pt h. split.
  - unfold get_int. rewrite attr_put_same, parse_print by exact h. reflexivity.
  - intros n h'. apply attr_put_other. congruence.
Qed.


Lemma is_space_list : forall c, is_space c = existsb (Nat.eqb (nat_of_ascii c)) [9; 10; 11; 12; 13; 32]%nat.
Proof. intros c. destruct c as [[] [] [] [] [] [] [] []]; reflexivity. Qed.
Lemma is_space_iff : forall c, is_space c = true <-> In (nat_of_ascii c) [9; 10; 11; 12; 13; 32]%nat.
Proof.
  intros c. rewrite is_space_list, existsb_exists. split.
  - intros (n & h & e). apply Nat.eqb_eq in e. now rewrite e.
  - intros h. exists (nat_of_ascii c). split; [exact h|apply Nat.eqb_refl].
Qed.

Lemma digit_iff : forall c d, digit c = Some d <-> (48 <= nat_of_ascii c <= 57)%nat /\ d = Z.of_nat (nat_of_ascii c) - 48.
Proof.
  intros c d. unfold digit. cbv zeta. destruct ((48 <=? nat_of_ascii c) && (nat_of_ascii c <=? 57))%nat eqn:e.
  - apply andb_true_iff in e. destruct e as [e1 e2]. apply Nat.leb_le in e1, e2. split; [intros h; injection h as <-; split; [lia|reflexivity]|intros [_ ->]; reflexivity].
  - apply andb_false_iff in e. rewrite !Nat.leb_gt in e. split; [discriminate|lia].
Qed.

Lemma blanks_nil : blanks "".
Proof. intros c []. Qed.
Lemma blanks_cons : forall c s, blanks (String c s) <-> is_space c = true /\ blanks s.
Proof.
  intros c s. unfold blanks. cbn. rewrite is_space_iff. split.
  - intros h. split; [apply h; now left|intros c' h'; apply h; now right].
  - intros [h h'] c' [<-|i]; auto.
Qed.

Lemma drop_blanks : forall b t, blanks b -> drop_spaces (b ++ t)%string = drop_spaces t.
Proof. induction b as [|c b hb]; intros t h; [reflexivity|]. apply blanks_cons in h. destruct h as [h h']. cbn. rewrite h. apply hb, h'. Qed.

Lemma drop_split : forall s, exists b, blanks b /\ s = (b ++ drop_spaces s)%string.
Proof.
  induction s as [|c s (b & hb & e)]; [exists ""; split; [apply blanks_nil|reflexivity]|]. cbn. destruct (is_space c) eqn:es.
  - exists (String c b). split; [apply blanks_cons; auto|]. cbn. now rewrite <- e.
  - exists "". split; [apply blanks_nil|reflexivity].
Qed.

Lemma digit_not_space : forall c d, digit c = Some d -> is_space c = false.
Proof. intros c d. destruct c as [[] [] [] [] [] [] [] []]; vm_compute; intros h; try reflexivity; discriminate. Qed.
Lemma space_not_digit : forall c, is_space c = true -> digit c = None.
Proof. intros c h. destruct (digit c) eqn:e; [|reflexivity]. apply digit_not_space in e. congruence. Qed.

Lemma read_digits_split : forall s acc, exists d, s = (d ++ snd (read_digits s acc))%string /\
  (forall c, In c (list_ascii_of_string d) -> (48 <= nat_of_ascii c <= 57)%nat) /\
  fst (read_digits s acc) = fold_left (fun a c => 10 * a + (Z.of_nat (nat_of_ascii c) - 48)) (list_ascii_of_string d) acc.
Proof.
  induction s as [|c s hs]; intros acc; [exists ""; split; [reflexivity|split; [intros ? []|reflexivity]]|]. cbn [read_digits].
  destruct (digit c) as [d|] eqn:e; [|exists ""; split; [reflexivity|split; [intros ? []|reflexivity]]].
  destruct (hs (10 * acc + d)) as (u & h1 & h2 & h3). apply digit_iff in e. destruct e as [e ->]. exists (String c u).
  split; [cbn; f_equal; exact h1|]. split; [intros c' [<-|i]; auto|]. exact h3.
Qed.

Lemma read_digits_app : forall d b acc, (forall c, In c (list_ascii_of_string d) -> (48 <= nat_of_ascii c <= 57)%nat) -> blanks b ->
  read_digits (d ++ b)%string acc = (fold_left (fun a c => 10 * a + (Z.of_nat (nat_of_ascii c) - 48)) (list_ascii_of_string d) acc, b).
Proof.
  induction d as [|c d hd]; intros b acc h hb.
  - cbn. destruct b as [|c b]; [reflexivity|]. apply blanks_cons in hb. cbn. now rewrite (space_not_digit c (proj1 hb)).
  - cbn. rewrite (proj2 (digit_iff c (Z.of_nat (nat_of_ascii c) - 48))); [|split; [apply h; now left|reflexivity]].
    apply hd; [intros c' i; apply h; now right|exact hb].
Qed.

Lemma drop_all : forall b, blanks b -> drop_spaces b = "".
Proof. induction b as [|c b hb]; intros h; [reflexivity|]. apply blanks_cons in h. cbn. rewrite (proj1 h). apply hb, h. Qed.

Lemma read_nat_digits : forall d n b, decimals d n -> blanks b -> read_nat (d ++ b)%string = Some (n, b).
Proof.
  intros d n b (h0 & h & ->) hb. destruct d as [|c d]; [now destruct h0|]. cbn.
  rewrite (proj2 (digit_iff c (Z.of_nat (nat_of_ascii c) - 48))); [|split; [apply h; now left|reflexivity]].
  f_equal. apply read_digits_app; [intros c' i; apply h; now right|exact hb].
Qed.

Lemma read_nat_split : forall s n r, read_nat s = Some (n, r) -> exists d, s = (d ++ r)%string /\ decimals d n.
Proof.
  intros [|c s] n r h; [discriminate|]. cbn in h. destruct (digit c) as [v|] eqn:e; [|discriminate]. injection h as h.
  destruct (read_digits_split s v) as (u & h1 & h2 & h3). rewrite h in h1, h3. cbn in h1, h3. apply digit_iff in e. destruct e as [e ->].
  exists (String c u). split; [cbn; now rewrite <- h1|]. split; [discriminate|]. split; [intros c' [<-|i]; auto|exact h3].
Qed.

Lemma C51_int_text_proof : forall s z, parse_int s = Some z <-> integer_text s z /\ - 2^31 <= z < 2^31.
Proof.
  intros s z. split.
  - unfold parse_int. cbv zeta. destruct (drop_split s) as (b & hb & e). set (u := drop_spaces s) in *. clearbody u.
    enough (forall neg sg v, u = (sg ++ v)%string -> ((neg = false /\ (sg = "" \/ sg = "+")) \/ (neg = true /\ sg = "-")) ->
      match read_nat v with
      | Some (n, s) => let z := if (neg : bool) then - n else n in
          if (String.eqb (drop_spaces s) "" && (- 2^31 <=? z) && (z <? 2^31))%bool then Some z else None
      | None => None end = Some z -> integer_text s z /\ - 2^31 <= z < 2^31) as H.
    { destruct u as [|c u]; [intros h; apply (H false "" ""); [reflexivity|left; auto|exact h]|].
      destruct (ascii_dec c "-") as [->|n1]; [intros h; apply (H true "-" u); [reflexivity|right; auto|exact h]|].
      destruct (ascii_dec c "+") as [->|n2]; [intros h; apply (H false "+" u); [reflexivity|left; auto|exact h]|].
      intros h. apply (H false "" (String c u)); [reflexivity|left; auto|]. rewrite <- h. clear - n1 n2.
      destruct c as [[] [] [] [] [] [] [] []]; first [reflexivity|now destruct n1|now destruct n2]. }
    intros neg sg v eu hs. destruct (read_nat v) as [[n r]|] eqn:er; [|discriminate]. cbv zeta.
    destruct (String.eqb (drop_spaces r) "" && (- 2^31 <=? (if neg then - n else n)) && ((if neg then - n else n) <? 2^31))%bool eqn:et; [|discriminate].
    intros h. injection h as <-. apply andb_true_iff in et. destruct et as [et e3]. apply andb_true_iff in et. destruct et as [e1 e2].
    apply String.eqb_eq in e1. apply Z.leb_le in e2. apply Z.ltb_lt in e3. split; [|split; assumption].
    destruct (read_nat_split _ _ _ er) as (d & -> & hd). destruct (drop_split r) as (b' & hb' & er'). rewrite e1 in er'.
    assert (er2 : r = b') by (rewrite er'; clear; induction b' as [|c b' hb']; [reflexivity|cbn; now rewrite hb']).
    exists b, sg, d, n, r. subst u. split; [exact e|]. split; [exact hb|]. split; [now rewrite er2|]. split; [exact hd|].
    destruct hs as [[-> hs]|[-> hs]]; [left|right]; auto.
  - intros [(b & sg & d & n & b' & -> & hb & hb' & hd & hz) hr]. unfold parse_int. cbv zeta. rewrite (drop_blanks b _ hb).
    assert (hn : read_nat (d ++ b')%string = Some (n, b')) by (apply read_nat_digits; assumption).
    assert (hf : (String.eqb (drop_spaces b') "" && (- 2^31 <=? z) && (z <? 2^31))%bool = true).
    { rewrite (drop_all b' hb'). rewrite (proj2 (Z.leb_le _ _) (proj1 hr)), (proj2 (Z.ltb_lt _ _) (proj2 hr)). reflexivity. }
    assert (hv : exists c d', d = String c d' /\ (48 <= nat_of_ascii c <= 57)%nat).
    { destruct hd as (h0 & h & _). destruct d as [|c d']; [now destruct h0|]. exists c, d'. split; [reflexivity|apply h; now left]. }
    destruct hz as [[[->| ->] ->]|[-> ->]].
    + cbn [append]. destruct hv as (c & d' & -> & hc). cbn [append] in *.
      assert (en : drop_spaces (String c (d' ++ b')) = String c (d' ++ b')).
      { cbn. now rewrite (digit_not_space c _ (proj2 (digit_iff c _) (conj hc eq_refl))). }
      rewrite en. transitivity (match read_nat (String c (d' ++ b')) with
        | Some (n, s) => if (String.eqb (drop_spaces s) "" && (- 2^31 <=? n) && (n <? 2^31))%bool then Some n else None | None => None end).
      * clear - hc. destruct c as [[] [] [] [] [] [] [] []]; first [reflexivity|exfalso; vm_compute in hc; lia].
      * rewrite hn, hf. reflexivity.
    + change (drop_spaces ("+" ++ d ++ b')%string) with (String "+" (d ++ b')%string). cbv beta iota zeta. rewrite hn. cbv zeta. rewrite hf. reflexivity.
    + change (drop_spaces ("-" ++ d ++ b')%string) with (String "-" (d ++ b')%string). cbv beta iota zeta. rewrite hn. cbv zeta. rewrite hf. reflexivity.
Qed.



Lemma C51_attributes_proof : forall T (parse_real : string -> option T) pt,
  let only (a : string) pt' := forall n, n <> a -> attr n pt' = attr n pt in
  (forall f, is_frame f -> exists pt', put_frame f pt = (Ok tt, pt') /\ get_frame pt' = Ok f /\ only "frame" pt') /\
  (forall f, f < 0 -> put_frame f pt = (Throw, pt)) /\
  (forall n, 0 < n < 2^31 -> exists pt', put_fps n pt = (Ok tt, pt') /\ get_fps pt' = Ok n /\ only "fps" pt') /\
  (forall n, n <= 0 -> put_fps n pt = (Throw, pt)) /\
  (forall a, get_actuator (put_actuator a pt) = Ok a /\ only "actuator" (put_actuator a pt)) /\
  (forall b, get_mute (put_mute b pt) = b /\ only "mute" (put_mute b pt)) /\
  (forall u, get_unit (put_unit u pt) = Ok u /\ only "unit" (put_unit u pt)) /\
  (forall s, get_side (put_side s pt) = Ok s /\ only "side" (put_side s pt)) /\
  (forall v, get_key_value parse_real (put_key_value v pt) = match parse_real v with Some x => Ok x | None => Throw end /\
             only "value" (put_key_value v pt)).
Proof.
  intros T pr pt only.
  assert (ho : forall a v, only a (put_attr a v pt)) by (intros a v n h; apply attr_put_other; congruence).
  split; [|split; [|split; [|split; [|split; [|split; [|split; [|split]]]]]]].
  - intros f h. unfold put_frame. rewrite (proj2 (Z.ltb_ge _ _) (proj1 h)). eexists. split; [reflexivity|]. split; [apply get_frame_put, h|apply ho].
  - intros f h. unfold put_frame. now rewrite (proj2 (Z.ltb_lt _ _) h).
  - intros n h. unfold put_fps. rewrite (proj2 (Z.leb_gt _ _) (proj1 h)). eexists. split; [reflexivity|]. split; [|apply ho].
    unfold get_fps, get_int. rewrite attr_put_same, parse_print by lia. cbn. now rewrite (proj2 (Z.leb_gt _ _) (proj1 h)).
  - intros n h. unfold put_fps. now rewrite (proj2 (Z.leb_le _ _) h).
  - intros a. split; [|apply ho]. unfold get_actuator, put_actuator, get_string. now rewrite attr_put_same.
  - intros b. split; [|apply ho]. unfold get_mute, put_mute. rewrite attr_put_same. destruct b; reflexivity.
  - intros u. split; [|apply ho]. unfold get_unit, put_unit, get_string. rewrite attr_put_same. destruct u; reflexivity.
  - intros u. split; [|apply ho]. unfold get_side, put_side, get_string. rewrite attr_put_same. destruct u; reflexivity.
  - intros v. split; [|apply ho]. unfold get_key_value, put_key_value, get_real. now rewrite attr_put_same.
Qed.


Lemma C51_reading_proof : forall T (parse_real : string -> option T) pt,
  (forall f, get_frame pt = Ok f <-> exists s, attr "frame" pt = Some s /\ integer_text s f /\ is_frame f) /\
  (forall n, get_fps pt = Ok n <-> exists s, attr "fps" pt = Some s /\ integer_text s n /\ 0 < n < 2^31) /\
  (get_mute pt = true <-> exists s, attr "mute" pt = Some s /\ (s = "true" \/ integer_text s 1)) /\
  (forall u, get_unit pt = Ok u <-> attr "unit" pt = Some
     match u with dimensionless => "dimensionless" | radian => "radian" | degree => "degree" | meter => "meter" end) /\
  (forall s, get_side pt = Ok s <-> attr "side" pt = Some match s with left => "left" | right => "right" end) /\
  (forall x, get_key_value parse_real pt = Ok x <-> exists s, attr "value" pt = Some s /\ parse_real s = Some x) /\
  (forall x, get_abscissa parse_real pt = Ok x <-> exists s, attr "abscissaParam" pt = Some s /\ parse_real s = Some x) /\
  (forall x, get_ordinate parse_real pt = Ok x <-> exists s, attr "ordinateParam" pt = Some s /\ parse_real s = Some x).
Proof.
  intros T pr pt.
  assert (hr : forall n x, get_real pr n pt = Ok x <-> exists s, attr n pt = Some s /\ pr s = Some x).
  { intros n x. unfold get_real. destruct (attr n pt) as [s|]; [|split; [discriminate|intros (? & h & _); discriminate]].
    destruct (pr s) as [y|] eqn:e; split.
    - intros h. injection h as <-. eauto.
    - intros (s' & h & h'). injection h as <-. congruence.
    - discriminate.
    - intros (s' & h & h'). injection h as <-. congruence. }
  split; [|split; [|split; [|split; [|split; [|split; [apply hr|split; apply hr]]]]]].
  - intros f. unfold get_frame, get_int. destruct (attr "frame" pt) as [s|]; [|split; [discriminate|intros (? & h & _); discriminate]].
    destruct (parse_int s) as [z|] eqn:e.
    + cbn. split.
      * destruct (Z.ltb_spec z 0); [discriminate|]. intros h. injection h as <-. apply C51_int_text_proof in e. exists s. split; [reflexivity|]. split; [apply e|split; [assumption|apply e]].
      * intros (s' & h & h1 & h2). injection h as <-. unfold is_frame in h2.
        assert (e' : parse_int s = Some f) by (apply C51_int_text_proof; split; [exact h1|lia]). rewrite e in e'. injection e' as ->.
        now rewrite (proj2 (Z.ltb_ge _ _) (proj1 h2)).
    + split; [discriminate|]. intros (s' & h & h1 & h2). injection h as <-. unfold is_frame in h2.
      assert (e' : parse_int s = Some f) by (apply C51_int_text_proof; split; [exact h1|lia]). congruence.
  - intros f. unfold get_fps, get_int. destruct (attr "fps" pt) as [s|]; [|split; [discriminate|intros (? & h & _); discriminate]].
    destruct (parse_int s) as [z|] eqn:e.
    + cbn. split.
      * destruct (Z.leb_spec z 0); [discriminate|]. intros h. injection h as <-. apply C51_int_text_proof in e. exists s. split; [reflexivity|]. split; [apply e|split; [assumption|apply e]].
      * intros (s' & h & h1 & h2). injection h as <-.
        assert (e' : parse_int s = Some f) by (apply C51_int_text_proof; split; [exact h1|lia]). rewrite e in e'. injection e' as ->.
        now rewrite (proj2 (Z.leb_gt _ _) (proj1 h2)).
    + split; [discriminate|]. intros (s' & h & h1 & h2). injection h as <-.
      assert (e' : parse_int s = Some f) by (apply C51_int_text_proof; split; [exact h1|lia]). congruence.
  - unfold get_mute. destruct (attr "mute" pt) as [s|]; [|split; [discriminate|intros (? & h & _); discriminate]]. split.
    + intros h. apply orb_true_iff in h. exists s. split; [reflexivity|]. destruct h as [h|h]; [left; now apply String.eqb_eq|].
      destruct (parse_int s) as [z|] eqn:e; [|discriminate]. apply Z.eqb_eq in h. subst z. right. now apply C51_int_text_proof in e.
    + intros (s' & h & h1). injection h as <-. apply orb_true_iff. destruct h1 as [->|h1]; [now left|]. right.
      assert (e' : parse_int s = Some 1) by (apply C51_int_text_proof; split; [exact h1|lia]). now rewrite e'.
  - intros u. unfold get_unit, get_string. destruct (attr "unit" pt) as [s|]; [|split; discriminate]. cbn.
    destruct (String.eqb_spec s "dimensionless") as [->|n1]; [destruct u; split; congruence|].
    destruct (String.eqb_spec s "radian") as [->|n2]; [destruct u; split; congruence|].
    destruct (String.eqb_spec s "degree") as [->|n3]; [destruct u; split; congruence|].
    destruct (String.eqb_spec s "meter") as [->|n4]; [destruct u; split; congruence|].
    destruct u; split; congruence.
  - intros u. unfold get_side, get_string. destruct (attr "side" pt) as [s|]; [|split; discriminate]. cbn.
    destruct (String.eqb_spec s "left") as [->|n1]; [destruct u; split; congruence|].
    destruct (String.eqb_spec s "right") as [->|n2]; [destruct u; split; congruence|].
    destruct u; split; congruence.
Qed.



Lemma C51_add_labels_proof : forall pt, let (i, pt') := add_labels pt in
  kid pt' i = Ok ("Labels", PT "" []) /\ pt_kids pt' = pt_kids pt ++ [("Labels", PT "" [])] /\ pt_data pt' = pt_data pt.
Proof.
  intros pt. cbn. split; [|split; reflexivity]. unfold kid. cbn. rewrite nth_error_app2 by apply le_n. now rewrite Nat.sub_diag.
Qed.


(** *** Binary search *)

Lemma lower_bound_spec : forall comp n p, (forall i, (i < p)%nat -> comp i = Ok true) ->
  (forall i, (p <= i < n)%nat -> comp i = Ok false) ->
  forall fuel first len, (first <= p <= first + len)%nat -> (first + len <= n)%nat -> (len <= fuel)%nat ->
  lower_bound_loop fuel comp first len = Ok p.
Proof.
  intros comp n p ht hf. induction fuel as [|fuel IH]; intros first len h1 h2 h3.
  - cbn. f_equal. lia.
  - cbn [lower_bound_loop]. destruct (Nat.eqb_spec len 0) as [e|e]; [f_equal; lia|].
    assert (hd : (Nat.div2 len < len)%nat) by (apply Nat.lt_div2; lia).
    destruct (le_lt_dec p (first + Nat.div2 len)) as [l|l].
    + rewrite hf by lia. cbn [rbind]. apply IH; lia.
    + rewrite ht by lia. cbn [rbind]. apply IH; lia.
Qed.
Lemma lower_bound_split : forall comp A B, (forall c, In c A -> comp c = Ok true) -> (forall c, In c B -> comp c = Ok false) ->
  lower_bound comp (A ++ B) = Ok (length A).
Proof.
  intros comp A B ha hb. unfold lower_bound.
  apply (lower_bound_spec _ (length (A ++ B))); try lia.
  - intros i h. rewrite nth_error_app1 by lia. destruct (nth_error A i) eqn:e; [apply ha, (nth_error_In _ _ e)|].
    apply nth_error_None in e. lia.
  - intros i h. rewrite app_length in h. rewrite nth_error_app2 by lia. destruct (nth_error B (i - length A)) eqn:e; [apply hb, (nth_error_In _ _ e)|].
    apply nth_error_None in e. lia.
  - rewrite app_length. lia.
Qed.
Lemma insert_at_app : forall A (x : A) l l', insert_at (length l) x (l ++ l') = l ++ x :: l'.
Proof. intros. unfold insert_at. rewrite firstn_app, firstn_all, Nat.sub_diag, skipn_app, skipn_all, Nat.sub_diag. cbn. rewrite app_nil_r. reflexivity. Qed.
Lemma nth_error_mid : forall A (l l' : list A) x, nth_error (l ++ x :: l') (length l) = Some x.
Proof. intros. rewrite nth_error_app2, Nat.sub_diag by lia. reflexivity. Qed.

(** *** Sorted lists of keys *)

Definition all_ (P : Z -> Prop) (l : list (Z * ptree)) : Prop := forall f k, In (f, k) l -> P f.

Lemma split_at : forall f l, StronglySorted Z.le (map fst l) ->
  exists l1 l2, l = l1 ++ l2 /\ all_ (fun g => g <= f) l1 /\ all_ (fun g => f < g) l2.
Proof.
  intros f l. induction l as [|[g k] l IH]; intro h.
  - exists [], []. split; [reflexivity|]. split; intros g k i; destruct i.
  - cbn in h. apply StronglySorted_inv in h. destruct h as [h1 h2]. destruct (Z_le_gt_dec g f) as [c|c].
    + destruct (IH h1) as (l1 & l2 & -> & h3 & h4). exists ((g, k) :: l1), l2. split; [reflexivity|]. split; [|exact h4].
      intros g' k' [e|i]; [injection e as <- <-; exact c|]. apply (h3 g' k' i).
    + exists [], ((g, k) :: l). split; [reflexivity|]. split; [intros g' k' []|].
      intros g' k' [e|i]; [injection e as <- <-; lia|]. rewrite Forall_forall in h2.
      generalize (h2 g' (in_map fst _ _ i)). lia.
Qed.
Lemma sorted_lt_le : forall l, StronglySorted Z.lt l -> StronglySorted Z.le l.
Proof. induction 1; constructor; auto. rewrite Forall_forall in *. intros x i. apply Z.lt_le_incl, H0, i. Qed.
Lemma sorted_insert : forall (R : Z -> Z -> Prop) l1 l2 f k,
  StronglySorted R (map fst (l1 ++ l2)) -> all_ (fun g => R g f) l1 -> all_ (fun g => R f g) l2 ->
  StronglySorted R (map fst (l1 ++ (f, k) :: l2)).
Proof.
  intros R l1 l2 f k. induction l1 as [|[g k'] l1 IH]; cbn; intros hs h1 h2.
  - constructor; [exact hs|]. rewrite Forall_forall. intros x i. apply in_map_iff in i. destruct i as ([x' k''] & <- & i). apply (h2 x' k'' i).
  - apply StronglySorted_inv in hs. destruct hs as [hs1 hs2]. constructor.
    + apply IH; auto. intros a b i. apply (h1 a b). cbn. auto.
    + rewrite Forall_forall in *. intros x i. rewrite map_app in i, hs2. apply in_app_or in i. destruct i as [i|i].
      * apply hs2, in_or_app. auto.
      * cbn in i. destruct i as [<-|i]; [apply (h1 g k'); cbn; auto|]. apply hs2, in_or_app. auto.
Qed.
Lemma sorted_lt_nodup : forall l, StronglySorted Z.lt l -> NoDup l.
Proof. induction 1 as [|a l h IH f]; constructor; auto. intro i. rewrite Forall_forall in f. generalize (f a i). lia. Qed.

Definition row (key : string) (l : list (Z * ptree)) : list (string * ptree) := map (fun fk => (key, snd fk)) l.
Lemma in_row : forall key l c, In c (row key l) -> exists f k, c = (key, k) /\ In (f, k) l.
Proof. intros key l c i. apply in_map_iff in i. destruct i as ([f k] & <- & i). exists f, k. auto. Qed.

(** A curve cut at a frame. *)
Lemma cut : forall pt l f, conforming_curve pt l ->
  exists o l1 l2, l = l1 ++ l2 /\ pt_kids pt = (o ++ row "Key" l1) ++ row "Key" l2 /\ (forall c, In c o -> fst c <> "Key") /\
    all_ (fun g => g < f) l1 /\ all_ (fun g => f <= g) l2 /\ lower_bound (key_comp f) (pt_kids pt) = Ok (length (o ++ row "Key" l1)).
Proof.
  intros pt l f (((o & e & ho) & hf) & hs). destruct (split_at (f - 1) l (sorted_lt_le _ hs)) as (l1 & l2 & -> & h1 & h2).
  exists o, l1, l2. fold (row "Key" (l1 ++ l2)) in e. unfold row in e at 1. rewrite map_app in e. fold (row "Key" l1) (row "Key" l2) in e. rewrite app_assoc in e.
  assert (h1' : all_ (fun g => g < f) l1) by (intros g k i; generalize (h1 g k i); lia).
  assert (h2' : all_ (fun g => f <= g) l2) by (intros g k i; generalize (h2 g k i); lia).
  split; [reflexivity|]. split; [exact e|]. split; [exact ho|]. split; [exact h1'|]. split; [exact h2'|].
  rewrite e. apply lower_bound_split.
  - intros c i. unfold key_comp. apply in_app_or in i. destruct i as [i|i].
    + destruct (String.eqb_spec (fst c) "Key") as [e'|_]; [destruct (ho c i e')|reflexivity].
    + destruct (in_row _ _ _ i) as (g & k & -> & i'). cbn [fst snd String.eqb negb]. change ("Key" =? "Key")%string with true. cbn [negb].
      rewrite (hf g k) by (apply in_or_app; auto). cbn [rmap]. destruct (Z.ltb_spec g f); [reflexivity|]. generalize (h1' g k i'). lia.
  - intros c i. unfold key_comp. destruct (in_row _ _ _ i) as (g & k & -> & i'). cbn [fst snd]. change ("Key" =? "Key")%string with true. cbn [negb].
    rewrite (hf g k) by (apply in_or_app; auto). cbn [rmap]. destruct (Z.ltb_spec g f); [|reflexivity]. generalize (h2' g k i'). lia.
Qed.

(** The tail begins with the frame, or does not have it. *)
Lemma head_frame : forall f l1 l2, StronglySorted Z.lt (map fst (l1 ++ l2)) -> all_ (fun g => g < f) l1 -> all_ (fun g => f <= g) l2 ->
  (exists k l3, l2 = (f, k) :: l3) \/ (all_ (fun g => f < g) l2 /\ ~ In f (map fst (l1 ++ l2))).
Proof.
  intros f l1 l2 hs h1 h2. destruct l2 as [|[g k] l3].
  - right. split; [intros g k []|]. rewrite app_nil_r. intro i. apply in_map_iff in i. destruct i as ([x k] & e & i). cbn in e. subst x. generalize (h1 f k i). lia.
  - destruct (Z.eq_dec g f) as [->|n]; [left; exists k, l3; reflexivity|]. right.
    assert (hg : f < g) by (generalize (h2 g k ltac:(cbn; auto)); lia).
    assert (ht : all_ (fun x => f < x) ((g, k) :: l3)).
    { intros x k' [e|i]; [injection e as <- <-; exact hg|].
      rewrite map_app in hs. assert (hs' : StronglySorted Z.lt (map fst ((g, k) :: l3))).
      { clear -hs. induction (map fst l1) as [|a r IH]; [exact hs|]. apply IH. apply StronglySorted_inv in hs. exact (proj1 hs). }
      cbn in hs'. apply StronglySorted_inv in hs'. destruct hs' as [_ hs']. rewrite Forall_forall in hs'. generalize (hs' x (in_map fst _ _ i)). lia. }
    split; [exact ht|]. intro i. rewrite map_app in i. apply in_app_or in i. destruct i as [i|i]; apply in_map_iff in i; destruct i as ([x k'] & e & i); cbn in e; subst x.
    + generalize (h1 f k' i). lia.
    + generalize (ht f k' i). lia.
Qed.

Definition new_key_ (f : Z) : ptree := put_attr "frame" (print_int f) (PT "" []).
Lemma new_key_blank : forall f, is_frame f -> blank_key f (new_key_ f).
Proof.
  intros f h. split; [apply get_frame_put, h|]. split; [reflexivity|]. split.
  - intros n hn. unfold new_key_. rewrite attr_put_other by congruence. reflexivity.
  - intros c [<-|[]]. reflexivity.
Qed.

(** What require_key and get_key_optional do. *)
Lemma require_key_spec : forall pt l f, conforming_curve pt l -> is_frame f ->
  exists o l1 l2, l = l1 ++ l2 /\ pt_kids pt = (o ++ row "Key" l1) ++ row "Key" l2 /\ (forall c, In c o -> fst c <> "Key") /\
    all_ (fun g => g < f) l1 /\
  ((exists k l3, l2 = (f, k) :: l3 /\ require_key pt f = (Ok (length (o ++ row "Key" l1)), pt)) \/
   (all_ (fun g => f < g) l2 /\ ~ In f (map fst l) /\
    require_key pt f = (Ok (length (o ++ row "Key" l1)),
                        PT (pt_data pt) ((o ++ row "Key" l1) ++ ("Key", new_key_ f) :: row "Key" l2)) /\
    conforming_curve (snd (require_key pt f)) (l1 ++ (f, new_key_ f) :: l2))).
Proof.
  intros pt l f hc hf. destruct (cut pt l f hc) as (o & l1 & l2 & -> & e & ho & h1 & h2 & hl).
  exists o, l1, l2. split; [reflexivity|]. split; [exact e|]. split; [exact ho|]. split; [exact h1|].
  destruct (head_frame f l1 l2 (proj2 hc) h1 h2) as [(k & l3 & ->)|(h2' & hn)].
  - left. exists k, l3. split; [reflexivity|]. unfold require_key. rewrite hl. unfold at_frame. rewrite e. cbn [row map snd].
    rewrite nth_error_mid. cbn [snd]. rewrite (proj2 (proj1 hc) f k) by (apply in_or_app; cbn; auto). cbn [rmap]. rewrite Z.eqb_refl. reflexivity.
  - right. split; [exact h2'|]. split; [exact hn|].
    assert (E : require_key pt f = (Ok (length (o ++ row "Key" l1)),
                        PT (pt_data pt) ((o ++ row "Key" l1) ++ ("Key", new_key_ f) :: row "Key" l2))).
    { unfold require_key. rewrite hl. unfold at_frame, put_frame.
      destruct (Z.ltb_spec f 0) as [b|_]; [unfold is_frame in hf; lia|]. rewrite e. cbn [rmap]. rewrite insert_at_app. unfold set_kids.
      destruct l2 as [|[g k] l3]; cbn [row map].
      - rewrite nth_error_app2, Nat.sub_diag by lia. reflexivity.
      - cbn [snd]. rewrite nth_error_mid. cbn [snd]. rewrite (proj2 (proj1 hc) g k) by (apply in_or_app; cbn; auto). cbn [rmap].
        destruct (Z.eqb_spec g f) as [->|_]; [generalize (h2' f k ltac:(cbn; auto)); lia|]. reflexivity. }
    split; [exact E|]. rewrite E. cbn [snd]. split; [split|].
    + exists o. cbn [pt_kids]. split; [|exact ho]. rewrite map_app, <- app_assoc. reflexivity.
    + intros g k i. apply in_app_or in i. destruct i as [i|[i|i]].
      * apply (proj2 (proj1 hc)), in_or_app. auto.
      * injection i as <- <-. apply get_frame_put, hf.
      * apply (proj2 (proj1 hc)), in_or_app. auto.
    + apply sorted_insert; [apply (proj2 hc)|exact h1|exact h2'].
Qed.

Lemma C51_require_key_proof : forall curve l f, conforming_curve curve l -> is_frame f ->
  exists i k curve', require_key curve f = (Ok i, curve') /\ kid curve' i = Ok ("Key", k) /\ get_frame k = Ok f /\
  ((In (f, k) l /\ curve' = curve) \/
   (~ In f (map fst l) /\ blank_key f k /\ pt_data curve' = pt_data curve /\ others "Key" curve' = others "Key" curve /\
    exists l1 l2, l = l1 ++ l2 /\ (forall g k', In (g, k') l1 -> g < f) /\ (forall g k', In (g, k') l2 -> f < g) /\
      conforming_curve curve' (l1 ++ (f, k) :: l2))).
Proof.
  intros pt l f hc hf. destruct (require_key_spec pt l f hc hf) as (o & l1 & l2 & -> & e & ho & h1 & h).
  destruct h as [(k & l3 & -> & E)|(h2 & hn & E & hc')].
  - exists (length (o ++ row "Key" l1)), k, pt. split; [exact E|]. split; [|split].
    + unfold kid. rewrite e. cbn [row map snd]. rewrite nth_error_mid. reflexivity.
    + apply (proj2 (proj1 hc)), in_or_app. cbn; auto.
    + left. split; [|reflexivity]. apply in_or_app; cbn; auto.
  - rewrite E in hc'. cbn [snd] in hc'. do 3 eexists. split; [exact E|]. split; [|split].
    + unfold kid. cbn [pt_kids]. rewrite nth_error_mid. reflexivity.
    + apply get_frame_put, hf.
    + right. split; [exact hn|]. split; [apply new_key_blank, hf|]. split; [reflexivity|]. split.
      * unfold others. cbn [pt_kids]. rewrite e, !filter_app. cbn [filter fst]. change ("Key" =? "Key")%string with true. cbn [negb]. reflexivity.
      * exists l1, l2. auto.
Qed.


Lemma get_key_spec : forall pt l f, conforming_curve pt l ->
  exists o l1 l2, l = l1 ++ l2 /\ pt_kids pt = (o ++ row "Key" l1) ++ row "Key" l2 /\ (forall c, In c o -> fst c <> "Key") /\
  all_ (fun g => g < f) l1 /\
  ((exists k l3, l2 = (f, k) :: l3 /\ get_key_optional pt f = Ok (Some (length (o ++ row "Key" l1)))) \/
   (~ In f (map fst l) /\ get_key_optional pt f = Ok None)).
Proof.
  intros pt l f hc. destruct (cut pt l f hc) as (o & l1 & l2 & -> & e & ho & h1 & h2 & hl).
  exists o, l1, l2. split; [reflexivity|]. split; [exact e|]. split; [exact ho|]. split; [exact h1|].
  unfold get_key_optional. rewrite hl. cbn [rbind]. unfold at_frame. rewrite e.
  destruct (head_frame f l1 l2 (proj2 hc) h1 h2) as [(k & l3 & ->)|(h2' & hn)].
  - left. exists k, l3. split; [reflexivity|]. cbn [row map snd].
    rewrite nth_error_mid. cbn [snd]. rewrite (proj2 (proj1 hc) f k) by (apply in_or_app; cbn; auto). cbn [rmap]. rewrite Z.eqb_refl. reflexivity.
  - right. split; [exact hn|]. destruct l2 as [|[g k] l3]; cbn [row map].
    + rewrite nth_error_app2, Nat.sub_diag by lia. reflexivity.
    + cbn [snd]. rewrite nth_error_mid. cbn [snd]. rewrite (proj2 (proj1 hc) g k) by (apply in_or_app; cbn; auto). cbn [rmap].
      destruct (Z.eqb_spec g f) as [->|_]; [generalize (h2' f k ltac:(cbn; auto)); lia|]. reflexivity.
Qed.

Lemma same_frame : forall (l : list (Z * ptree)) f k k', StronglySorted Z.lt (map fst l) -> In (f, k) l -> In (f, k') l -> k = k'.
Proof.
  intros l f k k' hs i i'. apply sorted_lt_nodup in hs. induction l as [|[g x] l IH]; [destruct i|].
  cbn in hs. apply NoDup_cons_iff in hs. destruct hs as [hn hs].
  destruct i as [e|i], i' as [e'|i'].
  - congruence.
  - injection e as -> ->. destruct hn. apply (in_map fst _ _ i').
  - injection e' as -> ->. destruct hn. apply (in_map fst _ _ i).
  - apply IH; auto.
Qed.

Lemma C51_get_key_proof : forall curve l f, conforming_curve curve l ->
  (forall k, In (f, k) l -> exists i, get_key_optional curve f = Ok (Some i) /\ kid curve i = Ok ("Key", k)) /\
  (~ In f (map fst l) -> get_key_optional curve f = Ok None).
Proof.
  intros pt l f hc. destruct (get_key_spec pt l f hc) as (o & l1 & l2 & -> & e & ho & h1 & h).
  destruct h as [(k & l3 & -> & E)|(hn & E)].
  - split; [|intro n; destruct n; rewrite map_app; apply in_or_app; cbn; auto].
    intros k' i. exists (length (o ++ row "Key" l1)). split; [exact E|]. unfold kid. rewrite e. cbn [row map snd]. rewrite nth_error_mid.
    rewrite (same_frame _ f k' k (proj2 hc) i) by (apply in_or_app; cbn; auto). reflexivity.
  - split; [|auto]. intros k i. destruct hn. apply (in_map fst _ _ i).
Qed.


(** *** Histories *)

Lemma upd_first_app : forall key f A A' B, upd_first key f A = Some A' -> upd_first key f (A ++ B) = Some (A' ++ B).
Proof.
  induction A as [|[k c] A IH]; intros A' B; cbn; [discriminate|]. destruct (String.eqb k key); [intro e; injection e as <-; reflexivity|].
  destruct (upd_first key f A) as [l|]; [|discriminate]. intro e. injection e as <-. rewrite (IH l B eq_refl). reflexivity.
Qed.
Lemma upd_first_names : forall key f A A', upd_first key f A = Some A' -> map fst A' = map fst A.
Proof.
  induction A as [|[k c] A IH]; intros A'; cbn; [discriminate|]. destruct (String.eqb k key); [intro e; injection e as <-; reflexivity|].
  destruct (upd_first key f A) as [l|]; [|discriminate]. intro e. injection e as <-. cbn. rewrite (IH l eq_refl). reflexivity.
Qed.
Lemma find_row : forall key l, key <> "Key" -> find_child key (row "Key" l) = None.
Proof. induction l as [|x l IH]; cbn [row map find_child]; intro h; [reflexivity|]. destruct (String.eqb_spec "Key" key); [congruence|]. apply IH, h. Qed.

Definition has_attrs (pt : ptree) : Prop := find_child "<xmlattr>" (pt_kids pt) <> None.

Lemma put_attr_conforming : forall n v pt l, conforming_curve pt l -> has_attrs pt ->
  conforming_curve (put_attr n v pt) l /\ has_attrs (put_attr n v pt).
Proof.
  intros n v pt l (((o & e & ho) & hf) & hs) ha. fold (row "Key" l) in e.
  assert (hno : upd_first "<xmlattr>" (put_kid n (fun c => PT v (pt_kids c))) o <> None).
  { intro E. apply upd_first_none in E. apply ha. rewrite e, find_app, E. apply find_row. discriminate. }
  split; [split; [split|exact hs]; [|exact hf]|].
  - destruct (upd_first "<xmlattr>" (put_kid n (fun c => PT v (pt_kids c))) o) as [o'|] eqn:E; [|congruence].
    exists o'. split.
    + unfold put_attr. unfold put_kid at 1. rewrite e. rewrite (upd_first_app _ _ _ _ _ E). reflexivity.
    + intros c i. generalize (in_map fst _ _ i). rewrite (upd_first_names _ _ _ _ E). intro i'. apply in_map_iff in i'.
      destruct i' as (c' & <- & i'). apply ho, i'.
  - unfold has_attrs, put_attr. rewrite find_put_same. discriminate.
Qed.

Lemma find_filter : forall key (P : string * ptree -> bool) l, (forall c : ptree, P (key, c) = true) -> find_child key (filter P l) = find_child key l.
Proof.
  induction l as [|[k c] l IH]; intro h; [reflexivity|]. cbn [filter find_child]. destruct (String.eqb_spec k key) as [->|n].
  - rewrite h. cbn [find_child]. rewrite String.eqb_refl. reflexivity.
  - destruct (P (k, c)); [cbn [find_child]; destruct (String.eqb_spec k key); [congruence|]|]; apply IH, h.
Qed.
Lemma find_upd_nth : forall key i f l c, nth_error l i = Some c -> fst c <> key -> find_child key (upd_nth i f l) = find_child key l.
Proof.
  induction i as [|i IH]; intros f [|[k x] l] c e h; try discriminate.
  - injection e as <-. cbn in *. destruct (String.eqb_spec k key); [congruence|reflexivity].
  - cbn in *. rewrite (IH f l c e h). reflexivity.
Qed.
Lemma erase_loop_find : forall key side l, key <> "Tangent" -> find_child key (snd (erase_tangent_loop side l)) = find_child key l.
Proof.
  induction l as [|[k c] l IH]; intro h; [reflexivity|]. specialize (IH h). cbn [erase_tangent_loop]. unfold is_named. cbn [fst snd].
  destruct (String.eqb_spec k "Tangent") as [->|n].
  - destruct (get_side c) as [s| | |]; try reflexivity. destruct (erase_tangent_loop side l) as [r l'']. cbn [snd] in IH.
    cbn [find_child]. destruct (String.eqb_spec "Tangent" key) as [e|e]; [congruence|].
    destruct (side_eqb s side); cbn [snd find_child]; [exact IH|]. destruct (String.eqb_spec "Tangent" key); [congruence|exact IH].
  - destruct (erase_tangent_loop side l) as [r l'']. cbn [snd find_child] in *. rewrite IH. reflexivity.
Qed.
Lemma tangent_loop_named : forall side l j i, tangent_loop side j l = Ok (Some i) ->
  (j <= i)%nat /\ exists c, nth_error l (i - j) = Some c /\ fst c = "Tangent" /\ get_side (snd c) = Ok side.
Proof.
  induction l as [|[k c] l IH]; intros j i; cbn [tangent_loop]; [discriminate|]. unfold is_named at 1. cbn [fst snd].
  assert (st : tangent_loop side (S j) l = Ok (Some i) -> (j <= i)%nat /\ exists c', nth_error ((k, c) :: l) (i - j) = Some c' /\ fst c' = "Tangent" /\ get_side (snd c') = Ok side).
  { intro e. destruct (IH _ _ e) as (h & c' & h1 & h2 & h3). split; [lia|]. exists c'. replace (i - j)%nat with (S (i - S j)) by lia. auto. }
  destruct (String.eqb_spec k "Tangent") as [->|n]; [|exact st].
  destruct (get_side c) as [s| | |] eqn:es; cbn [rbind]; try discriminate.
  destruct (side_eqb side s) eqn:eq; [|exact st]. intro e. injection e as <-. split; [lia|]. exists ("Tangent", c). rewrite Nat.sub_diag.
  split; [reflexivity|]. split; [reflexivity|]. cbn. rewrite es. destruct side, s; try discriminate; reflexivity.
Qed.
Lemma require_tangent_cases : forall k s, (exists i, require_tangent k s = (Ok i, k) /\ get_tangent_optional k s = Ok (Some i)) \/
  (get_tangent_optional k s = Ok None /\
   require_tangent k s = (Ok (length (pt_kids k)), set_kids k (pt_kids k ++ [("Tangent", put_side s (PT "" []))]))) \/
  (exists r, require_tangent k s = (r, k) /\ forall i, r <> Ok i).
Proof.
  intros k s. unfold require_tangent, add_tangent. destruct (get_tangent_optional k s) as [[i|]| | |].
  - left. exists i. auto.
  - right. left. auto.
  - right. right. eexists. split; [reflexivity|discriminate].
  - right. right. eexists. split; [reflexivity|discriminate].
  - right. right. eexists. split; [reflexivity|discriminate].
Qed.
Lemma put_tangent_find : forall key k s a o, key <> "Tangent" ->
  find_child key (pt_kids (snd (put_tangent k s a o))) = find_child key (pt_kids k).
Proof.
  intros key k s a o h. unfold put_tangent. destruct (require_tangent_cases k s) as [(i & -> & E)|[(E & ->)|(r & -> & hr)]].
  - cbn [snd on_kid set_kids pt_kids]. unfold get_tangent_optional in E. apply tangent_loop_named in E.
    destruct E as (_ & c & e & n & _). rewrite Nat.sub_0_r in e. apply (find_upd_nth _ _ _ _ _ e). congruence.
  - cbn [snd on_kid set_kids pt_kids].
    rewrite (find_upd_nth key _ _ _ ("Tangent", put_side s (PT "" []))); [|apply nth_error_mid|cbn; congruence].
    rewrite find_app. cbn [find_child]. destruct (String.eqb_spec "Tangent" key); [congruence|]. destruct (find_child key (pt_kids k)); reflexivity.
  - destruct r as [x| | |]; try reflexivity. destruct (hr x eq_refl).
Qed.
Lemma attr_find : forall n k k', find_child "<xmlattr>" (pt_kids k) = find_child "<xmlattr>" (pt_kids k') -> attr n k = attr n k'.
Proof. intros n k k' e. unfold attr. rewrite e. reflexivity. Qed.

Lemma run_key_op_frame : forall op k, get_frame (run_key_op op k) = get_frame k.
Proof.
  intros op k. apply get_frame_attr. destruct op as [v|s a o|s]; cbn [run_key_op].
  - apply attr_put_other. discriminate.
  - apply attr_find, put_tangent_find. discriminate.
  - apply attr_find. unfold erase_tangent. generalize (erase_loop_find "<xmlattr>" s (pt_kids k) ltac:(discriminate)).
    destruct (erase_tangent_loop s (pt_kids k)). intro h. exact h.
Qed.

Lemma upd_nth_mid : forall f (l l' : list (string * ptree)) k c, upd_nth (length l) f (l ++ (k, c) :: l') = l ++ (k, f c) :: l'.
Proof. induction l as [|[k' x] l IH]; intros; cbn; [reflexivity|]. rewrite IH. reflexivity. Qed.

Definition good (pt : ptree) (l : list (Z * ptree)) (m : curve_map) : Prop :=
  conforming_curve pt l /\ has_attrs pt /\ represents l m.

Lemma represents_none : forall l m f, represents l m -> (~ In f (map fst l) <-> m f = None).
Proof.
  intros l m f h. split.
  - intro n. destruct (m f) as [k|] eqn:e; [|reflexivity]. apply h in e. destruct n. apply (in_map fst _ _ e).
  - intros e i. apply in_map_iff in i. destruct i as ([g k] & <- & i). apply h in i. cbn in e. congruence.
Qed.

Lemma step_good : forall op pt l m, good pt l m -> (forall f, op = RequireKey f -> is_frame f) ->
  exists l', good (run_curve_op op pt) l' (step_map new_key_ op m).
Proof.
  intros op pt l m (hc & ha & hr) hf. destruct op as [f|f op|n|n|b|u]; cbn [run_curve_op step_map].
  - specialize (hf f eq_refl). destruct (require_key_spec pt l f hc hf) as (o & l1 & l2 & -> & e & ho & h1 & h).
    destruct h as [(k & l3 & -> & E)|(h2 & hn & E & hc')].
    + exists (l1 ++ (f, k) :: l3). rewrite E. cbn [snd]. split; [exact hc|]. split; [exact ha|].
      intros g k'. destruct (Z.eqb_spec g f) as [->|n]; [|apply hr].
      destruct (m f) as [x|] eqn:em; [rewrite <- em; apply hr|].
      exfalso. apply (proj2 (represents_none _ m f hr) em). rewrite map_app. apply in_or_app. cbn; auto.
    + exists (l1 ++ (f, new_key_ f) :: l2). split; [exact hc'|]. split.
      * rewrite E. unfold has_attrs in *. cbn [snd pt_kids]. rewrite e in ha. rewrite !find_app in *. cbn [find_child]. change ("Key" =? "<xmlattr>")%string with false. cbv iota. exact ha.
      * apply (represents_none _ m f hr) in hn. rewrite hn. intros g k'. destruct (Z.eqb_spec g f) as [->|n].
        -- split.
           ++ intro i. rewrite (same_frame _ f k' (new_key_ f) (proj2 hc') i) by (apply in_or_app; cbn; auto). reflexivity.
           ++ intro i. injection i as <-. apply in_or_app; cbn; auto.
        -- rewrite <- (hr g k'). rewrite !in_app_iff. cbn. split; [intros [i|[i|i]]; auto; congruence|tauto].
  - unfold get_key. destruct (get_key_spec pt l f hc) as (o & l1 & l2 & -> & e & ho & h1 & h).
    destruct h as [(k & l3 & -> & E)|(hn & E)]; rewrite E; cbn [value rbind].
    + exists (l1 ++ (f, run_key_op op k) :: l3). unfold on_kid, set_kids. rewrite e. cbn [row map snd]. rewrite upd_nth_mid.
      assert (hfr : forall g k', In (g, k') (l1 ++ (f, run_key_op op k) :: l3) -> get_frame k' = Ok g).
      { intros g k' i. apply in_app_or in i. destruct i as [i|[i|i]].
        - apply (proj2 (proj1 hc)), in_or_app. auto.
        - injection i as <- <-. rewrite run_key_op_frame. apply (proj2 (proj1 hc)), in_or_app. cbn; auto.
        - apply (proj2 (proj1 hc)), in_or_app. cbn; auto. }
      assert (hs : StronglySorted Z.lt (map fst (l1 ++ (f, run_key_op op k) :: l3))).
      { generalize (proj2 hc). rewrite !map_app. cbn. auto. }
      split; [|split].
      * split; [|exact hs]. split; [|exact hfr]. exists o. cbn [pt_kids]. split; [|exact ho]. rewrite map_app, <- app_assoc. reflexivity.
      * unfold has_attrs in *. cbn [pt_kids]. rewrite e in ha. rewrite !find_app in *. cbn [row map find_child] in ha. change ("Key" =? "<xmlattr>")%string with false in *.
        cbn [find_child]. change ("Key" =? "<xmlattr>")%string with false. exact ha.
      * intros g k'. destruct (Z.eqb_spec g f) as [->|n].
        -- assert (em : m f = Some k) by (apply hr, in_or_app; cbn; auto). rewrite em. cbn [option_map]. split.
           ++ intro i. rewrite (same_frame _ f k' (run_key_op op k) hs i) by (apply in_or_app; cbn; auto). reflexivity.
           ++ intro i. injection i as <-. apply in_or_app; cbn; auto.
        -- rewrite <- (hr g k'). rewrite !in_app_iff. cbn. split; (intros [i|[i|i]]; [tauto|congruence|tauto]).
    + exists (l1 ++ l2). split; [exact hc|]. split; [exact ha|]. apply (represents_none _ m f hr) in hn.
      intros g k'. destruct (Z.eqb_spec g f) as [->|n]; [|apply hr]. rewrite hn. cbn [option_map]. rewrite (hr f k'), hn. tauto.
  - exists l. destruct (put_attr_conforming "actuator" n pt l hc ha). split; auto.
  - exists l. unfold put_fps. destruct (n <=? 0); [split; auto|]. destruct (put_attr_conforming "fps" (print_int n) pt l hc ha). split; auto.
  - exists l. destruct (put_attr_conforming "mute" (if b then "true" else "false") pt l hc ha). split; auto.
  - exists l. destruct (put_attr_conforming "unit" (unit_to_string u) pt l hc ha). split; auto.
Qed.

Lemma C51_history_proof : exists new_key, (forall f, is_frame f -> blank_key f (new_key f)) /\
  forall ops curve l m, conforming_curve curve l -> find_child "<xmlattr>" (pt_kids curve) <> None ->
    represents l m -> frames_ok ops ->
  exists l', conforming_curve (run_curve ops curve) l' /\ represents l' (run_map new_key ops m).
Proof.
  exists new_key_. split; [exact new_key_blank|]. induction ops as [|op ops IH]; intros pt l m hc ha hr hf.
  - exists l. auto.
  - destruct (step_good op pt l m (conj hc (conj ha hr))) as (l' & hc' & ha' & hr').
    { intros f e. apply hf. subst op. cbn. auto. }
    apply (IH _ l' _ hc' ha' hr'). intros f i. apply hf. cbn. auto.
Qed.

Lemma C51_new_curve_proof : forall name, let curve := put_actuator name (PT "" []) in
  conforming_curve curve [] /\ find_child "<xmlattr>" (pt_kids curve) <> None /\ represents [] (fun _ => None).
Proof.
  intros name curve. split; [|split].
  - split; [|constructor]. split; [|intros f k []]. exists (pt_kids curve). split; [rewrite app_nil_r; reflexivity|].
    intros c [<-|[]]. discriminate.
  - discriminate.
  - intros f k. split; [intros []|discriminate].
Qed.


Lemma C51_attributes_after_keys_refuted_proof :
  ~ (forall ops curve l m, conforming_curve curve l -> represents l m -> frames_ok ops ->
     exists l', conforming_curve (run_curve ops curve) l') /\
  map get_frame (get_keys (run_curve [RequireKey 5; RequireKey 10; PutFps 25; RequireKey 12; RequireKey 10] (PT "" [])))
  = [Ok 5; Ok 10; Ok 10; Ok 12].
Proof.
  split; [|reflexivity]. intro H.
  destruct (H [RequireKey 5; RequireKey 10; PutFps 25; RequireKey 12; RequireKey 10] (PT "" []) [] (fun _ => None)) as (l' & ((o & e & ho) & hf) & hs).
  - split; [|constructor]. split; [|intros f k []]. exists []. split; [reflexivity|intros c []].
  - intros f k. split; [intros []|discriminate].
  - intros f h. unfold is_frame. cbn in h. intuition (try discriminate); match goal with e : RequireKey _ = RequireKey _ |- _ => injection e as <- end; lia.
  - assert (G : get_keys (run_curve [RequireKey 5; RequireKey 10; PutFps 25; RequireKey 12; RequireKey 10] (PT "" [])) = map snd l').
    { unfold get_keys. rewrite e, filter_app, map_app. 
      assert (n : filter is_key o = []).
      { clear -ho. induction o as [|c o IH]; [reflexivity|]. cbn. unfold is_key at 1, is_named. destruct (String.eqb_spec (fst c) "Key") as [E|_]; [destruct (ho c ltac:(cbn; auto) E)|].
        apply IH. intros c' i. apply ho. cbn. auto. }
      rewrite n. cbn [map app]. clear. induction l' as [|[f k] l IH]; [reflexivity|]. cbn. f_equal. exact IH. }
    assert (F : map (fun fk => Ok (fst fk)) l' = [Ok 5; Ok 10; Ok 10; Ok 12]).
    { transitivity (map get_frame (map snd l')); [|rewrite <- G; reflexivity]. rewrite map_map. apply map_ext_in. intros [f k] i. symmetry. apply hf, i. }
    clear e G hf ho. destruct l' as [|[f1 k1] [|[f2 k2] [|[f3 k3] [|? ?]]]]; try discriminate. injection F as -> -> -> _ _.
    cbn in hs. apply StronglySorted_inv in hs. destruct hs as [hs _]. apply StronglySorted_inv in hs. destruct hs as [_ hs]. apply Forall_inv in hs. lia.
Qed.


Lemma C51_interleaved_refuted_proof : exists curve,
  map get_frame (get_keys curve) = [Ok 0; Ok 10; Ok 20] /\ get_key_optional curve 0 = Ok None /\
  map get_frame (get_keys (snd (require_key curve 0))) = [Ok 0; Ok 0; Ok 10; Ok 20].
Proof.
  exists (PT "" [("<xmlattr>", PT "" [("actuator", PT "HeadYaw" [])]); ("Key", new_key_ 0); ("<xmlcomment>", PT "half way" []); ("Key", new_key_ 10); ("Key", new_key_ 20)]).
  repeat split.
Qed.


Lemma C51_negative_frame_refuted_proof : exists curve l, conforming_curve curve l /\ map fst l = [0; 10] /\
  fst (require_key curve (-1)) = Throw /\ snd (require_key curve (-1)) <> curve /\
  map get_frame (get_keys (snd (require_key curve (-1)))) = [Throw; Ok 0; Ok 10] /\
  get_key_optional (snd (require_key curve (-1))) 0 = Throw.
Proof.
  exists (PT "" [("Key", new_key_ 0); ("Key", new_key_ 10)]), [(0, new_key_ 0); (10, new_key_ 10)].
  split; [|repeat split; discriminate || reflexivity]. split; [split|].
  - exists []. split; [reflexivity|]. intros c [].
  - intros f k [e|[e|[]]]; injection e as <- <-; reflexivity.
  - cbn. repeat constructor.
Qed.


(** *** Labels *)

Lemma add_label_spec : forall pt l f v, conforming_labels pt l -> is_frame f ->
  exists i k pt' l1 l2, add_label pt f v = (Ok i, pt') /\ kid pt' i = Ok ("Label", k) /\ get_frame k = Ok f /\ label_value k = v /\
    others "Label" pt' = others "Label" pt /\ pt_data pt' = pt_data pt /\
    l = l1 ++ l2 /\ all_ (fun g => g <= f) l1 /\ all_ (fun g => f < g) l2 /\ conforming_labels pt' (l1 ++ (f, k) :: l2).
Proof.
  intros pt l f v (((o & e & ho) & hf) & hs) hfr. destruct (split_at f l hs) as (l1 & l2 & -> & h1 & h2).
  fold (row "Label" (l1 ++ l2)) in e. unfold row in e at 1. rewrite map_app in e. fold (row "Label" l1) (row "Label" l2) in e. rewrite app_assoc in e.
  assert (hl : upper_bound (label_comp f) (pt_kids pt) = Ok (length (o ++ row "Label" l1))).
  { unfold upper_bound. rewrite e. apply lower_bound_split.
    - intros c i. unfold label_comp. apply in_app_or in i. destruct i as [i|i].
      + destruct (String.eqb_spec (fst c) "Label") as [e'|_]; [destruct (ho c i e')|reflexivity].
      + destruct (in_row _ _ _ i) as (g & k & -> & i'). cbn [fst snd]. change ("Label" =? "Label")%string with true. cbv iota.
        rewrite (hf g k) by (apply in_or_app; auto). cbn [rmap]. destruct (Z.ltb_spec f g); [|reflexivity]. generalize (h1 g k i'). lia.
    - intros c i. unfold label_comp. destruct (in_row _ _ _ i) as (g & k & -> & i'). cbn [fst snd]. change ("Label" =? "Label")%string with true. cbv iota.
      rewrite (hf g k) by (apply in_or_app; auto). cbn [rmap]. destruct (Z.ltb_spec f g); [reflexivity|]. generalize (h2 g k i'). lia. }
  set (k := put_attr "frame" (print_int f) (PT v [])).
  exists (length (o ++ row "Label" l1)), k, (PT (pt_data pt) ((o ++ row "Label" l1) ++ ("Label", k) :: row "Label" l2)), l1, l2.
  split; [|split; [|split; [|split; [|split; [|split; [|split; [|split; [|split; [|split]]]]]]]]].
  - unfold add_label. rewrite hl. unfold put_frame. destruct (Z.ltb_spec f 0) as [b|_]; [unfold is_frame in hfr; lia|]. cbn [rmap]. rewrite e, insert_at_app. reflexivity.
  - unfold kid. cbn [pt_kids]. rewrite nth_error_mid. reflexivity.
  - apply get_frame_put, hfr.
  - reflexivity.
  - unfold others. cbn [pt_kids]. rewrite e, !filter_app. cbn [filter fst]. change ("Label" =? "Label")%string with true. cbn [negb]. reflexivity.
  - reflexivity.
  - reflexivity.
  - exact h1.
  - exact h2.
  - split.
    + exists o. cbn [pt_kids]. split; [|exact ho]. rewrite map_app, <- app_assoc. reflexivity.
    + intros g k' i. apply in_app_or in i. destruct i as [i|[i|i]].
      * apply hf, in_or_app. auto.
      * injection i as <- <-. apply get_frame_put, hfr.
      * apply hf, in_or_app. auto.
  - apply sorted_insert; [exact hs|exact h1|]. intros g k' i. generalize (h2 g k' i). lia.
Qed.

Lemma filter_none : forall (P : Z -> Prop) f l, all_ P l -> ~ P f -> filter (fun fk => fst fk =? f) l = [].
Proof.
  intros P f l h n. induction l as [|[g k] l IH]; [reflexivity|]. cbn. destruct (Z.eqb_spec g f) as [->|_].
  - destruct n. apply (h f k). cbn; auto.
  - apply IH. intros g' k' i. apply (h g' k'). cbn; auto.
Qed.

Lemma C51_labels_proof : forall adds pt l, conforming_labels pt l -> (forall f v, In (f, v) adds -> is_frame f) ->
  let pt' := fold_left (fun pt fv => snd (add_label pt (fst fv) (snd fv))) adds pt in
  exists l' added, conforming_labels pt' l' /\
    map (fun fk => (fst fk, label_value (snd fk))) added = adds /\
    (forall f, filter (fun fk => fst fk =? f) l' = filter (fun fk => fst fk =? f) l ++ filter (fun fk => fst fk =? f) added) /\
    others "Label" pt' = others "Label" pt.
Proof.
  induction adds as [|[f v] adds IH]; intros pt l hc hf.
  - exists l, []. split; [exact hc|]. split; [reflexivity|]. split; [|reflexivity]. intro f. rewrite app_nil_r. reflexivity.
  - destruct (add_label_spec pt l f v hc) as (i & k & pt1 & l1 & l2 & E & _ & hk & hv & ho & _ & -> & h1 & h2 & hc1); [apply (hf f v); cbn; auto|].
    cbn [fold_left fst snd]. rewrite E. cbn [snd].
    destruct (IH pt1 _ hc1) as (l' & added & hc' & ha & hfl & ho'); [intros g w i'; apply (hf g w); cbn; auto|].
    exists l', ((f, k) :: added). split; [exact hc'|]. split; [cbn; rewrite hv, ha; reflexivity|]. split; [|rewrite ho'; exact ho].
    intro g. rewrite hfl, !filter_app. cbn [filter fst]. destruct (Z.eqb_spec f g) as [<-|_]; [|reflexivity].
    rewrite (filter_none _ f l2 h2) by lia. rewrite app_nil_r, <- app_assoc. reflexivity.
Qed.

Lemma C51_negative_label_refuted_proof : fst (add_label (PT "" []) (-1) "a") = Throw /\
  get_labels (snd (add_label (PT "" []) (-1) "a")) = [PT "a" []].
Proof. split; reflexivity. Qed.


(** *** Curves of an animation *)

Lemma find_curve_spec : forall name kids l, map snd (filter is_actuatorcurve kids) = map snd l -> (forall a c, In (a, c) l -> get_actuator c = Ok a) ->
  forall j, (exists k1 c k2 l1 l2, kids = k1 ++ ("ActuatorCurve", c) :: k2 /\ l = l1 ++ (name, c) :: l2 /\ ~ In name (map fst l1) /\
         find_curve name j kids = Ok (Some (j + length k1)%nat)) \/
  (~ In name (map fst l) /\ find_curve name j kids = Ok None).
Proof.
  intros name. induction kids as [|[k c] kids IH]; intros l e h j.
  - destruct l; [|discriminate]. right. split; [intros []|reflexivity].
  - cbn [find_curve]. unfold is_actuatorcurve at 1 2, is_named. cbn [filter] in e. unfold is_actuatorcurve at 1, is_named in e. cbn [fst snd] in *.
    destruct (String.eqb_spec k "ActuatorCurve") as [->|n].
    + destruct l as [|[a c'] l]; [discriminate|]. cbn [map snd] in e. injection e as <- e. rewrite (h a c) by (cbn; auto). cbn [rbind].
      destruct (String.eqb_spec a name) as [->|na].
      * left. exists [], c, kids, [], l. split; [reflexivity|]. split; [reflexivity|]. split; [intros []|]. cbn. rewrite Nat.add_0_r. reflexivity.
      * destruct (IH l e ltac:(intros x y i; apply h; cbn; auto) (S j)) as [(k1 & c2 & k2 & l1 & l2 & -> & -> & h1 & h2)|(h1 & h2)].
        -- left. exists (("ActuatorCurve", c) :: k1), c2, k2, ((a, c) :: l1), l2. split; [reflexivity|]. split; [reflexivity|]. split.
           ++ cbn. intros [i|i]; [congruence|auto].
           ++ rewrite h2. cbn [length]. do 2 f_equal. lia.
        -- right. split; [|exact h2]. cbn. intros [i|i]; [congruence|auto].
    + destruct (IH l e h (S j)) as [(k1 & c2 & k2 & l1 & l2 & -> & -> & h1 & h2)|(h1 & h2)].
      * left. exists ((k, c) :: k1), c2, k2, l1, l2. split; [reflexivity|]. split; [reflexivity|]. split; [exact h1|].
        rewrite h2. cbn [length]. do 2 f_equal. lia.
      * right. auto.
Qed.

Lemma C51_require_actuatorcurve_proof : forall pt l name, curves_are pt l ->
  exists i c pt', require_actuatorcurve pt name = (Ok i, pt') /\ kid pt' i = Ok ("ActuatorCurve", c) /\ get_actuator c = Ok name /\
  ((pt' = pt /\ exists l1 l2, l = l1 ++ (name, c) :: l2 /\ ~ In name (map fst l1)) \/
   (~ In name (map fst l) /\ names_only name c /\ curves_are pt' (l ++ [(name, c)]) /\ pt_data pt' = pt_data pt /\
    others "ActuatorCurve" pt' = others "ActuatorCurve" pt)).
Proof.
  intros pt l name [e h]. destruct (find_curve_spec name (pt_kids pt) l e h 0) as [(k1 & c & k2 & l1 & l2 & ek & -> & h1 & h2)|(h1 & h2)].
  - exists (length k1), c, pt. unfold require_actuatorcurve. rewrite h2. split; [reflexivity|]. split.
    + unfold kid. rewrite ek, nth_error_mid. reflexivity.
    + split; [apply h, in_or_app; cbn; auto|]. left. split; [reflexivity|]. exists l1, l2. auto.
  - set (c := put_actuator name (PT "" [])).
    assert (hc : names_only name c) by (repeat split; intros n hn; unfold c, put_actuator; rewrite attr_put_other by congruence; reflexivity).
    exists (length (pt_kids pt)), c, (set_kids pt (pt_kids pt ++ [("ActuatorCurve", c)])). unfold require_actuatorcurve. rewrite h2.
    split; [reflexivity|]. split; [|split].
    + unfold kid. cbn [set_kids pt_kids]. rewrite nth_error_mid. reflexivity.
    + apply hc.
    + right. split; [exact h1|]. split; [exact hc|]. split; [|split; [reflexivity|]].
      * split.
        -- unfold get_actuatorcurves. cbn [set_kids pt_kids]. rewrite filter_app, !map_app. f_equal. exact e.
        -- intros a c' i. apply in_app_or in i. destruct i as [i|[i|[]]]; [apply h, i|]. injection i as <- <-. apply hc.
      * unfold others. cbn [set_kids pt_kids]. rewrite filter_app. cbn [filter fst]. change ("ActuatorCurve" =? "ActuatorCurve")%string with true. cbn [negb].
        rewrite app_nil_r. reflexivity.
Qed.


Lemma C51_actuators_proof : forall names pt l, curves_are pt l ->
  let pt' := fold_left (fun pt n => snd (require_actuatorcurve pt n)) names pt in
  exists added, curves_are pt' (l ++ added) /\ NoDup (map fst added) /\
    (forall a, In a (map fst added) <-> In a names /\ ~ In a (map fst l)) /\
    (forall a c, In (a, c) added -> names_only a c).
Proof.
  induction names as [|n names IH]; intros pt l h.
  - exists []. rewrite app_nil_r. split; [exact h|]. split; [constructor|]. split; [cbn; tauto|intros a c []].
  - cbn [fold_left]. destruct (C51_require_actuatorcurve_proof pt l n h) as (i & c & pt1 & E & _ & hn & [(-> & l1 & l2 & el & h1)|(h1 & h2 & h3 & _)]); rewrite E; cbn [snd].
    + destruct (IH pt l h) as (added & a1 & a2 & a3 & a4). exists added. split; [exact a1|]. split; [exact a2|]. split; [|exact a4].
      intro a. rewrite a3. cbn. split; [tauto|]. intros [[<-|i']  n']; [|tauto]. destruct n'. rewrite el, map_app. apply in_or_app. cbn; auto.
    + destruct (IH pt1 _ h3) as (added & a1 & a2 & a3 & a4). exists ((n, c) :: added). rewrite <- app_assoc in a1. split; [exact a1|]. split; [|split].
      * cbn. constructor; [|exact a2]. rewrite a3. intros [_ n']. destruct n'. rewrite map_app. apply in_or_app. cbn; auto.
      * intro a. cbn [map fst In]. rewrite a3, map_app, in_app_iff. cbn. destruct (string_dec n a) as [<-|na]; [tauto|]. tauto.
      * intros a c' [i'|i']; [injection i' as <- <-; exact h2|apply a4, i'].
Qed.


(** *** Tangents of a key *)

Lemma side_eqb_spec : forall a b, side_eqb a b = true <-> a = b.
Proof. intros [] []; split; intro; try reflexivity; discriminate. Qed.

Lemma tangent_loop_spec : forall s l, (forall t, In ("Tangent", t) l -> exists s', get_side t = Ok s') -> forall j,
  (exists l1 t l2, l = l1 ++ ("Tangent", t) :: l2 /\ get_side t = Ok s /\ (forall c, In c l1 -> on_side s c = false) /\
     tangent_loop s j l = Ok (Some (j + length l1)%nat)) \/
  ((forall c, In c l -> on_side s c = false) /\ tangent_loop s j l = Ok None).
Proof.
  intros s. induction l as [|[k c] l IH]; intros h j; [right; split; [intros c []|reflexivity]|].
  assert (h' : forall t, In ("Tangent", t) l -> exists s', get_side t = Ok s') by (intros t i; apply h; cbn; auto).
  cbn [tangent_loop]. unfold is_named. cbn [fst snd].
  assert (st : on_side s (k, c) = false -> tangent_loop s j ((k, c) :: l) = tangent_loop s (S j) l ->
    (exists l1 t l2, (k, c) :: l = l1 ++ ("Tangent", t) :: l2 /\ get_side t = Ok s /\ (forall c, In c l1 -> on_side s c = false) /\
     tangent_loop s (S j) l = Ok (Some (j + length l1)%nat)) \/
  ((forall c', In c' ((k, c) :: l) -> on_side s c' = false) /\ tangent_loop s (S j) l = Ok None)).
  { intros hn _. destruct (IH h' (S j)) as [(l1 & t & l2 & -> & h1 & h2 & h3)|(h1 & h2)].
    - left. exists ((k, c) :: l1), t, l2. split; [reflexivity|]. split; [exact h1|]. split.
      + intros c' [<-|i]; [exact hn|apply h2, i].
      + rewrite h3. cbn [length]. do 2 f_equal. lia.
    - right. split; [|exact h2]. intros c' [<-|i]; [exact hn|apply h1, i]. }
  cbn [tangent_loop] in st. unfold is_named in st. cbn [fst snd] in st. unfold on_side at 1 in st. cbn [fst snd] in st.
  destruct (String.eqb_spec k "Tangent") as [->|n].
  - destruct (h c ltac:(cbn; auto)) as (s' & es). rewrite es in *. cbn [rbind andb] in *. destruct (side_eqb s s') eqn:q.
    + apply side_eqb_spec in q. subst s'. left. exists [], c, l. split; [reflexivity|]. split; [exact es|]. split; [intros c' []|]. cbn. rewrite Nat.add_0_r. reflexivity.
    + apply st; [|reflexivity]. destruct s, s'; try discriminate; reflexivity.
  - apply st; reflexivity.
Qed.


Lemma find_none_iff : forall A (P : A -> bool) l, (forall c, In c l -> P c = false) -> find P l = None.
Proof. induction l as [|a l IH]; intro h; [reflexivity|]. cbn. rewrite (h a) by (cbn; auto). apply IH. intros c i. apply h. cbn; auto. Qed.
Lemma find_app_first : forall A (P : A -> bool) l1 c l2, (forall c, In c l1 -> P c = false) -> P c = true -> find P (l1 ++ c :: l2) = Some c.
Proof. induction l1 as [|a l IH]; intros c l2 h e; cbn; [rewrite e; reflexivity|]. rewrite (h a) by (cbn; auto). apply IH; auto. intros x i. apply h. cbn; auto. Qed.
Lemma find_app_skip : forall A (P : A -> bool) l1 c l2, P c = false -> find P (l1 ++ c :: l2) = find P (l1 ++ l2).
Proof. induction l1 as [|a l IH]; intros c l2 e; cbn; [rewrite e; reflexivity|]. destruct (P a); [reflexivity|]. apply IH, e. Qed.

Lemma on_side_tangent : forall s s' t, get_side t = Ok s' -> on_side s ("Tangent", t) = side_eqb s' s.
Proof. intros s s' t e. unfold on_side. cbn [fst snd]. rewrite e. reflexivity. Qed.

Lemma get_tangent_find : forall k s, tangents_ok k ->
  get_tangent k s = match find (on_side s) (pt_kids k) with Some c => Ok (snd c) | None => Throw end.
Proof.
  intros k s h. unfold get_tangent, get_tangent_optional.
  destruct (tangent_loop_spec s (pt_kids k) h 0) as [(l1 & t & l2 & e & h1 & h2 & h3)|(h1 & h2)].
  - rewrite h3. cbn [value rbind Nat.add]. unfold kid. rewrite e, nth_error_mid. cbn [rmap snd].
    rewrite find_app_first; [reflexivity|exact h2|]. rewrite (on_side_tangent _ _ _ h1). apply side_eqb_spec. reflexivity.
  - rewrite h2, (find_none_iff _ _ _ h1). reflexivity.
Qed.

Definition with_params (a o : string) (t : ptree) : ptree := put_attr "ordinateParam" o (put_attr "abscissaParam" a t).
Lemma with_params_side : forall a o t, get_side (with_params a o t) = get_side t.
Proof. intros. unfold get_side, get_string, with_params. rewrite !attr_put_other by discriminate. reflexivity. Qed.
Lemma put_side_side : forall s t, get_side (put_side s t) = Ok s.
Proof. intros. unfold get_side, get_string, put_side. rewrite attr_put_same. destruct s; reflexivity. Qed.

Lemma C51_put_tangent_proof : forall k s a o, tangents_ok k ->
  exists i t k', put_tangent k s a o = (Ok i, k') /\ kid k' i = Ok ("Tangent", t) /\ get_tangent k' s = Ok t /\
    attr "abscissaParam" t = Some a /\ attr "ordinateParam" t = Some o /\
    (forall s', s' <> s -> get_tangent k' s' = get_tangent k s') /\ tangents_ok k' /\ (forall n, attr n k' = attr n k) /\
    others "Tangent" k' = others "Tangent" k.
Proof.
  intros k s a o h. 
  assert (ha : forall n, attr n (snd (put_tangent k s a o)) = attr n k) by (intro n; apply attr_find, put_tangent_find; discriminate).
  unfold put_tangent in *. destruct (tangent_loop_spec s (pt_kids k) h 0) as [(l1 & t & l2 & e & h1 & h2 & h3)|(h1 & h2)].
  - cbn [Nat.add] in h3. assert (E : require_tangent k s = (Ok (length l1), k)) by (unfold require_tangent, get_tangent_optional; rewrite h3; reflexivity).
    rewrite E in *. cbn [snd] in ha. unfold on_kid in *. rewrite e in *. rewrite upd_nth_mid in *. fold (with_params a o t) in *.
    assert (ok' : tangents_ok (set_kids k (l1 ++ ("Tangent", with_params a o t) :: l2))).
    { intros t' i. cbn [set_kids pt_kids] in i. apply in_app_or in i. destruct i as [i|[i|i]].
      - apply h. rewrite e. apply in_or_app. auto.
      - injection i as <-. rewrite with_params_side. eauto.
      - apply h. rewrite e. apply in_or_app. cbn; auto. }
    exists (length l1), (with_params a o t), (set_kids k (l1 ++ ("Tangent", with_params a o t) :: l2)).
    split; [reflexivity|]. split; [unfold kid; cbn [set_kids pt_kids]; rewrite nth_error_mid; reflexivity|].
    split; [|split; [|split; [|split; [|split; [exact ok'|split; [exact ha|]]]]]].
    + rewrite (get_tangent_find _ _ ok'). cbn [set_kids pt_kids]. rewrite find_app_first; [reflexivity|exact h2|].
      rewrite (on_side_tangent s s) by (rewrite with_params_side; exact h1). apply side_eqb_spec. reflexivity.
    + unfold with_params. rewrite attr_put_other, attr_put_same by discriminate. reflexivity.
    + apply attr_put_same.
    + intros s' n. rewrite (get_tangent_find _ _ ok'), (get_tangent_find _ _ h). cbn [set_kids pt_kids]. rewrite e.
      assert (q : side_eqb s s' = false) by (destruct s, s'; try reflexivity; congruence).
      rewrite !find_app_skip; [reflexivity|rewrite (on_side_tangent s' s) by exact h1; exact q|].
      rewrite (on_side_tangent s' s) by (rewrite with_params_side; exact h1). exact q.
    + unfold others. cbn [set_kids pt_kids]. rewrite e, !filter_app. reflexivity.
  - assert (E : require_tangent k s = (Ok (length (pt_kids k)), set_kids k (pt_kids k ++ [("Tangent", put_side s (PT "" []))])))
      by (unfold require_tangent, add_tangent, get_tangent_optional; rewrite h2; reflexivity).
    rewrite E in *. cbn [snd] in ha. unfold on_kid in *. cbn [set_kids pt_kids pt_data] in *. rewrite upd_nth_mid in *.
    fold (with_params a o (put_side s (PT "" []))) in *. set (t := with_params a o (put_side s (PT "" []))) in *.
    assert (et : get_side t = Ok s) by (unfold t; rewrite with_params_side; apply put_side_side).
    assert (ok' : tangents_ok (PT (pt_data k) (pt_kids k ++ [("Tangent", t)]))).
    { intros t' i. cbn [pt_kids] in i. apply in_app_or in i. destruct i as [i|[i|[]]]; [apply h, i|]. injection i as <-. eauto. }
    exists (length (pt_kids k)), t, (PT (pt_data k) (pt_kids k ++ [("Tangent", t)])).
    split; [reflexivity|]. split; [unfold kid; cbn [pt_kids]; rewrite nth_error_mid; reflexivity|].
    split; [|split; [|split; [|split; [|split; [exact ok'|split; [exact ha|]]]]]].
    + rewrite (get_tangent_find _ _ ok'). cbn [pt_kids]. rewrite find_app_first; [reflexivity|exact h1|].
      rewrite (on_side_tangent s s) by exact et. apply side_eqb_spec. reflexivity.
    + unfold t, with_params. rewrite attr_put_other, attr_put_same by discriminate. reflexivity.
    + apply attr_put_same.
    + intros s' n. rewrite (get_tangent_find _ _ ok'), (get_tangent_find _ _ h). cbn [pt_kids].
      rewrite find_app_skip, app_nil_r; [reflexivity|]. rewrite (on_side_tangent s' s) by exact et. destruct s, s'; try reflexivity; congruence.
    + unfold others. cbn [pt_kids]. rewrite filter_app. cbn [filter fst]. change ("Tangent" =? "Tangent")%string with true. cbn [negb]. apply app_nil_r.
Qed.


Lemma erase_loop_spec : forall s l, (forall t, In ("Tangent", t) l -> exists s', get_side t = Ok s') ->
  erase_tangent_loop s l = (Ok (length (filter (on_side s) l)), filter (fun c => negb (on_side s c)) l).
Proof.
  intros s l. induction l as [|[k c] l IH]; intro h; [reflexivity|].
  cbn [erase_tangent_loop filter]. rewrite IH by (intros t i; apply h; cbn; auto). unfold is_named. cbn [fst snd].
  destruct (String.eqb_spec k "Tangent") as [->|n].
  - destruct (h c ltac:(cbn; auto)) as (s' & es). rewrite es, (on_side_tangent s s' c es). destruct (side_eqb s' s); reflexivity.
  - assert (q : on_side s (k, c) = false) by (unfold on_side; cbn [fst]; destruct (String.eqb_spec k "Tangent"); [congruence|reflexivity]).
    rewrite q. reflexivity.
Qed.

Lemma C51_erase_tangent_proof : forall k s, tangents_ok k ->
  exists n k', erase_tangent k s = (Ok n, k') /\ n = length (filter (on_side s) (pt_kids k)) /\
    pt_kids k' = filter (fun c => negb (on_side s c)) (pt_kids k) /\ pt_data k' = pt_data k /\ get_tangent k' s = Throw /\
    (forall s', s' <> s -> get_tangent k' s' = get_tangent k s') /\ (forall n, attr n k' = attr n k).
Proof.
  intros k s h. unfold erase_tangent. rewrite (erase_loop_spec s (pt_kids k) h).
  set (k' := set_kids k (filter (fun c => negb (on_side s c)) (pt_kids k))).
  assert (ok' : tangents_ok k') by (intros t i; cbn [k' set_kids pt_kids] in i; apply filter_In in i; apply h, i).
  do 2 eexists. split; [reflexivity|]. split; [reflexivity|]. split; [reflexivity|]. split; [reflexivity|]. split; [|split].
  - rewrite (get_tangent_find _ _ ok'), find_none_iff; [reflexivity|]. intros c i. cbn [k' set_kids pt_kids] in i. apply filter_In in i.
    destruct (on_side s c); [destruct i; discriminate|reflexivity].
  - intros s' n. rewrite (get_tangent_find _ _ ok'), (get_tangent_find _ _ h). cbn [k' set_kids pt_kids].
    replace (find (on_side s') (filter (fun c => negb (on_side s c)) (pt_kids k))) with (find (on_side s') (pt_kids k)); [reflexivity|].
    clear -n s s'. induction (pt_kids k) as [|c l IH]; [reflexivity|]. cbn [filter find]. destruct (on_side s c) eqn:q; cbn [negb].
    + rewrite IH. destruct (on_side s' c) eqn:q'; [|reflexivity]. exfalso. apply n. unfold on_side in *. apply andb_true_iff in q. apply andb_true_iff in q'.
      destruct q as [_ q], q' as [_ q']. destruct (get_side (snd c)); try discriminate. apply side_eqb_spec in q. apply side_eqb_spec in q'. congruence.
    + cbn [find]. rewrite IH. reflexivity.
  - intro n. apply attr_find. cbn [k' set_kids pt_kids]. apply find_filter. intro c. reflexivity.
Qed.

Lemma C51_erase_atomic_refuted_proof : exists k, fst (erase_tangent k left) = Throw /\ snd (erase_tangent k left) <> k.
Proof.
  exists (PT "" [("Tangent", put_side left (PT "" [])); ("Tangent", PT "" [])]). split; [reflexivity|discriminate].
Qed.


Lemma C51_require_animation_proof : forall root, 
  match require_animation root with
  | (Ok i, root') => exists a, kid root' i = Ok ("Animation", a) /\ get_animation root' = Ok a /\
        require_animation root' = (Ok i, root') /\ attr "typeVersion" a = Some "2.0" /\
        (root' = root \/ (find_child "Animation" (pt_kids root) = None /\ pt_kids root' = pt_kids root ++ [("Animation", a)]))
  | (r, root') => r = Throw /\ root' = root /\ get_animation root = Throw
  end.
Proof.
  intro root. unfold require_animation.
  assert (ix : forall l j, match find_child "Animation" l, index_of "Animation" j l with
     | Some a, Some i => exists l1 l2, l = l1 ++ ("Animation", a) :: l2 /\ i = (j + length l1)%nat | None, None => True | _, _ => False end).
  { induction l as [|[k c] l IH]; intro j; [exact I|]. cbn [find_child index_of]. unfold is_named. cbn [fst]. destruct (String.eqb_spec k "Animation") as [->|n].
    - exists [], l. split; [reflexivity|cbn; lia].
    - specialize (IH (S j)). destruct (find_child "Animation" l), (index_of "Animation" (S j) l); try exact IH.
      destruct IH as (l1 & l2 & -> & ->). exists ((k, c) :: l1), l2. split; [reflexivity|cbn; lia]. }
  specialize (ix (pt_kids root) 0%nat). 
  destruct (find_child "Animation" (pt_kids root)) as [a|] eqn:e, (index_of "Animation" 0 (pt_kids root)) as [i|] eqn:e'; try (destruct ix; fail); try (destruct ix as (l1 & l2 & el & ->)).
  - destruct (check_version a) as [[]| | |] eqn:v; cbn [rmap].
    + exists a. split; [unfold kid; rewrite el, nth_error_mid; reflexivity|]. split; [unfold get_animation; rewrite e, v; reflexivity|].
      rewrite e, e', v. split; [reflexivity|]. split; [|left; reflexivity]. unfold check_version, get_string in v. destruct (attr "typeVersion" a) as [s|]; cbn [rbind] in v; [|discriminate].
      destruct (String.eqb_spec s "2.0") as [E|_]; [rewrite E; reflexivity|discriminate].
    + split; [reflexivity|]. split; [reflexivity|]. unfold get_animation. rewrite e, v. reflexivity.
    + exfalso. unfold check_version, get_string in v. destruct (attr "typeVersion" a) as [s|]; cbn [rbind] in v; [|discriminate]. destruct (String.eqb s "2.0"); discriminate.
    + exfalso. unfold check_version, get_string in v. destruct (attr "typeVersion" a) as [s|]; cbn [rbind] in v; [|discriminate]. destruct (String.eqb s "2.0"); discriminate.
  - set (a := put_attr "typeVersion" "2.0" (PT "" [])). exists a. change (pt_kids (set_kids root (pt_kids root ++ [("Animation", a)]))) with (pt_kids root ++ [("Animation", a)]).
    split; [unfold kid; change (pt_kids (set_kids root (pt_kids root ++ [("Animation", a)]))) with (pt_kids root ++ [("Animation", a)]); rewrite nth_error_mid; reflexivity|].
    assert (f1 : find_child "Animation" (pt_kids root ++ [("Animation", a)]) = Some a) by (rewrite find_app, e; reflexivity).
    split; [unfold get_animation; change (pt_kids (set_kids root (pt_kids root ++ [("Animation", a)]))) with (pt_kids root ++ [("Animation", a)]); rewrite f1; reflexivity|].
    assert (f2 : index_of "Animation" 0 (pt_kids root ++ [("Animation", a)]) = Some (length (pt_kids root))).
    { clear -e'. change (length (pt_kids root)) with (0 + length (pt_kids root))%nat. revert e'. generalize 0%nat. induction (pt_kids root) as [|[k c] l IH]; intros j h; cbn in *.
      - rewrite Nat.add_0_r. reflexivity.
      - unfold is_named in *. cbn [fst] in *. destruct (String.eqb k "Animation"); [discriminate|]. rewrite (IH (S j) h). f_equal. lia. }
    rewrite f1, f2. split; [reflexivity|]. split; [reflexivity|]. right. auto.
Qed.

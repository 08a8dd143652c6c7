(** * Lemmas for Props_UrdfDoc *)

From Coq Require Import String Ascii.
From Coq Require Import List ZArith Lia Bool.
From Flocq Require Import Core.Core IEEE754.BinarySingleNaN.
Import ListNotations.
From Verif Require Import Scalar Model_Pose Model_Urdf Model_Squash Model_Text Model_UrdfText Model_UrdfDoc Spec_UrdfText Spec_UrdfDoc Proofs_UrdfText.
From Verif Require Import Model_Anim (ptree, PT, pt_data, pt_kids, set_kids).
Local Open Scope string_scope.

(** ** Numbers that are read are finite *)
Lemma double_fin s v : get_double s = Some v -> fin v.
Proof.
  unfold get_double, get_value, read_float. destruct (read_decimal _) as [[[[neg a] x] s']|]; [|discriminate].
  destruct (float_of _ _ _ _ neg a x) as [w|] eqn:e; cbn [option_map]; [|discriminate].
  destruct (String.eqb _ _); [|discriminate]. intros h. injection h as <-. unfold fin. revert e. unfold float_of.
  destruct (a * 10 ^ Z.max 0 x)%Z; try (intros h; injection h as <-; reflexivity).
  unfold nearest. match goal with |- context [is_finite ?x] => destruct (is_finite x) eqn:ef end; [|discriminate].
  intros h. injection h as <-. exact ef.
Qed.
Lemma array_fin s v : array3d_get s = Some v -> fin3 v.
Proof.
  assert (k : forall i beg x r, (forall y, In y x -> fin y) -> array3d_loop i beg x = Some r -> forall y, In y (fst r) -> fin y).
  { induction i as [|i IH]; intros beg x r hx h; cbn [array3d_loop] in h; [injection h as <-; exact hx|].
    destruct beg as [|t beg]; [injection h as <-; exact hx|].
    destruct (get_double t) as [d|] eqn:e; [|discriminate]. refine (IH _ _ _ _ h).
    intros y hy. apply in_app_or in hy. destruct hy as [hy|[<-|[]]]; [now apply hx|]. exact (double_fin _ _ e). }
  unfold array3d_get. destruct (array3d_loop 3 (tokens s) []) as [r|] eqn:e; [|discriminate].
  assert (e' := k _ _ _ _ (fun y (hy : In y []) => match hy with end) e). clear e. rename e' into e. destruct r as [[|a [|b [|c [|? ?]]]] [|? ?]]; try discriminate.
  intros h. injection h as <-. repeat split; apply e; cbn; tauto.
Qed.
Lemma axis_fin pt j a : joint_of pt = Ok j -> j_axis j = Some a -> fin3 a.
Proof.
  intros h ha. apply joint_inv in h. destruct h as (_ & _ & _ & _ & _ & _ & h). rewrite ha in h. revert h.
  unfold get_opt. destruct (child_at _ pt) as [c|]; [|discriminate]. apply array_fin.
Qed.

(** ** Elements *)
Section Elements.
Variable geo : option ptree -> string.
Notation elem_of := (elem_of geo).
Notation doc_of := (doc_of geo).

Lemma elem_joint c j : fst c = "joint" -> joint_of (snd c) = Ok j -> elem_of c = EJoint j.
Proof. intros h1 h2. unfold Model_UrdfDoc.elem_of. rewrite h1, h2. reflexivity. Qed.
Lemma elem_link c l : fst c = "link" -> link_of geo (snd c) = Ok l -> elem_of c = ELink l.
Proof. intros h1 h2. unfold Model_UrdfDoc.elem_of. rewrite h1, h2. reflexivity. Qed.
Lemma elem_other c : fst c <> "joint" -> fst c <> "link" -> elem_of c = EOther "".
Proof.
  intros h1 h2. unfold Model_UrdfDoc.elem_of. destruct (String.eqb_spec (fst c) "joint"); [contradiction|].
  destruct (String.eqb_spec (fst c) "link"); [contradiction|]. reflexivity.
Qed.
(** The three kinds of readable elements. *)
Inductive kind (c : string * ptree) : Prop :=
| kind_joint j : fst c = "joint" -> joint_of (snd c) = Ok j -> elem_of c = EJoint j -> el_name (snd c) = Ok (j_name j) -> kind c
| kind_link l : fst c = "link" -> link_of geo (snd c) = Ok l -> elem_of c = ELink l -> el_name (snd c) = Ok (l_name l) ->
    (List.length (kids_named "inertial" (snd c)) <= 1)%nat -> kind c
| kind_other : fst c <> "joint" -> fst c <> "link" -> elem_of c = EOther "" -> kind c.
Lemma readable_kind c : readable geo c -> kind c.
Proof.
  intros (h1 & h2). destruct (string_dec (fst c) "joint") as [e|e].
  - destruct (h1 e) as (j & hj). apply (kind_joint c j); auto.
    + now apply elem_joint.
    + apply joint_inv in hj. apply get_ok. tauto.
  - destruct (string_dec (fst c) "link") as [e'|e'].
    + destruct (h2 e') as ((l & hl) & hn). apply (kind_link c l); auto.
      * now apply elem_link.
      * apply link_inv in hl. apply get_ok. tauto.
    + apply kind_other; auto. now apply elem_other.
Qed.
Lemma readable_joint c j : fst c = "joint" -> joint_of (snd c) = Ok j -> readable geo c.
Proof. intros h1 h2. split; intros h; [eauto|congruence]. Qed.
Lemma readable_link c l : fst c = "link" -> link_of geo (snd c) = Ok l -> (List.length (kids_named "inertial" (snd c)) <= 1)%nat -> readable geo c.
Proof. intros h1 h2 h3. split; intros h; [congruence|eauto]. Qed.

Lemma is_el_joint n c : readable geo c -> is_el "joint" n c = match elem_of c with EJoint j => String.eqb (j_name j) n | _ => false end.
Proof.
  intros h. apply readable_kind in h. unfold is_el. destruct h as [j h1 h2 h3 h4|l h1 h2 h3 h4 h5|h1 h2 h3]; rewrite h3.
  - rewrite h1, h4. reflexivity.
  - rewrite h1. reflexivity.
  - destruct (String.eqb_spec (fst c) "joint"); [contradiction|reflexivity].
Qed.
Lemma is_el_link n c : readable geo c -> is_el "link" n c = match elem_of c with ELink l => String.eqb (l_name l) n | _ => false end.
Proof.
  intros h. apply readable_kind in h. unfold is_el. destruct h as [j h1 h2 h3 h4|l h1 h2 h3 h4 h5|h1 h2 h3]; rewrite h3.
  - rewrite h1. reflexivity.
  - rewrite h1, h4. reflexivity.
  - destruct (String.eqb_spec (fst c) "link"); [contradiction|reflexivity].
Qed.

(** ** Finding an element *)
Lemma find_joint_el n l : Forall (readable geo) l ->
  match find (is_el "joint" n) l with
  | Some c => In c l /\ fst c = "joint" /\ exists j, joint_of (snd c) = Ok j /\ j_name j = n /\ find_joint (map elem_of l) n = Some j
  | None => find_joint (map elem_of l) n = None
  end.
Proof.
  unfold find_joint. induction 1 as [|c l h _ IH]; [reflexivity|]. cbn [find map]. rewrite (is_el_joint n c h).
  apply readable_kind in h. destruct h as [j h1 h2 h3 h4|k h1 h2 h3 h4 h5|h1 h2 h3]; rewrite h3; cbn [joints flat_map app].
  - cbn [find]. destruct (String.eqb_spec (j_name j) n) as [e|e].
    + split; [now left|]. split; [exact h1|]. exists j. auto.
    + unfold joints in IH. destruct (find (is_el "joint" n) l); [|exact IH]. destruct IH as (i1 & i2). split; [now right|exact i2].
  - unfold joints in IH. destruct (find (is_el "joint" n) l); [|exact IH]. destruct IH as (i1 & i2). split; [now right|exact i2].
  - unfold joints in IH. destruct (find (is_el "joint" n) l); [|exact IH]. destruct IH as (i1 & i2). split; [now right|exact i2].
Qed.
Lemma find_link_el n l : Forall (readable geo) l ->
  match find (is_el "link" n) l with
  | Some c => In c l /\ fst c = "link" /\ exists k, link_of geo (snd c) = Ok k /\ l_name k = n /\ find_link (map elem_of l) n = Some k
  | None => find_link (map elem_of l) n = None
  end.
Proof.
  unfold find_link. induction 1 as [|c l h _ IH]; [reflexivity|]. cbn [find map]. rewrite (is_el_link n c h).
  apply readable_kind in h. destruct h as [j h1 h2 h3 h4|k h1 h2 h3 h4 h5|h1 h2 h3]; rewrite h3; cbn [links flat_map app].
  - unfold links in IH. destruct (find (is_el "link" n) l); [|exact IH]. destruct IH as (i1 & i2). split; [now right|exact i2].
  - cbn [find]. destruct (String.eqb_spec (l_name k) n) as [e|e].
    + split; [now left|]. split; [exact h1|]. exists k. auto.
    + unfold links in IH. destruct (find (is_el "link" n) l); [|exact IH]. destruct IH as (i1 & i2). split; [now right|exact i2].
  - unfold links in IH. destruct (find (is_el "link" n) l); [|exact IH]. destruct IH as (i1 & i2). split; [now right|exact i2].
Qed.
Lemma x_find_joint n robot : Forall (readable geo) (pt_kids robot) ->
  match x_find "joint" n robot with
  | Some pt => In ("joint", pt) (pt_kids robot) /\ exists j, joint_of pt = Ok j /\ j_name j = n /\ find_joint (doc_of robot) n = Some j
  | None => find_joint (doc_of robot) n = None
  end.
Proof.
  intros h. assert (k := find_joint_el n _ h). unfold x_find, Model_UrdfDoc.doc_of.
  destruct (find (is_el "joint" n) (pt_kids robot)) as [(key, pt)|]; cbn [option_map snd fst] in *; [|exact k].
  destruct k as (k1 & k2 & k3). subst key. auto.
Qed.
Lemma x_find_link n robot : Forall (readable geo) (pt_kids robot) ->
  match x_find "link" n robot with
  | Some pt => In ("link", pt) (pt_kids robot) /\ exists l, link_of geo pt = Ok l /\ l_name l = n /\ find_link (doc_of robot) n = Some l
  | None => find_link (doc_of robot) n = None
  end.
Proof.
  intros h. assert (k := find_link_el n _ h). unfold x_find, Model_UrdfDoc.doc_of.
  destruct (find (is_el "link" n) (pt_kids robot)) as [(key, pt)|]; cbn [option_map snd fst] in *; [|exact k].
  destruct k as (k1 & k2 & k3). subst key. auto.
Qed.

(** ** What the records do not show *)
Lemma same_refl c : same_rest c c.
Proof.
  split; [reflexivity|]. split; [auto|]. split; [|auto]. intros _. split; [reflexivity|]. intros k _.
  induction (kids_named k (snd c)); constructor; [intros ? ?; reflexivity|assumption].
Qed.
Lemma same_trans a b c : same_rest a b -> same_rest b c -> same_rest a c.
Proof.
  intros (h1 & h2 & h3 & h4) (k1 & k2 & k3 & k4). rewrite h1 in *. split; [exact k1|]. split; [|split].
  - intros e. destruct (h2 e) as (h5 & h6). destruct (k2 e) as (k5 & k6). split; intros; [rewrite k5, h5|rewrite k6, h6]; auto.
  - intros e. destruct (h3 e) as (h5 & h6). destruct (k3 e) as (k5 & k6). split; intros k hk; [rewrite k5, h5; auto|].
    assert (f1 := h6 k hk). assert (f2 := k6 k hk). clear -f1 f2. revert f2. generalize (kids_named k (snd c)).
    induction f1 as [|x y xs ys hxy _ IH]; intros zs f2; inversion f2; subst; constructor; auto.
    intros k' hk'. rewrite <- (hxy k' hk'). auto.
  - intros e1 e2. rewrite (k4 e1 e2). auto.
Qed.
Lemma edited_refl l : edited l l.
Proof. induction l; constructor; [apply same_refl|assumption]. Qed.
Lemma edited_trans a b c : edited a b -> edited b c -> edited a c.
Proof.
  intros h. revert c. induction h as [|x y l l' hs h IH|x l l' hd h IH]; intros c k.
  - exact k.
  - inversion k; subst.
    + apply edited_keep; [exact (same_trans _ _ _ hs H1)|]. now apply IH.
    + destruct hs as (hs & _). apply edited_drop; [now rewrite <- hs|]. now apply IH.
  - apply edited_drop; [exact hd|]. now apply IH.
Qed.

(** The names of the joints stay different. *)
Definition jname (c : string * ptree) : list (res string) := if String.eqb (fst c) "joint" then [el_name (snd c)] else [].
Lemma jnames l : Forall (readable geo) l -> flat_map jname l = map Ok (map (@j_name f64) (joints (map elem_of l))).
Proof.
  induction 1 as [|c l h _ IH]; [reflexivity|]. cbn [flat_map map]. rewrite IH. unfold jname.
  apply readable_kind in h. destruct h as [j h1 h2 h3 h4|k h1 h2 h3 h4 h5|h1 h2 h3]; rewrite h3; cbn [joints flat_map app].
  - rewrite h1, h4. reflexivity.
  - rewrite h1. reflexivity.
  - destruct (String.eqb_spec (fst c) "joint"); [contradiction|reflexivity].
Qed.
Lemma edited_jnames l l' : edited l l' -> NoDup (flat_map jname l) -> NoDup (flat_map jname l') /\ incl (flat_map jname l') (flat_map jname l).
Proof.
  induction 1 as [|x y l l' hs h IH|x l l' hd h IH]; cbn [flat_map]; intros hn.
  - split; [constructor|intros ? []].
  - assert (e : jname y = jname x).
    { destruct hs as (e & hj & _). unfold jname. rewrite e. destruct (String.eqb_spec (fst x) "joint") as [ej|]; [|reflexivity].
      f_equal. unfold el_name, get, get_opt. destruct (hj ej) as (_ & ha). rewrite ha by discriminate. reflexivity. }
    rewrite e. unfold jname in *. destruct (String.eqb (fst x) "joint"); cbn [app] in *.
    + inversion hn; subst. destruct (IH H2) as (i1 & i2). split.
      * constructor; [|exact i1]. intros k. apply H1, i2, k.
      * intros z [hz|hz]; [now left|right; now apply i2].
    + exact (IH hn).
  - destruct (IH) as (i1 & i2).
    + unfold jname in hn at 1. destruct (String.eqb (fst x) "joint"); [inversion hn; assumption|exact hn].
    + split; [exact i1|]. intros z hz. apply in_or_app. right. now apply i2.
Qed.
Lemma map_Ok_NoDup l : NoDup (map (@Ok string) l) <-> NoDup l.
Proof.
  split; [apply NoDup_map_inv|]. induction 1 as [|x l h _ IH]; cbn [map]; constructor; [|exact IH].
  intros k. apply in_map_iff in k. destruct k as (y & e & hy). injection e as ->. contradiction.
Qed.
Lemma edited_readable robot robot' : readable_doc geo robot -> Forall (readable geo) (pt_kids robot') ->
  edited (pt_kids robot) (pt_kids robot') -> readable_doc geo robot'.
Proof.
  intros (h1 & h2) h3 h4. split; [exact h3|]. unfold Model_UrdfDoc.doc_of in *.
  apply map_Ok_NoDup. rewrite <- (jnames _ h3). apply (edited_jnames _ _ h4). rewrite (jnames _ h1). now apply map_Ok_NoDup.
Qed.

(** ** Removing elements *)
Lemma rm_joint_el n robot : Forall (readable geo) (pt_kids robot) ->
  doc_of (x_rm "joint" n robot) = rm_joint (doc_of robot) n /\ Forall (readable geo) (pt_kids (x_rm "joint" n robot))
  /\ edited (pt_kids robot) (pt_kids (x_rm "joint" n robot)).
Proof.
  unfold x_rm, Model_UrdfDoc.doc_of. destruct robot as [s l]. cbn [set_kids pt_kids]. unfold rm_joint.
  induction 1 as [|c l h _ IH]; [repeat constructor|]. destruct IH as (i1 & i2 & i3). cbn [filter map]. rewrite (is_el_joint n c h).
  assert (k := readable_kind c h). destruct k as [j h1 h2 h3 h4|k h1 h2 h3 h4 h5|h1 h2 h3]; rewrite h3.
  - destruct (String.eqb (j_name j) n); cbn [negb map].
    + split; [exact i1|]. split; [exact i2|]. apply edited_drop; auto.
    + rewrite h3, i1. split; [reflexivity|]. split; [now constructor|]. apply edited_keep; [apply same_refl|exact i3].
  - cbn [negb map]. rewrite h3, i1. split; [reflexivity|]. split; [now constructor|]. apply edited_keep; [apply same_refl|exact i3].
  - cbn [negb map]. rewrite h3, i1. split; [reflexivity|]. split; [now constructor|]. apply edited_keep; [apply same_refl|exact i3].
Qed.
Lemma rm_link_el n robot : Forall (readable geo) (pt_kids robot) ->
  doc_of (x_rm "link" n robot) = rm_link (doc_of robot) n /\ Forall (readable geo) (pt_kids (x_rm "link" n robot))
  /\ edited (pt_kids robot) (pt_kids (x_rm "link" n robot)).
Proof.
  unfold x_rm, Model_UrdfDoc.doc_of. destruct robot as [s l]. cbn [set_kids pt_kids]. unfold rm_link.
  induction 1 as [|c l h _ IH]; [repeat constructor|]. destruct IH as (i1 & i2 & i3). cbn [filter map]. rewrite (is_el_link n c h).
  assert (k := readable_kind c h). destruct k as [j h1 h2 h3 h4|k h1 h2 h3 h4 h5|h1 h2 h3]; rewrite h3.
  - cbn [negb map]. rewrite h3, i1. split; [reflexivity|]. split; [now constructor|]. apply edited_keep; [apply same_refl|exact i3].
  - destruct (String.eqb (l_name k) n); cbn [negb map].
    + split; [exact i1|]. split; [exact i2|]. apply edited_drop; auto.
    + rewrite h3, i1. split; [reflexivity|]. split; [now constructor|]. apply edited_keep; [apply same_refl|exact i3].
  - cbn [negb map]. rewrite h3, i1. split; [reflexivity|]. split; [now constructor|]. apply edited_keep; [apply same_refl|exact i3].
Qed.

(** ** Changing elements *)
Lemma mapM_el (F : string * ptree -> res (string * ptree)) (G : elem f64 -> res (elem f64)) l :
  Forall (readable geo) l ->
  (forall c, In c l -> readable geo c ->
    match G (elem_of c) with
    | Ok e => exists c', F c = Ok c' /\ same_rest c c' /\ (fin_elem e -> elem_of c' = e /\ readable geo c')
    | r => F c = cast r
    end) ->
  match mapM G (map elem_of l) with
  | Ok d => exists l', mapM F l = Ok l' /\ edited l l' /\ (fin_doc d -> map elem_of l' = d /\ Forall (readable geo) l')
  | r => mapM F l = cast r
  end.
Proof.
  induction 1 as [|c l h _ IH]; intros hf; cbn [map mapM].
  - exists []. split; [reflexivity|]. split; [constructor|]. intros _. split; [reflexivity|constructor].
  - assert (k := hf c (or_introl eq_refl) h). specialize (IH (fun c' h' => hf c' (or_intror h'))).
    destruct (G (elem_of c)) as [e| | |]; cbn [rbind]; try (rewrite k; reflexivity).
    destruct k as (c' & -> & k2 & k3). cbn [rbind].
    destruct (mapM G (map elem_of l)) as [d| | |]; cbn [rbind]; try (rewrite IH; reflexivity).
    destruct IH as (l' & -> & i2 & i3). cbn [rbind]. eexists. split; [reflexivity|]. split; [now apply edited_keep|].
    intros hd. inversion hd as [|? ? f1 f2]; subst. destruct (k3 f1) as (k4 & k5). destruct (i3 f2) as (i4 & i5). cbn [map].
    rewrite k4, i4. split; [reflexivity|now constructor].
Qed.

Lemma upd_joint_el n f (g : Joint f64 -> Joint f64) robot : Forall (readable geo) (pt_kids robot) ->
  (forall pt j, In ("joint", pt) (pt_kids robot) -> joint_of pt = Ok j -> j_name j = n ->
    exists pt', f pt = Ok pt' /\ joint_of pt' = Ok (g j) /\ same_rest ("joint", pt) ("joint", pt')) ->
  exists robot', x_upd "joint" n f robot = Ok robot' /\ doc_of robot' = upd_joint (doc_of robot) n g
    /\ Forall (readable geo) (pt_kids robot') /\ edited (pt_kids robot) (pt_kids robot').
Proof.
  destruct robot as [s l]. unfold x_upd, Model_UrdfDoc.doc_of. cbn [pt_kids set_kids]. intros h hf.
  assert (k : exists l', mapM (fun c => if is_el "joint" n c then let! c' := f (snd c) in Ok (fst c, c') else Ok c) l = Ok l'
    /\ map elem_of l' = upd_joint (map elem_of l) n g /\ Forall (readable geo) l' /\ edited l l').
  { induction h as [|c l h _ IH]; cbn [mapM map].
    - exists []. repeat constructor.
    - destruct IH as (l' & e1 & e2 & e3 & e4); [intros pt j hi; apply hf; now right|]. rewrite (is_el_joint n c h).
      assert (k := readable_kind c h). destruct k as [j h1 h2 h3 h4|k h1 h2 h3 h4 h5|h1 h2 h3]; rewrite h3; cbn [upd_joint map].
      + destruct (String.eqb_spec (j_name j) n) as [en|en].
        * destruct c as [key pt]. cbn [fst snd] in *. subst key.
          destruct (hf pt j (or_introl eq_refl) h2 en) as (pt' & f1 & f2 & f3). rewrite f1. cbn [rbind]. rewrite e1. cbn [rbind].
          eexists; split; [reflexivity|]. cbn [map]. rewrite (elem_joint ("joint", pt') (g j) eq_refl f2), e2. split; [reflexivity|].
          split; [constructor; [exact (readable_joint ("joint", pt') _ eq_refl f2)|exact e3]|]. now apply edited_keep.
        * cbn [rbind]. rewrite e1. cbn [rbind]. eexists; split; [reflexivity|]. cbn [map]. rewrite h3, e2. split; [reflexivity|].
          split; [now constructor|]. apply edited_keep; [apply same_refl|exact e4].
      + cbn [rbind]. rewrite e1. cbn [rbind]. eexists; split; [reflexivity|]. cbn [map]. rewrite h3, e2. split; [reflexivity|].
        split; [now constructor|]. apply edited_keep; [apply same_refl|exact e4].
      + cbn [rbind]. rewrite e1. cbn [rbind]. eexists; split; [reflexivity|]. cbn [map]. rewrite h3, e2. split; [reflexivity|].
        split; [now constructor|]. apply edited_keep; [apply same_refl|exact e4]. }
  destruct k as (l' & e1 & e2 & e3 & e4). rewrite e1. cbn [rbind]. eexists; split; [reflexivity|]. cbn [pt_kids]. auto.
Qed.
Lemma upd_link_el n f (g : Link f64 -> Link f64) robot : Forall (readable geo) (pt_kids robot) ->
  (forall pt l, In ("link", pt) (pt_kids robot) -> link_of geo pt = Ok l -> (List.length (kids_named "inertial" pt) <= 1)%nat -> l_name l = n ->
    exists pt', f pt = Ok pt' /\ link_of geo pt' = Ok (g l) /\ same_rest ("link", pt) ("link", pt')
      /\ (List.length (kids_named "inertial" pt') <= 1)%nat) ->
  exists robot', x_upd "link" n f robot = Ok robot' /\ doc_of robot' = upd_link (doc_of robot) n g
    /\ Forall (readable geo) (pt_kids robot') /\ edited (pt_kids robot) (pt_kids robot').
Proof.
  destruct robot as [s l]. unfold x_upd, Model_UrdfDoc.doc_of. cbn [pt_kids set_kids]. intros h hf.
  assert (k : exists l', mapM (fun c => if is_el "link" n c then let! c' := f (snd c) in Ok (fst c, c') else Ok c) l = Ok l'
    /\ map elem_of l' = upd_link (map elem_of l) n g /\ Forall (readable geo) l' /\ edited l l').
  { induction h as [|c l h _ IH]; cbn [mapM map].
    - exists []. repeat constructor.
    - destruct IH as (l' & e1 & e2 & e3 & e4); [intros pt j hi; apply hf; now right|]. rewrite (is_el_link n c h).
      assert (k := readable_kind c h). destruct k as [j h1 h2 h3 h4|k h1 h2 h3 h4 h5|h1 h2 h3]; rewrite h3; cbn [upd_link map].
      + cbn [rbind]. rewrite e1. cbn [rbind]. eexists; split; [reflexivity|]. cbn [map]. rewrite h3, e2. split; [reflexivity|].
        split; [now constructor|]. apply edited_keep; [apply same_refl|exact e4].
      + destruct (String.eqb_spec (l_name k) n) as [en|en].
        * destruct c as [key pt]. cbn [fst snd] in *. subst key.
          destruct (hf pt k (or_introl eq_refl) h2 h5 en) as (pt' & f1 & f2 & f3 & f4). rewrite f1. cbn [rbind]. rewrite e1. cbn [rbind].
          eexists; split; [reflexivity|]. cbn [map]. rewrite (elem_link ("link", pt') (g k) eq_refl f2), e2. split; [reflexivity|].
          split; [constructor; [exact (readable_link ("link", pt') _ eq_refl f2 f4)|exact e3]|]. now apply edited_keep.
        * cbn [rbind]. rewrite e1. cbn [rbind]. eexists; split; [reflexivity|]. cbn [map]. rewrite h3, e2. split; [reflexivity|].
          split; [now constructor|]. apply edited_keep; [apply same_refl|exact e4].
      + cbn [rbind]. rewrite e1. cbn [rbind]. eexists; split; [reflexivity|]. cbn [map]. rewrite h3, e2. split; [reflexivity|].
        split; [now constructor|]. apply edited_keep; [apply same_refl|exact e4]. }
  destruct k as (l' & e1 & e2 & e3 & e4). rewrite e1. cbn [rbind]. eexists; split; [reflexivity|]. cbn [pt_kids]. auto.
Qed.
End Elements.

(** ** The writers of joints and links *)
Lemma named_put_at k k0 q f pt : k <> k0 -> kids_named k (put_at (k0 :: q) f pt) = kids_named k pt.
Proof. intros h. unfold kids_named. cbn [put_at]. rewrite kids_put. now apply named_put. Qed.
Lemma named_erase_at k k0 pt : k <> k0 -> kids_named k (erase k0 pt) = kids_named k pt.
Proof. intros h. now apply named_erase. Qed.
Lemma same_joint pt pt' :
  (forall k, ~ In k ["<xmlattr>"; "parent"; "child"; "origin"; "axis"] -> kids_named k pt' = kids_named k pt) ->
  (forall a, a <> "type" -> child_at (attr_of a) pt' = child_at (attr_of a) pt) -> same_rest ("joint", pt) ("joint", pt').
Proof.
  intros h1 h2. split; [reflexivity|]. split; [intros _; auto|]. split; [intros h; discriminate h|]. intros h. now contradiction h.
Qed.
Lemma same_joint_kids pt pt' :
  (forall k, ~ In k ["parent"; "child"; "origin"; "axis"] -> kids_named k pt' = kids_named k pt) -> same_rest ("joint", pt) ("joint", pt').
Proof.
  intros h. apply same_joint.
  - intros k hk. apply h. cbn [In] in *. tauto.
  - intros a _. apply child_named, h. cbn. intuition discriminate.
Qed.
Lemma same_link pt pt' :
  (forall k, k <> "inertial" -> kids_named k pt' = kids_named k pt) -> same_rest ("link", pt) ("link", pt').
Proof.
  intros h. split; [reflexivity|]. split; [intros h'; discriminate h'|]. split; [|intros _ h'; now contradiction h'].
  intros _. cbn [snd]. split.
  - intros k hk. apply h. cbn [In] in hk. intuition congruence.
  - intros k hk. rewrite h by (cbn [In] in hk; intuition congruence). induction (kids_named k pt); constructor; [intros ? _; reflexivity|assumption].
Qed.
Lemma flip_links_el pt j : joint_of pt = Ok j ->
  exists pt', el_flip_links pt = Ok pt' /\ joint_of pt' = Ok (flip_joint_links j) /\ same_rest ("joint", pt) ("joint", pt').
Proof.
  intros h. destruct (C60_links_proof _ _ h) as ((pt' & h1 & h2) & _). exists pt'. split; [exact h1|]. split; [exact h2|].
  unfold el_flip_links in h1. destruct (el_parent_link pt); cbn [rbind] in h1; try discriminate. destruct (el_child_link pt); cbn [rbind] in h1; try discriminate.
  injection h1 as <-. apply same_joint_kids. intros k hk. cbn [In] in hk. unfold put_string. rewrite !named_put_at by intuition congruence. reflexivity.
Qed.
Lemma make_el type pt j : joint_of pt = Ok j -> joint_of (el_make type pt) = Ok (set_type j type) /\ same_rest ("joint", pt) ("joint", el_make type pt).
Proof.
  intros h. destruct (C60_links_proof _ _ h) as (_ & h1 & _). split; [apply h1|]. unfold el_make, put_string. apply same_joint.
  - intros k hk. cbn [In] in hk. unfold attr_of. rewrite named_erase_at, named_put_at by intuition congruence. reflexivity.
  - intros a ha. unfold attr_of. rewrite child_erase_other by discriminate. apply child_put_apart. cbn [apart].
    destruct (String.eqb_spec a "type"); [contradiction|]. destruct (String.eqb_spec "<xmlattr>" "<xmlattr>"); reflexivity.
Qed.
Lemma flip_axis_el L pt j : joint_of pt = Ok j ->
  match @flip_joint_axis f64 (F64Scalar L) j with
  | Ok j' => exists pt', el_flip_axis L pt = Ok pt' /\ joint_of pt' = Ok j' /\ same_rest ("joint", pt) ("joint", pt')
  | r => el_flip_axis L pt = cast r
  end.
Proof.
  intros h. assert (k := C60_axis_proof L pt j h (fun a => axis_fin pt j a h)).
  assert (kr : @flip_joint_axis f64 (F64Scalar L) j = Throw \/ exists j', @flip_joint_axis f64 (F64Scalar L) j = Ok j').
  { unfold flip_joint_axis. destruct (type_of (j_type j)) as [[]|]; eauto. }
  destruct kr as [e|(j' & e)]; rewrite e in *; [exact k|]. destruct k as (pt' & k1 & k2 & _). exists pt'. split; [exact k1|]. split; [exact k2|].
  unfold el_flip_axis in k1. destruct (joint_type pt) as [t| | |]; cbn [rbind] in k1; try discriminate.
  destruct t; try (injection k1 as <-; apply same_refl);
    (match type of k1 with context [if ?b then _ else _] => destruct b end; injection k1 as <-; apply same_joint_kids; intros k hk; cbn [In] in hk;
     [apply named_erase_at; intuition congruence|unfold put_string; apply named_put_at; intuition congruence]).
Qed.
Lemma type_el pt j : joint_of pt = Ok j -> joint_type pt = match type_of (j_type j) with Some t => Ok t | None => Throw end.
Proof.
  intros h. apply joint_inv in h. destruct h as (_ & h & _). apply get_ok in h. unfold joint_type. rewrite h. cbn [rbind].
  destruct (type_of (j_type j)); reflexivity.
Qed.
Lemma links_el pt j : joint_of pt = Ok j -> el_parent_link pt = Ok (j_parent j) /\ el_child_link pt = Ok (j_child j) /\ origin_of pt = Ok (j_origin j) /\ el_name pt = Ok (j_name j).
Proof. intros h. apply joint_inv in h. destruct h as (h1 & _ & h2 & h3 & h4 & _). rewrite <- !get_ok in *. auto. Qed.
Lemma inertial_el geo pt l : link_of geo pt = Ok l ->
  match child_at ["inertial"] pt with
  | None => l_inertial l = None
  | Some c => exists i, inertial_of c = Ok i /\ l_inertial l = Some i
  end.
Proof.
  intros h. apply link_inv in h. destruct h as (_ & h & _). cbn [child_at]. rewrite find_hd. unfold kids_named in h.
  destruct (map snd _) as [|c cs]; cbn [inertials_of] in h; [now injection h|].
  destruct (inertial_of c) as [i| | |]; cbn [rmap] in h; try discriminate. injection h as <-. eauto.
Qed.
Lemma named_put_one k i pt : (List.length (kids_named k pt) <= 1)%nat -> kids_named k (put_child [k] i pt) = [i].
Proof.
  unfold kids_named, put_child. cbn [put_at]. rewrite kids_put. induction (pt_kids pt) as [|(k', c) l IH]; cbn [Model_Anim.upd_first filter map app fst snd].
  - rewrite String.eqb_refl. reflexivity.
  - destruct (String.eqb_spec k' k) as [->|e].
    + cbn [map List.length filter fst snd]. rewrite String.eqb_refl. intros h. cbn [map snd]. f_equal. destruct (map snd _); [reflexivity|]. cbn in h. lia.
    + intros h. specialize (IH h). destruct (Model_Anim.upd_first k (fun _ => i) l); cbn [option_map filter fst app map];
        (destruct (String.eqb_spec k' k); [contradiction|]); exact IH.
Qed.
Lemma named_erase_same k pt : kids_named k (erase k pt) = [].
Proof.
  unfold kids_named, erase. replace (pt_kids (set_kids pt _)) with (filter (fun c => negb (String.eqb (fst c) k)) (pt_kids pt)) by reflexivity.
  induction (pt_kids pt) as [|(k', c) l IH]; cbn [filter fst]; [reflexivity|].
  destruct (String.eqb k' k) eqn:e; cbn [negb filter fst]; [exact IH|]. now rewrite e.
Qed.
Lemma put_inertial_el geo pt l i ipt : link_of geo pt = Ok l -> (List.length (kids_named "inertial" pt) <= 1)%nat -> inertial_of ipt = Ok i ->
  link_of geo (put_child ["inertial"] ipt pt) = Ok (set_inertial (Some i) l) /\ same_rest ("link", pt) ("link", put_child ["inertial"] ipt pt)
  /\ (List.length (kids_named "inertial" (put_child ["inertial"] ipt pt)) <= 1)%nat.
Proof.
  intros h hn hi.
  assert (hk : forall k, k <> "inertial" -> kids_named k (put_child ["inertial"] ipt pt) = kids_named k pt) by (intros k hk; now apply named_put_at).
  assert (e := named_put_one _ ipt _ hn). split; [|split; [now apply same_link|rewrite e; cbn; lia]].
  apply link_inv in h. destruct h as (h1 & h2 & h3 & h4). apply link_inv. cbn [set_inertial l_name l_inertial l_visuals l_collisions].
  rewrite e, !hk by discriminate. cbn [inertials_of]. rewrite hi. unfold attr_of in *. rewrite (get_opt_named _ _ _ pt) by (apply hk; discriminate). auto.
Qed.
Lemma erase_inertial_el geo pt l : link_of geo pt = Ok l ->
  link_of geo (erase "inertial" pt) = Ok (set_inertial None l) /\ same_rest ("link", pt) ("link", erase "inertial" pt)
  /\ (List.length (kids_named "inertial" (erase "inertial" pt)) <= 1)%nat.
Proof.
  intros h.
  assert (hk : forall k, k <> "inertial" -> kids_named k (erase "inertial" pt) = kids_named k pt) by (intros k hk; now apply named_erase_at).
  assert (e := named_erase_same "inertial" pt). split; [|split; [now apply same_link|rewrite e; cbn; lia]].
  apply link_inv in h. destruct h as (h1 & h2 & h3 & h4). apply link_inv. cbn [set_inertial l_name l_inertial l_visuals l_collisions].
  rewrite e, !hk by discriminate. cbn [inertials_of]. unfold attr_of in *. rewrite (get_opt_named _ _ _ pt) by (apply hk; discriminate). auto.
Qed.

(** ** Operations *)
Definition good geo (robot r : ptree) (d : list (elem f64)) : Prop :=
  doc_of geo r = d /\ Forall (readable geo) (pt_kids r) /\ edited (pt_kids robot) (pt_kids r).
Lemma good_refl geo robot : Forall (readable geo) (pt_kids robot) -> good geo robot robot (doc_of geo robot).
Proof. intros h. split; [reflexivity|]. split; [exact h|apply edited_refl]. Qed.
Lemma good_trans geo r0 r1 d1 r2 d2 : good geo r0 r1 d1 -> good geo r1 r2 d2 -> good geo r0 r2 d2.
Proof. intros (_ & _ & h) (h1 & h2 & h3). split; [exact h1|]. split; [exact h2|]. exact (edited_trans _ _ _ h h3). Qed.
Lemma good_becomes geo x r d ix root : readable_doc geo (x_robot x) -> good geo (x_robot x) r d -> becomes geo x (mkX r ix root) (mkTree d ix root).
Proof.
  intros h (h1 & h2 & h3). split; [|split].
  - unfold x_tree. cbn [x_robot x_ix x_root]. now rewrite h1.
  - exact (edited_readable geo _ _ h h2 h3).
  - exact h3.
Qed.

Lemma C76_rm_root_proof : forall geo x, readable_doc geo (x_robot x) ->
  outcome (becomes geo x) (x_rm_root_joint geo x) (rm_root_joint (x_tree geo x)).
Proof.
  intros geo x h. assert (h0 := proj1 h). unfold x_rm_root_joint, rm_root_joint. cbn [x_tree t_doc t_ix t_root].
  destruct (children (doc_of geo (x_robot x)) (x_ix x) (x_root x)) as [|n [|? ?]]; try exact eq_refl.
  destruct (find_joint (doc_of geo (x_robot x)) n) as [j|]; [|exact eq_refl].
  destruct (find_link (doc_of geo (x_robot x)) (x_root x)); [|exact eq_refl].
  eexists; split; [reflexivity|]. apply (good_becomes geo x); [exact h|].
  destruct (rm_link_el geo (x_root x) _ h0) as (e1 & e2 & e3). destruct (rm_joint_el geo n _ e2) as (f1 & f2 & f3).
  split; [now rewrite f1, e1|]. split; [exact f2|]. exact (edited_trans _ _ _ e3 f3).
Qed.


Lemma C76_rm_leaf_proof : forall geo x n, readable_doc geo (x_robot x) ->
  outcome (becomes geo x) (x_rm_leaf_joint geo x n) (rm_leaf_joint (x_tree geo x) n).
Proof.
  intros geo x n h. assert (h0 := proj1 h). unfold x_rm_leaf_joint, rm_leaf_joint. cbn [x_tree t_doc t_ix t_root].
  destruct (find_joint (doc_of geo (x_robot x)) n) as [j|]; [|exact eq_refl].
  destruct (children (doc_of geo (x_robot x)) (x_ix x) (j_child j)) as [|? ?]; try exact eq_refl.
  destruct (find_link (doc_of geo (x_robot x)) (j_child j)); [|exact eq_refl].
  eexists; split; [reflexivity|]. apply (good_becomes geo x); [exact h|].
  destruct (rm_joint_el geo n _ h0) as (f1 & f2 & f3). destruct (rm_link_el geo (j_child j) _ f2) as (e1 & e2 & e3).
  split; [now rewrite e1, f1|]. split; [exact e2|]. exact (edited_trans _ _ _ f3 e3).
Qed.


Lemma Forall2_len {A B} (P : A -> B -> Prop) l l' : Forall2 P l l' -> List.length l = List.length l'.
Proof. induction 1; cbn; congruence. Qed.
Lemma premul_outcome L lhs ilhs o np : (exists o', @premul f64 (F64Scalar L) lhs ilhs o np = Ok o') \/ @premul f64 (F64Scalar L) lhs ilhs o np = Abort.
Proof.
  unfold premul. repeat match goal with |- context [if ?b then _ else _] => destruct b end; try tauto; try (left; eexists; reflexivity);
      destruct (@pose_to f64 (F64Scalar L) _); try (left; eexists; reflexivity); right; reflexivity.
Qed.
Lemma transport_el L geo x pose np : Forall (readable geo) (pt_kids (x_robot x)) ->
  match @transport_root_link_frame f64 (F64Scalar L) (x_tree geo x) pose np with
  | Ok t' => exists x', x_transport L geo x pose np = Ok x' /\ x_ix x' = t_ix t' /\ x_root x' = t_root t'
             /\ (fin_doc (t_doc t') -> good geo (x_robot x) (x_robot x') (t_doc t'))
  | r => x_transport L geo x pose np = cast r
  end.
Proof.
  intros h. unfold transport_root_link_frame, x_transport. cbn [x_tree t_doc t_ix t_root].
  destruct (find_link (doc_of geo (x_robot x)) (x_root x)) as [l0|]; [|reflexivity].
  match goal with |- match rbind (mapM ?G (doc_of geo (x_robot x))) _ with _ => _ end =>
    match goal with |- context [mapM ?F (pt_kids (x_robot x))] =>
      assert (k := mapM_el geo F G (pt_kids (x_robot x)) h); change (map (elem_of geo) (pt_kids (x_robot x))) with (doc_of geo (x_robot x)) in k;
      set (rx := mapM F (pt_kids (x_robot x))) in *; set (rt := mapM G (doc_of geo (x_robot x))) in *
    end end.
  match type of k with ?A -> ?B => assert (k' : B) end.
  { apply k. clear k rx rt. intros c hc hr. assert (hk := readable_kind geo c hr). destruct hk as [j h1 h2 h3 h4|l h1 h2 h3 h4 h5|h1 h2 h3]; rewrite h3.
    - rewrite h4. rewrite h1. cbn [String.eqb Ascii.eqb Bool.eqb].
      destruct (mem (j_name j) _).
      + assert (k := C60_origin_proof L (@pose_inverse f64 (F64Scalar L) pose) pose (np (j_name j)) _ _ h2).
        destruct (premul_outcome L (@pose_inverse f64 (F64Scalar L) pose) pose (j_origin j) (np (j_name j))) as [(o' & e)|e]; rewrite e in *; cbn [rbind]; [|rewrite k; reflexivity].
        destruct k as (pt' & k1 & k2 & k3). rewrite k1. cbn [rbind]. exists ("joint", pt'). split; [reflexivity|]. split.
        * destruct c as [key pt]. cbn [fst snd] in *. subst key. apply same_joint_kids. intros k hk. apply k3. cbn [In] in hk. intuition congruence.
        * intros hf. specialize (k2 hf). split; [now apply elem_joint|]. exact (readable_joint geo ("joint", pt') _ eq_refl k2).
      + exists c. split; [reflexivity|]. split; [apply same_refl|]. intros _. split; [exact h3|exact hr].
    - unfold is_el. rewrite h4, h1. cbn [String.eqb Ascii.eqb Bool.eqb andb].
      destruct (String.eqb (l_name l) (x_root x)).
      + assert (k := C60_transport_proof L geo (@pose_inverse f64 (F64Scalar L) pose) pose _ _ h2 h5).
        destruct (transport_link (@pose_inverse f64 (F64Scalar L) pose) pose l) as [l'| | |]; cbn [rbind]; try contradiction; [|rewrite k; reflexivity].
        destruct k as (pt' & k1 & k2 & k3 & k4). rewrite k1. cbn [rbind]. exists ("link", pt'). split; [reflexivity|]. split.
        * destruct c as [key pt]. cbn [fst snd] in *. subst key. split; [reflexivity|]. split; [intros e; discriminate e|]. split; [|intros _ e; now contradiction e].
          intros _. cbn [snd]. split; [exact k3|]. intros k _. apply k4.
        * intros hf. specialize (k2 hf). split; [now apply elem_link|]. apply (readable_link geo ("link", pt') _ eq_refl k2). cbn [snd].
          rewrite <- (Forall2_len _ _ _ (k4 "inertial")). exact h5.
      + exists c. split; [reflexivity|]. split; [apply same_refl|]. intros _. split; [exact h3|exact hr].
    - exists c. split; [|split; [apply same_refl|intros _; split; [exact h3|exact hr]]].
      unfold is_el. destruct (String.eqb_spec (fst c) "joint"); [contradiction|]. destruct (String.eqb_spec (fst c) "link"); [contradiction|]. reflexivity. }
  clear k. destruct rt as [d| | |]; cbn [rbind]; try (rewrite k'; reflexivity).
  destruct k' as (l' & e1 & e2 & e3). rewrite e1. cbn [rbind]. eexists; split; [reflexivity|]. cbn [x_ix x_root x_robot t_ix t_root t_doc].
  split; [reflexivity|]. split; [reflexivity|]. intros hf. destruct (e3 hf) as (e4 & e5).
  destruct (x_robot x) as [s l]. unfold good. cbn [set_kids pt_kids] in *. split; [exact e4|]. split; [exact e5|exact e2].
Qed.

Lemma C76_transport_proof : forall L geo x pose noprune, readable_doc geo (x_robot x) ->
  (forall t', @transport_root_link_frame f64 (F64Scalar L) (x_tree geo x) pose noprune = Ok t' -> fin_doc (t_doc t')) ->
  outcome (becomes geo x) (x_transport L geo x pose noprune) (@transport_root_link_frame f64 (F64Scalar L) (x_tree geo x) pose noprune).
Proof.
  intros L geo x pose np h hf. assert (k := transport_el L geo x pose np (proj1 h)).
  destruct (@transport_root_link_frame f64 (F64Scalar L) (x_tree geo x) pose np) as [t'| | |]; cbn [outcome]; try (rewrite k; reflexivity).
  destruct k as (x' & k1 & k2 & k3 & k4). exists x'. split; [exact k1|]. specialize (k4 (hf _ eq_refl)).
  destruct x' as [r ix root], t' as [d ix' root']. cbn [x_ix x_root x_robot t_ix t_root t_doc] in *. subst ix' root'. now apply good_becomes.
Qed.


Lemma joint_unique geo robot pt pt' j j' : readable_doc geo robot ->
  In ("joint", pt) (pt_kids robot) -> In ("joint", pt') (pt_kids robot) -> joint_of pt = Ok j -> joint_of pt' = Ok j' -> j_name j = j_name j' -> pt = pt'.
Proof.
  intros (h1 & h2) i i' e e' en. unfold doc_of in h2. apply map_Ok_NoDup in h2. rewrite <- (jnames geo _ h1) in h2.
  assert (hn : el_name pt = el_name pt') by (rewrite (proj2 (proj2 (proj2 (links_el _ _ e)))), (proj2 (proj2 (proj2 (links_el _ _ e')))), en; reflexivity).
  clear -i i' h2 hn. induction (pt_kids robot) as [|c l IH]; [contradiction|]. cbn [flat_map] in h2.
  assert (hi : forall q, In ("joint", q) l -> In (el_name q) (flat_map jname l)) by (intros q hq; apply in_flat_map; exists ("joint", q); split; [exact hq|now left]).
  destruct i as [-> |i], i' as [e|i'].
  - congruence.
  - cbn in h2. inversion h2; subst. apply hi in i'. rewrite <- hn in i'. contradiction.
  - subst c. cbn in h2. inversion h2; subst. apply hi in i. rewrite hn in i. contradiction.
  - apply IH; auto. unfold jname in h2 at 1. destruct (String.eqb (fst c) "joint"); [inversion h2; assumption|exact h2].
Qed.

Lemma C76_flip_proof : forall L geo x n exception, readable_doc geo (x_robot x) -> fin_flip L (x_tree geo x) n exception ->
  outcome (becomes geo x) (x_flip L geo x n exception) (@flip_root_link_joint f64 (F64Scalar L) (x_tree geo x) n exception).
Proof.
  intros L geo x n ex h hf. unfold x_flip, flip_root_link_joint. unfold x_tree. cbn [t_doc t_ix t_root].
  assert (k := x_find_joint geo n _ (proj1 h)). destruct (x_find "joint" n (x_robot x)) as [pt|]; [|rewrite k; exact eq_refl].
  destruct k as (kin & j & k1 & k2 & k3). rewrite k3. destruct (links_el _ _ k1) as (l1 & l2 & l3 & l4). rewrite l1. cbn [rbind].
  destruct (negb (String.eqb (j_parent j) (x_root x))); [exact eq_refl|]. rewrite l3. cbn [rbind].
  set (rt := match j_origin j with None => Ok (mkTree (doc_of geo (x_robot x)) (x_ix x) (x_root x)) | Some o =>
    @transport_root_link_frame f64 (F64Scalar L) (mkTree (doc_of geo (x_robot x)) (x_ix x) (x_root x)) o (fun m => ex && String.eqb m n) end).
  set (rx := match j_origin j with None => Ok x | Some o => x_transport L geo x o (fun m => ex && String.eqb m n) end).
  assert (ks : match rt with
    | Ok t1 => exists x1, rx = Ok x1 /\ x_ix x1 = t_ix t1 /\ good geo (x_robot x) (x_robot x1) (t_doc t1)
    | r => rx = cast r end).
  { subst rt rx. destruct (j_origin j) as [o|] eqn:eo.
    - assert (kt := transport_el L geo x o (fun m => ex && String.eqb m n) (proj1 h)). unfold x_tree in kt.
      specialize (hf j o). cbn [x_tree t_doc] in hf. specialize (fun t1 => hf t1 k3 eo). unfold x_tree, S64 in hf.
      destruct (@transport_root_link_frame f64 (F64Scalar L) _ _ _) as [t1| | |]; try exact kt.
      destruct kt as (x1 & e1 & e2 & _ & e3). exists x1. split; [exact e1|]. split; [exact e2|]. exact (e3 (hf _ eq_refl)).
    - exists x. split; [reflexivity|]. split; [reflexivity|]. apply good_refl, h. }
  destruct rt as [t1| | |]; cbn [rbind]; try (rewrite ks; exact eq_refl). destruct ks as (x1 & -> & e1 & e2). cbn [rbind].
  rewrite (proj1 e2). destruct (existsb _ (joints (t_doc t1))); [exact eq_refl|].
  assert (h1 := edited_readable geo _ _ h (proj1 (proj2 e2)) (proj2 (proj2 e2))).
  destruct (upd_joint_el geo n el_flip_links (@flip_joint_links f64) (x_robot x1) (proj1 h1)) as (r2 & f1 & f2 & f3 & f4).
  { intros q jq _ hq _. destruct (flip_links_el q jq hq) as (q' & m1 & m2 & m3). eauto. }
  rewrite f1. cbn [rbind]. rewrite f2, (proj1 e2), e1. assert (h2 := edited_readable geo _ _ h1 f3 f4).
  assert (k' := x_find_joint geo n r2 f3). rewrite f2, (proj1 e2) in k'.
  destruct (x_find "joint" n r2) as [kpt|]; [|rewrite k'; exact eq_refl].
  destruct k' as (kin' & kj & m1 & m2 & m3). rewrite m3. destruct (links_el _ _ m1) as (n1 & _). rewrite n1. cbn [rbind].
  assert (ka := flip_axis_el L kpt kj m1). destruct (@flip_joint_axis f64 (F64Scalar L) kj) as [kj'| | |] eqn:ekj; cbn [rbind]; try (rewrite ka; exact eq_refl).
  destruct ka as (kpt' & a1 & a2 & a3). rewrite a1. cbn [rbind].
  destruct (upd_joint_el geo n (fun _ => Ok kpt') (fun _ => kj') r2 f3) as (r3 & b1 & b2 & b3 & b4).
  { intros q jq hq1 hq2 hq3. exists kpt'. split; [reflexivity|]. split; [exact a2|].
    rewrite (joint_unique geo r2 q kpt jq kj h2 hq1 kin' hq2 m1); [exact a3|congruence]. }
  rewrite b1. cbn [rbind]. eexists; split; [reflexivity|]. apply good_becomes; [exact h|].
  split; [now rewrite b2, f2, (proj1 e2)|]. split; [exact b3|].
  exact (edited_trans _ _ _ (proj2 (proj2 e2)) (edited_trans _ _ _ f4 b4)).
Qed.


Lemma becomes_trans geo x x1 x2 t1 t2 : becomes geo x x1 t1 -> becomes geo x1 x2 t2 -> becomes geo x x2 t2.
Proof. intros (_ & _ & h) (h1 & h2 & h3). split; [exact h1|]. split; [exact h2|]. exact (edited_trans _ _ _ h h3). Qed.
Lemma becomes_refl geo x : readable_doc geo (x_robot x) -> becomes geo x x (x_tree geo x).
Proof. intros h. split; [reflexivity|]. split; [exact h|apply edited_refl]. Qed.
Lemma flip_all_el L geo names : forall x, readable_doc geo (x_robot x) -> fin_flips L (x_tree geo x) names ->
  outcome (becomes geo x) (x_flip_all L geo x names) (@flip_all f64 (F64Scalar L) (x_tree geo x) names).
Proof.
  induction names as [|n r IH]; intros x h hf; cbn [x_flip_all flip_all].
  - exists x. split; [reflexivity|now apply becomes_refl].
  - cbn [fin_flips] in hf. destruct hf as (hf1 & hf2). unfold S64 in *.
    assert (k := C76_flip_proof L geo x n _ h hf1).
    destruct (@flip_root_link_joint f64 (F64Scalar L) (x_tree geo x) n _) as [t1| | |]; cbn [outcome rbind] in *; try (rewrite k; reflexivity).
    destruct k as (x1 & -> & k2). cbn [rbind]. specialize (hf2 _ eq_refl). rewrite <- (proj1 k2) in hf2.
    specialize (IH x1 (proj1 (proj2 k2)) hf2). rewrite (proj1 k2) in IH.
    destruct (@flip_all f64 (F64Scalar L) t1 r); cbn [outcome] in *; try exact IH.
    destruct IH as (x2 & i1 & i2). exists x2. split; [exact i1|]. exact (becomes_trans _ _ _ _ _ _ k2 i2).
Qed.

Lemma C76_define_as_root_proof : forall L geo x link, readable_doc geo (x_robot x) -> fin_edit L (DefineAsRoot link) (x_tree geo x) ->
  outcome (becomes geo x) (x_define_as_root_link L geo x link) (@define_as_root_link f64 (F64Scalar L) (x_tree geo x) link).
Proof.
  intros L geo x link h hf. unfold x_define_as_root_link, define_as_root_link. cbn [fin_edit] in hf.
  change (t_doc (x_tree geo x)) with (doc_of geo (x_robot x)) in *.
  destruct (path_to_root _ (x_tree geo x) link) as [p| | |]; cbn [rbind outcome]; try reflexivity.
  apply flip_all_el; [exact h|now apply hf].
Qed.


Lemma make_doc geo robot type n : Forall (readable geo) (pt_kids robot) ->
  exists r, x_upd "joint" n (fun pt => Ok (el_make type pt)) robot = Ok r /\ good geo robot r (upd_joint (doc_of geo robot) n (fun j => set_type j type)).
Proof.
  intros h. destruct (upd_joint_el geo n (fun pt => Ok (el_make type pt)) (fun j => set_type j type) robot h) as (r & e1 & e2 & e3 & e4).
  { intros q jq _ hq _. destruct (make_el type q jq hq) as (m1 & m2). eauto. }
  exists r. split; [exact e1|]. split; [exact e2|]. split; assumption.
Qed.

Lemma C76_make_proof : forall geo x n, readable_doc geo (x_robot x) ->
  outcome (becomes geo x) (x_make "fixed" x n) (makeJointFixed (x_tree geo x) n)
  /\ outcome (becomes geo x) (x_make "floating" x n) (makeJointFloating (x_tree geo x) n).
Proof.
  intros geo x n h. unfold x_make, makeJointFixed, makeJointFloating. cbn [x_tree t_doc t_ix t_root].
  assert (k := x_find_joint geo n _ (proj1 h)).
  destruct (x_find "joint" n (x_robot x)) as [pt|]; [|rewrite k; split; exact eq_refl]. destruct k as (_ & j & _ & _ & k). rewrite k.
  split; [destruct (make_doc geo (x_robot x) "fixed" n (proj1 h)) as (r & -> & e)|destruct (make_doc geo (x_robot x) "floating" n (proj1 h)) as (r & -> & e)];
    cbn [rbind]; eexists; (split; [reflexivity|now apply good_becomes]).
Qed.


(** ** Walks *)
Definition outU (U : Prop) {X V} (agree : X -> V -> Prop) (rx : res X) (rv : res V) : Prop :=
  match rv with
  | Ok v => exists x, rx = Ok x /\ agree x v
  | Throw => rx = Throw
  | Abort => rx = Abort
  | UB => U -> rx = UB
  end.
Lemma outU_bind U {X V X' V'} (A : X -> V -> Prop) (A' : X' -> V' -> Prop) rx rv fx fv :
  outU U A rx rv -> (forall x v, A x v -> outU U A' (fx x) (fv v)) -> outU U A' (rbind rx fx) (rbind rv fv).
Proof.
  intros h hk. destruct rv; cbn [outU rbind] in *; try (rewrite h; reflexivity).
  - destruct h as (x & -> & h). now apply hk.
  - intros u. now rewrite (h u).
Qed.
Section Walk.
Variable U : Prop.
Variables (V1 V2 : Type) (doc1 : V1 -> list (elem f64)) (doc2 : V2 -> list (elem f64)).
Variables (d1 : V1 -> Joint f64 -> res (V1 * bool)) (d2 : V2 -> Joint f64 -> res (V2 * bool)).
Variables (f1 : V1 -> Joint f64 -> res V1) (f2 : V2 -> Joint f64 -> res V2).
Variable A : V1 -> V2 -> Prop.
Hypothesis hdoc : forall v1 v2, A v1 v2 -> doc1 v1 = doc2 v2.
Hypothesis hd : forall v1 v2 n j, A v1 v2 -> find_joint (doc2 v2) n = Some j ->
  outU U (fun a b => A (fst a) (fst b) /\ snd a = snd b) (d1 v1 j) (d2 v2 j).
Hypothesis hf : forall v1 v2 n j, A v1 v2 -> find_joint (doc2 v2) n = Some j -> outU U A (f1 v1 j) (f2 v2 j).
Lemma walk_sim fuel : forall ix link v1 v2, A v1 v2 ->
  outU U A (walk_joint doc1 d1 f1 fuel ix link v1) (walk_joint doc2 d2 f2 fuel ix link v2).
Proof using hdoc hd hf.
  induction fuel as [|fuel IH]; intros ix link v1 v2 hA; cbn [walk_joint]; [intros _; reflexivity|].
  rewrite (hdoc _ _ hA). generalize (children (doc2 v2) ix link). intros range. revert v1 v2 hA.
  induction range as [|n r IHr]; intros v1 v2 hA; [exists v1; auto|].
  cbn iota beta. rewrite (hdoc _ _ hA). destruct (find_joint (doc2 v2) n) as [j|] eqn:ej; [|intros _; reflexivity].
  apply (outU_bind U _ _ _ _ _ _ (hd _ _ _ _ hA ej)). intros (w1, b1) (w2, b2). cbn [fst snd]. intros (hw & ->).
  apply (outU_bind U A).
  - destruct b2; [|exists w1; auto]. rewrite (hdoc _ _ hw). destruct (find_joint (doc2 w2) n) as [j'|]; [|intros _; reflexivity]. now apply IH.
  - intros u1 u2 hu. rewrite (hdoc _ _ hu). destruct (find_joint (doc2 u2) n) as [j'|] eqn:ej'; [|intros _; reflexivity].
    apply (outU_bind U _ _ _ _ _ _ (hf _ _ _ _ hu ej')). intros z1 z2 hz. now apply IHr.
Qed.
End Walk.

(** The walk with tests, when they succeed. *)
Section Checked.
Variables (V : Type) (doc : V -> list (elem f64)) (d : V -> Joint f64 -> res (V * bool)) (f f' : V -> Joint f64 -> res V).
Hypothesis hf : forall v j, f' v j <> UB -> f' v j = f v j.
Lemma walk_checked fuel : forall ix link v, walk_joint doc d f' fuel ix link v <> UB ->
  walk_joint doc d f fuel ix link v = walk_joint doc d f' fuel ix link v.
Proof using hf.
  induction fuel as [|fuel IH]; intros ix link v; cbn [walk_joint]; [reflexivity|].
  generalize (children (doc v) ix link). intros range. revert v.
  induction range as [|n r IHr]; intros v; cbn iota beta; [reflexivity|].
  destruct (find_joint (doc v) n) as [j|]; [|reflexivity].
  destruct (d v j) as [(w, b)| | |]; cbn [rbind]; try reflexivity.
  set (s := if b then match find_joint (doc w) n with Some j0 => walk_joint doc d f fuel ix (j_child j0) w | None => UB end else Ok w).
  set (s' := if b then match find_joint (doc w) n with Some j0 => walk_joint doc d f' fuel ix (j_child j0) w | None => UB end else Ok w).
  assert (es : s' <> UB -> s = s').
  { subst s s'. destruct b; [|reflexivity]. destruct (find_joint (doc w) n); [|reflexivity]. apply IH. }
  destruct s' as [u| | |] eqn:e'; cbn [rbind]; intros h; try (rewrite es by discriminate; reflexivity); [|contradiction h; reflexivity].
  rewrite es by discriminate. cbn [rbind]. destruct (find_joint (doc u) n) as [j'|]; [|reflexivity].
  destruct (f' u j') as [z| | |] eqn:ef; cbn [rbind] in *; (rewrite <- (hf u j') by (rewrite ef; (discriminate || exact h))); rewrite ef; cbn [rbind]; try reflexivity.
  now apply IHr.
Qed.
End Checked.

Lemma outU_outcome {X V} (A : X -> V -> Prop) rx rv : outU True A rx rv -> outcome A rx rv.
Proof. intros h. destruct rv; cbn in *; auto. Qed.
Lemma outU_False {X V} (A : X -> V -> Prop) rx rv : rv <> UB -> outU False A rx rv -> outcome A rx rv.
Proof. intros h0 h. destruct rv; cbn in *; try exact h. now contradiction h0. Qed.
Lemma outU_weak U {X V} (A A' : X -> V -> Prop) rx rv : (forall x v, A x v -> A' x v) -> outU U A rx rv -> outU U A' rx rv.
Proof. intros h0 h. destruct rv; cbn in *; auto. destruct h as (x & h1 & h2). eauto. Qed.

Lemma name_found (d : list (elem f64)) n j : find_joint d n = Some j -> j_name j = n /\ find_joint d (j_name j) = Some j.
Proof.
  intros h. assert (h' := h). unfold find_joint in h'. apply find_some in h'. destruct h' as (_ & e). apply String.eqb_eq in e. subst n. auto.
Qed.
Lemma find_el geo robot n j : Forall (readable geo) (pt_kids robot) -> find_joint (doc_of geo robot) n = Some j ->
  exists pt, x_find "joint" (j_name j) robot = Some pt /\ joint_of pt = Ok j /\ In ("joint", pt) (pt_kids robot).
Proof.
  intros h e. apply name_found in e. destruct e as (_ & e). assert (k := x_find_joint geo (j_name j) _ h).
  destruct (x_find "joint" (j_name j) robot) as [pt|]; [|congruence]. destruct k as (k0 & j' & k1 & k2 & k3). exists pt.
  replace j with j' by congruence. auto.
Qed.

Lemma C76_continuous_proof : forall geo x, readable_doc geo (x_robot x) ->
  outcome (becomes_with geo x) (x_makeContinuousJointsFixed geo x) (makeContinuousJointsFixed (x_tree geo x)).
Proof.
  intros geo x h. unfold x_makeContinuousJointsFixed, makeContinuousJointsFixed, traverse_joints. cbn [x_tree t_doc t_ix t_root].
  apply outU_outcome.
  apply (outU_bind True (fun (v1 : ptree * list string) (v2 : list (elem f64) * list string) => good geo (x_robot x) (fst v1) (fst v2) /\ snd v1 = snd v2)).
  - apply walk_sim.
    + intros v1 v2 ((e & _) & _). exact e.
    + intros (r, l1) (d, l2) n j. cbn [fst snd]. intros (hg & ->) ej. unfold x_mcf_discover, mcf_discover. cbn [fst snd].
      rewrite <- (proj1 hg) in ej. destruct (find_el geo r n j (proj1 (proj2 hg)) ej) as (pt & e1 & e2 & _). rewrite e1, (type_el _ _ e2).
      destruct (type_of (j_type j)) as [[]|]; cbn [rbind]; try exact eq_refl; try (eexists; split; [reflexivity|]; cbn [fst snd]; auto).
      destruct (make_doc geo r "fixed" (j_name j) (proj1 (proj2 hg))) as (r' & -> & g). cbn [rbind]. eexists; split; [reflexivity|]. cbn [fst snd].
      split; [|reflexivity]. split; [|reflexivity]. rewrite (proj1 hg) in g. exact (good_trans _ _ _ _ _ _ hg g).
    + intros v1 v2 n j hA _. exists v1. auto.
    + cbn [fst snd]. split; [|reflexivity]. apply good_refl, h.
  - intros (r, l1) (d, l2). cbn [fst snd]. intros (hg & ->). eexists; split; [reflexivity|]. split; [|reflexivity]. cbn [fst]. now apply good_becomes.
Qed.


Lemma rm_leaves_el geo names : forall x, readable_doc geo (x_robot x) ->
  outcome (becomes geo x) (x_rm_leaves geo x names) (rm_leaves (x_tree geo x) names).
Proof.
  induction names as [|n r IH]; intros x h; cbn [x_rm_leaves rm_leaves].
  - exists x. split; [reflexivity|now apply becomes_refl].
  - assert (k := C76_rm_leaf_proof geo x n h).
    destruct (rm_leaf_joint (x_tree geo x) n) as [t1| | |]; cbn [outcome rbind] in *; try (rewrite k; reflexivity).
    destruct k as (x1 & -> & k2). cbn [rbind]. specialize (IH x1 (proj1 (proj2 k2))). rewrite (proj1 k2) in IH.
    destruct (rm_leaves t1 r); cbn [outcome] in *; try exact IH.
    destruct IH as (x2 & i1 & i2). exists x2. split; [exact i1|]. exact (becomes_trans _ _ _ _ _ _ k2 i2).
Qed.

Lemma C76_remove_proof : forall geo x pred pred', readable_doc geo (x_robot x) ->
  (forall pt j, In ("joint", pt) (pt_kids (x_robot x)) -> joint_of pt = Ok j -> pred' j = pred pt) ->
  outcome (becomes_with geo x) (x_removeSubTreeIfJoint geo x pred) (removeSubTreeIfJoint (x_tree geo x) pred').
Proof.
  intros geo x pred pred' h hp. unfold x_removeSubTreeIfJoint, removeSubTreeIfJoint, traverse_joints.
  change (t_doc (x_tree geo x)) with (doc_of geo (x_robot x)). change (t_ix (x_tree geo x)) with (x_ix x). change (t_root (x_tree geo x)) with (x_root x).
  apply outU_outcome. apply (outU_bind True eq).
  - assert (e : forall n j, find_joint (doc_of geo (x_robot x)) n = Some j -> on_joint (x_robot x) pred j = pred' j).
    { intros n j ej. destruct (find_el geo (x_robot x) n j (proj1 h) ej) as (pt & e1 & e2 & e3). unfold on_joint. rewrite e1. symmetry. now apply hp. }
    apply walk_sim.
    + auto.
    + intros v1 v2 n j -> ej. unfold lj_discover. rewrite (e _ _ ej). eexists; split; [reflexivity|]. auto.
    + intros v1 v2 n j -> ej. unfold lj_finish. rewrite (e _ _ ej). match goal with |- context [Z.leb 0 ?z] => destruct (Z.leb 0 z) end; [|exact eq_refl].
      eexists; split; [reflexivity|]. auto.
    + reflexivity.
  - intros v1 v2 ->. apply (outU_bind True (becomes geo x)).
    + assert (k := rm_leaves_el geo (rev (snd v2)) x h). destruct (rm_leaves _ _); cbn in *; auto.
    + intros x' t' hb. eexists; split; [reflexivity|]. split; [exact hb|reflexivity].
Qed.


(** ** Masses *)
Lemma finite3_fin v : finite3 v = true -> fin3 v.
Proof. unfold finite3. rewrite !andb_true_iff. intros ((h1 & h2) & h3). repeat split; assumption. Qed.
Lemma finite_inertial_fin i : finite_inertial i = true -> fin_inertial i.
Proof.
  unfold finite_inertial, fin_inertial, fin_origin. rewrite !andb_true_iff. intros (((((((h0 & h1) & h2) & h3) & h4) & h5) & h6) & h7).
  split; [|repeat split; assumption]. destruct (i_origin i) as [p|]; [|exact Logic.I]. apply andb_true_iff in h0. destruct h0. split; now apply finite3_fin.
Qed.
Lemma squash_el L geo robot pt j : Forall (readable geo) (pt_kids robot) -> joint_of pt = Ok j ->
  finite_squash L (doc_of geo robot) j = true ->
  outcome (good geo robot) (x_squash_joint L robot pt) (@squash_joint f64 (F64Scalar L) (doc_of geo robot) j).
Proof.
  intros h hj hfin. destruct (links_el _ _ hj) as (l1 & l2 & l3 & l4). unfold x_squash_joint, squash_joint, finite_squash, S64 in *.
  rewrite l2. cbn [rbind]. assert (kc := x_find_link geo (j_child j) _ h).
  destruct (x_find "link" (j_child j) robot) as [child|]; [|rewrite kc; exact eq_refl]. destruct kc as (_ & c & c1 & c2 & c3). rewrite c3 in *.
  assert (ki := inertial_el geo child c c1). destruct (child_at ["inertial"] child) as [cipt|].
  2: { rewrite ki. exists robot. split; [reflexivity|now apply good_refl]. }
  destruct ki as (ci & i1 & i2). rewrite i2 in *. rewrite l1. cbn [rbind]. assert (kp := x_find_link geo (j_parent j) _ h).
  destruct (x_find "link" (j_parent j) robot) as [parent|]; [|rewrite kp; exact eq_refl]. destruct kp as (_ & p & p1 & p2 & p3). rewrite p3 in *.
  apply finite_inertial_fin in hfin. assert (kpi := inertial_el geo parent p p1).
  destruct (C60_inertial_proof L pt j cipt ci (child_at ["inertial"] parent) (l_inertial p) hj i1) as (ipt & e1 & e2).
  { destruct (child_at ["inertial"] parent); [destruct kpi as (pi & q1 & q2); rewrite q2; exact q1|now rewrite kpi]. }
  specialize (e2 hfin). rewrite e1. cbn [rbind].
  destruct (upd_link_el geo (j_parent j) (fun q => Ok (put_child ["inertial"] ipt q)) (set_inertial (Some (@squashed f64 (F64Scalar L) j (l_inertial p) ci))) robot h) as (r1 & a1 & a2 & a3 & a4).
  { intros q l _ hl hn _. destruct (put_inertial_el geo q l _ ipt hl hn e2) as (m1 & m2 & m3). eauto. }
  rewrite a1. cbn [rbind].
  destruct (upd_link_el geo (j_child j) (fun q => Ok (erase "inertial" q)) (@set_inertial f64 None) r1 a3) as (r2 & b1 & b2 & b3 & b4).
  { intros q l _ hl hn _. destruct (erase_inertial_el geo q l hl) as (m1 & m2 & m3). eauto. }
  exists r2. split; [exact b1|]. split; [now rewrite b2, a2|]. split; [exact b3|]. exact (edited_trans _ _ _ a4 b4).
Qed.

Lemma C76_squash_proof : forall L geo x n, readable_doc geo (x_robot x) -> fin_edit L (SquashMass n) (x_tree geo x) ->
  outcome (becomes geo x) (x_squashJointMass L x n) (@squashJointMass f64 (F64Scalar L) (x_tree geo x) n).
Proof.
  intros L geo x n h hf. cbn [fin_edit x_tree t_doc] in hf. unfold x_squashJointMass, squashJointMass. cbn [x_tree t_doc t_ix t_root].
  assert (k := x_find_joint geo n _ (proj1 h)). destruct (x_find "joint" n (x_robot x)) as [pt|]; [|rewrite k; exact eq_refl].
  destruct k as (_ & j & k1 & k2 & k3). rewrite k3. assert (ks := squash_el L geo (x_robot x) pt j (proj1 h) k1 (hf _ k3)).
  destruct (squash_joint (doc_of geo (x_robot x)) j) as [d| | |]; cbn [outcome rbind] in *; try (rewrite ks; reflexivity).
  destruct ks as (r & -> & g). cbn [rbind]. eexists; split; [reflexivity|now apply good_becomes].
Qed.


Lemma good_squash L geo robot r d n j : good geo robot r d -> find_joint d n = Some j -> finite_squash L d j = true ->
  exists pt, x_find "joint" (j_name j) r = Some pt /\ joint_of pt = Ok j
  /\ outcome (good geo robot) (x_squash_joint L r pt) (@squash_joint f64 (F64Scalar L) d j).
Proof.
  intros hg ej hfin. rewrite <- (proj1 hg) in *. destruct (find_el geo r n j (proj1 (proj2 hg)) ej) as (pt & e1 & e2 & _).
  exists pt. split; [exact e1|]. split; [exact e2|]. assert (k := squash_el L geo r pt j (proj1 (proj2 hg)) e2 hfin).
  destruct (squash_joint (doc_of geo r) j) as [d'| | |]; cbn [outcome] in *; try exact k.
  destruct k as (r' & k1 & k2). exists r'. split; [exact k1|]. exact (good_trans _ _ _ _ _ _ hg k2).
Qed.

Lemma C76_squash_fixed_proof : forall L geo x, readable_doc geo (x_robot x) -> fin_squash_walk L (x_tree geo x) ->
  outcome (becomes geo x) (x_squashFixedJointsMass L geo x) (@squashFixedJointsMass f64 (F64Scalar L) (x_tree geo x)).
Proof.
  intros L geo x h hf. unfold fin_squash_walk, x_squashFixedJointsMass, squashFixedJointsMass, traverse_joints, S64 in *.
  cbn [x_tree t_doc t_ix t_root] in *.
  match type of hf with walk_joint ?dc ?d ?f' _ _ _ _ <> UB => rewrite (walk_checked _ dc d (@sf_finish f64 (F64Scalar L)) f') end; [|clear|exact hf].
  2: { intros d j hn. destruct (finite_fixed L d j); [reflexivity|now contradiction hn]. }
  match type of hf with ?w <> UB => set (rt := w) in * end.
  match goal with |- context [rbind (walk_joint ?dc ?d ?f ?n ?ix ?l ?v) _] => assert (k : outU False (good geo (x_robot x)) (walk_joint dc d f n ix l v) rt) end.
  { subst rt. apply walk_sim.
    - intros v1 v2 (e & _). exact e.
    - intros v1 v2 n j hA _. eexists; split; [reflexivity|]. auto.
    - intros r d n j hg ej. unfold finite_fixed, x_sf_finish, sf_finish.
      destruct (type_of (j_type j)) as [t|] eqn:et.
      + destruct t; try (rewrite <- (proj1 hg) in ej; destruct (find_el geo r n j (proj1 (proj2 hg)) ej) as (pt & e1 & e2 & _);
          rewrite e1, (type_el _ _ e2), et; cbn [rbind]; eexists; split; [reflexivity|exact hg]).
        destruct (finite_squash L d j) eqn:es; [|intros []]. destruct (good_squash L geo _ r d n j hg ej es) as (pt & e1 & e2 & e3).
        rewrite e1, (type_el _ _ e2), et. cbn [rbind]. destruct (squash_joint d j); cbn in *; auto.
      + rewrite <- (proj1 hg) in ej; destruct (find_el geo r n j (proj1 (proj2 hg)) ej) as (pt & e1 & e2 & _). rewrite e1, (type_el _ _ e2), et. exact eq_refl.
    - apply good_refl, h. }
  apply (outU_False _ _ _ hf) in k. destruct rt as [d| | |]; cbn [outcome rbind] in *; try (rewrite k; reflexivity).
  destruct k as (r & -> & g). cbn [rbind]. eexists; split; [reflexivity|now apply good_becomes].
Qed.


Lemma C76_massless_proof : forall L geo x, readable_doc geo (x_robot x) -> fin_massless_walk L (x_tree geo x) ->
  outcome (becomes_with geo x) (x_makeMasslessJointsFixed L geo x) (@makeMasslessJointsFixed f64 (F64Scalar L) (x_tree geo x)).
Proof.
  intros L geo x h hf. unfold fin_massless_walk, x_makeMasslessJointsFixed, makeMasslessJointsFixed, traverse_joints, S64 in *.
  cbn [x_tree t_doc t_ix t_root] in *.
  match type of hf with walk_joint ?dc ?d ?f' _ _ _ _ <> UB => rewrite (walk_checked _ dc d (@mm_finish f64 (F64Scalar L)) f') end; [|clear|exact hf].
  2: { intros d j hn. destruct (finite_fixed L (fst d) j); [reflexivity|now contradiction hn]. }
  match type of hf with ?w <> UB => set (rt := w) in * end.
  match goal with |- context [rbind (walk_joint ?dc ?d ?f ?n ?ix ?l ?v) _] =>
    assert (k : outU False (fun v1 v2 => good geo (x_robot x) (fst v1) (fst v2) /\ snd v1 = snd v2) (walk_joint dc d f n ix l v) rt) end.
  { subst rt. apply walk_sim.
    - intros v1 v2 ((e & _) & _). exact e.
    - intros v1 v2 n j hA _. eexists; split; [reflexivity|]. auto.
    - intros (r, l1) (d, l2) n j. cbn [fst snd]. intros (hg & ->) ej. unfold finite_fixed, x_mm_finish, mm_finish. cbn [fst snd].
      assert (ej' := ej). rewrite <- (proj1 hg) in ej'. destruct (find_el geo r n j (proj1 (proj2 hg)) ej') as (pt & e1 & e2 & _).
      destruct (type_of (j_type j)) as [t|] eqn:et; [|rewrite e1, (type_el _ _ e2), et; exact eq_refl].
      destruct (links_el _ _ e2) as (_ & n2 & _).
      destruct t; try (rewrite e1, (type_el _ _ e2), et; cbn [rbind]; rewrite n2; cbn [rbind];
        assert (kc := x_find_link geo (j_child j) _ (proj1 (proj2 hg))); rewrite (proj1 hg) in kc;
        destruct (x_find "link" (j_child j) r) as [child|]; [|rewrite kc; exact eq_refl]; destruct kc as (_ & c & c1 & c2 & c3); rewrite c3;
        assert (ki := inertial_el geo child c c1); destruct (child_at ["inertial"] child) as [cipt|];
        [destruct ki as (ci & i1 & i2); rewrite i2; eexists; split; [reflexivity|]; cbn [fst snd]; auto|];
        rewrite ki; destruct (make_doc geo r "fixed" (j_name j) (proj1 (proj2 hg))) as (r' & -> & g); cbn [rbind]; eexists; split; [reflexivity|]; cbn [fst snd];
        split; [|reflexivity]; rewrite (proj1 hg) in g; exact (good_trans _ _ _ _ _ _ hg g)).
      destruct (finite_squash L d j) eqn:es; [|intros []]. destruct (good_squash L geo _ r d n j hg ej es) as (pt' & e1' & e2' & e3).
      rewrite e1 in e1'. injection e1' as <-. rewrite e1, (type_el _ _ e2), et. cbn [rbind].
      destruct (squash_joint d j) as [d'| | |]; cbn [outcome outU rbind] in *; try (rewrite e3; auto).
      destruct e3 as (r' & -> & g). cbn [rbind]. eexists; split; [reflexivity|]. auto.
    - split; [apply good_refl, h|reflexivity]. }
  apply (outU_False _ _ _ hf) in k. destruct rt as [(d, l2)| | |]; cbn [outcome rbind] in *; try (rewrite k; reflexivity).
  destruct k as ((r, l1) & -> & g & gl). cbn [rbind fst snd] in *. eexists; split; [reflexivity|]. split; [now apply good_becomes|exact gl].
Qed.


(** ** Histories *)
Lemma outcome_fst geo x rx rt : outcome (becomes_with geo x) rx rt -> outcome (becomes geo x) (rmap fst rx) (rmap fst rt).
Proof.
  intros h. destruct rt as [t| | |]; cbn in *; try (rewrite h; reflexivity). destruct h as (x' & -> & h & _). cbn. eauto.
Qed.
Lemma apply_el L geo e x : readable_doc geo (x_robot x) -> fin_edit L e (x_tree geo x) ->
  outcome (becomes geo x) (x_apply L geo e x) (apply L e (x_tree geo x)).
Proof.
  intros h hf. destruct e; cbn [x_apply apply] in *.
  - now apply C76_rm_root_proof.
  - now apply C76_rm_leaf_proof.
  - now apply C76_define_as_root_proof.
  - now apply C76_transport_proof.
  - now apply C76_make_proof.
  - now apply C76_make_proof.
  - now apply outcome_fst, C76_continuous_proof.
  - apply outcome_fst, C76_remove_proof; [exact h|]. intros pt j _ ->. reflexivity.
  - now apply C76_squash_proof.
  - now apply C76_squash_fixed_proof.
  - now apply outcome_fst, C76_massless_proof.
Qed.
Lemma NoDup_app_one {A} (l : list A) a : NoDup l -> ~ In a l -> NoDup (l ++ [a]).
Proof.
  intros h k. apply NoDup_rev in h. rewrite <- (rev_involutive (l ++ [a])). apply NoDup_rev. rewrite rev_app_distr. cbn [rev app].
  constructor; [now rewrite <- in_rev|exact h].
Qed.
Lemma ctor_doc (d : list (elem f64)) t : ctor d = Ok t -> t_doc t = d /\ NoDup (map (@j_name f64) (joints d)).
Proof.
  unfold ctor. destruct (ctor_links d []) as [names| | |]; cbn [rbind]; try discriminate. destruct names as [|n0 names]; [discriminate|].
  destruct (ctor_joints d _ [] _) as [(js, roots)| | |] eqn:e; cbn [rbind]; try discriminate.
  destruct roots as [|root [|? ?]]; try discriminate. destruct (forallb _ js); [|discriminate]. intros h. injection h as <-. split; [reflexivity|].
  assert (k : forall d names js roots r, ctor_joints d names js roots = Ok r -> NoDup (map (@j_name f64) js) -> NoDup (map (@j_name f64) (js ++ joints d))).
  { clear. induction d as [|e d IH]; intros names js roots r; cbn [ctor_joints joints flat_map].
    - rewrite app_nil_r. auto.
    - destruct e as [l|j|s]; cbn [app]; try exact (IH names js roots r).
      destruct (existsb (fun k => j_name k =? j_name j) js) eqn:ex; [discriminate|].
      destruct (negb (mem (j_parent j) names)); [discriminate|]. destruct (negb (mem (j_child j) names)); [discriminate|].
      destruct (existsb (fun k => j_child k =? j_child j) js); [discriminate|].
      match goal with |- context [rbind ?m _] => destruct m as [b| | |]; cbn [rbind]; try discriminate end. destruct b; [discriminate|].
      destruct (negb (mem (j_child j) roots)); [discriminate|]. destruct (filter _ roots) as [|r0 rs]; [discriminate|].
      intros hc hn. replace (js ++ j :: joints d)%list with ((js ++ [j]) ++ joints d)%list by (rewrite <- app_assoc; reflexivity).
      change (flat_map _ d) with (joints d). replace (js ++ j :: joints d)%list with ((js ++ [j]) ++ joints d)%list by (rewrite <- app_assoc; reflexivity).
      refine (IH _ _ _ _ hc _). rewrite map_app. cbn [map]. apply NoDup_app_one; [exact hn|]. intros hi. apply in_map_iff in hi. destruct hi as (k & ek & hk).
      assert (existsb (fun k => j_name k =? j_name j) js = true); [|congruence]. apply existsb_exists. exists k. split; [exact hk|]. now apply String.eqb_eq. }
  exact (k _ _ _ _ _ e (NoDup_nil _)).
Qed.

Lemma C76_history_proof : forall L geo robot es, Forall (readable geo) (pt_kids robot) ->
  match ctor (doc_of geo robot) with
  | Ok t => exists x, x_ctor geo robot = Ok x /\ x_robot x = robot /\ x_tree geo x = t
            /\ (fin_run L es t -> outcome (becomes geo x) (x_run L geo es x) (run L es t))
  | r => x_ctor geo robot = cast r
  end.
Proof.
  intros L geo robot es h. unfold x_ctor. destruct (ctor (doc_of geo robot)) as [t| | |] eqn:e; cbn [rbind]; try reflexivity.
  eexists; split; [reflexivity|]. split; [reflexivity|]. apply ctor_doc in e. destruct e as (e & hn).
  set (x := mkX robot (t_ix t) (t_root t)). assert (ex : x_tree geo x = t) by (unfold x_tree; cbn; rewrite <- e; now destruct t).
  split; [exact ex|]. rewrite <- ex. assert (hr : readable_doc geo (x_robot x)) by (split; assumption). clearbody x. clear -hr.
  revert x hr. induction es as [|a es IH]; intros x hr hf; cbn [run x_run].
  - exists x. split; [reflexivity|now apply becomes_refl].
  - cbn [fin_run] in hf. destruct hf as (hf1 & hf2). assert (k := apply_el L geo a x hr hf1).
    destruct (apply L a (x_tree geo x)) as [t1| | |]; cbn [outcome rbind] in *; try (rewrite k; reflexivity).
    destruct k as (x1 & -> & k2). cbn [rbind]. specialize (hf2 _ eq_refl). rewrite <- (proj1 k2) in hf2.
    specialize (IH x1 (proj1 (proj2 k2)) hf2). rewrite (proj1 k2) in IH.
    destruct (run L es t1); cbn [outcome] in *; try exact IH.
    destruct IH as (x2 & i1 & i2). exists x2. split; [exact i1|]. exact (becomes_trans _ _ _ _ _ _ k2 i2).
Qed.


(** ** The texts between the elements *)
Lemma texts_refl r : same_texts r r.
Proof. split; [reflexivity|]. eauto. Qed.
Lemma texts_trans r s t : same_texts r s -> same_texts s t -> same_texts r t.
Proof.
  intros (h1 & h2) (g1 & g2). split; [congruence|]. intros c hc. destruct (g2 c hc) as (b & hb & e1 & e2).
  destruct (h2 b hb) as (a & ha & f1 & f2). exists a. split; [exact ha|]. split; congruence.
Qed.
Lemma put_kid_text k f pt : pt_data (Model_Anim.put_kid k f pt) = pt_data pt.
Proof. reflexivity. Qed.
Lemma put_at_text p f pt : p <> [] -> pt_data (put_at p f pt) = pt_data pt.
Proof. destruct p; [congruence|]. reflexivity. Qed.
Ltac bind_inv h := match type of h with rbind ?m _ = Ok _ => let e := fresh "e" in destruct m as [?| | |] eqn:e; cbn [rbind] in h; try discriminate h end.
Lemma mapM_texts (F : string * ptree -> res (string * ptree)) : (forall c c', F c = Ok c' -> fst c' = fst c /\ pt_data (snd c') = pt_data (snd c)) ->
  forall l l', mapM F l = Ok l' -> forall c', In c' l' -> exists c, In c l /\ fst c = fst c' /\ pt_data (snd c) = pt_data (snd c').
Proof.
  intros hF. induction l as [|c l IH]; intros l' h; cbn [mapM] in h.
  - injection h as <-. intros c' [].
  - bind_inv h. bind_inv h. injection h as <-. intros c' [<-|hc].
    + destruct (hF _ _ e) as (e1 & e2). exists c. cbn [In]. auto.
    + destruct (IH _ eq_refl _ hc) as (b & hb & e1). exists b. cbn [In]. auto.
Qed.
Lemma upd_texts key n f robot r : (forall pt pt', f pt = Ok pt' -> pt_data pt' = pt_data pt) -> x_upd key n f robot = Ok r -> same_texts robot r.
Proof.
  intros hf h. unfold x_upd in h. bind_inv h. injection h as <-. split; [reflexivity|]. cbn [set_kids pt_kids].
  revert e. apply mapM_texts. intros c c' hc. destruct (is_el key n c); [|injection hc as <-; auto]. bind_inv hc. injection hc as <-. eauto.
Qed.
Lemma rm_texts key n robot : same_texts robot (x_rm key n robot).
Proof. split; [reflexivity|]. cbn [x_rm set_kids pt_kids]. intros c hc. apply filter_In in hc. destruct hc. eauto. Qed.
Lemma premul_text L lhs ilhs np pt pt' : el_premul L lhs ilhs np pt = Ok pt' -> pt_data pt' = pt_data pt.
Proof.
  unfold el_premul. destruct (negb _); [discriminate|]. intros h. bind_inv h. destruct (pose_eqb _ _).
  - destruct np; injection h as <-; reflexivity.
  - destruct (pose_to_ptree _); [|discriminate]. injection h as <-. reflexivity.
Qed.
Lemma transport_text L lhs ilhs pt pt' : el_transport L lhs ilhs pt = Ok pt' -> pt_data pt' = pt_data pt.
Proof. unfold el_transport. intros h. do 3 bind_inv h. injection h as <-. reflexivity. Qed.
Lemma flip_links_text pt pt' : el_flip_links pt = Ok pt' -> pt_data pt' = pt_data pt.
Proof. unfold el_flip_links. intros h. do 2 bind_inv h. injection h as <-. reflexivity. Qed.
Lemma flip_axis_text L pt pt' : el_flip_axis L pt = Ok pt' -> pt_data pt' = pt_data pt.
Proof.
  unfold el_flip_axis. intros h. bind_inv h. destruct a; try (injection h as <-; reflexivity); destruct (a_eqb _ _); injection h as <-; reflexivity.
Qed.
Lemma make_text type pt pt' : Ok (el_make type pt) = Ok pt' -> pt_data pt' = pt_data pt.
Proof. intros h. injection h as <-. reflexivity. Qed.
Lemma find_texts n r k : x_find "joint" n r = Some k -> In ("joint", k) (pt_kids r).
Proof.
  unfold x_find. destruct (find _ _) as [[a b]|] eqn:e; [|discriminate]. cbn. intros h. injection h as <-. apply find_some in e. destruct e as (e1 & e2).
  unfold is_el in e2. cbn [fst] in e2. apply andb_true_iff in e2. destruct e2 as (e2 & _). apply String.eqb_eq in e2. now subst a.
Qed.
Lemma x_transport_texts L geo x pose np x' : x_transport L geo x pose np = Ok x' -> same_texts (x_robot x) (x_robot x').
Proof.
  unfold x_transport. destruct (find_link _ _); [|discriminate]. intros h. bind_inv h. injection h as <-. cbn [x_robot]. split; [reflexivity|]. cbn [set_kids pt_kids].
  revert e. apply mapM_texts. intros c c' hc. destruct (String.eqb (fst c) "joint").
  - destruct (el_name (snd c)); try (injection hc as <-; auto). destruct (mem _ _); [|injection hc as <-; auto]. bind_inv hc. injection hc as <-. cbn. split; [reflexivity|]. eapply premul_text; eassumption.
  - destruct (is_el _ _ _); [|injection hc as <-; auto]. bind_inv hc. injection hc as <-. cbn. split; [reflexivity|]. eapply transport_text; eassumption.
Qed.
Lemma const_texts n k k' r r' : In ("joint", k) (pt_kids r) -> pt_data k' = pt_data k -> x_upd "joint" n (fun _ => Ok k') r = Ok r' -> same_texts r r'.
Proof.
  intros hk hd h. unfold x_upd in h. bind_inv h. injection h as <-. split; [reflexivity|]. cbn [set_kids pt_kids]. rename a into l', e into em. revert l' em.
  assert (q : forall l, incl l (pt_kids r) -> forall l', mapM (fun c : string * ptree => if is_el "joint" n c then Ok (fst c, k') else Ok c) l = Ok l' ->
    forall c', In c' l' -> exists c, In c (pt_kids r) /\ fst c = fst c' /\ pt_data (snd c) = pt_data (snd c')).
  { induction l as [|c l IH]; intros hi l' h; cbn [mapM] in h.
    - injection h as <-. intros c' [].
    - destruct (is_el "joint" n c) eqn:ec; cbn [rbind] in h; bind_inv h; injection h as <-; intros c' [<-|hc].
      + exists ("joint", k). cbn [fst snd]. split; [exact hk|]. split; [|now rewrite hd].
        unfold is_el in ec. apply andb_true_iff in ec. destruct ec as (ec & _). apply String.eqb_eq in ec. now symmetry.
      + apply (IH (fun y hy => hi y (or_intror hy)) _ eq_refl _ hc).
      + exists c. split; [apply hi; left; reflexivity|auto].
      + apply (IH (fun y hy => hi y (or_intror hy)) _ eq_refl _ hc). }
  intros l' h. apply (q _ (incl_refl _) _ h).
Qed.
Lemma x_flip_texts L geo x n ex x' : x_flip L geo x n ex = Ok x' -> same_texts (x_robot x) (x_robot x').
Proof.
  unfold x_flip. destruct (x_find _ _ _) as [pt|]; [|discriminate]. intros h. bind_inv h. destruct (negb _); [discriminate|]. bind_inv h. bind_inv h.
  assert (t1 : same_texts (x_robot x) (x_robot a1)).
  { destruct a0; [eapply x_transport_texts; eassumption|]. injection e1 as <-. apply texts_refl. }
  destruct (existsb _ _); [discriminate|]. bind_inv h. apply upd_texts in e2; [|exact flip_links_text].
  destruct (x_find "joint" n a2) as [k|] eqn:ek; [|discriminate]. bind_inv h. bind_inv h. bind_inv h. injection h as <-. cbn [x_robot].
  apply find_texts in ek. apply flip_axis_text in e4. apply (texts_trans _ _ _ t1). apply (texts_trans _ _ _ e2). eapply const_texts; eassumption.
Qed.
Lemma x_flip_all_texts L geo l : forall x x', x_flip_all L geo x l = Ok x' -> same_texts (x_robot x) (x_robot x').
Proof.
  induction l as [|n l IH]; intros x x' h; cbn [x_flip_all] in h; [injection h as <-; apply texts_refl|].
  bind_inv h. apply x_flip_texts in e. exact (texts_trans _ _ _ e (IH _ _ h)).
Qed.
Lemma rm_leaf_texts geo x n x' : x_rm_leaf_joint geo x n = Ok x' -> same_texts (x_robot x) (x_robot x').
Proof.
  unfold x_rm_leaf_joint. destruct (find_joint _ _); [|discriminate]. destruct (children _ _ _); [|discriminate]. destruct (find_link _ _); [|discriminate].
  intros h. injection h as <-. cbn [x_robot]. eapply texts_trans; apply rm_texts.
Qed.
Lemma rm_leaves_texts geo l : forall x x', x_rm_leaves geo x l = Ok x' -> same_texts (x_robot x) (x_robot x').
Proof.
  induction l as [|n l IH]; intros x x' h; cbn [x_rm_leaves] in h; [injection h as <-; apply texts_refl|].
  bind_inv h. apply rm_leaf_texts in e. exact (texts_trans _ _ _ e (IH _ _ h)).
Qed.
Lemma walk_keeps {V} (doc : V -> list (elem f64)) disc fin (I : V -> Prop) :
  (forall v j v' b, I v -> disc v j = Ok (v', b) -> I v') -> (forall v j v', I v -> fin v j = Ok v' -> I v') ->
  forall fuel ix link v v', I v -> walk_joint doc disc fin fuel ix link v = Ok v' -> I v'.
Proof.
  intros hd hf. induction fuel as [|fuel IH]; intros ix link v v' hv h; cbn [walk_joint] in h; [discriminate|].
  assert (q : forall range v, I v ->
   (fix loop (range : list string) (v : V) : res V :=
         match range with
         | [] => Ok v
         | n :: r =>
             match find_joint (doc v) n with
             | None => UB
             | Some j =>
                 let! vb := disc v j in
                 let '(v, b) := vb in
                 let! v :=
                   if b then
                     match find_joint (doc v) n with
                     | None => UB
                     | Some j => walk_joint doc disc fin fuel ix (j_child j) v
                     end
                   else Ok v in
                 match find_joint (doc v) n with
                 | None => UB
                 | Some j => let! v := fin v j in loop r v
                 end
             end
         end) range v = Ok v' -> I v').
  { clear h hv v. induction range as [|n r IHr]; intros v hv h; [injection h as <-; exact hv|].
    destruct (find_joint (doc v) n); [|discriminate]. bind_inv h. destruct a as [w b].
    assert (hw := hd _ _ _ _ hv e). bind_inv h. rename a into u.
    assert (hu : I u).
    { destruct b; [|injection e0 as <-; exact hw]. destruct (find_joint (doc w) n); [|discriminate]. eapply IH; eassumption. }
    destruct (find_joint (doc u) n); [|discriminate]. bind_inv h. eapply IHr; [|exact h]. eapply hf; eassumption. }
  eapply q; eassumption.
Qed.
Lemma x_squash_texts L robot joint r : x_squash_joint L robot joint = Ok r -> same_texts robot r.
Proof.
  unfold x_squash_joint. intros h. bind_inv h. destruct (x_find _ _ _); [|discriminate]. destruct (child_at _ _); [|injection h as <-; apply texts_refl].
  bind_inv h. destruct (x_find _ _ _); [|discriminate]. bind_inv h. bind_inv h. apply upd_texts in e2; [|intros pt pt' q; injection q as <-; reflexivity].
  apply upd_texts in h; [|intros pt pt' q; injection q as <-; reflexivity]. exact (texts_trans _ _ _ e2 h).
Qed.
Lemma edit_texts L geo e x x' : x_apply L geo e x = Ok x' -> same_texts (x_robot x) (x_robot x').
Proof.
  assert (rf : forall (m : res (xtree * list string)), rmap fst m = Ok x' -> exists l, m = Ok (x', l)).
  { intros [[a b]| | |] h; try discriminate. injection h as <-. eauto. }
  assert (mk : forall type n, x_make type x n = Ok x' -> same_texts (x_robot x) (x_robot x')).
  { intros type n h. unfold x_make in h. destruct (x_find _ _ _); [|discriminate]. bind_inv h. injection h as <-. cbn [x_robot]. eapply upd_texts; [|exact e0]. apply make_text. }
  destruct e; cbn [x_apply]; intros h.
  - unfold x_rm_root_joint in h. destruct (children _ _ _) as [|? [|? ?]]; try discriminate. destruct (find_joint _ _); [|discriminate]. destruct (find_link _ _); [|discriminate].
    injection h as <-. cbn [x_robot]. eapply texts_trans; apply rm_texts.
  - eapply rm_leaf_texts; eassumption.
  - unfold x_define_as_root_link in h. bind_inv h. eapply x_flip_all_texts; eassumption.
  - eapply x_transport_texts; eassumption.
  - eapply mk; eassumption.
  - eapply mk; eassumption.
  - apply rf in h. destruct h as (l & h). unfold x_makeContinuousJointsFixed in h. bind_inv h. injection h as <- <-. cbn [x_robot].
    revert e. apply (walk_keeps _ _ _ (fun v => same_texts (x_robot x) (fst v))); [|intros v j v' hv hh; injection hh as <-; exact hv|apply texts_refl].
    intros v j v' b hv hh. unfold x_mcf_discover in hh. destruct (x_find _ _ _); [|discriminate]. bind_inv hh.
    destruct a0; try (injection hh as <- <-; exact hv). bind_inv hh. injection hh as <- <-. cbn [fst].
    eapply texts_trans; [exact hv|]. eapply upd_texts; [|eassumption]. apply make_text.
  - apply rf in h. destruct h as (l & h). unfold x_removeSubTreeIfJoint in h. bind_inv h. bind_inv h. injection h as <- <-. eapply rm_leaves_texts; eassumption.
  - unfold x_squashJointMass in h. destruct (x_find _ _ _); [|discriminate]. bind_inv h. injection h as <-. cbn [x_robot]. eapply x_squash_texts; eassumption.
  - unfold x_squashFixedJointsMass in h. bind_inv h. injection h as <-. cbn [x_robot].
    revert e. apply (walk_keeps _ _ _ (fun v => same_texts (x_robot x) v)); [intros v j v' b hv hh; injection hh as <- <-; exact hv| |apply texts_refl].
    intros v j v' hv hh. unfold x_sf_finish in hh. destruct (x_find _ _ _); [|discriminate]. bind_inv hh.
    destruct a0; try (injection hh as <-; exact hv). eapply texts_trans; [exact hv|]. eapply x_squash_texts; eassumption.
  - apply rf in h. destruct h as (l & h). unfold x_makeMasslessJointsFixed in h. bind_inv h. injection h as <- <-. cbn [x_robot].
    revert e. apply (walk_keeps _ _ _ (fun v => same_texts (x_robot x) (fst v))); [intros v j v' b hv hh; injection hh as <- <-; exact hv| |apply texts_refl].
    intros v j v' hv hh. unfold x_mm_finish in hh. destruct (x_find _ _ _); [|discriminate]. bind_inv hh.
    destruct a0;
      first [ solve [bind_inv hh; injection hh as <-; cbn [fst]; eapply texts_trans; [exact hv|]; eapply x_squash_texts; eassumption]
            | bind_inv hh; destruct (x_find _ _ _); [|discriminate]; destruct (child_at _ _); [injection hh as <-; exact hv|]; bind_inv hh; injection hh as <-; cbn [fst];
              eapply texts_trans; [exact hv|]; eapply upd_texts; [|eassumption]; apply make_text ].
Qed.

Lemma C76_text_proof : forall L geo es x x', x_run L geo es x = Ok x' -> same_texts (x_robot x) (x_robot x').
Proof.
  intros L geo. induction es as [|e es IH]; intros x x' h; cbn [x_run] in h; [injection h as <-; apply texts_refl|].
  bind_inv h. apply edit_texts in e0. exact (texts_trans _ _ _ e0 (IH _ _ h)).
Qed.


(** ** Tests, for the examples *)
Definition is_ok {A} (r : res A) : bool := match r with Ok _ => true | _ => false end.
Lemma is_ok_ex {A} (r : res A) : is_ok r = true -> exists a, r = Ok a.
Proof. destruct r; cbn; try discriminate. eauto. Qed.
Definition readable_b geo (c : string * ptree) : bool :=
  (if String.eqb (fst c) "joint" then is_ok (joint_of (snd c)) else true)
  && (if String.eqb (fst c) "link" then is_ok (link_of geo (snd c)) && (List.length (kids_named "inertial" (snd c)) <=? 1)%nat else true).
Lemma readable_test geo c : readable_b geo c = true -> readable geo c.
Proof.
  unfold readable_b. rewrite andb_true_iff. intros (h1 & h2). split; intros e; rewrite e in *; cbn [String.eqb Ascii.eqb Bool.eqb] in *.
  - now apply is_ok_ex.
  - apply andb_true_iff in h2. destruct h2 as (h2 & h3). split; [now apply is_ok_ex|now apply Nat.leb_le].
Qed.
Definition fin_origin_b (o : option (Pose f64)) : bool := match o with Some p => finite3 (p_xyz p) && finite3 (p_rpy p) | None => true end.
Lemma fin_origin_test o : fin_origin_b o = true -> fin_origin o.
Proof.
  destruct o as [p|]; [|intros _; exact Logic.I]. cbn [fin_origin_b fin_origin]. rewrite andb_true_iff. intros (h1 & h2). split; now apply finite3_fin.
Qed.
Definition fin_elem_b (e : elem f64) : bool :=
  match e with
  | EJoint j => fin_origin_b (j_origin j)
  | ELink l => match l_inertial l with Some i => finite_inertial i | None => true end && forallb (fun s => fin_origin_b (sh_origin s)) (l_visuals l ++ l_collisions l)
  | EOther _ => true
  end.
Lemma fin_doc_test d : forallb fin_elem_b d = true -> fin_doc d.
Proof.
  intros h. apply Forall_forall. intros e he. rewrite forallb_forall in h. specialize (h e he). destruct e as [l|j|s]; cbn in *; [|now apply fin_origin_test|exact Logic.I].
  apply andb_true_iff in h. destruct h as (h1 & h2). split; [destruct (l_inertial l); [now apply finite_inertial_fin|exact Logic.I]|].
  intros s hs. rewrite forallb_forall in h2. apply fin_origin_test, h2, hs.
Qed.
Section Tests.
Context (L : libm64).
Local Instance S64t : Scalar f64 := F64Scalar L.
Definition after {A} (r : res A) (k : A -> bool) : bool := match r with Ok a => k a | _ => true end.
Definition fin_flip_b (t : tree f64) n ex : bool :=
  match find_joint (t_doc t) n with
  | Some j => match j_origin j with
              | Some o => after (transport_root_link_frame t o (fun m => ex && String.eqb m n)) (fun t1 => forallb fin_elem_b (t_doc t1))
              | None => true
              end
  | None => true
  end.
Fixpoint fin_flips_b (t : tree f64) (names : list string) : bool :=
  match names with
  | [] => true
  | n :: r => let ex := match r with [] => false | _ => true end in
      fin_flip_b t n ex && after (flip_root_link_joint t n ex) (fun t' => fin_flips_b t' r)
  end.
Definition fin_edit_b (e : edit) (t : tree f64) : bool :=
  match e with
  | DefineAsRoot l => after (path_to_root (Datatypes.S (List.length (joints (t_doc t)))) t l) (fun p => fin_flips_b t (rev p))
  | TransportRoot o => after (transport_frame t o) (fun t' => forallb fin_elem_b (t_doc t'))
  | SquashMass n => match find_joint (t_doc t) n with Some j => finite_squash L (t_doc t) j | None => true end
  | SquashFixed => match traverse_joints t (fun d => d) (fun d _ => Ok (d, true)) (fun d j => if finite_fixed L d j then sf_finish d j else UB) (t_doc t) with UB => false | _ => true end
  | MakeMasslessFixed => match traverse_joints t fst (fun v _ => Ok (v, true)) (fun v j => if finite_fixed L (fst v) j then mm_finish v j else UB) (t_doc t, []) with UB => false | _ => true end
  | _ => true
  end.
Fixpoint fin_run_b (es : list edit) (t : tree f64) : bool :=
  match es with [] => true | e :: r => fin_edit_b e t && after (apply L e t) (fun t' => fin_run_b r t') end.
Lemma after_ok {A} (r : res A) k a : after r k = true -> r = Ok a -> k a = true.
Proof. intros h ->. exact h. Qed.
Lemma fin_flip_test t n ex : fin_flip_b t n ex = true -> fin_flip L t n ex.
Proof. unfold fin_flip_b. intros h j o t1 e1 e2 e3. rewrite e1, e2 in h. apply fin_doc_test. exact (after_ok _ _ _ h e3). Qed.
Lemma fin_flips_test names : forall t, fin_flips_b t names = true -> fin_flips L t names.
Proof.
  induction names as [|n r IH]; intros t; cbn [fin_flips_b fin_flips]; [auto|]. rewrite andb_true_iff. intros (h1 & h2).
  split; [now apply fin_flip_test|]. intros t' e. apply IH. exact (after_ok _ _ _ h2 e).
Qed.
Lemma fin_run_test es : forall t, fin_run_b es t = true -> fin_run L es t.
Proof.
  induction es as [|e r IH]; intros t; cbn [fin_run_b fin_run]; [auto|]. rewrite andb_true_iff. intros (h1 & h2).
  split; [|intros t' e'; apply IH; exact (after_ok _ _ _ h2 e')]. clear h2 IH.
  destruct e; cbn [fin_edit_b fin_edit] in *; try exact Logic.I.
  - intros p e. apply fin_flips_test. exact (after_ok _ _ _ h1 e).
  - intros t' e. apply fin_doc_test. exact (after_ok _ _ _ h1 e).
  - intros j e. now rewrite e in h1.
  - unfold fin_squash_walk. intros e. unfold S64, S64t in *. rewrite e in h1. discriminate.
  - unfold fin_massless_walk. intros e. unfold S64, S64t in *. rewrite e in h1. discriminate.
Qed.
End Tests.

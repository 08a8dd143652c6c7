(** * Lemmas for Props_Mesh *)

From Coq Require Import Reals List ZArith Bool Arith Lia Lra.
From Coq Require Import Znumtheory.
Import ListNotations.
From Verif Require Import Scalar RInst RLemmas Model_Mesh Spec_Mesh.
Local Open Scope Z_scope.


Definition mk {T} (tex : bool) (b : Buffers T) (mode : option Mode) (vc : Z) (cn ct : option Z) : Mesh T :=
  mkMesh tex (flat3 (points b)) (flat3 (normals b)) (flat2 (texcoords b)) (flatv tex (vertices b)) (counts b) mode vc cn ct.

Lemma flat3_length : forall T (l : list (T * T * T)), length (flat3 l) = (length l * 3)%nat.
Proof. intros T l. unfold flat3. induction l as [|a l IH]; cbn [flat_map length app]; [reflexivity|]. rewrite IH. lia. Qed.
Lemma flat2_length : forall T (l : list (T * T)), length (flat2 l) = (length l * 2)%nat.
Proof. intros T l. unfold flat2. induction l as [|a l IH]; cbn [flat_map length app]; [reflexivity|]. rewrite IH. lia. Qed.
Lemma flatv_length : forall tex l, length (flatv tex l) = (length l * (if tex then 3 else 2))%nat.
Proof. intros tex l. unfold flatv. induction l as [|a l IH]; [reflexivity|]. cbn [flat_map length]. rewrite app_length, IH. destruct tex; cbn; lia. Qed.
Lemma flat3_snoc : forall T (l : list (T * T * T)) x y z, flat3 (l ++ [(x, y, z)]) = flat3 l ++ [x; y; z].
Proof. intros. unfold flat3. rewrite flat_map_app. reflexivity. Qed.
Lemma flat2_snoc : forall T (l : list (T * T)) x y, flat2 (l ++ [(x, y)]) = flat2 l ++ [x; y].
Proof. intros. unfold flat2. rewrite flat_map_app. reflexivity. Qed.
Lemma flatv_snoc : forall tex l p n t, flatv tex (l ++ [(p, n, t)]) = flatv tex l ++ (if tex then [p; n; t] else [p; n]).
Proof. intros. unfold flatv. rewrite flat_map_app. destruct tex; reflexivity. Qed.

Lemma div_mul_nat : forall n k : nat, (0 < k)%nat -> Z.of_nat (n * k) / Z.of_nat k = Z.of_nat n.
Proof. intros. rewrite Nat2Z.inj_mul. apply Z.div_mul. lia. Qed.

Section Ops.
Context {T : Type} {S : Scalar T}.
Implicit Types (b : Buffers T).

Definition addp b x y z := mkBuffers (points b ++ [(x, y, z)]) (normals b) (texcoords b) (vertices b) (counts b).
Definition addn b x y z := mkBuffers (points b) (normals b ++ [(x, y, z)]) (texcoords b) (vertices b) (counts b).
Definition addt b x y := mkBuffers (points b) (normals b) (texcoords b ++ [(x, y)]) (vertices b) (counts b).
Definition addv b p n t := mkBuffers (points b) (normals b) (texcoords b) (vertices b ++ [(p, n, t)]) (counts b).
Definition addc b l := mkBuffers (points b) (normals b) (texcoords b) (vertices b) (counts b ++ l).
Definition lenp b := Z.of_nat (length (points b)).
Definition lenn b := Z.of_nat (length (normals b)).
Definition lent b := Z.of_nat (length (texcoords b)).
Definition lenv b := Z.of_nat (length (vertices b)).

Lemma positionsNb_mk : forall (tex : bool) b mode vc cn ct, positionsNb (mk tex b mode vc cn ct) = lenp b.
Proof. intros. unfold positionsNb, mk. cbn [m_pos]. rewrite flat3_length. apply (div_mul_nat _ 3). lia. Qed.
Lemma normalsNb_mk : forall (tex : bool) b mode vc cn ct, normalsNb (mk tex b mode vc cn ct) = lenn b.
Proof. intros. unfold normalsNb, mk. cbn [m_nor]. rewrite flat3_length. apply (div_mul_nat _ 3). lia. Qed.
Lemma texCoordsNb_mk : forall (tex : bool) b mode vc cn ct, texCoordsNb (mk tex b mode vc cn ct) = lent b.
Proof. intros. unfold texCoordsNb, mk. cbn [m_texc]. rewrite flat2_length. apply (div_mul_nat _ 2). lia. Qed.

Lemma position_mk : forall (tex : bool) b mode vc cn ct x y z,
  position x y z (mk tex b mode vc cn ct) = (Ok (lenp b), mk tex (addp b x y z) mode vc cn ct).
Proof.
  intros. unfold position. cbn [mk m_tex m_pos m_nor m_texc m_vert m_vcounts m_mode m_vcount m_curN m_curT].
  rewrite <- flat3_snoc. fold (mk tex (addp b x y z) mode vc cn ct). 
  change (mkMesh tex (flat3 (points b ++ [(x, y, z)])) (flat3 (normals b)) (flat2 (texcoords b)) (flatv tex (vertices b)) (counts b) mode vc cn ct)
    with (mk tex (addp b x y z) mode vc cn ct). rewrite positionsNb_mk. unfold lenp, addp. cbn [points]. rewrite app_length. cbn [length].
  do 2 f_equal. lia.
Qed.

Lemma normal_mk : forall (tex : bool) b mode vc cn ct x y z, near_unit x y z = true ->
  normal x y z (mk tex b mode vc cn ct) = (Ok (lenn b), mk tex (addn b x y z) mode vc (Some (lenn b)) ct).
Proof.
  intros tex b mode vc cn ct x y z h. unfold normal. unfold near_unit in h. rewrite h.
  cbn [mk m_tex m_pos m_nor m_texc m_vert m_vcounts m_mode m_vcount m_curN m_curT].
  rewrite <- flat3_snoc, flat3_length, (div_mul_nat _ 3), app_length by lia. cbn [length].
  replace (Z.of_nat (length (normals b) + 1) - 1) with (lenn b) by (unfold lenn; lia). reflexivity.
Qed.

Lemma oor_true : forall i n, out_of_range i n = true <-> ~ (0 <= i < n).
Proof. intros. unfold out_of_range. rewrite orb_true_iff, Z.ltb_lt, Z.leb_le. lia. Qed.
Lemma oor_false : forall i n, out_of_range i n = false <-> 0 <= i < n.
Proof. intros. unfold out_of_range. rewrite orb_false_iff, Z.ltb_ge, Z.leb_gt. lia. Qed.

Lemma normalAt_mk : forall (tex : bool) b mode vc cn ct i, below i (normals b) ->
  normalAt i (mk tex b mode vc cn ct) = (Ok tt, mk tex b mode vc (Some i) ct).
Proof. intros tex b mode vc cn ct i h. unfold normalAt. rewrite normalsNb_mk, (proj2 (oor_false i (lenn b)) h). reflexivity. Qed.

Lemma vertex_mk : forall (tex : bool) b mode vc n ct i t, below i (points b) -> (if tex then ct else Some 0) = Some t ->
  vertex i (mk tex b (Some mode) vc (Some n) ct) = (Ok tt, mk tex (addv b i n t) (Some mode) (vc + 1) (Some n) ct).
Proof.
  intros tex b mode vc n ct i t h e. unfold vertex. rewrite positionsNb_mk, (proj2 (oor_false i (lenp b)) h).
  cbn [mk m_tex m_pos m_nor m_texc m_vert m_vcounts m_mode m_vcount m_curN m_curT]. rewrite e.
  unfold mk. cbn [addv points normals texcoords vertices counts]. rewrite flatv_snoc. reflexivity.
Qed.

Lemma sumZ_app : forall l l', sumZ (l ++ l') = sumZ l + sumZ l'.
Proof. intros. unfold sumZ. rewrite fold_right_app. induction l as [|a l IH]; cbn; [reflexivity|]. rewrite IH. lia. Qed.
Lemma sumZ_repeat : forall n k, sumZ (repeat n k) = n * Z.of_nat k.
Proof. intros. unfold sumZ. induction k as [|k IH]; [cbn; lia|]. cbn [repeat fold_right]. rewrite IH. lia. Qed.
Lemma sumZ_nonneg : forall l, (forall c, In c l -> 0 < c) -> 0 <= sumZ l.
Proof. induction l as [|a l IH]; intro h; [cbn; lia|]. cbn. generalize (h a ltac:(cbn; auto)), (IH (fun c i => h c (or_intror i))). fold (sumZ l). lia. Qed.

Lemma accumulate_sum : forall l, (forall c, In c l -> 0 < c) -> sumZ l < 2^32 -> accumulate_u l = sumZ l.
Proof.
  intro l. unfold accumulate_u.
  assert (G : forall s, 0 <= s -> (forall c, In c l -> 0 < c) -> s + sumZ l < 2^32 ->
     fold_left (fun s x => (s + x) mod 2^32) l s = s + sumZ l).
  { induction l as [|a l IH]; intros s hs hp hb; [cbn; lia|].
    cbn [fold_left]. generalize (hp a ltac:(cbn; auto)). intro ha.
    assert (hp' : forall c, In c l -> 0 < c) by (intros c i; apply hp; cbn; auto).
    generalize (sumZ_nonneg l hp'). intro hn. cbn in hb. fold (sumZ l) in hb.
    rewrite Z.mod_small by lia. rewrite IH by (auto; lia). cbn. fold (sumZ l). lia. }
  intros hp hb. rewrite G by (auto; lia). lia.
Qed.

Lemma to_int_small : forall z, 0 <= z < 2^31 -> to_int z = z.
Proof. intros z h. unfold to_int. rewrite Z.mod_small by lia. lia. Qed.

(** What end adds to the counts. *)
Definition closed (mode : Mode) (vc : Z) : list Z :=
  if vc =? 0 then [] else
  match mode with POLYGON => [vc] | TRIANGLES => repeat 3 (Z.to_nat (vc / 3)) | QUADS => repeat 4 (Z.to_nat (vc / 4)) end.
Definition complete (mode : Mode) (vc : Z) : Prop :=
  match mode with POLYGON => True | TRIANGLES => (3 | vc) | QUADS => (4 | vc) end.

Lemma closed_sum : forall mode vc, 0 <= vc -> complete mode vc -> sumZ (closed mode vc) = vc.
Proof.
  intros mode vc h c. unfold closed. destruct (Z.eqb_spec vc 0) as [->|n]; [reflexivity|].
  destruct mode; cbn [complete] in c; [cbn; lia| |];
  rewrite sumZ_repeat, Z2Nat.id by (apply Z.div_pos; lia); destruct c as [k ->]; rewrite Z.div_mul by lia; lia.
Qed.
Lemma closed_pos : forall mode vc c, 0 <= vc -> In c (closed mode vc) -> 0 < c.
Proof.
  intros mode vc c h i. unfold closed in i. destruct (Z.eqb_spec vc 0); [contradiction|].
  destruct mode; [destruct i as [<-|[]]; lia| |]; apply repeat_spec in i; lia.
Qed.

Lemma end_mk : forall (tex : bool) b mode vc cn ct, valid tex b vc -> complete mode vc -> lenv b < 2^31 ->
  end_ (mk tex b (Some mode) vc cn ct) = (Ok tt, mk tex (addc b (closed mode vc)) None 0 cn ct).
Proof.
  intros tex b mode vc cn ct [v1 [v2 [v3 v4]]] c hb. unfold lenv in hb.
  assert (hs := sumZ_nonneg (counts b) v2).
  assert (K : accumulate_u (counts b ++ closed mode vc) * (if tex then 3 else 2) =? Z.of_nat (length (flatv tex (vertices b))) = true).
  { apply Z.eqb_eq. rewrite accumulate_sum.
    - rewrite sumZ_app, closed_sum, flatv_length by assumption. destruct tex; lia.
    - intros x i. rewrite in_app_iff in i. destruct i as [i|i]; [apply v2; exact i|]. apply (closed_pos mode vc); assumption.
    - rewrite sumZ_app, closed_sum by assumption. lia. }
  unfold end_. cbn [mk m_tex m_pos m_nor m_texc m_vert m_vcounts m_mode m_vcount m_curN m_curT verticesStride].
  unfold verticesStride. cbn [m_tex mk]. unfold closed in *.
  destruct (Z.eqb_spec vc 0) as [e|e].
  - rewrite app_nil_r in K. rewrite K. unfold mk. cbn [addc points normals texcoords vertices counts]. rewrite app_nil_r. reflexivity.
  - destruct mode; cbn [complete] in c.
    + rewrite K. reflexivity.
    + assert (D : vc mod 3 =? 0 = true) by (apply Z.eqb_eq, Z.mod_divide; [lia|exact c]). rewrite D.
      rewrite to_int_small by (split; [apply Z.div_pos; lia|apply Z.div_lt_upper_bound; lia]). rewrite K. reflexivity.
    + assert (D : vc mod 4 =? 0 = true) by (apply Z.eqb_eq, Z.mod_divide; [lia|exact c]). rewrite D.
      rewrite to_int_small by (split; [apply Z.div_pos; lia|apply Z.div_lt_upper_bound; lia]). rewrite K. reflexivity.
Qed.

(** Invariant of a mesh, with its buffers. *)
Definition Inv (d : Mesh T) : Prop := exists b,
  d = mk (m_tex d) b (m_mode d) (m_vcount d) (m_curN d) (m_curT d) /\ valid (m_tex d) b (m_vcount d) /\
  (m_mode d = None -> m_vcount d = 0) /\
  (forall n, m_curN d = Some n -> below n (normals b)) /\ (forall t, m_curT d = Some t -> below t (texcoords b)).

Definition nbv (d : Mesh T) : Z := Z.of_nat (length (m_vert d)) / verticesStride d.

Lemma nbv_mk : forall (tex : bool) b mode vc cn ct, nbv (mk tex b mode vc cn ct) = lenv b.
Proof.
  intros. unfold nbv, verticesStride, mk. cbn [m_vert m_tex]. rewrite flatv_length.
  destruct tex; [apply (div_mul_nat _ 3)|apply (div_mul_nat _ 2)]; lia.
Qed.

Lemma nbv_new : forall tex, nbv (mesh_new tex) = 0.
Proof. intros []; reflexivity. Qed.

Lemma inv_mk : forall (tex : bool) b mode vc cn ct, valid tex b vc -> (mode = None -> vc = 0) ->
  (forall n, cn = Some n -> below n (normals b)) -> (forall t, ct = Some t -> below t (texcoords b)) -> Inv (mk tex b mode vc cn ct).
Proof. intros tex b mode vc cn ct v m hn ht. exists b. cbn [mk m_tex m_mode m_vcount m_curN m_curT]. auto. Qed.

Lemma below_app : forall A i (l l' : list A), below i l -> below i (l ++ l').
Proof. intros A i l l' h. unfold below in *. rewrite app_length. lia. Qed.

Lemma valid_addp : forall (tex : bool) b vc x y z, valid tex b vc -> valid tex (addp b x y z) vc.
Proof.
  intros tex b vc x y z [v1 v2]. split; [|exact v2]. intros p n t i. destruct (v1 p n t i) as [h1 h2].
  split; [|exact h2]. apply below_app. exact h1.
Qed.
Lemma valid_addn : forall (tex : bool) b vc x y z, valid tex b vc -> valid tex (addn b x y z) vc.
Proof.
  intros tex b vc x y z [v1 v2]. split; [|exact v2]. intros p n t i. destruct (v1 p n t i) as [h1 [h2 h3]].
  split; [exact h1|]. split; [apply below_app; exact h2|exact h3].
Qed.
Lemma valid_addt : forall (tex : bool) b vc x y, valid tex b vc -> valid tex (addt b x y) vc.
Proof.
  intros tex b vc x y [v1 v2]. split; [|exact v2]. intros p n t i. destruct (v1 p n t i) as [h1 [h2 h3]].
  split; [exact h1|]. split; [exact h2|]. intro e. apply below_app. auto.
Qed.
Lemma valid_addv : forall (tex : bool) b vc p n t, valid tex b vc -> below p (points b) -> below n (normals b) -> (tex = true -> below t (texcoords b)) ->
  valid tex (addv b p n t) (vc + 1).
Proof.
  intros tex b vc p n t [v1 [v2 [v3 v4]]] hp hn ht. split; [|split; [exact v2|split; [lia|]]].
  - intros p' n' t' i. cbn [addv vertices] in i. rewrite in_app_iff in i. destruct i as [i|[i|[]]]; [apply v1; exact i|].
    injection i as <- <- <-. auto.
  - cbn [addv vertices counts]. rewrite app_length. cbn [length]. lia.
Qed.
Lemma valid_addc : forall (tex : bool) b mode vc, valid tex b vc -> complete mode vc -> valid tex (addc b (closed mode vc)) 0.
Proof.
  intros tex b mode vc [v1 [v2 [v3 v4]]] c. split; [exact v1|]. split; [|split; [lia|]].
  - intros x i. cbn [addc counts] in i. rewrite in_app_iff in i. destruct i as [i|i]; [apply v2; exact i|]. apply (closed_pos mode vc); assumption.
  - cbn [addc vertices counts]. rewrite sumZ_app, closed_sum by assumption. lia.
Qed.

Lemma below_last : forall A (l : list A) x, below (Z.of_nat (length l)) (l ++ [x]).
Proof. intros. unfold below. rewrite app_length. cbn [length]. lia. Qed.

Lemma complete_dec : forall mode vc, complete mode vc \/ ~ complete mode vc.
Proof. intros [] vc; cbn [complete]; [auto| |]; destruct (Zdivide_dec 3 vc), (Zdivide_dec 4 vc); auto. Qed.

Lemma end_throw : forall (tex : bool) b mode vc cn ct, 0 <= vc -> ~ complete mode vc ->
  end_ (mk tex b (Some mode) vc cn ct) = (Throw, mk tex b (Some mode) vc cn ct).
Proof.
  intros tex b mode vc cn ct hv h. unfold end_. cbn [mk m_tex m_pos m_nor m_texc m_vert m_vcounts m_mode m_vcount m_curN m_curT].
  destruct (Z.eqb_spec vc 0) as [->|e]; [exfalso; apply h; destruct mode; cbn; [exact I| |]; exists 0; reflexivity|].
  destruct mode; cbn [complete] in h; [tauto| |].
  - assert (D : vc mod 3 =? 0 = false) by (apply Z.eqb_neq; intro k; apply h, Z.mod_divide; [lia|exact k]). rewrite D. reflexivity.
  - assert (D : vc mod 4 =? 0 = false) by (apply Z.eqb_neq; intro k; apply h, Z.mod_divide; [lia|exact k]). rewrite D. reflexivity.
Qed.

Lemma vertex_throw : forall (tex : bool) b mode vc cn ct i,
  mode = None \/ ~ below i (points b) \/ cn = None \/ (tex = true /\ ct = None) ->
  vertex i (mk tex b mode vc cn ct) = (Throw, mk tex b mode vc cn ct).
Proof.
  intros tex b mode vc cn ct i h. unfold vertex. cbn [mk m_mode]. destruct mode as [mode|]; [|reflexivity].
  rewrite positionsNb_mk. destruct (out_of_range i (lenp b)) eqn:E; [reflexivity|]. apply oor_false in E.
  cbn [mk m_curN m_curT m_tex]. destruct cn as [n|]; [|reflexivity]. destruct tex; [destruct ct as [t|]|]; try reflexivity.
  - exfalso. destruct h as [h|[h|[h|[h1 h2]]]]; try discriminate. apply h. exact E.
  - exfalso. destruct h as [h|[h|[h|[h1 h2]]]]; try discriminate. apply h. exact E.
Qed.

Definition unit_call (c : mesh_call T) : Prop := match c with CNormal x y z => near_unit x y z = true | _ => True end.

Lemma step_inv : forall c d, Inv d -> unit_call c -> nbv d < 2^31 - 1 ->
  exists r d', mesh_step c d = (r, d') /\ (r = Ok tt \/ r = Throw) /\ Inv d' /\ m_tex d' = m_tex d /\ nbv d' <= nbv d + 1.
Proof.
  intros c d [b [e [v [m [hn ht]]]]] u. remember (m_tex d) as tex. remember (m_mode d) as mode. remember (m_vcount d) as vc.
  remember (m_curN d) as cn. remember (m_curT d) as ct. clear Heqtex Heqmode Heqvc Heqcn Heqct. subst d. rewrite nbv_mk. intro hb.
  destruct c as [x y z|x y z|i|x y|i|mo|i|x y z|]; cbn [mesh_step]; cbv zeta.
  - unfold mbind. rewrite position_mk. do 2 eexists. split; [reflexivity|]. split; [auto|]. split; [|split; [reflexivity|]].
    + apply inv_mk; auto using valid_addp.
    + rewrite nbv_mk. unfold lenv. cbn. lia.
  - unfold mbind. rewrite normal_mk by exact u. do 2 eexists. split; [reflexivity|]. split; [auto|]. split; [|split; [reflexivity|]].
    + apply inv_mk; auto using valid_addn. intros n h. injection h as <-. apply below_last.
    + rewrite nbv_mk. unfold lenv. cbn. lia.
  - unfold normalAt. rewrite normalsNb_mk. destruct (out_of_range i (lenn b)) eqn:E.
    + do 2 eexists. split; [reflexivity|]. split; [auto|]. split; [apply inv_mk; auto|]. split; [reflexivity|]. rewrite nbv_mk. lia.
    + apply oor_false in E. do 2 eexists. split; [reflexivity|]. split; [auto|]. split; [|split; [reflexivity|]].
      * apply (inv_mk tex b mode vc (Some i) ct); auto. intros n h. injection h as <-. exact E.
      * rewrite <- (nbv_mk tex b mode vc (Some i) ct). cbn [mk m_tex m_pos m_nor m_texc m_vert m_vcounts m_mode m_vcount m_curT]. unfold mk. lia.
  - unfold mbind, texCoord. cbn [mk m_tex m_pos m_nor m_texc m_vert m_vcounts m_mode m_vcount m_curN m_curT].
    rewrite <- flat2_snoc, flat2_length, (div_mul_nat _ 2), app_length by lia. cbn [length].
    replace (Z.of_nat (length (texcoords b) + 1) - 1) with (lent b) by (unfold lent; lia).
    do 2 eexists. split; [reflexivity|]. split; [auto|]. split; [|split; [reflexivity|]].
    + apply (inv_mk tex (addt b x y) mode vc cn (Some (lent b))); auto using valid_addt. intros t h. injection h as <-. apply below_last.
    + rewrite <- (nbv_mk tex b mode vc cn (Some (lent b))). unfold nbv, verticesStride, mk. cbn [m_tex m_vert]. lia.
  - unfold texCoordAt. rewrite texCoordsNb_mk. destruct (out_of_range i (lent b)) eqn:E.
    + do 2 eexists. split; [reflexivity|]. split; [auto|]. split; [apply inv_mk; auto|]. split; [reflexivity|]. rewrite nbv_mk. lia.
    + apply oor_false in E. do 2 eexists. split; [reflexivity|]. split; [auto|]. split; [|split; [reflexivity|]].
      * apply (inv_mk tex b mode vc cn (Some i)); auto. intros n h. injection h as <-. exact E.
      * rewrite <- (nbv_mk tex b mode vc cn (Some i)). cbn [mk m_tex m_pos m_nor m_texc m_vert m_vcounts m_mode m_vcount m_curN]. unfold mk. lia.
  - unfold begin_. cbn [mk m_mode]. destruct mode as [mode|].
    + do 2 eexists. split; [reflexivity|]. split; [auto|]. split; [apply inv_mk; auto|]. split; [reflexivity|]. rewrite nbv_mk. lia.
    + cbn [mk m_vcount]. rewrite (m eq_refl). cbn. do 2 eexists. split; [reflexivity|]. split; [auto|]. split; [|split; [reflexivity|]].
      * apply (inv_mk tex b (Some mo) 0 cn ct); auto. rewrite <- (m eq_refl); exact v.
      * rewrite <- (nbv_mk tex b (Some mo) 0 cn ct). cbn [mk m_tex m_pos m_nor m_texc m_vert m_vcounts m_curN m_curT]. unfold mk. lia.
  - assert (Q : (mode = None \/ ~ below i (points b) \/ cn = None \/ (tex = true /\ ct = None)) \/
       (exists mo n t, mode = Some mo /\ cn = Some n /\ below i (points b) /\ (if tex then ct else Some 0) = Some t)).
    { destruct mode as [mo|]; [|auto]. destruct cn as [n|]; [|auto]. destruct (out_of_range i (lenp b)) eqn:E.
      - apply oor_true in E. auto.
      - apply oor_false in E. destruct tex; [destruct ct as [t|]|]; [|left; auto|]; right; do 3 eexists; eauto. }
    destruct Q as [Q|[mo [n [t [-> [-> [hi et]]]]]]].
    + rewrite vertex_throw by exact Q. do 2 eexists. split; [reflexivity|]. split; [auto|]. split; [apply inv_mk; auto|]. split; [reflexivity|]. rewrite nbv_mk. lia.
    + rewrite (vertex_mk tex b mo vc n ct i t) by assumption. do 2 eexists. split; [reflexivity|]. split; [auto|]. split; [|split; [reflexivity|]].
      * apply inv_mk; auto; [|discriminate]. apply valid_addv; auto. intro; subst tex. apply ht. exact et.
      * rewrite nbv_mk. unfold lenv. cbn [addv vertices]. rewrite app_length. cbn [length]. lia.
  - unfold vertexXYZ. cbn [mk m_mode]. destruct mode as [mo|].
    2:{ do 2 eexists. split; [reflexivity|]. split; [auto|]. split; [apply inv_mk; auto|]. split; [reflexivity|]. rewrite nbv_mk. lia. }
    unfold mbind. rewrite position_mk.
    assert (Q : (cn = None \/ (tex = true /\ ct = None)) \/ (exists n t, cn = Some n /\ (if tex then ct else Some 0) = Some t)).
    { destruct cn as [n|]; [|auto]. destruct tex; [destruct ct as [t|]|]; [|left; auto|]; right; do 2 eexists; eauto. }
    destruct Q as [Q|[n [t [-> et]]]].
    + rewrite vertex_throw by tauto. do 2 eexists. split; [reflexivity|]. split; [auto|].
      split; [apply inv_mk; auto using valid_addp|]. split; [reflexivity|]. rewrite nbv_mk. unfold lenv. cbn. lia.
    + rewrite (vertex_mk tex (addp b x y z) mo vc n ct (lenp b) t) by (try apply below_last; assumption).
      do 2 eexists. split; [reflexivity|]. split; [auto|]. split; [|split; [reflexivity|]].
      * apply inv_mk; auto; [|discriminate]. apply valid_addv; auto using valid_addp; [apply below_last|].
        intro; subst tex. apply ht. exact et.
      * rewrite nbv_mk. unfold lenv. cbn [addv addp vertices]. rewrite app_length. cbn [length]. lia.
  - destruct mode as [mo|].
    2:{ do 2 eexists. split; [reflexivity|]. split; [auto|]. split; [apply inv_mk; auto|]. split; [reflexivity|]. rewrite nbv_mk. lia. }
    assert (hv : 0 <= vc) by (destruct v as [_ [_ [h _]]]; exact h).
    destruct (complete_dec mo vc) as [c|c].
    + rewrite end_mk by (auto; lia). do 2 eexists. split; [reflexivity|]. split; [auto|]. split; [|split; [reflexivity|]].
      * apply inv_mk; auto. apply valid_addc; assumption.
      * rewrite nbv_mk. unfold lenv. cbn. lia.
    + rewrite end_throw by assumption. do 2 eexists. split; [reflexivity|]. split; [auto|]. split; [apply inv_mk; auto|]. split; [reflexivity|]. rewrite nbv_mk. lia.
Qed.

Lemma run_inv : forall cs d, Inv d -> (forall c, In c cs -> unit_call c) -> nbv d + Z.of_nat (length cs) < 2^31 ->
  exists d', mesh_run cs d = Ok d' /\ Inv d' /\ m_tex d' = m_tex d /\ nbv d' <= nbv d + Z.of_nat (length cs).
Proof.
  induction cs as [|c cs IH]; intros d I u hb.
  - exists d. cbn. repeat split; auto. lia.
  - cbn [mesh_run length] in *.
    destruct (step_inv c d I (u c ltac:(cbn; auto)) ltac:(lia)) as [r [d1 [e [o [I1 [t1 n1]]]]]]. rewrite e.
    destruct (IH d1 I1 (fun x i => u x (or_intror i)) ltac:(lia)) as [d' [e' [I' [t' n']]]].
    exists d'. rewrite t', t1. split; [destruct o as [-> | ->]; exact e'|]. repeat split; auto. lia.
Qed.

Lemma inv_new : forall tex, Inv (mesh_new tex).
Proof.
  intro tex. exists (mkBuffers [] [] [] [] []). split; [reflexivity|]. split.
  - split; [|split; [|split]]; cbn; try contradiction; lia.
  - split; [reflexivity|]. split; discriminate.
Qed.

Lemma inv_wf : forall d, Inv d -> well_formed d.
Proof.
  intros d [b [e [v [m _]]]]. exists b. split; [|split; assumption].
  rewrite e. repeat split.
Qed.

End Ops.

Lemma C40_well_formed_proof : forall (T : Type) (S : Scalar T) (tex : bool) (cs : list (mesh_call T)),
  Z.of_nat (length cs) < 2^31 -> (forall x y z, In (CNormal x y z) cs -> near_unit x y z = true) ->
  exists d, mesh_run cs (mesh_new tex) = Ok d /\ m_tex d = tex /\ well_formed d.
Proof.
  intros T S tex cs hb hu. destruct (run_inv cs (mesh_new tex) (inv_new tex)) as [d [e [I [t _]]]].
  - intros c i. destruct c; cbn; auto.
  - rewrite nbv_new. lia.
  - exists d. auto using inv_wf.
Qed.


Lemma C40_throws_proof : forall (T : Type) (S : Scalar T) (tex : bool) (cs : list (mesh_call T)) (c : mesh_call T) d,
  Z.of_nat (length cs) < 2^31 - 1 -> (forall x y z, In (CNormal x y z) (cs ++ [c]) -> near_unit x y z = true) ->
  mesh_run cs (mesh_new tex) = Ok d ->
  exists b, mesh_holds d b /\ (fst (mesh_step c d) = Throw <-> must_throw d b c) /\
    (fst (mesh_step c d) = Ok tt <-> ~ must_throw d b c).
Proof.
  intros T S tex cs c d hb hu hd.
  destruct (run_inv cs (mesh_new tex) (inv_new tex)) as [d0 [e0 [I [t0 n0]]]].
  { intros x i. destruct x; cbn; auto. apply hu. rewrite in_app_iff. auto. }
  { rewrite nbv_new. lia. }
  assert (d0 = d) by congruence. subst d0. clear e0.
  assert (N : nbv d < 2^31 - 1).
  { rewrite nbv_new in n0. lia. }
  assert (U : unit_call c) by (destruct c; cbn; auto; apply hu; rewrite in_app_iff; cbn; auto).
  destruct (step_inv c d I U N) as [r [d' [e [o _]]]]. rewrite e. cbn [fst].
  destruct I as [b [eb [v [m [hn ht]]]]]. exists b. split; [rewrite eb; repeat split|].
  assert (K : (r = Throw -> must_throw d b c) /\ (r = Ok tt -> ~ must_throw d b c)).
  2:{ destruct K as [k1 k2]. destruct o as [-> | ->]; split; split; intro h; try discriminate; auto; try reflexivity; exfalso; tauto. }
  clear hd n0 t0 o. remember (m_tex d) as tx. remember (m_mode d) as mode. remember (m_vcount d) as vc.
  remember (m_curN d) as cn. remember (m_curT d) as ct. clear Heqtx Heqmode Heqvc Heqcn Heqct. subst d.
  assert (R : r = fst (mesh_step c (mk tx b mode vc cn ct))) by (rewrite e; reflexivity). clear e. rewrite nbv_mk in N. subst r.
  destruct c as [x y z|x y z|i|x y|i|mo|i|x y z|]; cbn [mesh_step must_throw]; cbv zeta; unfold mbind.
  - rewrite position_mk. cbn. split; [discriminate|tauto].
  - rewrite normal_mk by exact U. cbn. split; [discriminate|tauto].
  - unfold normalAt. rewrite normalsNb_mk. destruct (out_of_range i (lenn b)) eqn:E; cbn [fst].
    + apply oor_true in E. split; [intros _; exact E|discriminate].
    + apply oor_false in E. split; [discriminate|]. intros _ h. apply h. exact E.
  - unfold texCoord. cbn. split; [discriminate|tauto].
  - unfold texCoordAt. rewrite texCoordsNb_mk. destruct (out_of_range i (lent b)) eqn:E; cbn [fst].
    + apply oor_true in E. split; [intros _; exact E|discriminate].
    + apply oor_false in E. split; [discriminate|]. intros _ h. apply h. exact E.
  - unfold begin_. cbn [mk m_mode]. destruct mode as [mode|]; cbn [fst].
    + split; [discriminate|discriminate].
    + cbn [mk m_vcount]. rewrite (m eq_refl). cbn. split; [discriminate|]. intros _ h. apply h. reflexivity.
  - cbn [mk m_mode m_curN m_curT m_tex].
    assert (Q : (mode = None \/ ~ below i (points b) \/ cn = None \/ (tx = true /\ ct = None)) \/
       (exists mo n t, mode = Some mo /\ cn = Some n /\ below i (points b) /\ (if tx then ct else Some 0) = Some t)).
    { destruct mode as [mo|]; [|auto]. destruct cn as [n|]; [|auto]. destruct (out_of_range i (lenp b)) eqn:E.
      - apply oor_true in E. auto.
      - apply oor_false in E. destruct tx; [destruct ct as [t|]|]; [|left; auto|]; right; do 3 eexists; eauto. }
    destruct Q as [Q|[mo [n [t [-> [-> [hi et]]]]]]].
    + rewrite vertex_throw by exact Q. cbn [fst]. split; [auto|discriminate].
    + rewrite (vertex_mk tx b mo vc n ct i t) by assumption. cbn [fst]. split; [discriminate|].
      intros _ [h|[h|[h|[h1 h2]]]]; try discriminate; [exact (h hi)|]. subst tx ct. discriminate.
  - unfold vertexXYZ. cbn [mk m_mode m_curN m_curT m_tex]. destruct mode as [mo|].
    2:{ cbn [fst]. split; [auto|discriminate]. }
    unfold mbind. rewrite position_mk.
    assert (Q : (cn = None \/ (tx = true /\ ct = None)) \/ (exists n t, cn = Some n /\ (if tx then ct else Some 0) = Some t)).
    { destruct cn as [n|]; [|auto]. destruct tx; [destruct ct as [t|]|]; [|left; auto|]; right; do 2 eexists; eauto. }
    destruct Q as [Q|[n [t [-> et]]]].
    + rewrite vertex_throw by tauto. cbn [fst]. split; [auto|discriminate].
    + rewrite (vertex_mk tx (addp b x y z) mo vc n ct (lenp b) t) by (try apply below_last; assumption). cbn [fst].
      split; [discriminate|]. intros _ [h|[h|[h1 h2]]]; try discriminate. subst tx ct. discriminate.
  - cbn [mk m_mode m_vcount]. destruct mode as [mo|].
    2:{ cbn [end_ fst]. split; [auto|discriminate]. }
    assert (hv : 0 <= vc) by (destruct v as [_ [_ [h _]]]; exact h).
    destruct (complete_dec mo vc) as [c|c].
    + rewrite end_mk by (auto; lia). cbn [fst]. split; [discriminate|].
      intros _ [h|[[h1 h2]|[h1 h2]]]; try discriminate; injection h1 as ->; contradiction.
    + rewrite end_throw by assumption. cbn [fst]. split; [|discriminate]. intros _.
      destruct mo; cbn [complete] in c; [tauto|right; left; auto|right; right; auto].
Qed.


Section Refinement.
Context {T : Type} {S : Scalar T}.
Implicit Types (a : AMesh T) (d : Mesh T).

Definition buf a : Buffers T :=
  mkBuffers (a_points a) (a_normals a) (a_texcoords a) (concat (a_faces a) ++ pending a) (map (fun f => Z.of_nat (length f)) (a_faces a)).
Definition amk tex a : Mesh T :=
  mk tex (buf a) (option_map fst (a_open a)) (Z.of_nat (length (pending a))) (a_curN a) (a_curT a).

Lemma represents_amk : forall tex a d, m_tex d = tex -> (represents d a <-> d = amk tex a).
Proof.
  intros tex a d e. split.
  - intros [[h1 [h2 [h3 [h4 h5]]]] [h6 [h7 [h8 h9]]]]. destruct d. cbn in *. subst. reflexivity.
  - intros ->. repeat split.
Qed.

Lemma belowb_oor : forall A i (l : list A), out_of_range i (Z.of_nat (length l)) = negb (belowb i l).
Proof. intros. unfold out_of_range, belowb. rewrite negb_andb, <- Z.ltb_antisym, <- Z.leb_antisym. reflexivity. Qed.

Lemma concat_chunks : forall A k (l : list A), (0 < k)%nat -> concat (chunks k l) = l.
Proof.
  intros A k l hk. unfold chunks.
  assert (G : forall f (l : list A), (length l <= f)%nat -> concat (chunks_aux f k l) = l).
  { induction f as [|f IH]; intros l0 h; destruct l0 as [|x l0]; cbn [length] in h; try lia; try reflexivity.
    cbn [chunks_aux concat]. rewrite IH, firstn_skipn; [reflexivity|]. rewrite skipn_length. cbn [length]. lia. }
  apply G. lia.
Qed.
Lemma length_chunks : forall A k (l : list A), (0 < k)%nat -> (length l mod k = 0)%nat ->
  map (fun f => Z.of_nat (length f)) (chunks k l) = repeat (Z.of_nat k) (length l / k)%nat.
Proof.
  intros A k l hk. unfold chunks.
  assert (G : forall f q (l : list A), (length l <= f)%nat -> (length l = q * k)%nat ->
     map (fun f => Z.of_nat (length f)) (chunks_aux f k l) = repeat (Z.of_nat k) q).
  { induction f as [|f IH]; intros q l0 h e; destruct l0 as [|x l0]; cbn [length] in h; try lia.
    - destruct q; [reflexivity|]. cbn [length] in e. nia.
    - destruct q; [reflexivity|]. cbn [length] in e. nia.
    - destruct q as [|q]; [cbn [length] in e; lia|]. cbn [chunks_aux map repeat].
      rewrite firstn_length_le by lia. f_equal. apply IH; rewrite skipn_length; cbn [length] in *; lia. }
  intro h. apply G; [lia|]. apply Nat.div_exact in h; lia.
Qed.

Lemma zmod_nat : forall n k : nat, (0 < k)%nat -> (Z.of_nat n mod Z.of_nat k =? 0) = (n mod k =? 0)%nat.
Proof.
  intros n k h. rewrite <- Nat2Z.inj_mod. destruct (Nat.eqb_spec (n mod k) 0) as [e|e]; [rewrite e; reflexivity|].
  apply Z.eqb_neq. lia.
Qed.

Lemma sumZ_lengths : forall A (l : list (list A)), sumZ (map (fun f => Z.of_nat (length f)) l) = Z.of_nat (length (concat l)).
Proof. induction l as [|x l IH]; [reflexivity|]. cbn [map concat]. rewrite app_length. cbn. fold (sumZ (map (fun f => Z.of_nat (length f)) l)). rewrite IH. lia. Qed.

Lemma accumulate_len : forall A (l : list (list A)), Z.of_nat (length (concat l)) < 2^32 ->
  accumulate_u (map (fun f => Z.of_nat (length f)) l) = Z.of_nat (length (concat l)).
Proof.
  intros A l. unfold accumulate_u. rewrite <- sumZ_lengths.
  assert (G : forall s, 0 <= s -> s + sumZ (map (fun f => Z.of_nat (length f)) l) < 2^32 ->
     fold_left (fun s x => (s + x) mod 2^32) (map (fun f => Z.of_nat (length f)) l) s = s + sumZ (map (fun f => Z.of_nat (length f)) l)).
  { induction l as [|x l IH]; intros s h1 h2; [cbn; lia|]. cbn [map fold_left]. cbn [map] in h2.
    change (sumZ (Z.of_nat (length x) :: map (fun f => Z.of_nat (length f)) l)) with (Z.of_nat (length x) + sumZ (map (fun f => Z.of_nat (length f)) l)) in *.
    assert (0 <= sumZ (map (fun f => Z.of_nat (length f)) l)) by (rewrite sumZ_lengths; lia).
    rewrite Z.mod_small by lia. rewrite IH by lia. lia. }
  intro h. rewrite G by lia. lia.
Qed.

Definition apend a : Z := Z.of_nat (length (concat (a_faces a) ++ pending a)).

Lemma end_amk : forall tex a, apend a < 2^31 ->
  end_ (amk tex a) = ((if fst (astep tex CEnd a) then Throw else Ok tt), amk tex (snd (astep tex CEnd a))).
Proof.
  intros tex a hb. unfold apend in hb. destruct a as [ps ns ts fs op cn ct]. cbn [a_faces] in hb.
  destruct op as [[mo vs]|]; [|reflexivity]. unfold pending in hb. cbn [a_open] in hb.
  unfold end_, amk, pending, buf, verticesStride.
  cbn [mk m_tex m_pos m_nor m_texc m_vert m_vcounts m_mode m_vcount m_curN m_curT a_open option_map fst a_points a_normals a_texcoords a_faces a_curN a_curT points normals texcoords vertices counts].
  unfold pending. cbn [a_open].
  assert (L : forall gs, concat gs = vs ->
    (accumulate_u (map (fun f => Z.of_nat (length f)) (fs ++ gs)) * (if tex then 3 else 2) =? Z.of_nat (length (flatv tex (concat fs ++ vs)))) = true).
  { intros gs e. apply Z.eqb_eq. rewrite accumulate_len by (rewrite concat_app, e; lia).
    rewrite concat_app, e, flatv_length. destruct tex; lia. }
  assert (F : forall gs, concat gs = vs -> mkMesh tex (flat3 ps) (flat3 ns) (flat2 ts) (flatv tex (concat fs ++ vs)) (map (fun f => Z.of_nat (length f)) (fs ++ gs)) None 0 cn ct =
     amk tex (mkAMesh ps ns ts (fs ++ gs) None cn ct)).
  { intros gs e. unfold amk, mk, buf, pending. cbn. rewrite concat_app, e, app_nil_r. reflexivity. }
  destruct vs as [|v vs]; [|set (w := v :: vs) in *; assert (W : (Z.of_nat (length w) =? 0) = false) by (apply Z.eqb_neq; cbn; lia)].
  - cbn [length Z.of_nat]. rewrite Z.eqb_refl. specialize (L [] eq_refl). specialize (F [] eq_refl). rewrite (app_nil_r fs) in L, F.
    rewrite L, F. destruct mo; cbn [astep fst snd a_open a_points a_normals a_texcoords a_faces a_curN a_curT]; rewrite (app_nil_r fs); reflexivity.
  - rewrite W. destruct mo.
    + specialize (L [w] (app_nil_r w)). specialize (F [w] (app_nil_r w)). rewrite map_app in L, F. cbn [map] in L, F. rewrite L, F. reflexivity.
    + cbn [astep a_open a_points a_normals a_texcoords a_faces a_curN a_curT]. unfold w at 5. cbn beta iota. fold w.
      generalize (zmod_nat (length w) 3 ltac:(lia)). change (Z.of_nat 3) with 3. intro Z3. rewrite Z3. destruct (length w mod 3 =? 0)%nat eqn:E; [|reflexivity].
      apply Nat.eqb_eq in E. specialize (L (chunks 3 w) (concat_chunks _ 3 w ltac:(lia))). specialize (F (chunks 3 w) (concat_chunks _ 3 w ltac:(lia))).
      rewrite map_app, (length_chunks _ 3) in L, F by (auto; lia).
      rewrite to_int_small by (rewrite app_length in hb; split; [apply Z.div_pos; lia|apply Z.div_lt_upper_bound; lia]).
      assert (Q : Z.to_nat (Z.of_nat (length w) / 3) = (length w / 3)%nat) by (change 3 with (Z.of_nat 3); rewrite <- Nat2Z.inj_div, Nat2Z.id; reflexivity).
      change (Z.of_nat 3) with 3 in L, F. rewrite Q, L, F. reflexivity.
    + cbn [astep a_open a_points a_normals a_texcoords a_faces a_curN a_curT]. unfold w at 5. cbn beta iota. fold w.
      generalize (zmod_nat (length w) 4 ltac:(lia)). change (Z.of_nat 4) with 4. intro Z4. rewrite Z4. destruct (length w mod 4 =? 0)%nat eqn:E; [|reflexivity].
      apply Nat.eqb_eq in E. specialize (L (chunks 4 w) (concat_chunks _ 4 w ltac:(lia))). specialize (F (chunks 4 w) (concat_chunks _ 4 w ltac:(lia))).
      rewrite map_app, (length_chunks _ 4) in L, F by (auto; lia).
      rewrite to_int_small by (rewrite app_length in hb; split; [apply Z.div_pos; lia|apply Z.div_lt_upper_bound; lia]).
      assert (Q : Z.to_nat (Z.of_nat (length w) / 4) = (length w / 4)%nat) by (change 4 with (Z.of_nat 4); rewrite <- Nat2Z.inj_div, Nat2Z.id; reflexivity).
      change (Z.of_nat 4) with 4 in L, F. rewrite Q, L, F. reflexivity.
Qed.

Lemma vertex_amk : forall tex i a,
  vertex i (amk tex a) = match avertex tex i a with Some a' => (Ok tt, amk tex a') | None => (Throw, amk tex a) end.
Proof.
  intros tex i a. destruct a as [ps ns ts fs op cn ct]. unfold avertex. cbn [a_open a_curN a_curT a_points].
  destruct op as [[mo vs]|].
  2:{ apply vertex_throw. auto. }
  destruct cn as [n|]; [|apply vertex_throw; auto].
  destruct (if tex then ct else Some 0) as [t|] eqn:et.
  2:{ destruct tex; [subst ct|discriminate]. apply vertex_throw. auto. }
  generalize (belowb_oor _ i ps). intro B. destruct (belowb i ps) eqn:E.
  - apply oor_false in B. unfold amk. cbn [a_open option_map fst]. 
    rewrite (vertex_mk tex _ mo _ n ct i t) by assumption. f_equal. unfold amk, mk, addv, buf, pending.
    cbn. rewrite <- app_assoc, app_length. cbn [length]. do 2 f_equal. lia.
  - apply oor_true in B. apply vertex_throw. auto.
Qed.

Lemma step_amk : forall tex c a, unit_call c -> apend a < 2^31 ->
  mesh_step c (amk tex a) = ((if fst (astep tex c a) then Throw else Ok tt), amk tex (snd (astep tex c a))).
Proof.
  intros tex c a u hb. destruct c as [x y z|x y z|i|x y|i|mo|i|x y z|]; cbn [mesh_step]; cbv zeta.
  - unfold mbind, amk at 1. rewrite position_mk. reflexivity.
  - unfold mbind, amk at 1. rewrite normal_mk by exact u. reflexivity.
  - unfold normalAt, amk at 1. rewrite normalsNb_mk. cbn [astep]. unfold lenn, buf. cbn [normals]. rewrite belowb_oor.
    destruct (belowb i (a_normals a)); reflexivity.
  - unfold mbind, texCoord, amk, mk. cbn [m_tex m_pos m_nor m_texc m_vert m_vcounts m_mode m_vcount m_curN m_curT buf texcoords].
    rewrite <- flat2_snoc, flat2_length, (div_mul_nat _ 2), app_length by lia. cbn [length].
    replace (Z.of_nat (length (a_texcoords a) + 1) - 1) with (Z.of_nat (length (a_texcoords a))) by lia. reflexivity.
  - unfold texCoordAt, amk at 1. rewrite texCoordsNb_mk. cbn [astep]. unfold lent, buf. cbn [texcoords]. rewrite belowb_oor.
    destruct (belowb i (a_texcoords a)); reflexivity.
  - unfold begin_. destruct a as [ps ns ts fs [[m vs]|] cn ct]; [reflexivity|]. cbn. unfold amk, mk, buf, pending. cbn. reflexivity.
  - rewrite vertex_amk. cbn [astep]. destruct (avertex tex i a); reflexivity.
  - unfold vertexXYZ. destruct a as [ps ns ts fs [[m vs]|] cn ct]; [|reflexivity].
    cbn [amk mk m_mode a_open option_map fst]. unfold mbind. unfold amk at 1. rewrite position_mk. unfold lenp. cbn [buf points a_points].
    match goal with |- vertex ?i ?d = _ => change d with (amk tex (mkAMesh (ps ++ [(x, y, z)]) ns ts fs (Some (m, vs)) cn ct)) end.
    rewrite vertex_amk. cbn [astep a_open a_points a_normals a_texcoords a_faces a_curN a_curT].
    destruct (avertex tex (Z.of_nat (length ps)) (mkAMesh (ps ++ [(x, y, z)]) ns ts fs (Some (m, vs)) cn ct)); reflexivity.
  - apply end_amk. exact hb.
Qed.

Lemma avertex_pend : forall tex i a a', avertex tex i a = Some a' -> apend a' = apend a + 1.
Proof.
  intros tex i a a' h. unfold avertex in h. destruct a as [ps ns ts fs [[m vs]|] cn ct]; [|discriminate]. cbn in h.
  destruct cn; [|discriminate]. destruct (if tex then ct else Some 0); [|discriminate]. destruct (belowb i ps); [|discriminate].
  injection h as <-. unfold apend, pending. cbn. rewrite !app_length. cbn. lia.
Qed.

Lemma apend_step : forall tex c a, apend (snd (astep tex c a)) <= apend a + 1.
Proof.
  intros tex c a. destruct c as [x y z|x y z|i|x y|i|mo|i|x y z|]; cbn [astep].
  1,2,4: unfold apend, pending; cbn; lia.
  1,2: destruct (belowb i _); unfold apend, pending; cbn; lia.
  - destruct a as [ps ns ts fs [[m vs]|] cn ct]; unfold apend, pending; cbn; lia.
  - destruct (avertex tex i a) eqn:E; cbn [snd]; [apply avertex_pend in E|]; lia.
  - destruct (a_open a) eqn:O; [|cbn [snd]; lia].
    match goal with |- context [avertex tex ?i ?b] => assert (P : apend b = apend a) by (unfold apend, pending; cbn; rewrite O; reflexivity); destruct (avertex tex i b) eqn:E end; cbn [snd].
    + apply avertex_pend in E. lia.
    + lia.
  - destruct a as [ps ns ts fs [[m vs]|] cn ct]; cbn [a_open]; [|cbn [snd]; lia].
    assert (K : forall gs, concat gs = vs -> apend (mkAMesh ps ns ts (fs ++ gs) None cn ct) = apend (mkAMesh ps ns ts fs (Some (m, vs)) cn ct)).
    { intros gs e. unfold apend, pending. cbn. rewrite concat_app, e, app_nil_r. reflexivity. }
    destruct vs as [|v vs].
    + cbn [snd]. specialize (K [] eq_refl). destruct m; cbn [snd]; cbn in *; lia.
    + set (w := v :: vs) in *. destruct m.
      * cbn [snd]. specialize (K [w] (app_nil_r w)). cbn in *. lia.
      * cbn [a_points a_normals a_texcoords a_faces a_curN a_curT]. destruct (length w mod 3 =? 0)%nat; cbn [snd]; [|lia]. specialize (K _ (concat_chunks _ 3 w ltac:(lia))). lia.
      * cbn [a_points a_normals a_texcoords a_faces a_curN a_curT]. destruct (length w mod 4 =? 0)%nat; cbn [snd]; [|lia]. specialize (K _ (concat_chunks _ 4 w ltac:(lia))). lia.
Qed.

Lemma run_amk : forall tex cs a, (forall c, In c cs -> unit_call c) -> apend a + Z.of_nat (length cs) <= 2^31 ->
  mesh_run cs (amk tex a) = Ok (amk tex (snd (arun tex cs a))) /\ mesh_trace cs (amk tex a) = fst (arun tex cs a).
Proof.
  induction cs as [|c cs IH]; intros a u hb; [split; reflexivity|]. cbn [mesh_run mesh_trace arun length] in *.
  rewrite step_amk by (auto using in_eq; lia). generalize (apend_step tex c a). intro P.
  destruct (astep tex c a) as [b a1]. cbn [fst snd] in *.
  destruct (IH a1 (fun x i => u x (or_intror i)) ltac:(lia)) as [h1 h2].
  destruct (arun tex cs a1) as [bs a']. cbn [fst snd] in *. destruct b; rewrite h1, h2; auto.
Qed.

End Refinement.

Lemma C40_refines_proof : forall (T : Type) (S : Scalar T) (tex : bool) (cs : list (mesh_call T)),
  Z.of_nat (length cs) < 2^31 -> (forall x y z, In (CNormal x y z) cs -> near_unit x y z = true) ->
  exists d, mesh_run cs (mesh_new tex) = Ok d /\ m_tex d = tex /\
    represents d (snd (arun tex cs anew)) /\ mesh_trace cs (mesh_new tex) = fst (arun tex cs anew).
Proof.
  intros T S tex cs hb hu.
  assert (E : mesh_new tex = amk tex (@anew T)) by reflexivity. rewrite E.
  destruct (run_amk tex cs anew) as [h1 h2].
  - intros c i. destruct c; cbn; auto.
  - unfold apend. cbn. lia.
  - eexists. split; [exact h1|]. split; [reflexivity|]. split; [apply (represents_amk tex); reflexivity|exact h2].
Qed.


Lemma C40_append_only_proof : forall (T : Type) (S : Scalar T) (cs : list (mesh_call T)) d d',
  mesh_run cs d = Ok d' -> extends d d'.
Proof.
  intros T S cs. assert (R : forall d : Mesh T, extends d d).
  { intro d. unfold extends. split; [reflexivity|]. repeat split; exists []; rewrite app_nil_r; reflexivity. }
  assert (Tr : forall d1 d2 d3 : Mesh T, extends d1 d2 -> extends d2 d3 -> extends d1 d3).
  { intros d1 d2 d3 [t1 [[p1 e1] [[p2 e2] [[p3 e3] [[p4 e4] [p5 e5]]]]]] [t2 [[q1 f1] [[q2 f2] [[q3 f3] [[q4 f4] [q5 f5]]]]]].
    unfold extends. rewrite t2, t1, f1, f2, f3, f4, f5, e1, e2, e3, e4, e5, <- !app_assoc. split; [reflexivity|]. repeat split; eexists; reflexivity. }
  assert (V : forall i (d : Mesh T), extends d (snd (vertex i d))).
  { intros i d. unfold vertex. destruct (m_mode d); [|apply R]. destruct (out_of_range _ _); [apply R|].
    destruct (m_curN d); [|apply R]. destruct (if m_tex d then m_curT d else Some 0); [|apply R].
    unfold extends. cbn. split; [reflexivity|]. repeat split; try (exists []; rewrite app_nil_r; reflexivity). eexists; reflexivity. }
  assert (St : forall c (d : Mesh T), extends d (snd (mesh_step c d))).
  { intros c d. destruct c as [x y z|x y z|i|x y|i|mo|i|x y z|]; cbn [mesh_step]; cbv zeta; unfold mbind.
    - unfold position. unfold extends. cbn. split; [reflexivity|]. repeat split; try (exists []; rewrite app_nil_r; reflexivity). eexists; reflexivity.
    - unfold normal. destruct (_ <=? _)%sc; [|apply R]. unfold extends. cbn. split; [reflexivity|]. repeat split; try (exists []; rewrite app_nil_r; reflexivity). eexists; reflexivity.
    - unfold normalAt. destruct (out_of_range _ _); [apply R|]. unfold extends. cbn. split; [reflexivity|]. repeat split; exists []; rewrite app_nil_r; reflexivity.
    - unfold texCoord. unfold extends. cbn. split; [reflexivity|]. repeat split; try (exists []; rewrite app_nil_r; reflexivity). eexists; reflexivity.
    - unfold texCoordAt. destruct (out_of_range _ _); [apply R|]. unfold extends. cbn. split; [reflexivity|]. repeat split; exists []; rewrite app_nil_r; reflexivity.
    - unfold begin_. destruct (m_mode d); [apply R|]. destruct (_ =? _); [|apply R]. unfold extends. cbn. split; [reflexivity|]. repeat split; exists []; rewrite app_nil_r; reflexivity.
    - apply V.
    - unfold vertexXYZ. destruct (m_mode d); [|apply R]. unfold mbind, position.
      eapply Tr; [|apply V]. unfold extends. cbn. split; [reflexivity|]. repeat split; try (exists []; rewrite app_nil_r; reflexivity). eexists; reflexivity.
    - unfold end_. destruct (m_mode d) as [mo|]; [|apply R].
      assert (F : forall l, extends d (mkMesh (m_tex d) (m_pos d) (m_nor d) (m_texc d) (m_vert d) (m_vcounts d ++ l) None 0 (m_curN d) (m_curT d))).
      { intro l. unfold extends. cbn. split; [reflexivity|]. repeat split; try (exists []; rewrite app_nil_r; reflexivity). eexists; reflexivity. }
      generalize (F []). rewrite app_nil_r. intro F0.
      destruct (m_vcount d =? 0); [destruct (_ =? _); exact F0|].
      destruct mo; [destruct (_ =? _); apply F| |]; (destruct (m_vcount d mod _ =? 0); [|apply R]; destruct (_ =? _); apply F). }
  induction cs as [|c cs IH]; intros d d' h; cbn [mesh_run] in h; [injection h as <-; apply R|].
  generalize (St c d). destruct (mesh_step c d) as [r d1]. cbn [snd]. intro E.
  destruct r; try discriminate; apply (Tr d d1 d' E); apply IH; exact h.
Qed.


Lemma C40_throw_unchanged_proof : forall (T : Type) (S : Scalar T) (c : mesh_call T) d d',
  mesh_step c d = (Throw, d') -> (forall x y z, c <> CVertexXYZ x y z) -> d' = d.
Proof.
  intros T S c d d' h n. destruct c as [x y z|x y z|i|x y|i|mo|i|x y z|]; cbn [mesh_step] in h; cbv zeta in h; unfold mbind in h.
  - discriminate.
  - unfold normal in h. destruct (_ <=? _)%sc; discriminate.
  - unfold normalAt in h. destruct (out_of_range _ _); congruence.
  - discriminate.
  - unfold texCoordAt in h. destruct (out_of_range _ _); congruence.
  - unfold begin_ in h. destruct (m_mode d); [congruence|]. destruct (_ =? _); congruence.
  - unfold vertex in h. destruct (m_mode d); [|congruence]. destruct (out_of_range _ _); [congruence|].
    destruct (m_curN d); [|congruence]. destruct (if m_tex d then m_curT d else Some 0); congruence.
  - exfalso. exact (n x y z eq_refl).
  - unfold end_ in h. destruct (m_mode d) as [mo|]; [|congruence]. cbv zeta in h.
    destruct (m_vcount d =? 0); [destruct (_ =? _); congruence|].
    destruct mo; [destruct (_ =? _); congruence| |]; (destruct (m_vcount d mod _ =? 0); [destruct (_ =? _); congruence|congruence]).
Qed.


Lemma C40_vertex_strong_guarantee_refuted_proof : forall (T : Type) (S : Scalar T) (x y z : T), exists d d',
  mesh_run [CBegin TRIANGLES] (mesh_new false) = Ok d /\ mesh_step (CVertexXYZ x y z) d = (Throw, d') /\
  m_pos d = [] /\ m_pos d' = [x; y; z].
Proof. intros. do 2 eexists. repeat split. Qed.


Lemma C40_accessors_proof : forall (T : Type) (d : Mesh T) (b : Buffers T) (i : Z),
  mesh_holds d b -> 0 <= i < 2^62 ->
  positionPtrAt d i = (if i <? Z.of_nat (length (points b)) then Ok (3 * i) else Throw) /\
  normalPtrAt d i = (if i <? Z.of_nat (length (normals b)) then Ok (3 * i) else Throw) /\
  texCoordPtrAt d i = (if i <? Z.of_nat (length (texcoords b)) then Ok (2 * i) else Throw) /\
  vertexPtrAt d i = (if i <? Z.of_nat (length (vertices b)) then Ok ((if m_tex d then 3 else 2) * i) else Throw) /\
  positionsNb d = Z.of_nat (length (points b)) /\ normalsNb d = Z.of_nat (length (normals b)) /\
  texCoordsNb d = Z.of_nat (length (texcoords b)) /\ verticesNb d = Z.of_nat (length (vertices b)) /\
  polygonsNb d = Z.of_nat (length (counts b)) /\
  (forall p, nth_error (points b) (Z.to_nat i) = Some p ->
     firstn 3 (skipn (Z.to_nat (3 * i)) (m_pos d)) = [fst (fst p); snd (fst p); snd p]).
Proof.
  intros T d b i [h1 [h2 [h3 [h4 h5]]]] hi.
  assert (A : forall n k, (0 < k)%nat -> (k <= 3)%nat -> vec_at (n * k) (i * Z.of_nat k mod 2^64) = (if i <? Z.of_nat n then Ok (Z.of_nat k * i) else Throw)).
  { intros n k hk hk'. unfold vec_at. rewrite Z.mod_small by nia. rewrite Nat2Z.inj_mul.
    destruct (Z.ltb_spec i (Z.of_nat n)); destruct (Z.ltb_spec (i * Z.of_nat k) (Z.of_nat n * Z.of_nat k)); try nia; try reflexivity.
    f_equal. lia. }
  unfold positionPtrAt, normalPtrAt, texCoordPtrAt, vertexPtrAt, positionsNb, normalsNb, texCoordsNb, verticesNb, polygonsNb, verticesStride.
  rewrite h1, h2, h3, h4, h5, !flat3_length, flat2_length, flatv_length.
  split; [apply (A _ 3%nat); lia|]. split; [apply (A _ 3%nat); lia|]. split; [apply (A _ 2%nat); lia|].
  split; [destruct (m_tex d); [apply (A _ 3%nat)|apply (A _ 2%nat)]; lia|].
  split; [apply (div_mul_nat _ 3); lia|]. split; [apply (div_mul_nat _ 3); lia|]. split; [apply (div_mul_nat _ 2); lia|].
  split; [destruct (m_tex d); [apply (div_mul_nat _ 3)|apply (div_mul_nat _ 2)]; lia|]. split; [reflexivity|].
  intros p hp. replace (Z.to_nat (3 * i)) with (Z.to_nat i * 3)%nat by lia. revert hp. generalize (Z.to_nat i). clear.
  induction (points b) as [|q l IH]; intros n hp; destruct n; try discriminate.
  - injection hp as <-. reflexivity.
  - cbn [Nat.mul Nat.add flat3 flat_map app skipn]. apply IH. exact hp.
Qed.


Lemma C40_accessor_wrap_refuted_proof : forall (T : Type) (d : Mesh T), (0 < length (m_pos d))%nat ->
  (exists b, mesh_holds d b) -> positionPtrAt d ((2^64 + 2) / 3) = Ok 2.
Proof.
  intros T d h [b [e _]]. unfold positionPtrAt, vec_at. change ((2^64 + 2) / 3 * 3 mod 2^64) with 2.
  rewrite e, flat3_length in *. destruct (Z.ltb_spec 2 (Z.of_nat (length (points b) * 3))); [reflexivity|lia].
Qed.


Lemma C40_asserts_proof : forall (T : Type) (S : Scalar T) (d : Mesh T) x y z (i : Z), 0 <= i ->
  (fst (normal x y z d) = Abort <-> near_unit x y z = false) /\
  (polygonVerticesCountAt d i = Abort <-> ~ below i (m_vcounts d)) /\
  (forall c, nth_error (m_vcounts d) (Z.to_nat i) = Some c -> polygonVerticesCountAt d i = Ok c).
Proof.
  intros T S d x y z i hi. split; [|split].
  - unfold normal, near_unit. destruct (_ <=? _)%sc; cbn [fst]; split; intro h; congruence.
  - unfold polygonVerticesCountAt, below. destruct (Z.ltb_spec i (Z.of_nat (length (m_vcounts d)))) as [l|l].
    + destruct (nth_error _ _); split; intro h; try discriminate; exfalso; apply h; lia.
    + split; [intros _; lia|reflexivity].
  - intros c hc. unfold polygonVerticesCountAt. rewrite hc.
    assert (L : (Z.to_nat i < length (m_vcounts d))%nat) by (apply nth_error_Some; congruence).
    rewrite (proj2 (Z.ltb_lt _ _)) by lia. reflexivity.
Qed.

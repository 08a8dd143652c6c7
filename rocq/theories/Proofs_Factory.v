(** * Lemmas for Props_Factory *)

From Coq Require Import Reals List ZArith Bool Arith Lia Lra Znumtheory FinFun Machin.
Import ListNotations.
From Verif Require Import Scalar RInst F32 RLemmas Model_Mesh Spec_Mesh Spec_Factory Proofs_Mesh.
Local Open Scope Z_scope.


(** ** Reasoning about the calls, outside and inside begin/end *)

Section Logic.
Context {T : Type} {S : Scalar T}.
Variables (tex : bool) (ts : list (T * T)) (ct : option Z) (t : Z).
Hypothesis hct : (if tex then ct else Some 0) = Some t.

Record st := mkS { sp : list (T * T * T); sn : list (T * T * T); sf : list (list (Z * Z * Z)) }.
Definition dst (s : st) (op : option (Mode * list (Z * Z * Z))) (cn : option Z) : Mesh T :=
  amk tex (mkAMesh (sp s) (sn s) ts (sf s) op cn ct).
Definition St (s : st) (d : Mesh T) : Prop := exists cn, d = dst s None cn.
Definition tri {A} (m : MM T A) (s : st) (Q : A -> st -> Prop) : Prop :=
  forall d, St s d -> exists r d' s', m d = (Ok r, d') /\ St s' d' /\ Q r s'.
Definition otri {A} (m : MM T A) (s : st) (mo : Mode) (vs : list (Z * Z * Z)) (cn : option Z) (Q : A -> st -> Prop) : Prop :=
  exists r d' s', m (dst s (Some (mo, vs)) cn) = (Ok r, d') /\ St s' d' /\ Q r s'.
Definition tv (v : Vert) : Z * Z * Z := (vp v, vn v, t).
Definition size (s : st) : Z := Z.of_nat (length (concat (sf s))).

Lemma tri_ret : forall A (a : A) s (Q : A -> st -> Prop), Q a s -> tri (mret a) s Q.
Proof. intros A a s Q h d hd. exists a, d, s. auto. Qed.
Lemma tri_ret_bind : forall A B (a : A) (k : A -> MM T B) s Q, tri (k a) s Q -> tri (mbind (mret a) k) s Q.
Proof. intros A B a k s Q h. exact h. Qed.
Lemma tri_conseq : forall A (m : MM T A) s (Q Q' : A -> st -> Prop), tri m s Q -> (forall r s', Q r s' -> Q' r s') -> tri m s Q'.
Proof. intros A m s Q Q' h i d hd. destruct (h d hd) as [r [d' [s' [e [h1 h2]]]]]. exists r, d', s'. auto. Qed.
Lemma tri_bind : forall A B (m : MM T A) (k : A -> MM T B) s Q (Q' : B -> st -> Prop),
  tri m s Q -> (forall r s', Q r s' -> tri (k r) s' Q') -> tri (mbind m k) s Q'.
Proof.
  intros A B m k s Q Q' h i d hd. destruct (h d hd) as [r [d1 [s1 [e [h1 h2]]]]].
  destruct (i r s1 h2 d1 h1) as [r' [d' [s' [e' [h1' h2']]]]]. exists r', d', s'. unfold mbind. rewrite e. auto.
Qed.

Lemma tri_pos : forall B x y z (k : Z -> MM T B) ps ns fs Q,
  tri (k (Z.of_nat (length ps))) (mkS (ps ++ [(x, y, z)]) ns fs) Q -> tri (mbind (position x y z) k) (mkS ps ns fs) Q.
Proof.
  intros B x y z k ps ns fs Q h d [cn ->]. unfold mbind, dst, amk. rewrite position_mk. apply h. exists cn. reflexivity.
Qed.
Lemma tri_nor : forall B x y z (k : Z -> MM T B) ps ns fs Q, near_unit x y z = true ->
  tri (k (Z.of_nat (length ns))) (mkS ps (ns ++ [(x, y, z)]) fs) Q -> tri (mbind (normal x y z) k) (mkS ps ns fs) Q.
Proof.
  intros B x y z k ps ns fs Q u h d [cn ->]. unfold mbind, dst, amk. rewrite normal_mk by exact u. apply h.
  exists (Some (Z.of_nat (length ns))). reflexivity.
Qed.
Lemma tri_assert : forall B b (k : unit -> MM T B) s Q, b = true -> tri (k tt) s Q -> tri (mbind (massert b) k) s Q.
Proof. intros B b k s Q -> h d hd. apply h. exact hd. Qed.
Lemma tri_assertP : forall B n i (k : unit -> MM T B) s Q, n = Z.of_nat (length (sp s)) - i -> tri (k tt) s Q ->
  tri (mbind (fun d => massert (n =? positionsNb d - i) d) k) s Q.
Proof.
  intros B n i k s Q e h d [cn ->]. unfold mbind, dst, amk. rewrite positionsNb_mk. unfold lenp. cbn [buf points a_points].
  rewrite e, Z.eqb_refl. apply h. exists cn. reflexivity.
Qed.
Lemma tri_assertN : forall B n i (k : unit -> MM T B) s Q, n = Z.of_nat (length (sn s)) - i -> tri (k tt) s Q ->
  tri (mbind (fun d => massert (n =? normalsNb d - i) d) k) s Q.
Proof.
  intros B n i k s Q e h d [cn ->]. unfold mbind, dst, amk. rewrite normalsNb_mk. unfold lenn. cbn [buf normals a_normals].
  rewrite e, Z.eqb_refl. apply h. exists cn. reflexivity.
Qed.
Lemma tri_begin : forall B mo (k : unit -> MM T B) s Q, (forall cn, otri (k tt) s mo [] cn Q) -> tri (mbind (begin_ mo) k) s Q.
Proof. intros B mo k s Q h d [cn ->]. exact (h cn). Qed.

Lemma otri_nor : forall B x y z (k : Z -> MM T B) ps ns fs mo vs cn Q, near_unit x y z = true ->
  otri (k (Z.of_nat (length ns))) (mkS ps (ns ++ [(x, y, z)]) fs) mo vs (Some (Z.of_nat (length ns))) Q ->
  otri (mbind (normal x y z) k) (mkS ps ns fs) mo vs cn Q.
Proof. intros B x y z k ps ns fs mo vs cn Q u h. unfold otri, mbind, dst, amk. rewrite normal_mk by exact u. exact h. Qed.
Lemma otri_vertex : forall B i n (k : unit -> MM T B) s mo vs Q, below i (sp s) ->
  otri (k tt) s mo (vs ++ [(i, n, t)]) (Some n) Q -> otri (mbind (vertex i) k) s mo vs (Some n) Q.
Proof.
  intros B i n k s mo vs Q u h. unfold otri, mbind, dst. rewrite vertex_amk. unfold avertex. cbn [a_open a_curN a_curT a_points].
  rewrite hct. assert (E : belowb i (sp s) = true) by (unfold belowb, below in *; apply andb_true_iff; split; [apply Z.leb_le|apply Z.ltb_lt]; lia).
  rewrite E. exact h.
Qed.
Lemma otri_vert : forall B v (k : unit -> MM T B) s mo vs cn Q, below (vp v) (sp s) -> below (vn v) (sn s) ->
  otri (k tt) s mo (vs ++ [tv v]) (Some (vn v)) Q -> otri (mbind (xAddVert v) k) s mo vs cn Q.
Proof.
  intros B v k s mo vs cn Q u1 u2 h.
  assert (K : otri (mbind (vertex (vp v)) k) s mo vs (Some (vn v)) Q) by (apply otri_vertex; [exact u1|exact h]).
  destruct K as [r [d' [s' [e h']]]]. exists r, d', s'. split; [|exact h'].
  unfold xAddVert. unfold mbind at 1 2. unfold dst, amk at 1. rewrite normalAt_mk by exact u2. exact e.
Qed.
(** One call of xAddVert, the mesh staying open. *)
Lemma xAddVert_dst : forall v s mo vs cn, below (vp v) (sp s) -> below (vn v) (sn s) ->
  xAddVert v (dst s (Some (mo, vs)) cn) = (Ok tt, dst s (Some (mo, vs ++ [tv v])) (Some (vn v))).
Proof.
  intros v s mo vs cn u1 u2. unfold xAddVert, mbind, dst, amk at 1. rewrite normalAt_mk by exact u2.
  match goal with |- vertex _ ?d = _ => change d with (amk tex (mkAMesh (sp s) (sn s) ts (sf s) (Some (mo, vs)) (Some (vn v)) ct)) end.
  rewrite vertex_amk. unfold avertex. cbn [a_open a_curN a_curT a_points]. rewrite hct.
  assert (E : belowb (vp v) (sp s) = true) by (unfold belowb, below in *; apply andb_true_iff; split; [apply Z.leb_le|apply Z.ltb_lt]; lia).
  rewrite E. reflexivity.
Qed.
Definition puts (m : MM T unit) (s : st) (V : list Vert) : Prop := forall mo vs cn, exists cn',
  m (dst s (Some (mo, vs)) cn) = (Ok tt, dst s (Some (mo, vs ++ map tv V)) cn').
Definition inr (s : st) (v : Vert) : Prop := below (vp v) (sp s) /\ below (vn v) (sn s).
Lemma puts_ret : forall s, puts (mret tt) s [].
Proof. intros s mo vs cn. exists cn. cbn. rewrite app_nil_r. reflexivity. Qed.
Lemma puts_one : forall s v, inr s v -> puts (xAddVert v) s [v].
Proof. intros s v [h1 h2] mo vs cn. exists (Some (vn v)). apply xAddVert_dst; assumption. Qed.
Lemma puts_seq : forall m k s V W, puts m s V -> puts k s W -> puts (mbind m (fun _ => k)) s (V ++ W).
Proof.
  intros m k s V W h1 h2 mo vs cn. destruct (h1 mo vs cn) as [c1 e1]. destruct (h2 mo (vs ++ map tv V) c1) as [c2 e2].
  exists c2. unfold mbind. rewrite e1, e2, map_app, app_assoc. reflexivity.
Qed.
Lemma puts_for : forall A (l : list A) body s V, (forall x, In x l -> puts (body x) s (V x)) -> puts (mfor l body) s (flat_map V l).
Proof.
  intros A l body s V h. induction l as [|x l IH]; [apply puts_ret|]. cbn [mfor flat_map].
  apply puts_seq; [apply h; cbn; auto|]. apply IH. intros y i. apply h. cbn. auto.
Qed.
Lemma otri_puts : forall B m (k : unit -> MM T B) s V mo vs cn Q, puts m s V ->
  (forall cn', otri (k tt) s mo (vs ++ map tv V) cn' Q) -> otri (mbind m k) s mo vs cn Q.
Proof.
  intros B m k s V mo vs cn Q h i. destruct (h mo vs cn) as [cn' e]. destruct (i cn') as [r [d' [s' [e' h']]]].
  exists r, d', s'. split; [|exact h']. unfold mbind. rewrite e. exact e'.
Qed.

(** The faces made of the vertices. *)
Definition face_len (mo : Mode) (f : list (Z * Z * Z)) : Prop :=
  match mo with POLYGON => f <> [] | TRIANGLES => length f = 3%nat | QUADS => length f = 4%nat end.

Lemma chunks_concat : forall A k (gs : list (list A)), (0 < k)%nat -> Forall (fun f => length f = k) gs -> chunks k (concat gs) = gs.
Proof.
  intros A k gs hk h. unfold chunks.
  assert (G : forall f (gs : list (list A)), Forall (fun f => length f = k) gs -> (length (concat gs) <= f)%nat -> chunks_aux f k (concat gs) = gs).
  { clear gs h. induction f as [|f IH]; intros gs h hl.
    - destruct h as [|x gs e h]; [reflexivity|]. cbn [concat] in hl. rewrite app_length in hl. lia.
    - destruct h as [|x gs e h]; [reflexivity|]. cbn [concat] in *. rewrite app_length in hl.
      destruct (x ++ concat gs) as [|y l] eqn:E; [destruct x; [cbn in e; lia|discriminate]|].
      cbn [chunks_aux]. rewrite <- E.
      assert (F1 : firstn k (x ++ concat gs) = x) by (rewrite firstn_app, <- e, firstn_all, Nat.sub_diag; cbn [firstn]; apply app_nil_r).
      assert (F2 : skipn k (x ++ concat gs) = concat gs) by (rewrite skipn_app, <- e, skipn_all, Nat.sub_diag; reflexivity).
      rewrite F1, F2, IH by (auto; lia). reflexivity. }
  apply G; [exact h|lia].
Qed.

Lemma len_concat : forall A k (gs : list (list A)), Forall (fun f => length f = k) gs -> (length (concat gs) = length gs * k)%nat.
Proof. induction 1 as [|x gs e h IH]; [reflexivity|]. cbn [concat length]. rewrite app_length, IH, e. lia. Qed.

Lemma end_faces : forall s mo gs cn, gs <> [] -> Forall (face_len mo) gs -> (mo = POLYGON -> length gs = 1%nat) ->
  size s + Z.of_nat (length (concat gs)) < 2^31 ->
  end_ (dst s (Some (mo, concat gs)) cn) = (Ok tt, dst (mkS (sp s) (sn s) (sf s ++ gs)) None cn).
Proof.
  intros s mo gs cn ne h one hb. unfold dst. rewrite end_amk.
  2:{ unfold apend, pending. cbn [a_faces a_open]. rewrite app_length, Nat2Z.inj_add. exact hb. }
  assert (NE : concat gs <> []).
  { destruct gs as [|f gs]; [contradiction|]. inversion h as [|x l hf hl]. subst. cbn [concat]. destruct f; [|discriminate].
    destruct mo; cbn in hf; [exfalso; exact (hf eq_refl)|discriminate|discriminate]. }
  cbn [astep a_open a_points a_normals a_texcoords a_faces a_curN a_curT sp sn sf].
  destruct mo; cbn [face_len] in h.
  - destruct gs as [|f [|g gs]]; [contradiction| |specialize (one eq_refl); cbn in one; lia].
    cbn [concat] in *. rewrite app_nil_r in *. destruct f; [contradiction|]. reflexivity.
  - rewrite (chunks_concat _ 3 gs) by (auto; lia). rewrite (len_concat _ 3 gs h), Nat.mod_mul by lia.
    destruct (concat gs); [contradiction|]. reflexivity.
  - rewrite (chunks_concat _ 4 gs) by (auto; lia). rewrite (len_concat _ 4 gs h), Nat.mod_mul by lia.
    destruct (concat gs); [contradiction|]. reflexivity.
Qed.

Lemma end_none : forall s mo cn, size s < 2^31 -> end_ (dst s (Some (mo, [])) cn) = (Ok tt, dst s None cn).
Proof.
  intros s mo cn hb. unfold dst. rewrite end_amk.
  2:{ unfold apend, pending. cbn [a_faces a_open]. rewrite app_nil_r. exact hb. }
  cbn [astep a_open a_points a_normals a_texcoords a_faces a_curN a_curT]. destruct mo; cbn; rewrite app_nil_r; reflexivity.
Qed.

Lemma otri_end : forall B (k : unit -> MM T B) s mo vs cn gs Q, vs = concat gs -> Forall (face_len mo) gs -> (mo = POLYGON -> length gs = 1%nat) ->
  size s + Z.of_nat (length (concat gs)) < 2^31 ->
  tri (k tt) (mkS (sp s) (sn s) (sf s ++ gs)) Q -> otri (mbind end_ k) s mo vs cn Q.
Proof.
  intros B k s mo vs cn gs Q -> h1 h2 h3 h. unfold otri, mbind. destruct gs as [|f gs].
  - cbn [concat] in *. rewrite end_none by (cbn in h3; lia). apply h. exists cn. rewrite app_nil_r. reflexivity.
  - rewrite end_faces by (auto; discriminate). apply h. exists cn. reflexivity.
Qed.
Lemma otri_end_last : forall s mo vs cn gs (Q : unit -> st -> Prop), vs = concat gs -> Forall (face_len mo) gs -> (mo = POLYGON -> length gs = 1%nat) ->
  size s + Z.of_nat (length (concat gs)) < 2^31 ->
  Q tt (mkS (sp s) (sn s) (sf s ++ gs)) -> otri end_ s mo vs cn Q.
Proof.
  intros s mo vs cn gs Q -> h1 h2 h3 h. unfold otri. destruct gs as [|f gs].
  - cbn [concat] in *. rewrite end_none by (cbn in h3; lia). exists tt. do 2 eexists. split; [reflexivity|]. split; [exists cn; reflexivity|].
    rewrite app_nil_r in h. destruct s. exact h.
  - rewrite end_faces by (auto; discriminate). exists tt. do 2 eexists. split; [reflexivity|]. split; [exists cn; reflexivity|]. exact h.
Qed.

End Logic.
Arguments st : clear implicits.

(** ** The box *)

Section Box.
Context {T : Type} {S : Scalar T}.
Definition box_points (hx hy hz : T) : list (T * T * T) :=
  ([(hx, hy, hz); (hx, hy, - hz); (hx, - hy, - hz); (hx, - hy, hz); (- hx, - hy, hz); (- hx, hy, hz); (- hx, hy, - hz); (- hx, - hy, - hz)])%sc.
Definition box_normals : list (T * T * T) :=
  ([(#1, #0, #0); (- #1, #0, #0); (#0, #0, #1); (#0, #0, - #1); (#0, #1, #0); (#0, - #1, #0)])%sc.
Definition box_faces (v n t : Z) : list (list (Z * Z * Z)) :=
  [[(v, n, t); (v + 3, n, t); (v + 2, n, t); (v + 1, n, t)];
   [(v + 4, n + 1, t); (v + 5, n + 1, t); (v + 6, n + 1, t); (v + 7, n + 1, t)];
   [(v + 5, n + 2, t); (v + 4, n + 2, t); (v + 3, n + 2, t); (v, n + 2, t)];
   [(v + 7, n + 3, t); (v + 6, n + 3, t); (v + 1, n + 3, t); (v + 2, n + 3, t)];
   [(v + 5, n + 4, t); (v, n + 4, t); (v + 1, n + 4, t); (v + 6, n + 4, t)];
   [(v + 3, n + 5, t); (v + 4, n + 5, t); (v + 7, n + 5, t); (v + 2, n + 5, t)]].

Definition axes_unit : Prop := forall n, In n box_normals -> near_unit (fst (fst n)) (snd (fst n)) (snd n) = true.

Ltac vtx hct := eapply otri_vertex; [exact hct|unfold below; cbn [sp]; rewrite app_length; cbn [length]; lia|].
Ltac nrml A := apply otri_nor; [apply A; cbn; tauto|].

Lemma box_tri : forall (tex : bool) ts ct t, (if tex then ct else Some 0) = Some t -> axes_unit -> forall hx hy hz s,
  size s + 24 < 2^31 ->
  tri tex ts ct (addBoxMesh hx hy hz) s (fun _ s' => s' = mkS (sp s ++ box_points hx hy hz) (sn s ++ box_normals)
      (sf s ++ box_faces (Z.of_nat (length (sp s))) (Z.of_nat (length (sn s))) t)).
Proof.
  intros tex ts ct t hct ax hx hy hz [ps ns fs] hb. unfold addBoxMesh. cbn [sp sn sf].
  assert (A : forall x y z, In (x, y, z) box_normals -> near_unit x y z = true) by (intros x y z i; exact (ax (x, y, z) i)).
  do 8 (apply tri_pos). rewrite <- !app_assoc. cbn [app].
  apply tri_begin. intro cn.
  do 6 (nrml A; do 4 vtx hct).
  rewrite !app_length. cbn [length app].
  rewrite <- !app_assoc. cbn [app].
  eapply (otri_end_last tex ts ct) with (gs := box_faces (Z.of_nat (length ps)) (Z.of_nat (length ns)) t).
  - cbn [concat box_faces app]. rewrite !Nat2Z.inj_add. change (Z.of_nat 1) with 1. rewrite <- !Z.add_assoc. reflexivity.
  - cbn [face_len]. repeat constructor.
  - discriminate.
  - unfold size in *. cbn [sf concat box_faces app length] in *. lia.
  - reflexivity.
Qed.

End Box.

(** ** Closed surfaces *)

Definition anti (w : Z -> Z -> Z) : Prop := forall u v, w u v = - w v u.
Definition esum (w : Z -> Z -> Z) (l : list (Z * Z)) : Z := fold_right (fun e s => w (fst e) (snd e) + s) 0 l.
Definition bd w fs : Z := esum w (all_edges fs).

Lemma esum_app : forall w l l', esum w (l ++ l') = esum w l + esum w l'.
Proof. intros. unfold esum. induction l as [|e l IH]; cbn [app fold_right]; [lia|]. rewrite IH. lia. Qed.
Lemma bd_app : forall w F G, bd w (F ++ G) = bd w F + bd w G.
Proof. intros. unfold bd, all_edges. rewrite flat_map_app. apply esum_app. Qed.
Lemma bd_cons : forall w f F, bd w (f :: F) = esum w (edges (map v_pos f)) + bd w F.
Proof. intros. unfold bd, all_edges. cbn [flat_map]. apply esum_app. Qed.

Lemma closed_of_bd : forall F, (forall w, anti w -> bd w F = 0) -> closed_surface F.
Proof.
  intros F h u v. unfold traversals.
  set (w := fun x y => (if edge_dec (x, y) (u, v) then 1 else 0) - (if edge_dec (x, y) (v, u) then 1 else 0)).
  assert (A : anti w).
  { intros x y. unfold w. destruct (edge_dec (x, y) (u, v)), (edge_dec (x, y) (v, u)), (edge_dec (y, x) (u, v)), (edge_dec (y, x) (v, u)); congruence || (try lia; exfalso; congruence). }
  specialize (h w A). unfold bd in h. revert h.
  assert (E : forall l, esum w l = Z.of_nat (count_occ edge_dec l (u, v)) - Z.of_nat (count_occ edge_dec l (v, u))).
  { induction l as [|[x y] l IH]; [reflexivity|]. cbn [esum fold_right fst snd count_occ]. fold (esum w l). rewrite IH. unfold w.
    destruct (edge_dec (x, y) (u, v)), (edge_dec (x, y) (v, u)); lia. }
  rewrite E. lia.
Qed.

Lemma box_closed : forall v n t, closed_surface (box_faces v n t).
Proof.
  intros v n t. apply closed_of_bd. intros w A. unfold bd, all_edges, box_faces, esum, v_pos, edges. cbn [flat_map map fst snd combine app fold_right].
  pose proof (A v (v + 3)). pose proof (A (v + 3) (v + 2)). pose proof (A (v + 2) (v + 1)). pose proof (A (v + 1) v).
  pose proof (A (v + 4) (v + 5)). pose proof (A (v + 5) (v + 6)). pose proof (A (v + 6) (v + 7)). pose proof (A (v + 7) (v + 4)).
  pose proof (A (v + 4) (v + 3)). pose proof (A v (v + 5)). pose proof (A (v + 6) (v + 1)). pose proof (A (v + 2) (v + 7)). lia.
Qed.

Lemma box_simple : forall v n t a b, (traversals (box_faces v n t) a b <= 1)%nat.
Proof.
  intros v n t a b. unfold traversals.
  assert (N : NoDup (all_edges (box_faces v n t))).
  2:{ rewrite (NoDup_count_occ edge_dec) in N. apply N. }
  assert (E : all_edges (box_faces v n t) = map (fun e => (v + fst e, v + snd e)) (all_edges (box_faces 0 n t))).
  { unfold all_edges, box_faces, v_pos, edges. cbn [flat_map map fst snd combine app]. rewrite !Z.add_0_l, !Z.add_0_r. reflexivity. }
  rewrite E. apply Injective_map_NoDup.
  - intros [x y] [x' y'] h. cbn in h. injection h as h1 h2. apply f_equal2; lia.
  - assert (D : forall l : list (Z * Z), nodup edge_dec l = l -> NoDup l) by (intros l <-; apply NoDup_nodup).
    apply D. cbv. reflexivity.
Qed.

Lemma axes_unit_R : @axes_unit R RScalar.
Proof.
  intros n i. cbn in i. decompose [or] i; subst; try contradiction; unfold near_unit; rsimp; cbn [fst snd]; unfold Rleb;
  match goal with |- (if Rle_dec (Rabs ?x) _ then _ else _) = _ => replace x with 0%R by lra end; rewrite Rabs_R0; destruct (Rle_dec _ _); try reflexivity; lra.
Qed.

Lemma axes_unit_F32 : forall L, @axes_unit f32 (F32Scalar L).
Proof. intros L n i. cbn in i. decompose [or] i; subst; try contradiction; vm_compute; reflexivity. Qed.

Lemma box_indices : forall T (hx hy hz : T) (S : Scalar T) (ps ns : list (T * T * T)) t f v,
  In f (box_faces (Z.of_nat (length ps)) (Z.of_nat (length ns)) t) -> In v f ->
  below (v_pos v) (ps ++ box_points hx hy hz) /\ below (v_nor v) (ns ++ box_normals).
Proof.
  intros T hx hy hz S ps ns t f v hf hv. unfold below. rewrite !app_length. cbn [length box_points box_normals].
  cbn in hf. decompose [or] hf; subst; try contradiction; cbn in hv; decompose [or] hv; subst; try contradiction; unfold v_pos, v_nor; cbn [fst snd]; lia.
Qed.

(** From a triple to a statement about meshes. *)
Lemma tri_mesh : forall T (S : Scalar T) A (m : MM T A) d (a : AMesh T) n Q,
  represents d a -> ready (m_tex d) a n ->
  (forall t, (if m_tex d then a_curT a else Some 0) = Some t ->
     tri (m_tex d) (a_texcoords a) (a_curT a) m (mkS (a_points a) (a_normals a) (a_faces a)) (Q t)) ->
  exists t r d' a' s', m d = (Ok r, d') /\ m_tex d' = m_tex d /\ represents d' a' /\ Q t r s' /\
    a_points a' = sp s' /\ a_normals a' = sn s' /\ a_texcoords a' = a_texcoords a /\ a_faces a' = sf s' /\ a_open a' = None /\ a_curT a' = a_curT a.
Proof.
  intros T S A m d a n Q hr [h1 [h2 h3]] h.
  assert (E : exists t, (if m_tex d then a_curT a else Some 0) = Some t).
  { destruct (m_tex d); [|eexists; reflexivity]. destruct (a_curT a); [eexists; reflexivity|]. exfalso. apply h2; reflexivity. }
  destruct E as [t et]. specialize (h t et). apply (represents_amk (m_tex d)) in hr; [|reflexivity].
  destruct (h d) as [r [d' [s' [e [[cn hd] hq]]]]].
  { exists (a_curN a). unfold dst. rewrite hr at 1. destruct a. cbn in h1. subst. reflexivity. }
  exists t, r, d'. eexists. exists s'. split; [exact e|]. split; [rewrite hd; reflexivity|].
  split; [apply (represents_amk (m_tex d)); [rewrite hd; reflexivity|exact hd]|]. split; [exact hq|]. repeat split.
Qed.

Lemma C41_box_proof : forall (d : Mesh R) (a : AMesh R) (hx hy hz : R),
  represents d a -> ready (m_tex d) a 24 ->
  exists d' a' ps ns fs, addBoxMesh hx hy hz d = (Ok tt, d') /\ m_tex d' = m_tex d /\ represents d' a' /\ adds a a' ps ns fs /\
    length ps = 8%nat /\ Forall (is_corner hx hy hz) ps /\ length ns = 6%nat /\ length fs = 6%nat /\ indices_ok a' fs /\
    Forall (outward_quad a' hx hy hz) fs /\ closed_surface fs /\ (forall u v, traversals fs u v <= 1)%nat.
Proof.
  intros d a hx hy hz hr hy'.
  destruct (tri_mesh R RScalar unit (addBoxMesh hx hy hz) d a 24
     (fun t _ s' => s' = mkS (a_points a ++ box_points hx hy hz) (a_normals a ++ box_normals)
         (a_faces a ++ box_faces (Z.of_nat (length (a_points a))) (Z.of_nat (length (a_normals a))) t)) hr hy')
    as [t [r [d' [a' [s' [e [et [hr' [-> [p1 [p2 [p3 [p4 [p5 p6]]]]]]]]]]]]]].
  { intros t ht. apply (box_tri (m_tex d) _ _ t ht axes_unit_R hx hy hz (mkS (a_points a) (a_normals a) (a_faces a))).
    destruct hy' as [_ [_ h]]. exact h. }
  destruct r. cbn [sp sn sf] in *. exists d', a', (box_points hx hy hz), box_normals. eexists.
  split; [exact e|]. split; [exact et|]. split; [exact hr'|]. split; [exact (conj p1 (conj p2 (conj p3 (conj p4 (conj p5 p6)))))|].
  split; [reflexivity|]. split.
  { unfold box_points. repeat apply Forall_cons; try apply Forall_nil; unfold is_corner, cx, cy, cz; rsimp; cbn [fst snd]; auto 8. }
  split; [reflexivity|]. split; [reflexivity|]. split.
  { intros f v hf hv. rewrite p1, p2. apply (box_indices R hx hy hz RScalar _ _ t f v hf hv). }
  split; [|split; [apply box_closed|apply box_simple]].
  assert (P : forall k x, nth_error (box_points hx hy hz) k = Some x -> nth_error (a_points a') (Z.to_nat (Z.of_nat (length (a_points a)) + Z.of_nat k)) = Some x).
  { intros k x h. rewrite p1, nth_error_app2 by lia. rewrite <- h. f_equal. lia. }
  assert (P0 : nth_error (a_points a') (Z.to_nat (Z.of_nat (length (a_points a)))) = Some (hx, hy, hz)).
  { rewrite p1, nth_error_app2 by lia. rewrite Nat2Z.id, Nat.sub_diag. reflexivity. }
  assert (N : forall k x, nth_error box_normals k = Some x -> nth_error (a_normals a') (Z.to_nat (Z.of_nat (length (a_normals a)) + Z.of_nat k)) = Some x).
  { intros k x h. rewrite p2, nth_error_app2 by lia. rewrite <- h. f_equal. lia. }
  assert (N0 : nth_error (a_normals a') (Z.to_nat (Z.of_nat (length (a_normals a)))) = Some (1, 0, 0)%R).
  { rewrite p2, nth_error_app2 by lia. rewrite Nat2Z.id, Nat.sub_diag. reflexivity. }
  clear - P P0 N N0. assert (M : (-1 = Ropp 1)%R) by lra.
  Ltac ptq P P0 := solve [exact P0 | apply (P 1%nat); reflexivity | apply (P 2%nat); reflexivity | apply (P 3%nat); reflexivity | apply (P 4%nat); reflexivity
     | apply (P 5%nat); reflexivity | apply (P 6%nat); reflexivity | apply (P 7%nat); reflexivity].
  Ltac nmq N N0 := solve [exact N0 | apply (N 1%nat); reflexivity | apply (N 2%nat); reflexivity | apply (N 3%nat); reflexivity | apply (N 4%nat); reflexivity
     | apply (N 5%nat); reflexivity].
  unfold box_faces. repeat apply Forall_cons; try apply Forall_nil; unfold outward_quad, pt, nrm, v_pos, v_nor.
  all: do 9 eexists; split; [reflexivity|]; cbn [fst snd]; do 4 (split; [ptq P P0|]); do 4 (split; [nmq N N0|]).
  all: rsimp; cbn [In]; rewrite M; split; [tauto|].
  all: unfold vdot, vsub, vcross, cx, cy, cz; cbn [fst snd]; rewrite ?Rabs_Ropp, ?Rabs_R1, ?Rabs_R0; split; [repeat split; ring|].
  all: split; [apply f_equal2; [apply f_equal2; ring|ring]|]; split; [ring|]; intros h1 h2 h3.
  all: match goal with |- (0 < ?e)%R => ring_simplify e end; repeat apply Rmult_lt_0_compat; lra.
Qed.


Lemma C41_box_binary32_proof : forall (L : libm32) (d : Mesh f32) (a : AMesh f32) (hx hy hz : f32),
  represents d a -> ready (m_tex d) a 24 ->
  exists d' a' ps ns fs, addBoxMesh (S := F32Scalar L) hx hy hz d = (Ok tt, d') /\ m_tex d' = m_tex d /\ represents d' a' /\ adds a a' ps ns fs /\
    length ps = 8%nat /\
    (forall p, In p ps -> (fst (fst p) = hx \/ fst (fst p) = s_neg (Scalar := F32Scalar L) hx) /\
       (snd (fst p) = hy \/ snd (fst p) = s_neg (Scalar := F32Scalar L) hy) /\ (snd p = hz \/ snd p = s_neg (Scalar := F32Scalar L) hz)) /\
    length fs = 6%nat /\ Forall (fun f => length f = 4%nat) fs /\ indices_ok a' fs /\
    closed_surface fs /\ (forall u v, traversals fs u v <= 1)%nat.
Proof.
  intros L d a hx hy hz hr hy'.
  destruct (tri_mesh f32 (F32Scalar L) unit (addBoxMesh (S := F32Scalar L) hx hy hz) d a 24
     (fun t _ s' => s' = mkS (a_points a ++ box_points (S := F32Scalar L) hx hy hz) (a_normals a ++ box_normals (S := F32Scalar L))
         (a_faces a ++ box_faces (Z.of_nat (length (a_points a))) (Z.of_nat (length (a_normals a))) t)) hr hy')
    as [t [r [d' [a' [s' [e [et [hr' [-> [p1 [p2 [p3 [p4 [p5 p6]]]]]]]]]]]]]].
  { intros t ht. apply (box_tri (m_tex d) _ _ t ht (axes_unit_F32 L) hx hy hz (mkS (a_points a) (a_normals a) (a_faces a))).
    destruct hy' as [_ [_ h]]. exact h. }
  destruct r. cbn [sp sn sf] in *. exists d', a', (box_points (S := F32Scalar L) hx hy hz), (box_normals (S := F32Scalar L)). eexists.
  split; [exact e|]. split; [exact et|]. split; [exact hr'|]. split; [exact (conj p1 (conj p2 (conj p3 (conj p4 (conj p5 p6)))))|].
  split; [reflexivity|]. split.
  { intros p i. cbn in i. decompose [or] i; subst; try contradiction; cbn [fst snd]; auto. }
  split; [reflexivity|]. split; [repeat constructor|]. split.
  { intros f v hf hv. rewrite p1, p2. apply (box_indices f32 hx hy hz (F32Scalar L) _ _ t f v hf hv). }
  split; [apply box_closed|apply box_simple].
Qed.


(** ** The rounded box *)

Lemma PI_bounds : (314/100 < PI < 3142/1000)%R.
Proof.
  generalize (PI_2_3_7_ineq 2). unfold PI_2_3_7_tg, tg_alt, Ratan_seq. cbn [sum_f_R0 pow Nat.mul Nat.add].
  rewrite !S_INR. cbn [INR]. simpl INR. intros [h1 h2].
  split.
  - eapply Rlt_le_trans. 2:{ apply (Rmult_le_compat_l 4) in h1; [|lra]. replace (4 * (PI/4))%R with PI in h1 by field. exact h1. }
    simpl. lra.
  - eapply Rle_lt_trans. { apply (Rmult_le_compat_l 4) in h2; [|lra]. replace (4 * (PI/4))%R with PI in h2 by field. exact h2. }
    simpl. lra.
Qed.

Ltac fa := repeat apply Forall_cons; try apply Forall_nil.

Section Sums.
Definition sumf (f : Z -> Z) (l : list Z) : Z := fold_right (fun i s => f i + s) 0 l.
Lemma sumf_app : forall f l l', sumf f (l ++ l') = sumf f l + sumf f l'.
Proof. intros. unfold sumf. induction l as [|a l IH]; cbn [app fold_right]; [lia|]. rewrite IH. lia. Qed.
Lemma sumf_plus : forall f g l, sumf (fun i => f i + g i) l = sumf f l + sumf g l.
Proof. intros. unfold sumf. induction l as [|a l IH]; cbn [fold_right]; [lia|]. rewrite IH. lia. Qed.
Lemma sumf_ext : forall f g l, (forall i, f i = g i) -> sumf f l = sumf g l.
Proof. intros f g l h. unfold sumf. induction l as [|a l IH]; cbn [fold_right]; [lia|]. rewrite IH, h. lia. Qed.
Lemma zrange_in : forall a b i, In i (zrange a b) <-> a <= i < b.
Proof.
  intros. unfold zrange. rewrite in_map_iff. split.
  - intros [k [e h]]. apply in_seq in h. lia.
  - intro h. exists (Z.to_nat (i - a)). split; [lia|]. apply in_seq. lia.
Qed.
Lemma zrange_length : forall a b, Z.of_nat (length (zrange a b)) = Z.max 0 (b - a).
Proof. intros. unfold zrange. rewrite map_length, seq_length. lia. Qed.
Lemma zrange_cons : forall a b, a < b -> zrange a b = a :: zrange (a + 1) b.
Proof.
  intros a b h. unfold zrange. replace (Z.to_nat (b - a)) with (Datatypes.S (Z.to_nat (b - (a + 1)))) by lia. cbn [seq map].
  f_equal; [lia|]. rewrite <- seq_shift, map_map. apply map_ext. intro k. lia.
Qed.
Lemma zrange_nil : forall a b, b <= a -> zrange a b = [].
Proof. intros a b h. unfold zrange. replace (Z.to_nat (b - a)) with 0%nat by lia. reflexivity. Qed.
Lemma tele : forall g m, 0 <= m -> sumf (fun i => g i - g (1 + i)) (zrange 0 m) = g 0 - g m.
Proof.
  intros g m h.
  assert (G : forall k a, sumf (fun i => g i - g (1 + i)) (zrange a (a + Z.of_nat k)) = g a - g (a + Z.of_nat k)).
  { induction k as [|k IH]; intro a.
    - rewrite zrange_nil by lia. rewrite Z.add_0_r. cbn. lia.
    - rewrite zrange_cons by lia. cbn [sumf fold_right]. fold (sumf (fun i => g i - g (1 + i)) (zrange (a + 1) (a + Z.of_nat (Datatypes.S k)))).
      replace (a + Z.of_nat (Datatypes.S k)) with (a + 1 + Z.of_nat k) by lia. rewrite IH. replace (1 + a) with (a + 1) by lia. lia. }
  specialize (G (Z.to_nat m) 0). rewrite !Z.add_0_l, !Z2Nat.id in G by lia. exact G.
Qed.
Lemma bd_map : forall w (Q : Z -> list (Z * Z * Z)) l, bd w (map Q l) = sumf (fun i => esum w (edges (map v_pos (Q i)))) l.
Proof. intros. induction l as [|a l IH]; [reflexivity|]. cbn [map]. rewrite bd_cons, IH. reflexivity. Qed.
Lemma flat_map_concat_map' : forall A B C (g : B -> C) (f : A -> list B) l, map g (flat_map f l) = concat (map (fun x => map g (f x)) l).
Proof. intros. induction l as [|a l IH]; [reflexivity|]. cbn [flat_map map concat]. rewrite map_app, IH. reflexivity. Qed.
End Sums.

Section Rounded.
Variables (tex : bool) (ts : list (R * R)) (ct : option Z) (t : Z).
Hypothesis hct : (if tex then ct else Some 0) = Some t.
Variables (ex ey ez r : R) (nb : Z).
Hypotheses (hex : (0 <= ex)%R) (hey : (0 <= ey)%R) (hez : (0 <= ez)%R) (hr : (0 < r)%R) (hnb : 0 <= nb).

Notation stR := (st R).
Notation "'triR'" := (tri tex ts ct).
Definition onc (p n : V3) : Prop := on_rounded_box ex ey ez r (ez / 500) p n.
Definition goodv (s : stR) (v : Vert) : Prop := 0 <= vp v /\ 0 <= vn v /\ exists p n,
  nth_error (sp s) (Z.to_nat (vp v)) = Some p /\ nth_error (sn s) (Z.to_nat (vn v)) = Some n /\ onc p n.
Definition ext (s s' : stR) : Prop := exists P N F, s' = mkS (sp s ++ P) (sn s ++ N) (sf s ++ F).

Lemma ext_refl : forall s, ext s s.
Proof. intros [a b c]. exists [], [], []. cbn. rewrite !app_nil_r. reflexivity. Qed.
Lemma ext_faces : forall s F, ext s (mkS (sp s) (sn s) (sf s ++ F)).
Proof. intros s F. exists [], [], F. rewrite !app_nil_r. reflexivity. Qed.
Lemma ext_trans : forall s1 s2 s3, ext s1 s2 -> ext s2 s3 -> ext s1 s3.
Proof. intros s1 s2 s3 [P [N [F ->]]] [P' [N' [F' ->]]]. cbn. rewrite <- !app_assoc. do 3 eexists. reflexivity. Qed.
Lemma nth_app : forall A (l l' : list A) k x, nth_error l k = Some x -> nth_error (l ++ l') k = Some x.
Proof. intros A l l' k x h. rewrite nth_error_app1; [exact h|]. apply nth_error_Some. congruence. Qed.
Lemma goodv_ext : forall s s' v, goodv s v -> ext s s' -> goodv s' v.
Proof.
  intros s s' v [h1 [h2 [p [n [e1 [e2 h]]]]]] [P [N [F ->]]]. split; [exact h1|]. split; [exact h2|]. exists p, n. cbn [sp sn].
  repeat split; try apply nth_app; try assumption; apply h.
Qed.
Lemma goodv_inr : forall s v, goodv s v -> inr s v.
Proof.
  intros s v [h1 [h2 [p [n [e1 [e2 _]]]]]].
  assert (L1 : (Z.to_nat (vp v) < length (sp s))%nat) by (apply nth_error_Some; congruence).
  assert (L2 : (Z.to_nat (vn v) < length (sn s))%nat) by (apply nth_error_Some; congruence).
  unfold inr, below. lia.
Qed.

Definition mer (s : stR) (n : Z) (v : Vert) : Prop := forall i, 0 <= i < n -> goodv s (vplus v i).
Lemma mer_ext : forall s s' n v, mer s n v -> ext s s' -> mer s' n v.
Proof. intros s s' n v h e i hi. apply (goodv_ext s); auto. Qed.

(** *** A meridian *)

Lemma near_unit_R : forall x y z, (x * x + y * y + z * z = 1)%R -> near_unit x y z = true.
Proof.
  intros x y z h. unfold near_unit. rsimp. rewrite h. unfold Rleb. rewrite Rminus_diag_eq, Rabs_R0 by reflexivity.
  destruct (Rle_dec 0 (1 / 100000)) as [|k]; [reflexivity|]. exfalso. apply k. lra.
Qed.

Definition dirok (x y lambda : R) : Prop :=
  (x = ex \/ x = - ex)%R /\ (y = ey \/ y = - ey)%R /\ (x * cos lambda = ex * Rabs (cos lambda))%R /\ (y * sin lambda = ey * Rabs (sin lambda))%R.

Lemma onc_dir : forall x y z lambda phi, dirok x y lambda -> (z = ez \/ z = - ez)%R -> (0 <= sin phi)%R ->
  (ez * Rabs (cos phi) - ez / 500 <= z * cos phi <= ez * Rabs (cos phi))%R ->
  onc (x + r * sin phi * cos lambda, y + r * sin phi * sin lambda, z + r * cos phi)%R (sin phi * cos lambda, sin phi * sin lambda, cos phi)%R.
Proof.
  intros x y z lambda phi [hx [hy [dx dy]]] hz hs hc. unfold onc, on_rounded_box. unfold vdot, support, cx, cy, cz. cbn [fst snd].
  assert (U : (sin phi * cos lambda * (sin phi * cos lambda) + sin phi * sin lambda * (sin phi * sin lambda) + cos phi * cos phi = 1)%R).
  { transitivity (Rsqr (sin phi) * (Rsqr (sin lambda) + Rsqr (cos lambda)) + Rsqr (cos phi))%R; [unfold Rsqr; ring|].
    rewrite sin2_cos2, Rmult_1_r. apply sin2_cos2. }
  split; [exact U|]. split.
  - exists (x, y, z). unfold is_corner, vadd, vscale, cx, cy, cz. cbn [fst snd]. split; [auto|].
    apply f_equal2; [apply f_equal2|]; ring.
  - rewrite !Rabs_mult, (Rabs_pos_eq (sin phi)) by exact hs.
    assert (E : (sin phi * cos lambda * (x + r * sin phi * cos lambda) + sin phi * sin lambda * (y + r * sin phi * sin lambda) + cos phi * (z + r * cos phi) =
       sin phi * (x * cos lambda) + sin phi * (y * sin lambda) + z * cos phi + r * (sin phi * cos lambda * (sin phi * cos lambda) + sin phi * sin lambda * (sin phi * sin lambda) + cos phi * cos phi))%R) by ring.
    rewrite E, U, dx, dy. split; lra.
Qed.

Lemma cos_157 : (0 < cos (157/100) <= 1/1000)%R.
Proof.
  generalize PI_bounds. intros [p1 p2]. split; [apply cos_gt_0; lra|].
  replace (cos (157/100)) with (sin (PI/2 - 157/100)) by (rewrite sin_shift; reflexivity).
  assert (h := sin_lt_x (PI/2 - 157/100) ltac:(lra)). lra.
Qed.

Definition dphi : R := (314 / 100 / IZR (2 * (nb + 1)))%R.
Lemma phi_low : forall i, 1 <= i <= nb + 1 -> (0 < IZR i * dphi <= 157/100)%R.
Proof.
  intros i [h1 h2]. unfold dphi. apply IZR_le in h1, h2. rewrite plus_IZR in h2. assert (hn := IZR_le _ _ hnb).
  rewrite mult_IZR, plus_IZR. set (j := IZR i) in *. set (m := IZR nb) in *. clearbody j m.
  assert (E : (j * (314 / 100 / (2 * (m + 1))) = 157/100 * (j / (m + 1)))%R) by (field; lra). rewrite E.
  assert (Q : (0 < j / (m + 1) <= 1)%R).
  { split; [apply Rdiv_lt_0_compat; lra|]. apply (Rmult_le_reg_r (m + 1)); [lra|]. unfold Rdiv. rewrite Rmult_assoc, Rinv_l by lra. lra. }
  lra.
Qed.
Lemma phi_high : forall i, nb + 1 <= i < 2 * (nb + 1) -> (157/100 <= IZR i * dphi < 314/100)%R.
Proof.
  intros i [h1 h2]. unfold dphi. apply IZR_le in h1. apply IZR_lt in h2. rewrite mult_IZR in *. rewrite plus_IZR in *. assert (hn := IZR_le _ _ hnb).
  set (j := IZR i) in *. set (m := IZR nb) in *. clearbody j m.
  assert (E : (j * (314 / 100 / (2 * (m + 1))) = 157/100 * (j / (m + 1)))%R) by (field; lra). rewrite E.
  assert (Q : (1 <= j / (m + 1) < 2)%R).
  { split; [apply (Rmult_le_reg_r (m + 1)); [lra|]|apply (Rmult_lt_reg_r (m + 1)); [lra|]]; unfold Rdiv; rewrite Rmult_assoc, Rinv_l by lra; lra. }
  lra.
Qed.
Lemma phi_mid : (IZR (nb + 1) * dphi = 157/100)%R.
Proof. unfold dphi. rewrite mult_IZR, plus_IZR. assert (hn := IZR_le _ _ hnb). field. lra. Qed.

Lemma low_ok : forall i, 1 <= i <= nb + 1 ->
  (0 <= sin (IZR i * dphi) /\ ez * Rabs (cos (IZR i * dphi)) - ez / 500 <= ez * cos (IZR i * dphi) <= ez * Rabs (cos (IZR i * dphi)))%R.
Proof.
  intros i h. destruct (phi_low i h) as [h1 h2]. generalize PI_bounds. intros [p1 p2].
  assert (0 < cos (IZR i * dphi))%R by (apply cos_gt_0; lra). rewrite Rabs_pos_eq by lra.
  split; [apply sin_ge_0; lra|]. lra.
Qed.
Lemma high_ok : forall i, nb + 1 <= i < 2 * (nb + 1) ->
  (0 <= sin (IZR i * dphi) /\ ez * Rabs (cos (IZR i * dphi)) - ez / 500 <= - ez * cos (IZR i * dphi) <= ez * Rabs (cos (IZR i * dphi)))%R.
Proof.
  intros i h. destruct (phi_high i h) as [h1 h2]. generalize PI_bounds. intros [p1 p2].
  split; [apply sin_ge_0; lra|].
  assert (C : (cos (IZR i * dphi) <= cos (157/100))%R) by (apply cos_decr_1; lra). generalize cos_157. intro c.
  destruct (Rle_dec 0 (cos (IZR i * dphi))) as [k|k].
  - rewrite Rabs_pos_eq by exact k.
    assert (0 <= ez * cos (IZR i * dphi) <= ez * (1/1000))%R by (split; [apply Rmult_le_pos; lra|apply Rmult_le_compat_l; lra]). lra.
  - rewrite Rabs_left by lra. lra.
Qed.

Definition meridian_off (i : Z) : nat := if Req_EM_T ez 0 then 0%nat else if i <=? nb + 1 then 1%nat else 0%nat.

Lemma meridian_tri : forall x y lambda, dirok x y lambda -> forall m i z s, i + Z.of_nat m = 2 * (nb + 1) -> 1 <= i ->
  z = (if i <=? nb + 1 then ez else (- ez)%R) ->
  triR (meridian_loop ez r x y lambda dphi (2 * (nb + 1)) (zrange i (2 * (nb + 1))) z) s
    (fun _ s' => exists P N, s' = mkS (sp s ++ P) (sn s ++ N) (sf s) /\ Forall2 onc P N /\ length P = (m + meridian_off i)%nat).
Proof.
  intros x y lambda hd. induction m as [|m IH]; intros i z s e hi hz.
  - rewrite zrange_nil by lia. apply tri_ret. exists [], []. rewrite !app_nil_r. destruct s. repeat split; [constructor|].
    unfold meridian_off. destruct (Req_EM_T ez 0); [reflexivity|]. rewrite (proj2 (Z.leb_gt _ _)) by lia. reflexivity.
  - rewrite zrange_cons by lia. cbn [meridian_loop]. destruct s as [ps ns fs].
    assert (NU : near_unit (sin (IZR i * dphi) * cos lambda)%R (sin (IZR i * dphi) * sin lambda)%R (cos (IZR i * dphi)) = true).
    { apply near_unit_R. transitivity (Rsqr (sin (IZR i * dphi)) * (Rsqr (sin lambda) + Rsqr (cos lambda)) + Rsqr (cos (IZR i * dphi)))%R; [unfold Rsqr; ring|].
      rewrite sin2_cos2, Rmult_1_r. apply sin2_cos2. }
    assert (ON : onc (x + r * sin (IZR i * dphi) * cos lambda, y + r * sin (IZR i * dphi) * sin lambda, z + r * cos (IZR i * dphi))%R
                     (sin (IZR i * dphi) * cos lambda, sin (IZR i * dphi) * sin lambda, cos (IZR i * dphi))%R).
    { destruct (Z.leb_spec i (nb + 1)) as [l|l]; rewrite hz.
      - destruct (low_ok i ltac:(lia)) as [s1 s2]. apply onc_dir; auto.
      - destruct (high_ok i ltac:(lia)) as [s1 s2]. apply onc_dir; auto. }
    rsimp. apply tri_nor; [exact NU|]. apply tri_pos.
    replace (2 * (nb + 1) / 2) with (nb + 1) by (rewrite Z.mul_comm, Z.div_mul; lia).
    assert (MID : (i mod (nb + 1) =? 0) = (i =? nb + 1)).
    { destruct (Z.eqb_spec i (nb + 1)) as [->|n1]; [rewrite Z.mod_same by lia; reflexivity|]. apply Z.eqb_neq. intro k.
      apply Z.mod_divide in k; [|lia]. destruct k as [q ->]. assert (q = 1) by nia. subst q. lia. }
    rewrite MID. unfold Reqb. destruct (Req_EM_T ez 0) as [e0|e0].
    + cbn [negb]. rewrite andb_false_r. eapply tri_conseq.
      { apply IH; [lia|lia|]. rewrite hz. destruct (i <=? nb + 1), (i + 1 <=? nb + 1); lra. }
      cbn [sp sn sf]. intros _ s' [P [N [-> [F2 L]]]]. do 2 eexists. split; [rewrite <- !app_assoc; reflexivity|].
      split; [cbn [app]; constructor; assumption|]. cbn [app length]. rewrite L. unfold meridian_off. destruct (Req_EM_T ez 0); [lia|contradiction].
    + cbn [negb]. rewrite andb_true_r. destruct (Z.eqb_spec i (nb + 1)) as [ei|ei].
      * apply tri_nor; [exact NU|]. apply tri_pos. eapply tri_conseq.
        { apply IH; [lia|lia|]. rewrite (proj2 (Z.leb_gt _ _)) by lia. reflexivity. }
        cbn [sp sn sf]. intros _ s' [P [N [-> [F2 L]]]]. do 2 eexists. split; [rewrite <- !app_assoc; reflexivity|].
        split.
        -- cbn [app]. constructor; [exact ON|]. constructor; [|exact F2].
           destruct (high_ok i ltac:(lia)) as [s1 s2]. apply onc_dir; auto.
        -- cbn [app length]. rewrite L. unfold meridian_off. destruct (Req_EM_T ez 0); [contradiction|].
           rewrite (proj2 (Z.leb_gt _ _)), (proj2 (Z.leb_le _ _)) by lia. lia.
      * eapply tri_conseq.
        { apply IH; [lia|lia|]. rewrite hz. destruct (Z.leb_spec i (nb + 1)), (Z.leb_spec (i + 1) (nb + 1)); try reflexivity; lia. }
        cbn [sp sn sf]. intros _ s' [P [N [-> [F2 L]]]]. do 2 eexists. split; [rewrite <- !app_assoc; reflexivity|].
        split; [cbn [app]; constructor; assumption|]. cbn [app length]. rewrite L. unfold meridian_off. destruct (Req_EM_T ez 0); [contradiction|].
        destruct (Z.leb_spec i (nb + 1)), (Z.leb_spec (i + 1) (nb + 1)); lia.
Qed.

Definition nn : Z := 2 * nb + (if Req_EM_T ez 0 then 1 else 2).
Lemma nn_pos : 1 <= nn.
Proof. unfold nn. destruct (Req_EM_T ez 0); lia. Qed.

Lemma Forall2_nth : forall P N, Forall2 onc P N -> forall i p, nth_error P i = Some p -> exists n, nth_error N i = Some n /\ onc p n.
Proof.
  induction 1 as [|p n P N h h2 IH]; intros i q e; destruct i; try discriminate; cbn in *.
  - injection e as <-. eauto.
  - apply IH. exact e.
Qed.

Lemma F2_length : forall P N, Forall2 onc P N -> length P = length N.
Proof. induction 1 as [|p n P N h h2 IH]; cbn; congruence. Qed.

Lemma add_meridian : forall x y lambda, dirok x y lambda -> forall s,
  triR (xAddMeridian ez r nb x y lambda) s
    (fun v s' => exists P N, s' = mkS (sp s ++ P) (sn s ++ N) (sf s) /\ v = mkVert (Z.of_nat (length (sp s))) (Z.of_nat (length (sn s))) /\
       mer s' nn v /\ Z.of_nat (length P) = nn /\ Z.of_nat (length N) = nn).
Proof.
  intros x y lambda hd s d hst. unfold xAddMeridian.
  assert (E : mkVert (positionsNb d) (normalsNb d) = mkVert (Z.of_nat (length (sp s))) (Z.of_nat (length (sn s)))).
  { destruct hst as [cn ->]. unfold dst, amk. rewrite positionsNb_mk, normalsNb_mk. reflexivity. }
  rewrite E. revert d hst E.
  match goal with |- forall d, St _ _ _ _ d -> _ -> exists r0 d' s', ?m d = _ /\ _ /\ _ => cut (triR m s (fun v s' => exists P N, s' = mkS (sp s ++ P) (sn s ++ N) (sf s) /\ v = mkVert (Z.of_nat (length (sp s))) (Z.of_nat (length (sn s))) /\
       mer s' nn v /\ Z.of_nat (length P) = nn /\ Z.of_nat (length N) = nn)) end.
  { intros K d hst _. exact (K d hst). }
  eapply tri_bind.
  { rsimp. fold dphi. apply (meridian_tri x y lambda hd (Z.to_nat (2 * nb + 1)) 1 ez s); [lia|lia|].
    rewrite (proj2 (Z.leb_le _ _)) by lia. reflexivity. }
  intros [] s' [P [N [-> [F2 L]]]]. apply tri_ret. exists P, N. split; [reflexivity|]. split; [reflexivity|].
  assert (LP : Z.of_nat (length P) = nn).
  { rewrite L. unfold nn, meridian_off. destruct (Req_EM_T ez 0); [lia|]. rewrite (proj2 (Z.leb_le _ _)) by lia. lia. }
  split; [|split; [exact LP|exact (eq_trans (f_equal Z.of_nat (eq_sym (F2_length P N F2))) LP)]].
  intros i hi. unfold goodv, vplus. cbn [vp vn sp sn]. split; [lia|]. split; [lia|].
  destruct (nth_error P (Z.to_nat i)) as [p|] eqn:ep; [|apply nth_error_None in ep; lia].
  destruct (Forall2_nth P N F2 _ p ep) as [n [en o]].
  exists p, n. split; [|split; [|exact o]]; rewrite nth_error_app2 by lia.
  - rewrite <- ep. f_equal. lia.
  - rewrite <- en. f_equal. lia.
Qed.

(** *** Faces between two meridians *)

Definition tvt := tv t.
Definition quad (a b : Vert) (i : Z) : list (Z * Z * Z) := [tvt (vplus b i); tvt (vplus a i); tvt (vplus a (1 + i)); tvt (vplus b (1 + i))].
Definition quads (a b : Vert) : list (list (Z * Z * Z)) := map (quad a b) (zrange 0 (nn - 1)).
Definition strip_faces (north south pp p : Vert) : list (list (Z * Z * Z)) :=
  [tvt north; tvt pp; tvt p] :: quads pp p ++ [[tvt (vplus p (nn - 1)); tvt (vplus pp (nn - 1)); tvt south]].

Definition path (w : Z -> Z -> Z) (north south v : Vert) : Z :=
  w (vp north) (vp v) + sumf (fun i => w (vp v + i) (vp v + (1 + i))) (zrange 0 (nn - 1)) + w (vp v + (nn - 1)) (vp south).

Lemma bd_quads : forall w a b, anti w ->
  bd w (quads a b) = w (vp b) (vp a) - w (vp b + (nn - 1)) (vp a + (nn - 1)) +
    sumf (fun i => w (vp a + i) (vp a + (1 + i))) (zrange 0 (nn - 1)) - sumf (fun i => w (vp b + i) (vp b + (1 + i))) (zrange 0 (nn - 1)).
Proof.
  intros w a b A. unfold quads. rewrite bd_map.
  rewrite (sumf_ext _ (fun i => (w (vp b + i) (vp a + i) - w (vp b + (1 + i)) (vp a + (1 + i))) +
     (w (vp a + i) (vp a + (1 + i)) + - w (vp b + i) (vp b + (1 + i))))).
  2:{ intro i. unfold quad, tvt, tv, esum, v_pos, edges, vplus. cbn [map fst snd vp combine app fold_right].
      pose proof (A (vp a + (1 + i)) (vp b + (1 + i))). pose proof (A (vp b + (1 + i)) (vp b + i)). lia. }
  rewrite sumf_plus, (tele (fun i => w (vp b + i) (vp a + i))) by (generalize nn_pos; lia).
  rewrite !Z.add_0_r, sumf_plus.
  assert (E : forall f l, sumf (fun i => - f i) l = - sumf f l) by (intros f l; unfold sumf; induction l as [|x l IH]; cbn [fold_right]; [lia|rewrite IH; lia]).
  rewrite E. lia.
Qed.

Lemma bd_strip : forall w north south pp p, anti w ->
  bd w (strip_faces north south pp p) = path w north south pp - path w north south p.
Proof.
  intros w north south pp p A. unfold strip_faces. rewrite bd_cons, bd_app, bd_quads by exact A.
  unfold bd, all_edges, esum, v_pos, edges, tvt, tv, vplus, path. cbn [flat_map map fst snd vp combine app fold_right].
  pose proof (A (vp pp) (vp p)). pose proof (A (vp p) (vp north)). pose proof (A (vp south) (vp p + (nn - 1))). lia.
Qed.

Definition Fok (s : stR) (F : list (list (Z * Z * Z))) : Prop :=
  forall f, In f F -> (length f = 3%nat \/ length f = 4%nat) /\ forall v, In v f -> exists V, v = tvt V /\ goodv s V.
Lemma Fok_app : forall s F G, Fok s F -> Fok s G -> Fok s (F ++ G).
Proof. intros s F G h1 h2 f i. rewrite in_app_iff in i. destruct i; auto. Qed.
Lemma Fok_ext : forall s s' F, Fok s F -> ext s s' -> Fok s' F.
Proof.
  intros s s' F h e f i. destruct (h f i) as [h1 h2]. split; [exact h1|]. intros v iv. destruct (h2 v iv) as [V [e1 g]].
  exists V. split; [exact e1|]. apply (goodv_ext s); assumption.
Qed.
Lemma Fok_one : forall s l, (length l = 3%nat \/ length l = 4%nat) -> Forall (goodv s) l -> Fok s [map tvt l].
Proof.
  intros s l hl h f [<-|[]]. rewrite map_length. split; [exact hl|]. intros v i. apply in_map_iff in i. destruct i as [V [e i]].
  exists V. split; [auto|]. rewrite Forall_forall in h. auto.
Qed.

Lemma Fok_quads : forall s a b, mer s nn a -> mer s nn b -> Fok s (quads a b).
Proof.
  intros s a b ha hb f i. unfold quads in i. apply in_map_iff in i. destruct i as [k [<- hk]]. apply zrange_in in hk.
  apply (Fok_one s [vplus b k; vplus a k; vplus a (1 + k); vplus b (1 + k)]); [right; reflexivity| |cbn; auto].
  fa; (apply ha || apply hb); lia.
Qed.
Lemma quads_len : forall a b, Z.of_nat (length (concat (quads a b))) = 4 * (nn - 1).
Proof.
  intros a b. unfold quads. rewrite (len_concat _ 4%nat).
  - rewrite map_length, Nat2Z.inj_mul, zrange_length. generalize nn_pos. lia.
  - rewrite Forall_forall. intros f i. apply in_map_iff in i. destruct i as [k [<- _]]. reflexivity.
Qed.

Lemma mer_0 : forall s v, mer s nn v -> goodv s v.
Proof.
  intros s v h. generalize (h 0 ltac:(generalize nn_pos; lia)). unfold vplus. rewrite !Z.add_0_r. destruct v. auto.
Qed.
Lemma mer_last : forall s v, mer s nn v -> goodv s (vplus v (nn - 1)).
Proof. intros s v h. apply h. generalize nn_pos. lia. Qed.

Lemma Fok_strip : forall s north south pp p, goodv s north -> goodv s south -> mer s nn pp -> mer s nn p -> Fok s (strip_faces north south pp p).
Proof.
  intros s north south pp p h1 h2 h3 h4. unfold strip_faces.
  apply (Fok_app s [_] (quads pp p ++ _)); [|apply Fok_app; [apply Fok_quads; assumption|]].
  - apply (Fok_one s [north; pp; p]); [auto|]. fa; auto using mer_0.
  - apply (Fok_one s [vplus p (nn - 1); vplus pp (nn - 1); south]); [auto|]. fa; auto using mer_last.
Qed.
Lemma strip_len : forall north south pp p, Z.of_nat (length (concat (strip_faces north south pp p))) = 4 * nn + 2.
Proof.
  intros. unfold strip_faces. cbn [concat]. rewrite concat_app, !app_length. cbn [concat length app]. generalize (quads_len pp p). lia.
Qed.

Ltac vert := eapply otri_vert; [exact hct|apply goodv_inr; auto using mer_0, mer_last|apply goodv_inr; auto using mer_0, mer_last|].

Lemma puts_quads : forall s a b, mer s nn a -> mer s nn b ->
  puts tex ts ct t (mfor (zrange 0 (nn - 1)) (fun i => mbind (xAddVert (vplus b i)) (fun _ => mbind (xAddVert (vplus a i)) (fun _ => mbind (xAddVert (vplus a (1 + i))) (fun _ => xAddVert (vplus b (1 + i))))))) s
    (flat_map (fun i => [vplus b i; vplus a i; vplus a (1 + i); vplus b (1 + i)]) (zrange 0 (nn - 1))).
Proof.
  intros s a b ha hb. apply puts_for. intros i hi. apply zrange_in in hi.
  change [vplus b i; vplus a i; vplus a (1 + i); vplus b (1 + i)] with ([vplus b i] ++ [vplus a i] ++ [vplus a (1 + i)] ++ [vplus b (1 + i)]).
  repeat apply puts_seq; apply (puts_one _ _ _ _ hct); apply goodv_inr; (apply ha || apply hb); lia.
Qed.
Lemma quads_verts : forall a b, map tvt (flat_map (fun i => [vplus b i; vplus a i; vplus a (1 + i); vplus b (1 + i)]) (zrange 0 (nn - 1))) = concat (quads a b).
Proof. intros. rewrite flat_map_concat_map'. reflexivity. Qed.
Lemma quads_face_len : forall a b, Forall (face_len QUADS) (quads a b).
Proof. intros. unfold quads. rewrite Forall_forall. intros f i. apply in_map_iff in i. destruct i as [k [<- _]]. reflexivity. Qed.

Lemma strip_tri : forall s north south pp p, goodv s north -> goodv s south -> mer s nn pp -> mer s nn p -> size s + (4 * nn + 2) < 2^31 ->
  triR (strip north south pp p nn) s (fun _ s' => s' = mkS (sp s) (sn s) (sf s ++ strip_faces north south pp p)).
Proof.
  intros s north south pp p h1 h2 h3 h4 hb. unfold strip. generalize nn_pos. intro hn.
  assert (SZ : forall F, size (mkS (sp s) (sn s) (sf s ++ F)) = size s + Z.of_nat (length (concat F))).
  { intro F. unfold size. cbn [sf]. rewrite concat_app, app_length. lia. }
  apply tri_begin. intro cn. vert. vert. vert. cbn [app].
  eapply (otri_end tex ts ct) with (gs := [[tv t north; tv t pp; tv t p]]); [reflexivity|repeat constructor|discriminate|cbn; lia|].
  apply tri_begin. intro cn1.
  set (s1 := mkS (sp s) (sn s) (sf s ++ [[tv t north; tv t pp; tv t p]])).
  eapply otri_puts; [apply (puts_quads s1 pp p); assumption|]. intro cn2. cbn [app].
  eapply (otri_end tex ts ct) with (gs := quads pp p); [apply quads_verts|apply quads_face_len|discriminate| |].
  { unfold s1. rewrite SZ, quads_len. cbn [concat length app]. lia. }
  apply tri_begin. intro cn3.
  set (s2 := mkS (sp s1) (sn s1) (sf s1 ++ quads pp p)).
  assert (g1 : goodv s2 (vplus p (nn - 1))) by (apply (mer_last s2); exact h4).
  assert (g2 : goodv s2 (vplus pp (nn - 1))) by (apply (mer_last s2); exact h3).
  assert (g3 : goodv s2 south) by exact h2.
  eapply otri_vert; [exact hct|apply (goodv_inr s2 _ g1)|apply (goodv_inr s2 _ g1)|].
  eapply otri_vert; [exact hct|apply (goodv_inr s2 _ g2)|apply (goodv_inr s2 _ g2)|].
  eapply otri_vert; [exact hct|apply (goodv_inr s2 _ g3)|apply (goodv_inr s2 _ g3)|]. cbn [app].
  eapply (otri_end_last tex ts ct) with (gs := [[tv t (vplus p (nn - 1)); tv t (vplus pp (nn - 1)); tv t south]]); [reflexivity|repeat constructor|discriminate| |].
  - unfold s2, s1. cbn [sp sn sf]. rewrite <- app_assoc, SZ. rewrite concat_app, app_length. cbn [concat app length]. generalize (quads_len pp p). lia.
  - unfold s2, s1, strip_faces. cbn [sp sn sf]. rewrite <- !app_assoc. reflexivity.
Qed.

(** *** Sectors *)

Definition bdpath w north south (prev : option Vert) (ms : list Vert) : Z :=
  match prev, ms with
  | Some pp, _ => path w north south pp - path w north south (last ms pp)
  | None, [] => 0
  | None, m0 :: ms' => path w north south m0 - path w north south (last ms' m0)
  end.

Definition bounded (s s' : stR) (n : Z) : Prop := size s' <= size s + n.

Lemma size_app : forall (s : stR) P N F, size (mkS (sp s ++ P) (sn s ++ N) (sf s ++ F)) = size s + Z.of_nat (length (concat F)).
Proof. intros. unfold size. cbn [sf]. rewrite concat_app, app_length. lia. Qed.

Lemma sector_tri : forall x y start step north south js prev s,
  (forall j, In j js -> dirok x y (start + IZR j * step)%R) -> goodv s north -> goodv s south ->
  (forall pp, prev = Some pp -> mer s nn pp) -> size s + Z.of_nat (length js) * (4 * nn + 2) < 2^31 ->
  triR (sector_loop ez r nb nn x y start step north south js prev) s
    (fun ms s' => exists P N F, s' = mkS (sp s ++ P) (sn s ++ N) (sf s ++ F) /\ length ms = length js /\ Forall (mer s' nn) ms /\ Fok s' F /\
       Z.of_nat (length P) = Z.of_nat (length js) * nn /\
       Z.of_nat (length (concat F)) <= Z.of_nat (length js) * (4 * nn + 2) /\ forall w, anti w -> bd w F = bdpath w north south prev ms).
Proof.
  intros x y start step north south js. induction js as [|j js IH]; intros prev s hd h1 h2 hp hb.
  - cbn [sector_loop]. apply tri_ret. exists [], [], []. rewrite !app_nil_r. destruct s.
    split; [reflexivity|]. split; [reflexivity|]. split; [constructor|]. split; [intros f []|]. split; [reflexivity|]. split; [cbn [concat length]; lia|].
    intros w A. change (bd w []) with 0. destruct prev; cbn [bdpath last]; lia.
  - cbn [sector_loop length] in *. generalize nn_pos. intro hn. rsimp.
    eapply tri_bind; [apply add_meridian; apply hd; cbn; auto|].
    intros v s1 [P [N [-> [ev [hm [lp ln]]]]]]. set (s1 := mkS (sp s ++ P) (sn s ++ N) (sf s)) in *.
    assert (E1 : ext s s1) by (exists P, N, []; rewrite app_nil_r; reflexivity).
    apply tri_assertP; [unfold s1; cbn [sp]; rewrite app_length, ev; cbn [vp]; lia|].
    apply tri_assertN; [unfold s1; cbn [sn]; rewrite app_length, ev; cbn [vn]; lia|].
    assert (S1 : size s1 = size s) by reflexivity.
    eapply tri_bind with (Q := fun _ s2 => exists F1, s2 = mkS (sp s1) (sn s1) (sf s1 ++ F1) /\ Fok s2 F1 /\
       Z.of_nat (length (concat F1)) <= 4 * nn + 2 /\ forall w, anti w -> bd w F1 = match prev with Some pp => path w north south pp - path w north south v | None => 0 end).
    { destruct prev as [pp|].
      - assert (G1 := goodv_ext s s1 north h1 E1). assert (G2 := goodv_ext s s1 south h2 E1). assert (G3 := mer_ext s s1 nn pp (hp pp eq_refl) E1).
        eapply tri_conseq; [apply strip_tri; auto; lia|]. intros _ s2 ->. eexists. split; [reflexivity|].
        split; [eapply Fok_ext; [apply (Fok_strip s1); assumption|]; apply ext_faces|].
        split; [rewrite strip_len; lia|]. intros w A. apply bd_strip. exact A.
      - apply tri_ret. exists []. rewrite app_nil_r. split; [reflexivity|]. split; [intros f []|]. split; [cbn [concat length]; lia|]. intros. reflexivity. }
    intros [] s2 [F1 [es2 [ok1 [len1 bd1]]]].
    assert (E2 : ext s1 s2) by (exists [], [], F1; rewrite !app_nil_r; exact es2).
    assert (E12 := ext_trans _ _ _ E1 E2).
    assert (SZ2 : size s2 = size s + Z.of_nat (length (concat F1))).
    { rewrite es2, <- S1. unfold size. cbn [sf]. rewrite concat_app, app_length. lia. }
    eapply tri_bind; [apply (IH (Some v) s2)|].
    + intros j' i. apply hd. cbn. auto.
    + apply (goodv_ext s); assumption.
    + apply (goodv_ext s); assumption.
    + intros pp e. injection e as <-. apply (mer_ext s1); assumption.
    + lia.
    + intros ms s3 [P3 [N3 [F3 [es3 [l3 [m3 [ok3 [lp3 [len3 bd3]]]]]]]]]. apply tri_ret.
      assert (E3 : ext s2 s3) by (do 3 eexists; exact es3).
      exists (P ++ P3), (N ++ N3), (F1 ++ F3).
      split; [rewrite es3, es2; unfold s1; cbn [sp sn sf]; rewrite <- !app_assoc; reflexivity|].
      split; [cbn [length]; lia|]. split; [constructor; [apply (mer_ext s1); [exact hm|]; apply (ext_trans s1 s2 s3); assumption|exact m3]|].
      split; [apply Fok_app; [apply (Fok_ext s2); assumption|exact ok3]|].
      split; [rewrite app_length; lia|].
      split; [rewrite concat_app, app_length; lia|].
      intros w A. rewrite bd_app, bd1, bd3 by exact A.
      assert (LST : forall d, last (v :: ms) d = last ms v).
      { clear. revert v. induction ms as [|m ms IHm]; intros v d0; [reflexivity|].
        change (last (m :: ms) d0 = last (m :: ms) v). rewrite (IHm m d0), (IHm m v). reflexivity. }
      destruct prev as [pp|]; cbn [bdpath].
      * rewrite LST. lia.
      * lia.
Qed.

Definition secok (s : stR) (q : Sector) : Prop :=
  goodv s (s_north q) /\ goodv s (s_south q) /\ exists m0 ms, s_meridians q = m0 :: ms /\ Forall (mer s nn) (m0 :: ms).
Definition front (q : Sector) : Vert := match s_meridians q with m :: _ => m | [] => mkVert 0 0 end.
Definition back (q : Sector) : Vert := match s_meridians q with m :: l => last l m | [] => mkVert 0 0 end.
Definition pf w q := path w (s_north q) (s_south q) (front q).
Definition pl w q := path w (s_north q) (s_south q) (back q).

Lemma secok_ext : forall s s' q, secok s q -> ext s s' -> secok s' q.
Proof.
  intros s s' q [h1 [h2 [m0 [ms [e h3]]]]] he. split; [apply (goodv_ext s); assumption|]. split; [apply (goodv_ext s); assumption|].
  exists m0, ms. split; [exact e|]. eapply Forall_impl; [|exact h3]. intros v hv. apply (mer_ext s); assumption.
Qed.
Lemma secok_front : forall s q, secok s q -> mer s nn (front q).
Proof. intros s q [_ [_ [m0 [ms [e h]]]]]. unfold front. rewrite e. inversion h. assumption. Qed.
Lemma last_in : forall A (l : list A) d, In (last l d) (d :: l).
Proof.
  induction l as [|x l IH]; intro d; [cbn; auto|]. destruct l as [|y l]; [cbn; auto|].
  change (last (x :: y :: l) d) with (last (y :: l) d). destruct (IH d) as [h|h]; [left; exact h|right; right; exact h].
Qed.
Lemma secok_back : forall s q, secok s q -> mer s nn (back q).
Proof. intros s q [_ [_ [m0 [ms [e h]]]]]. unfold back. rewrite e. rewrite Forall_forall in h. apply h. apply last_in. Qed.

Definition poles (s : stR) (nN sN : Z) : Prop := 0 <= nN /\ 0 <= sN /\
  nth_error (sn s) (Z.to_nat nN) = Some (0, 0, 1)%R /\ nth_error (sn s) (Z.to_nat sN) = Some (0, 0, - (1))%R.
Lemma poles_ext : forall s s' a b, poles s a b -> ext s s' -> poles s' a b.
Proof. intros s s' a b [h1 [h2 [h3 h4]]] [P [N [F ->]]]. repeat split; auto; cbn [sn]; apply nth_app; assumption. Qed.

Lemma pole_onc : forall x y z k, (x = ex \/ x = - ex)%R -> (y = ey \/ y = - ey)%R -> (z = ez /\ k = 1 \/ z = - ez /\ k = - (1))%R ->
  onc (x, y, z + r * k)%R (0, 0, k)%R.
Proof.
  intros x y z k hx hy hz. unfold onc, on_rounded_box, vdot, support, is_corner, vadd, vscale, cx, cy, cz. cbn [fst snd].
  split; [destruct hz as [[_ ->]|[_ ->]]; ring|]. split.
  - exists (x, y, z). cbn [fst snd]. split; [|apply f_equal2; [apply f_equal2|]; ring]. split; [exact hx|]. split; [exact hy|]. destruct hz as [[-> _]|[-> _]]; auto.
  - rewrite Rabs_R0. destruct hz as [[-> ->]|[-> ->]]; rewrite ?Rabs_Ropp, Rabs_R1; split; lra.
Qed.

Lemma add_sector : forall x y start step steps nN sN s,
  (forall j, 0 <= j < steps -> dirok x y (start + IZR j * step)%R) -> 1 <= steps -> poles s nN sN ->
  size s + steps * (4 * nn + 2) < 2^31 ->
  triR (xAddSector ez r nb x y start step steps nN sN) s
    (fun q s' => exists P N F, s' = mkS (sp s ++ P) (sn s ++ N) (sf s ++ F) /\ secok s' q /\ Fok s' F /\
       Z.of_nat (length P) = 2 + steps * nn /\
       Z.of_nat (length (concat F)) <= steps * (4 * nn + 2) /\ forall w, anti w -> bd w F = pf w q - pl w q).
Proof.
  intros x y start step steps nN sN [ps ns fs] hd hs [q1 [q2 [q3 q4]]] hb. unfold xAddSector, xSectorNbAdditionalVertices.
  assert (R0 : (s_eqb (Scalar := RScalar) r (s_ofZ (Scalar := RScalar) 0)) = false) by (rsimp; unfold Reqb; destruct (Req_EM_T r 0); [lra|reflexivity]).
  rewrite R0. apply tri_ret_bind.
  assert (NN : 2 * nb + (if s_eqb (Scalar := RScalar) ez (s_ofZ (Scalar := RScalar) 0) then 1 else 2) = nn).
  { unfold nn. rsimp. unfold Reqb. destruct (Req_EM_T ez 0); reflexivity. }
  rewrite NN. cbv zeta. apply tri_pos. apply tri_pos. rsimp. rewrite <- app_assoc. cbn [app].
  set (s1 := mkS (ps ++ [(x, y, (ez + r)%R); (x, y, (- (ez + r))%R)]) ns fs).
  assert (D := hd 0 ltac:(lia)). destruct D as [hx [hy _]].
  assert (G1 : goodv s1 (mkVert (Z.of_nat (length ps)) nN)).
  { unfold goodv. cbn [vp vn]. split; [lia|]. split; [exact q1|]. exists (x, y, ez + r)%R, (0, 0, 1)%R. unfold s1. cbn [sp sn].
    split; [rewrite Nat2Z.id, nth_error_app2, Nat.sub_diag by lia; reflexivity|]. split; [exact q3|].
    replace (ez + r)%R with (ez + r * 1)%R by ring. apply pole_onc; auto. }
  assert (G2 : goodv s1 (mkVert (Z.of_nat (length (ps ++ [(x, y, (ez + r)%R)]))) sN)).
  { unfold goodv. cbn [vp vn]. split; [lia|]. split; [exact q2|]. exists (x, y, - (ez + r))%R, (0, 0, - (1))%R. unfold s1. cbn [sp sn].
    split; [rewrite Nat2Z.id, app_length, nth_error_app2 by (cbn; lia); cbn [length]; replace (length ps + 1 - length ps)%nat with 1%nat by lia; reflexivity|].
    split; [exact q4|]. replace (- (ez + r))%R with (- ez + r * - (1))%R by ring. apply pole_onc; auto. }
  eapply tri_bind; [apply (sector_tri x y start step _ _ (zrange 0 steps) None s1)|].
  - intros j hj. apply zrange_in in hj. apply hd. exact hj.
  - exact G1.
  - exact G2.
  - discriminate.
  - rewrite zrange_length. unfold size in *. cbn [sf] in *. replace (Z.max 0 (steps - 0)) with steps by lia. exact hb.
  - intros ms s' [P [N [F [es [lm [hm [ok [lp [len hbd]]]]]]]]]. rewrite zrange_length in *. replace (Z.max 0 (steps - 0)) with steps in * by lia.
    apply tri_ret. assert (E : ext s1 s') by (do 3 eexists; exact es).
    exists ([(x, y, (ez + r)%R); (x, y, (- (ez + r))%R)] ++ P), N, F.
    split; [rewrite es; unfold s1; cbn [sp sn sf]; rewrite <- app_assoc; reflexivity|].
    destruct ms as [|m0 ms]; [exfalso; generalize (zrange_length 0 steps); rewrite <- lm; cbn [length]; lia|].
    split.
    { split; [apply (goodv_ext s1); assumption|]. split; [apply (goodv_ext s1); assumption|]. exists m0, ms. split; [reflexivity|exact hm]. }
    split; [exact ok|]. split; [rewrite app_length; cbn [length]; lia|]. split; [exact len|]. intros w A. rewrite hbd by exact A. reflexivity.
Qed.

(** *** Closing the surface *)

Definition junction_faces (cur nxt : Sector) : list (list (Z * Z * Z)) :=
  [tvt (s_north nxt); tvt (s_north cur); tvt (back cur); tvt (front nxt)] :: quads (back cur) (front nxt) ++
  [[tvt (vplus (front nxt) (nn - 1)); tvt (vplus (back cur) (nn - 1)); tvt (s_south cur); tvt (s_south nxt)]].

Lemma bd_junction : forall w cur nxt, anti w ->
  bd w (junction_faces cur nxt) = pl w cur - pf w nxt + w (vp (s_north nxt)) (vp (s_north cur)) + w (vp (s_south cur)) (vp (s_south nxt)).
Proof.
  intros w cur nxt A. unfold junction_faces. rewrite bd_cons, bd_app, bd_quads by exact A.
  unfold bd, all_edges, esum, v_pos, edges, tvt, tv, vplus, pl, pf, path. cbn [flat_map map fst snd vp combine app fold_right].
  pose proof (A (vp (back cur)) (vp (front nxt))). pose proof (A (vp (front nxt)) (vp (s_north nxt))).
  pose proof (A (vp (s_south nxt)) (vp (front nxt) + (nn - 1))). lia.
Qed.
Lemma junction_len : forall cur nxt, Z.of_nat (length (concat (junction_faces cur nxt))) = 4 * (nn + 1).
Proof.
  intros. unfold junction_faces. cbn [concat]. rewrite concat_app, !app_length. cbn [concat length app]. generalize (quads_len (back cur) (front nxt)). lia.
Qed.
Lemma Fok_junction : forall s cur nxt, secok s cur -> secok s nxt -> Fok s (junction_faces cur nxt).
Proof.
  intros s cur nxt h1 h2. generalize (secok_front s nxt h2), (secok_back s cur h1). destruct h1 as [a1 [a2 _]], h2 as [b1 [b2 _]]. intros m1 m2.
  unfold junction_faces. apply (Fok_app s [_] (quads _ _ ++ _)); [|apply Fok_app; [apply Fok_quads; assumption|]].
  - apply (Fok_one s [s_north nxt; s_north cur; back cur; front nxt]); [auto|]. fa; auto using mer_0.
  - apply (Fok_one s [vplus (front nxt) (nn - 1); vplus (back cur) (nn - 1); s_south cur; s_south nxt]); [auto|]. fa; auto using mer_last.
Qed.

Lemma junction_tri : forall s cur nxt, secok s cur -> secok s nxt -> size s + 4 * (nn + 1) < 2^31 ->
  triR (junction nn cur nxt) s (fun _ s' => s' = mkS (sp s) (sn s) (sf s ++ junction_faces cur nxt)).
Proof.
  intros s cur nxt h1 h2 hb. generalize (secok_front s nxt h2), (secok_back s cur h1). intros m1 m2.
  unfold junction. assert (B : (vback (s_meridians cur) : MM R Vert) = mret (back cur)).
  { destruct h1 as [_ [_ [m0 [ms [e _]]]]]. unfold back. rewrite e. reflexivity. }
  assert (F : (vfront (s_meridians nxt) : MM R Vert) = mret (front nxt)).
  { destruct h2 as [_ [_ [m0 [ms [e _]]]]]. unfold front. rewrite e. reflexivity. }
  rewrite B, F. apply tri_ret_bind. apply tri_ret_bind. destruct h1 as [a1 [a2 _]], h2 as [b1 [b2 _]].
  apply tri_begin. intro cn. vert. vert. vert. vert. cbn [app].
  eapply otri_puts; [apply (puts_quads s (back cur) (front nxt)); assumption|]. intro cn2. fold tvt. rewrite quads_verts.
  vert. vert. vert. vert.
  eapply (otri_end_last tex ts ct) with (gs := junction_faces cur nxt).
  - unfold junction_faces. cbn [concat]. rewrite concat_app. cbn [concat]. rewrite app_nil_r. rewrite <- !app_assoc. reflexivity.
  - unfold junction_faces. constructor; [reflexivity|]. apply Forall_app. split; [apply quads_face_len|]. repeat constructor.
  - discriminate.
  - rewrite junction_len. lia.
  - reflexivity.
Qed.

Lemma junctions_tri : forall L s, Forall (fun p => secok s (fst p) /\ secok s (snd p)) L -> size s + Z.of_nat (length L) * (4 * (nn + 1)) < 2^31 ->
  triR (mfor L (fun p => junction nn (fst p) (snd p))) s
    (fun _ s' => s' = mkS (sp s) (sn s) (sf s ++ flat_map (fun p => junction_faces (fst p) (snd p)) L)).
Proof.
  induction L as [|[c n] L IH]; intros s h hb; cbn [mfor flat_map].
  - apply tri_ret. rewrite app_nil_r. destruct s. reflexivity.
  - inversion h as [|x l h1 h2]. subst. cbn [fst snd length] in *.
    assert (E : ext s (mkS (sp s) (sn s) (sf s ++ junction_faces c n))) by (apply ext_faces).
    eapply tri_bind; [apply junction_tri; [apply h1|apply h1|generalize nn_pos; lia]|].
    intros _ s' ->. eapply tri_conseq; [apply IH|].
    + eapply Forall_impl; [|exact h2]. intros p [k1 k2]. split; eapply secok_ext; eassumption.
    + unfold size in *. cbn [sf]. rewrite concat_app, app_length. generalize (junction_len c n). lia.
    + cbn [sp sn sf]. intros _ s' ->. rewrite <- app_assoc. reflexivity.
Qed.

Lemma polygon_tri : forall B (k : unit -> MM R B) (qs : list Sector) g s Q, qs <> [] -> Forall (fun q => goodv s (g q)) qs -> size s + Z.of_nat (length qs) < 2^31 ->
  triR (k tt) (mkS (sp s) (sn s) (sf s ++ [map (fun q => tvt (g q)) qs])) Q ->
  triR (mbind (begin_ POLYGON) (fun _ => mbind (mfor qs (fun q => xAddVert (g q))) (fun _ => mbind end_ k))) s Q.
Proof.
  intros B k qs g s Q ne h hb hk. apply tri_begin. intro cn.
  eapply otri_puts.
  { apply puts_for with (V := fun q => [g q]). intros q i. apply (puts_one _ _ _ _ hct). apply goodv_inr. rewrite Forall_forall in h. auto. }
  intro cn'. cbn [app].
  assert (E : map (tv t) (flat_map (fun q => [g q]) qs) = map (fun q => tvt (g q)) qs).
  { clear. induction qs as [|q qs IH]; [reflexivity|]. cbn [flat_map app map]. rewrite IH. reflexivity. }
  rewrite E. eapply (otri_end tex ts ct) with (gs := [map (fun q => tvt (g q)) qs]).
  - cbn [concat]. rewrite app_nil_r. reflexivity.
  - constructor; [|constructor]. cbn. destruct qs; [contradiction|discriminate].
  - reflexivity.
  - cbn [concat]. rewrite app_nil_r, map_length. exact hb.
  - exact hk.
Qed.
Lemma polygon_tri_last : forall (qs : list Sector) g s (Q : unit -> stR -> Prop), qs <> [] -> Forall (fun q => goodv s (g q)) qs -> size s + Z.of_nat (length qs) < 2^31 ->
  Q tt (mkS (sp s) (sn s) (sf s ++ [map (fun q => tvt (g q)) qs])) ->
  triR (mbind (begin_ POLYGON) (fun _ => mbind (mfor qs (fun q => xAddVert (g q))) (fun _ => end_))) s Q.
Proof.
  intros qs g s Q ne h hb hk. apply tri_begin. intro cn.
  eapply otri_puts.
  { apply puts_for with (V := fun q => [g q]). intros q i. apply (puts_one _ _ _ _ hct). apply goodv_inr. rewrite Forall_forall in h. auto. }
  intro cn'. cbn [app].
  assert (E : map (tv t) (flat_map (fun q => [g q]) qs) = map (fun q => tvt (g q)) qs).
  { clear. induction qs as [|q qs IH]; [reflexivity|]. cbn [flat_map app map]. rewrite IH. reflexivity. }
  rewrite E. eapply (otri_end_last tex ts ct) with (gs := [map (fun q => tvt (g q)) qs]).
  - cbn [concat]. rewrite app_nil_r. reflexivity.
  - constructor; [|constructor]. cbn. destruct qs; [contradiction|discriminate].
  - reflexivity.
  - cbn [concat]. rewrite app_nil_r, map_length. exact hb.
  - exact hk.
Qed.

Lemma close_1 : forall q s, secok s q -> size s + 4 * (nn + 1) < 2^31 ->
  triR (close_sectors nn [q]) s (fun _ s' => exists F, s' = mkS (sp s) (sn s) (sf s ++ F) /\ Fok s' F /\ forall w, anti w -> bd w F = pl w q - pf w q).
Proof.
  intros q s h hb. unfold close_sectors, with_next. cbn [combine app length Nat.leb].
  eapply tri_bind; [apply junctions_tri; [fa; auto|cbn [length]; lia]|]. intros _ s' ->. apply tri_ret.
  eexists. split; [reflexivity|]. cbn [flat_map fst snd]. rewrite app_nil_r. split.
  - eapply Fok_ext; [apply (Fok_junction s); exact h|]. apply ext_faces.
  - intros w A. rewrite bd_junction by exact A. pose proof (A (vp (s_north q)) (vp (s_north q))). pose proof (A (vp (s_south q)) (vp (s_south q))). lia.
Qed.
Lemma close_2 : forall q0 q1 s, secok s q0 -> secok s q1 -> size s + 8 * (nn + 1) < 2^31 ->
  triR (close_sectors nn [q0; q1]) s (fun _ s' => exists F, s' = mkS (sp s) (sn s) (sf s ++ F) /\ Fok s' F /\
    forall w, anti w -> bd w F = pl w q0 - pf w q0 + pl w q1 - pf w q1).
Proof.
  intros q0 q1 s h0 h1 hb. unfold close_sectors, with_next. cbn [combine app length Nat.leb].
  eapply tri_bind; [apply junctions_tri; [fa; auto|cbn [length]; lia]|]. intros _ s' ->. apply tri_ret.
  eexists. split; [reflexivity|]. cbn [flat_map fst snd]. rewrite app_nil_r. split.
  - eapply Fok_ext; [apply Fok_app; apply (Fok_junction s); assumption|]. apply ext_faces.
  - intros w A. rewrite bd_app, !bd_junction by exact A. pose proof (A (vp (s_north q0)) (vp (s_north q1))). pose proof (A (vp (s_south q0)) (vp (s_south q1))). lia.
Qed.
Lemma close_4 : forall q0 q1 q2 q3 s, secok s q0 -> secok s q1 -> secok s q2 -> secok s q3 -> size s + 16 * (nn + 1) + 8 < 2^31 ->
  triR (close_sectors nn [q0; q1; q2; q3]) s (fun _ s' => exists F, s' = mkS (sp s) (sn s) (sf s ++ F) /\ Fok s' F /\
    forall w, anti w -> bd w F = pl w q0 - pf w q0 + pl w q1 - pf w q1 + pl w q2 - pf w q2 + pl w q3 - pf w q3).
Proof.
  intros q0 q1 q2 q3 s h0 h1 h2 h3 hb. unfold close_sectors, with_next. cbn [combine app length Nat.leb].
  eapply tri_bind; [apply junctions_tri; [fa; auto|cbn [length]; lia]|]. intros u s' es'. cbv beta in es'. clear u.
  set (FJ := flat_map (fun p => junction_faces (fst p) (snd p)) [(q0, q1); (q1, q2); (q2, q3); (q3, q0)]) in *.
  assert (LJ : Z.of_nat (length (concat FJ)) = 16 * (nn + 1)).
  { unfold FJ. cbn [flat_map fst snd]. rewrite !concat_app, !app_length. cbn [concat length].
    generalize (junction_len q0 q1), (junction_len q1 q2), (junction_len q2 q3), (junction_len q3 q0). lia. }
  assert (SZ : size s' = size s + 16 * (nn + 1)).
  { rewrite es'. unfold size. cbn [sf]. rewrite concat_app, app_length, Nat2Z.inj_add, LJ. reflexivity. }
  assert (E : ext s s') by (rewrite es'; apply ext_faces).
  assert (k0 := secok_ext _ _ _ h0 E). assert (k1 := secok_ext _ _ _ h1 E). assert (k2 := secok_ext _ _ _ h2 E). assert (k3 := secok_ext _ _ _ h3 E).
  assert (g0 := k0). assert (g1 := k1). assert (g2 := k2). assert (g3 := k3).
  destruct k0 as [n0 [u0 _]], k1 as [n1 [u1 _]], k2 as [n2 [u2 _]], k3 as [n3 [u3 _]].
  apply (polygon_tri unit _ [q0; q1; q2; q3] s_north s'); [discriminate|fa; auto|cbn [length]; lia|].
  set (s2 := mkS (sp s') (sn s') (sf s' ++ [map (fun q => tvt (s_north q)) [q0; q1; q2; q3]])).
  assert (E2 : ext s' s2) by (apply ext_faces).
  apply (polygon_tri_last (rev [q0; q1; q2; q3]) s_south s2); [discriminate|fa; (apply (goodv_ext s'); [assumption|exact E2])| |].
  { unfold s2, size in *. cbn [sf]. rewrite concat_app, app_length. cbn [map concat app length rev]. lia. }
  eexists. unfold s2. rewrite es'. cbn [sp sn sf]. rewrite <- !app_assoc. split; [reflexivity|]. split.
  - match goal with |- Fok ?S _ => assert (E3 : ext s S) by (apply ext_faces) end.
    eapply Fok_ext; [|exact E3]. destruct h0 as [n0' [u0' h0]], h1 as [n1' [u1' h1]], h2 as [n2' [u2' h2]], h3 as [n3' [u3' h3]].
    apply Fok_app; [unfold FJ; cbn [flat_map fst snd]; repeat apply Fok_app; try (apply Fok_junction; unfold secok; auto)|].
    + intros f [].
    + cbn [app rev]. apply (Fok_app s [_] [_]).
      * rewrite <- (map_map s_north tvt). apply (Fok_one s (map s_north [q0; q1; q2; q3])); [auto|]. fa; auto.
      * rewrite <- (map_map s_south tvt). apply (Fok_one s (map s_south [q3; q2; q1; q0])); [auto|]. fa; auto.
  - intros w A. rewrite !bd_app. unfold FJ. cbn [flat_map fst snd]. rewrite !bd_app, !bd_junction by exact A.
    unfold bd, all_edges, esum, v_pos, edges, tvt, tv. cbn [flat_map map fst snd vp combine app fold_right rev].
    pose proof (A (vp (s_north q0)) (vp (s_north q1))). pose proof (A (vp (s_north q1)) (vp (s_north q2))). pose proof (A (vp (s_north q2)) (vp (s_north q3))). pose proof (A (vp (s_north q3)) (vp (s_north q0))).
    pose proof (A (vp (s_south q0)) (vp (s_south q1))). pose proof (A (vp (s_south q1)) (vp (s_south q2))). pose proof (A (vp (s_south q2)) (vp (s_south q3))). pose proof (A (vp (s_south q3)) (vp (s_south q0))). lia.
Qed.

(** *** The whole shape *)

Lemma dirok_of : forall x y l, (x = ex /\ 0 <= cos l \/ x = - ex /\ cos l <= 0)%R -> (y = ey /\ 0 <= sin l \/ y = - ey /\ sin l <= 0)%R -> dirok x y l.
Proof.
  intros x y l hx hy. unfold dirok.
  split; [tauto|]. split; [tauto|]. split.
  - destruct hx as [[-> h]|[-> h]]; [rewrite Rabs_pos_eq by exact h; reflexivity|rewrite Rabs_left1 by exact h; ring].
  - destruct hy as [[-> h]|[-> h]]; [rewrite Rabs_pos_eq by exact h; reflexivity|rewrite Rabs_left1 by exact h; ring].
Qed.

Definition stepR : R := (2 * PI / IZR (4 * (nb + 1)))%R.
Lemma angle_range : forall k j, 0 <= j <= k * (nb + 1) -> (0 <= IZR j * stepR <= IZR k * (PI / 2))%R.
Proof.
  intros k j [h1 h2]. apply IZR_le in h1, h2. rewrite mult_IZR, plus_IZR in h2. unfold stepR. rewrite mult_IZR, plus_IZR.
  assert (hn := IZR_le _ _ hnb). generalize PI_RGT_0. intro hp.
  set (a := IZR j) in *. set (m := IZR nb) in *. set (c := IZR k) in *. clearbody a m c.
  assert (E : (a * (2 * PI / (4 * (m + 1))) = a / (m + 1) * (PI / 2))%R) by (field; lra). rewrite E.
  assert (Q : (0 <= a / (m + 1) <= c)%R).
  { split; [apply (Rmult_le_reg_r (m + 1)); [lra|]|apply (Rmult_le_reg_r (m + 1)); [lra|]]; unfold Rdiv; rewrite Rmult_assoc, Rinv_l by lra; lra. }
  split; [apply Rmult_le_pos; lra|apply Rmult_le_compat_r; lra].
Qed.
Lemma cos_sub_2PI : forall x, cos x = cos (x - 2 * PI).
Proof. intro x. rewrite cos_minus, cos_2PI, sin_2PI. ring. Qed.

Lemma geb_true : forall x, (0 <= x)%R -> (x >=? #0)%sc = true.
Proof. intros x h. rsimp. unfold Rleb. destruct (Rle_dec 0 x); [reflexivity|contradiction]. Qed.

Lemma rounded_tri : forall s : stR, size s + 32 * ((nb + 3) * (nb + 3)) < 2^31 ->
  triR (addRoundedBoxMesh ex ey ez r nb) s (fun _ s' => exists P N F, s' = mkS (sp s ++ P) (sn s ++ N) (sf s ++ F) /\
    Z.of_nat (length P) = rounded_box_points ex ey ez nb /\ Fok s' F /\ forall w, anti w -> bd w F = 0).
Proof.
  intros s hb. unfold addRoundedBoxMesh.
  apply tri_assert; [apply geb_true; exact hex|]. apply tri_assert; [apply geb_true; exact hey|]. apply tri_assert; [apply geb_true; exact hez|].
  assert (R0 : (s_eqb (Scalar := RScalar) r (s_ofZ (Scalar := RScalar) 0)) = false) by (rsimp; unfold Reqb; destruct (Req_EM_T r 0); [lra|reflexivity]).
  rewrite R0. apply tri_assert; [rsimp; unfold Rltb; destruct (Rlt_dec 0 r); [reflexivity|contradiction]|].
  unfold xSectorNbAdditionalVertices. rewrite R0. apply tri_ret_bind.
  assert (NN : 2 * nb + (if s_eqb (Scalar := RScalar) ez (s_ofZ (Scalar := RScalar) 0) then 1 else 2) = nn).
  { unfold nn. rsimp. unfold Reqb. destruct (Req_EM_T ez 0); reflexivity. }
  rewrite NN. destruct s as [ps ns fs].
  apply tri_nor; [apply near_unit_R; rsimp; ring|]. apply tri_nor; [apply near_unit_R; rsimp; ring|]. rsimp.
  rewrite <- app_assoc. cbn [app]. set (N0 := [(0, 0, 1)%R; (0, 0, - (1))%R]). set (s0 := mkS ps (ns ++ N0) fs).
  set (nN := Z.of_nat (length ns)). set (sN := Z.of_nat (length (ns ++ [(0, 0, 1)%R]))).
  assert (HP : poles s0 nN sN).
  { unfold poles, nN, sN, s0. cbn [sn]. split; [lia|]. split; [lia|]. rewrite !Nat2Z.id. split.
    - rewrite nth_error_app2, Nat.sub_diag by lia. reflexivity.
    - rewrite nth_error_app2, app_length by (rewrite app_length; cbn; lia). cbn [length]. replace (length ns + 1 - length ns)%nat with 1%nat by lia. reflexivity. }
  assert (HS : size s0 = size (mkS ps ns fs)) by reflexivity.
  fold stepR. generalize PI_RGT_0. intro hpi.
  assert (hN : 1 <= nn <= 2 * nb + 2) by (unfold nn; destruct (Req_EM_T ez 0); lia).
  assert (Q2 : Z.quot (4 * (nb + 1)) 2 = 2 * (nb + 1)) by (replace (4 * (nb + 1)) with (2 * (nb + 1) * 2) by lia; apply Z.quot_mul; lia).
  assert (Q4 : Z.quot (4 * (nb + 1)) 4 = nb + 1) by (rewrite Z.mul_comm; apply Z.quot_mul; lia).
  rewrite Q2, Q4. unfold Reqb, rounded_box_points.
  replace (2 * nb + (if Req_EM_T ez 0 then 1 else 2)) with nn by reflexivity.
  assert (B4 : forall m, m * (4 * nn + 2) <= m * (8 * nb + 10) \/ m < 0) by (intro m; destruct (Z.ltb_spec m 0); [auto|left; apply Z.mul_le_mono_nonneg_l; lia]).
  destruct (Req_EM_T ex 0) as [e1|e1], (Req_EM_T ey 0) as [e2|e2]; cbn [andb].
  - (* one sector *)
    assert (BB : 4 * (nb + 1) * (4 * nn + 2) + 4 * (nn + 1) <= 32 * ((nb + 3) * (nb + 3))) by (destruct (B4 (4 * (nb + 1))); nia).
    eapply tri_bind.
    { eapply tri_bind; [apply (add_sector ex ey 0 stepR (4 * (nb + 1)) nN sN s0); [|lia|exact HP|rewrite HS; lia]|].
      { intros j hj. split; [auto|]. split; [auto|]. rewrite e1, e2. split; ring. }
      intros q s' h. apply tri_ret. cbv beta. instantiate (1 := fun l s' => exists q, l = [q] /\ exists P N F, s' = mkS (sp s0 ++ P) (sn s0 ++ N) (sf s0 ++ F) /\ secok s' q /\ Fok s' F /\
        Z.of_nat (length P) = 2 + 4 * (nb + 1) * nn /\ Z.of_nat (length (concat F)) <= 4 * (nb + 1) * (4 * nn + 2) /\ forall w, anti w -> bd w F = pf w q - pl w q).
      exists q. auto. }
    intros l s1 [q [-> [P [N [F [es [ok [fok [lp [len hbd]]]]]]]]]].
    assert (SZ : size s1 = size s0 + Z.of_nat (length (concat F))) by (rewrite es; apply size_app).
    eapply tri_conseq; [apply (close_1 q s1); [exact ok|lia]|].
    intros u s2 [F2 [es2 [fok2 hbd2]]].
    assert (E2 : ext s1 s2) by (rewrite es2; apply ext_faces).
    exists P, (N0 ++ N), (F ++ F2). split; [rewrite es2, es; unfold s0; cbn [sp sn sf]; rewrite <- !app_assoc; reflexivity|].
    split; [exact lp|]. split; [apply Fok_app; [apply (Fok_ext s1); assumption|exact fok2]|].
    intros w A. rewrite bd_app, hbd, hbd2 by exact A. lia.
  - (* two sectors, ex = 0 *)
    assert (BB : 2 * (2 * (nb + 1) + 1) * (4 * nn + 2) + 8 * (nn + 1) <= 32 * ((nb + 3) * (nb + 3))) by (destruct (B4 (2 * (2 * (nb + 1) + 1))); nia).
    assert (BP : 0 <= (2 * (nb + 1) + 1) * (4 * nn + 2)) by (apply Z.mul_nonneg_nonneg; lia).
    eapply tri_bind.
    { instantiate (1 := fun l s' => exists q0 q1, l = [q0; q1] /\ exists P N F, s' = mkS (sp s0 ++ P) (sn s0 ++ N) (sf s0 ++ F) /\ secok s' q0 /\ secok s' q1 /\ Fok s' F /\
        Z.of_nat (length P) = 2 * (2 + (2 * (nb + 1) + 1) * nn) /\ Z.of_nat (length (concat F)) <= 2 * (2 * (nb + 1) + 1) * (4 * nn + 2) /\
        forall w, anti w -> bd w F = pf w q0 - pl w q0 + pf w q1 - pl w q1).
      eapply tri_bind; [apply (add_sector ex ey 0 stepR (2 * (nb + 1) + 1) nN sN s0); [|lia|exact HP|rewrite HS; lia]|].
      { intros j hj. destruct (angle_range 2 j ltac:(lia)) as [g1 g2]. apply dirok_of.
        - destruct (Rle_dec 0 (cos (0 + IZR j * stepR))); [left; auto|right; rewrite e1; split; [ring|lra]].
        - left. split; [reflexivity|]. apply sin_ge_0; lra. }
      intros q0 s1 [P [N [F [es [ok [fok [lp [len hbd]]]]]]]].
      assert (SZ : size s1 = size s0 + Z.of_nat (length (concat F))) by (rewrite es; apply size_app).
      assert (X1 : ext s0 s1) by (do 3 eexists; exact es).
      eapply tri_bind; [apply (add_sector ex (- ey) PI stepR (2 * (nb + 1) + 1) nN sN s1); [|lia|apply (poles_ext s0); assumption|lia]|].
      { intros j hj. destruct (angle_range 2 j ltac:(lia)) as [g1 g2]. apply dirok_of.
        - destruct (Rle_dec 0 (cos (PI + IZR j * stepR))); [left; auto|right; rewrite e1; split; [ring|lra]].
        - right. split; [reflexivity|]. apply sin_le_0; lra. }
      intros q1 s2 [P' [N' [F' [es' [ok' [fok' [lp' [len' hbd']]]]]]]]. apply tri_ret.
      assert (X2 : ext s1 s2) by (do 3 eexists; exact es').
      exists q0, q1. split; [reflexivity|]. exists (P ++ P'), (N ++ N'), (F ++ F').
      split; [rewrite es', es; cbn [sp sn sf]; rewrite <- !app_assoc; reflexivity|].
      split; [apply (secok_ext s1); assumption|]. split; [exact ok'|]. split; [apply Fok_app; [apply (Fok_ext s1); assumption|exact fok']|].
      split; [rewrite app_length; lia|]. split; [rewrite concat_app, app_length; lia|].
      intros w A. rewrite bd_app, hbd, hbd' by exact A. lia. }
    intros l s1 [q0 [q1 [-> [P [N [F [es [ok0 [ok1 [fok [lp [len hbd]]]]]]]]]]]].
    assert (SZ : size s1 = size s0 + Z.of_nat (length (concat F))) by (rewrite es; apply size_app).
    eapply tri_conseq; [apply (close_2 q0 q1 s1); [exact ok0|exact ok1|lia]|].
    intros u s2 [F2 [es2 [fok2 hbd2]]].
    assert (E2 : ext s1 s2) by (rewrite es2; apply ext_faces).
    exists P, (N0 ++ N), (F ++ F2). split; [rewrite es2, es; unfold s0; cbn [sp sn sf]; rewrite <- !app_assoc; reflexivity|].
    split; [exact lp|]. split; [apply Fok_app; [apply (Fok_ext s1); assumption|exact fok2]|].
    intros w A. rewrite bd_app, hbd, hbd2 by exact A. lia.
  - (* two sectors, ey = 0 *)
    assert (BB : 2 * (2 * (nb + 1) + 1) * (4 * nn + 2) + 8 * (nn + 1) <= 32 * ((nb + 3) * (nb + 3))) by (destruct (B4 (2 * (2 * (nb + 1) + 1))); nia).
    assert (BP : 0 <= (2 * (nb + 1) + 1) * (4 * nn + 2)) by (apply Z.mul_nonneg_nonneg; lia).
    eapply tri_bind.
    { instantiate (1 := fun l s' => exists q0 q1, l = [q0; q1] /\ exists P N F, s' = mkS (sp s0 ++ P) (sn s0 ++ N) (sf s0 ++ F) /\ secok s' q0 /\ secok s' q1 /\ Fok s' F /\
        Z.of_nat (length P) = 2 * (2 + (2 * (nb + 1) + 1) * nn) /\ Z.of_nat (length (concat F)) <= 2 * (2 * (nb + 1) + 1) * (4 * nn + 2) /\
        forall w, anti w -> bd w F = pf w q0 - pl w q0 + pf w q1 - pl w q1).
      eapply tri_bind; [apply (add_sector ex ey (- PI / 2) stepR (2 * (nb + 1) + 1) nN sN s0); [|lia|exact HP|rewrite HS; lia]|].
      { intros j hj. destruct (angle_range 2 j ltac:(lia)) as [g1 g2]. apply dirok_of.
        - left. split; [reflexivity|]. apply cos_ge_0; lra.
        - destruct (Rle_dec 0 (sin (- PI / 2 + IZR j * stepR))); [left; auto|right; rewrite e2; split; [ring|lra]]. }
      intros q0 s1 [P [N [F [es [ok [fok [lp [len hbd]]]]]]]].
      assert (SZ : size s1 = size s0 + Z.of_nat (length (concat F))) by (rewrite es; apply size_app).
      assert (X1 : ext s0 s1) by (do 3 eexists; exact es).
      eapply tri_bind; [apply (add_sector (- ex) ey (PI / 2) stepR (2 * (nb + 1) + 1) nN sN s1); [|lia|apply (poles_ext s0); assumption|lia]|].
      { intros j hj. destruct (angle_range 2 j ltac:(lia)) as [g1 g2]. apply dirok_of.
        - right. split; [reflexivity|]. apply cos_le_0; lra.
        - destruct (Rle_dec 0 (sin (PI / 2 + IZR j * stepR))); [left; auto|right; rewrite e2; split; [ring|lra]]. }
      intros q1 s2 [P' [N' [F' [es' [ok' [fok' [lp' [len' hbd']]]]]]]]. apply tri_ret.
      assert (X2 : ext s1 s2) by (do 3 eexists; exact es').
      exists q0, q1. split; [reflexivity|]. exists (P ++ P'), (N ++ N'), (F ++ F').
      split; [rewrite es', es; cbn [sp sn sf]; rewrite <- !app_assoc; reflexivity|].
      split; [apply (secok_ext s1); assumption|]. split; [exact ok'|]. split; [apply Fok_app; [apply (Fok_ext s1); assumption|exact fok']|].
      split; [rewrite app_length; lia|]. split; [rewrite concat_app, app_length; lia|].
      intros w A. rewrite bd_app, hbd, hbd' by exact A. lia. }
    intros l s1 [q0 [q1 [-> [P [N [F [es [ok0 [ok1 [fok [lp [len hbd]]]]]]]]]]]].
    assert (SZ : size s1 = size s0 + Z.of_nat (length (concat F))) by (rewrite es; apply size_app).
    eapply tri_conseq; [apply (close_2 q0 q1 s1); [exact ok0|exact ok1|lia]|].
    intros u s2 [F2 [es2 [fok2 hbd2]]].
    assert (E2 : ext s1 s2) by (rewrite es2; apply ext_faces).
    exists P, (N0 ++ N), (F ++ F2). split; [rewrite es2, es; unfold s0; cbn [sp sn sf]; rewrite <- !app_assoc; reflexivity|].
    split; [exact lp|]. split; [apply Fok_app; [apply (Fok_ext s1); assumption|exact fok2]|].
    intros w A. rewrite bd_app, hbd, hbd2 by exact A. lia.
  - (* four sectors *)
    assert (BB : 4 * (nb + 1 + 1) * (4 * nn + 2) + 16 * (nn + 1) + 8 <= 32 * ((nb + 3) * (nb + 3))) by (destruct (B4 (4 * (nb + 1 + 1))); nia).
    assert (BP : 0 <= (nb + 1 + 1) * (4 * nn + 2)) by (apply Z.mul_nonneg_nonneg; lia).
    eapply tri_bind.
    { instantiate (1 := fun l s' => exists q0 q1 q2 q3, l = [q0; q1; q2; q3] /\ exists P N F, s' = mkS (sp s0 ++ P) (sn s0 ++ N) (sf s0 ++ F) /\
        secok s' q0 /\ secok s' q1 /\ secok s' q2 /\ secok s' q3 /\ Fok s' F /\
        Z.of_nat (length P) = 4 * (2 + (nb + 1 + 1) * nn) /\ Z.of_nat (length (concat F)) <= 4 * (nb + 1 + 1) * (4 * nn + 2) /\
        forall w, anti w -> bd w F = pf w q0 - pl w q0 + pf w q1 - pl w q1 + pf w q2 - pl w q2 + pf w q3 - pl w q3).
      eapply tri_bind; [apply (add_sector ex ey 0 stepR (nb + 1 + 1) nN sN s0); [|lia|exact HP|rewrite HS; lia]|].
      { intros j hj. destruct (angle_range 1 j ltac:(lia)) as [g1 g2]. apply dirok_of.
        - left. split; [reflexivity|]. apply cos_ge_0; lra.
        - left. split; [reflexivity|]. apply sin_ge_0; lra. }
      intros q0 s1 [P1 [N1 [F1 [es1 [ok1 [fok1 [lp1 [len1 hbd1]]]]]]]].
      assert (SZ1 : size s1 = size s0 + Z.of_nat (length (concat F1))) by (rewrite es1; apply size_app).
      assert (X1 : ext s0 s1) by (do 3 eexists; exact es1).
      eapply tri_bind; [apply (add_sector (- ex) ey (PI / 2) stepR (nb + 1 + 1) nN sN s1); [|lia|apply (poles_ext s0); assumption|lia]|].
      { intros j hj. destruct (angle_range 1 j ltac:(lia)) as [g1 g2]. apply dirok_of.
        - right. split; [reflexivity|]. apply cos_le_0; lra.
        - left. split; [reflexivity|]. apply sin_ge_0; lra. }
      intros q1 s2 [P2 [N2 [F2 [es2 [ok2 [fok2 [lp2 [len2 hbd2]]]]]]]].
      assert (SZ2 : size s2 = size s1 + Z.of_nat (length (concat F2))) by (rewrite es2; apply size_app).
      assert (X2 : ext s1 s2) by (do 3 eexists; exact es2).
      eapply tri_bind; [apply (add_sector (- ex) (- ey) PI stepR (nb + 1 + 1) nN sN s2); [|lia|apply (poles_ext s1); [apply (poles_ext s0)|]; assumption|lia]|].
      { intros j hj. destruct (angle_range 1 j ltac:(lia)) as [g1 g2]. apply dirok_of.
        - right. split; [reflexivity|]. apply cos_le_0; lra.
        - right. split; [reflexivity|]. apply sin_le_0; lra. }
      intros q2 s3 [P3 [N3 [F3 [es3 [ok3 [fok3 [lp3 [len3 hbd3]]]]]]]].
      assert (SZ3 : size s3 = size s2 + Z.of_nat (length (concat F3))) by (rewrite es3; apply size_app).
      assert (X3 : ext s2 s3) by (do 3 eexists; exact es3).
      eapply tri_bind; [apply (add_sector ex (- ey) (3 * PI / 2) stepR (nb + 1 + 1) nN sN s3); [|lia|apply (poles_ext s2); [apply (poles_ext s1); [apply (poles_ext s0)|]|]; assumption|lia]|].
      { intros j hj. destruct (angle_range 1 j ltac:(lia)) as [g1 g2]. apply dirok_of.
        - left. split; [reflexivity|]. rewrite cos_sub_2PI. apply cos_ge_0; lra.
        - right. split; [reflexivity|]. apply sin_le_0; lra. }
      intros q3 s4 [P4 [N4 [F4 [es4 [ok4 [fok4 [lp4 [len4 hbd4]]]]]]]]. apply tri_ret.
      assert (X4 : ext s3 s4) by (do 3 eexists; exact es4).
      assert (X34 := ext_trans _ _ _ X3 X4). assert (X234 := ext_trans _ _ _ X2 X34).
      exists q0, q1, q2, q3. split; [reflexivity|]. exists (P1 ++ P2 ++ P3 ++ P4), (N1 ++ N2 ++ N3 ++ N4), (F1 ++ F2 ++ F3 ++ F4).
      split; [rewrite es4, es3, es2, es1; cbn [sp sn sf]; rewrite <- !app_assoc; reflexivity|].
      split; [apply (secok_ext s1); assumption|]. split; [apply (secok_ext s2); assumption|]. split; [apply (secok_ext s3); assumption|]. split; [exact ok4|].
      split; [repeat apply Fok_app; [apply (Fok_ext s1)|apply (Fok_ext s2)|apply (Fok_ext s3)|]; assumption|].
      split; [rewrite !app_length; lia|]. split; [rewrite !concat_app, !app_length; lia|].
      intros w A. rewrite !bd_app, hbd1, hbd2, hbd3, hbd4 by exact A. lia. }
    intros l s1 [q0 [q1 [q2 [q3 [-> [P [N [F [es [ok0 [ok1 [ok2 [ok3 [fok [lp [len hbd]]]]]]]]]]]]]]]].
    assert (SZ : size s1 = size s0 + Z.of_nat (length (concat F))) by (rewrite es; apply size_app).
    eapply tri_conseq; [apply (close_4 q0 q1 q2 q3 s1); [exact ok0|exact ok1|exact ok2|exact ok3|lia]|].
    intros u s2 [F2 [es2 [fok2 hbd2]]].
    assert (E2 : ext s1 s2) by (rewrite es2; apply ext_faces).
    exists P, (N0 ++ N), (F ++ F2). split; [rewrite es2, es; unfold s0; cbn [sp sn sf]; rewrite <- !app_assoc; reflexivity|].
    split; [exact lp|]. split; [apply Fok_app; [apply (Fok_ext s1); assumption|exact fok2]|].
    intros w A. rewrite bd_app, hbd, hbd2 by exact A. lia.
Qed.

End Rounded.

Lemma C41_rounded_box_proof : forall (d : Mesh R) (a : AMesh R) (ex ey ez r : R) (nb : Z),
  (0 <= ex /\ 0 <= ey /\ 0 <= ez /\ 0 < r)%R -> 0 <= nb ->
  represents d a -> ready (m_tex d) a (32 * ((nb + 3) * (nb + 3))) ->
  exists d' a' ps ns fs, addRoundedBoxMesh ex ey ez r nb d = (Ok tt, d') /\ m_tex d' = m_tex d /\ represents d' a' /\ adds a a' ps ns fs /\
    Z.of_nat (length ps) = rounded_box_points ex ey ez nb /\
    indices_ok a' fs /\ (forall f, In f fs -> length f = 3%nat \/ length f = 4%nat) /\ closed_surface fs /\
    (forall f v, In f fs -> In v f -> exists p n, pt a' v p /\ nrm a' v n /\ on_rounded_box ex ey ez r (ez / 500) p n).
Proof.
  intros d a ex ey ez r nb [h1 [h2 [h3 hr]]] hnb hrep hready.
  destruct (tri_mesh R RScalar unit (addRoundedBoxMesh ex ey ez r nb) d a (32 * ((nb + 3) * (nb + 3)))
     (fun t _ s' => exists P N F, s' = mkS (a_points a ++ P) (a_normals a ++ N) (a_faces a ++ F) /\
        Z.of_nat (length P) = rounded_box_points ex ey ez nb /\ Fok t ex ey ez r s' F /\ forall w, anti w -> bd w F = 0) hrep hready)
    as [t [u [d' [a' [s' [e [et [hr' [[P [N [F [-> [lp [fok hbd]]]]]] [p1 [p2 [p3 [p4 [p5 p6]]]]]]]]]]]]]].
  { intros t ht. apply (rounded_tri (m_tex d) _ _ t ht ex ey ez r nb h1 h2 h3 hr hnb (mkS (a_points a) (a_normals a) (a_faces a))).
    destruct hready as [_ [_ h]]. exact h. }
  destruct u. cbn [sp sn sf] in *. exists d', a', P, N, F.
  split; [exact e|]. split; [exact et|]. split; [exact hr'|]. split; [exact (conj p1 (conj p2 (conj p3 (conj p4 (conj p5 p6)))))|].
  split; [exact lp|].
  assert (G : forall f v, In f F -> In v f -> exists V, v = tv t V /\ goodv ex ey ez r (mkS (a_points a ++ P) (a_normals a ++ N) (a_faces a ++ F)) V).
  { intros f v hf hv. apply (fok f hf). exact hv. }
  split.
  { intros f v hf hv. destruct (G f v hf hv) as [V [-> g]]. rewrite p1, p2. apply (goodv_inr ex ey ez r _ _ g). }
  split; [intros f hf; apply (fok f hf)|]. split; [apply closed_of_bd; exact hbd|].
  intros f v hf hv. destruct (G f v hf hv) as [V [-> [_ [_ [p [n [q1 [q2 q3]]]]]]]]. exists p, n. unfold pt, nrm. rewrite p1, p2. auto.
Qed.


Lemma C41_rounded_zero_proof : forall (ex ey ez : R) (nb : Z) (d : Mesh R), (0 <= ex /\ 0 <= ey /\ 0 <= ez)%R ->
  addRoundedBoxMesh ex ey ez 0%R nb d = addBoxMesh ex ey ez d.
Proof.
  intros ex ey ez nb d [h1 [h2 h3]]. unfold addRoundedBoxMesh, mbind, massert. rewrite !geb_true by assumption. rsimp. unfold Reqb.
  destruct (Req_EM_T 0 0); [reflexivity|lra].
Qed.


Lemma C41_negative_proof : forall (ex ey ez r : R) (nb : Z) (d : Mesh R), (ex < 0 \/ ey < 0 \/ ez < 0 \/ r < 0)%R ->
  addRoundedBoxMesh ex ey ez r nb d = (Abort, d).
Proof.
  intros ex ey ez r nb d h. unfold addRoundedBoxMesh, mbind, massert. rsimp. unfold Rleb, Rltb, Reqb, mret, mabort.
  destruct (Rle_dec 0 ex); [|reflexivity]. destruct (Rle_dec 0 ey); [|reflexivity]. destruct (Rle_dec 0 ez); [|reflexivity].
  destruct (Req_EM_T r 0); [lra|]. destruct (Rlt_dec 0 r); [lra|reflexivity].
Qed.


Lemma first_meridian : forall (s : st R), tri false ([] : list (R * R)) None (xAddMeridian 1 1 0 0 0 0)%R s
  (fun v s' => v = mkVert (Z.of_nat (length (sp s))) (Z.of_nat (length (sn s))) /\
     s' = mkS (sp s ++ [(sin (157/100), 0, 1 + cos (157/100)); (sin (157/100), 0, - 1 + cos (157/100))]%R)
              (sn s ++ [(sin (157/100), 0, cos (157/100)); (sin (157/100), 0, cos (157/100))]%R) (sf s)).
Proof.
  intros [ps ns fs] d hst. unfold xAddMeridian.
  assert (E : mkVert (positionsNb d) (normalsNb d) = mkVert (Z.of_nat (length ps)) (Z.of_nat (length ns))).
  { destruct hst as [cn ->]. unfold dst, amk. rewrite positionsNb_mk, normalsNb_mk. reflexivity. }
  rewrite E. revert d hst E.
  match goal with |- forall d, St _ _ _ _ d -> _ -> exists r0 d' s', ?m d = _ /\ _ /\ ?Q => cut (tri false [] None m (mkS ps ns fs)
    (fun v s' => v = mkVert (Z.of_nat (length ps)) (Z.of_nat (length ns)) /\
     s' = mkS (ps ++ [(sin (157/100), 0, 1 + cos (157/100)); (sin (157/100), 0, - 1 + cos (157/100))]%R)
              (ns ++ [(sin (157/100), 0, cos (157/100)); (sin (157/100), 0, cos (157/100))]%R) fs)) end.
  { intros K d hst _. exact (K d hst). }
  rewrite (zrange_cons 1 (2 * (0 + 1))), zrange_nil by lia. cbn [meridian_loop]. rsimp.
  replace (1 * (314 / 100 / IZR (2 * (0 + 1))))%R with (157/100)%R by (cbn -[Rmult Rdiv]; lra).
  assert (NU : near_unit (sin (157/100) * cos 0)%R (sin (157/100) * sin 0)%R (cos (157/100)) = true).
  { apply near_unit_R. rewrite cos_0, sin_0. generalize (sin2_cos2 (157/100)). unfold Rsqr. lra. }
  assert (R0 : Reqb 1 0 = false) by (unfold Reqb; destruct (Req_EM_T 1 0); [lra|reflexivity]). rewrite R0.
  change (1 mod (2 * (0 + 1) / 2) =? 0) with true. cbn [andb negb].
  eapply tri_bind with (Q := fun _ s' => s' = mkS (ps ++ [(sin (157/100), 0, 1 + cos (157/100)); (sin (157/100), 0, - 1 + cos (157/100))]%R)
              (ns ++ [(sin (157/100), 0, cos (157/100)); (sin (157/100), 0, cos (157/100))]%R) fs).
  2:{ intros [] s' ->. apply tri_ret. auto. }
  apply tri_nor; [exact NU|]. apply tri_pos. apply tri_nor; [exact NU|]. apply tri_pos. apply tri_ret.
  rewrite <- !app_assoc. cbn [app]. rewrite cos_0, sin_0.
  assert (A : forall x, (x * 1 = x)%R) by (intro; ring). assert (B : forall x, (x * 0 = 0)%R) by (intro; ring).
  assert (C : forall x, (0 + x = x)%R) by (intro; ring). assert (D : forall x, (1 * x = x)%R) by (intro; ring).
  rewrite ?A, ?B, ?D, ?C. replace (- (1))%R with (-1)%R by lra. reflexivity.
Qed.

Lemma bad_face : forall ps ns fs (s := mkS ps ns fs), size s + 32 * (3 * 3) < 2^31 ->
  tri false ([] : list (R * R)) None (addRoundedBoxMesh 0%R 0%R 1%R 1%R 0) s (fun _ s' => exists f v, In f (sf s') /\ In v f /\
    nth_error (sp s') (Z.to_nat (v_pos v)) = Some (sin (157/100), 0, -1 + cos (157/100))%R /\
    nth_error (sn s') (Z.to_nat (v_nor v)) = Some (sin (157/100), 0, cos (157/100))%R).
Proof.
  intros ps ns fs s hb. unfold addRoundedBoxMesh.
  do 3 (apply tri_assert; [apply geb_true; lra|]).
  assert (R0 : (s_eqb (Scalar := RScalar) 1%R (s_ofZ (Scalar := RScalar) 0)) = false) by (rsimp; unfold Reqb; destruct (Req_EM_T 1 0); [lra|reflexivity]).
  assert (T0 : (s_eqb (Scalar := RScalar) 0%R (s_ofZ (Scalar := RScalar) 0)) = true) by (rsimp; unfold Reqb; destruct (Req_EM_T 0 0); [reflexivity|lra]).
  rewrite R0. apply tri_assert; [rsimp; unfold Rltb; destruct (Rlt_dec 0 1); [reflexivity|lra]|].
  unfold xSectorNbAdditionalVertices. rewrite R0. apply tri_ret_bind.
  assert (NN : 2 * 0 + 2 = nn 1 0) by (unfold nn; destruct (Req_EM_T 1 0); [lra|reflexivity]).
  assert (N2 : nn 1 0 = 2) by (rewrite <- NN; reflexivity).
  rewrite NN. unfold s.
  apply tri_nor; [apply near_unit_R; rsimp; ring|]. apply tri_nor; [apply near_unit_R; rsimp; ring|]. rsimp.
  rewrite <- app_assoc. cbn [app]. rewrite T0 || (unfold Reqb; destruct (Req_EM_T 0 0) as [_|k]; [|exfalso; apply k; reflexivity]).
  cbn [andb].
  set (N0 := [(0, 0, 1)%R; (0, 0, - (1))%R]). set (nN := Z.of_nat (length ns)). set (sN := Z.of_nat (length (ns ++ [(0, 0, 1)%R]))).
  replace (4 * (0 + 1)) with 4 by reflexivity. set (step := (2 * PI / 4)%R).
  pose (bad := fun s' : st R => exists f v, In f (sf s') /\ In v f /\
    nth_error (sp s') (Z.to_nat (v_pos v)) = Some (sin (157/100), 0, -1 + cos (157/100))%R /\
    nth_error (sn s') (Z.to_nat (v_nor v)) = Some (sin (157/100), 0, cos (157/100))%R).
  assert (DIR : forall l, dirok 0 0 0 0 l) by (intro l; unfold dirok; repeat split; auto; ring).
  assert (hct : (if false then @None Z else Some 0) = Some 0) by reflexivity.
  eapply tri_bind with (Q := fun l s' => exists q, l = [q] /\ secok 0 0 1 1 0 s' q /\ size s' <= size s + 56 /\ bad s').
  { eapply tri_bind with (Q := fun q s' => secok 0 0 1 1 0 s' q /\ size s' <= size s + 56 /\ bad s').
    2:{ intros q s' h. apply tri_ret. exists q. auto. }
    unfold xAddSector, xSectorNbAdditionalVertices. rsimp. rewrite R0. apply tri_ret_bind.
    rewrite NN. apply tri_pos. apply tri_pos. rewrite <- app_assoc. cbn [app].
    set (s1 := mkS (ps ++ [(0, 0, 1 + 1)%R; (0, 0, - (1 + 1))%R]) (ns ++ N0) fs).
    set (north := mkVert (Z.of_nat (length ps)) nN). set (south := mkVert (Z.of_nat (length (ps ++ [(0, 0, (1 + 1))%R]))) sN).
    assert (G1 : goodv 0 0 1 1 s1 north).
    { unfold goodv, north, nN. cbn [vp vn]. split; [lia|]. split; [lia|]. exists (0, 0, 1 + 1)%R, (0, 0, 1)%R. unfold s1. cbn [sp sn].
      rewrite !Nat2Z.id, !nth_error_app2, !Nat.sub_diag by lia. split; [reflexivity|]. split; [reflexivity|].
      replace (1 + 1)%R with (1 + 1 * 1)%R by ring. apply pole_onc; auto; lra. }
    assert (G2 : goodv 0 0 1 1 s1 south).
    { unfold goodv, south, sN. cbn [vp vn]. split; [lia|]. split; [lia|]. exists (0, 0, - (1 + 1))%R, (0, 0, - (1))%R. unfold s1. cbn [sp sn].
      rewrite !Nat2Z.id, !app_length, !nth_error_app2 by (cbn; lia). cbn [length].
      replace (length ps + 1 - length ps)%nat with 1%nat by lia. replace (length ns + 1 - length ns)%nat with 1%nat by lia. split; [reflexivity|]. split; [reflexivity|].
      replace (- (1 + 1))%R with (- (1) + 1 * - (1))%R by ring. apply pole_onc; auto; lra. }
    eapply tri_bind with (Q := fun ms s' => Z.of_nat (length ms) = 4 /\ ext s1 s' /\ Forall (mer 0 0 1 1 s' (nn 1 0)) ms /\ size s' <= size s + 56 /\ bad s').
    2:{ intros ms s' [l [e [m [z b]]]]. apply tri_ret. split; [|auto].
        split; [apply (goodv_ext 0 0 1 1 s1); assumption|]. split; [apply (goodv_ext 0 0 1 1 s1); assumption|].
        destruct ms as [|m0 ms]; [discriminate l|]. exists m0, ms. auto. }
    rewrite (zrange_cons 0 4), (zrange_cons (0 + 1) 4) by lia. change (0 + 1 + 1) with 2. change (0 + 1) with 1. cbn [sector_loop].
    replace (0 + 0 * step)%R with 0%R by ring. rsimp. replace (0 + 0 * step)%R with 0%R by ring.
    eapply tri_bind; [apply first_meridian|]. intros v s2 [-> es2].
    assert (E2 : ext s1 s2) by (rewrite es2; do 2 eexists; exists []; rewrite (app_nil_r (sf s1)); reflexivity).
    apply tri_assertP; [rewrite es2, N2; cbn [sp vp]; rewrite app_length; cbn [length]; lia|].
    apply tri_assertN; [rewrite es2, N2; cbn [sn vn]; rewrite app_length; cbn [length]; lia|].
    apply tri_ret_bind. set (v := mkVert (Z.of_nat (length (sp s1))) (Z.of_nat (length (sn s1)))).
    assert (M2 : mer 0 0 1 1 s2 (nn 1 0) v).
    { assert (L : (IZR 1 * dphi 0 = 157/100)%R) by (unfold dphi; cbn -[Rmult Rdiv]; lra).
      assert (l1 := low_ok 1 0 ltac:(lra) ltac:(lia) 1 ltac:(lia)). assert (l2 := high_ok 1 0 ltac:(lra) ltac:(lia) 1 ltac:(lia)). rewrite L in l1, l2.
      intros i hi. rewrite N2 in hi. unfold goodv, vplus, v. cbn [vp vn]. split; [lia|]. split; [lia|]. rewrite es2. cbn [sp sn].
      assert (i = 0 \/ i = 1) as [-> | ->] by lia.
      - exists (sin (157/100), 0, 1 + cos (157/100))%R, (sin (157/100), 0, cos (157/100))%R.
        rewrite !nth_error_app2 by lia. rewrite !Z.add_0_r, !Nat2Z.id, !Nat.sub_diag. split; [reflexivity|]. split; [reflexivity|].
        generalize (onc_dir 0 0 1 1 0 0 1 0 (157/100) (DIR 0%R) (or_introl eq_refl) (proj1 l1) (proj2 l1)). rewrite cos_0, sin_0.
        replace (0 + 1 * sin (157/100) * 1)%R with (sin (157/100)) by ring. replace (0 + 1 * sin (157/100) * 0)%R with 0%R by ring.
        rewrite Rmult_1_r, Rmult_0_r, Rmult_1_l. auto.
      - exists (sin (157/100), 0, -1 + cos (157/100))%R, (sin (157/100), 0, cos (157/100))%R.
        rewrite !nth_error_app2 by lia. 
        replace (Z.to_nat (Z.of_nat (length (sp s1)) + 1) - length (sp s1))%nat with 1%nat by lia.
        replace (Z.to_nat (Z.of_nat (length (sn s1)) + 1) - length (sn s1))%nat with 1%nat by lia. split; [reflexivity|]. split; [reflexivity|].
        generalize (onc_dir 0 0 1 1 0 0 (- (1)) 0 (157/100) (DIR 0%R) (or_intror eq_refl) (proj1 l2) (proj2 l2)). rewrite cos_0, sin_0.
        replace (0 + 1 * sin (157/100) * 1)%R with (sin (157/100)) by ring. replace (0 + 1 * sin (157/100) * 0)%R with 0%R by ring.
        rewrite Rmult_1_r, Rmult_0_r, Rmult_1_l. replace (- (1))%R with (-1)%R by lra. auto. }
    eapply tri_bind with (Q := fun ms s' => Z.of_nat (length ms) = 3 /\ ext s1 s' /\ Forall (mer 0 0 1 1 s' (nn 1 0)) (v :: ms) /\ size s' <= size s + 56 /\ bad s').
    2:{ intros ms s' [l [e [m [z b]]]]. apply tri_ret. split; [cbn [length]; lia|auto]. }
    eapply tri_bind; [apply (add_meridian false [] None 0 0 1 1 0); try lra; try lia; apply DIR|].
    intros v2 s3 [P3 [N3 [es3 [ev2 [M3 [lp3 ln3]]]]]].
    assert (E3 : ext s2 s3) by (exists P3, N3, []; rewrite app_nil_r; exact es3).
    apply tri_assertP; [rewrite es3, ev2; cbn [sp vp]; rewrite app_length; lia|].
    apply tri_assertN; [rewrite es3, ev2; cbn [sn vn]; rewrite app_length; lia|].
    assert (E23 := ext_trans _ _ _ E2 E3).
    assert (SZ3 : size s3 = size s) by (rewrite es3, es2; reflexivity).
    eapply tri_bind; [apply (strip_tri false [] None 0 hct 0 0 1 1 0); try lia; [apply (goodv_ext 0 0 1 1 s1); assumption|apply (goodv_ext 0 0 1 1 s1); assumption|apply (mer_ext 0 0 1 1 s2); assumption|exact M3]|].
    intros [] s4 es4.
    assert (E4 : ext s3 s4) by (rewrite es4; apply ext_faces).
    assert (E14 := ext_trans _ _ _ E23 E4). assert (E24 := ext_trans _ _ _ E3 E4).
    assert (SZ4 : size s4 = size s + 10).
    { rewrite <- SZ3, es4. unfold size. cbn [sf]. rewrite concat_app, app_length, Nat2Z.inj_add, strip_len, N2 by lia. lia. }
    eapply tri_bind; [apply (sector_tri false [] None 0 hct 0 0 1 1 0) with (s := s4); try lra; try lia|].
    + intros j hj. apply DIR.
    + apply (goodv_ext 0 0 1 1 s1); assumption.
    + apply (goodv_ext 0 0 1 1 s1); assumption.
    + intros pp e. injection e as <-. apply (mer_ext 0 0 1 1 s3); assumption.
    + rewrite zrange_length, N2. cbn. lia.
    + intros ms s5 [P5 [N5 [F5 [es5 [l5 [m5 [_ [_ [len5 _]]]]]]]]]. apply tri_ret.
      assert (E5 : ext s4 s5) by (do 3 eexists; exact es5).
      assert (LZ : Z.of_nat (length ms) = 2) by (rewrite l5, zrange_length; reflexivity).
      split; [cbn [length]; lia|]. split; [apply (ext_trans _ s4); assumption|].
      split. { constructor; [apply (mer_ext 0 0 1 1 s2); [exact M2|]; apply (ext_trans _ s4); assumption|]. constructor; [apply (mer_ext 0 0 1 1 s3); [exact M3|]; apply (ext_trans _ s4); assumption|exact m5]. }
      split. { rewrite es5, size_app, SZ4. rewrite zrange_length, N2 in len5. cbn in len5. lia. }
      exists [tvt 0 (vplus v2 (nn 1 0 - 1)); tvt 0 (vplus v (nn 1 0 - 1)); tvt 0 south], (tvt 0 (vplus v (nn 1 0 - 1))).
      split; [rewrite es5; cbn [sf]; apply in_or_app; left; rewrite es4; cbn [sf]; apply in_or_app; right; unfold strip_faces; right; apply in_or_app; right; left; reflexivity|].
      split; [right; left; reflexivity|]. unfold tvt, tv, v_pos, v_nor, vplus, v. cbn [fst snd vp vn]. rewrite N2.
      destruct (ext_trans _ _ _ E24 E5) as [P6 [N6 [F6 ->]]]. cbn [sp sn]. split; apply nth_app; rewrite es2; cbn [sp sn]; rewrite nth_error_app2 by lia.
      * replace (Z.to_nat (Z.of_nat (length (sp s1)) + (2 - 1)) - length (sp s1))%nat with 1%nat by lia. reflexivity.
      * replace (Z.to_nat (Z.of_nat (length (sn s1)) + (2 - 1)) - length (sn s1))%nat with 1%nat by lia. reflexivity. }
  intros l s' [q [-> [ok [sz b]]]].
  eapply tri_conseq; [apply (close_1 false [] None 0 hct 0 0 1 1 0); first [exact ok|lra|rewrite N2; lia|lia]|].
  intros _ s5 [F [-> _]]. destruct b as [f [w [h1 [h2 [h3 h4]]]]]. exists f, w. cbn [sp sn sf]. split; [apply in_or_app; auto|auto].
Qed.

Lemma C41_rounded_exact_refuted_proof :
  exists d' a' f v p n, addRoundedBoxMesh 0%R 0%R 1%R 1%R 0 (mesh_new false) = (Ok tt, d') /\ represents d' a' /\
    In f (a_faces a') /\ In v f /\ pt a' v p /\ nrm a' v n /\ ~ on_rounded_box 0 0 1 1 0 p n.
Proof.
  destruct (tri_mesh R RScalar unit (addRoundedBoxMesh 0%R 0%R 1%R 1%R 0) (mesh_new false) anew 288
     (fun _ _ s' => exists f v, In f (sf s') /\ In v f /\
    nth_error (sp s') (Z.to_nat (v_pos v)) = Some (sin (157/100), 0, -1 + cos (157/100))%R /\
    nth_error (sn s') (Z.to_nat (v_nor v)) = Some (sin (157/100), 0, cos (157/100))%R))
    as [t [u [d' [a' [s' [e [et [hr' [[f [v [h1 [h2 [h3 h4]]]]] [p1 [p2 [p3 [p4 [p5 p6]]]]]]]]]]]]]].
  - apply (represents_amk false); reflexivity.
  - split; [reflexivity|]. split; [discriminate|reflexivity].
  - intros t _. apply bad_face. reflexivity.
  - destruct u. exists d', a', f, v, (sin (157/100), 0, -1 + cos (157/100))%R, (sin (157/100), 0, cos (157/100))%R.
    split; [exact e|]. split; [exact hr'|]. split; [rewrite p4; exact h1|]. split; [exact h2|].
    split; [unfold pt; rewrite p1; exact h3|]. split; [unfold nrm; rewrite p2; exact h4|].
    intros [U [_ [k _]]]. revert U k. unfold vdot, support, cx, cy, cz. cbn [fst snd]. generalize cos_157. intros [c _] U k.
    rewrite (Rabs_pos_eq (cos _)) in k by lra. 
    replace (sin (157/100) * sin (157/100) + 0 * 0 + cos (157/100) * (-1 + cos (157/100)))%R with (1 - cos (157/100))%R in k by lra. lra.
Qed.


Lemma C41_create_rounded_proof : forall (ex ey ez r : R) (nb : Z), (0 <= ex /\ 0 <= ey /\ 0 <= ez /\ 0 < r)%R -> 0 <= nb <= 8000 ->
  exists d a, createRoundedBoxMesh ex ey ez r nb = Ok d /\ represents d a /\ a_open a = None /\
    Z.of_nat (length (a_points a)) = rounded_box_points ex ey ez nb /\
    indices_ok a (a_faces a) /\ (forall f, In f (a_faces a) -> length f = 3%nat \/ length f = 4%nat) /\ closed_surface (a_faces a) /\
    (forall f v, In f (a_faces a) -> In v f -> exists p n, pt a v p /\ nrm a v n /\ on_rounded_box ex ey ez r (ez / 500) p n).
Proof.
  intros ex ey ez r nb h hnb.
  destruct (C41_rounded_box_proof (mesh_new false) anew ex ey ez r nb h ltac:(lia)) as [d' [a' [ps [ns [fs [e [_ [hr [[p1 [p2 [p3 [p4 [p5 p6]]]]] H]]]]]]]]].
  - apply (represents_amk false); reflexivity.
  - split; [reflexivity|]. split; [discriminate|]. cbn [anew a_faces concat length]. nia.
  - exists d', a'. cbn [anew a_points a_faces app] in *. rewrite p1, p4. unfold createRoundedBoxMesh. rewrite e. auto.
Qed.


Lemma C41_arc_vertices_refuted_proof : forall ez r : R, (0 <= ez)%R -> (0 < r)%R ->
  fst (addRoundedBoxMesh 0%R 0%R ez r (-1) (mesh_new false)) = UB.
Proof.
  intros ez r h1 h2. unfold addRoundedBoxMesh, mbind, massert. rewrite !geb_true by lra. rsimp.
  assert (Z0 : Reqb 0 0 = true) by (unfold Reqb; destruct (Req_EM_T 0 0); [reflexivity|lra]).
  assert (R0 : Reqb r 0 = false) by (unfold Reqb; destruct (Req_EM_T r 0); [lra|reflexivity]).
  assert (G : Rltb 0 r = true) by (unfold Rltb; destruct (Rlt_dec 0 r); [reflexivity|lra]).
  rewrite R0, G, Z0. unfold xSectorNbAdditionalVertices. rsimp. rewrite R0. cbn [mret andb].
  unfold normal. rsimp.
  assert (U1 : Rleb (Rabs (0 * 0 + 0 * 0 + 1 * 1 - 1)) (1 / 100000) = true).
  { replace (0 * 0 + 0 * 0 + 1 * 1 - 1)%R with 0%R by ring. rewrite Rabs_R0. unfold Rleb. destruct (Rle_dec 0 (1/100000)); [reflexivity|lra]. }
  assert (U2 : Rleb (Rabs (0 * 0 + 0 * 0 + - (1) * - (1) - 1)) (1 / 100000) = true).
  { replace (0 * 0 + 0 * 0 + - (1) * - (1) - 1)%R with 0%R by ring. rewrite Rabs_R0. unfold Rleb. destruct (Rle_dec 0 (1/100000)); [reflexivity|lra]. }
  rewrite U1. unfold normal. rsimp. rewrite U2. unfold xAddSector, mbind, xSectorNbAdditionalVertices. rsimp. rewrite R0. reflexivity.
Qed.


Lemma ready_new0 : forall n, 0 <= n < 2^31 -> represents (mesh_new (T := R) false) anew /\ ready false (anew (T := R)) n.
Proof.
  intros n h. split; [repeat split|].
  split; [reflexivity|]. split; [discriminate|]. cbn. lia.
Qed.
Lemma C41_create_box_proof : forall hx hy hz : R,
  exists d a, createBoxMesh hx hy hz = Ok d /\ m_tex d = false /\ represents d a /\ a_open a = None /\ a_texcoords a = [] /\
    length (a_points a) = 8%nat /\ Forall (is_corner hx hy hz) (a_points a) /\ length (a_normals a) = 6%nat /\ length (a_faces a) = 6%nat /\
    indices_ok a (a_faces a) /\ Forall (outward_quad a hx hy hz) (a_faces a) /\ closed_surface (a_faces a).
Proof.
  intros hx hy hz. destruct (ready_new0 24 ltac:(lia)) as [h1 h2].
  destruct (C41_box_proof (mesh_new false) anew hx hy hz h1 h2) as (d&a&ps&ns&fs&e&et&r&(e1&e2&e3&e4&e5&_)&l1&c&l2&l3&i&o&cl&_).
  cbn in e1, e2, e3, e4. subst ps ns fs. exists d, a. unfold createBoxMesh. rewrite e.
  repeat (split; [first [reflexivity|assumption]|]). assumption.
Qed.

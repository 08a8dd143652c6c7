(** * Lemmas for Props_Collada *)

From Coq Require Import String Ascii.
From Coq Require Import List ZArith Bool Arith Lia.
From Coq Require Decimal DecimalString DecimalZ.
Import ListNotations.
From Coq Require Import Reals Lra.
From Verif Require Import Scalar RInst Model_Rigid Model_Mesh Spec_Mesh Model_Collada Spec_Collada.
From Verif Require Import Model_Anim (ptree (..), pt_data, pt_kids, set_kids, find_child, attr, print_int, put_attr).
From Verif Require Props_Factory Props_Mesh.
Local Open Scope list_scope.
Local Open Scope string_scope.
Local Open Scope Z_scope.


(** *** Shapes of the documents *)

Definition at_ (l : list (string * string)) : string * ptree :=
  ("<xmlattr>", PT "" (map (fun p => (fst p, PT (snd p) [])) l)).
Definition leaf (l : list (string * string)) : ptree := PT "" [at_ l].

Section Docs.
Context {T : Type} {S : Scalar T}.
Variable show : T -> string.
Implicit Types (cfg : Config T) (m : Mesh T) (tf : Affine3f T) (b : Builder T).

Definition d_effect cfg : ptree :=
  PT "" [at_ [("id", "mymaterial-fx")];
         ("profile_COMMON", PT "" [("technique", PT "" [("phong", PT "" [("diffuse", PT "" [("color",
            elem (show (c_r cfg) ++ " " ++ show (c_g cfg) ++ " " ++ show (c_b cfg) ++ " " ++ show (c_a cfg)))])])])])].
Definition d_material : ptree := PT "" [at_ [("id", "mymaterial")]; ("instance_effect", leaf [("url", "#mymaterial-fx")])].
Definition d_asset : ptree := PT "" [("created", elem "2010-10-09T17:00:00"); ("modified", elem "2010-10-09T17:00:00");
  ("unit", leaf [("meter", "1"); ("name", "meter")])].
Definition d_scene (ns : list (string * ptree)) : ptree := PT "" (at_ [("id", "myscene")] :: ns).
Definition d_doc cfg (gs ns : list (string * ptree)) : ptree :=
  PT "" [("COLLADA", PT "" [at_ [("xmlns", "http://www.collada.org/2005/11/COLLADASchema"); ("version", "1.4.1")];
    ("asset", d_asset);
    ("library_effects", PT "" [("effect", d_effect cfg)]);
    ("library_materials", PT "" [("material", d_material)]);
    ("library_geometries", PT "" gs);
    ("library_nodes", elem "");
    ("library_visual_scenes", PT "" [("visual_scene", d_scene ns)]);
    ("scene", PT "" [("instance_visual_scene", leaf [("url", "#myscene")])])])].

Definition d_array (data : list T) (id : string) : ptree :=
  PT (toString show data) [at_ [("count", size data); ("id", id ++ "_array")]].
Definition d_param (n : string) : ptree := leaf [("name", n); ("type", "float")].
Definition d_accessor (data : list T) (id : string) : ptree :=
  PT "" [at_ [("count", print_int (Z.of_nat (length data) / 3)); ("source", "#" ++ id ++ "_array"); ("stride", "3")];
         ("param", d_param "X"); ("param", d_param "Y"); ("param", d_param "Z")].
Definition d_source (data : list T) (id : string) : ptree :=
  PT "" [at_ [("id", id)]; ("float_array", d_array data id);
         ("technique_common", PT "" [("accessor", d_accessor data id)])].
Definition d_input (sem src off : string) : ptree := leaf [("semantic", sem); ("source", "#" ++ src); ("offset", off)].
Definition d_vertices (id : string) : ptree :=
  PT "" [at_ [("id", id ++ "_vertices")]; ("input", d_input "POSITION" (id ++ "_positions") "0")].
Definition d_polylist (id : string) m : ptree :=
  PT "" [at_ [("count", size (m_vcounts m)); ("material", "material")];
         ("input", d_input "VERTEX" (id ++ "_vertices") "0"); ("input", d_input "NORMAL" (id ++ "_normals") "1");
         ("vcount", elem (toString_sizes (m_vcounts m))); ("p", elem (toString_sizes (m_vert m)))].
Definition d_mesh (id : string) m : ptree :=
  PT "" [("source", d_source (m_pos m) (id ++ "_positions")); ("source", d_source (m_nor m) (id ++ "_normals"));
         ("vertices", d_vertices id); ("polylist", d_polylist id m)].
Definition d_geometry (id : string) m : ptree := PT "" [at_ [("id", id)]; ("mesh", d_mesh id m)].
Definition d_bind : ptree := leaf [("symbol", "material"); ("target", "#mymaterial")].
Definition d_instance (id : string) : ptree :=
  PT "" [at_ [("url", "#" ++ id)];
         ("bind_material", PT "" [("technique_common", PT "" [("instance_material", d_bind)])])].
Definition d_node (id : string) tf : ptree :=
  PT "" [("matrix", elem (matrix_text show tf)); ("instance_geometry", d_instance id)].

Lemma new_builder_doc : forall cfg, new_builder show cfg = Ok (mkBuilder cfg 0 (d_doc cfg [] [])).
Proof. intro cfg. vm_compute. reflexivity. Qed.
Lemma copy_doc : forall cfg id gs ns, copy_builder (mkBuilder cfg id (d_doc cfg gs ns)) = Ok (mkBuilder cfg id (d_doc cfg gs ns)).
Proof. intros. vm_compute. reflexivity. Qed.
Lemma geometry_doc : forall gs id m, m_tex m = false ->
  addGeometryMesh show (PT "" gs) id m = Ok (PT "" (gs ++ [("geometry", d_geometry id m)])%list).
Proof. intros gs id m h. unfold addGeometryMesh. rewrite h. reflexivity. Qed.
Lemma add_doc : forall cfg id gs ns m tf,
  xAddMesh show (mkBuilder cfg id (d_doc cfg gs ns)) m tf =
  if id =? 2^31 - 1 then UB else if m_tex m then Abort
  else Ok (mkBuilder cfg (id + 1) (d_doc cfg (gs ++ [("geometry", d_geometry ("mesh" ++ print_int id) m)])
                                             (ns ++ [("node", d_node ("mesh" ++ print_int id) tf)])))%list.
Proof.
  intros. unfold xAddMesh. cbn [b_id b_xml b_config]. destruct (id =? 2^31 - 1); [reflexivity|].
  change (match find_child _ _ with Some _ => _ | None => _ end) with (@Ok ptree (PT "" gs)). cbn [rbind].
  destruct (m_tex m) eqn:h.
  - unfold addGeometryMesh. rewrite h. reflexivity.
  - rewrite (geometry_doc gs _ m h). cbn [rbind]. reflexivity.
Qed.

End Docs.

(** *** Identifiers and references *)

Section Collect.
Variable f : ptree -> list string.
Definition collect (doc : ptree) : list string := flat_map f (elements doc).
Definition ckid (c : string * ptree) : list string := if String.eqb (fst c) "<xmlattr>" then [] else collect (snd c).
Lemma collect_eq : forall d l, collect (PT d l) = (f (PT d l) ++ flat_map ckid l)%list.
Proof.
  intros d l. unfold collect at 1. cbn [elements flat_map pt_kids]. f_equal.
  induction l as [|c l IH]; [reflexivity|]. cbn [flat_map]. rewrite flat_map_app, IH. f_equal.
  unfold ckid. destruct (String.eqb (fst c) "<xmlattr>"); reflexivity.
Qed.
End Collect.

Definition own_id (e : ptree) : list string := match attr "id" e with Some i => [i] | None => [] end.
Definition own_refs (e : ptree) : list string :=
  flat_map (fun a => match attr a e with Some r => [r] | None => [] end) ["url"; "source"; "target"].
Lemma ids_collect : forall doc, ids doc = collect own_id doc.
Proof. reflexivity. Qed.
Lemma refs_collect : forall doc, refs doc = collect own_refs doc.
Proof. reflexivity. Qed.

Definition family (id : string) : list string :=
  [id; id ++ "_positions"; (id ++ "_positions") ++ "_array"; id ++ "_normals"; (id ++ "_normals") ++ "_array"; id ++ "_vertices"].
Definition grefs (id : string) : list string :=
  map (fun i => "#" ++ i) [(id ++ "_positions") ++ "_array"; (id ++ "_normals") ++ "_array"; id ++ "_positions"; id ++ "_vertices"; id ++ "_normals"].

Definition mid (k : nat) : string := "mesh" ++ print_int (Z.of_nat k).

Section Reading.
Context {T : Type} {S : Scalar T}.
Variable show : T -> string.
Implicit Types (cfg : Config T) (m : Mesh T) (tf : Affine3f T) (os : list (Mesh T * Affine3f T)).

Fixpoint gs_of (k : nat) os : list (string * ptree) :=
  match os with [] => [] | o :: os' => ("geometry", d_geometry show (mid k) (fst o)) :: gs_of (Datatypes.S k) os' end.
Fixpoint ns_of (k : nat) os : list (string * ptree) :=
  match os with [] => [] | o :: os' => ("node", d_node show (mid k) (snd o)) :: ns_of (Datatypes.S k) os' end.
Definition doc_of cfg os : ptree := d_doc show cfg (gs_of 0 os) (ns_of 0 os).

Lemma gs_snoc : forall os k o, gs_of k (os ++ [o])%list = (gs_of k os ++ [("geometry", d_geometry show (mid (k + length os)) (fst o))])%list.
Proof.
  induction os as [|a os IH]; intros k o; cbn [gs_of app length].
  - now rewrite Nat.add_0_r.
  - rewrite IH. rewrite Nat.add_succ_r. reflexivity.
Qed.
Lemma ns_snoc : forall os k o, ns_of k (os ++ [o])%list = (ns_of k os ++ [("node", d_node show (mid (k + length os)) (snd o))])%list.
Proof.
  induction os as [|a os IH]; intros k o; cbn [ns_of app length].
  - now rewrite Nat.add_0_r.
  - rewrite IH. rewrite Nat.add_succ_r. reflexivity.
Qed.

Lemma ids_geometry : forall id m, collect own_id (d_geometry show id m) = family id.
Proof. intros. reflexivity. Qed.
Lemma ids_node : forall id tf, collect own_id (d_node show id tf) = [].
Proof. intros. reflexivity. Qed.
Lemma refs_geometry : forall id m, collect own_refs (d_geometry show id m) = grefs id.
Proof. intros. reflexivity. Qed.
Lemma refs_node : forall id tf, collect own_refs (d_node show id tf) = ["#" ++ id; "#mymaterial"].
Proof. intros. reflexivity. Qed.


Lemma ckid_elem : forall f n c, String.eqb n "<xmlattr>" = false -> ckid f (n, c) = collect f c.
Proof. intros f n c h. unfold ckid. cbn [fst snd]. now rewrite h. Qed.

Lemma ids_doc : forall cfg gs ns, (forall d, own_id (PT d gs) = []) ->
  ids (d_doc show cfg gs ns) = "mymaterial-fx" :: "mymaterial" :: (flat_map (ckid own_id) gs ++ "myscene" :: flat_map (ckid own_id) ns)%list.
Proof.
  intros cfg gs ns h. rewrite ids_collect. unfold d_doc. rewrite collect_eq. cbn [flat_map].
  rewrite (ckid_elem own_id "COLLADA") by reflexivity. rewrite collect_eq.
  cbn [flat_map]. rewrite !ckid_elem by reflexivity. rewrite (collect_eq own_id "" gs), h. 
  rewrite (collect_eq own_id "" [("visual_scene", _)]). cbn [flat_map]. rewrite ckid_elem by reflexivity.
  unfold d_scene. rewrite (collect_eq own_id "" (_ :: ns)). cbn [flat_map]. rewrite !app_nil_r.
  change (ckid own_id (at_ ?l)) with (@nil string). 
  change (own_id (PT "" [("COLLADA", ?c)])) with (@nil string).
  change (own_id (PT "" (at_ [("xmlns", ?a); ("version", ?b)] :: ?c))) with (@nil string).
  change (own_id (PT "" (at_ [("id", "myscene")] :: ns))) with ["myscene"].
  change (own_id (PT "" [("visual_scene", ?c)])) with (@nil string).
  change (collect own_id d_asset) with (@nil string).
  change (collect own_id (PT "" [("effect", d_effect show cfg)])) with ["mymaterial-fx"].
  change (collect own_id (PT "" [("material", d_material)])) with ["mymaterial"].
  change (collect own_id (elem "")) with (@nil string).
  change (collect own_id (PT "" [("instance_visual_scene", leaf [("url", "#myscene")])])) with (@nil string).
  cbn [app]. try rewrite app_nil_r. reflexivity.
Qed.
Lemma refs_doc : forall cfg gs ns, (forall d, own_refs (PT d gs) = []) ->
  refs (d_doc show cfg gs ns) = "#mymaterial-fx" :: (flat_map (ckid own_refs) gs ++ flat_map (ckid own_refs) ns ++ ["#myscene"])%list.
Proof.
  intros cfg gs ns h. rewrite refs_collect. unfold d_doc. rewrite collect_eq. cbn [flat_map].
  rewrite (ckid_elem own_refs "COLLADA") by reflexivity. rewrite collect_eq.
  cbn [flat_map]. rewrite !ckid_elem by reflexivity. rewrite (collect_eq own_refs "" gs), h.
  rewrite (collect_eq own_refs "" [("visual_scene", _)]). cbn [flat_map]. rewrite ckid_elem by reflexivity.
  unfold d_scene. rewrite (collect_eq own_refs "" (_ :: ns)). cbn [flat_map]. rewrite !app_nil_r.
  change (ckid own_refs (at_ ?l)) with (@nil string).
  change (own_refs (PT "" [("COLLADA", ?c)])) with (@nil string).
  change (own_refs (PT "" (at_ [("xmlns", ?a); ("version", ?b)] :: ?c))) with (@nil string).
  change (own_refs (PT "" (at_ [("id", "myscene")] :: ns))) with (@nil string).
  change (own_refs (PT "" [("visual_scene", ?c)])) with (@nil string).
  change (collect own_refs d_asset) with (@nil string).
  change (collect own_refs (PT "" [("effect", d_effect show cfg)])) with (@nil string).
  change (collect own_refs (PT "" [("material", d_material)])) with ["#mymaterial-fx"].
  change (collect own_refs (elem "")) with (@nil string).
  change (collect own_refs (PT "" [("instance_visual_scene", leaf [("url", "#myscene")])])) with ["#myscene"].
  cbn [app]. reflexivity.
Qed.

Lemma attr_gs : forall a d os k, attr a (PT d (gs_of k os)) = None.
Proof.
  intros a d os k. unfold attr. cbn [pt_kids].
  assert (h : find_child "<xmlattr>" (gs_of k os) = None); [|now rewrite h].
  revert k. induction os as [|o os IH]; intro k; [reflexivity|]. cbn [gs_of]. change (find_child "<xmlattr>" (gs_of (Datatypes.S k) os) = None). apply IH.
Qed.
Lemma own_gs : forall d os k, own_id (PT d (gs_of k os)) = [] /\ own_refs (PT d (gs_of k os)) = [].
Proof. intros. unfold own_id, own_refs. cbn [flat_map]. rewrite !attr_gs. split; reflexivity. Qed.

Lemma ids_gs : forall os k, flat_map (ckid own_id) (gs_of k os) = flat_map (fun i => family (mid i)) (seq k (length os)).
Proof.
  induction os as [|o os IH]; intro k; [reflexivity|]. cbn [gs_of length seq flat_map]. rewrite IH.
  rewrite ckid_elem by reflexivity. now rewrite ids_geometry.
Qed.
Lemma ids_ns : forall os k, flat_map (ckid own_id) (ns_of k os) = [].
Proof.
  induction os as [|o os IH]; intro k; [reflexivity|]. cbn [ns_of flat_map]. rewrite IH.
  rewrite ckid_elem by reflexivity. now rewrite ids_node.
Qed.
Lemma refs_gs : forall os k, flat_map (ckid own_refs) (gs_of k os) = flat_map (fun i => grefs (mid i)) (seq k (length os)).
Proof.
  induction os as [|o os IH]; intro k; [reflexivity|]. cbn [gs_of length seq flat_map]. rewrite IH.
  rewrite ckid_elem by reflexivity. now rewrite refs_geometry.
Qed.
Lemma refs_ns : forall os k, flat_map (ckid own_refs) (ns_of k os) = flat_map (fun i => [String "#" (mid i); "#mymaterial"]) (seq k (length os)).
Proof.
  induction os as [|o os IH]; intro k; [reflexivity|]. cbn [ns_of length seq flat_map]. rewrite IH.
  rewrite ckid_elem by reflexivity. now rewrite refs_node.
Qed.
Lemma ids_of : forall cfg os, ids (doc_of cfg os) =
  "mymaterial-fx" :: "mymaterial" :: (flat_map (fun i => family (mid i)) (seq 0 (length os)) ++ ["myscene"])%list.
Proof. intros. unfold doc_of. rewrite ids_doc by (intro; apply own_gs). now rewrite ids_gs, ids_ns. Qed.
Lemma refs_of : forall cfg os, refs (doc_of cfg os) =
  "#mymaterial-fx" :: (flat_map (fun i => grefs (mid i)) (seq 0 (length os)) ++
    flat_map (fun i => [String "#" (mid i); "#mymaterial"]) (seq 0 (length os)) ++ ["#myscene"])%list.
Proof. intros. unfold doc_of. rewrite refs_doc by (intro; apply own_gs). now rewrite refs_gs, refs_ns. Qed.

End Reading.

(** *** The identifiers are distinct *)

Lemma append_nil_r : forall s : string, (s ++ "" = s)%string.
Proof. induction s; cbn; [reflexivity|now rewrite IHs]. Qed.
Lemma append_assoc : forall a b c : string, ((a ++ b) ++ c = a ++ (b ++ c))%string.
Proof. induction a; intros; cbn; [reflexivity|now rewrite IHa]. Qed.
Lemma append_inj : forall s a b : string, (s ++ a = s ++ b)%string -> a = b.
Proof. induction s; intros a' b h; [exact h|]. cbn in h. injection h as h. now apply IHs. Qed.

(** The part of a string before its first underscore. *)
Fixpoint stem (s : string) : string :=
  match s with
  | EmptyString => ""
  | String "_" _ => ""
  | String c s' => String c (stem s')
  end.
Lemma stem_app : forall a b, stem a = a -> stem (a ++ String "_" b) = a.
Proof.
  induction a as [|c a IH]; intros b h; [reflexivity|].
  destruct c as [[] [] [] [] [] [] [] []]; cbn [stem] in h |- *; try discriminate h; cbn [append stem]; injection h as h; now rewrite IH.
Qed.
Lemma stem_uint : forall d, stem (DecimalString.NilEmpty.string_of_uint d) = DecimalString.NilEmpty.string_of_uint d.
Proof. induction d; cbn; [reflexivity|rewrite IHd..]; reflexivity. Qed.
Lemma stem_print : forall n, stem (print_int (Z.of_nat n)) = print_int (Z.of_nat n).
Proof.
  intro n. unfold print_int. destruct (Z.of_nat n) as [|p|p] eqn:e; [reflexivity| |lia].
  cbn [Z.to_int DecimalString.NilZero.string_of_int]. unfold DecimalString.NilZero.string_of_uint. destruct (Pos.to_uint p); try apply stem_uint. reflexivity.
Qed.
Lemma stem_mid : forall n, stem (mid n) = mid n.
Proof. intro n. unfold mid. change ("mesh" ++ ?s)%string with (String "m" (String "e" (String "s" (String "h" s)))). cbn [stem]. now rewrite stem_print. Qed.

Lemma int_print : forall z, option_map Z.of_int (DecimalString.NilZero.int_of_string (print_int z)) = Some z.
Proof.
  intro z. unfold print_int. rewrite DecimalString.NilZero.isi.
  - cbn. now rewrite DecimalZ.of_to.
  - intro h. assert (e : Z.of_int (Z.to_int z) = Z.of_int (Decimal.Pos Decimal.Nil)) by now rewrite h. rewrite DecimalZ.of_to in e. subst z. discriminate h.
  - intro h. assert (e : Z.of_int (Z.to_int z) = Z.of_int (Decimal.Neg Decimal.Nil)) by now rewrite h. rewrite DecimalZ.of_to in e. subst z. discriminate h.
Qed.
Lemma print_inj : forall a b, print_int a = print_int b -> a = b.
Proof. intros a b h. generalize (int_print a) (int_print b). rewrite h. congruence. Qed.
Lemma mid_inj : forall i j, mid i = mid j -> i = j.
Proof. intros i j h. apply append_inj in h. apply print_inj in h. lia. Qed.

Lemma family_stem : forall k s, In s (family (mid k)) -> stem s = mid k.
Proof.
  intros k s h. pose proof (stem_mid k) as e. cbn [family In] in h.
  repeat (destruct h as [<- | h]); [exact e| .. | destruct h];
    rewrite ?append_assoc; cbn [append]; now apply stem_app.
Qed.
Lemma family_nodup : forall k, NoDup (family k).
Proof.
  intro k. unfold family.
  repeat constructor; cbn [In]; intro h; repeat (destruct h as [h|h]); try exact h;
    rewrite ?append_assoc in h; try (rewrite <- (append_nil_r k) in h at 2; rewrite ?append_assoc in h); try (apply append_inj in h; discriminate h).
Qed.
Lemma nodup_app : forall A (l l' : list A), NoDup l -> NoDup l' -> (forall x, In x l -> In x l' -> False) -> NoDup (l ++ l')%list.
Proof.
  induction l as [|a l IH]; intros l' h1 h2 h3; [exact h2|]. cbn [app]. inversion h1; subst. constructor.
  - rewrite in_app_iff. intros [h|h]; [auto|]. apply (h3 a); [now left|exact h].
  - apply IH; auto. intros x i j. apply (h3 x); [now right|exact j].
Qed.
Lemma nodup_flat : forall A B (f : A -> list B) l, NoDup l -> (forall a, NoDup (f a)) ->
  (forall a b x, In x (f a) -> In x (f b) -> a = b) -> NoDup (flat_map f l).
Proof.
  intros A B f l h1 h2 h3. induction l as [|a l IH]; [constructor|]. inversion h1; subst. cbn [flat_map].
  apply nodup_app; auto. intros x i j. apply in_flat_map in j. destruct j as (b & ib & j). rewrite (h3 a b x i j) in H1. auto.
Qed.
Lemma ids_nodup : forall T (S : Scalar T) (show : T -> string) cfg os, NoDup (ids (doc_of show cfg os)).
Proof.
  intros. rewrite ids_of.
  assert (hm : forall s, In s (flat_map (fun i => family (mid i)) (seq 0 (length os))) -> exists k, stem s = mid k).
  { intros s h. apply in_flat_map in h. destruct h as (k & _ & h). exists k. now apply family_stem. }
  assert (hf : NoDup (flat_map (fun i => family (mid i)) (seq 0 (length os)) ++ ["myscene"])%list).
  { apply nodup_app.
    - apply nodup_flat; [apply seq_NoDup|intro; apply family_nodup|].
      intros a b x h1 h2. apply family_stem in h1, h2. apply mid_inj. congruence.
    - repeat constructor. intros [].
    - intros x h [<-|[]]. apply hm in h. destruct h as [k h]. discriminate h. }
  constructor; [|constructor]; [| |exact hf]; cbn [In]; rewrite ?in_app_iff; cbn [In].
  - intros [h|[h|[h|[]]]]; [discriminate h| |discriminate h]. apply hm in h. destruct h as [k h]. discriminate h.
  - intros [h|[h|[]]]; [|discriminate h]. apply hm in h. destruct h as [k h]. discriminate h.
Qed.
Lemma refs_ids : forall T (S : Scalar T) (show : T -> string) cfg os r, In r (refs (doc_of show cfg os)) ->
  exists i, r = "#" ++ i /\ In i (ids (doc_of show cfg os)).
Proof.
  intros T S show cfg os r h. rewrite refs_of in h. rewrite ids_of. cbn [In] in h. rewrite !in_app_iff in h.
  destruct h as [<- | [h | [h | [<- | []]]]].
  - exists "mymaterial-fx". split; [reflexivity|now left].
  - apply in_flat_map in h. destruct h as (k & hk & h). unfold grefs in h. apply in_map_iff in h. destruct h as (i & <- & h).
    exists i. split; [reflexivity|]. right. right. apply in_or_app. left. apply in_flat_map. exists k. split; [exact hk|].
    cbn [In family] in *. tauto.
  - apply in_flat_map in h. destruct h as (k & hk & [<- | [<- | []]]).
    + exists (mid k). split; [reflexivity|]. right. right. apply in_or_app. left. apply in_flat_map. exists k. split; [exact hk|]. now left.
    + exists "mymaterial". split; [reflexivity|]. now right; left.
  - exists "myscene". split; [reflexivity|]. right. right. apply in_or_app. right. now left.
Qed.

(** *** Numbers in the texts *)

Definition word (w : string) : Prop := w <> "" /\ forall a b, w <> a ++ String " " b.
Lemma word_cons : forall c w, word (String c w) -> c <> " "%char /\ (w = "" \/ word w).
Proof.
  intros c w [_ h]. split.
  - intro e. subst c. apply (h "" w). reflexivity.
  - destruct w as [|c' w]; [now left|right]. split; [discriminate|]. intros a b e. apply (h (String c a) b). cbn. now rewrite e.
Qed.
Lemma words_go : forall w acc t, word w -> words acc (w ++ String " " t) = (acc ++ w) :: words "" t.
Proof.
  induction w as [|c w IH]; intros acc t h; [now destruct h as [h _]|].
  pose proof (word_cons c w h) as [hc hw].
  assert (e : words acc (String c w ++ String " " t) = words (acc ++ String c "") (w ++ String " " t)).
  { cbn [append words]. destruct c as [[] [] [] [] [] [] [] []]; try reflexivity. now contradiction hc. }
  rewrite e. destruct hw as [-> | hw].
  - cbn [append words]. destruct (String.eqb_spec (acc ++ String c "") "") as [x|_]; [destruct acc; discriminate x|]. reflexivity.
  - rewrite IH by exact hw. now rewrite append_assoc.
Qed.
Lemma words_spaced : forall l, Forall word l -> words "" (spaced l) = l.
Proof.
  induction l as [|w l IH]; intro h; [reflexivity|]. inversion h as [|? ? hw hl]; subst.
  assert (e : spaced (w :: l) = w ++ String " " (spaced l)).
  { unfold spaced. cbn [map]. destruct l as [|w' l]; cbn [String.concat map]; [reflexivity|]. cbn [append]. now rewrite append_assoc. }
  rewrite e, words_go by exact hw. now rewrite IH.
Qed.
Definition plain (s : string) : Prop := forall a b, s <> a ++ String " " b.
Lemma plain_cons : forall c s, c <> " "%char -> plain s -> plain (String c s).
Proof. intros c s hc h a b e. destruct a as [|x a]; cbn in e; injection e as e1 e2; [congruence|]. now apply (h a b). Qed.
Lemma plain_nil : plain "".
Proof. intros [|c a] b; discriminate. Qed.
Lemma plain_uint : forall d, plain (DecimalString.NilEmpty.string_of_uint d).
Proof. induction d; cbn [DecimalString.NilEmpty.string_of_uint]; [apply plain_nil|..]; apply plain_cons; auto; discriminate. Qed.
Lemma word_print : forall z, 0 <= z -> word (print_int z).
Proof.
  intros z h. unfold print_int. destruct z as [|p|p]; [| |lia].
  - split; [discriminate|]. apply plain_cons; [discriminate|apply plain_nil].
  - cbn [Z.to_int DecimalString.NilZero.string_of_int]. unfold DecimalString.NilZero.string_of_uint.
    destruct (Pos.to_uint p) eqn:e; try (split; [discriminate|]; rewrite <- ?e; first [apply plain_cons; [discriminate|apply plain_nil] | apply (plain_uint (_ _))]).
Qed.
Lemma show_small : forall z, 0 <= z < 1000000 -> show_Z (z mod 2^64) = print_int z.
Proof.
  intros z h. rewrite Z.mod_small by lia. unfold show_Z, float_of_Z.
  replace (z <? 2^24) with true by (symmetry; apply Z.ltb_lt; lia).
  replace (z <? 10^6) with true by (symmetry; apply Z.ltb_lt; lia). reflexivity.
Qed.
Lemma reads_sizes : forall l, (forall k, In k l -> 0 <= k < 1000000) -> reads (toString_sizes l) l.
Proof.
  intros l h. unfold reads, toString_sizes.
  rewrite (map_ext_in _ print_int) by (intros k hk; now apply show_small, h).
  rewrite words_spaced.
  - rewrite map_map. apply map_ext. intro. apply int_print.
  - rewrite Forall_map. apply Forall_forall. intros k hk. apply word_print. apply h in hk. lia.
Qed.

(** *** The document presents the scene *)

Lemma elements_self : forall e, In e (elements e).
Proof. intros [d l]. now left. Qed.
Lemma elements_kid : forall n c d l e, In (n, c) l -> String.eqb n "<xmlattr>" = false -> In e (elements c) -> In e (elements (PT d l)).
Proof.
  intros n c d l e i h j. cbn [elements pt_kids]. right. apply in_flat_map. exists (n, c). split; [exact i|]. cbn [fst snd]. now rewrite h.
Qed.

Section Presents.
Context {T : Type} {S : Scalar T}.
Variable show : T -> string.
Implicit Types (cfg : Config T) (m : Mesh T) (tf : Affine3f T) (os : list (Mesh T * Affine3f T)).

Lemma in_lib : forall cfg gs ns n c e, In (n, c) gs -> String.eqb n "<xmlattr>" = false -> In e (elements c) ->
  In e (elements (d_doc show cfg gs ns)).
Proof.
  intros. unfold d_doc. eapply elements_kid; [now left|reflexivity|].
  eapply (elements_kid "library_geometries" (PT "" gs)); [cbn; tauto|reflexivity|]. eapply elements_kid; eauto.
Qed.

Ltac sub n c := eapply (elements_kid n c); [cbn [In]; tauto|reflexivity|].

Lemma presents_source : forall doc data id, incl (elements (d_source show data id)) (elements doc) ->
  presents_triples show doc (d_source show data id) data.
Proof.
  intros doc data id h. exists (d_array show data id), (d_accessor data id).
  split; [reflexivity|]. split; [unfold d_array, toString, spaced, texts; cbn [pt_data]; now rewrite map_map|]. split; [reflexivity|]. split; [reflexivity|].
  split; [|split; [reflexivity|split; [reflexivity|split; reflexivity]]].
  exists (id ++ "_array"). split; [reflexivity|]. split; [|reflexivity].
  apply h. unfold d_source. sub "float_array" (d_array show data id). apply elements_self.
Qed.
Lemma presents_geometry : forall doc id m, incl (elements (d_geometry show id m)) (elements doc) ->
  presents_mesh show doc (d_geometry show id m) m.
Proof.
  intros doc id m h.
  exists (d_polylist id m), (d_input "VERTEX" (id ++ "_vertices") "0"), (d_input "NORMAL" (id ++ "_normals") "1"),
    (d_vertices id), (d_input "POSITION" (id ++ "_positions") "0"),
    (d_source show (m_pos m) (id ++ "_positions")), (d_source show (m_nor m) (id ++ "_normals")),
    (elem (toString_sizes (m_vcounts m))), (elem (toString_sizes (m_vert m))).
  assert (hm : incl (elements (d_mesh show id m)) (elements doc)).
  { intros e i. apply h. unfold d_geometry. sub "mesh" (d_mesh show id m). exact i. }
  assert (hp : incl (elements (d_source show (m_pos m) (id ++ "_positions"))) (elements doc)).
  { intros e i. apply hm. unfold d_mesh. sub "source" (d_source show (m_pos m) (id ++ "_positions")). exact i. }
  assert (hn : incl (elements (d_source show (m_nor m) (id ++ "_normals"))) (elements doc)).
  { intros e i. apply hm. unfold d_mesh. sub "source" (d_source show (m_nor m) (id ++ "_normals")). exact i. }
  split; [reflexivity|]. split; [reflexivity|]. split; [reflexivity|]. split; [reflexivity|]. split; [reflexivity|].
  split. { exists (id ++ "_vertices"). split; [reflexivity|]. split; [|reflexivity]. apply hm. unfold d_mesh. sub "vertices" (d_vertices id). apply elements_self. }
  split; [reflexivity|]. split; [reflexivity|].
  split. { exists (id ++ "_positions"). split; [reflexivity|]. split; [|reflexivity]. apply hp, elements_self. }
  split; [now apply presents_source|]. split; [reflexivity|]. split; [reflexivity|].
  split. { exists (id ++ "_normals"). split; [reflexivity|]. split; [|reflexivity]. apply hn, elements_self. }
  split; [now apply presents_source|]. split; [reflexivity|]. split; [reflexivity|].
  split; apply reads_sizes.
Qed.

Lemma named_gs : forall os k, named "geometry" (PT "" (gs_of show k os)) = map snd (gs_of show k os).
Proof.
  unfold named. cbn [pt_kids]. induction os as [|o os IH]; intro k; [reflexivity|]. cbn [gs_of filter fst]. cbn [String.eqb Ascii.eqb Bool.eqb map snd]. now rewrite IH.
Qed.
Lemma named_ns : forall os k, named "node" (d_scene (ns_of show k os)) = map snd (ns_of show k os).
Proof.
  intros os k. unfold named, d_scene. cbn [pt_kids filter fst at_ String.eqb Ascii.eqb Bool.eqb]. revert k.
  induction os as [|o os IH]; intro k; [reflexivity|]. cbn [ns_of filter fst]. cbn [String.eqb Ascii.eqb Bool.eqb map snd]. now rewrite IH.
Qed.
Lemma length_ns : forall os k, length (ns_of show k os) = length os.
Proof. induction os; intro k; cbn; auto. Qed.
Lemma nth_gs : forall os k i c, nth_error (map snd (gs_of show k os)) i = Some c ->
  exists o, nth_error os i = Some o /\ c = d_geometry show (mid (k + i)) (fst o) /\ In ("geometry", c) (gs_of show k os).
Proof.
  induction os as [|o os IH]; intros k [|i] c h; cbn in h; try discriminate h.
  - injection h as <-. exists o. rewrite Nat.add_0_r. split; [reflexivity|]. split; [reflexivity|]. now left.
  - apply IH in h. destruct h as (o' & h1 & h2 & h3). exists o'. rewrite Nat.add_succ_r. split; [exact h1|]. split; [exact h2|]. now right.
Qed.
Lemma nth_ns : forall os k i c, nth_error (map snd (ns_of show k os)) i = Some c ->
  exists o, nth_error os i = Some o /\ c = d_node show (mid (k + i)) (snd o).
Proof.
  induction os as [|o os IH]; intros k [|i] c h; cbn in h; try discriminate h.
  - injection h as <-. exists o. rewrite Nat.add_0_r. split; reflexivity.
  - apply IH in h. destruct h as (o' & h1 & h2). exists o'. rewrite Nat.add_succ_r. split; [exact h1|exact h2].
Qed.

Lemma presents_doc : forall cfg os, presents show (doc_of show cfg os) (mkScene cfg os).
Proof.
  intros cfg os. split; [split; [apply (ids_nodup T S)|apply (refs_ids T S)]|]. cbn [sc_objects sc_config].
  exists (d_scene (ns_of show 0 os)), (map snd (gs_of show 0 os)), (map snd (ns_of show 0 os)).
  split.
  { exists "myscene". split; [reflexivity|]. split; [|reflexivity]. unfold doc_of, d_doc.
    eapply elements_kid; [now left|reflexivity|]. sub "library_visual_scenes" (PT "" [("visual_scene", d_scene (ns_of show 0 os))]).
    sub "visual_scene" (d_scene (ns_of show 0 os)). apply elements_self. }
  split; [reflexivity|].
  split. { change (under ["COLLADA"; "library_geometries"; "geometry"] (doc_of show cfg os)) with
             (((flat_map (fun p => [p]) (named "geometry" (PT "" (gs_of show 0 os))) ++ []) ++ [])%list).
           rewrite !app_nil_r, named_gs. now induction (map snd (gs_of show 0 os)) as [|x l IH]; [|cbn [flat_map app]; rewrite IH]. }
  split; [apply named_ns|]. split; [|split; [now rewrite map_length, length_ns|]].
  - assert (h : forall l k, (forall c, In c (gs_of show k l) -> In c (gs_of show 0 os)) ->
      Forall2 (fun g o => presents_mesh show (doc_of show cfg os) g (fst o)) (map snd (gs_of show k l)) l).
    { induction l as [|o l IH]; intros k h; [constructor|]. cbn [gs_of map snd]. constructor.
      - apply presents_geometry. intros e i. unfold doc_of. eapply in_lib; [apply h; left; reflexivity|reflexivity|exact i].
      - apply IH. intros c i. apply h. now right. }
    apply h. auto.
  - intros k node geometry o hn hg ho. apply nth_gs in hg. destruct hg as (o1 & h1 & -> & hi). apply nth_ns in hn. destruct hn as (o2 & h2 & ->).
    assert (o1 = o) by congruence. assert (o2 = o) by congruence. subst o1 o2. cbn [Nat.add].
    split; [cbn [d_node named filter map pt_kids fst snd String.eqb Ascii.eqb Bool.eqb elem pt_data]; unfold matrix_text, row; cbn [seq flat_map map app String.concat]; now rewrite ?append_assoc|]. split; [reflexivity|].
    exists (d_instance (mid k)), d_bind, d_material, (d_effect show cfg),
      (elem (show (c_r cfg) ++ " " ++ show (c_g cfg) ++ " " ++ show (c_b cfg) ++ " " ++ show (c_a cfg))).
    split; [reflexivity|].
    split. { exists (mid k). split; [reflexivity|]. split; [|reflexivity]. unfold doc_of. eapply in_lib; [exact hi|reflexivity|]. apply elements_self. }
    split; [reflexivity|].
    split. { exists "mymaterial". split; [reflexivity|]. split; [|reflexivity]. unfold doc_of, d_doc.
             eapply elements_kid; [now left|reflexivity|]. sub "library_materials" (PT "" [("material", d_material)]). sub "material" d_material. apply elements_self. }
    split. { exists "mymaterial-fx". split; [reflexivity|]. split; [|reflexivity]. unfold doc_of, d_doc.
             eapply elements_kid; [now left|reflexivity|]. sub "library_effects" (PT "" [("effect", d_effect show cfg)]). sub "effect" (d_effect show cfg). apply elements_self. }
    split; reflexivity.
Qed.

End Presents.

(** *** Histories *)

Section Keeps.
Context {T : Type} {S : Scalar T}.
Definition keeps {A} (x : MM T A) : Prop := forall d, m_tex (snd (x d)) = m_tex d.
Lemma k_bind : forall A B (x : MM T A) (k : A -> MM T B), keeps x -> (forall a, keeps (k a)) -> keeps (mbind x k).
Proof. intros A B x k h1 h2 d. unfold mbind. specialize (h1 d). destruct (x d) as [[a| | |] d']; cbn in *; [rewrite <- h1; apply h2|exact h1..]. Qed.
Lemma k_ret : forall A (a : A), keeps (mret a). Proof. intros A a d. reflexivity. Qed.
Lemma k_assert : forall b, keeps (massert (T := T) b). Proof. intros [] d; reflexivity. Qed.
Ltac crunch := repeat match goal with
  | |- context [if ?b then _ else _] => destruct b
  | |- context [match ?x with _ => _ end] => destruct x
  end; try reflexivity.
Lemma k_position : forall x y z, keeps (position x y z). Proof. intros x y z d. unfold position. reflexivity. Qed.
Lemma k_normal : forall x y z, keeps (normal x y z). Proof. intros x y z d. unfold normal. crunch. Qed.
Lemma k_normalAt : forall i, keeps (normalAt (T := T) i). Proof. intros i d. unfold normalAt. crunch. Qed.
Lemma k_begin : forall m, keeps (begin_ (T := T) m). Proof. intros m d. unfold begin_. crunch. Qed.
Lemma k_vertex : forall i, keeps (vertex (T := T) i). Proof. intros i [[]]; unfold vertex; cbn; crunch. Qed.
Lemma k_end : keeps (end_ (T := T)). Proof. intros d. unfold end_. crunch. Qed.
Lemma k_for : forall A (l : list A) (body : A -> MM T unit), (forall a, keeps (body a)) -> keeps (mfor l body).
Proof. intros A l body h. induction l; cbn [mfor]; [apply k_ret|]. apply k_bind; auto. Qed.
End Keeps.
Ltac keep := repeat match goal with
  | |- keeps (mbind _ _) => apply k_bind; [|intro]
  | |- keeps (position _ _ _) => apply k_position
  | |- keeps (normal _ _ _) => apply k_normal
  | |- keeps (normalAt _) => apply k_normalAt
  | |- keeps (begin_ _) => apply k_begin
  | |- keeps (vertex _) => apply k_vertex
  | |- keeps end_ => apply k_end
  | |- keeps (massert _) => apply k_assert
  | |- keeps (mret _) => apply k_ret
  | |- keeps (mfor _ _) => apply k_for; intro
  | |- keeps (if ?b then _ else _) => destruct b
  end.
Section Keeps2.
Context {T : Type} {S : Scalar T}.
Lemma k_box : forall x y z, keeps (addBoxMesh x y z).
Proof. intros. unfold addBoxMesh. keep. Qed.
Lemma k_addVert : forall v, keeps (xAddVert (T := T) v).
Proof. intros. unfold xAddVert. keep. Qed.
Lemma k_meridian_loop : forall hz r x y la dp np l z, keeps (meridian_loop hz r x y la dp np l z).
Proof. induction l; intro z; cbn [meridian_loop]; keep; auto. Qed.
Lemma k_meridian : forall hz r nb x y la, keeps (xAddMeridian hz r nb x y la).
Proof. intros. intro d. unfold xAddMeridian. apply k_bind; [apply k_meridian_loop|intro; apply k_ret]. Qed.
Lemma k_nb : forall hz r nb, keeps (xSectorNbAdditionalVertices hz r nb).
Proof. intros. unfold xSectorNbAdditionalVertices. intro d. destruct (r =? s_ofZ 0)%sc; reflexivity. Qed.
Lemma k_strip : forall a b c d n, keeps (strip (T := T) a b c d n).
Proof. intros. unfold strip, xAddVert. keep. Qed.
Lemma k_sector_loop : forall hz r nb n x y st sp a b js prev, keeps (sector_loop hz r nb n x y st sp a b js prev).
Proof.
  induction js as [|j js IH]; intro prev; cbn [sector_loop]; [apply k_ret|].
  apply k_bind; [apply k_meridian|intro]. apply k_bind; [intro d; apply k_assert|intro]. apply k_bind; [intro d; apply k_assert|intro].
  apply k_bind; [destruct prev; [apply k_strip|apply k_ret]|intro]. apply k_bind; [apply IH|intro; apply k_ret].
Qed.
Lemma k_sector : forall hz r nb x y st sp n a b, keeps (xAddSector hz r nb x y st sp n a b).
Proof.
  intros. unfold xAddSector. apply k_bind; [apply k_nb|intro]. apply k_bind; [apply k_position|intro]. apply k_bind; [apply k_position|intro].
  apply k_bind; [apply k_sector_loop|intro; apply k_ret].
Qed.
Lemma k_vback : forall l, keeps (vback (T := T) l). Proof. intros [|a l] d; reflexivity. Qed.
Lemma k_vfront : forall l, keeps (vfront (T := T) l). Proof. intros [|a l] d; reflexivity. Qed.
Lemma k_close : forall n l, keeps (close_sectors (T := T) n l).
Proof.
  intros. unfold close_sectors. apply k_bind; [apply k_for; intro p|intro; unfold xAddVert; keep].
  unfold junction, xAddVert. apply k_bind; [apply k_vback|intro]. apply k_bind; [apply k_vfront|intro]. keep.
Qed.
Lemma k_rounded : forall x y z r nb, keeps (addRoundedBoxMesh x y z r nb).
Proof.
  intros. unfold addRoundedBoxMesh. do 3 (apply k_bind; [apply k_assert|intro]). destruct (r =? s_ofZ 0)%sc; [apply k_box|].
  apply k_bind; [apply k_assert|intro]. apply k_bind; [apply k_nb|intro]. do 2 (apply k_bind; [apply k_normal|intro]).
  apply k_bind; [|intro; apply k_close].
  keep; apply k_sector.
Qed.
Lemma rounded_tex : forall x y z r nb d, createRoundedBoxMesh x y z r nb = Ok d -> m_tex d = false.
Proof.
  intros x y z r nb d h. unfold createRoundedBoxMesh in h. pose proof (k_rounded x y z r nb (mesh_new false)) as k.
  destruct (addRoundedBoxMesh x y z r nb (mesh_new false)) as [[[]| | |] d']; try discriminate h. injection h as <-. exact k.
Qed.
End Keeps2.

Section Histories.
Context {T : Type} {S : Scalar T}.
Variable show : T -> string.
Implicit Types (cfg : Config T) (m : Mesh T) (tf : Affine3f T) (os : list (Mesh T * Affine3f T)) (b : Builder T) (sc : Scene T).

Definition built b sc : Prop :=
  b = mkBuilder (sc_config sc) (Z.of_nat (length (sc_objects sc))) (doc_of show (sc_config sc) (sc_objects sc)).

Lemma new_built : forall cfg b, new_builder show cfg = Ok b -> built b (mkScene cfg []).
Proof. intros cfg b h. rewrite new_builder_doc in h. injection h as <-. reflexivity. Qed.
Lemma copy_built : forall b sc, built b sc -> copy_builder b = Ok b.
Proof. intros b sc ->. apply copy_doc. Qed.
Lemma add_built : forall b sc m tf tf', built b sc -> matrix_text show tf = matrix_text show tf' ->
  xAddMesh show b m tf = if (Z.of_nat (length (sc_objects sc)) =? 2^31 - 1)%Z then UB else if m_tex m then Abort else
    Ok (mkBuilder (sc_config sc) (Z.of_nat (length (sc_objects (add_object m tf' sc)))) (doc_of show (sc_config sc) (sc_objects (add_object m tf' sc)))).
Proof.
  intros b sc m tf tf' -> h. unfold doc_of. rewrite add_doc. destruct (_ =? _); [reflexivity|]. destruct (m_tex m); [reflexivity|].
  unfold add_object. cbn [sc_objects sc_config]. rewrite gs_snoc, ns_snoc, app_length. cbn [length fst snd Nat.add]. unfold d_node. rewrite h.
  rewrite Nat2Z.inj_add. reflexivity.
Qed.
Lemma affine_text : forall t, matrix_text show (affine_of t) = matrix_text show (pose_matrix t).
Proof. reflexivity. Qed.
Lemma mesh_of_eq : forall s cfg, shape_mesh s (nbArcVertices cfg) = mesh_of s cfg.
Proof. intros [] cfg; reflexivity. Qed.
Lemma mesh_of_tex : forall s cfg m, mesh_of s cfg = Ok m -> m_tex m = false.
Proof. intros [] cfg m h; unfold mesh_of in h; cbn in h; try discriminate h; eapply rounded_tex; exact h. Qed.

Lemma F2_nth : forall A B (P : A -> B -> Prop) l l' i, Forall2 P l l' ->
  (exists x y, nth_error l i = Some x /\ nth_error l' i = Some y /\ P x y) \/ (nth_error l i = None /\ nth_error l' i = None).
Proof.
  intros A B P l l' i h. revert i. induction h as [|a z l l' hab h IH]; intros [|i]; cbn; auto. left. exists a, z. auto.
Qed.
Lemma F2_set : forall l l' i b sc, Forall2 built l l' -> built b sc -> Forall2 built (set_nth i b l) (replace i sc l').
Proof. intros l l' i b sc h hb. revert i. induction h; intros [|i]; cbn; constructor; auto. Qed.
Lemma replace_same : forall (l : list (Scene T)) i sc, nth_error l i = Some sc -> replace i sc l = l.
Proof. induction l as [|a l IH]; intros [|i] sc h; cbn in *; try discriminate h; [now injection h as <-|]. now rewrite IH. Qed.

(** What a call does, given that the builders hold the scenes. *)
Lemma call_built : forall c l scs, Forall2 built l scs ->
  match do_call show c l with
  | Ok l' => exists scs', scene_call c scs = Some scs' /\ Forall2 built l' scs'
  | Throw => scene_call c scs = None
  | Abort | UB => fine_call c scs -> exists sc, In sc scs /\ Z.of_nat (length (sc_objects sc)) = 2^31 - 1
  end.
Proof.
  intros c l scs h.
  assert (hadd : forall i m tf tf' b sc, nth_error scs i = Some sc -> built b sc -> matrix_text show tf = matrix_text show tf' ->
    match rmap (fun b' => set_nth i b' l) (xAddMesh show b m tf) with
    | Ok l' => m_tex m = false /\ Forall2 built l' (on_scene i (add_object m tf') scs)
    | Throw => False
    | _ => m_tex m = false -> exists sc, In sc scs /\ Z.of_nat (length (sc_objects sc)) = 2^31 - 1
    end).
  { intros i m tf tf' b sc e2 hb ht. rewrite (add_built b sc m tf tf' hb ht). destruct (_ =? _) eqn:en.
    - intros _. exists sc. split; [eapply nth_error_In; eauto|now apply Z.eqb_eq].
    - destruct (m_tex m); [discriminate|]. cbn [rmap]. split; [reflexivity|]. unfold on_scene. rewrite e2. apply F2_set; [exact h|reflexivity]. }
  destruct c as [cfg | i | i j | i m tf | i m tf | i s tf]; cbn [do_call scene_call].
  - rewrite new_builder_doc. cbn [rmap]. eexists. split; [reflexivity|]. apply Forall2_app; [exact h|]. repeat constructor.
  - unfold get. destruct (F2_nth _ _ _ _ _ i h) as [(b & sc & e1 & e2 & hb) | [e1 e2]]; rewrite e1, e2; cbn [rbind option_map].
    + rewrite (copy_built b sc hb). cbn [rmap]. eexists. split; [reflexivity|]. apply Forall2_app; [exact h|]. now repeat constructor.
    + intros [f _]. assert (x : (i < length scs)%nat) by (apply f; now left). apply nth_error_Some in x. congruence.
  - unfold get. destruct (F2_nth _ _ _ _ _ i h) as [(b & sc & e1 & e2 & hb) | [e1 e2]]; rewrite e1; cbn [rbind].
    + destruct (F2_nth _ _ _ _ _ j h) as [(b' & sc' & e1' & e2' & hb') | [e1' e2']]; rewrite e1', e2'; cbn [rbind option_map].
      * destruct (Nat.eqb_spec i j) as [<-|_].
        -- exists scs. split; [|exact h]. f_equal. apply replace_same. congruence.
        -- rewrite (copy_built b' sc' hb'). cbn [rmap]. eexists. split; [reflexivity|]. now apply F2_set.
      * intros [f _]. assert (x : (j < length scs)%nat) by (apply f; now right; left). apply nth_error_Some in x. congruence.
    + intros [f _]. assert (x : (i < length scs)%nat) by (apply f; now left). apply nth_error_Some in x. congruence.
  - unfold get, add_mesh. destruct (F2_nth _ _ _ _ _ i h) as [(b & sc & e1 & e2 & hb) | [e1 e2]]; rewrite e1; cbn [rbind].
    + destruct (m_tex m) eqn:et; [reflexivity|]. pose proof (hadd i m tf tf b sc e2 hb eq_refl) as k.
      destruct (rmap _ _); [|contradiction|auto|auto]. destruct k as [_ k]. eexists. split; [reflexivity|exact k].
    + intros [f _]. assert (x : (i < length scs)%nat) by (apply f; now left). apply nth_error_Some in x. congruence.
  - unfold get, add_mesh_tf. destruct (F2_nth _ _ _ _ _ i h) as [(b & sc & e1 & e2 & hb) | [e1 e2]]; rewrite e1; cbn [rbind].
    + pose proof (hadd i m (affine_of tf) (pose_matrix tf) b sc e2 hb (affine_text tf)) as k.
      destruct (rmap _ _); [|contradiction| |].
      * destruct k as [-> k]. eexists. split; [reflexivity|exact k].
      * intros [_ f]. exact (k f).
      * intros [_ f]. exact (k f).
    + intros [f _]. assert (x : (i < length scs)%nat) by (apply f; now left). apply nth_error_Some in x. congruence.
  - unfold get, add_shape, add_mesh_tf. destruct (F2_nth _ _ _ _ _ i h) as [(b & sc & e1 & e2 & hb) | [e1 e2]]; rewrite e1; cbn [rbind].
    + assert (ec : b_config b = sc_config sc) by (rewrite hb; reflexivity). rewrite ec, mesh_of_eq, e2.
      destruct (mesh_of s (sc_config sc)) as [m| | |] eqn:em; cbn [rbind rmap].
      * pose proof (hadd i m (affine_of tf) (pose_matrix tf) b sc e2 hb (affine_text tf)) as k. pose proof (mesh_of_tex _ _ _ em) as et.
        destruct (rmap _ _); [|contradiction|auto|auto]. destruct k as [_ k]. eexists. split; [reflexivity|exact k].
      * reflexivity.
      * intros [_ f]. destruct (f sc e2). congruence.
      * intros [_ f]. destruct (f sc e2). congruence.
    + intros [f _]. assert (x : (i < length scs)%nat) by (apply f; now left). apply nth_error_Some in x. congruence.
Qed.

Lemma calls_built : forall cs l scs l', Forall2 built l scs -> do_calls show cs l = Ok l' -> Forall2 built l' (scenes cs scs).
Proof.
  induction cs as [|c cs IH]; intros l scs l' h e; [now injection e as <-|]. cbn [do_calls] in e. unfold scenes. cbn [fold_left].
  pose proof (call_built c l scs h) as k. destruct (do_call show c l) as [l1| | |]; [| |discriminate e|discriminate e].
  - destruct k as (scs' & -> & k). eapply IH; eauto.
  - rewrite k. eapply IH; eauto.
Qed.

Lemma replace_in : forall (l : list (Scene T)) i sc x, In x (replace i sc l) -> x = sc \/ In x l.
Proof. induction l as [|a l IH]; intros [|i] sc x h; cbn in *; [tauto|tauto|destruct h; auto|]. destruct h as [h|h]; [auto|]. apply IH in h. tauto. Qed.
Lemma scene_call_bound : forall c scs scs' n, scene_call c scs = Some scs' ->
  (forall sc, In sc scs -> (length (sc_objects sc) <= n)%nat) -> forall sc, In sc scs' -> (length (sc_objects sc) <= Datatypes.S n)%nat.
Proof.
  intros c scs scs' n e h sc i.
  assert (ho : forall k m tf x, In x (on_scene k (add_object m tf) scs) -> (length (sc_objects x) <= Datatypes.S n)%nat).
  { intros k m tf x ix. unfold on_scene in ix. destruct (nth_error scs k) eqn:en; [|apply h in ix; lia].
    apply replace_in in ix. destruct ix as [-> | ix]; [|apply h in ix; lia]. apply nth_error_In in en. apply h in en. unfold add_object. cbn [sc_objects].
    rewrite app_length. cbn. lia. }
  destruct c as [cfg | j | j k | j m tf | j m tf | j s tf]; cbn [scene_call] in e.
  - injection e as <-. apply in_app_iff in i. destruct i as [i|[<-|[]]]; [apply h in i|cbn]; lia.
  - destruct (nth_error scs j) eqn:en; [|discriminate e]. injection e as <-. apply in_app_iff in i. apply nth_error_In, h in en. destruct i as [i|[<-|[]]]; [apply h in i|]; lia.
  - destruct (nth_error scs k) eqn:en; [|discriminate e]. injection e as <-. apply nth_error_In, h in en. apply replace_in in i. destruct i as [-> | i]; [|apply h in i]; lia.
  - destruct (m_tex m); [discriminate e|]. injection e as <-. eapply ho; eauto.
  - destruct (m_tex m); [discriminate e|]. injection e as <-. eapply ho; eauto.
  - destruct (nth_error scs j); [|discriminate e]. destruct (mesh_of _ _); try discriminate e. injection e as <-. eapply ho; eauto.
Qed.
Lemma calls_return : forall cs l scs n, Forall2 built l scs -> fine_calls cs scs ->
  (forall sc, In sc scs -> (length (sc_objects sc) <= n)%nat) -> Z.of_nat (n + length cs) < 2^31 ->
  exists l', do_calls show cs l = Ok l'.
Proof.
  induction cs as [|c cs IH]; intros l scs n h f hn hb; [exists l; reflexivity|]. cbn [do_calls fine_calls length] in *. destruct f as [f1 f2].
  assert (hx : forall sc, In sc scs -> Z.of_nat (length (sc_objects sc)) <> 2^31 - 1) by (intros sc i; apply hn in i; lia).
  pose proof (call_built c l scs h) as k. destruct (do_call show c l) as [l1| | |].
  - destruct k as (scs' & e & k). rewrite e in f2. apply (IH l1 scs' (Datatypes.S n)); auto; [|lia]. now apply (scene_call_bound c scs).
  - rewrite k in f2. apply (IH l scs n); auto. lia.
  - exfalso. destruct (k f1) as (sc & i & e). exact (hx sc i e).
  - exfalso. destruct (k f1) as (sc & i & e). exact (hx sc i e).
Qed.

End Histories.

Lemma C55_presents_proof : forall (T : Type) (S : Scalar T) (show : T -> string) (cs : list (call T)) (bs : list (Builder T)),
  do_calls show cs [] = Ok bs ->
  Forall2 (fun b sc => presents show (b_xml b) sc /\ b_config b = sc_config sc) bs (scenes cs []).
Proof.
  intros T S show cs bs h. assert (k := calls_built show cs [] [] bs (Forall2_nil _) h).
  clear h. revert k. generalize (scenes cs []). intros scs k.
  induction k as [|b sc l l' e k IH]; constructor; [|exact IH]. rewrite e. cbn [b_xml b_config]. destruct sc as [cfg os]. split; [|reflexivity].
  apply (presents_doc show cfg os).
Qed.


Lemma C55_safe_proof : forall (T : Type) (S : Scalar T) (show : T -> string) (cs : list (call T)),
  Z.of_nat (length cs) < 2^31 -> fine_calls cs [] -> exists bs, do_calls show cs [] = Ok bs.
Proof.
  intros T S show cs h f. apply (calls_return show cs [] [] 0); auto. intros sc [].
Qed.


Lemma C55_throws_proof : forall (T : Type) (S : Scalar T) (show : T -> string) (cs : list (call T)) (c : call T) (bs : list (Builder T)),
  Z.of_nat (length cs) < 2^31 - 1 -> do_calls show cs [] = Ok bs -> fine_calls cs [] -> fine_call c (scenes cs []) ->
  (do_call show c bs = Throw <-> scene_call c (scenes cs []) = None) /\
  (scene_call c (scenes cs []) <> None -> exists bs', do_call show c bs = Ok bs').
Proof.
  intros T S show cs c bs hl h f fc. assert (k := calls_built show cs [] [] bs (Forall2_nil _) h).
  assert (hb : forall sc, In sc (scenes cs []) -> (length (sc_objects sc) <= length cs)%nat).
  { clear. assert (g : forall cs (l : list (Scene T)) n, (forall sc, In sc l -> (length (sc_objects sc) <= n)%nat) ->
      forall sc, In sc (scenes cs l) -> (length (sc_objects sc) <= n + length cs)%nat).
    { induction cs0 as [|c0 cs0 IH]; intros l n hl sc i; cbn [length]; [unfold scenes in i; cbn in i; apply hl in i; lia|].
      unfold scenes in i. cbn [fold_left] in i. destruct (scene_call c0 l) as [l'|] eqn:e.
      - apply (IH l' (Datatypes.S n)) in i; [lia|]. now apply (scene_call_bound c0 l).
      - apply (IH l n) in i; [lia|exact hl]. }
    intros sc i. apply (g cs [] 0%nat) in i; [exact i|]. intros x []. }
  pose proof (call_built show c bs _ k) as kc.
  assert (hx : forall sc, In sc (scenes cs []) -> Z.of_nat (length (sc_objects sc)) <> 2^31 - 1) by (intros sc i; apply hb in i; lia).
  destruct (do_call show c bs) as [bs'| | |].
  - destruct kc as (scs' & e & _). rewrite e. split; [split; discriminate|]. intros _. now exists bs'.
  - rewrite kc. split; [tauto|]. intro x. now contradiction x.
  - exfalso. destruct (kc fc) as (sc & i & e). exact (hx sc i e).
  - exfalso. destruct (kc fc) as (sc & i & e). exact (hx sc i e).
Qed.



(** The calls of ordinary use, in real arithmetic. *)
Lemma usual_fine : forall cs l, (forall sc, In sc l -> 0 <= nbArcVertices (sc_config sc) <= 8000) -> usual_calls cs l -> fine_calls cs l.
Proof.
  induction cs as [|c cs IH]; intros l hl h; [exact Logic.I|]. cbn [usual_calls fine_calls] in *. destruct h as [[h1 h2] h3]. split.
  - split; [exact h1|]. destruct c as [cfg | i | i j | i m tf | i m tf | i s tf]; auto.
    intros sc e. apply nth_error_In, hl in e. unfold mesh_of. destruct (rounded_box s) as [[[[x y] z] r]|]; [|contradiction].
    destruct (Props_Factory.C41_create_rounded x y z r (nbArcVertices (sc_config sc)) h2 e) as (d & a & e' & _). rewrite e'. split; discriminate.
  - apply IH; [|exact h3]. destruct (scene_call c l) as [l'|] eqn:e; [|exact hl].
    assert (ho : forall k m tf sc, In sc (on_scene k (add_object m tf) l) -> 0 <= nbArcVertices (sc_config sc) <= 8000).
    { intros k m tf sc i. unfold on_scene in i. destruct (nth_error l k) eqn:en; [|auto]. apply replace_in in i. destruct i as [-> | i]; [|auto].
      apply nth_error_In, hl in en. exact en. }
    intros sc i. destruct c as [cfg | j | j k | j m tf | j m tf | j s tf]; cbn [scene_call] in e.
    + injection e as <-. apply in_app_iff in i. destruct i as [i|[<-|[]]]; auto.
    + destruct (nth_error l j) eqn:en; [|discriminate e]. injection e as <-. apply in_app_iff in i. apply nth_error_In, hl in en. destruct i as [i|[<-|[]]]; auto.
    + destruct (nth_error l k) eqn:en; [|discriminate e]. injection e as <-. apply nth_error_In, hl in en. apply replace_in in i. destruct i as [-> | i]; auto.
    + destruct (m_tex m); [discriminate e|]. injection e as <-. eapply ho; eauto.
    + destruct (m_tex m); [discriminate e|]. injection e as <-. eapply ho; eauto.
    + destruct (nth_error l j); [|discriminate e]. destruct (mesh_of _ _); try discriminate e. injection e as <-. eapply ho; eauto.
Qed.

Lemma C55_shapes_proof : forall (show : R -> string) (cs : list (call R)),
  Z.of_nat (length cs) < 2^31 -> usual_calls cs [] ->
  exists bs, do_calls show cs [] = Ok bs /\ Forall2 (fun b sc => presents show (b_xml b) sc) bs (scenes cs []).
Proof.
  intros show cs h u. destruct (C55_safe_proof R RScalar show cs h (usual_fine cs [] ltac:(intros sc []) u)) as [bs e].
  exists bs. split; [exact e|]. pose proof (C55_presents_proof R RScalar show cs bs e) as k.
  clear e u. revert k. generalize (scenes cs []). intros scs k. induction k as [|b sc l l' [p _] k IH]; constructor; [exact p|exact IH].
Qed.


Lemma C55_texture_refuted_proof : forall (T : Type) (S : Scalar T) (show : T -> string) (cfg : Config T) (tf : Transform T),
  do_calls show [New cfg; AddMesh 0 (mesh_new true) (affine_of tf)] [] = do_calls show [New cfg] [] /\
  do_calls show [New cfg; AddMeshTf 0 (mesh_new true) tf] [] = Abort.
Proof. intros. cbn [do_calls do_call]. rewrite new_builder_doc. split; reflexivity. Qed.


Lemma C55_count_refuted_proof : forall (T : Type) (S : Scalar T) (show : T -> string) (cfg : Config T) (m : Mesh T) (tf : Affine3f T),
  m_tex m = false -> do_calls show (New cfg :: repeat (AddMesh 0 m tf) (Z.to_nat (2^31))) [] = UB.
Proof.
  intros T S show cfg m tf hm. assert (hn : Z.of_nat (Z.to_nat (2^31)) = 2^31) by (apply Z2Nat.id; lia). revert hn.
  generalize (Z.to_nat (2^31)). intros N hn. cbn [do_calls do_call]. rewrite new_builder_doc. cbn [rmap app].
  assert (h : forall n id gs ns, id + Z.of_nat n = 2^31 ->  id < 2^31 ->
    do_calls show (repeat (AddMesh 0 m tf) n) [mkBuilder cfg id (d_doc show cfg gs ns)] = UB).
  { induction n as [|n IH]; intros id gs ns h h'; [lia|]. cbn [repeat do_calls do_call get nth_error rbind]. unfold add_mesh. rewrite hm, add_doc.
    destruct (Z.eqb_spec id (2^31 - 1)) as [|hi]; [reflexivity|]. rewrite hm. cbn [rmap set_nth]. apply IH; lia. }
  apply h; [rewrite hn; reflexivity|lia].
Qed.



Lemma run_positions : forall T (S : Scalar T) (x y z : T) n cs d, exists ps, length ps = (3 * n)%nat /\
  mesh_run (repeat (CPosition x y z) n ++ cs)%list d =
  mesh_run cs (mkMesh (m_tex d) (m_pos d ++ ps) (m_nor d) (m_texc d) (m_vert d) (m_vcounts d) (m_mode d) (m_vcount d) (m_curN d) (m_curT d))%list.
Proof.
  intros T S x y z. induction n as [|n IH]; intros cs d.
  - exists []. split; [reflexivity|]. cbn [repeat app]. rewrite app_nil_r. now destruct d.
  - cbn [repeat app mesh_run mesh_step]. unfold position, mbind, mret. cbn.
    destruct (IH cs (mkMesh (m_tex d) (m_pos d ++ [x; y; z]) (m_nor d) (m_texc d) (m_vert d) (m_vcounts d) (m_mode d) (m_vcount d) (m_curN d) (m_curT d))%list) as (ps & h1 & h2).
    exists ([x; y; z] ++ ps)%list. split; [cbn; lia|]. rewrite h2. cbn. now rewrite <- app_assoc.
Qed.

Lemma C55_indices_refuted_proof : forall (T : Type) (S : Scalar T) (show : T -> string) (cfg : Config T) (tf : Affine3f T) (x y z : T),
  near_unit x y z = true ->
  exists m b geometry p,
    mesh_run (CNormal x y z :: repeat (CPosition x y z) (Z.to_nat 1000002) ++ [CBegin TRIANGLES; CVertex 0; CVertex 1; CVertex 1000001; CEnd])%list (mesh_new false) = Ok m /\
    do_calls show [New cfg; AddMesh 0 m tf] [] = Ok [b] /\
    under ["COLLADA"; "library_geometries"; "geometry"] (b_xml b) = [geometry] /\
    under ["mesh"; "polylist"; "p"] geometry = [p] /\
    m_vert m = [0; 0; 1; 0; 1000001; 0] /\ pt_data p = "0 0 1 0 1e+06 0 " /\ ~ reads (pt_data p) (m_vert m).
Proof.
  intros T S show cfg tf x y z hu. assert (hN : Z.of_nat (Z.to_nat 1000002) = 1000002) by (apply Z2Nat.id; lia). revert hN.
  generalize (Z.to_nat 1000002). intros N hN.
  destruct (run_positions T S x y z N [CBegin TRIANGLES; CVertex 0; CVertex 1; CVertex 1000001; CEnd]
             (mkMesh false [] [x; y; z] [] [] [] None 0 (Some 0) None)) as (ps & hl & hr).
  assert (hn : forall d, m_pos d = ps -> positionsNb d = 1000002).
  { intros d e. unfold positionsNb. rewrite e, hl. rewrite Nat2Z.inj_mul, hN. reflexivity. }
  assert (hm : mesh_run (CNormal x y z :: repeat (CPosition x y z) N ++ [CBegin TRIANGLES; CVertex 0; CVertex 1; CVertex 1000001; CEnd])%list (mesh_new false)
    = Ok (mkMesh false ps [x; y; z] [] [0; 0; 1; 0; 1000001; 0] [3] None 0 (Some 0) None)).
  { cbn [mesh_run mesh_step]. unfold normal, mbind, mret. unfold near_unit in hu. rewrite hu. cbn - [mesh_run repeat Z.to_nat]. cbn [normalsNb m_nor mesh_new length] in *.
    change (Z.of_nat 0 / 3) with 0. 
    etransitivity; [exact hr|]. clear hr. cbn [m_tex m_pos m_nor m_texc m_vert m_vcounts m_mode m_vcount m_curN m_curT app].
    cbn [mesh_run mesh_step]. unfold begin_, vertex. cbn - [mesh_run positionsNb]. 
    do 3 (rewrite hn by reflexivity; cbn - [positionsNb end_]). reflexivity. }
  eexists. exists (mkBuilder cfg 1 (doc_of show cfg [(mkMesh false ps [x; y; z] [] [0; 0; 1; 0; 1000001; 0] [3] None 0 (Some 0) None, tf)])).
  eexists. eexists. split; [exact hm|].
  split. { cbn [do_calls do_call]. rewrite new_builder_doc. cbn [rmap get nth_error app rbind]. unfold add_mesh. cbn [m_tex]. rewrite add_doc. reflexivity. }
  split; [reflexivity|]. split; [reflexivity|]. split; [reflexivity|]. split; [vm_compute; reflexivity|]. vm_compute. discriminate.
Qed.

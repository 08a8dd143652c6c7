(** * Property C51: keys, labels, curves and tangents of animations *)
From Coq Require Import String Ascii.
From Coq Require Import List ZArith Bool Arith Lia Sorting.Sorted.
From Coq Require Decimal DecimalString DecimalZ DecimalFacts DecimalPos.
Import ListNotations.
From Verif Require Import Scalar Model_Anim Spec_Anim.
Local Open Scope string_scope.
Local Open Scope list_scope.
Local Open Scope Z_scope.
From Verif Require Proofs_Anim.

(** ** C51 *)

(** What is written in an attribute of type int is what is read in it. *)
Theorem C51_ints : forall name z pt, - 2^31 <= z < 2^31 ->
  get_int name (put_attr name (print_int z) pt) = Ok z /\
  (forall name', name' <> name -> attr name' (put_attr name (print_int z) pt) = attr name' pt).
Proof. exact @Proofs_Anim.C51_ints_proof. Qed.
Print Assumptions C51_ints.

Example C51_ints_ex : get_int "fps" (put_attr "fps" (print_int (- 1203)) (PT "" [])) = Ok (- 1203)
  /\ parse_int " +0042 " = Some 42 /\ parse_int "2147483648" = None /\ parse_int "12a" = None.
Proof. vm_compute. repeat split; reflexivity. Qed.

(** An attribute is read as an int exactly when it is one, written with any sign, leading zeros
    and blanks around. *)
Theorem C51_int_text : forall s z, parse_int s = Some z <-> integer_text s z /\ - 2^31 <= z < 2^31.
Proof. exact @Proofs_Anim.C51_int_text_proof. Qed.
Print Assumptions C51_int_text.

Example C51_int_text_ex : parse_int (String "009" "  -007 ") = Some (-7) /\ integer_text " +12" 12.
Proof.
  split; [reflexivity|]. exists " ", "+", "12", 12, "". split; [reflexivity|].
  split; [intros c [<-|[]]; cbn; tauto|]. split; [intros c []|]. split; [|left; auto].
  split; [discriminate|]. split; [intros c [<-|[<-|[]]]; cbn; lia|reflexivity].
Qed.

(** Every attribute of a key or of a curve is read as it was written, writing one leaves the
    others, and a frame or a frequency that is not allowed is refused and changes nothing. *)
Theorem C51_attributes : forall T (parse_real : string -> option T) pt,
  let only (a : string) pt' := forall n, n <> a -> attr n pt' = attr n pt in
  (forall f, is_frame f -> exists pt', put_frame f pt = (Ok tt, pt') /\ get_frame pt' = Ok f /\ only "frame" pt') /\
  (forall f, f < 0 -> put_frame f pt = (Throw, pt)) /\
  (forall n, 0 < n < 2^31 -> exists pt', put_fps n pt = (Ok tt, pt') /\ get_fps pt' = Ok n /\ only "fps" pt') /\
  (forall n, n <= 0 -> put_fps n pt = (Throw, pt)) /\
  (forall a, get_actuator (put_actuator a pt) = Ok a /\ only "actuator" (put_actuator a pt)) /\
  (forall b, get_mute (put_mute b pt) = b /\ only "mute" (put_mute b pt)) /\
  (forall u, get_unit (put_unit u pt) = Ok u /\ only "unit" (put_unit u pt)) /\
  (forall s, get_side (put_side s pt) = Ok s /\ only "side" (put_side s pt)) /\
  (forall v, get_key_value parse_real (put_key_value v pt) = match parse_real v with Some x => Ok x | None => Throw end /\
             only "value" (put_key_value v pt)).
Proof. exact @Proofs_Anim.C51_attributes_proof. Qed.
Print Assumptions C51_attributes.

(** What the accessors read in any element, written by anybody. *)
Theorem C51_reading : forall T (parse_real : string -> option T) pt,
  (forall f, get_frame pt = Ok f <-> exists s, attr "frame" pt = Some s /\ integer_text s f /\ is_frame f) /\
  (forall n, get_fps pt = Ok n <-> exists s, attr "fps" pt = Some s /\ integer_text s n /\ 0 < n < 2^31) /\
  (get_mute pt = true <-> exists s, attr "mute" pt = Some s /\ (s = "true" \/ integer_text s 1)) /\
  (forall u, get_unit pt = Ok u <-> attr "unit" pt = Some
     match u with dimensionless => "dimensionless" | radian => "radian" | degree => "degree" | meter => "meter" end) /\
  (forall s, get_side pt = Ok s <-> attr "side" pt = Some match s with left => "left" | right => "right" end) /\
  (forall x, get_key_value parse_real pt = Ok x <-> exists s, attr "value" pt = Some s /\ parse_real s = Some x) /\
  (forall x, get_abscissa parse_real pt = Ok x <-> exists s, attr "abscissaParam" pt = Some s /\ parse_real s = Some x) /\
  (forall x, get_ordinate parse_real pt = Ok x <-> exists s, attr "ordinateParam" pt = Some s /\ parse_real s = Some x).
Proof. exact @Proofs_Anim.C51_reading_proof. Qed.
Print Assumptions C51_reading.

Example C51_reading_ex : let pt := put_mute true (put_unit meter (PT "" [])) in get_mute pt = true /\ get_unit pt = Ok meter /\ get_fps pt = Throw.
Proof. repeat split. Qed.

(** add_labels adds an empty list of labels after everything else, every time it is called. *)
Theorem C51_add_labels : forall pt, let (i, pt') := add_labels pt in
  kid pt' i = Ok ("Labels", PT "" []) /\ pt_kids pt' = pt_kids pt ++ [("Labels", PT "" [])] /\ pt_data pt' = pt_data pt.
Proof. exact @Proofs_Anim.C51_add_labels_proof. Qed.
Print Assumptions C51_add_labels.

(** require_key on a conforming curve returns a key with that frame. If there was one it is
    this one and nothing changes. Otherwise the new key has only its frame, it is inserted
    between the keys of smaller and those of greater frames, and nothing else changes. *)
Theorem C51_require_key : forall curve l f, conforming_curve curve l -> is_frame f ->
  exists i k curve', require_key curve f = (Ok i, curve') /\ kid curve' i = Ok ("Key", k) /\ get_frame k = Ok f /\
  ((In (f, k) l /\ curve' = curve) \/
   (~ In f (map fst l) /\ blank_key f k /\ pt_data curve' = pt_data curve /\ others "Key" curve' = others "Key" curve /\
    exists l1 l2, l = l1 ++ l2 /\ (forall g k', In (g, k') l1 -> g < f) /\ (forall g k', In (g, k') l2 -> f < g) /\
      conforming_curve curve' (l1 ++ (f, k) :: l2))).
Proof. exact @Proofs_Anim.C51_require_key_proof. Qed.
Print Assumptions C51_require_key.

(** get_key_optional on a conforming curve finds the key with a frame exactly when there is
    one; the frame can be any int. *)
Theorem C51_get_key : forall curve l f, conforming_curve curve l ->
  (forall k, In (f, k) l -> exists i, get_key_optional curve f = Ok (Some i) /\ kid curve i = Ok ("Key", k)) /\
  (~ In f (map fst l) -> get_key_optional curve f = Ok None).
Proof. exact @Proofs_Anim.C51_get_key_proof. Qed.
Print Assumptions C51_get_key.

(** After any sequence of calls, the curve is conforming: it is the map from frames to keys
    that the calls describe, each required frame having exactly one key, sorted, and the
    calls on one key changing that key only. The curve must have an attribute from the
    start, as those made by require_actuatorcurve do. *)
Theorem C51_history : exists new_key, (forall f, is_frame f -> blank_key f (new_key f)) /\
  forall ops curve l m, conforming_curve curve l -> find_child "<xmlattr>" (pt_kids curve) <> None ->
    represents l m -> frames_ok ops ->
  exists l', conforming_curve (run_curve ops curve) l' /\ represents l' (run_map new_key ops m).
Proof. exact @Proofs_Anim.C51_history_proof. Qed.
Print Assumptions C51_history.

(** The curves made by require_actuatorcurve are conforming and have an attribute. *)
Theorem C51_new_curve : forall name, let curve := put_actuator name (PT "" []) in
  conforming_curve curve [] /\ find_child "<xmlattr>" (pt_kids curve) <> None /\ represents [] (fun _ => None).
Proof. exact @Proofs_Anim.C51_new_curve_proof. Qed.
Print Assumptions C51_new_curve.

Definition C51_ops : list curve_op :=
  [RequireKey 10; RequireKey 3; OnKey 10 (KTangent left "-2.5" "0.1"); PutFps 25; RequireKey 7; OnKey 3 (KValue "0.25");
   RequireKey 10; PutUnit radian; OnKey 10 (KTangent left "-1" "0"); OnKey 4 (KValue "1")].
(*E*)
Example C51_history_ex : let c := run_curve C51_ops (put_actuator "HeadYaw" (PT "" [])) in
  map get_frame (get_keys c) = [Ok 3; Ok 7; Ok 10] /\ map (attr "value") (get_keys c) = [Some "0.25"; None; None]
  /\ get_fps c = Ok 25 /\ get_unit c = Ok radian /\ get_actuator c = Ok "HeadYaw"
  /\ get_key c 7 = Ok 2%nat /\ get_key c 4 = Throw.
Proof. vm_compute. repeat split; reflexivity. Qed.

Definition C51_curve : ptree := Eval vm_compute in run_curve C51_ops (put_actuator "HeadYaw" (PT "" [])).
(*E*)
Example C51_history_hyp : frames_ok C51_ops /\ run_curve C51_ops (put_actuator "HeadYaw" (PT "" [])) = C51_curve /\
  exists l, conforming_curve C51_curve l /\ map fst l = [3; 7; 10].
Proof.
  split; [intros f h; cbn in h; unfold is_frame; intuition (try discriminate); match goal with e : RequireKey _ = RequireKey _ |- _ => injection e as <- end; lia|].
  split; [vm_compute; reflexivity|]. unfold C51_curve.
  eexists [(3, _); (7, _); (10, _)].
  split; [|reflexivity]. split.
  - split.
    + exists [("<xmlattr>", PT "" [("actuator", PT "HeadYaw" []); ("fps", PT "25" []); ("unit", PT "radian" [])])]. split; [reflexivity|].
      intros c [<-|[]]. discriminate.
    + intros f k [e|[e|[e|[]]]]; injection e as <- <-; reflexivity.
  - cbn. repeat constructor.
Qed.

(** Finding: when the first attribute is set after the first keys, the keys added later
    are not sorted and a frame gets two keys: keys are looked for by bisection and the
    attributes, then in the middle of the list, stop it. *)
Theorem C51_attributes_after_keys_refuted :
  ~ (forall ops curve l m, conforming_curve curve l -> represents l m -> frames_ok ops ->
     exists l', conforming_curve (run_curve ops curve) l') /\
  map get_frame (get_keys (run_curve [RequireKey 5; RequireKey 10; PutFps 25; RequireKey 12; RequireKey 10] (PT "" [])))
  = [Ok 5; Ok 10; Ok 10; Ok 12].
Proof. exact @Proofs_Anim.C51_attributes_after_keys_refuted_proof. Qed.
Print Assumptions C51_attributes_after_keys_refuted.

(** Finding: the same happens in a document whose keys are sorted but where something else
    (an XML comment) comes between them: a key that is there is not found. *)
Theorem C51_interleaved_refuted : exists curve,
  map get_frame (get_keys curve) = [Ok 0; Ok 10; Ok 20] /\ get_key_optional curve 0 = Ok None /\
  map get_frame (get_keys (snd (require_key curve 0))) = [Ok 0; Ok 0; Ok 10; Ok 20].
Proof. exact @Proofs_Anim.C51_interleaved_refuted_proof. Qed.
Print Assumptions C51_interleaved_refuted.

(** Finding: a negative frame is refused, but only after the key was inserted: the curve is
    left with a key without frame, and looking for another key fails. *)
Theorem C51_negative_frame_refuted : exists curve l, conforming_curve curve l /\ map fst l = [0; 10] /\
  fst (require_key curve (-1)) = Throw /\ snd (require_key curve (-1)) <> curve /\
  map get_frame (get_keys (snd (require_key curve (-1)))) = [Throw; Ok 0; Ok 10] /\
  get_key_optional (snd (require_key curve (-1))) 0 = Throw.
Proof. exact @Proofs_Anim.C51_negative_frame_refuted_proof. Qed.
Print Assumptions C51_negative_frame_refuted.

(** After any sequence of add_label, the labels are sorted by frame; those of one frame are
    the previous ones followed by the added ones in the order of the calls. *)
Theorem C51_labels : forall adds pt l, conforming_labels pt l -> (forall f v, In (f, v) adds -> is_frame f) ->
  let pt' := fold_left (fun pt fv => snd (add_label pt (fst fv) (snd fv))) adds pt in
  exists l' added, conforming_labels pt' l' /\
    map (fun fk => (fst fk, label_value (snd fk))) added = adds /\
    (forall f, filter (fun fk => fst fk =? f) l' = filter (fun fk => fst fk =? f) l ++ filter (fun fk => fst fk =? f) added) /\
    others "Label" pt' = others "Label" pt.
Proof. exact @Proofs_Anim.C51_labels_proof. Qed.
Print Assumptions C51_labels.

Example C51_labels_ex : let pt := fold_left (fun pt fv => snd (add_label pt (fst fv) (snd fv))) [(5, "b"); (2, "a"); (5, "c"); (9, "e"); (5, "d")] (PT "" []) in
  map (fun k => (get_frame k, label_value k)) (get_labels pt) = [(Ok 2, "a"); (Ok 5, "b"); (Ok 5, "c"); (Ok 5, "d"); (Ok 9, "e")]
  /\ conforming_labels (PT "" []) [].
Proof.
  split; [reflexivity|]. split; [|constructor]. split; [|intros f k []]. exists []. split; [reflexivity|intros c []].
Qed.

(** Finding: add_label with a negative frame throws after having inserted the label. *)
Theorem C51_negative_label_refuted : fst (add_label (PT "" []) (-1) "a") = Throw /\
  get_labels (snd (add_label (PT "" []) (-1) "a")) = [PT "a" []].
Proof. exact @Proofs_Anim.C51_negative_label_refuted_proof. Qed.
Print Assumptions C51_negative_label_refuted.

(** require_actuatorcurve returns the first curve of an actuator, or appends a curve that has
    nothing but that actuator. *)
Theorem C51_require_actuatorcurve : forall pt l name, curves_are pt l ->
  exists i c pt', require_actuatorcurve pt name = (Ok i, pt') /\ kid pt' i = Ok ("ActuatorCurve", c) /\ get_actuator c = Ok name /\
  ((pt' = pt /\ exists l1 l2, l = l1 ++ (name, c) :: l2 /\ ~ In name (map fst l1)) \/
   (~ In name (map fst l) /\ names_only name c /\ curves_are pt' (l ++ [(name, c)]) /\ pt_data pt' = pt_data pt /\
    others "ActuatorCurve" pt' = others "ActuatorCurve" pt)).
Proof. exact @Proofs_Anim.C51_require_actuatorcurve_proof. Qed.
Print Assumptions C51_require_actuatorcurve.

(** After any sequence of require_actuatorcurve, the previous curves are there, unchanged and
    in the same order, followed by one curve per new actuator. *)
Theorem C51_actuators : forall names pt l, curves_are pt l ->
  let pt' := fold_left (fun pt n => snd (require_actuatorcurve pt n)) names pt in
  exists added, curves_are pt' (l ++ added) /\ NoDup (map fst added) /\
    (forall a, In a (map fst added) <-> In a names /\ ~ In a (map fst l)) /\
    (forall a c, In (a, c) added -> names_only a c).
Proof. exact @Proofs_Anim.C51_actuators_proof. Qed.
Print Assumptions C51_actuators.

Example C51_actuators_ex : let pt := fold_left (fun pt n => snd (require_actuatorcurve pt n)) ["HeadYaw"; "HeadPitch"; "HeadYaw"] (put_attr "typeVersion" "2.0" (PT "" [])) in
  map get_actuator (get_actuatorcurves pt) = [Ok "HeadYaw"; Ok "HeadPitch"] /\ require_actuatorcurve pt "HeadPitch" = (Ok 2%nat, pt)
  /\ curves_are pt [("HeadYaw", put_actuator "HeadYaw" (PT "" [])); ("HeadPitch", put_actuator "HeadPitch" (PT "" []))].
Proof. repeat split; intros a c [e|[e|[]]]; injection e as <- <-; reflexivity. Qed.

(** put_tangent writes the tangent of one side, creating it when there is none; reading it
    gives what was written, and the other tangent and the attributes of the key are as before. *)
Theorem C51_put_tangent : forall k s a o, tangents_ok k ->
  exists i t k', put_tangent k s a o = (Ok i, k') /\ kid k' i = Ok ("Tangent", t) /\ get_tangent k' s = Ok t /\
    attr "abscissaParam" t = Some a /\ attr "ordinateParam" t = Some o /\
    (forall s', s' <> s -> get_tangent k' s' = get_tangent k s') /\ tangents_ok k' /\ (forall n, attr n k' = attr n k) /\
    others "Tangent" k' = others "Tangent" k.
Proof. exact @Proofs_Anim.C51_put_tangent_proof. Qed.
Print Assumptions C51_put_tangent.

Example C51_put_tangent_ex : let k := snd (put_tangent (snd (put_tangent (put_attr "frame" (print_int 4) (PT "" [])) left "-1" "0") ) right "2" "0.5") in
  tangents_ok k /\ rmap (attr "abscissaParam") (get_tangent (snd (put_tangent k left "-3" "0.25")) left) = Ok (Some "-3")
  /\ rmap (attr "abscissaParam") (get_tangent (snd (put_tangent k left "-3" "0.25")) right) = Ok (Some "2").
Proof.
  split; [|split; reflexivity]. intros t [e|[e|[e|[]]]]; [discriminate| |]; injection e as <-; eexists; reflexivity.
Qed.

(** erase_tangent removes all the tangents of one side and nothing else, and returns how many
    there were. *)
Theorem C51_erase_tangent : forall k s, tangents_ok k ->
  exists n k', erase_tangent k s = (Ok n, k') /\ n = length (filter (on_side s) (pt_kids k)) /\
    pt_kids k' = filter (fun c => negb (on_side s c)) (pt_kids k) /\ pt_data k' = pt_data k /\ get_tangent k' s = Throw /\
    (forall s', s' <> s -> get_tangent k' s' = get_tangent k s') /\ (forall n, attr n k' = attr n k).
Proof. exact @Proofs_Anim.C51_erase_tangent_proof. Qed.
Print Assumptions C51_erase_tangent.

Example C51_erase_ex : let k := snd (put_tangent (snd (put_tangent (put_attr "frame" (print_int 4) (PT "" [])) left "-1" "0") ) right "2" "0.5") in
  fst (erase_tangent k left) = Ok 1%nat /\ get_tangent (snd (erase_tangent k left)) left = Throw.
Proof. split; reflexivity. Qed.

(** Finding: when a tangent with an invalid side follows one to erase, erase_tangent throws
    with the first one already erased. *)
Theorem C51_erase_atomic_refuted : exists k, fst (erase_tangent k left) = Throw /\ snd (erase_tangent k left) <> k.
Proof. exact @Proofs_Anim.C51_erase_atomic_refuted_proof. Qed.
Print Assumptions C51_erase_atomic_refuted.

(** require_animation: the document has an Animation of the supported version afterwards, it is
    what get_animation returns, and the call is idempotent. *)
Theorem C51_require_animation : forall root, 
  match require_animation root with
  | (Ok i, root') => exists a, kid root' i = Ok ("Animation", a) /\ get_animation root' = Ok a /\
        require_animation root' = (Ok i, root') /\ attr "typeVersion" a = Some "2.0" /\
        (root' = root \/ (find_child "Animation" (pt_kids root) = None /\ pt_kids root' = pt_kids root ++ [("Animation", a)]))
  | (r, root') => r = Throw /\ root' = root /\ get_animation root = Throw
  end.
Proof. exact @Proofs_Anim.C51_require_animation_proof. Qed.
Print Assumptions C51_require_animation.

Example C51_require_animation_ex : fst (require_animation (PT "" [("x", PT "" []); ("Animation", put_attr "typeVersion" "1.0" (PT "" []))])) = Throw
  /\ fst (require_animation (PT "" [("x", PT "" [])])) = Ok 1%nat.
Proof. split; reflexivity. Qed.

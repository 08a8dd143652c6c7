(** * Specification of animations

    What a user sees of an animation document through its accessors (get_keys, get_frame,
    get_labels, get_actuator, get_tangent), independently of how keys are searched and
    inserted. *)

From Coq Require Import String Ascii.
From Coq Require Import List ZArith Bool Sorting.Sorted Reals.
Import ListNotations.
From Verif Require Import Scalar Model_Anim.
Local Open Scope string_scope.
Local Open Scope list_scope.
Local Open Scope Z_scope.

(** [items_are key pt l]: the elements called [key] of [pt] come after its other children,
    and [l] lists them in document order, each with its frame. *)
Definition items_are (key : string) (pt : ptree) (l : list (Z * ptree)) : Prop :=
  (exists others, pt_kids pt = others ++ map (fun fk => (key, snd fk)) l /\
                  (forall c, In c others -> fst c <> key)) /\
  (forall f k, In (f, k) l -> get_frame k = Ok f).

(** A conforming curve: its keys are in strictly increasing order of frames. *)
Definition conforming_curve (pt : ptree) (l : list (Z * ptree)) : Prop :=
  items_are "Key" pt l /\ StronglySorted Z.lt (map fst l).

(** Conforming labels: in non-decreasing order of frames. *)
Definition conforming_labels (pt : ptree) (l : list (Z * ptree)) : Prop :=
  items_are "Label" pt l /\ StronglySorted Z.le (map fst l).

(** The children that are not elements of that name. *)
Definition others (key : string) (pt : ptree) : list (string * ptree) :=
  filter (fun c => negb (String.eqb (fst c) key)) (pt_kids pt).

(** Nothing but a frame. *)
Definition blank_key (f : Z) (k : ptree) : Prop :=
  get_frame k = Ok f /\ pt_data k = "" /\
  (forall name, name <> "frame" -> attr name k = None) /\
  (forall c, In c (pt_kids k) -> fst c = "<xmlattr>").

(** The C++ type of frames. *)
Definition is_frame (f : Z) : Prop := 0 <= f < 2^31.

(** How an integer is written: blanks, a sign or none, decimal digits, blanks. *)
Definition blanks (s : string) : Prop :=
  forall c, In c (list_ascii_of_string s) -> In (nat_of_ascii c) [9; 10; 11; 12; 13; 32]%nat.
Definition decimals (s : string) (n : Z) : Prop :=
  s <> "" /\ (forall c, In c (list_ascii_of_string s) -> (48 <= nat_of_ascii c <= 57)%nat) /\
  n = fold_left (fun a c => 10 * a + (Z.of_nat (nat_of_ascii c) - 48)) (list_ascii_of_string s) 0.
Definition integer_text (s : string) (z : Z) : Prop :=
  exists b sg d n b', s = (b ++ sg ++ d ++ b')%string /\ blanks b /\ blanks b' /\ decimals d n /\
    ((sg = "" \/ sg = "+") /\ z = n \/ sg = "-" /\ z = - n).

(** A curve as a finite map from frames to keys. *)
Definition curve_map := Z -> option ptree.
Definition step_map (new_key : Z -> ptree) (op : curve_op) (m : curve_map) : curve_map :=
  match op with
  | RequireKey f => fun g => if Z.eqb g f then match m f with Some k => Some k | None => Some (new_key f) end else m g
  | OnKey f kop => fun g => if Z.eqb g f then option_map (run_key_op kop) (m f) else m g
  | _ => m
  end.
Definition run_map (new_key : Z -> ptree) (ops : list curve_op) (m : curve_map) : curve_map :=
  fold_left (fun m op => step_map new_key op m) ops m.
Definition represents (l : list (Z * ptree)) (m : curve_map) : Prop :=
  forall f k, In (f, k) l <-> m f = Some k.
Definition frames_ok (ops : list curve_op) : Prop :=
  forall f, In (RequireKey f) ops -> is_frame f.

(** The tangents of a key all say left or right. *)
Definition tangents_ok (k : ptree) : Prop :=
  forall t, In ("Tangent", t) (pt_kids k) -> exists s, get_side t = Ok s.
(** A tangent on that side. *)
Definition on_side (s : Side) (c : string * ptree) : bool :=
  String.eqb (fst c) "Tangent" &&
  match get_side (snd c) with Ok s' => side_eqb s' s | _ => false end.

(** The curves of an animation, with their actuators, in document order. *)
Definition names_only (name : string) (c : ptree) : Prop :=
  get_actuator c = Ok name /\ pt_data c = "" /\ get_keys c = [] /\ (forall n, n <> "actuator" -> attr n c = None).
Definition curves_are (pt : ptree) (l : list (string * ptree)) : Prop :=
  get_actuatorcurves pt = map snd l /\ (forall a c, In (a, c) l -> get_actuator c = Ok a).

(** ** Cubic Bezier segments between two keys *)

Local Open Scope R_scope.

(** Coordinate at parameter t of the cubic Bezier curve with control values a b c d. *)
Definition bezier (a b c d t : R) : R :=
  (1 - t)^3 * a + 3 * (1 - t)^2 * t * b + 3 * (1 - t) * t^2 * c + t^3 * d.

(** The control points of a segment are between its two keys, at different frames. *)
Definition valid_segment (p0_frame : Z) (p1_dframe p2_dframe : R) (p3_frame : Z) : Prop :=
  let x0 := IZR p0_frame in let x3 := IZR p3_frame in
  x0 < x3 /\ x0 <= x0 + p1_dframe <= x3 /\ x0 <= x3 + p2_dframe <= x3.

(** What a key and the next one say of the segment between them. *)
Record segment := mkSegment {
  sg_f0 : Z; sg_v0 : R; sg_a1 : R; sg_o1 : R; sg_a2 : R; sg_o2 : R; sg_f3 : Z; sg_v3 : R }.
Definition segment_of (parse_real : string -> option R) (k k' : ptree) (s : segment) : Prop :=
  get_frame k = Ok (sg_f0 s) /\ get_frame k' = Ok (sg_f3 s) /\
  get_key_value parse_real k = Ok (sg_v0 s) /\ get_key_value parse_real k' = Ok (sg_v3 s) /\
  (exists t, get_tangent k right = Ok t /\ get_abscissa parse_real t = Ok (sg_a1 s) /\ get_ordinate parse_real t = Ok (sg_o1 s)) /\
  (exists t, get_tangent k' left = Ok t /\ get_abscissa parse_real t = Ok (sg_a2 s) /\ get_ordinate parse_real t = Ok (sg_o2 s)).
Definition segment_ok (s : segment) : Prop := valid_segment (sg_f0 s) (sg_a1 s) (sg_a2 s) (sg_f3 s).
(** The point of a segment at a parameter: its control points are those documented at
    apply_cubic_bezier (almath/scenegraph/qianim.h). *)
Definition seg_x (s : segment) (t : R) : R :=
  bezier (IZR (sg_f0 s)) (IZR (sg_f0 s) + sg_a1 s) (IZR (sg_f3 s) + sg_a2 s) (IZR (sg_f3 s)) t.
Definition seg_y (s : segment) (t : R) : R :=
  bezier (sg_v0 s) (sg_v0 s + sg_o1 s) (sg_v3 s + sg_o2 s) (sg_v3 s) t.
(** Two successive elements of a list. *)
Definition adjacent {A} (l : list A) (a b : A) : Prop := exists l1 l2, l = l1 ++ a :: b :: l2.
(** Valid curves, and the set of the points of the curve drawn through some keys. *)
Definition valid_keys (parse_real : string -> option R) (keys : list ptree) : Prop :=
  forall k k', adjacent keys k k' -> exists s, segment_of parse_real k k' s /\ segment_ok s.
Definition on_curve (parse_real : string -> option R) (keys : list ptree) (x y : R) : Prop :=
  exists k k' s t, adjacent keys k k' /\ segment_of parse_real k k' s /\ 0 <= t <= 1 /\ x = seg_x s t /\ y = seg_y s t.

(** * Animations (qianim)

    Model of src/scenegraph/qianim.cpp and almath/scenegraph/qianim.h.

    The documents are boost::property_tree::ptree values: a string and an ordered list of
    named children. Only what the library uses of boost is modelled: a path names the first
    child with that key at each level; [put] changes the child it finds, or appends the
    missing ones; XML attributes are the children of the child called <xmlattr>.
    (Simplification: ptree::equal_range and ptree::find look in an index where the children
    of equal keys are in the order of their insertion; here they are in document order. The
    two orders agree when elements are appended, as the parser and [add] do.)

    References into a document (ptree &) are positions in the list of children. A function
    that modifies a document returns it beside its outcome, since an exception leaves in it
    what was already done. *)

From Coq Require Import String Ascii.
From Coq Require Import List ZArith Bool.
From Coq Require Import DecimalString DecimalZ.
Import ListNotations.
From Verif Require Import Scalar.
Local Open Scope string_scope.
Local Open Scope Z_scope.

(** boost::property_tree::ptree *)
Inductive ptree := PT (pt_data : string) (pt_kids : list (string * ptree)).
Definition pt_data (pt : ptree) : string := match pt with PT d _ => d end.
Definition pt_kids (pt : ptree) : list (string * ptree) := match pt with PT _ l => l end.
Definition set_kids (pt : ptree) (l : list (string * ptree)) : ptree := PT (pt_data pt) l.

(** The first child with a key (boost: ptree::find, walk_path). *)
Fixpoint find_child (key : string) (l : list (string * ptree)) : option ptree :=
  match l with
  | [] => None
  | (k, c) :: l' => if String.eqb k key then Some c else find_child key l'
  end.
Fixpoint upd_first (key : string) (f : ptree -> ptree) (l : list (string * ptree)) : option (list (string * ptree)) :=
  match l with
  | [] => None
  | (k, c) :: l' =>
      if String.eqb k key then Some ((k, f c) :: l') else option_map (cons (k, c)) (upd_first key f l')
  end.
(** boost: ptree::put on one path fragment: change the first child with that key, else
    append one. *)
Definition put_kid (key : string) (f : ptree -> ptree) (pt : ptree) : ptree :=
  set_kids pt (match upd_first key f (pt_kids pt) with
               | Some l => l
               | None => pt_kids pt ++ [(key, f (PT "" []))]
               end).
(** boost: pt.get_optional<std::string>("<xmlattr>.name") and pt.put("<xmlattr>.name", v) *)
Definition attr (name : string) (pt : ptree) : option string :=
  match find_child "<xmlattr>" (pt_kids pt) with
  | Some a => option_map pt_data (find_child name (pt_kids a))
  | None => None
  end.
Definition put_attr (name v : string) (pt : ptree) : ptree :=
  put_kid "<xmlattr>" (put_kid name (fun c => PT v (pt_kids c))) pt.
Definition get_string (name : string) (pt : ptree) : res string :=
  match attr name pt with Some s => Ok s | None => Throw end.

(** boost: translation between int and string, with std::stringstream: white space, a sign,
    decimal digits, white space; failure when the value is not an int. *)
Definition is_space (c : ascii) : bool :=
  match c with " "%char => true | _ => let n := nat_of_ascii c in (9 <=? n)%nat && (n <=? 13)%nat end.
Fixpoint drop_spaces (s : string) : string :=
  match s with String c s' => if is_space c then drop_spaces s' else s | EmptyString => s end.
Definition digit (c : ascii) : option Z :=
  let n := nat_of_ascii c in if ((48 <=? n) && (n <=? 57))%nat then Some (Z.of_nat n - 48) else None.
Fixpoint read_digits (s : string) (acc : Z) : Z * string :=
  match s with
  | String c s' => match digit c with Some d => read_digits s' (10 * acc + d) | None => (acc, s) end
  | EmptyString => (acc, s)
  end.
Definition read_nat (s : string) : option (Z * string) :=
  match s with
  | String c s' => match digit c with Some d => Some (read_digits s' d) | None => None end
  | EmptyString => None
  end.
Definition parse_int (s : string) : option Z :=
  let s := drop_spaces s in
  let '(neg, s) :=
    match s with
    | String "-"%char s' => (true, s')
    | String "+"%char s' => (false, s')
    | _ => (false, s)
    end in
  match read_nat s with
  | Some (n, s) =>
      let z := if (neg : bool) then - n else n in
      if (String.eqb (drop_spaces s) "" && (- 2^31 <=? z) && (z <? 2^31))%bool then Some z else None
  | None => None
  end.
Definition print_int (z : Z) : string := NilZero.string_of_int (Z.to_int z).

Definition get_int (name : string) (pt : ptree) : res Z :=
  match attr name pt with
  | Some s => match parse_int s with Some z => Ok z | None => Throw end
  | None => Throw
  end.

(** almath/scenegraph/qianim.h:27-30 *)
Inductive Side := left | right.
Definition side_eqb (a b : Side) : bool :=
  match a, b with left, left => true | right, right => true | _, _ => false end.

(** src/scenegraph/qianim.cpp:17-30 *)
Definition get_side (pt : ptree) : res Side :=
  rbind (get_string "side" pt) (fun s =>
  if String.eqb s "left" then Ok left
  else if String.eqb s "right" then Ok right
  else Throw).
Definition put_side (s : Side) (pt : ptree) : ptree :=
  put_attr "side" (match s with left => "left" | right => "right" end) pt.

(** Children named by a key, with their positions. *)
Definition is_named (key : string) (c : string * ptree) : bool := String.eqb (fst c) key.

(** src/scenegraph/qianim.cpp:36-51 (Label::get_frame, put_frame are the same functions) *)
Definition is_key : string * ptree -> bool := is_named "Key".
Definition get_frame (pt : ptree) : res Z :=
  rbind (get_int "frame" pt) (fun f => if f <? 0 then Throw else Ok f).
Definition put_frame (f : Z) (pt : ptree) : res unit * ptree :=
  if f <? 0 then (Throw, pt) else (Ok tt, put_attr "frame" (print_int f) pt).

(** src/scenegraph/qianim.cpp:53-66 *)
Fixpoint erase_tangent_loop (side : Side) (l : list (string * ptree)) : res nat * list (string * ptree) :=
  match l with
  | [] => (Ok 0%nat, [])
  | c :: l' =>
      if is_named "Tangent" c then
        match get_side (snd c) with
        | Ok s =>
            let '(r, l'') := erase_tangent_loop side l' in
            if side_eqb s side then (rmap S r, l'') else (r, c :: l'')
        | Throw => (Throw, l)
        | Abort => (Abort, l)
        | UB => (UB, l)
        end
      else let '(r, l'') := erase_tangent_loop side l' in (r, c :: l'')
  end.
Definition erase_tangent (pt : ptree) (side : Side) : res nat * ptree :=
  let '(r, l) := erase_tangent_loop side (pt_kids pt) in (r, set_kids pt l).

(** src/scenegraph/qianim.cpp:68-83: the position of the tangent *)
Fixpoint tangent_loop (side : Side) (i : nat) (l : list (string * ptree)) : res (option nat) :=
  match l with
  | [] => Ok None
  | c :: l' =>
      if is_named "Tangent" c then
        rbind (get_side (snd c)) (fun s => if side_eqb side s then Ok (Some i) else tangent_loop side (S i) l')
      else tangent_loop side (S i) l'
  end.
Definition get_tangent_optional (pt : ptree) (side : Side) : res (option nat) :=
  tangent_loop side 0 (pt_kids pt).

(** Reading and writing through a reference to the child at a position. *)
Definition kid (pt : ptree) (i : nat) : res (string * ptree) :=
  match nth_error (pt_kids pt) i with Some c => Ok c | None => UB end.
Fixpoint upd_nth (i : nat) (f : ptree -> ptree) (l : list (string * ptree)) : list (string * ptree) :=
  match l, i with
  | [], _ => []
  | (k, c) :: l', O => (k, f c) :: l'
  | c :: l', S i' => c :: upd_nth i' f l'
  end.
Definition on_kid (pt : ptree) (i : nat) (f : ptree -> ptree) : ptree := set_kids pt (upd_nth i f (pt_kids pt)).

(** boost: optional::value *)
Definition value {A} (r : res (option A)) : res A :=
  rbind r (fun o => match o with Some a => Ok a | None => Throw end).
(** almath/scenegraph/qianim.h:100-106 *)
Definition get_tangent (pt : ptree) (side : Side) : res ptree :=
  rbind (value (get_tangent_optional pt side)) (fun i => rmap snd (kid pt i)).

(** src/scenegraph/qianim.cpp:86-96 *)
Definition add_tangent (pt : ptree) (side : Side) : res nat * ptree :=
  match get_tangent_optional pt side with
  | Ok None => (Ok (length (pt_kids pt)),
                set_kids pt (pt_kids pt ++ [("Tangent", put_side side (PT "" []))]))
  | Ok (Some _) => (Abort, pt)
  | Throw => (Throw, pt)
  | Abort => (Abort, pt)
  | UB => (UB, pt)
  end.
Definition require_tangent (pt : ptree) (side : Side) : res nat * ptree :=
  match get_tangent_optional pt side with
  | Ok (Some i) => (Ok i, pt)
  | Ok None => add_tangent pt side
  | Throw => (Throw, pt)
  | Abort => (Abort, pt)
  | UB => (UB, pt)
  end.
(** almath/scenegraph/qianim.h:53-82, 108-132: the real parameters are given printed. *)
Definition put_tangent (pt : ptree) (side : Side) (abscissa ordinate : string) : res nat * ptree :=
  match require_tangent pt side with
  | (Ok i, pt) =>
      (Ok i, on_kid pt i (fun t => put_attr "ordinateParam" ordinate (put_attr "abscissaParam" abscissa t)))
  | r => r
  end.
Definition put_key_value (v : string) (pt : ptree) : ptree := put_attr "value" v pt.

(** src/scenegraph/qianim.cpp:101-165, almath/scenegraph/qianim/unit.h:15-20 *)
Inductive Unit_ := dimensionless | radian | degree | meter.
Definition is_actuatorcurve : string * ptree -> bool := is_named "ActuatorCurve".
Definition get_actuator (pt : ptree) : res string := get_string "actuator" pt.
Definition put_actuator (name : string) (pt : ptree) : ptree := put_attr "actuator" name pt.
Definition get_fps (pt : ptree) : res Z :=
  rbind (get_int "fps" pt) (fun n => if n <=? 0 then Throw else Ok n).
Definition put_fps (n : Z) (pt : ptree) : res unit * ptree :=
  if n <=? 0 then (Throw, pt) else (Ok tt, put_attr "fps" (print_int n) pt).
(** (Simplification: boost reads as bool a few more spellings than these.) *)
Definition get_mute (pt : ptree) : bool :=
  match attr "mute" pt with
  | Some s => String.eqb s "true" || match parse_int s with Some z => z =? 1 | None => false end
  | None => false
  end.
Definition put_mute (b : bool) (pt : ptree) : ptree := put_attr "mute" (if b then "true" else "false") pt.
Definition get_unit (pt : ptree) : res Unit_ :=
  rbind (get_string "unit" pt) (fun s =>
  if String.eqb s "dimensionless" then Ok dimensionless
  else if String.eqb s "radian" then Ok radian
  else if String.eqb s "degree" then Ok degree
  else if String.eqb s "meter" then Ok meter
  else Throw).
Definition unit_to_string (u : Unit_) : string :=
  match u with dimensionless => "dimensionless" | radian => "radian" | degree => "degree" | meter => "meter" end.
Definition put_unit (u : Unit_) (pt : ptree) : ptree := put_attr "unit" (unit_to_string u) pt.

(** std::lower_bound and std::upper_bound on bidirectional iterators, as every
    implementation writes them: halving a range of known length. [comp i] compares the
    element at position i. *)
Fixpoint lower_bound_loop (fuel : nat) (comp : nat -> res bool) (first len : nat) : res nat :=
  match fuel with
  | O => Ok first
  | S fuel' =>
      if Nat.eqb len 0 then Ok first else
      let half := Nat.div2 len in
      let mid := (first + half)%nat in
      rbind (comp mid) (fun b =>
      if b then lower_bound_loop fuel' comp (S mid) (len - half - 1)%nat
      else lower_bound_loop fuel' comp first half)
  end.
Definition lower_bound (comp : string * ptree -> res bool) (l : list (string * ptree)) : res nat :=
  lower_bound_loop (length l) (fun i => match nth_error l i with Some c => comp c | None => UB end) 0 (length l).
(** upper_bound is the same search, with the comparison the other way round. *)
Definition upper_bound (comp : string * ptree -> res bool) (l : list (string * ptree)) : res nat :=
  lower_bound (fun c => rmap negb (comp c)) l.

Definition insert_at {A} (i : nat) (x : A) (l : list A) : list A := firstn i l ++ x :: skipn i l.

(** src/scenegraph/qianim.cpp:167-170 *)
Definition key_comp (frame : Z) (c : string * ptree) : res bool :=
  if negb (String.eqb (fst c) "Key") then Ok true
  else rmap (fun f => f <? frame) (get_frame (snd c)).

(** The test [(it != pt.end()) && (Key::get_frame(it->second) == frame)] *)
Definition at_frame (pt : ptree) (frame : Z) (i : nat) : res bool :=
  match nth_error (pt_kids pt) i with
  | Some c => rmap (fun f => f =? frame) (get_frame (snd c))
  | None => Ok false
  end.

(** src/scenegraph/qianim.cpp:172-184: the position of the key *)
Definition get_key_optional (pt : ptree) (frame : Z) : res (option nat) :=
  rbind (lower_bound (key_comp frame) (pt_kids pt)) (fun i =>
  rmap (fun b : bool => if b then Some i else None) (at_frame pt frame i)).
(** almath/scenegraph/qianim.h:216-225 *)
Definition get_key (pt : ptree) (frame : Z) : res nat := value (get_key_optional pt frame).

(** src/scenegraph/qianim.cpp:186-193 *)
Definition require_key (pt : ptree) (frame : Z) : res nat * ptree :=
  match lower_bound (key_comp frame) (pt_kids pt) with
  | Ok i =>
      match at_frame pt frame i with
      | Ok true => (Ok i, pt)
      | Ok false =>
          let (r, newkey) := put_frame frame (PT "" []) in
          (rmap (fun _ => i) r, set_kids pt (insert_at i ("Key", newkey) (pt_kids pt)))
      | Throw => (Throw, pt)
      | Abort => (Abort, pt)
      | UB => (UB, pt)
      end
  | Throw => (Throw, pt)
  | Abort => (Abort, pt)
  | UB => (UB, pt)
  end.

(** almath/scenegraph/qianim.h:233-247 *)
Definition get_keys (pt : ptree) : list ptree := map snd (filter is_key (pt_kids pt)).

(** src/scenegraph/qianim.cpp:199-211 *)
Definition label_comp (frame : Z) (c : string * ptree) : res bool :=
  if String.eqb (fst c) "Label" then rmap (fun f => frame <? f) (get_frame (snd c)) else Ok false.
Definition is_label : string * ptree -> bool := is_named "Label".
Definition label_value (pt : ptree) : string := pt_data pt.
(** src/scenegraph/qianim.cpp:215-225 *)
Definition is_labels : string * ptree -> bool := is_named "Labels".
Definition add_label (pt : ptree) (frame : Z) (v : string) : res nat * ptree :=
  match upper_bound (label_comp frame) (pt_kids pt) with
  | Ok i =>
      let (r, newlabel) := put_frame frame (PT v []) in
      (rmap (fun _ => i) r, set_kids pt (insert_at i ("Label", newlabel) (pt_kids pt)))
  | Throw => (Throw, pt)
  | Abort => (Abort, pt)
  | UB => (UB, pt)
  end.
(** almath/scenegraph/qianim.h:285-302 *)
Definition get_labels (pt : ptree) : list ptree := map snd (filter is_label (pt_kids pt)).

Section Bezier.
(** [parse_real] reads a floating point number: std::stringstream's operator>>. *)
Context {T : Type} {S : Scalar T} (parse_real : string -> option T).
Local Open Scope sc_scope.

(** almath/scenegraph/qianim.h:53-75, 121-125 *)
Definition get_real (name : string) (pt : ptree) : res T :=
  match attr name pt with
  | Some s => match parse_real s with Some x => Ok x | None => Throw end
  | None => Throw
  end.
Definition get_abscissa : ptree -> res T := get_real "abscissaParam".
Definition get_ordinate : ptree -> res T := get_real "ordinateParam".
Definition get_key_value : ptree -> res T := get_real "value".

(** almath/scenegraph/qianim.h:135-155. The frames are ints; [dframe] is converted to the
    floating point type by the comparisons. *)
Definition check_segment (p0_frame : Z) (p0_value p1_dframe p1_dvalue p2_dframe p2_dvalue : T)
    (p3_frame : Z) (p3_value : T) : res unit :=
  let dframe := (p3_frame - p0_frame)%Z in
  if (dframe <=? 0)%Z then Throw
  else if (p1_dframe <? #0) || (p1_dframe >? #dframe) then Throw
  else if (p2_dframe >? #0) || (p2_dframe <? #(- dframe)) then Throw
  else Ok tt.

(** almath/scenegraph/qianim.h:157-187 *)
Definition apply_cubic_bezier {A} (p0_key p3_key : ptree)
    (op : Z -> T -> T -> T -> T -> T -> Z -> T -> res A) : res A :=
  rbind (get_tangent p0_key right) (fun p1 =>
  rbind (get_tangent p3_key left) (fun p2 =>
  rbind (get_frame p0_key) (fun p0_frame =>
  rbind (get_key_value p0_key) (fun p0_value =>
  rbind (get_abscissa p1) (fun p1_dframe =>
  rbind (get_ordinate p1) (fun p1_dvalue =>
  rbind (get_abscissa p2) (fun p2_dframe =>
  rbind (get_ordinate p2) (fun p2_dvalue =>
  rbind (get_frame p3_key) (fun p3_frame =>
  rbind (get_key_value p3_key) (fun p3_value =>
  op p0_frame p0_value p1_dframe p1_dvalue p2_dframe p2_dvalue p3_frame p3_value)))))))))).

(** almath/scenegraph/qianim.h:34-48 *)
Fixpoint adjacent_for_each {A} (op : A -> A -> res unit) (l : list A) : res unit :=
  match l with
  | first :: ((next :: _) as l') => rbind (op first next) (fun _ => adjacent_for_each op l')
  | _ => Ok tt
  end.

(** almath/scenegraph/qianim.h:249-262 *)
Definition check_cubic_bezier (pt : ptree) : res unit :=
  adjacent_for_each (fun p0 p3 => apply_cubic_bezier p0 p3 check_segment) (get_keys pt).

(** src/scenegraph/qianim.cpp:230-244 *)
Definition check_version (pt : ptree) : res unit :=
  rbind (get_string "typeVersion" pt) (fun s => if String.eqb s "2.0" then Ok tt else Throw).
Definition get_actuatorcurves (pt : ptree) : list ptree := map snd (filter is_actuatorcurve (pt_kids pt)).
Definition check_curve (curve : ptree) : res unit :=
  rbind (get_actuator curve) (fun _ =>
  rbind (get_fps curve) (fun _ =>
  let _ := get_mute curve in
  rbind (get_unit curve) (fun _ =>
  check_cubic_bezier curve))).
Fixpoint check_curves (l : list ptree) : res unit :=
  match l with [] => Ok tt | c :: l' => rbind (check_curve c) (fun _ => check_curves l') end.
Definition check_all (pt : ptree) : res unit :=
  rbind (check_version pt) (fun _ => check_curves (get_actuatorcurves pt)).
End Bezier.

(** src/scenegraph/qianim.cpp:246-258 *)
Fixpoint find_curve (name : string) (i : nat) (l : list (string * ptree)) : res (option nat) :=
  match l with
  | [] => Ok None
  | c :: l' =>
      if is_actuatorcurve c then
        rbind (get_actuator (snd c)) (fun s => if String.eqb s name then Ok (Some i) else find_curve name (S i) l')
      else find_curve name (S i) l'
  end.
Definition require_actuatorcurve (pt : ptree) (name : string) : res nat * ptree :=
  match find_curve name 0 (pt_kids pt) with
  | Ok (Some i) => (Ok i, pt)
  | Ok None => (Ok (length (pt_kids pt)),
                set_kids pt (pt_kids pt ++ [("ActuatorCurve", put_actuator name (PT "" []))]))
  | Throw => (Throw, pt)
  | Abort => (Abort, pt)
  | UB => (UB, pt)
  end.
(** src/scenegraph/qianim.cpp:260-262 *)
Definition add_labels (pt : ptree) : nat * ptree :=
  (length (pt_kids pt), set_kids pt (pt_kids pt ++ [("Labels", PT "" [])])).

(** src/scenegraph/qianim.cpp:267-289: the Animation element, and the document *)
Fixpoint index_of (key : string) (i : nat) (l : list (string * ptree)) : option nat :=
  match l with
  | [] => None
  | c :: l' => if is_named key c then Some i else index_of key (S i) l'
  end.
Definition get_animation (root : ptree) : res ptree :=
  match find_child "Animation" (pt_kids root) with
  | Some a => rmap (fun _ => a) (check_version a)
  | None => Throw
  end.
Definition require_animation (root : ptree) : res nat * ptree :=
  match find_child "Animation" (pt_kids root), index_of "Animation" 0 (pt_kids root) with
  | Some a, Some i => (rmap (fun _ => i) (check_version a), root)
  | _, _ => (Ok (length (pt_kids root)),
             set_kids root (pt_kids root ++ [("Animation", put_attr "typeVersion" "2.0" (PT "" []))]))
  end.

(** Histories of calls on a curve: what a program does with the curve it got. The calls
    on a key go through [get_key]. *)
Inductive key_op :=
| KValue (v : string)
| KTangent (side : Side) (abscissa ordinate : string)
| KErase (side : Side).
Inductive curve_op :=
| RequireKey (frame : Z)
| OnKey (frame : Z) (op : key_op)
| PutActuator (name : string)
| PutFps (n : Z)
| PutMute (b : bool)
| PutUnit (u : Unit_).
Definition run_key_op (op : key_op) (k : ptree) : ptree :=
  match op with
  | KValue v => put_key_value v k
  | KTangent s a o => snd (put_tangent k s a o)
  | KErase s => snd (erase_tangent k s)
  end.
Definition run_curve_op (op : curve_op) (c : ptree) : ptree :=
  match op with
  | RequireKey f => snd (require_key c f)
  | OnKey f op => match get_key c f with Ok i => on_kid c i (run_key_op op) | _ => c end
  | PutActuator n => put_actuator n c
  | PutFps n => snd (put_fps n c)
  | PutMute b => put_mute b c
  | PutUnit u => put_unit u c
  end.
Definition run_curve (ops : list curve_op) (c : ptree) : ptree := fold_left (fun c op => run_curve_op op c) ops c.

(** * Rigid body system builders

    Model of almath/scenegraph/rigidbodysystembuilder.h and of
    almath/scenegraph/bodymass.h. Strings are Coq strings; std::set<std::string> is a list
    of strings, only inserted into and searched. [P] is the type of the poses and [T], [V],
    [M] those of the scalars, 3-vectors and 3x3 matrices (Eigen types, only copied here). *)

From Coq Require Import List String Bool.
Import ListNotations.
Local Open Scope string_scope.

(** almath/scenegraph/rigidbodysystembuilder.h:27 *)
Inductive JointType := FreeFlyer | Rx | Ry | Rz.

(** almath/scenegraph/bodymass.h:14-33 *)
Record BodyMass (T V M : Type) := mkBodyMass { bm_mass : T; bm_com : V; bm_inertia : M }.
Arguments mkBodyMass {T V M}.
Arguments bm_mass {T V M}.
Arguments bm_com {T V M}.
Arguments bm_inertia {T V M}.

Section Builder.
Variables T V M P : Type.

(** almath/scenegraph/rigidbodysystembuilder.h:42-62 *)
Record Link := mkLink {
  l_parent : string; l_body : string; l_joint : string; l_pose : P; l_type : JointType;
  l_mass : BodyMass T V M }.

(** almath/scenegraph/rigidbodysystembuilder.h:64-80 *)
Record StaticFrame := mkStaticFrame {
  f_parent : string; f_frame : string; f_transform : string; f_pose : P }.

(** almath/scenegraph/rigidbodysystembuilder.h:29-40. boost::format is not modelled:
    [cfg_joint_name] is the function it defines, see [default_joint_name]. *)
Record Config := mkConfig {
  cfg_no_static_frame : bool; cfg_joint_name : string -> string; cfg_galilean : string }.

(** The calls of the virtual functions of Interface (lines 95-97). *)
Inductive call := AddLink (l : Link) | AddStaticFrame (f : StaticFrame).


(** A run: the calls are made one after the other, the exceptions being caught by the
    caller. The result holds, for each call, whether it returned. *)
Fixpoint run {B} (f : call -> B -> bool * B) (cs : list call) (b : B) : list bool * B :=
  match cs with
  | [] => ([], b)
  | c :: cs' => let (r, b') := f c b in let (rs, b'') := run f cs' b' in (r :: rs, b'')
  end.

(** almath/scenegraph/rigidbodysystembuilder.h:101-126: the four overloads of add, as the
    virtual calls they make. *)
Definition add_link6 (parent new_body : string) (h : P) (t : JointType) (m : BodyMass T V M) (joint : string) : list call :=
  [AddLink (mkLink parent new_body joint h t m)].
Definition add_link5 (cfg : Config) (parent new_body : string) (h : P) (t : JointType) (m : BodyMass T V M) : list call :=
  add_link6 parent new_body h t m (cfg_joint_name cfg new_body).
Definition add_frame4 (cfg : Config) (parent frame : string) (h : P) (transform : string) : list call :=
  if cfg_no_static_frame cfg then []
  else [AddStaticFrame (mkStaticFrame parent frame transform h)].
Definition add_frame3 (cfg : Config) (parent frame : string) (h : P) : list call :=
  add_frame4 cfg parent frame h (cfg_joint_name cfg frame).

(** almath/scenegraph/rigidbodysystembuilder.h:138-156: Decorator forwards to the builder it
    holds. *)
Definition decorator {B} (f : call -> B -> bool * B) : call -> B -> bool * B := f.

(** ** NamesChecker *)

(** almath/scenegraph/rigidbodysystembuilder.h:229-235 *)
Record Names := mkNames {
  n_bodies : list string; n_joints : list string; n_sframes : list string; n_stransforms : list string }.
Definition names_init (galilean : string) : Names := mkNames [galilean] [] [] [].

Definition mem (s : string) (l : list string) : bool := existsb (String.eqb s) l.

(** almath/scenegraph/rigidbodysystembuilder.h:237-257 *)
Definition knownBody (n : Names) (s : string) : bool := mem s (n_bodies n).
Definition knownFrame (n : Names) (s : string) : bool := knownBody n s || mem s (n_sframes n).
Definition knownJoint (n : Names) (s : string) : bool := mem s (n_joints n).
Definition knownTransform (n : Names) (s : string) : bool := knownJoint n s || mem s (n_stransforms n).

(** almath/scenegraph/rigidbodysystembuilder.h:185-226. When the builder behind throws, the
    names are not recorded. *)
Definition names_checker {B} (f : call -> B -> bool * B) (c : call) (s : Names * B) : bool * (Names * B) :=
  let (n, b) := s in
  match c with
  | AddLink l =>
      if negb (knownBody n (l_parent l)) then (false, s)
      else if knownFrame n (l_body l) then (false, s)
      else if knownTransform n (l_joint l) then (false, s)
      else let (r, b') := f c b in
           if r then (true, (mkNames (l_body l :: n_bodies n) (l_joint l :: n_joints n) (n_sframes n) (n_stransforms n), b'))
           else (false, (n, b'))
  | AddStaticFrame q =>
      if negb (knownFrame n (f_parent q)) then (false, s)
      else if knownFrame n (f_frame q) then (false, s)
      else if knownTransform n (f_transform q) then (false, s)
      else let (r, b') := f c b in
           if r then (true, (mkNames (n_bodies n) (n_joints n) (f_frame q :: n_sframes n) (f_transform q :: n_stransforms n), b'))
           else (false, (n, b'))
  end.

(** ** InertiaEraser *)

(** almath/scenegraph/rigidbodysystembuilder.h:260-269; [zero] is Matrix3::Zero(). *)
Definition erase_inertia (zero : M) (l : Link) : Link :=
  mkLink (l_parent l) (l_body l) (l_joint l) (l_pose l) (l_type l)
    (mkBodyMass (bm_mass (l_mass l)) (bm_com (l_mass l)) zero).
Definition inertia_eraser {B} (zero : M) (f : call -> B -> bool * B) (c : call) (b : B) : bool * B :=
  match c with
  | AddLink l => f (AddLink (erase_inertia zero l)) b
  | AddStaticFrame q => f (AddStaticFrame q) b
  end.

(** A builder that accepts everything and records the calls, the last one first. *)
Definition recorder (c : call) (b : list call) : bool * list call := (true, c :: b).

End Builder.
Arguments mkLink {T V M P}. Arguments l_parent {T V M P}. Arguments l_body {T V M P}. Arguments l_joint {T V M P}.
Arguments l_pose {T V M P}. Arguments l_type {T V M P}. Arguments l_mass {T V M P}.
Arguments mkStaticFrame {P}. Arguments f_parent {P}. Arguments f_frame {P}. Arguments f_transform {P}. Arguments f_pose {P}.
Arguments AddLink {T V M P}. Arguments AddStaticFrame {T V M P}.
Arguments run {T V M P B}. Arguments add_link6 {T V M P}. Arguments add_link5 {T V M P}.
Arguments add_frame4 {T V M P}. Arguments add_frame3 {T V M P}. Arguments decorator {T V M P B}.
Arguments names_checker {T V M P B}. Arguments erase_inertia {T V M P}. Arguments inertia_eraser {T V M P B}.
Arguments recorder {T V M P}.

(** almath/scenegraph/rigidbodysystembuilder.h:33: the default format "%1%_joint". *)
Definition default_joint_name (body : string) : string := body ++ "_joint".
(** almath/scenegraph/rigidbodysystembuilder.h:31-34: the default configuration. *)
Definition default_config : Config := mkConfig false default_joint_name "".

(** ** Adapter *)

(** almath/scenegraph/rigidbodysystembuilder.h:55-61, 74-79, bodymass.h:27-31 and
    rigidbodysystembuilder.h:158-176: every number is converted, [ct], [cv], [cm], [cp]
    being static_cast and Eigen's cast. *)
Definition cast_mass {T V M T' V' M'} (ct : T -> T') (cv : V -> V') (cm : M -> M') (m : BodyMass T V M) : BodyMass T' V' M' :=
  mkBodyMass (ct (bm_mass m)) (cv (bm_com m)) (cm (bm_inertia m)).
Definition cast_call {T V M P T' V' M' P'} (ct : T -> T') (cv : V -> V') (cm : M -> M') (cp : P -> P')
  (c : call T V M P) : call T' V' M' P' :=
  match c with
  | AddLink l => AddLink (mkLink (l_parent l) (l_body l) (l_joint l) (cp (l_pose l)) (l_type l) (cast_mass ct cv cm (l_mass l)))
  | AddStaticFrame q => AddStaticFrame (mkStaticFrame (f_parent q) (f_frame q) (f_transform q) (cp (f_pose q)))
  end.
Definition adapter {T V M P T' V' M' P' B} (ct : T -> T') (cv : V -> V') (cm : M -> M') (cp : P -> P')
  (f : call T' V' M' P' -> B -> bool * B) (c : call T V M P) (b : B) : bool * B := f (cast_call ct cv cm cp c) b.

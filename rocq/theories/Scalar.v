(** * Scalars

    libalmath computes with C++ [float].  Every numeric function of the library
    is modelled once, over an arbitrary record of scalar operations, with the
    order of operations of the source.  [RInst.v] instantiates the record with
    the real numbers, [F32.v] with IEEE-754 binary32. *)

From Coq Require Import ZArith List Bool.
Import ListNotations.

(** Expressions the compiler evaluates in double precision: in C++11 [std::pow] of a
    [float] and an [int] is a [double], and so is every sum, product, quotient and root
    it takes part in, until the value is stored in a [float]. [WVal] converts a [float],
    [WPow2 x] is [std::pow(x, 2)] and [WPow3 x] is [std::pow(x, 3)]. *)
Inductive wide (T : Type) : Type :=
  | WVal (x : T)
  | WPow2 (x : T)
  | WPow3 (x : T)
  | WAdd (a b : wide T)
  | WSub (a b : wide T)
  | WMul (a b : wide T)
  | WDiv (a b : wide T)
  | WSqrt (a : wide T).
Arguments WVal {T}. Arguments WPow2 {T}. Arguments WPow3 {T}. Arguments WAdd {T}.
Arguments WSub {T}. Arguments WMul {T}. Arguments WDiv {T}. Arguments WSqrt {T}.

(** Their value, given the operations of the wider type. The square of a [float] is a
    [double], so [WPow2] does not round; [WPow3] rounds once. *)
Fixpoint wide_eval {T W : Type} (inj : T -> W) (add sub mul div : W -> W -> W) (root : W -> W)
    (e : wide T) : W :=
  match e with
  | WVal x => inj x
  | WPow2 x => mul (inj x) (inj x)
  | WPow3 x => mul (mul (inj x) (inj x)) (inj x)
  | WAdd a b => add (wide_eval inj add sub mul div root a) (wide_eval inj add sub mul div root b)
  | WSub a b => sub (wide_eval inj add sub mul div root a) (wide_eval inj add sub mul div root b)
  | WMul a b => mul (wide_eval inj add sub mul div root a) (wide_eval inj add sub mul div root b)
  | WDiv a b => div (wide_eval inj add sub mul div root a) (wide_eval inj add sub mul div root b)
  | WSqrt a => root (wide_eval inj add sub mul div root a)
  end.

(** The operations of [float] and the libm functions libalmath calls
    (std::abs, std::sqrt, std::cos, std::sin, std::acos, std::atan2, std::fmod).
    [s_frac m d] is the decimal literal [m/d] (for instance [0.0001f] is
    [s_frac 1 10000]); [s_ofZ] converts an int. The named constants are those of
    almath/tools/altrigonometry.h:14-20. [s_wide] evaluates an expression in double
    precision and stores the result in a [float]. *)
Class Scalar (T : Type) : Type := {
  s_add : T -> T -> T;
  s_sub : T -> T -> T;
  s_mul : T -> T -> T;
  s_div : T -> T -> T;
  s_neg : T -> T;
  s_abs : T -> T;
  s_sqrt : T -> T;
  s_cos : T -> T;
  s_sin : T -> T;
  s_acos : T -> T;
  s_atan2 : T -> T -> T;
  s_fmod : T -> T -> T;
  s_ltb : T -> T -> bool;
  s_leb : T -> T -> bool;
  s_eqb : T -> T -> bool;
  s_ofZ : Z -> T;
  s_frac : Z -> positive -> T;
  s_pi : T;
  s_2pi : T;
  s_pi2 : T;
  s_wide : wide T -> T
}.

Declare Scope sc_scope.
Delimit Scope sc_scope with sc.
Infix "+" := s_add : sc_scope.
Infix "-" := s_sub : sc_scope.
Infix "*" := s_mul : sc_scope.
Infix "/" := s_div : sc_scope.
Notation "- x" := (s_neg x) : sc_scope.
Infix "<?" := s_ltb : sc_scope.
Infix "<=?" := s_leb : sc_scope.
Infix "=?" := s_eqb : sc_scope.
Notation "x >? y" := (s_ltb y x) (at level 70, no associativity, only parsing) : sc_scope.
Notation "x >=? y" := (s_leb y x) (at level 70, no associativity, only parsing) : sc_scope.
Notation "'#' n" := (s_ofZ n%Z) (at level 1, n at level 0, format "'#' n") : sc_scope.
Notation "'##' m '//' d" := (s_frac m%Z d%positive) (at level 1, m at level 0, d at level 0) : sc_scope.

(** [std::pow(x, 2)] stored in a [float]: the double holds the exact square, so storing
    it rounds once, as the [float] product does. *)
Definition s_pow2 {T} {S : Scalar T} (x : T) : T := s_mul x x.

(** Outcome of a C++ call: a value, an exception, a failed assert, or undefined
    behaviour. *)
Inductive res (A : Type) : Type :=
| Ok (a : A)
| Throw
| Abort
| UB.
Arguments Ok {A} a.
Arguments Throw {A}.
Arguments Abort {A}.
Arguments UB {A}.

Definition rbind {A B} (m : res A) (f : A -> res B) : res B :=
  match m with Ok a => f a | Throw => Throw | Abort => Abort | UB => UB end.

Definition rmap {A B} (f : A -> B) (m : res A) : res B :=
  match m with Ok a => Ok (f a) | Throw => Throw | Abort => Abort | UB => UB end.

Notation "'let!' x ':=' m 'in' k" := (rbind m (fun x => k))
  (at level 200, x pattern, m at level 100, k at level 200, right associativity).

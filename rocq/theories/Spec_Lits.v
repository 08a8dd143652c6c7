(** * Specification of rounding to floats and doubles *)

From Coq Require Import Reals ZArith.
From Flocq Require Import Core.Core.

(** The number with [prec] binary digits, smaller than 2^emax, nearest to a real; the even one of
    two. float has 24 digits and emax 128, double 53 and 1024. *)
Definition nearest (prec emax : Z) (x : R) : R := round radix2 (FLT_exp (3 - emax - prec) prec) ZnearestE x.

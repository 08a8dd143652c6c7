(** * Specification of the accuracy of the digital filter in single precision *)

From Coq Require Import Reals List.
Import ListNotations.
From Flocq Require Import Core.Core IEEE754.BinarySingleNaN.
From Verif Require Import F32.
Local Open Scope R_scope.

(** Sum of the magnitudes of some weights. *)
Definition abs_sum (w : list f32) : R := fold_right (fun x s => Rabs (B2R x) + s) 0 w.

(** Error of the outputs, for weights wIn and wOut, inputs at most U after division by the gain
    and outputs at most Y: the error made for one output is a few units in the last place
    (2^-24, or 2^-150 next to zero) per weight; what comes back through the output weights is a
    geometric series. *)
Definition output_error (wIn wOut : list f32) (U Y : R) : R :=
  (abs_sum wIn * (/ 2^24 * U + / 2^150) +
   INR (length wIn + length wOut) * (4 * / 2^24 * Y + 2 * / 2^150)) / (1 - abs_sum wOut).

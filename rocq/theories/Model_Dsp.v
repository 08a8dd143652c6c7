(** * src/dsp/digitalfilter.cpp and src/dsp/pidcontroller.cpp *)

From Coq Require Import List Bool Arith ZArith.
Import ListNotations.
From Verif Require Import Scalar Model_Base.

Section Model.
Context {T : Type} {S : Scalar T}.
Local Open Scope sc_scope.

(** ** boost::circular_buffer, as documented: a capacity and the elements, oldest first *)
Record cbuf := mkCbuf { cb_cap : nat; cb_elts : list T }.
(** Default constructor: null capacity. *)
Definition cb_default : cbuf := mkCbuf 0 [].
Definition cb_full (b : cbuf) : bool := Nat.eqb (length (cb_elts b)) (cb_cap b).
(** push_back: overwrites the oldest element when full; no effect on a null capacity. *)
Definition cb_push (b : cbuf) (x : T) : cbuf :=
  if Nat.eqb (cb_cap b) 0 then b
  else if cb_full b then mkCbuf (cb_cap b) (tl (cb_elts b) ++ [x])
  else mkCbuf (cb_cap b) (cb_elts b ++ [x]).
(** set_capacity: when there are too many elements the last ones are removed. *)
Definition cb_set_capacity (b : cbuf) (n : nat) : cbuf := mkCbuf n (firstn n (cb_elts b)).
Definition cb_clear (b : cbuf) : cbuf := mkCbuf (cb_cap b) [].

(** ** DigitalFilter: almath/dsp/digitalfilter.h:57-64 *)
Record DigitalFilter := mkFilter {
  df_in : cbuf; df_out : cbuf; df_gain : T; df_wIn : list T; df_wOut : list T }.

(** src/dsp/digitalfilter.cpp:16-19 *)
Definition df_default : DigitalFilter := mkFilter cb_default cb_default #1 [#1] [].

(** src/dsp/digitalfilter.cpp:23-32 *)
Definition configureFilter (f : DigitalFilter) (wIn wOut : list T) (gain : T) : DigitalFilter :=
  mkFilter (cb_set_capacity (df_in f) (length wIn)) (cb_set_capacity (df_out f) (length wOut)) gain wIn wOut.

(** src/dsp/digitalfilter.cpp:34-38 *)
Definition resetFilter (f : DigitalFilter) : DigitalFilter :=
  mkFilter (cb_clear (df_in f)) (cb_clear (df_out f)) (df_gain f) (df_wIn f) (df_wOut f).

(** The loops of lines 49-56: [out += buf[i] * w[i]] for every weight; reading beyond the
    last element of the buffer is undefined behaviour. *)
Fixpoint accumulate (buf w : list T) (out : T) : res T :=
  match w, buf with
  | [], _ => Ok out
  | _ :: _, [] => UB
  | wi :: w', bi :: buf' => accumulate buf' w' (out + bi * wi)
  end.

(** src/dsp/digitalfilter.cpp:40-62 *)
Definition processFilter (f : DigitalFilter) (x : T) : res (T * DigitalFilter) :=
  let bin := cb_push (df_in f) (x / df_gain f) in
  let! y :=
    if cb_full bin && cb_full (df_out f) then
      let! s := accumulate (cb_elts bin) (df_wIn f) #0 in
      accumulate (cb_elts (df_out f)) (df_wOut f) s
    else Ok x in
  Ok (y, mkFilter bin (cb_push (df_out f) y) (df_gain f) (df_wIn f) (df_wOut f)).

(** Successive calls of processFilter on one filter. *)
Fixpoint run_filter (f : DigitalFilter) (xs : list T) : res (list T * DigitalFilter) :=
  match xs with
  | [] => Ok ([], f)
  | x :: xs' =>
      let! (y, f') := processFilter f x in
      let! (ys, f'') := run_filter f' xs' in
      Ok (y :: ys, f'')
  end.

(** Any sequence of calls on one filter. *)
Inductive filter_call := FConfigure (wIn wOut : list T) (gain : T) | FReset | FProcess (x : T).
Fixpoint run_calls (f : DigitalFilter) (h : list filter_call) : res DigitalFilter :=
  match h with
  | [] => Ok f
  | FConfigure wIn wOut g :: h' => run_calls (configureFilter f wIn wOut g) h'
  | FReset :: h' => run_calls (resetFilter f) h'
  | FProcess x :: h' => let! (_, f') := processFilter f x in run_calls f' h'
  end.

(** ** PIDController: almath/dsp/pidcontroller.h:46-61 *)
Record PIDController := mkPID {
  pid_Kp : T; pid_Kv : T; pid_Ki : T; pid_period : T; pid_threshold : T; pid_offset : T;
  pid_err : T; pid_prev : T; pid_dErr : T; pid_iErr : T; pid_first : bool }.

(** src/dsp/pidcontroller.cpp:20-32 *)
Definition pid_default : PIDController := mkPID #0 #0 #0 #1 #0 #0 #0 #0 #0 #0 true.

(** src/dsp/pidcontroller.cpp:186-196 and 198-208: true when no exception is thrown. *)
Definition checkPositif (x : T) : bool := negb (x <? #0).
Definition checkStriclyPositif (x : T) : bool := negb (x <=? #0).

(** src/dsp/pidcontroller.cpp:175-183 *)
Definition pid_checkData (c : PIDController) : bool :=
  checkPositif (pid_Kp c) && checkPositif (pid_Kv c) && checkPositif (pid_Ki c) &&
  checkPositif (pid_threshold c) && checkPositif (pid_offset c) && checkStriclyPositif (pid_period c).

(** src/dsp/pidcontroller.cpp:35-54 *)
Definition pid_new (kp kv ki threshold offset period : T) : res PIDController :=
  let c := mkPID kp kv ki period threshold offset #0 #0 #0 #0 true in
  if pid_checkData c then Ok c else Throw.

(** src/dsp/pidcontroller.cpp:167-173; fPreviousErr is not reset. *)
Definition pid_resetParameters (c : PIDController) : PIDController :=
  mkPID (pid_Kp c) (pid_Kv c) (pid_Ki c) (pid_period c) (pid_threshold c) (pid_offset c)
        #0 (pid_prev c) #0 #0 true.

(** src/dsp/pidcontroller.cpp:60-63 *)
Definition pid_initialize0 (c : PIDController) : PIDController := pid_resetParameters c.

(** src/dsp/pidcontroller.cpp:65-82: whether it returned (true) or threw, and the object
    afterwards. *)
Definition pid_initialize (c : PIDController) (kp kv ki threshold offset period : T) : bool * PIDController :=
  let c' := mkPID kp kv ki period threshold offset (pid_err c) (pid_prev c) (pid_dErr c) (pid_iErr c) (pid_first c) in
  if pid_checkData c' then (true, pid_resetParameters c') else (false, c').

(** src/dsp/pidcontroller.cpp:113-121: likewise. *)
Definition pid_setGains (c : PIDController) (kp kv ki : T) : bool * PIDController :=
  if checkPositif kp && checkPositif kv && checkPositif ki then
    (true, mkPID kp kv ki (pid_period c) (pid_threshold c) (pid_offset c)
             (pid_err c) (pid_prev c) (pid_dErr c) (pid_iErr c) (pid_first c))
  else (false, c).

(** The common end of the two feedback functions. *)
Definition pid_finish (c : PIDController) (err dErr iErr : T) : T * PIDController :=
  (pid_offset c + pid_Kp c * err + pid_Kv c * dErr + pid_Ki c * iErr,
   mkPID (pid_Kp c) (pid_Kv c) (pid_Ki c) (pid_period c) (pid_threshold c) (pid_offset c)
         err (pid_err c) dErr iErr false).

(** src/dsp/pidcontroller.cpp:84-111 *)
Definition computeFeedbackAbsolute (c : PIDController) (e : T) : T * PIDController :=
  let err := if e >? pid_threshold c then e - pid_threshold c else #0 in
  let dErr := if pid_first c then #0 else s_abs (err - pid_err c) / pid_period c in
  pid_finish c err dErr (pid_iErr c + err * pid_period c).

(** src/dsp/pidcontroller.cpp:124-164; lines 128-132 give [period] the value [fPeriod] in
    both branches. *)
Definition computeFeedback (c : PIDController) (command sensor period_ : T) : T * PIDController :=
  let period := if period_ >? #0 then pid_period c else pid_period c in
  let e := command - sensor in
  let err := if e >? pid_threshold c then e - pid_threshold c
             else if e <? - pid_threshold c then e + pid_threshold c
             else #0 in
  let dErr := if pid_first c then #0 else (err - pid_err c) / period in
  pid_finish c err dErr (pid_iErr c + err * period).

End Model.
Arguments cbuf : clear implicits.
Arguments DigitalFilter : clear implicits.
Arguments filter_call : clear implicits.
Arguments PIDController : clear implicits.

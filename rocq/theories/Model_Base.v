(** * std::vector primitives and a memory of objects

    What the C++ standard says of the few std::vector operations the library
    uses, and the memory in which calls through references are modelled. *)

From Coq Require Import List Arith Bool.
Import ListNotations.
From Verif Require Import Scalar.

(** std::vector<T>::resize(n) with value-initialised new elements. *)
Fixpoint vresize {A} (d : A) (n : nat) (v : list A) : list A :=
  match n, v with
  | O, _ => []
  | S n', [] => d :: vresize d n' []
  | S n', x :: v' => x :: vresize d n' v'
  end.

(** v[i] = x; undefined behaviour out of range. *)
Fixpoint vset {A} (v : list A) (i : nat) (x : A) : res (list A) :=
  match v, i with
  | [], _ => UB
  | _ :: v', O => Ok (x :: v')
  | y :: v', S i' => rmap (cons y) (vset v' i' x)
  end.

(** Successive [v[i] = x0; v[i+1] = x1; ...]. *)
Fixpoint vset_from {A} (v : list A) (i : nat) (xs : list A) : res (list A) :=
  match xs with
  | [] => Ok v
  | x :: xs' => rbind (vset v i x) (fun v' => vset_from v' (S i) xs')
  end.

(** Successive [*pIt++ = x] on a vector and an iterator (its index). *)
Fixpoint vwrite {A} (v : list A) (i : nat) (xs : list A) : res (list A * nat) :=
  match xs with
  | [] => Ok (v, i)
  | x :: xs' => rbind (vset v i x) (fun v' => vwrite v' (S i) xs')
  end.

(** A memory of objects of type [A]; references are addresses, two references
    alias when the addresses are equal. *)
Definition mem (A : Type) := nat -> A.
Definition mupd {A} (m : mem A) (o : nat) (x : A) : mem A :=
  fun o' => if Nat.eqb o' o then x else m o'.

(** A statement followed by the rest of a function body: [do m := s in k] is
    [let m := s in k], as a constant so that the sequence stays visible in proofs. *)
Definition mseq {A B} (a : A) (k : A -> B) : B := k a.
Notation "'do' x ':=' e 'in' k" := (mseq e (fun x => k))
  (at level 200, x name, e at level 100, k at level 200, right associativity).

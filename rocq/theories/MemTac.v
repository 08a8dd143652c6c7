(** * Reasoning about statement-by-statement memory updates *)

From Coq Require Import Arith List Lia.
From Verif Require Import Scalar Model_Base.

Lemma mupd_same : forall {A} (m : mem A) o x, mupd m o x o = x.
Proof. intros. unfold mupd. now rewrite Nat.eqb_refl. Qed.

Lemma mupd_other : forall {A} (m : mem A) o q x, q <> o -> mupd m o x q = m q.
Proof. intros A m o q x h. unfold mupd. apply Nat.eqb_neq in h. now rewrite h. Qed.

Lemma mem_do : forall {A B} (m : mem A) o v (k : mem A -> B) (P : B -> Prop),
  (forall m1, m1 o = v -> (forall x, x <> o -> m1 x = m x) -> P (k m1)) ->
  P (mseq (mupd m o v) k).
Proof. intros A B m o v k P h. apply h; [apply mupd_same|]. intros; apply mupd_other; auto. Qed.

Lemma val_let : forall {A B} (v : A) (k : A -> B) (P : B -> Prop),
  (forall c, c = v -> P (k c)) -> P (let c := v in k c).
Proof. intros A B v k P h. apply h. reflexivity. Qed.

(** The frame: every cell but [o] is as in [m0]. *)
Definition frame {A} (m0 : mem A) (o : nat) (m : mem A) : Prop :=
  forall x, x <> o -> m x = m0 x.

Lemma frame_refl : forall {A} (m : mem A) o, frame m o m.
Proof. intros A m o x _. reflexivity. Qed.

(** Read the other cells in [e], from hypotheses [q <> o]. *)
Ltac rd F e :=
  repeat match type of F with
  | frame ?m0 ?o ?m =>
    match type of e with
    | context [m ?q] =>
      match goal with
      | n : q <> o |- _ => rewrite (F q n) in e
      end
    end
  end.

(** One statement [m[o] = v] or one local. [ho : m o = _], [F : frame m0 o m]; the
    other cells read are those [q] with a hypothesis [q <> o], and [m0 q = _]. *)
Ltac mem_step :=
  cbv beta;
  lazymatch goal with
  | ho : ?m ?o = _, F : frame ?m0 ?o ?m |- ?P (mseq (mupd ?m ?o ?v) ?k) =>
      apply (@mem_do _ _ m o v k P);
      let m1 := fresh "m" in let e := fresh "ho" in let f := fresh "f" in let F1 := fresh "F" in
      intros m1 e f;
      rd F e; rewrite ?ho in e;
      repeat match goal with h : m0 ?q = _ |- _ => progress rewrite h in e end;
      cbn in e;
      assert (F1 : frame m0 o m1) by (intros x nx; rewrite (f x nx); exact (F x nx));
      clear f; clear ho F
  | ho : ?m ?o = _, F : frame ?m0 ?o ?m |- ?P (let c := ?v in @?k c) =>
      apply (@val_let _ _ v k P);
      let c := fresh "c" in let e := fresh "e" in
      intros c e; rd F e; rewrite ?ho in e;
      repeat match goal with h : m0 ?q = _ |- _ => progress rewrite h in e end;
      cbn in e; subst c
  end.

Ltac mem_steps := repeat mem_step; cbv beta.

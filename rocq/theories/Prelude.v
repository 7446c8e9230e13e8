(** Common vocabulary of the model. *)
From Coq Require Export String.
From Coq Require Export List Arith ZArith Lia Bool Permutation.
From Coq Require Export ZifyBool ZifyNat ZifyN.
Export ListNotations.
#[export] Set Implicit Arguments.

(** The result of running a piece of C++ code: a normal result, a C++ exception, or undefined behaviour.
    These three are never confused in the model. *)
Inductive outcome (A : Type) : Type :=
| Ok (a : A)
| Throw
| UB.
Arguments Ok {A} a.
Arguments Throw {A}.
Arguments UB {A}.

Definition obind {A B} (x : outcome A) (f : A -> outcome B) : outcome B :=
  match x with Ok a => f a | Throw => Throw | UB => UB end.

Definition is_ok {A} (x : outcome A) : bool :=
  match x with Ok _ => true | _ => false end.

(** Sum of a list of naturals. *)
Fixpoint sumn (l : list nat) : nat :=
  match l with [] => 0 | x :: r => x + sumn r end.

(** Overwrite position [i] of an array; out of range positions are not changed
    (users of [upd] prove that they stay in range or treat it as UB). *)
Fixpoint upd {A} (l : list A) (i : nat) (x : A) : list A :=
  match l, i with
  | [], _ => []
  | _ :: r, 0 => x :: r
  | y :: r, S j => y :: upd r j x
  end.

Lemma upd_length {A} (l : list A) i x : length (upd l i x) = length l.
Proof. revert i; induction l as [|y l IH]; intros [|i]; simpl; auto. Qed.

Lemma nth_error_upd_same {A} (l : list A) i x : i < length l -> nth_error (upd l i x) i = Some x.
Proof. revert i; induction l as [|y l IH]; intros [|i]; simpl; intros H; try lia; auto. apply IH; lia. Qed.

Lemma nth_error_upd_other {A} (l : list A) i j x : i <> j -> nth_error (upd l i x) j = nth_error l j.
Proof.
  revert i j; induction l as [|y l IH]; intros [|i] [|j]; simpl; intros H; auto; try lia; try (destruct j; auto).
Qed.

Lemma sumn_app l1 l2 : sumn (l1 ++ l2) = sumn l1 + sumn l2.
Proof. induction l1 as [|x l1 IH]; simpl; lia. Qed.

(** Lists of ranks / indices 0..n-1. *)
Definition iota (n : nat) : list nat := seq 0 n.

Lemma in_iota n i : In i (iota n) <-> i < n.
Proof. unfold iota. rewrite in_seq. lia. Qed.

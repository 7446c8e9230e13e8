(** The numbers that the generator gives one after the other, and the points made of pairs of them. *)
From Verif Require Import Prelude.
From Coq Require Import Reals.
Open Scope R_scope.

Fixpoint after {G} (next : G -> R * G) (n : nat) (g : G) : G := match n with O => g | S k => after next k (snd (next g)) end.
Definition value {G} (next : G -> R * G) (n : nat) (g : G) : R := fst (next (after next n g)).
(** Point k of the square from -1 to 1 and its squared distance from the middle *)
Definition px {G} (next : G -> R * G) (g : G) (k : nat) : R := 2 * value next (2 * k) g - 1.
Definition py {G} (next : G -> R * G) (g : G) (k : nat) : R := 2 * value next (2 * k + 1) g - 1.
Definition dist2 {G} (next : G -> R * G) (g : G) (k : nat) : R := px next g k * px next g k + py next g k * py next g k.

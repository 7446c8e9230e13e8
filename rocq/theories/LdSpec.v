(** What a user expects of a voltage dependent load. *)
From Verif Require Import Prelude LdModel.
From Coq Require Import Reals.
From Coquelicot Require Import Complex.
Open Scope R_scope.

(** The complex power that a load takes from a bus at voltage V: through its admittance Y, less what it injects *)
Definition drawn (Y I V : C) : C := (V * Cconj (Y * V - I))%C.
(** The load law of the manuals: the power at the initial voltage times the shares times powers of the relative voltage *)
Definition law (s0 v freq : R) (m : mix) : R :=
  s0 * (sh1 m * Rpower v (ex1 m) + sh2 m * Rpower v (ex2 m) + sh3 m * Rpower v (ex3 m)) * (1 + fq m * (freq - 1)).
(** A factor that takes a part of the load away as the voltage falls from [top] to zero *)
Definition fades (top : R) (k : R -> R) : Prop :=
  k 0 = 0 /\ (forall v, top <= v -> k v = 1) /\ (forall v w, 0 <= v -> v < w -> w <= top -> k v < k w).

(** Specifications for the slab mapper. *)
From Verif Require Import Prelude GAModel NetModel GenModel SmModel.
Open Scope nat_scope.

(** Every component that supplies rows supplies rows of [n] numbers. *)
Definition uniform (n : nat) (dss : list (list (nat * nat))) : Prop := forall ds d, In ds dss -> In d ds -> 0 < fst d -> snd d = n.
(** Some component of every process supplies rows. *)
Definition supplied (dss : list (list (nat * nat))) : Prop := forall ds, In ds dss -> exists d, In d ds /\ 0 < fst d.
(** Every row of every component has [n] numbers. *)
Definition tabled {V} (n : nat) (w : list (gproc (list V))) : Prop :=
  forall p c row, In p w -> In c (gp_buses p ++ gp_brs p)%list -> In row (gc_vals c) -> length row = n.
(** Row [i] of the matrix is [row]. *)
Definition row_is {V} (m : dense V) (i : nat) (row : list V) : Prop := row = map (d_at m i) (iota (d_cols m)).

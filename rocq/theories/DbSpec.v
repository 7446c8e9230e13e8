(** Specification for the nonlinear control blocks (C46). *)
From Verif Require Import Prelude DbModel.
From Coq Require Import Reals.
Open Scope R_scope.

(** y is v limited to [lo, hi]. *)
Definition limited (lo v hi y : R) : Prop :=
  (lo <= v <= hi -> y = v) /\ (v < lo -> y = lo) /\ (hi < v -> y = hi).

(** A history of calls of the rate limited output (input, time step, whether the call ends a step) and its outputs. *)
Fixpoint rate_calls (g : gain) (l : list (R * R * bool)) : outcome (gain * list R) :=
  match l with
  | [] => Ok (g, [])
  | (u, dt, b) :: l => obind (gain_out_rate g u dt b) (fun r => obind (rate_calls (fst r) l) (fun q => Ok (fst q, snd r :: snd q)))
  end.

(** The points given to a piecewise block: strictly increasing abscissas. *)
Definition pt (l : list R) (i : nat) : R := nth i l 0.
Definition ascending (us : list R) : Prop := forall i, (S i < length us)%nat -> pt us i < pt us (S i).
(** Points after the first [m] + 1 that do not continue the increase (unused points are given as zeros). *)
Definition unused_after (m : nat) (us : list R) : Prop := forall i, (m <= i)%nat -> (S i < length us)%nat -> pt us (S i) <= pt us i.
(** The slope of segment i and the value of its line at u. *)
Definition seg_slope (us ys : list R) (i : nat) : R := (pt ys (S i) - pt ys i) / (pt us (S i) - pt us i).
Definition seg_line (us ys : list R) (i : nat) (u : R) : R := pt ys i + seg_slope us ys i * (u - pt us i).

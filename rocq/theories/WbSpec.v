(** What a user expects of the blocks. *)
From Verif Require Import Prelude WbModel.
From Coq Require Import Reals.
Open Scope R_scope.

(** The input and the time step of a call *)
Definition input_of (c : call) : R := match c with Pred u _ _ => u | Corr u _ => u end.
Definition step_of (c : call) : R := match c with Pred _ h _ => h | Corr _ h => h end.
(** Every output is within the limits *)
Definition limited (mx mn : R) (ys : list R) : Prop := Forall (fun y => mn <= y <= mx) ys.
(** Every output is y *)
Definition flat (y : R) (ys : list R) : Prop := Forall (fun z => z = y) ys.
(** The dead band without hysteresis: nothing up to [db], what is beyond it otherwise *)
Definition dead (db u v : R) : Prop :=
  (- db <= u <= db -> v = 0) /\ (db < u -> v = u - db) /\ (u < - db -> v = u + db).

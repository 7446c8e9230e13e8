(** What a user expects of a pitch controller. *)
From Verif Require Import Prelude CbModel WpModel.
From Coq Require Import Reals.
Open Scope R_scope.

(** What a controller is given in one stage: the reference of the plant, the ordered power, the speed deviation, the reference speed *)
Record pin := Pin { i_plant : option R; i_pord : R; i_dw : R; i_om : R }.
(** A run: every time step is a predictor and a corrector.  The pitch angles after all stages. *)
Fixpoint pitch_run (p : pitch) (l : list (R * pin * pin)) : outcome (list R) :=
  match l with
  | [] => Ok []
  | (dt, i, j) :: r =>
      obind (pitch_stage p (i_plant i) (i_pord i) (i_dw i) (i_om i) dt PREDICTOR) (fun p1 =>
      obind (pitch_stage p1 (i_plant j) (i_pord j) (i_dw j) (i_om j) dt CORRECTOR) (fun p2 =>
      obind (pitch_run p2 r) (fun l => Ok (ptheta p1 :: ptheta p2 :: l))))
  end.
(** Nothing to do: power and speed at their references *)
Definition at_reference (i : pin) : Prop := i_plant i = Some (i_pord i) /\ 1 + i_dw i = i_om i.
(** Sensible data: a lag, limits on both sides of zero, rates on both sides of zero *)
Definition sensible (d : pdata) : Prop :=
  0 < pget (dTp d) <= 1000 /\ -1000 <= pget (dMin d) <= 0 /\ 0 <= pget (dMax d) <= 1000 /\ pget (dRmin d) <= 0 <= pget (dRmax d).

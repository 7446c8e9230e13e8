(** What a user expects of a turbine. *)
From Verif Require Import Prelude CbModel WtModel.
From Coq Require Import Reals.
Open Scope R_scope.

(** A run: every time step is a predictor and a corrector, each with an electrical power and a pitch angle *)
Record tstep := Ts { t_dt : R; p_power : R; p_pitch : R; c_power : R; c_pitch : R }.
Fixpoint turbine_run (x : turbine) (l : list tstep) : outcome turbine :=
  match l with
  | [] => Ok x
  | k :: r => obind (turbine_stage x (p_power k) (p_pitch k) (t_dt k) PREDICTOR) (fun x =>
              obind (turbine_stage x (c_power k) (c_pitch k) (t_dt k) CORRECTOR) (fun x => turbine_run x r))
  end.
(** An undisturbed step: the power and the pitch of the start *)
Definition quiet (pg theta0 : R) (k : tstep) : Prop := p_power k = pg /\ c_power k = pg /\ p_pitch k = theta0 /\ c_pitch k = theta0.
(** An integrator with limits of 1000 and state x *)
Definition igood (c : cblock) (x : R) : Prop :=
  cA c = Some 0 /\ (exists b, cB c = Some b) /\ cC c = Some 1 /\ cD c = Some 0 /\ cx c = Some x /\
  xmin c = -1000 /\ xmax c = 1000 /\ ymin c = -1000 /\ ymax c = 1000 /\ dxmin c = -1000 /\ dxmax c = 1000.

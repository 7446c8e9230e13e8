(** The mechanical side of a wind turbine: drive train and aerodynamics,
    /repo/src/applications/modules/dynamic_simulation_full_y/model_classes/wtdta1.cpp and wtara1.cpp, and the order in which the
    converter model regca1.cpp calls them (regcb1.cpp and regcc1.cpp alike).  Doubles are real numbers; the blocks are those of
    CbModel.v.  The electrical power and the pitch angle, which other models supply, are inputs. *)
From Verif Require Import Prelude CbModel.
From Coq Require Import Reals.
Open Scope R_scope.

(** What the data collection holds for a drive train ([None]: getValue fails); Dshaft is read but never used *)
Record ddata := Dd { dH : option R; dD : option R; dHfrac : option R; dFreq : option R }.
Definition dget (d : option R) : R := match d with Some r => r | None => 0 end.
Definition omega0 : R := 2 * (4 * atan 1) * 60.
(** A drive train: D, the blocks domegag_blk and dthetag_blk, domega_g, domega_t, dtheta_g, s0 *)
Record train := Tr { tD : R; bw : cblock; bth : cblock; wg : R; wt : R; th : R; s0 : R }.
(** wtdta1.cpp:54-83 load.  The blocks domegat_blk and Tshaft_blk are set up but no output is ever taken from them, so they are not kept. *)
Definition train_load (d : ddata) : outcome train :=
  let H := dget (dH d) in
  let Ht := dget (dHfrac d) * H in
  let Hg := H - Ht in
  obind (integrator_setparams integrator_new (2 * Hg)) (fun b1 =>
  obind (integrator_setparams integrator_new 1) (fun b2 =>
  let t := Tr (dget (dD d)) b1 b2 0 0 0 0 in
  if Rlt_dec (1 / 1000000) (Rabs (dget (dHfrac d))) then
    obind (integrator_setparams integrator_new (2 * Ht)) (fun _ =>
    obind (rdiv (2 * Ht * Hg * 2 * (4 * atan 1) * dget (dFreq d)) (H * omega0)) (fun k =>
    obind (rdiv 1 k) (fun r => obind (integrator_setparams integrator_new r) (fun _ => Ok t))))
  else Ok t)).
(** wtdta1.cpp:91-110 init after setOmegaref(omega_ref) and setTelec(Te) (wtdta1.cpp:204-207, 163-166): the new state and Tm *)
Definition train_init (t : train) (ang omega_ref Te : R) : outcome (train * R) :=
  let s := omega_ref - 1 in
  obind (init_given_y (bth t) ang) (fun '(b2, _) =>
  obind (init_given_y (bw t) s) (fun '(b1, u) =>
  Ok (Tr (tD t) b1 b2 s s ang s, Te + tD t * s + u))).
(** wtdta1.cpp:112-126 computeModel with the torques set before *)
Definition train_compute (t : train) (Tm Te dt : R) (st : stage) : outcome train :=
  obind (getoutput (bw t) (Tm - Te - tD t * wg t) dt st true) (fun '(b1, w) =>
  obind (getoutput (bth t) (omega0 * (w - s0 t)) dt st true) (fun '(b2, a) =>
  Ok (Tr (tD t) b1 b2 w (wt t) a (s0 t)))).

(** wtara1.cpp:71-78, 86-92, 100-106 init, predictor, corrector (the same text): Taero *)
Definition aero (Pm0 Ka Theta Theta0 w : R) : outcome R := rdiv (Pm0 - Ka * Theta * (Theta - Theta0)) (1 + w).

(** The turbine: the drive train with Pmech0, Ka and Theta0 of the aerodynamics *)
Record turbine := Tu { tr : train; pm0 : R; tka : R; tth0 : R }.
(** regca1.cpp:206-236: the drive train, then the aerodynamics (whose init leaves nothing but Taero, which is not used before the first
    step); [pg] is p_pg *)
Definition turbine_init (d : ddata) (ka theta0 pg ang omega_ref : R) : outcome turbine :=
  obind (train_load d) (fun t =>
  obind (rdiv pg omega_ref) (fun Te =>
  obind (train_init t ang omega_ref Te) (fun '(t, Tm) => Ok (Tu t (Tm * (1 + wt t)) ka theta0)))).
(** regca1.cpp:333-337, 411-438: one stage of a step; [Pg] is the electrical power, [theta] the pitch angle *)
Definition turbine_stage (x : turbine) (Pg theta dt : R) (st : stage) : outcome turbine :=
  let t := tr x in
  obind (aero (pm0 x) (tka x) theta (tth0 x) (wt t)) (fun Taero =>
  obind (rdiv Pg (1 + wg t)) (fun Te =>
  obind (train_compute t Taero Te dt st) (fun t' => Ok (Tu t' (pm0 x) (tka x) (tth0 x))))).

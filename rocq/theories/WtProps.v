(** C72: a wind turbine that is not disturbed stays at its start, and its speed obeys the swing equation. *)
From Verif Require Import Prelude CbModel CbSpec WtModel WtSpec WtProofs.
From Coq Require Import Reals Lra.
Open Scope R_scope.

(** For every turbine whose data can be loaded, every start (power, angle and reference speed within the limits of the blocks) and every
    number and length of time steps: with the power and the pitch of the start, both speeds and the angle keep their start. *)
Theorem C72_flat : forall d ka theta0 pg ang om l, (exists t, train_load d = Ok t) -> om <> 0 ->
  -1000 <= om - 1 <= 1000 -> -1000 <= ang <= 1000 -> Forall (quiet pg theta0) l ->
  exists x x', turbine_init d ka theta0 pg ang om = Ok x /\ turbine_run x l = Ok x' /\
    wg (tr x') = om - 1 /\ wt (tr x') = om - 1 /\ th (tr x') = ang.
Proof.
  intros d ka theta0 pg ang om l (t & L) O I1 I2 Q.
  destruct (@init_calm _ _ ka theta0 pg ang om L O) as (x & E & K & T & _).
  destruct (@run_calm pg ang om theta0 O I1 I2 l x K T Q) as (x' & R & K').
  exists x, x'. split; [exact E|]. split; [exact R|]. destruct K' as (A & B & _ & D & _). auto.
Qed.
Print Assumptions C72_flat.

(** The swing equation: after init, for every electrical power and pitch angle the predictor finds the acceleration that the inertia of
    the generator, the torques of the turbine and of the generator and the damping give (if it is within the limit of the block). *)
Theorem C72_swing : forall d ka theta0 pg ang om Pg theta dt t, train_load d = Ok t -> om <> 0 ->
  -1000 <= om - 1 <= 1000 -> -1000 <= ang <= 1000 ->
  let H := dget (dH d) * (1 - dget (dHfrac d)) in
  let D := dget (dD d) in
  let torque := ((pg / om + D * (om - 1)) * om - ka * theta * (theta - theta0)) / om in
  let accel := (torque - Pg / om - D * (om - 1)) / (2 * H) in
  -1000 <= accel <= 1000 ->
  H <> 0 /\ exists x, turbine_init d ka theta0 pg ang om = Ok x /\ exists x', turbine_stage x Pg theta dt PREDICTOR = Ok x' /\
    dxdt (bw (tr x')) = Some accel /\ dxdt (bth (tr x')) = Some 0.
Proof.
  intros d ka theta0 pg ang om Pg theta dt t L O I1 I2 H D torque accel IA.
  destruct (load_blocks _ L) as (TD & B1 & B2 & _).
  assert (NH : H <> 0). { destruct (int_set _ B1) as (N & _). unfold H. intros Z. apply N. transitivity (2 * (dget (dH d) * (1 - dget (dHfrac d)))); [ring|rewrite Z; ring]. }
  unfold turbine_init. rewrite L. cbn [obind]. unfold rdiv at 1. destruct (Req_EM_T om 0) as [Z|_]; [contradiction|]. cbn [obind].
  unfold train_init. rewrite (@int_init _ _ (om - 1) B1), (@int_init _ _ ang B2). cbn [obind].
  split; [exact NH|]. eexists. split; [reflexivity|]. unfold turbine_stage, aero, rdiv. cbn [tr pm0 tka tth0 wt wg].
  replace (1 + (om - 1)) with om by ring. destruct (Req_EM_T om 0) as [Z|_]; [contradiction|]. cbn [obind].
  unfold train_compute. cbn [bw bth wg wt tD s0].
  set (u := _ - _ - _ * _).
  assert (CB : cB (set_x (bw t) (om - 1)) = Some (1 / (2 * H))).
  { revert B1. replace (2 * (dget (dH d) - dget (dHfrac d) * dget (dH d))) with (2 * H) by (unfold H; ring). unfold integrator_setparams, setcoeffs. destruct (Req_EM_T _ 0); cbn; [discriminate|]. intros E. injection E as <-. cbn.
    f_equal. field. exact NH. }
  assert (U : 1 / (2 * H) * u = accel).
  { unfold accel, torque, u. rewrite TD. fold D. field. auto. }
  destruct (int_set _ B1) as (_ & G1). destruct (int_set _ B2) as (_ & G2).
  destruct (@stage_good _ _ u dt _ (G1 (om - 1)) CB I1) as (b1 & E1 & X1 & _); [rewrite U; exact IA|]. rewrite E1. cbn [obind].
  destruct (@int_pred _ _ dt (G2 ang) I2) as (b2 & E2 & _ & _ & X2).
  replace (omega0 * (om - 1 - (om - 1))) with 0 by ring. rewrite E2. cbn [obind].
  eexists. split; [reflexivity|]. cbn. rewrite X1, U. auto.
Qed.
Print Assumptions C72_swing.

(** The angle follows the deviation of the generator from the reference speed: at any state reached from a start with blocks as load
    made them, the predictor gives the angle the rate 2 pi 60 times the deviation. *)
Theorem C72_angle : forall t Tm Te dt w a, igood (bw t) w -> igood (bth t) a -> cB (bth t) = Some 1 ->
  -1000 <= w <= 1000 -> -1000 <= a <= 1000 -> (forall b, cB (bw t) = Some b -> -1000 <= b * (Tm - Te - tD t * wg t) <= 1000) ->
  -1000 <= 2 * PI * 60 * (w - s0 t) <= 1000 ->
  exists t', train_compute t Tm Te dt PREDICTOR = Ok t' /\ wg t' = w /\ th t' = a /\ dxdt (bth t') = Some (2 * PI * 60 * (w - s0 t)).
Proof.
  intros t Tm Te dt w a G1 G2 C1 I1 I2 IB IA. assert (OM : omega0 = 2 * PI * 60) by (unfold omega0; rewrite atan_1; field).
  destruct G1 as (A & (b & B) & R). unfold train_compute.
  destruct (@stage_good (bw t) w (Tm - Te - tD t * wg t) dt b) as (b1 & E1 & _); [repeat split; eauto; apply R|exact B|exact I1|apply IB, B|].
  rewrite E1. cbn [obind]. rewrite OM.
  destruct (@stage_good (bth t) a (2 * PI * 60 * (w - s0 t)) dt 1) as (b2 & E2 & X2 & _); [exact G2|exact C1|exact I2|unfold inside; rewrite Rmult_1_l; exact IA|].
  rewrite E2. cbn [obind]. eexists. split; [reflexivity|]. cbn. rewrite X2, Rmult_1_l. auto.
Qed.
Print Assumptions C72_angle.

(** Finding: the speed of the turbine never changes, whatever the torques do; so the aerodynamic torque never depends on it. *)
Theorem C72_turbine_speed_refuted : forall d ka theta0 pg ang om l x x', turbine_init d ka theta0 pg ang om = Ok x ->
  turbine_run x l = Ok x' -> wt (tr x') = om - 1.
Proof.
  intros d ka theta0 pg ang om l x x' E R. rewrite (run_wt _ _ R). revert E. unfold turbine_init.
  destruct (train_load d) as [t| |]; cbn [obind]; try discriminate. destruct (rdiv pg om); cbn [obind]; try discriminate.
  unfold train_init. destruct (init_given_y (bth t) ang) as [[b2 u2]| |]; cbn [obind]; try discriminate.
  destruct (init_given_y (bw t) _) as [[b1 u1]| |]; cbn [obind]; try discriminate. intros E. now injection E as <-.
Qed.
Print Assumptions C72_turbine_speed_refuted.

(** Finding: a second mass is not modelled: a drive train with two masses is the one with the mass of the generator alone, whatever the
    frequency of the shaft. *)
Theorem C72_two_masses_refuted : forall d t, train_load d = Ok t ->
  train_load (Dd (Some (dget (dH d) - dget (dHfrac d) * dget (dH d))) (dD d) None None) = Ok t.
Proof.
  intros d t L. pose proof (load_blocks _ L) as (TD & B1 & B2 & E). unfold train_load. cbn [dH dD dHfrac dFreq dget].
  set (Hg := dget (dH d) - dget (dHfrac d) * dget (dH d)) in *.
  replace (2 * (Hg - 0 * Hg)) with (2 * Hg) by ring. rewrite B1, B2. cbn [obind]. rewrite Rabs_R0. destruct (Rlt_dec (1 / 1000000) 0); [lra|].
  rewrite E at 3. reflexivity.
Qed.
Print Assumptions C72_two_masses_refuted.

(** Finding: the default inertia (zero) cannot be used: the set-up of the block throws. *)
Theorem C72_default_inertia_refuted : forall d, dH d = None -> train_load d = Throw.
Proof.
  intros d H. unfold train_load. rewrite H. cbn [dget]. replace (2 * (0 - dget (dHfrac d) * 0)) with 0 by ring.
  unfold integrator_setparams at 1, setcoeffs. destruct (Req_EM_T 0 0); [reflexivity|contradiction].
Qed.
Print Assumptions C72_default_inertia_refuted.

(** Data that can be loaded, with one mass *)
Example C72_nonvacuous : (exists t, train_load (Dd (Some 4) (Some 1) None None) = Ok t /\ igood (set_x (bth t) 2) 2 /\ cB (bth t) = Some 1) /\ (11 / 10 <> 0) /\
  Forall (quiet (8 / 10) 3) [Ts (1 / 200) (8 / 10) 3 (8 / 10) 3; Ts (1 / 100) (8 / 10) 3 (8 / 10) 3].
Proof.
  split; [|split; [lra|repeat constructor]]. unfold train_load, integrator_setparams, setcoeffs. cbn [dget dH dD dHfrac dFreq].
  destruct (Req_EM_T (2 * (4 - 0 * 4)) 0); [lra|]. cbn [obind]. destruct (Req_EM_T 1 0); [lra|]. cbn [obind]. rewrite Rabs_R0.
  destruct (Rlt_dec (1 / 1000000) 0); [lra|]. eexists. split; [reflexivity|]. cbn. split; [|f_equal; field].
  unfold igood. cbn. repeat split; eauto; f_equal; field.
Qed.

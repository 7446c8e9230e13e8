From Verif Require Import Prelude CbModel CbSpec CbProofs WtModel WtSpec.
From Coq Require Import Reals Lra.
Open Scope R_scope.

Definition itight (c : cblock) (x : R) : Prop := igood c x /\ xhat c = Some x /\ dxdt c = Some 0.

Lemma int_pred : forall c x dt, igood c x -> inside (-1000) x 1000 -> exists c', getoutput c 0 dt PREDICTOR true = Ok (c', x) /\ itight c' x.
Proof.
  intros c x dt (A & (b & B) & Cc & D & X & L1 & L2 & L3 & L4 & L5 & L6) I.
  unfold getoutput, getoutput_lim, raw_output, stage_x, updatestate_lim, getderivative, rd.
  rewrite A, B, Cc, D, X, L1, L2, L3, L4, L5, L6. cbn [obind].
  replace (1 * x + 0 * 0) with x by ring. replace (0 * x + b * 0) with 0 by ring.
  rewrite (@clamp_id (-1000) 0 1000) by (unfold inside; lra). replace (x + dt * 0) with x by ring. rewrite (@clamp_id (-1000) x 1000) by exact I.
  eexists. split; [reflexivity|]. unfold itight, igood. cbn. repeat split; eauto.
Qed.
Lemma int_corr : forall c x dt, itight c x -> inside (-1000) x 1000 -> exists c', getoutput c 0 dt CORRECTOR true = Ok (c', x) /\ itight c' x.
Proof.
  intros c x dt ((A & (b & B) & Cc & D & X & L1 & L2 & L3 & L4 & L5 & L6) & XH & DX) I.
  unfold getoutput, getoutput_lim, raw_output, stage_x, updatestate_lim, getderivative, rd.
  rewrite A, B, Cc, D, X, L1, L2, L3, L4, L5, L6, XH, DX. cbn [obind].
  replace (1 * x + 0 * 0) with x by ring. replace (0 * x + b * 0) with 0 by ring. replace (0.5 * (0 + 0)) with 0 by ring.
  rewrite (@clamp_id (-1000) 0 1000) by (unfold inside; lra). replace (x + dt * 0) with x by ring. rewrite (@clamp_id (-1000) x 1000) by exact I.
  eexists. split; [reflexivity|]. unfold itight, igood. cbn. repeat split; eauto.
Qed.

(** A turbine at rest *)
Definition calm (pg ang om : R) (x : turbine) : Prop :=
  let t := tr x in wg t = om - 1 /\ wt t = om - 1 /\ s0 t = om - 1 /\ th t = ang /\ igood (bw t) (om - 1) /\ igood (bth t) ang /\
  pm0 x = (pg / om + tD t * (om - 1)) * om.

Lemma int_set : forall T c, integrator_setparams integrator_new T = Ok c -> T <> 0 /\ forall y, igood (set_x c y) y.
Proof.
  intros T c. unfold integrator_setparams, setcoeffs. destruct (Req_EM_T T 0); cbn; [discriminate|]. intros E. injection E as <-.
  split; [assumption|]. intros y. unfold igood. cbn. repeat split; eauto; f_equal; field; assumption.
Qed.
Lemma int_init : forall T c y, integrator_setparams integrator_new T = Ok c -> init_given_y c y = Ok (set_x c y, 0).
Proof.
  intros T c y H. destruct (int_set _ H) as (_ & G). destruct (G y) as (A & _). cbn in A. unfold init_given_y. rewrite A. cbn [rd obind].
  rewrite Rabs_R0. unfold tiny. destruct (Rlt_dec 0 (/ 10000000000)); [reflexivity|lra].
Qed.

Lemma load_blocks : forall d t, train_load d = Ok t -> tD t = dget (dD d) /\
  integrator_setparams integrator_new (2 * (dget (dH d) - dget (dHfrac d) * dget (dH d))) = Ok (bw t) /\
  integrator_setparams integrator_new 1 = Ok (bth t) /\ t = Tr (dget (dD d)) (bw t) (bth t) 0 0 0 0.
Proof.
  intros d t. unfold train_load. set (b1 := integrator_setparams integrator_new (2 * _)).
  destruct b1 as [b1'| |] eqn:E1; try discriminate. destruct (integrator_setparams integrator_new 1) as [b2| |] eqn:E2; try discriminate.
  cbn [obind]. intros H. assert (t = Tr (dget (dD d)) b1' b2 0 0 0 0).
  { destruct (Rlt_dec _ _) in H; [|now injection H].
    destruct (integrator_setparams _ _) in H; cbn [obind] in H; try discriminate.
    destruct (rdiv _ _) in H; cbn [obind] in H; try discriminate.
    destruct (rdiv _ _) in H; cbn [obind] in H; try discriminate.
    destruct (integrator_setparams _ _) in H; cbn [obind] in H; try discriminate. now injection H. }
  subst t. cbn. auto.
Qed.

Lemma init_calm : forall d t ka th0 pg ang om, train_load d = Ok t -> om <> 0 ->
  exists x, turbine_init d ka th0 pg ang om = Ok x /\ calm pg ang om x /\ tth0 x = th0 /\ tD (tr x) = dget (dD d).
Proof.
  intros d t ka th0 pg ang om L O. destruct (load_blocks _ L) as (D & B1 & B2 & _).
  unfold turbine_init. rewrite L. cbn [obind]. unfold rdiv. destruct (Req_EM_T om 0); [contradiction|]. cbn [obind].
  unfold train_init. rewrite (@int_init _ _ (om - 1) B1), (@int_init _ _ ang B2). cbn [obind]. eexists. split; [reflexivity|]. split; [|split; [reflexivity|exact D]].
  unfold calm. cbn. repeat split; try apply (int_set _ B1); try apply (int_set _ B2); try (f_equal; ring).
Qed.

Lemma calm_torque : forall pg ang om x, calm pg ang om x -> om <> 0 -> forall th, th = tth0 x ->
  aero (pm0 x) (tka x) th (tth0 x) (wt (tr x)) = Ok (pg / om + tD (tr x) * (om - 1)) /\ rdiv pg (1 + wg (tr x)) = Ok (pg / om).
Proof.
  intros pg ang om x (W & W' & S & A & _ & _ & P) O th' ->. unfold aero, rdiv. rewrite W, W', P.
  replace (1 + (om - 1)) with om by ring. destruct (Req_EM_T om 0); [contradiction|]. split; f_equal; field; assumption.
Qed.

Lemma run_calm : forall pg ang om th0, om <> 0 -> inside (-1000) (om - 1) 1000 -> inside (-1000) ang 1000 ->
  forall l x, calm pg ang om x -> tth0 x = th0 -> Forall (quiet pg th0) l -> exists x', turbine_run x l = Ok x' /\ calm pg ang om x'.
Proof.
  intros pg ang om th0 O I1 I2. induction l as [|k r IH]; intros x K T Q; [exists x; cbn; auto|].
  pose proof (Forall_inv Q) as (Q1 & Q2 & Q3 & Q4). pose proof (Forall_inv_tail Q) as QR.
  cbn [turbine_run]. unfold turbine_stage at 1.
  destruct (@calm_torque _ _ _ _ K O (p_pitch k)) as (T1 & T2); [congruence|]. rewrite T1, Q1, T2. cbn [obind].
  destruct K as (W & W' & S & A & G1 & G2 & P).
  destruct (int_pred (t_dt k) G1 I1) as (b1 & B1 & H1). destruct (int_pred (t_dt k) G2 I2) as (b2 & B2 & H2).
  unfold train_compute. rewrite W. replace (pg / om + tD (tr x) * (om - 1) - pg / om - tD (tr x) * (om - 1)) with 0 by ring.
  rewrite B1. cbn [obind]. rewrite S. replace (omega0 * (om - 1 - (om - 1))) with 0 by ring. rewrite B2. cbn [obind].
  set (x1 := Tu _ _ _ _).
  assert (K1 : calm pg ang om x1) by (unfold calm, x1; cbn; rewrite W'; repeat split; try apply H1; try apply H2; assumption).
  unfold turbine_stage.
  destruct (@calm_torque _ _ _ _ K1 O (c_pitch k)) as (T3 & T4); [cbn; congruence|]. rewrite T3, Q2, T4. cbn [obind].
  destruct (int_corr (t_dt k) H1 I1) as (b3 & B3 & H3). destruct (int_corr (t_dt k) H2 I2) as (b4 & B4 & H4).
  unfold train_compute. unfold x1 at 1 2 3 4 5 6 7 8 9 10. cbn [tr tD bw bth wg wt th s0].
  replace (pg / om + tD (tr x) * (om - 1) - pg / om - tD (tr x) * (om - 1)) with 0 by ring.
  rewrite B3. cbn [obind]. replace (omega0 * (om - 1 - (om - 1))) with 0 by ring. rewrite B4. cbn [obind].
  apply IH; [|exact T|exact QR]. unfold calm. cbn. rewrite W'. repeat split; try apply H3; try apply H4; assumption.
Qed.

Lemma compute_wt : forall t Tm Te dt st t', train_compute t Tm Te dt st = Ok t' -> wt t' = wt t /\ s0 t' = s0 t /\ tD t' = tD t.
Proof.
  intros t Tm Te dt st t'. unfold train_compute. destruct (getoutput (bw t) _ _ _ _) as [[b1 w]| |]; cbn [obind]; try discriminate.
  destruct (getoutput (bth t) _ _ _ _) as [[b2 a]| |]; cbn [obind]; try discriminate. intros E. injection E as <-. auto.
Qed.
Lemma stage_wt : forall x Pg th dt st x', turbine_stage x Pg th dt st = Ok x' -> wt (tr x') = wt (tr x).
Proof.
  intros x Pg th' dt st x'. unfold turbine_stage. destruct (aero _ _ _ _ _); cbn [obind]; try discriminate.
  destruct (rdiv _ _); cbn [obind]; try discriminate. destruct (train_compute _ _ _ _ _) as [t'| |] eqn:E; cbn [obind]; try discriminate.
  intros H. injection H as <-. cbn. now apply compute_wt in E.
Qed.
Lemma run_wt : forall l x x', turbine_run x l = Ok x' -> wt (tr x') = wt (tr x).
Proof.
  induction l as [|k r IH]; intros x x' H; cbn in H; [now injection H as <-|].
  destruct (turbine_stage x _ _ _ _) as [x1| |] eqn:E1; cbn [obind] in H; try discriminate.
  destruct (turbine_stage x1 _ _ _ _) as [x2| |] eqn:E2; cbn [obind] in H; try discriminate.
  rewrite (IH _ _ H). rewrite (stage_wt _ _ _ _ _ E2). exact (stage_wt _ _ _ _ _ E1).
Qed.
Lemma stage_good : forall c x u dt b, igood c x -> cB c = Some b -> inside (-1000) x 1000 -> inside (-1000) (b * u) 1000 ->
  exists c', getoutput c u dt PREDICTOR true = Ok (c', x) /\ dxdt c' = Some (b * u) /\ xhat c' = Some (clamp (-1000) (x + dt * (b * u)) 1000) /\ igood c' x.
Proof.
  intros c x u dt b (A & _ & Cc & D & X & L1 & L2 & L3 & L4 & L5 & L6) B I I2.
  unfold getoutput, getoutput_lim, raw_output, stage_x, updatestate_lim, getderivative, rd.
  rewrite A, B, Cc, D, X, L1, L2, L3, L4, L5, L6. cbn [obind].
  replace (1 * x + 0 * u) with x by ring. replace (0 * x + b * u) with (b * u) by ring.
  rewrite (@clamp_id (-1000) (b * u) 1000) by exact I2. rewrite (@clamp_id (-1000) x 1000) by exact I.
  eexists. split; [reflexivity|]. unfold igood. cbn. repeat split; eauto.
Qed.

From Verif Require Import Prelude CbModel CbSpec CbProofs WpModel WpSpec.
From Coq Require Import Reals Lra.
Open Scope R_scope.

Definition still (c : cblock) (x u y : R) : Prop := exists a b cc d,
  cA c = Some a /\ cB c = Some b /\ cC c = Some cc /\ cD c = Some d /\ cx c = Some x /\ a * x + b * u = 0 /\ cc * x + d * u = y /\
  inside (ymin c) y (ymax c) /\ inside (xmin c) x (xmax c) /\ inside (dxmin c) 0 (dxmax c).
Definition held (c : cblock) (x u y : R) : Prop := still c x u y /\ xhat c = Some x /\ dxdt c = Some 0.

Lemma still_pred : forall c x u y dt, still c x u y -> exists c', getoutput c u dt PREDICTOR true = Ok (c', y) /\ held c' x u y.
Proof.
  intros c x u y dt (a & b & cc & d & A & B & Cc & D & X & R & Y & I1 & I2 & I3).
  unfold getoutput, getoutput_lim, raw_output, stage_x, updatestate_lim, getderivative, rd.
  rewrite A, B, Cc, D, X. cbn [obind]. rewrite R, Y, (@clamp_id _ _ _ I1), (@clamp_id _ _ _ I3).
  replace (x + dt * 0) with x by ring. rewrite (@clamp_id _ _ _ I2).
  eexists. split; [reflexivity|]. unfold held, still. cbn. split; [|auto]. exists a, b, cc, d. repeat (split; [assumption || reflexivity|]). assumption.
Qed.
Lemma still_corr : forall c x u y dt, held c x u y -> exists c', getoutput c u dt CORRECTOR true = Ok (c', y) /\ held c' x u y.
Proof.
  intros c x u y dt ((a & b & cc & d & A & B & Cc & D & X & R & Y & I1 & I2 & I3) & XH & DX).
  unfold getoutput, getoutput_lim, raw_output, stage_x, updatestate_lim, getderivative, rd.
  rewrite A, B, Cc, D, X, XH, DX. cbn [obind]. rewrite R, Y. replace (0.5 * (0 + 0)) with 0 by ring. rewrite (@clamp_id _ _ _ I1), (@clamp_id _ _ _ I3).
  replace (x + dt * 0) with x by ring. rewrite (@clamp_id _ _ _ I2).
  eexists. split; [reflexivity|]. unfold held, still. cbn. split; [|auto]. exists a, b, cc, d. repeat (split; [assumption || reflexivity|]).
  repeat (split; [assumption || reflexivity|]). assumption.
Qed.

(** The controller at rest *)
Definition rests (th0 : R) (p : pitch) : Prop := still (pcomp p) 0 0 0 /\ still (pctrl p) th0 0 th0 /\ still (plag p) th0 th0 th0.

Lemma run_rests : forall th0 l p, rests th0 p -> Forall (fun '(_, i, j) => at_reference i /\ at_reference j) l ->
  exists ys, pitch_run p l = Ok ys /\ Forall (fun y => y = th0) ys /\ length ys = (2 * length l)%nat.
Proof.
  intros th0. induction l as [|[[dt i] j] r IH]; intros p (S1 & S2 & S3) F; [exists []; cbn; auto|].
  pose proof (Forall_inv F) as ((P1 & W1) & (P2 & W2)). pose proof (Forall_inv_tail F) as FR. cbn [pitch_run].
  destruct (still_pred dt S1) as (b1 & E1 & H1). destruct (still_pred dt S2) as (b2 & E2 & H2). destruct (still_pred dt S3) as (b3 & E3 & H3).
  unfold pitch_stage at 1. rewrite P1. cbn [rd obind]. unfold pitch_compute at 1. replace (i_pord i - i_pord i) with 0 by ring. rewrite E1. cbn [obind].
  replace (1 + i_dw i - i_om i + pkcc p * 0) with 0 by (rewrite W1; ring). rewrite E2. cbn [obind]. replace (0 + th0) with th0 by ring. rewrite E3. cbn [obind].
  destruct (still_corr dt H1) as (c1 & G1 & K1 & _). destruct (still_corr dt H2) as (c2 & G2 & K2 & _). destruct (still_corr dt H3) as (c3 & G3 & K3 & _).
  unfold pitch_stage at 1. rewrite P2. cbn [rd obind]. unfold pitch_compute at 1. cbn [pcomp pctrl plag pkcc]. replace (i_pord j - i_pord j) with 0 by ring. rewrite G1. cbn [obind].
  replace (1 + i_dw j - i_om j + pkcc p * 0) with 0 by (rewrite W2; ring). rewrite G2. cbn [obind]. replace (0 + th0) with th0 by ring. rewrite G3. cbn [obind].
  destruct (IH (Pt c1 c2 c3 (pkcc p) th0)) as (ys & E & A & L); [repeat split; assumption|exact FR|]. rewrite E. cbn [obind ptheta].
  eexists. split; [reflexivity|]. split; [repeat constructor; assumption|]. cbn [length]. rewrite L. lia.
Qed.

(** The blocks that load makes *)
Lemma load_ok : forall d, pget (dTp d) <> 0 -> exists p, pitch_load d = Ok p /\ pkcc p = pget (dKcc d) /\
  (cA (pcomp p) = Some (- 0 / 1) /\ cB (pcomp p) = Some (pget (dKic d) / 1 - 0 * pget (dKpc d) / (1 * 1)) /\ cC (pcomp p) = Some 1 /\ cD (pcomp p) = Some (pget (dKpc d) / 1)) /\
  (cA (pctrl p) = Some (- 0 / 1) /\ cB (pctrl p) = Some (pget (dKiw d) / 1 - 0 * pget (dKpw d) / (1 * 1)) /\ cC (pctrl p) = Some 1 /\ cD (pctrl p) = Some (pget (dKpw d) / 1)) /\
  (cA (plag p) = Some (- (1) / pget (dTp d)) /\ cB (plag p) = Some (1 / pget (dTp d) - 1 * 0 / (pget (dTp d) * pget (dTp d))) /\ cC (plag p) = Some 1 /\ cD (plag p) = Some (0 / pget (dTp d))) /\
  Forall (fun c => xmin c = pget (dMin d) /\ xmax c = pget (dMax d) /\ ymin c = -1000 /\ ymax c = 1000) [pcomp p; pctrl p; plag p] /\
  (dxmin (pcomp p) = -1000 /\ dxmax (pcomp p) = 1000) /\ (dxmin (pctrl p) = -1000 /\ dxmax (pctrl p) = 1000) /\
  (dxmin (plag p) = pget (dRmin d) /\ dxmax (plag p) = pget (dRmax d)).
Proof.
  intros d H. unfold pitch_load, with_xy, with_xdy, pi_setparams, filter_setparams, setcoeffs.
  destruct (Req_EM_T 1 0); [lra|]. destruct (Req_EM_T (pget (dTp d)) 0); [contradiction|]. cbn [obind].
  eexists. split; [reflexivity|]. cbn. repeat split; repeat constructor.
Qed.

Lemma init_rests : forall d th0, sensible d -> pget (dMin d) <= th0 <= pget (dMax d) ->
  exists p p', pitch_load d = Ok p /\ pitch_init p th0 = Ok p' /\ rests th0 p'.
Proof.
  intros d th0 (T & L & U & Rt) I. assert (NT : pget (dTp d) <> 0) by lra.
  destruct (load_ok d NT) as (p & E & _ & (A1 & B1 & C1 & D1) & (A2 & B2 & C2 & D2) & (A3 & B3 & C3 & D3) & F & (X1 & X1') & (X2 & X2') & (X3 & X3')).
  pose proof (Forall_inv F) as (F1 & F1' & Y1 & Y1'). apply Forall_inv_tail in F. pose proof (Forall_inv F) as (F2 & F2' & Y2 & Y2').
  apply Forall_inv_tail in F. pose proof (Forall_inv F) as (F3 & F3' & Y3 & Y3'). clear F.
  set (T0 := pget (dTp d)) in *.
  assert (TT : 1 / 1000 <= / T0). { rewrite <- (Rinv_inv (1 / 1000)). apply Rinv_le_contravar; [lra|]. replace (/ (1 / 1000)) with 1000 by field. lra. }
  assert (NA : ~ Rabs (- (1) / T0) < tiny).
  { unfold Rdiv. rewrite Rabs_mult, Rabs_Ropp, Rabs_R1, Rmult_1_l, Rabs_pos_eq by lra. unfold tiny. lra. }
  assert (Z0 : Rabs (- 0 / 1) < tiny). { replace (- 0 / 1) with 0 by field. rewrite Rabs_R0. unfold tiny. lra. }
  exists p. unfold pitch_init.
  unfold init_given_y at 1. rewrite A3, B3, C3, D3. cbn [rd obind]. destruct (Rlt_dec _ tiny); [contradiction|].
  unfold rdiv. replace (0 / T0 - 1 * (1 / T0 - 1 * 0 / (T0 * T0)) / (- (1) / T0)) with 1 by (field; lra). destruct (Req_EM_T 1 0); [lra|]. cbn [obind].
  unfold init_given_y at 1. rewrite A1. cbn [rd obind]. destruct (Rlt_dec (Rabs (- 0 / 1)) tiny); [|contradiction]. cbn [obind].
  unfold init_given_y at 1. rewrite A2. cbn [rd obind]. destruct (Rlt_dec (Rabs (- 0 / 1)) tiny); [|contradiction]. cbn [obind].
  eexists. split; [exact E|]. split; [reflexivity|].
  replace (th0 / 1) with th0 by field.
  unfold rests, still, set_x. cbn [pcomp pctrl plag cA cB cC cD cx xmin xmax ymin ymax dxmin dxmax].
  rewrite F1, F1', Y1, Y1', F2, F2', Y2, Y2', F3, F3', Y3, Y3', X1, X1', X2, X2', X3, X3'. unfold inside.
  split; [|split].
  - do 4 eexists. repeat (split; [eassumption || reflexivity|]). split; [field|]. split; [field|]. lra.
  - do 4 eexists. repeat (split; [eassumption || reflexivity|]). split; [field|]. split; [field|]. lra.
  - replace (- (1 / T0 - 1 * 0 / (T0 * T0)) / (- (1) / T0) * th0) with th0 by (field; lra).
    do 4 eexists. repeat (split; [eassumption || reflexivity|]). split; [field; lra|]. split; [field; lra|]. lra.
Qed.

(** The lag block keeps its output within the limits of its state *)
Definition lagok (lo hi : R) (c : cblock) : Prop := cC c = Some 1 /\ cD c = Some 0 /\ xmin c = lo /\ xmax c = hi /\ ymin c = -1000 /\ ymax c = 1000 /\
  (forall x, cx c = Some x -> inside lo x hi) /\ (forall x, xhat c = Some x -> inside lo x hi).
Lemma lag_out : forall lo hi c u dt st c' y, lo <= hi -> -1000 <= lo -> hi <= 1000 -> lagok lo hi c ->
  getoutput c u dt st true = Ok (c', y) -> inside lo y hi /\ lagok lo hi c'.
Proof.
  intros lo hi c u dt st c' y LH L1 L2 (C1 & D & X1 & X2 & Y1 & Y2 & I1 & I2).
  unfold getoutput, getoutput_lim, raw_output, updatestate_lim, getderivative.
  rewrite C1, D, X1, X2, Y1, Y2.
  assert (K : forall x, inside lo x hi -> clamp (-1000) (1 * x + 0 * u) 1000 = x).
  { intros x I. replace (1 * x + 0 * u) with x by ring. apply clamp_id. unfold inside in *. lra. }
  destruct st; unfold stage_x.
  - destruct (cx c) as [x|] eqn:X; [|discriminate]. cbn [rd obind]. rewrite K by (now apply I1).
    destruct (cA c) as [a|]; [|discriminate]. destruct (cB c) as [b|]; [|discriminate]. cbn [rd obind]. intros E. injection E as <- <-.
    split; [now apply I1|]. unfold lagok. cbn. repeat (split; [assumption || reflexivity|]).
    intros z Z. injection Z as <-. now apply clamp_in.
  - destruct (xhat c) as [x|] eqn:X; [|discriminate]. cbn [rd obind]. rewrite K by (now apply I2).
    destruct (cA c) as [a|]; [|discriminate]. destruct (cB c) as [b|]; [|discriminate]. cbn [rd obind].
    destruct (dxdt c) as [d0|]; [|discriminate]. destruct (cx c) as [x0|]; [|discriminate]. cbn [rd obind]. intros E. injection E as <- <-.
    split; [now apply I2|]. unfold lagok. cbn. repeat (split; [assumption || reflexivity|]). split; [|exact I2].
    intros z Z. injection Z as <-. now apply clamp_in.
Qed.
Lemma stage_lag : forall lo hi p pl po dw om dt st p', lo <= hi -> -1000 <= lo -> hi <= 1000 -> lagok lo hi (plag p) ->
  pitch_stage p pl po dw om dt st = Ok p' -> inside lo (ptheta p') hi /\ lagok lo hi (plag p').
Proof.
  intros lo hi p pl po dw om dt st p' LH L1 L2 G. unfold pitch_stage. destruct pl as [pl|]; [|discriminate]. cbn [rd obind]. unfold pitch_compute.
  destruct (getoutput (pcomp p) _ _ _ _) as [[b1 y1]| |]; cbn [obind]; try discriminate.
  destruct (getoutput (pctrl p) _ _ _ _) as [[b2 y2]| |]; cbn [obind]; try discriminate.
  destruct (getoutput (plag p) _ _ _ _) as [[b3 y3]| |] eqn:E; cbn [obind]; try discriminate.
  intros H. injection H as <-. cbn. exact (lag_out _ _ _ LH L1 L2 G E).
Qed.
Lemma run_lag : forall lo hi, lo <= hi -> -1000 <= lo -> hi <= 1000 -> forall l p ys, lagok lo hi (plag p) ->
  pitch_run p l = Ok ys -> Forall (fun y => lo <= y <= hi) ys.
Proof.
  intros lo hi LH L1 L2. induction l as [|[[dt i] j] r IH]; intros p ys G H; cbn [pitch_run] in H; [injection H as <-; constructor|].
  destruct (pitch_stage p _ _ _ _ _ _) as [p1| |] eqn:E1; cbn [obind] in H; try discriminate.
  destruct (pitch_stage p1 _ _ _ _ _ _) as [p2| |] eqn:E2; cbn [obind] in H; try discriminate.
  destruct (pitch_run p2 r) as [zs| |] eqn:E3; cbn [obind] in H; try discriminate. injection H as <-.
  destruct (stage_lag _ _ _ _ _ _ _ LH L1 L2 G E1) as (I1 & G1). destruct (stage_lag _ _ _ _ _ _ _ LH L1 L2 G1 E2) as (I2 & G2).
  constructor; [exact I1|]. constructor; [exact I2|]. exact (IH _ _ G2 E3).
Qed.
Lemma init_lag : forall d th0 p p', 0 < pget (dTp d) <= 1000 -> pget (dMin d) <= th0 <= pget (dMax d) ->
  pitch_load d = Ok p -> pitch_init p th0 = Ok p' -> lagok (pget (dMin d)) (pget (dMax d)) (plag p') /\ xhat (plag p') = None.
Proof.
  intros d th0 p p' T I L. assert (NT : pget (dTp d) <> 0) by lra. revert L.
  unfold pitch_load, with_xy, with_xdy, pi_setparams, filter_setparams, setcoeffs.
  destruct (Req_EM_T 1 0); [lra|]. destruct (Req_EM_T (pget (dTp d)) 0); [contradiction|]. cbn [obind]. intros E. injection E as <-.
  set (T0 := pget (dTp d)) in *.
  assert (TT : 1 / 1000 <= / T0). { rewrite <- (Rinv_inv (1 / 1000)). apply Rinv_le_contravar; [lra|]. replace (/ (1 / 1000)) with 1000 by field. lra. }
  assert (NA : ~ Rabs (- (1) / T0) < tiny).
  { unfold Rdiv. rewrite Rabs_mult, Rabs_Ropp, Rabs_R1, Rmult_1_l, Rabs_pos_eq by lra. unfold tiny. lra. }
  unfold pitch_init. cbn [plag pcomp pctrl pkcc].
  unfold init_given_y at 1. cbn. destruct (Rlt_dec (Rabs (- (1) / T0)) tiny); [contradiction|].
  unfold rdiv. replace (0 / T0 - 1 * (1 / T0 - 1 * 0 / (T0 * T0)) / (- (1) / T0)) with 1 by (field; lra). destruct (Req_EM_T 1 0); [lra|]. cbn [obind].
  match goal with |- obind ?a _ = _ -> _ => destruct a as [[b1 u1]| |] end; cbn [obind]; try discriminate.
  match goal with |- obind ?a _ = _ -> _ => destruct a as [[b2 u2]| |] end; cbn [obind]; try discriminate.
  intros E. injection E as <-. cbn. split; [|reflexivity]. unfold lagok. cbn. repeat (split; [reflexivity|]).
  split; [f_equal; field; assumption|]. repeat (split; [reflexivity|]). split; [|discriminate].
  intros x X. injection X as <-. unfold inside. replace (- (1 / T0 - 1 * 0 / (T0 * T0)) / (- (1) / T0) * (th0 / 1)) with th0 by (field; lra). exact I.
Qed.
Lemma comp_pushes : forall d th0 p p' dt, pget (dTp d) <> 0 -> 0 < pget (dMin d) <= pget (dMax d) -> pget (dMax d) <= 1000 ->
  pitch_load d = Ok p -> pitch_init p th0 = Ok p' ->
  exists b1 b2, getoutput (pcomp p') 0 dt PREDICTOR true = Ok (b1, 0) /\ getoutput b1 0 dt CORRECTOR true = Ok (b2, pget (dMin d)).
Proof.
  intros d th0 p p' dt NT M U L I.
  destruct (load_ok d NT) as (q & E & _ & (A1 & B1 & C1 & D1) & _ & _ & F & (X1 & X1') & _).
  rewrite L in E. injection E as <-. pose proof (Forall_inv F) as (F1 & F1' & Y1 & Y1'). clear F.
  assert (P : pcomp p' = set_x (pcomp p) 0).
  { revert I. unfold pitch_init. destruct (init_given_y (plag p) th0) as [[b3 cmd]| |]; cbn [obind]; try discriminate.
    unfold init_given_y at 1. rewrite A1. cbn [rd obind]. destruct (Rlt_dec (Rabs (- 0 / 1)) tiny) as [_|N].
    - destruct (init_given_y (pctrl p) cmd) as [[b2 u2]| |]; cbn [obind]; try discriminate. intros E. injection E as <-. reflexivity.
    - exfalso. apply N. replace (- 0 / 1) with 0 by field. rewrite Rabs_R0. unfold tiny. lra. }
  rewrite P. clear P I L. set (b := pget (dKic d) / 1 - 0 * pget (dKpc d) / (1 * 1)) in *. set (k := pget (dKpc d) / 1) in *.
  unfold getoutput at 1, getoutput_lim, raw_output, stage_x, updatestate_lim, getderivative, set_x. cbn [cA cB cC cD cx xhat dxdt xmin xmax ymin ymax dxmin dxmax].
  rewrite A1, B1, C1, D1, F1, F1', Y1, Y1', X1, X1'. cbn [rd obind].
  replace (1 * 0 + k * 0) with 0 by ring. replace (- 0 / 1 * 0 + b * 0) with 0 by field.
  rewrite (@clamp_id (-1000) 0 1000) by (unfold inside; lra). replace (0 + dt * 0) with 0 by ring. rewrite (@clamp_lo (pget (dMin d)) 0 (pget (dMax d))) by lra.
  eexists. eexists. split; [reflexivity|].
  unfold getoutput, getoutput_lim, raw_output, stage_x, updatestate_lim, getderivative. cbn [cA cB cC cD cx xhat dxdt xmin xmax ymin ymax dxmin dxmax rd obind].
  replace (1 * pget (dMin d) + k * 0) with (pget (dMin d)) by ring. rewrite (@clamp_id (-1000) (pget (dMin d)) 1000) by (unfold inside; lra). reflexivity.
Qed.

(** The predictor of a block that is within its limits *)
Lemma pred_rate : forall c a b cc d x u dt, cA c = Some a -> cB c = Some b -> cC c = Some cc -> cD c = Some d -> cx c = Some x ->
  inside (ymin c) (cc * x + d * u) (ymax c) -> inside (dxmin c) (a * x + b * u) (dxmax c) ->
  exists c', getoutput c u dt PREDICTOR true = Ok (c', cc * x + d * u) /\ dxdt c' = Some (a * x + b * u).
Proof.
  intros c a b cc d x u dt A B Cc D X I1 I3.
  unfold getoutput, getoutput_lim, raw_output, stage_x, updatestate_lim, getderivative, rd.
  rewrite A, B, Cc, D, X. cbn [obind]. rewrite (@clamp_id _ _ _ I1), (@clamp_id _ _ _ I3). eexists. split; reflexivity.
Qed.

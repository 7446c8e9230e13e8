(** C73: a pitch controller at its references does nothing, and the pitch angle keeps its limits. *)
From Verif Require Import Prelude CbModel CbSpec CbProofs WpModel WpSpec WpProofs.
From Coq Require Import Reals Lra.
Open Scope R_scope.

(** For sensible data, every start within the limits and every number and length of steps: with power and speed at their references, all
    pitch angles are the one of the start. *)
Theorem C73_flat : forall d theta0 l, sensible d -> pget (dMin d) <= theta0 <= pget (dMax d) ->
  Forall (fun '(_, i, j) => at_reference i /\ at_reference j) l ->
  exists p p' ys, pitch_load d = Ok p /\ pitch_init p theta0 = Ok p' /\ pitch_run p' l = Ok ys /\
    length ys = (2 * length l)%nat /\ Forall (fun y => y = theta0) ys.
Proof.
  intros d theta0 l S I F. destruct (init_rests S I) as (p & p' & E1 & E2 & K). destruct (run_rests K F) as (ys & E3 & A & L).
  exists p, p', ys. auto.
Qed.
Print Assumptions C73_flat.

(** Whatever the controller is given, the pitch angle stays within its limits. *)
Theorem C73_limits : forall d theta0 l p p' ys, 0 < pget (dTp d) <= 1000 -> -1000 <= pget (dMin d) -> pget (dMax d) <= 1000 ->
  pget (dMin d) <= theta0 <= pget (dMax d) ->
  pitch_load d = Ok p -> pitch_init p theta0 = Ok p' -> pitch_run p' l = Ok ys -> Forall (fun y => pget (dMin d) <= y <= pget (dMax d)) ys.
Proof.
  intros d theta0 l p p' ys T L U I E1 E2 R. destruct (@init_lag _ _ _ _ T I E1 E2) as (G & _).
  refine (@run_lag _ _ _ L U _ _ _ G R). lra.
Qed.
Print Assumptions C73_limits.

(** The response: after init the predictor gives the pitch angle and the integrals of the two controllers the rates that the gains of the
    data give for the deviations of power and speed (if commands and rates are within the limits of the blocks). *)
Theorem C73_response : forall d theta0 pord0 pord dw om dt, sensible d -> pget (dMin d) <= theta0 <= pget (dMax d) ->
  let e := pord - pord0 in
  let w := 1 + dw - om + pget (dKcc d) * e in
  let rate := (pget (dKpc d) * e + pget (dKpw d) * w) / pget (dTp d) in
  -1000 <= pget (dKpc d) * e <= 1000 -> -1000 <= theta0 + pget (dKpw d) * w <= 1000 ->
  -1000 <= pget (dKic d) * e <= 1000 -> -1000 <= pget (dKiw d) * w <= 1000 -> pget (dRmin d) <= rate <= pget (dRmax d) ->
  exists p p', pitch_load d = Ok p /\ pitch_init p theta0 = Ok p' /\
  exists q, pitch_stage p' (Some pord0) pord dw om dt PREDICTOR = Ok q /\ ptheta q = theta0 /\
    dxdt (plag q) = Some rate /\ dxdt (pcomp q) = Some (pget (dKic d) * e) /\ dxdt (pctrl q) = Some (pget (dKiw d) * w).
Proof.
  intros d theta0 pord0 pord dw om dt S I e w rate J1 J2 J3 J4 J5. pose proof S as (T & L & U & Rt). assert (NT : pget (dTp d) <> 0) by lra.
  destruct (init_rests S I) as (p & p' & E1 & E2 & K1 & K2 & K3).
  exists p, p'. split; [exact E1|]. split; [exact E2|].
  destruct (load_ok d NT) as (p0 & E & KC & (A1 & B1 & C1 & D1) & (A2 & B2 & C2 & D2) & (A3 & B3 & C3 & D3) & F & (X1 & X1') & (X2 & X2') & (X3 & X3')).
  rewrite E1 in E. injection E as <-.
  pose proof (Forall_inv F) as (F1 & F1' & Y1 & Y1'). apply Forall_inv_tail in F. pose proof (Forall_inv F) as (F2 & F2' & Y2 & Y2').
  apply Forall_inv_tail in F. pose proof (Forall_inv F) as (F3 & F3' & Y3 & Y3'). clear F.
  assert (Q : (exists x, pcomp p' = set_x (pcomp p) x) /\ (exists x, pctrl p' = set_x (pctrl p) x) /\ (exists x, plag p' = set_x (plag p) x) /\ pkcc p' = pkcc p).
  { revert E2. unfold pitch_init.
    destruct (init_given_y (plag p) theta0) as [[b3 u3]| |] eqn:G3; cbn [obind]; try discriminate.
    destruct (init_given_y (pcomp p) 0) as [[b1 u1]| |] eqn:G1; cbn [obind]; try discriminate.
    destruct (init_given_y (pctrl p) u3) as [[b2 u2]| |] eqn:G2; cbn [obind]; try discriminate.
    intros Z. injection Z as <-. cbn [pcomp pctrl plag pkcc].
    assert (Y : forall c y c' u, init_given_y c y = Ok (c', u) -> exists x, c' = set_x c x).
    { intros c y c' u. unfold init_given_y, rdiv. destruct (cA c); cbn [rd obind]; [|discriminate]. destruct (Rlt_dec _ tiny); [intros Z; injection Z as <- _; eauto|].
      destruct (cB c); cbn [rd obind]; [|discriminate]. destruct (cC c); cbn [rd obind]; [|discriminate]. destruct (cD c); cbn [rd obind]; [|discriminate].
      destruct (Req_EM_T _ 0); cbn [obind]; [discriminate|]. intros Z; injection Z as <- _; eauto. }
    split; [exact (Y _ _ _ _ G1)|]. split; [exact (Y _ _ _ _ G2)|]. split; [exact (Y _ _ _ _ G3)|reflexivity]. }
  destruct Q as ((x1 & Q1) & (x2 & Q2) & (x3 & Q3) & Q4).
  assert (Z1 : x1 = 0) by (destruct K1 as (? & ? & ? & ? & _ & _ & _ & _ & X & _); rewrite Q1 in X; cbn in X; congruence).
  assert (Z2 : x2 = theta0) by (destruct K2 as (? & ? & ? & ? & _ & _ & _ & _ & X & _); rewrite Q2 in X; cbn in X; congruence).
  assert (Z3 : x3 = theta0) by (destruct K3 as (? & ? & ? & ? & _ & _ & _ & _ & X & _); rewrite Q3 in X; cbn in X; congruence).
  subst x1 x2 x3. unfold pitch_stage. cbn [rd obind]. unfold pitch_compute. rewrite Q1, Q2, Q3, Q4, KC. fold e. fold w.
  destruct (@pred_rate (set_x (pcomp p) 0) _ _ _ _ 0 e dt A1 B1 C1 D1 eq_refl) as (b1 & O1 & R1).
  { cbn. rewrite Y1, Y1'. unfold inside. split; lra. }
  { cbn. rewrite X1, X1'. unfold inside. split; lra. }
  destruct (@pred_rate (set_x (pctrl p) theta0) _ _ _ _ theta0 w dt A2 B2 C2 D2 eq_refl) as (b2 & O2 & R2).
  { cbn. rewrite Y2, Y2'. unfold inside. split; lra. }
  { cbn. rewrite X2, X2'. unfold inside. split; lra. }
  rewrite O1. cbn [obind]. rewrite O2. cbn [obind].
  set (u := _ + _).
  assert (UR : - (1) / pget (dTp d) * theta0 + (1 / pget (dTp d) - 1 * 0 / (pget (dTp d) * pget (dTp d))) * u = rate) by (unfold u, rate; field; exact NT).
  assert (UY : 1 * theta0 + 0 / pget (dTp d) * u = theta0) by (field; exact NT).
  destruct (@pred_rate (set_x (plag p) theta0) _ _ _ _ theta0 u dt A3 B3 C3 D3 eq_refl) as (b3 & O3 & R3).
  { cbn [set_x ymin ymax]. rewrite Y3, Y3', UY. unfold inside. lra. }
  { cbn [set_x dxmin dxmax]. rewrite X3, X3', UR. exact J5. }
  rewrite O3. cbn [obind]. eexists. split; [reflexivity|]. cbn [ptheta plag pcomp pctrl]. rewrite R1, R2, R3, UR, UY.
  split; [reflexivity|]. split; [reflexivity|]. split; f_equal; field.
Qed.
Print Assumptions C73_response.

(** Finding: without a plant controller the reference power of the pitch controller is a variable that was never set. *)
Theorem C73_no_plant_refuted : forall p pord dw om dt st, pitch_stage p None pord dw om dt st = UB.
Proof. reflexivity. Qed.
Print Assumptions C73_no_plant_refuted.

(** Finding: data without a lag (the default) cannot be used, the set-up of the block throws. *)
Theorem C73_no_lag_refuted : forall d, dTp d = None -> pitch_load d = Throw.
Proof.
  intros d H. unfold pitch_load, with_xy, with_xdy, pi_setparams, filter_setparams, setcoeffs. rewrite H. cbn [pget].
  destruct (Req_EM_T 1 0); [lra|]. destruct (Req_EM_T 0 0); [reflexivity|contradiction].
Qed.
Print Assumptions C73_no_lag_refuted.

(** Finding: with a lowest pitch angle above zero the start is not kept: at the references, the compensation asks for nothing in the
    predictor and for the lowest angle on top of the start in the corrector. *)
Theorem C73_positive_minimum_refuted : forall d theta0 p p' dt, pget (dTp d) <> 0 -> 0 < pget (dMin d) <= pget (dMax d) -> pget (dMax d) <= 1000 ->
  pitch_load d = Ok p -> pitch_init p theta0 = Ok p' ->
  exists b1 b2, getoutput (pcomp p') 0 dt PREDICTOR true = Ok (b1, 0) /\ getoutput b1 0 dt CORRECTOR true = Ok (b2, pget (dMin d)).
Proof. exact comp_pushes. Qed.
Print Assumptions C73_positive_minimum_refuted.

(** Sensible data, and a run at the references *)
Example C73_nonvacuous : let d := Pd (Some 1) (Some 2) (Some 3) None None (Some 27) (Some 0) (Some 10) (Some (-10)) (Some (3 / 10)) in
  sensible d /\ pget (dMin d) <= 5 <= pget (dMax d) /\
  Forall (fun '(_, i, j) => at_reference i /\ at_reference j) [(1 / 200, Pin (Some 2) 2 (1 / 10) (11 / 10), Pin (Some 3) 3 0 1)].
Proof.
  cbn. split; [unfold sensible; cbn; lra|]. split; [lra|]. constructor; [|constructor]. unfold at_reference. cbn. repeat split; lra.
Qed.

(** Proofs: control blocks, exciters and governors at rest. *)
From Coq Require Import Reals Lra.
From Coquelicot Require Import Complex.
From Verif Require Import Prelude CbModel CbSpec CbProofs DbModel DyModel DySpec.
Open Scope R_scope.

(** ** Blocks *)
Definition rest (c : cblock) (u y : R) : Prop :=
  exists a b d x, cA c = Some a /\ cB c = Some b /\ cC c = Some 1 /\ cD c = Some d /\ cx c = Some x /\ a * x + b * u = 0 /\ x + d * u = y /\
  inside (xmin c) x (xmax c) /\ inside (ymin c) y (ymax c) /\ dxmin c <= 0 <= dxmax c.
Definition at_stage (st : stage) (c : cblock) (u y : R) : Prop :=
  rest c u y /\ match st with PREDICTOR => True | CORRECTOR => xhat c = cx c /\ dxdt c = Some 0 end.

Lemma at_rest st c u y : at_stage st c u y -> rest c u y.
Proof. now intros [H _]. Qed.
Lemma rest_at c u y : rest c u y -> at_stage PREDICTOR c u y.
Proof. split; auto. Qed.
Lemma at_down c u y : at_stage CORRECTOR c u y -> at_stage PREDICTOR c u y.
Proof. intros [H _]. split; auto. Qed.

Lemma clamp0 lo hi : lo <= 0 <= hi -> clamp lo 0 hi = 0.
Proof. intros. now apply clamp_id. Qed.
Lemma at_run st c u y dt : at_stage st c u y -> exists c', getoutput c u dt st true = Ok (c', y) /\ at_stage CORRECTOR c' u y.
Proof.
  intros ((a & b & d & x & EA & EB & EC & ED & EX & Z & Y & WX & WY & WD) & P).
  destruct st.
  - unfold getoutput, getoutput_lim, raw_output, stage_x, updatestate_lim, getderivative. rewrite EX, EC, ED. cbn [rd obind].
    rewrite EA, EB. cbn [rd obind]. rewrite Z, (clamp0 WD), Rmult_0_r, Rplus_0_r, (clamp_id WX), Rmult_1_l, Y, (clamp_id WY).
    eexists. split; [reflexivity|]. split; [|split; cbn; auto].
    exists a, b, d, x. cbn. repeat split; auto; try apply WX; try apply WY; try apply WD.
  - destruct P as [PX PD]. unfold getoutput, getoutput_lim, raw_output, stage_x, updatestate_lim, getderivative. rewrite PX, PD, EX, EC, ED. cbn [rd obind].
    rewrite EA, EB. cbn [rd obind]. rewrite Z. replace (0.5 * (0 + 0)) with 0 by lra.
    rewrite (clamp0 WD), Rmult_0_r, Rplus_0_r, (clamp_id WX), Rmult_1_l, Y, (clamp_id WY).
    eexists. split; [reflexivity|]. split; [|split; cbn; auto].
    exists a, b, d, x. cbn. repeat split; auto; try apply WX; try apply WY; try apply WD.
Qed.

Lemma der_rest a0 a1 b0 b1 c x u y : made a0 a1 b0 b1 c -> cx c = Some x -> getderivative c x u = Ok 0 -> x + b0 / a0 * u = y ->
  inside (xmin c) x (xmax c) -> inside (ymin c) y (ymax c) -> dxmin c <= 0 <= dxmax c -> rest c u y.
Proof.
  intros M EX D Y WX WY WD. destruct (made_abcd M) as (N & EA & EB & EC & ED). unfold getderivative in D. rewrite EA, EB in D. cbn in D.
  exists (- a1 / a0), (b1 / a0 - a1 * b0 / (a0 * a0)), (b0 / a0), x. repeat split; auto; try apply WX; try apply WY; try apply WD. congruence.
Qed.

Lemma tiny_pos : 0 < tiny.
Proof. unfold tiny. lra. Qed.
Lemma tc_inv t : tc t -> tiny <= Rabs (1 / t).
Proof.
  intros (N & L). unfold tiny, Rdiv. rewrite Rmult_1_l, Rabs_Rinv by exact N. assert (0 < Rabs t) by now apply Rabs_pos_lt.
  apply Rinv_le_contravar; [exact H|exact L].
Qed.
Lemma tc_pos t : tc t -> 0 < Rabs t.
Proof. intros (N & _). now apply Rabs_pos_lt. Qed.

(** *** Filters k/(1 + t s) *)
Lemma filter_set k t : t <> 0 -> exists c, filter_setparams filter_new k t = Ok c /\ made t 1 0 k c /\
  xmin c = -1000 /\ xmax c = 1000 /\ ymin c = -1000 /\ ymax c = 1000 /\ dxmin c = -1000 /\ dxmax c = 1000.
Proof.
  intros N. unfold filter_setparams, setcoeffs. destruct (Req_EM_T t 0) as [E|_]; [contradiction|]. cbn [obind]. eexists. split; [reflexivity|].
  split; [|cbn; repeat split]. unfold default_limits. apply made_ylim, made_dxlim, made_xlim. eapply made_set with (c := filter_new).
  unfold setcoeffs. destruct (Req_EM_T t 0); [contradiction|reflexivity].
Qed.
Lemma filter_y c k t y : made t 1 0 k c -> tc t -> k <> 0 -> inside (xmin c) y (xmax c) -> inside (ymin c) y (ymax c) -> dxmin c <= 0 <= dxmax c ->
  exists c', init_given_y c y = Ok (c', y / k) /\ rest c' (y / k) y.
Proof.
  intros M T K WX WY WD. destruct (made_abcd M) as (N & EA & EB & EC & ED).
  assert (A : ~ Rabs (- (1) / t) < tiny). { pose proof (tc_inv T). replace (- (1) / t) with (- (1 / t)) by (field; auto). rewrite Rabs_Ropp. lra. }
  unfold init_given_y. rewrite EA, EB, EC, ED. cbn [rd obind]. destruct (Rlt_dec _ _) as [L|_]; [contradiction|]. unfold rdiv.
  destruct (Req_EM_T _ _) as [E|_].
  - exfalso. apply K. revert E. replace (0 / t - 1 * (k / t - 1 * 0 / (t * t)) / (- (1) / t)) with k by (field; auto). auto.
  - cbn [obind]. replace (y / (0 / t - 1 * (k / t - 1 * 0 / (t * t)) / (- (1) / t))) with (y / k) by (field; auto).
    eexists. split; [reflexivity|]. exists (- (1) / t), (k / t - 1 * 0 / (t * t)), (0 / t), y. cbn.
    repeat split; auto; try apply WX; try apply WY; try apply WD; try (field; auto). f_equal. field; auto.
Qed.
Lemma filter_u c t u : made t 1 0 1 c -> tc t -> inside (xmin c) u (xmax c) -> inside (ymin c) u (ymax c) -> dxmin c <= 0 <= dxmax c ->
  exists c', init_given_u c u = Ok (c', u) /\ rest c' u u.
Proof.
  intros M T WX WY WD. destruct (made_abcd M) as (N & EA & EB & EC & ED). pose proof (tc_inv T) as TI.
  unfold init_given_u. rewrite EA, EB, EC, ED. cbn [rd obind].
  destruct (Rlt_dec _ _) as [L|_]; [exfalso; revert L; replace (1 / t - 1 * 0 / (t * t)) with (1 / t) by (field; auto); lra|].
  destruct (Rlt_dec _ _) as [L|_]; [exfalso; revert L; replace (- (1) / t) with (- (1 / t)) by (field; auto); rewrite Rabs_Ropp; lra|].
  replace (- (1 / t - 1 * 0 / (t * t)) / (- (1) / t) * u) with u by (field; auto). cbn [obind].
  replace (1 * u + 0 / t * u) with u by (field; auto). eexists. split; [reflexivity|].
  exists (- (1) / t), (1 / t - 1 * 0 / (t * t)), (0 / t), u. cbn. repeat split; auto; try apply WX; try apply WY; try apply WD; try (field; auto).
Qed.
(** *** Lead-lag (1 + ta s)/(1 + tb s) *)
Lemma leadlag_set ta tb : tb <> 0 -> exists c, leadlag_setparams leadlag_new ta tb = Ok c /\ made tb 1 ta 1 c /\
  xmin c = -1000 /\ xmax c = 1000 /\ ymin c = -1000 /\ ymax c = 1000 /\ dxmin c = -1000 /\ dxmax c = 1000.
Proof.
  intros N. unfold leadlag_setparams, setcoeffs. destruct (Req_EM_T tb 0) as [E|_]; [contradiction|]. cbn [obind]. eexists. split; [reflexivity|].
  split; [|cbn; repeat split]. unfold default_limits. apply made_ylim, made_dxlim, made_xlim. eapply made_set with (c := leadlag_new).
  unfold setcoeffs. destruct (Req_EM_T tb 0); [contradiction|reflexivity].
Qed.
Lemma leadlag_y c ta tb y : made tb 1 ta 1 c -> tc tb -> inside (xmin c) ((1 - ta / tb) * y) (xmax c) -> inside (ymin c) y (ymax c) -> dxmin c <= 0 <= dxmax c ->
  exists c', init_given_y c y = Ok (c', y) /\ rest c' y y.
Proof.
  intros M T WX WY WD. destruct (made_abcd M) as (N & EA & EB & EC & ED).
  assert (A : ~ Rabs (- (1) / tb) < tiny). { pose proof (tc_inv T). replace (- (1) / tb) with (- (1 / tb)) by (field; auto). rewrite Rabs_Ropp. lra. }
  unfold init_given_y. rewrite EA, EB, EC, ED. cbn [rd obind]. destruct (Rlt_dec _ _) as [L|_]; [contradiction|]. unfold rdiv.
  assert (K : ta / tb - 1 * (1 / tb - 1 * ta / (tb * tb)) / (- (1) / tb) = 1) by (field; auto). rewrite K.
  destruct (Req_EM_T 1 0) as [E|_]; [lra|]. cbn [obind]. replace (y / 1) with y by field.
  eexists. split; [reflexivity|]. exists (- (1) / tb), (1 / tb - 1 * ta / (tb * tb)), (ta / tb), ((1 - ta / tb) * y). cbn.
  repeat split; auto; try apply WX; try apply WY; try apply WD; try (field; auto). f_equal. field; auto.
Qed.
(** *** Integrators 1/(t s) and PI controllers *)
Lemma integ_set t : t <> 0 -> exists c, integrator_setparams integrator_new t = Ok c /\ made t 0 0 1 c /\
  xmin c = -1000 /\ xmax c = 1000 /\ ymin c = -1000 /\ ymax c = 1000 /\ dxmin c = -1000 /\ dxmax c = 1000.
Proof.
  intros N. unfold integrator_setparams, setcoeffs. destruct (Req_EM_T t 0) as [E|_]; [contradiction|]. cbn [obind]. eexists. split; [reflexivity|].
  split; [|cbn; repeat split]. apply made_ylim, made_xlim. eapply made_set with (c := integrator_new).
  unfold setcoeffs. destruct (Req_EM_T t 0); [contradiction|reflexivity].
Qed.
Lemma pi_set kp ki : exists c, pi_setparams pi_new kp ki = Ok c /\ made 1 0 kp ki c /\
  xmin c = -1000 /\ xmax c = 1000 /\ ymin c = -1000 /\ ymax c = 1000 /\ dxmin c = -1000 /\ dxmax c = 1000.
Proof.
  unfold pi_setparams, setcoeffs. destruct (Req_EM_T 1 0) as [E|_]; [lra|]. cbn [obind]. eexists. split; [reflexivity|].
  split; [|cbn; repeat split]. unfold default_limits. apply made_ylim, made_dxlim, made_xlim. eapply made_set with (c := pi_new).
  unfold setcoeffs. destruct (Req_EM_T 1 0); [lra|reflexivity].
Qed.
Lemma level_y c a0 b0 b1 y : made a0 0 b0 b1 c -> inside (xmin c) y (xmax c) -> inside (ymin c) y (ymax c) -> dxmin c <= 0 <= dxmax c ->
  exists c', init_given_y c y = Ok (c', 0) /\ rest c' 0 y.
Proof.
  intros M WX WY WD. destruct (made_abcd M) as (N & EA & EB & EC & ED).
  unfold init_given_y. rewrite EA. cbn [rd obind]. destruct (Rlt_dec _ _) as [_|L].
  - eexists. split; [reflexivity|]. exists (- 0 / a0), (b1 / a0 - 0 * b0 / (a0 * a0)), (b0 / a0), y. cbn.
    repeat split; auto; try apply WX; try apply WY; try apply WD; try (field; auto).
  - exfalso. apply L. replace (- 0 / a0) with 0 by (field; auto). rewrite Rabs_R0. apply tiny_pos.
Qed.
(** *** The rate feedback k s/(1 + t s) *)
Lemma feedback_set k t : t <> 0 -> exists c, setcoeffs cb_new t 1 k 0 = Ok c /\ made t 1 k 0 c /\
  xmin c = -1000 /\ xmax c = 1000 /\ ymin c = -1000 /\ ymax c = 1000 /\ dxmin c = -1000 /\ dxmax c = 1000.
Proof.
  intros N. assert (E : setcoeffs cb_new t 1 k 0 = Ok (set_abcd cb_new (Some (- (1) / t)) (Some (0 / t - 1 * k / (t * t))) (Some 1) (Some (k / t)))).
  { unfold setcoeffs. destruct (Req_EM_T t 0); [contradiction|reflexivity]. }
  rewrite E. eexists. split; [reflexivity|]. split; [eapply made_set, E|cbn; repeat split].
Qed.
Lemma feedback_u c k t u : made t 1 k 0 c -> tc t -> k = 0 \/ tiny <= Rabs (k / (t * t)) -> inside (xmin c) (- (k / t * u)) (xmax c) -> ymin c <= 0 <= ymax c ->
  dxmin c <= 0 <= dxmax c -> exists c', init_given_u c u = Ok (c', 0) /\ rest c' u 0.
Proof.
  intros M T K WX WY WD. destruct (made_abcd M) as (N & EA & EB & EC & ED). pose proof (tc_inv T) as TI.
  unfold init_given_u. rewrite EA, EB, EC, ED. cbn [rd obind]. destruct (Rlt_dec _ _) as [L|L].
  - destruct K as [K|K].
    + subst k. replace (0 / t * u) with 0 by (field; auto). eexists. split; [reflexivity|].
      exists (- (1) / t), (0 / t - 1 * 0 / (t * t)), (0 / t), 0. cbn.
      replace (- (0 / t * u)) with 0 in WX by (field; auto). repeat split; auto; try apply WX; try apply WY; try apply WD; try (field; auto).
    + exfalso. revert L. replace (0 / t - 1 * k / (t * t)) with (- (k / (t * t))) by (field; auto). rewrite Rabs_Ropp. lra.
  - destruct (Rlt_dec _ _) as [L2|_]; [exfalso; revert L2; replace (- (1) / t) with (- (1 / t)) by (field; auto); rewrite Rabs_Ropp; lra|].
    replace (- (0 / t - 1 * k / (t * t)) / (- (1) / t) * u) with (- (k / t * u)) by (field; auto). cbn [obind].
    replace (1 * - (k / t * u) + k / t * u) with 0 by (field; auto). eexists. split; [reflexivity|].
    exists (- (1) / t), (0 / t - 1 * k / (t * t)), (k / t), (- (k / t * u)). cbn. repeat split; auto; try apply WX; try apply WY; try apply WD; try (field; auto).
Qed.
(** Limits set afterwards *)
Lemma with_xy_ok r c a0 a1 b0 b1 xl xh yl yh : r = Ok c -> made a0 a1 b0 b1 c -> dxmin c = -1000 -> dxmax c = 1000 ->
  exists c', with_xy r xl xh yl yh = Ok c' /\ made a0 a1 b0 b1 c' /\ xmin c' = xl /\ xmax c' = xh /\ ymin c' = yl /\ ymax c' = yh /\ dxmin c' = -1000 /\ dxmax c' = 1000.
Proof. intros -> M D1 D2. unfold with_xy. cbn [obind]. eexists. split; [reflexivity|]. split; [apply made_ylim, made_xlim, M|]. cbn. repeat split; auto. Qed.

Lemma gain_at k lo hi u y : k * u = y -> lo <= y <= hi -> gain_out (gain_set3 gain_new k lo hi) u = Ok y.
Proof.
  intros <- W. unfold gain_out, gain_set3, gain_new. cbn [gK gymin gymax rd obind]. f_equal.
  apply clamp_id. exact W.
Qed.

(** ** Exciters *)
Ltac sp := repeat (split; [solve [auto using rest_at | discriminate]|]).
Ltac run1 H := let c := fresh "c" in let E := fresh "E" in let P := fresh "P" in match goal with |- context [getoutput _ _ ?t _ true] => destruct (at_run t H) as (c & E & P); rewrite E; cbn [obind]; clear E end.

Definition dc_at (lead : bool) (p : dcp) (s : dcs) (V E : R) (st : stage) : Prop :=
  d_Ec s = V /\ d_Efd s = E /\
  let w := d_Vref s - V + d_Vs s in
  (small6 (e_TR p) = true \/ at_stage st (d_vm s) V V) /\ at_stage st (d_fb s) E 0 /\ (lead = true -> at_stage st (d_ll s) w w) /\
  exists vr, sat_signal p E = Ok vr /\ (if small6 (e_TA p) then e_KA p * w = vr /\ e_Vrmin p <= vr <= e_Vrmax p else at_stage st (d_rg s) w vr) /\ at_stage st (d_out s) 0 E.
Definition sx_at (p : sxp) (s : sxs) (V E : R) (st : stage) : Prop :=
  sx_Ec s = V /\ sx_Efd s = E /\ let w := sx_Vref s + sx_Vs s - V in at_stage st (sx_ll s) w w /\
  (if small6 (x_TE p) then x_K p * w = E /\ x_EMIN p <= E <= x_EMAX p else at_stage st (sx_fl s) w E).
Definition exc_at (st : stage) (e : exc) (V E : R) : Prop :=
  match e with EXDC1 p s => dc_at (has_ll p) p s V E st | IEEET1 p s => dc_at false p s V E st | SEXS p s => sx_at p s V E st end.

Lemma dc_keep lead p s V E st dt : dc_at lead p s V E st -> exists s', dc_run lead p s dt st = Ok s' /\ dc_at lead p s' V E CORRECTOR.
Proof.
  intros (H1 & H2 & Hvm & Hfb & Hll & vr & Hs & Hrg & Ho). unfold dc_run. rewrite H1, H2.
  assert (A : exists vm, (if small6 (e_TR p) then Ok (d_vm s, V) else getoutput (d_vm s) V dt st true) = Ok (vm, V) /\ (small6 (e_TR p) = true \/ at_stage CORRECTOR vm V V)).
  { destruct (small6 (e_TR p)); [eauto|]. destruct Hvm as [Hvm|Hvm]; [discriminate|]. edestruct (at_run dt Hvm) as (c & X & P). eauto. }
  destruct A as (vm & -> & Pvm). cbn [obind]. run1 Hfb. rewrite Rminus_0_r.
  assert (A : exists ll, (if lead then getoutput (d_ll s) (d_Vref s - V + d_Vs s) dt st true else Ok (d_ll s, d_Vref s - V + d_Vs s)) = Ok (ll, d_Vref s - V + d_Vs s) /\
    (lead = true -> at_stage CORRECTOR ll (d_Vref s - V + d_Vs s) (d_Vref s - V + d_Vs s))).
  { destruct lead; [|eexists; split; [reflexivity|discriminate]]. edestruct (at_run dt (Hll eq_refl)) as (l & X & Pl). rewrite X. eauto. }
  destruct A as (ll & -> & Pll). cbn [obind].
  assert (A : exists rg, (if small6 (e_TA p) then obind (gain_out (gain_set3 gain_new (e_KA p) (e_Vrmin p) (e_Vrmax p)) (d_Vref s - V + d_Vs s)) (fun v => Ok (d_rg s, v))
     else getoutput (d_rg s) (d_Vref s - V + d_Vs s) dt st true) = Ok (rg, vr) /\
     (if small6 (e_TA p) then e_KA p * (d_Vref s - V + d_Vs s) = vr /\ e_Vrmin p <= vr <= e_Vrmax p else at_stage CORRECTOR rg (d_Vref s - V + d_Vs s) vr)).
  { destruct (small6 (e_TA p)).
    - destruct Hrg as [G W]. rewrite (gain_at G W). cbn [obind]. eauto.
    - edestruct (at_run dt Hrg) as (l & X & Pl). eauto. }
  destruct A as (rg & -> & Prg). cbn [obind]. rewrite Hs. cbn [obind]. rewrite Rminus_diag_eq by reflexivity. run1 Ho.
  eexists. split; [reflexivity|]. unfold dc_at. cbn. sp. exists vr. auto.
Qed.
Lemma sx_keep p s V E st dt : sx_at p s V E st -> exists s', sexs_run p s dt st = Ok s' /\ sx_at p s' V E CORRECTOR.
Proof.
  intros (H1 & H2 & Hl & Hf). unfold sexs_run. rewrite H1. run1 Hl.
  assert (A : exists fl, (if small6 (x_TE p) then obind (gain_out (gain_set3 gain_new (x_K p) (x_EMIN p) (x_EMAX p)) (sx_Vref s + sx_Vs s - V)) (fun v => Ok (sx_fl s, v))
     else getoutput (sx_fl s) (sx_Vref s + sx_Vs s - V) dt st true) = Ok (fl, E) /\
     (if small6 (x_TE p) then x_K p * (sx_Vref s + sx_Vs s - V) = E /\ x_EMIN p <= E <= x_EMAX p else at_stage CORRECTOR fl (sx_Vref s + sx_Vs s - V) E)).
  { destruct (small6 (x_TE p)).
    - destruct Hf as [G W]. rewrite (gain_at G W). cbn [obind]. eauto.
    - edestruct (at_run dt Hf) as (l & X & Pl). eauto. }
  destruct A as (fl & -> & Pf). cbn [obind]. eexists. split; [reflexivity|]. unfold sx_at. cbn. auto.
Qed.
Lemma exc_keep e V E st dt : exc_at st e V E -> exists e', exc_run e dt st = Ok e' /\ exc_at CORRECTOR e' V E.
Proof.
  destruct e as [p s|p s|p s]; cbn [exc_at exc_run]; intros H.
  - destruct (dc_keep dt H) as (s' & -> & K). cbn. eauto.
  - destruct (dc_keep dt H) as (s' & -> & K). cbn. eauto.
  - destruct (sx_keep dt H) as (s' & -> & K). cbn. eauto.
Qed.
Lemma dc_down lead p s V E : dc_at lead p s V E CORRECTOR -> dc_at lead p s V E PREDICTOR.
Proof.
  intros (H1 & H2 & Hvm & Hfb & Hll & vr & Hs & Hrg & Ho). split; [auto|]. split; [auto|]. split; [destruct Hvm as [H|H]; [auto|right; now apply at_down]|].
  split; [now apply at_down|]. split; [intros; now apply at_down, Hll|]. exists vr. split; [auto|]. split; [|now apply at_down].
  destruct (small6 (e_TA p)); [auto|now apply at_down].
Qed.
Lemma exc_down e V E : exc_at CORRECTOR e V E -> exc_at PREDICTOR e V E.
Proof.
  destruct e as [p s|p s|p s]; cbn [exc_at]; try apply dc_down. intros (H1 & H2 & Hl & Hf). split; [auto|]. split; [auto|]. split; [now apply at_down|].
  destruct (small6 (x_TE p)); [auto|now apply at_down].
Qed.
Lemma exc_Efd_at st e V E : exc_at st e V E -> exc_Efd e = E.
Proof. destruct e; cbn; intros (_ & H & _); exact H. Qed.
Lemma exc_setV_at st e V E : exc_at st e V E -> exc_at st (exc_setV e V) V E.
Proof.
  destruct e as [p s|p s|p s]; cbn [exc_at exc_setV]; unfold dc_at, sx_at; cbn; intros (H & H2); (split; [reflexivity|exact H2]).
Qed.

Lemma small6_true x : Rabs x < / 1000000 -> small6 x = true.
Proof. unfold small6. intros H. now destruct (Rlt_dec _ _). Qed.
Lemma small6_not x : small6 x = true -> Rabs x < / 1000000.
Proof. unfold small6. now destruct (Rlt_dec _ _). Qed.
Lemma rd_bounded x : bounded x -> inside (-1000) x 1000.
Proof. auto. Qed.
Lemma wd1000 c : dxmin c = -1000 -> dxmax c = 1000 -> dxmin c <= 0 <= dxmax c.
Proof. intros -> ->. lra. Qed.
Ltac lims := repeat match goal with
  | H : xmin ?c = _ |- context [xmin ?c] => rewrite H | H : xmax ?c = _ |- context [xmax ?c] => rewrite H
  | H : ymin ?c = _ |- context [ymin ?c] => rewrite H | H : ymax ?c = _ |- context [ymax ?c] => rewrite H
  | H : dxmin ?c = _ |- context [dxmin ?c] => rewrite H | H : dxmax ?c = _ |- context [dxmax ?c] => rewrite H end; unfold inside, bounded in *; try lra.

(** The filters of a measurement and a regulator, which may be left out *)
Lemma opt_u t v : (Rabs t < / 1000000 \/ tc t /\ bounded v) -> exists c,
  (if small6 t then Ok filter_new else filter_setparams filter_new 1 t) = Ok c /\
  exists c', (if small6 t then Ok (c, v) else init_given_u c v) = Ok (c', v) /\ (small6 t = true \/ at_stage PREDICTOR c' v v).
Proof.
  intros H. destruct (small6 t) eqn:S.
  - eexists. split; [reflexivity|]. eexists. split; [reflexivity|]. auto.
  - destruct H as [H|[T W]]; [rewrite (small6_true _ H) in S; discriminate|].
    destruct (@filter_set 1 t (proj1 T)) as (c & -> & M & L1 & L2 & L3 & L4 & L5 & L6). eexists. split; [reflexivity|].
    destruct (@filter_u c t v M T) as (c' & -> & RR); lims. eexists. split; [reflexivity|]. right. now apply rest_at.
Qed.
Lemma opt_reg k t lo hi y : k <> 0 -> lo <= y <= hi -> bounded y -> (Rabs t < / 1000000 \/ tc t) -> exists c,
  (if small6 t then Ok filter_new else with_xy (filter_setparams filter_new k t) lo hi (-1000) 1000) = Ok c /\
  exists c', (if small6 t then obind (rdiv y k) (fun q => Ok (c, q)) else init_given_y c y) = Ok (c', y / k) /\
  (if small6 t then k * (y / k) = y /\ lo <= y <= hi else at_stage PREDICTOR c' (y / k) y).
Proof.
  intros K W B H. destruct (small6 t) eqn:S.
  - eexists. split; [reflexivity|]. unfold rdiv. destruct (Req_EM_T k 0); [contradiction|]. cbn. eexists. split; [reflexivity|]. split; [field; auto|auto].
  - destruct H as [H|T]; [rewrite (small6_true _ H) in S; discriminate|].
    destruct (@filter_set k t (proj1 T)) as (c0 & E0 & M & L1 & L2 & L3 & L4 & L5 & L6).
    edestruct (@with_xy_ok _ c0 _ _ _ _ lo hi (-1000) 1000 E0 M L5 L6) as (c & -> & M2 & N1 & N2 & N3 & N4 & N5 & N6).
    eexists. split; [reflexivity|]. destruct (@filter_y c k t y M2 T K) as (c' & -> & RR); lims. eexists. split; [reflexivity|]. now apply rest_at.
Qed.

Lemma exdc1_start p v e : dc_ok true p v e -> exists s0, exdc1_load p = Ok s0 /\ exists s', exdc1_init p (dc_setE (dc_setV s0 v) e) = Ok s' /\ dc_at (has_ll p) p s' v e PREDICTOR.
Proof.
  intros (vr & Hs & W & B & Be & K & TE & HR & (TF & KF & BF) & HA & HL). specialize (HL eq_refl).
  unfold exdc1_load, dc_blocks.
  destruct (opt_u HR) as (vm & -> & vm' & Evm & Pvm). cbn [obind].
  destruct (opt_reg K W B HA) as (rg & Erg0 & rg' & Erg & Prg).
  assert (A : exists ll, (if has_ll p then leadlag_setparams leadlag_new (e_TA p) (e_TB p) else Ok leadlag_new) = Ok ll /\
    exists ll', (if has_ll p then init_given_y ll (vr / e_KA p) else Ok (ll, vr / e_KA p)) = Ok (ll', vr / e_KA p) /\ (has_ll p = true -> at_stage PREDICTOR ll' (vr / e_KA p) (vr / e_KA p))).
  { unfold has_ll in *. destruct (small6 (e_TB p * e_TC p)) eqn:S; cbn [negb].
    - eexists. split; [reflexivity|]. eexists. split; [reflexivity|discriminate].
    - destruct HL as [HL|(T & B1 & B2)]; [rewrite (small6_true _ HL) in S; discriminate|].
      destruct (@leadlag_set (e_TA p) (e_TB p) (proj1 T)) as (c & -> & M & L1 & L2 & L3 & L4 & L5 & L6). eexists. split; [reflexivity|].
      destruct (@leadlag_y c _ _ (vr / e_KA p) M T) as (c' & -> & RR); lims. eexists. split; [reflexivity|]. intros _. now apply rest_at. }
  destruct A as (ll & -> & ll' & Ell & Pll). cbn [obind]. rewrite Erg0. cbn [obind].
  destruct (@feedback_set (e_KF p) (e_TF1 p) (proj1 TF)) as (fb & -> & Mf & F1 & F2 & F3 & F4 & F5 & F6). cbn [obind].
  destruct (@integ_set (e_TE p) TE) as (o & -> & Mo & O1 & O2 & O3 & O4 & O5 & O6). cbn [obind].
  eexists. split; [reflexivity|]. unfold exdc1_init, dc_setE, dc_setV. cbn [d_vm d_ll d_rg d_fb d_out d_Ec d_Vref d_Vs d_Efd].
  destruct (@feedback_u fb _ _ e Mf TF KF) as (fb' & -> & Rf); lims. cbn [obind].
  destruct (@level_y o _ _ _ e Mo) as (o' & -> & Ro); lims. cbn [obind]. rewrite Hs. cbn [obind]. rewrite Rplus_0_l, Erg. cbn [obind]. rewrite Ell. cbn [obind]. rewrite Evm. cbn [obind].
  eexists. split; [reflexivity|]. unfold dc_at. cbn [d_vm d_ll d_rg d_fb d_out d_Ec d_Vref d_Vs d_Efd].
  replace (vr / e_KA p - 0 + 0 + v - v + 0) with (vr / e_KA p) by lra. sp. exists vr. auto using rest_at.
Qed.
Lemma ieeet1_start p v e : dc_ok false p v e -> exists s0, ieeet1_load p = Ok s0 /\ exists s', ieeet1_init p (dc_setE (dc_setV s0 v) e) = Ok s' /\ dc_at false p s' v e PREDICTOR.
Proof.
  intros (vr & Hs & W & B & Be & K & TE & HR & (TF & KF & BF) & HA & _).
  unfold ieeet1_load, dc_blocks.
  destruct (opt_u HR) as (vm & -> & vm' & Evm & Pvm). cbn [obind].
  destruct (opt_reg K W B HA) as (rg & -> & rg' & Erg & Prg). cbn [obind].
  destruct (@feedback_set (e_KF p) (e_TF1 p) (proj1 TF)) as (fb & -> & Mf & F1 & F2 & F3 & F4 & F5 & F6). cbn [obind].
  destruct (@integ_set (e_TE p) TE) as (o & -> & Mo & O1 & O2 & O3 & O4 & O5 & O6). cbn [obind].
  eexists. split; [reflexivity|]. unfold ieeet1_init, dc_setE, dc_setV. cbn [d_vm d_ll d_rg d_fb d_out d_Ec d_Vref d_Vs d_Efd].
  destruct (@feedback_u fb _ _ e Mf TF KF) as (fb' & -> & Rf); lims. cbn [obind].
  destruct (@level_y o _ _ _ e Mo) as (o' & -> & Ro); lims. cbn [obind]. rewrite Hs. cbn [obind]. rewrite Rplus_0_l, Erg. cbn [obind]. rewrite Evm. cbn [obind].
  eexists. split; [reflexivity|]. unfold dc_at. cbn [d_vm d_ll d_rg d_fb d_out d_Ec d_Vref d_Vs d_Efd].
  replace (vr / e_KA p + 0 + v - 0 - v + 0) with (vr / e_KA p) by lra. sp. exists vr. auto using rest_at.
Qed.
Lemma sexs_start p v e : sexs_ok p v e -> exists s0, sexs_load p = Ok s0 /\ exists s',
  sexs_init p (Sxs (sx_ll s0) (sx_fl s0) v (sx_Vref s0) (sx_Vs s0) e) v = Ok s' /\ sx_at p s' v e PREDICTOR.
Proof.
  intros (T & K & W & Be & B1 & B2 & H). unfold sexs_load.
  destruct (@leadlag_set (x_TAB p * x_TB p) (x_TB p) (proj1 T)) as (c & -> & M & L1 & L2 & L3 & L4 & L5 & L6). cbn [obind].
  assert (HT : Rabs (x_TE p) < / 1000000 \/ tc (x_TE p)) by (destruct H as [[H _]|[H _]]; auto).
  destruct (@opt_reg (x_K p) (x_TE p) (x_EMIN p) (x_EMAX p) e K W Be HT) as (fl & -> & fl' & Efl & Pfl). cbn [obind].
  eexists. split; [reflexivity|]. unfold sexs_init. cbn [sx_ll sx_fl sx_Ec sx_Vref sx_Vs sx_Efd].
  assert (A : (if small6 (x_TE p) then obind (rdiv e (x_K p)) (fun q => Ok (fl, cmin (x_EMAX p) (cmax (x_EMIN p) q))) else init_given_y fl e) = Ok (fl', e / x_K p)).
  { destruct (small6 (x_TE p)) eqn:S; [|exact Efl]. destruct (rdiv e (x_K p)) as [q| |] eqn:Q; try discriminate. cbn [obind] in *. inversion Efl; subst.
    f_equal. f_equal. destruct H as [[_ H]|[_ H]]; [now apply small6_not in S|]. unfold cmin, cmax. destruct (Rlt_dec _ _); destruct (Rlt_dec _ _); lra. }
  rewrite A. cbn [obind]. destruct (@leadlag_y c _ _ (e / x_K p) M T) as (c' & -> & RR); lims.
  { replace (1 - x_TAB p * x_TB p / x_TB p) with (1 - x_TAB p) by (field; apply T). lra. }
  cbn [obind]. eexists. split; [reflexivity|]. unfold sx_at. cbn [sx_ll sx_fl sx_Ec sx_Vref sx_Vs sx_Efd]. replace (v + e / x_K p - 0 + 0 - v) with (e / x_K p) by lra.
  sp. auto using rest_at.
Qed.
Theorem exc_start d v e : exc_ok d v e -> exists x0, exc_load d = Ok x0 /\ exists x, exc_init (exc_setE (exc_setV x0 v) e) v = Ok x /\ exc_at PREDICTOR x v e.
Proof.
  destruct d as [p|p|p]; cbn [exc_ok exc_load]; intros H.
  - destruct (exdc1_start H) as (s0 & -> & s' & E & A). cbn [obind]. eexists. split; [reflexivity|]. cbn [exc_setV exc_setE exc_init]. rewrite E. cbn. eauto.
  - destruct (ieeet1_start H) as (s0 & -> & s' & E & A). cbn [obind]. eexists. split; [reflexivity|]. cbn [exc_setV exc_setE exc_init]. rewrite E. cbn. eauto.
  - destruct (sexs_start H) as (s0 & -> & s' & E & A). cbn [obind]. eexists. split; [reflexivity|]. cbn [exc_setV exc_setE exc_init]. unfold sexs_init in *. cbn [sx_ll sx_fl sx_Ec sx_Vref sx_Vs sx_Efd] in *. rewrite E. cbn. eauto.
Qed.

(** ** Governors *)
Definition tg_at (p : tgp) (s : tgs) (P : R) (st : stage) : Prop :=
  tg_w s = 0 /\ tg_Pm s = P /\ t_R p <> 0 /\ tg_Pref s = t_R p * P /\ at_stage st (tg_dl s) P P /\ at_stage st (tg_ll s) P P.
Definition ga_at (p : gap) (s : gas) (P : R) (st : stage) : Prop :=
  ga_w s = 0 /\ ga_Pm s = P /\ a_R p <> 0 /\ ga_Pref s = P /\ ga_exh s = P /\ P <= a_AT p + a_KT p * (a_AT p - P) /\
  at_stage st (ga_fv s) P P /\ at_stage st (ga_ff s) P P /\ at_stage st (ga_et s) P P.
Definition hy_at (p : hyp) (s : hys) (P : R) (st : stage) : Prop :=
  exists g, hy_w s = 0 /\ hy_Pm s = P /\ g <> 0 /\ h_AT p * (g - h_qNL p) = P /\ hy_nref s = hy_R p * g /\ hy_gout s = g /\ hy_oout s = g /\ hy_tout s = g /\
  at_stage st (hy_fl s) 0 0 /\ at_stage st (hy_gt s) 0 g /\ at_stage st (hy_op s) g g /\ at_stage st (hy_tf s) 0 g.
Definition opt_at (t : R) (st : stage) (f : cblock) (g : R) : Prop := is0 t = true \/ at_stage st f g g.
Definition ws_at (p : wsp) (s : wss) (P : R) (st : stage) : Prop :=
  exists g, ws_w s = 0 /\ ws_Pm1 s = P /\ (w_K1 p + w_K3 p + w_K5 p + w_K7 p) * g = P /\ ws_GV s = g /\ ws_GV0 s = g /\ w_T3 p <> 0 /\
  ws_Uc s <= 0 <= ws_Uo s /\ ws_Pmin s <= g <= ws_Pmax s /\ (ws_has_ll p = true -> at_stage st (ws_ll s) 0 0) /\ at_stage st (ws_P s) 0 g /\
  opt_at (w_T4 p) st (ws_f1 s) g /\ opt_at (w_T5 p) st (ws_f2 s) g /\ opt_at (w_T6 p) st (ws_f3 s) g /\ opt_at (w_T7 p) st (ws_f4 s) g.
Definition gov_at (st : stage) (g : gov) (P : R) : Prop :=
  match g with TGOV1 p s => tg_at p s P st | GAST p s => ga_at p s P st | HYGOV p s => hy_at p s P st | WSIEG1 p s => ws_at p s P st end.

Lemma rdiv_ok a b : b <> 0 -> rdiv a b = Ok (a / b).
Proof. unfold rdiv. intros H. now destruct (Req_EM_T b 0). Qed.
Lemma opt_fwd t st f g dt : opt_at t st f g -> exists f', ws_fwd t f g dt st = Ok (f', g) /\ opt_at t CORRECTOR f' g.
Proof.
  unfold opt_at, ws_fwd. destruct (is0 t); intros [H|H]; try discriminate; eauto. destruct (at_run dt H) as (c & -> & A). eauto.
Qed.
Lemma limit_id hi lo x : lo <= x <= hi -> limit hi lo x = x.
Proof. unfold limit. intros H. destruct (Rlt_dec hi x); [lra|]. destruct (Rlt_dec x lo); lra. Qed.
Lemma dead_id a x : dead_out a a x = x.
Proof. unfold dead_out, close6. destruct (Rlt_dec _ _); auto. destruct (Rlt_dec _ _); auto. lra. Qed.

Theorem gov_keep g P st dt : gov_at st g P -> exists g', gov_run g dt st = Ok g' /\ gov_at CORRECTOR g' P.
Proof.
  destruct g as [p s|p s|p s|p s]; cbn [gov_at gov_run].
  - intros (Hw & HP & HR & Hr & Hd & Hl). unfold tgov1_run. rewrite (rdiv_ok _ HR), Hw, Hr. cbn [obind]. replace ((t_R p * P - 0) / t_R p) with P by (field; auto).
    run1 Hd. run1 Hl. eexists. split; [reflexivity|]. cbn [gov_at]. unfold tg_at. cbn. rewrite Rmult_0_r, Rminus_0_r. auto 10.
  - intros (Hw & HP & HR & Hr & Hx & Hm & Hfv & Hff & Het). unfold gast_run. rewrite (rdiv_ok _ HR), Hw, Hr, Hx. cbn [obind]. replace (P - 0 / a_R p) with P by (field; auto).
    assert (M : cmin (a_AT p + a_KT p * (a_AT p - P)) P = P) by (unfold cmin; destruct (Rlt_dec _ _); lra). rewrite M.
    run1 Hfv. run1 Hff. run1 Het. eexists. split; [reflexivity|]. cbn [gov_at]. unfold ga_at. cbn. rewrite Rmult_0_r, Rminus_0_r. auto 12.
  - intros (g & Hw & HP & Hg & HA & Hn & Hgo & Hoo & Hto & Hf & Hgt & Hop & Htf). unfold hygov_run. rewrite Hw, Hn, Hgo, Hto.
    replace (hy_R p * g - (0 + hy_R p * g)) with 0 by lra. run1 Hf. run1 Hgt. run1 Hop. rewrite (rdiv_ok _ Hg). cbn [obind].
    replace (1 - g / g * (g / g)) with 0 by (field; auto). run1 Htf. eexists. split; [reflexivity|]. cbn [gov_at]. exists g. cbn.
    replace (h_AT p * (g - h_qNL p) * (g / g * (g / g)) - g * h_Dt p * 0) with P by (rewrite <- HA; field; auto). auto 15.
  - intros (g & Hw & HP & HA & Hg & Hg0 & HT & HU & HPm & Hll & Hpb & H1 & H2 & H3 & H4). unfold wsieg1_run. rewrite Hw, Hg, Hg0, Rmult_0_l.
    assert (A : exists ll, (if ws_has_ll p then getoutput (ws_ll s) 0 dt st true else Ok (ws_ll s, 0)) = Ok (ll, 0) /\ (ws_has_ll p = true -> at_stage CORRECTOR ll 0 0)).
    { destruct (ws_has_ll p); [|eexists; split; [reflexivity|discriminate]]. destruct (at_run dt (Hll eq_refl)) as (c & -> & A). eauto. }
    destruct A as (ll & -> & Pll). cbn [obind]. rewrite (rdiv_ok _ HT). cbn [obind]. replace ((g - 0 - g) * 1 / w_T3 p) with 0 by (field; auto).
    rewrite (limit_id HU). run1 Hpb. rewrite (limit_id HPm), dead_id.
    destruct (opt_fwd dt H1) as (f1 & -> & K1). cbn [obind]. destruct (opt_fwd dt H2) as (f2 & -> & K2). cbn [obind].
    destruct (opt_fwd dt H3) as (f3 & -> & K3). cbn [obind]. destruct (opt_fwd dt H4) as (f4 & -> & K4). cbn [obind].
    eexists. split; [reflexivity|]. cbn [gov_at]. exists g. cbn. replace (w_K1 p * g + w_K3 p * g + w_K5 p * g + w_K7 p * g) with P by (rewrite <- HA; lra). auto 20.
Qed.
Lemma opt_down t f g : opt_at t CORRECTOR f g -> opt_at t PREDICTOR f g.
Proof. intros [H|H]; [now left|right; now apply at_down]. Qed.
Lemma gov_down g P : gov_at CORRECTOR g P -> gov_at PREDICTOR g P.
Proof.
  destruct g as [p s|p s|p s|p s]; cbn [gov_at]; unfold tg_at, ga_at, hy_at, ws_at; intros H; decompose [and ex] H; clear H; try eexists; intuition eauto using at_down, opt_down.
Qed.
Lemma gov_P_at st g P : gov_at st g P -> gov_P g = P.
Proof. destruct g as [p s|p s|p s|p s]; cbn [gov_at gov_P]; unfold tg_at, ga_at, hy_at, ws_at; intros H; decompose [and ex] H; auto. Qed.
Lemma gov_setw_at st g P : gov_at st g P -> gov_at st (gov_setw g 0) P.
Proof.
  destruct g as [p s|p s|p s|p s]; cbn [gov_at gov_setw]; auto; unfold tg_at, ws_at; cbn; intros H; decompose [and ex] H; try eexists; intuition eauto.
Qed.

Lemma filter_lim k t lo hi yl yh y : tc t -> k <> 0 -> lo <= y <= hi -> yl <= y <= yh -> exists c, with_xy (filter_setparams filter_new k t) lo hi yl yh = Ok c /\
  exists c', init_given_y c y = Ok (c', y / k) /\ rest c' (y / k) y.
Proof.
  intros T K W B. destruct (@filter_set k t (proj1 T)) as (c0 & E0 & M & L1 & L2 & L3 & L4 & L5 & L6).
  edestruct (@with_xy_ok _ c0 _ _ _ _ lo hi yl yh E0 M L5 L6) as (c & -> & M2 & N1 & N2 & N3 & N4 & N5 & N6).
  eexists. split; [reflexivity|]. destruct (@filter_y c k t y M2 T K) as (c' & -> & RR); lims. eauto.
Qed.
Lemma filter_plain t y : tc t -> bounded y -> exists c, filter_setparams filter_new 1 t = Ok c /\
  (exists c', init_given_y c y = Ok (c', y) /\ rest c' y y) /\ (exists c', init_given_u c y = Ok (c', y) /\ rest c' y y).
Proof.
  intros T B. destruct (@filter_set 1 t (proj1 T)) as (c & -> & M & L1 & L2 & L3 & L4 & L5 & L6). eexists. split; [reflexivity|]. split.
  - destruct (@filter_y c 1 t y M T) as (c' & E & RR); lims. replace (y / 1) with y in * by field. eauto.
  - destruct (@filter_u c t y M T) as (c' & E & RR); lims. eauto.
Qed.
Lemma opt_filter_ok t y : (t = 0 \/ tc t) -> bounded y -> exists c, opt_filter t = Ok c /\ exists c', ws_back t c y = Ok (c', y) /\ opt_at t PREDICTOR c' y.
Proof.
  intros T B. unfold opt_filter, ws_back, opt_at, is0. destruct (Req_EM_T t 0) as [E|N].
  - eexists. split; [reflexivity|]. eexists. split; [reflexivity|]. auto.
  - destruct T as [T|T]; [contradiction|]. destruct (filter_plain T B) as (c & E & (c' & E' & A) & _). rewrite E. eexists. split; [reflexivity|]. rewrite E'. eauto using rest_at.
Qed.

Theorem gov_start d P : gov_ok d P -> exists g0, gov_load d = Ok g0 /\ exists g, gov_init (gov_setw (gov_setP g0 P) 0) = Ok g /\ gov_at PREDICTOR g P.
Proof.
  destruct d as [p|p|p|p]; cbn [gov_ok gov_load].
  - intros (HR & T1 & T3 & W & B & B2). unfold tgov1_load.
    destruct (@leadlag_set (t_T2 p) (t_T3 p) (proj1 T3)) as (c & -> & M & L1 & L2 & L3 & L4 & L5 & L6). cbn [obind].
    destruct (@filter_lim 1 (t_T1 p) (t_Vmin p) (t_Vmax p) (-1000) 1000 P T1) as (dl & -> & dl' & Ed & Rd); try (unfold bounded in *; lra). cbn [obind].
    eexists. split; [reflexivity|]. cbn [gov_setP gov_setw gov_init]. unfold tgov1_init. cbn [tg_ll tg_dl tg_Pm tg_Pref tg_w]. rewrite Rmult_0_r, Rplus_0_r.
    destruct (@leadlag_y c _ _ P M T3) as (c' & -> & RR); lims. cbn [obind]. rewrite Ed. replace (P / 1) with P in * by field. cbn [obind].
    eexists. split; [reflexivity|]. cbn [gov_at]. unfold tg_at. cbn. rewrite Rplus_0_r. auto 10 using rest_at.
  - intros (HR & T1 & T2 & T3 & W & B & M). unfold gast_load.
    destruct (@filter_lim 1 (a_T1 p) (a_VMIN p) (a_VMAX p) (-10000) 10000 P T1) as (fv & -> & fv' & Ev & Rv); try (unfold bounded in *; lra). cbn [obind].
    destruct (filter_plain T2 B) as (ff & -> & (ff' & Ef & Rf) & _). cbn [obind].
    destruct (filter_plain T3 B) as (et & -> & _ & et' & Ee & Re). cbn [obind].
    eexists. split; [reflexivity|]. cbn [gov_setP gov_setw gov_init]. unfold gast_init. cbn [ga_fv ga_ff ga_et ga_Pm ga_Pref ga_w ga_exh]. rewrite Rmult_0_r, Rplus_0_r, Ef. cbn [obind].
    rewrite Ee. cbn [obind]. rewrite Ev. replace (P / 1) with P in * by field. cbn [obind].
    eexists. split; [reflexivity|]. cbn [gov_at]. unfold ga_at. cbn. rewrite Rmult_0_l, Rplus_0_r. auto 12 using rest_at.
  - intros ((r & Er & Hr) & TR & TF & TG & TW & HA & Hg & W & B). set (g := P / h_AT p + h_qNL p) in *. unfold hygov_load.
    destruct (@filter_plain (h_TF p) 0 TF) as (fl & -> & (fl' & Ef & Rf) & _); [unfold bounded; lra|]. cbn [obind].
    rewrite Er. cbn [rd obind]. rewrite (rdiv_ok _ Hr). cbn [obind]. rewrite rdiv_ok by (now apply Rmult_integral_contrapositive). cbn [obind].
    destruct (pi_set (1 / r) (1 / (r * h_TR p))) as (c0 & E0 & M & L1 & L2 & L3 & L4 & L5 & L6).
    edestruct (@with_xy_ok _ c0 _ _ _ _ (h_GMIN p) (h_GMAX p) (-10000) 10000 E0 M L5 L6) as (gt & -> & M2 & N1 & N2 & N3 & N4 & N5 & N6). cbn [obind].
    destruct (@filter_plain (h_TG p) g TG B) as (op & -> & (op' & Eo & Ro) & _). cbn [obind].
    destruct (@integ_set (h_TW p) TW) as (tf & -> & Mo & O1 & O2 & O3 & O4 & O5 & O6). cbn [obind].
    eexists. split; [reflexivity|]. cbn [gov_setP gov_setw gov_init]. unfold hygov_init. cbn [hy_fl hy_gt hy_op hy_tf hy_Pm hy_nref hy_w hy_gout hy_oout hy_tout].
    rewrite (rdiv_ok _ HA). cbn [obind]. fold g. destruct (@level_y tf _ _ _ g Mo) as (tf' & -> & Rt); lims. cbn [obind]. rewrite Eo. cbn [obind].
    destruct (@level_y gt _ _ _ g M2) as (gt' & -> & Rg); lims. cbn [obind]. rewrite Ef. cbn [obind].
    eexists. split; [reflexivity|]. cbn [gov_at]. exists g. cbn. rewrite Rplus_0_l, Rplus_0_r. split; [auto|]. split; [auto|]. split; [auto|]. split; [unfold g; field; auto|]. auto 12 using rest_at.
  - intros (Hk & T3 & U & W & B & TL & TF). set (k := w_K1 p + w_K3 p + w_K5 p + w_K7 p) in *. set (g := P / k) in *. unfold wsieg1_load.
    assert (A : exists ll, (if ws_has_ll p then leadlag_setparams leadlag_new (w_T2 p) (w_T1 p) else Ok leadlag_new) = Ok ll /\
      exists ll' y, (if ws_has_ll p then init_given_y ll 0 else Ok (ll, 0)) = Ok (ll', y) /\ (ws_has_ll p = true -> at_stage PREDICTOR ll' 0 0)).
    { unfold ws_has_ll, is0. destruct (Req_EM_T (w_T1 p) 0) as [E1|N1]; cbn [negb andb]; [eexists; split; [reflexivity|]; do 2 eexists; split; [reflexivity|discriminate]|].
      destruct (Req_EM_T (w_T2 p) 0) as [E2|N2]; cbn [negb andb]; [eexists; split; [reflexivity|]; do 2 eexists; split; [reflexivity|discriminate]|].
      destruct TL as [T|[T|T]]; try contradiction. destruct (@leadlag_set (w_T2 p) (w_T1 p) (proj1 T)) as (c & -> & M & L1 & L2 & L3 & L4 & L5 & L6). eexists. split; [reflexivity|].
      destruct (@leadlag_y c _ _ 0 M T) as (c' & -> & RR); lims. do 2 eexists. split; [reflexivity|]. auto using rest_at. }
    destruct A as (ll & -> & ll' & y & El & Pl). cbn [obind].
    destruct (@integ_set 1 R1_neq_R0) as (pb & -> & Mo & O1 & O2 & O3 & O4 & O5 & O6). cbn [obind with_x].
    destruct (@opt_filter_ok (w_T4 p) g) as (f1 & -> & f1' & B1 & A1); [apply TF; cbn; auto|auto|]. cbn [obind].
    destruct (@opt_filter_ok (w_T5 p) g) as (f2 & -> & f2' & B2 & A2); [apply TF; cbn; auto|auto|]. cbn [obind].
    destruct (@opt_filter_ok (w_T6 p) g) as (f3 & -> & f3' & B3 & A3); [apply TF; cbn; auto|auto|]. cbn [obind].
    destruct (@opt_filter_ok (w_T7 p) g) as (f4 & -> & f4' & B4 & A4); [apply TF; cbn; auto|auto|]. cbn [obind].
    eexists. split; [reflexivity|]. cbn [gov_setP gov_setw gov_init]. unfold wsieg1_init. cbn [ws_ll ws_P ws_f1 ws_f2 ws_f3 ws_f4 ws_Uo ws_Uc ws_Pmax ws_Pmin ws_Pm1 ws_Pm2 ws_w ws_GV ws_GV0].
    fold k. destruct (Rlt_dec 0 k) as [_|N]; [|contradiction]. fold g. rewrite B4. cbn [obind]. rewrite B3. cbn [obind]. rewrite B2. cbn [obind]. rewrite B1. cbn [obind].
    destruct (@level_y (setxlimits pb (w_Pmin p) (w_Pmax p)) _ _ _ g (made_xlim _ _ Mo)) as (pb' & -> & Rp); cbn; lims. rewrite El. cbn [obind].
    eexists. split; [reflexivity|]. cbn [gov_at]. exists g. cbn. fold k. assert (K : k * g = P) by (unfold g; field; lra).
    split; [auto|]. split; [auto|]. split; [auto|]. split; [auto|]. split; [auto|]. split; [auto|].
    split; [destruct (Rlt_dec g (w_Uc p)), (Rlt_dec (w_Uo p) g); lra|]. split; [destruct (Rlt_dec g (w_Pmin p)), (Rlt_dec (w_Pmax p) g); lra|]. auto 12 using rest_at.
Qed.

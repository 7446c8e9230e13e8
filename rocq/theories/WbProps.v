(** C69: delay, lead-lag, proportional-integral, backlash and dead band blocks. *)
From Verif Require Import Prelude WbModel WbSpec WbProofs.
From Coq Require Import Reals Lra.
Open Scope R_scope.

(** * C69 Blocks of the controller models *)
(** A block started at an output and then fed the input that init returns stays there for every history of predictor and corrector calls
    with any time steps: delay ... *)
Theorem C69_delay_flat : forall Ts y cs,
  Forall (fun c => input_of c = fst (delay_init y)) cs -> flat y (outputs (delay_pred Ts) (delay_corr Ts) cs (snd (delay_init y))).
Proof. exact delay_flat. Qed.
Print Assumptions C69_delay_flat.
(** ... delay with limits, whatever the limits, because init moves them so that they admit the output and never inward ... *)
Theorem C69_limited_delay_flat : forall Ts mx mn y cs,
  let i := dlim_init y mx mn in let mx' := fst (fst i) in let mn' := snd (fst i) in
  Forall (fun c => input_of c = fst (snd i)) cs ->
  flat y (outputs (dlim_pred Ts mx' mn') (dlim_corr Ts mx' mn') cs (snd (snd i))) /\
  mx <= mx' /\ mn' <= mn /\ (mn <= y <= mx -> mx' = mx /\ mn' = mn).
Proof.
  intros Ts mx mn y cs i mx' mn' F. destruct (dlim_init_limits y mx mn) as (A & B & C & D). fold i mx' mn' in A, B, C. split.
  - apply dlim_flat; [exact C|exact F].
  - split; [exact A|]. split; [exact B|]. intros L. unfold mx', mn', i. rewrite D by lra. now split.
Qed.
Print Assumptions C69_limited_delay_flat.
(** ... proportional-integral, for an output within the limits and an integral gain that is not exactly at the threshold ... *)
Theorem C69_pi_flat : forall Kp Ki mx mn y cs,
  mn <= y <= mx -> tiny < Ki \/ (Ki < tiny /\ Kp <> 0) -> Forall (fun c => input_of c = fst (pi_init y Kp Ki)) cs ->
  flat y (outputs (pi_pred Kp Ki mx mn) (pi_corr Kp Ki mx mn) cs (snd (pi_init y Kp Ki))).
Proof. exact pi_flat. Qed.
Print Assumptions C69_pi_flat.
(** ... and lead-lag, unless the block was started as too fast for the time step and the time step shrinks later. *)
Theorem C69_lead_lag_flat : forall T1 T2 h0 y cs,
  0 < T1 -> Forall (fun c => input_of c = fst (ll_init y T1 T2 h0) /\ (T1 < 4 * h0 -> T1 < 4 * step_of c)) cs ->
  flat y (outputs (ll_pred T1 T2) (ll_corr T1 T2) cs (snd (ll_init y T1 T2 h0))).
Proof. intros T1 T2 h0 y cs. exact (@ll_flat T1 T2 h0 y cs). Qed.
Print Assumptions C69_lead_lag_flat.

(** Finding: a lead-lag block that was started with a large time step leaves its output when the time step becomes smaller. *)
Theorem C69_lead_lag_time_step_refuted : exists T1 T2 h0 h y, 0 < h < h0 /\ 0 < T1 /\
  outputs (ll_pred T1 T2) (ll_corr T1 T2) [Pred (fst (ll_init y T1 T2 h0)) h false] (snd (ll_init y T1 T2 h0)) = [0] /\ y <> 0.
Proof.
  exists 1, 0, 1, (1 / 8), 1. split; [lra|]. split; [lra|]. split; [|lra]. unfold ll_init. cbn [outputs step fst snd]. unfold ll_pred, start_of.
  destruct (Rlt_dec 1 (4 * 1)); [|lra]. destruct (Rlt_dec 1 (4 * (1 / 8))); [lra|]. cbn [fst snd b_x1]. f_equal. field.
Qed.
Print Assumptions C69_lead_lag_time_step_refuted.
(** Finding: unlike the delay with limits the proportional-integral block does not move its limits: started at 2 with the limit 1 it is at 1. *)
Theorem C69_pi_start_outside_refuted : exists Kp Ki mx mn y h, mn < mx /\ tiny < Ki /\
  outputs (pi_pred Kp Ki mx mn) (pi_corr Kp Ki mx mn) [Pred (fst (pi_init y Kp Ki)) h false] (snd (pi_init y Kp Ki)) = [1] /\ y = 2.
Proof.
  exists 1, 1, 1, 0, 2, 1. unfold tiny. split; [lra|]. split; [lra|]. split; [|reflexivity]. unfold pi_init, tiny. destruct (Rlt_dec (1 / 100000) 1); [|lra].
  cbn [outputs step fst snd]. unfold pi_pred, start_of, tiny. destruct (Rlt_dec 1 (1 / 100000)); [lra|]. cbn [fst snd b_x1]. f_equal. unfold lim.
  destruct (Rlt_dec (1 - 1 * 0) 2); [|lra]. destruct (Rlt_dec (1 - 1 * 0) (0 - 1 * 0)); [lra|]. destruct (Rlt_dec 1 (0 * 1 + (1 - 1 * 0))); [lra|].
  destruct (Rlt_dec (0 * 1 + (1 - 1 * 0)) 0); lra.
Qed.
Print Assumptions C69_pi_start_outside_refuted.

(** The outputs of the blocks with limits are within the limits for every state, every input and every history. *)
Theorem C69_limits : forall mx mn cs s, mn <= mx ->
  (forall Ts, limited mx mn (outputs (dlim_pred Ts mx mn) (dlim_corr Ts mx mn) cs s)) /\
  (forall Kp Ki, limited mx mn (outputs (pi_pred Kp Ki mx mn) (pi_corr Kp Ki mx mn) cs s)).
Proof. intros mx mn cs s H. split; [intros Ts; now apply dlim_limited|intros Kp Ki; now apply pi_limited]. Qed.
Print Assumptions C69_limits.
(** The integral does not wind up: it is cut so that the output of the predictor needs no cutting. *)
Theorem C69_no_windup : forall Kp Ki mx mn u h f s, mn <= mx -> tiny <= Ki ->
  let o := pi_pred Kp Ki mx mn u h f s in fst o = u * Kp + b_x0 (snd o) /\ mn <= fst o <= mx.
Proof. intros Kp Ki mx mn u h f s H K o. split; [now apply pi_no_windup|now apply lim_in]. Qed.
Print Assumptions C69_no_windup.
(** The delay with a constant input approaches it without passing it: the distance shrinks by one factor between zero and one in every
    time step, that of Heun's method; with a time constant below four steps it is there after one step. *)
Theorem C69_delay_response : forall Ts u h s, 0 < h ->
  (4 * h <= Ts -> exists q, 0 < q < 1 /\ q = 1 - h / Ts + (h / Ts) * (h / Ts) / 2 /\ forall n, b_x1 (delay_steps Ts u h n s) - u = q ^ n * (b_x1 s - u)) /\
  (Ts < 4 * h -> b_x1 (delay_steps Ts u h 1 s) = u).
Proof.
  intros Ts u h s H. split; intros T.
  - exists (1 - h / Ts + (h / Ts) * (h / Ts) / 2). split; [now apply delay_factor|]. split; [reflexivity|]. intros n. now apply delay_response.
  - exact (@delay_fast Ts u h s T).
Qed.
Print Assumptions C69_delay_response.

(** Where the limits do not bind the delay with limits is the delay; at a limit with an input beyond it the state stays at the limit. *)
Theorem C69_limited_delay : forall Ts mx mn u h s,
  (forall f, mn < start_of f s < mx -> mn < u < mx -> dlim_pred Ts mx mn u h f s = delay_pred Ts u h f s) /\
  (mn < b_x1 s < mx -> mn < u < mx -> dlim_corr Ts mx mn u h s = delay_corr Ts u h s) /\
  (mn <= mx -> 0 < Ts -> forall f, let o := dlim_pred Ts mx mn u h f s in
    (mx <= start_of f s -> mx <= u -> fst o = mx /\ b_x1 (snd o) = mx) /\ (start_of f s <= mn -> u <= mn -> fst o = mn /\ b_x1 (snd o) = mn)).
Proof.
  intros Ts mx mn u h s. split; [|split].
  - intros f. apply dlim_free_pred.
  - apply dlim_free_corr.
  - intros H T f o. split; [now apply dlim_at_max|now apply dlim_at_min].
Qed.
Print Assumptions C69_limited_delay.

(** Backlash: the output is never further from the input than half of the play, an input that stays does not move it, and while the
    input rises the output does not fall and does not move more than the input. *)
Theorem C69_backlash : forall db l, 0 <= db ->
  (forall us, Forall2 (fun u o => Rabs (u - o) <= db) us (backlash_all db l us)) /\
  (forall pre u v r, exists o1 o o' os, backlash_all db l (pre ++ u :: v :: r) = (o1 ++ o :: o' :: os)%list /\ length o1 = length pre /\
     (u = v -> o' = o) /\ (u <= v -> 0 <= o' - o <= v - u)).
Proof. intros db l H. split; [intros us; now apply backlash_all_near|]. intros pre u v r. now apply backlash_history. Qed.
Print Assumptions C69_backlash.
(** Finding: while the input falls it is taken minus the play instead of plus: the output jumps down by the whole play more than the
    input, here by 2.5 when the input moves by 0.5. *)
Theorem C69_backlash_falling_refuted : exists db l u v, 0 <= db /\ v < u /\
  backlash db l u = 0 /\ u - v = 1 / 2 /\ backlash db 0 v = - (5 / 2).
Proof.
  exists 1, 0, (-1), (- (3 / 2)). split; [lra|]. split; [lra|]. unfold backlash. split; [|split; [lra|]].
  - destruct (Rle_dec (0 - 1) (-1)); [|lra]. destruct (Rle_dec (-1) (0 + 1)); lra.
  - destruct (Rle_dec (0 - 1) (- (3 / 2))); [lra|]. destruct (Rlt_dec (0 + 1) (- (3 / 2))); lra.
Qed.
Print Assumptions C69_backlash_falling_refuted.

(** Dead band without hysteresis (Eps = 0): for every history each output is the dead band of its input around the initial value. *)
Theorem C69_dead_band : forall db init us, 0 <= db -> exists outs, db_all db 0 init 0 us = Ok outs /\ Forall2 (fun u o => dead db (u - init) (o - init)) us outs.
Proof. intros db init us H. exact (@db_plain db init H us 0%nat). Qed.
Print Assumptions C69_dead_band.
(** Dead band with full hysteresis (Eps = Db1): every output is the input or the initial value, the input if it is outside of the band;
    once outside the output follows the input while it keeps its side, and it is silent while the input stays inside of the band on a side
    that it entered from the other side, or since the start. *)
Theorem C69_bowtie : forall db init, 0 < db ->
  (forall us, exists outs, db_all db db init 0 us = Ok outs /\
     Forall2 (fun u o => (o = u \/ o = init) /\ (db < Rabs (u - init) -> o = u)) us outs) /\
  (forall pre u mid,
     (db < u - init /\ Forall (fun v => 0 < v - init) mid) \/ (u - init < - db /\ Forall (fun v => v - init < 0) mid) ->
     exists o1, length o1 = length pre /\ db_all db db init 0 (pre ++ u :: mid) = Ok (o1 ++ u :: mid)%list) /\
  (forall pre mid,
     ((pre = [] \/ exists p w, pre = (p ++ [w])%list /\ w - init <= 0) /\ Forall (fun v => 0 <= v - init < db) mid) \/
     ((pre = [] \/ exists p w, pre = (p ++ [w])%list /\ 0 <= w - init) /\ Forall (fun v => - db < v - init <= 0) mid) ->
     exists o1, length o1 = length pre /\ db_all db db init 0 (pre ++ mid) = Ok (o1 ++ map (fun _ => init) mid)%list).
Proof.
  intros db init H. split; [|split].
  - intros us. apply bt_total; [exact H|lia].
  - intros pre u mid. now apply bt_follows.
  - intros pre mid. now apply bt_silent.
Qed.
Print Assumptions C69_bowtie.
(** Initialize keeps a band that is not negative and a hysteresis between zero and the band. *)
Theorem C69_dead_band_parameters : forall d e, 0 <= snd (db_init d e) <= fst (db_init d e) /\ fst (db_init d e) = Rabs d /\ (Rabs e <= Rabs d -> snd (db_init d e) = Rabs e).
Proof. exact db_init_ok. Qed.
Print Assumptions C69_dead_band_parameters.
(** Finding: with partial hysteresis (0 < Eps < Db1) every input outside of the band makes the block test its result before it has one. *)
Theorem C69_partial_hysteresis_refuted : forall db eps init u, 0 < eps < db -> db < Rabs (u - init) -> db_output db eps init 0 u = UB.
Proof.
  intros db eps init u E U. unfold db_output, rle, req. destruct (Rle_dec (Rabs (u - init)) db); [lra|]. cbn [andb].
  destruct (Req_EM_T eps 0); [lra|]. destruct (Req_EM_T db eps); [lra|]. reflexivity.
Qed.
Print Assumptions C69_partial_hysteresis_refuted.

(** A history with its inputs and limits *)
Example C69_nonvacuous :
  flat 3 (outputs (dlim_pred 1 (3 + 1 / 10) 0) (dlim_corr 1 (3 + 1 / 10) 0) [Pred 3 (1 / 10) true; Corr 3 (1 / 10); Pred 3 1 false] (Blk 3 3 0 0)) /\
  (exists o1, length o1 = 1%nat /\ db_all 1 1 0 0 [1 / 2; 2; 1 / 2] = Ok (o1 ++ [2; 1 / 2])%list) /\
  (exists o1, length o1 = 2%nat /\ db_all 1 1 0 0 [2; 0; 1 / 2] = Ok (o1 ++ [0])%list) /\
  (exists eps, 0 < eps < 1 /\ 1 < Rabs (2 - 0)).
Proof.
  split; [|split; [|split]].
  - apply dlim_flat; [lra|]. repeat constructor.
  - assert (H : 0 < 1) by lra. apply (@bt_follows 1 0 H [1 / 2] 2 [1 / 2]). left. split; [lra|]. constructor; [lra|constructor].
  - assert (H : 0 < 1) by lra. apply (@bt_silent 1 0 H [2; 0] [1 / 2]). left. split; [right; exists [2], 0; split; [reflexivity|lra]|]. constructor; [lra|constructor].
  - exists (1 / 2). split; [lra|]. unfold Rabs. destruct (Rcase_abs (2 - 0)); lra.
Qed.

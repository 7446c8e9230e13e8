(** C34: linear control blocks. *)
From Verif Require Import Prelude CbModel CbSpec CbProofs.
From Coq Require Import Reals Lra.
From Coquelicot Require Import Coquelicot.
Open Scope R_scope.

(** The four blocks are transfer functions: PI control (Kp s + Ki)/s, filter K/(T s + 1), lead-lag (TA s + 1)/(TB s + 1),
    integrator 1/(T s); a block whose transfer function does not exist (T = 0) is refused by an exception. *)
Theorem C34_blocks :
  (forall c kp ki, exists c', pi_setparams c kp ki = Ok c' /\ made 1 0 kp ki c') /\
  (forall c k t, if Req_EM_T t 0 then filter_setparams c k t = Throw else exists c', filter_setparams c k t = Ok c' /\ made t 1 0 k c') /\
  (forall c ta tb, if Req_EM_T tb 0 then leadlag_setparams c ta tb = Throw else exists c', leadlag_setparams c ta tb = Ok c' /\ made tb 1 ta 1 c') /\
  (forall c t, if Req_EM_T t 0 then integrator_setparams c t = Throw else exists c', integrator_setparams c t = Ok c' /\ made t 0 0 1 c').
Proof.
  unfold pi_setparams, filter_setparams, leadlag_setparams, integrator_setparams, default_limits, setcoeffs.
  split; [intros|split; [intros|split; intros]].
  - destruct (Req_EM_T 1 0) as [E|E]; [lra|]. cbn [obind]. eexists. split; [reflexivity|]. repeat constructor.
    apply made_set with (c := c). unfold setcoeffs. destruct (Req_EM_T 1 0); [lra|reflexivity].
  - destruct (Req_EM_T t 0) as [E|E]; [reflexivity|]. cbn [obind]. eexists. split; [reflexivity|]. repeat constructor.
    apply made_set with (c := c). unfold setcoeffs. destruct (Req_EM_T t 0); [lra|reflexivity].
  - destruct (Req_EM_T tb 0) as [E|E]; [reflexivity|]. cbn [obind]. eexists. split; [reflexivity|]. repeat constructor.
    apply made_set with (c := c). unfold setcoeffs. destruct (Req_EM_T tb 0); [lra|reflexivity].
  - destruct (Req_EM_T t 0) as [E|E]; [reflexivity|]. cbn [obind]. eexists. split; [reflexivity|]. repeat constructor.
    apply made_set with (c := c). unfold setcoeffs. destruct (Req_EM_T t 0); [lra|reflexivity].
Qed.
Print Assumptions C34_blocks.

(** The state equations of a block are the transfer function: if the state follows the derivative computed by the block, the
    (unlimited) output satisfies a0 y' + a1 y = b0 u' + b1 u, at any time and for any differentiable input. *)
Theorem C34_transfer_function :
  forall a0 a1 b0 b1 c (x u : R -> R) t du, made a0 a1 b0 b1 c -> is_derive u t du ->
  (exists d, getderivative c (x t) (u t) = Ok d /\ is_derive x t d) ->
  obeys a0 a1 b0 b1 u (fun s => match cC c, cD c with Some cc, Some d => cc * x s + d * u s | _, _ => 0 end) t du.
Proof. exact tf_time. Qed.
Print Assumptions C34_transfer_function.

(** For any calls of getoutput, from a block whose states are within their limits: the states stay within the limits of the
    state and all outputs are within the limits of the output. *)
Theorem C34_within_limits_partial :
  forall l c c' ys, calls c l = Ok (c', ys) -> xmin c <= xmax c -> ymin c <= ymax c ->
  (forall v, cx c = Some v -> inside (xmin c) v (xmax c)) -> (forall v, xhat c = Some v -> inside (xmin c) v (xmax c)) ->
  (forall v, cx c' = Some v -> inside (xmin c) v (xmax c)) /\ (forall v, xhat c' = Some v -> inside (xmin c) v (xmax c)) /\
  length ys = length l /\ (forall y, In y ys -> inside (ymin c) y (ymax c)).
Proof.
  intros l c c' ys H LX LY S1 S2. destruct (calls_in _ H LX LY (conj S1 S2)) as ([A1 A2] & [B1 B2] & C & D).
  rewrite B1, B2 in A1, A2. auto.
Qed.
Print Assumptions C34_within_limits_partial.
(** Whatever the state was, after an update the updated state is within the limits, for given limits as well. *)
Theorem C34_update_within_limits :
  forall c u dt xlo xhi ylo yhi st c' y, getoutput_lim c u dt xlo xhi ylo yhi st true = Ok (c', y) ->
  (xlo <= xhi -> exists v, getstate c' st = Ok v /\ inside xlo v xhi) /\ (ylo <= yhi -> inside ylo y yhi).
Proof.
  unfold getoutput_lim. intros * H. destruct (raw_output _ _ _ _ _) as [y0| |] eqn:E; try discriminate. cbn [obind] in H.
  destruct (updatestate_lim _ _ _ _ _ _ _ _) as [c1| |] eqn:EU; try discriminate. cbn [obind] in H. inversion H; subst. split; intros L.
  - destruct (update_in _ _ _ _ _ _ EU L) as (v & G & W & _). eauto.
  - now apply raw_in in E.
Qed.
Print Assumptions C34_update_within_limits.
(** The rate of change of the state is within its limits. *)
Theorem C34_rate_limits :
  forall c u dt st c' x v, updatestate c u dt st = Ok c' -> cx c = Some x -> getstate c' st = Ok v ->
  inside (xmin c) x (xmax c) -> dxmin c <= 0 <= dxmax c -> 0 <= dt ->
  inside (dxmin c * dt) (v - x) (dxmax c * dt).
Proof.
  intros c u dt st c' x v H Ex G W L Hdt. destruct st; cbn in G; apply rd_ok in G.
  - eapply predictor_rate; eauto. lra.
  - eapply corrector_rate; eauto. lra.
Qed.
Print Assumptions C34_rate_limits.

(** A step whose limits are not reached is Heun's method for x' = A x + B u, and the outputs are C x + D u. *)
Theorem C34_step :
  forall a0 a1 b0 b1 c u0 u1 dt x c' y0 y1, made a0 a1 b0 b1 c -> cx c = Some x -> step c u0 u1 dt = Ok (c', y0, y1) ->
  let f z u := - a1 / a0 * z + (b1 / a0 - a1 * b0 / (a0 * a0)) * u in
  let k1 := f x u0 in let k2 := f (x + dt * k1) u1 in
  inside (dxmin c) k1 (dxmax c) -> inside (xmin c) (x + dt * k1) (xmax c) ->
  inside (dxmin c) ((k1 + k2) / 2) (dxmax c) -> inside (xmin c) (x + dt * ((k1 + k2) / 2)) (xmax c) ->
  cx c' = Some (x + dt * ((k1 + k2) / 2)) /\ xhat c' = Some (x + dt * k1) /\
  y0 = clamp (ymin c) (x + b0 / a0 * u0) (ymax c) /\ y1 = clamp (ymin c) (x + dt * k1 + b0 / a0 * u1) (ymax c).
Proof. exact heun. Qed.
Print Assumptions C34_step.

(** A block initialised from an output that respects the limits delivers this output, and keeps its state, in all steps with the
    input returned, for any time steps. (The code treats |a1/a0| < 1e-10 as 0.) *)
Theorem C34_init_given_output :
  forall a0 a1 b0 b1 c y c' u dts, made a0 a1 b0 b1 c -> init_given_y c y = Ok (c', u) -> a1 = 0 \/ tiny <= Rabs (a1 / a0) ->
  inside (ymin c) y (ymax c) -> dxmin c <= 0 <= dxmax c -> (forall x, cx c' = Some x -> inside (xmin c) x (xmax c)) ->
  a1 * y = b1 * u /\
  exists c2, hold c' u dts = Ok (c2, repeat y (2 * length dts)) /\ cx c2 = cx c'.
Proof.
  intros a0 a1 b0 b1 c y c' u dts M H S WY D WX. destruct (init_y_rest _ M H S) as (x & Ex & Hd & Hy & X1 & X2 & Y1 & Y2 & D1 & D2 & M').
  split. { destruct (rest_gain _ _ M' Hd) as (cc & d & EC & ED & G). destruct (made_abcd M') as (_ & _ & _ & EC' & ED').
    assert (cc = 1) as -> by congruence. assert (d = b0 / a0) as -> by congruence. rewrite Rmult_1_l, Hy in G. exact G. }
  destruct (@rest_hold a0 a1 b0 b1 u x dts c' M' Ex Hd) as (c2 & E & E2);
    [rewrite X1, X2; now apply WX|rewrite D1, D2; exact D|]. exists c2. split; [|congruence]. rewrite E, Hy, Y1, Y2, clamp_id by assumption. reflexivity.
Qed.
Print Assumptions C34_init_given_output.
(** The same when initialised from an input, unless the block integrates (|a1/a0| < 1e-10). *)
Theorem C34_init_given_input :
  forall a0 a1 b0 b1 c y c' u dts, made a0 a1 b0 b1 c -> init_given_u c u = Ok (c', y) ->
  b1 / a0 - a1 * b0 / (a0 * a0) = 0 \/ (tiny <= Rabs (a1 / a0) /\ tiny <= Rabs (b1 / a0 - a1 * b0 / (a0 * a0))) ->
  inside (ymin c) y (ymax c) -> dxmin c <= 0 <= dxmax c -> (forall x, cx c' = Some x -> inside (xmin c) x (xmax c)) ->
  exists c2, hold c' u dts = Ok (c2, repeat y (2 * length dts)) /\ cx c2 = cx c'.
Proof.
  intros a0 a1 b0 b1 c y c' u dts M H S WY D WX. destruct (init_u_rest _ M H S) as (x & Ex & Hd & Hy & X1 & X2 & Y1 & Y2 & D1 & D2 & M').
  destruct (@rest_hold a0 a1 b0 b1 u x dts c' M' Ex Hd) as (c2 & E & E2);
    [rewrite X1, X2; now apply WX|rewrite D1, D2; exact D|]. exists c2. split; [|congruence]. rewrite E, Hy, Y1, Y2, clamp_id by assumption. reflexivity.
Qed.
Print Assumptions C34_init_given_input.
(** init(u, y) chooses the state of init_given_y(y). *)
Theorem C34_init :
  forall c u y c', cb_init c u y = Ok c' <-> exists u', init_given_y c y = Ok (c', u').
Proof. exact init_same. Qed.
Print Assumptions C34_init.

(** Concrete cases: a filter 2/(s + 1) asked for the output 3. *)
Definition ex_filter : cblock := Cb (Some (-1)) (Some 2) (Some 1) (Some 0) None None None (-10) 10 (-10) 10 (-10) 10 PREDICTOR.
Lemma ex_filter_made : made 1 1 0 2 ex_filter.
Proof.
  unfold ex_filter. apply made_set with (c := Cb None None None None None None None (-10) 10 (-10) 10 (-10) 10 PREDICTOR).
  unfold setcoeffs, set_abcd. destruct (Req_EM_T 1 0); [lra|]. cbn. repeat f_equal; field.
Qed.
Lemma abs_ge a : 1 <= a \/ a <= -1 -> ~ Rabs a < tiny.
Proof. unfold tiny, Rabs. intros H. destruct (Rcase_abs a); lra. Qed.
Example C34_nonvacuous :
  made 1 1 0 2 ex_filter /\ exists c', init_given_y ex_filter 3 = Ok (c', 3 / 2) /\ cx c' = Some 3 /\
  (1 = 0 \/ tiny <= Rabs (1 / 1)) /\ inside (ymin ex_filter) 3 (ymax ex_filter) /\ inside (xmin ex_filter) 3 (xmax ex_filter) /\
  dxmin ex_filter <= 0 <= dxmax ex_filter.
Proof.
  split; [exact ex_filter_made|]. unfold init_given_y, ex_filter. cbn [rd obind cA cB cC cD].
  destruct (Rlt_dec (Rabs (-1)) tiny) as [L|L]; [exfalso; revert L; apply abs_ge; lra|]. unfold rdiv.
  destruct (Req_EM_T (0 - 1 * 2 / -1) 0) as [E|E]; [exfalso; lra|]. cbn [obind]. eexists.
  split; [f_equal; f_equal; field|]. split; [cbn; f_equal; field|]. split; [right; apply Rnot_lt_le, abs_ge; lra|]. unfold inside. cbn. lra.
Qed.

(** Findings. The initial state is not limited: a filter with state limits -1..1 asked for the output 3 has the state 3. *)
Theorem C34_init_outside_limits_refuted :
  exists c', init_given_y (setxlimits ex_filter (-1) 1) 3 = Ok (c', 3 / 2) /\ cx c' = Some 3 /\ ~ inside (xmin c') 3 (xmax c').
Proof.
  unfold init_given_y, ex_filter, setxlimits. cbn [rd obind cA cB cC cD].
  destruct (Rlt_dec (Rabs (-1)) tiny) as [L|L]; [exfalso; revert L; apply abs_ge; lra|]. unfold rdiv.
  destruct (Req_EM_T (0 - 1 * 2 / -1) 0) as [E|E]; [exfalso; lra|]. cbn [obind]. eexists.
  split; [f_equal; f_equal; field|]. split; [cbn; f_equal; field|]. unfold inside. cbn. lra.
Qed.
Print Assumptions C34_init_outside_limits_refuted.
(** init ignores the input for a PI controller: asked for output 1 with input 1 and Kp = 1, the output for this input is 2. *)
Theorem C34_init_ignores_input_refuted :
  exists c c' , pi_setparams pi_new 1 1 = Ok c /\ cb_init c 1 1 = Ok c' /\ getoutput1 c' 1 = Ok 2.
Proof.
  unfold pi_setparams, setcoeffs. destruct (Req_EM_T 1 0) as [E|E]; [lra|]. cbn [obind]. eexists. eexists. split; [reflexivity|].
  unfold cb_init. cbn. destruct (Rlt_dec (Rabs (- 0 / 1)) tiny) as [L|L].
  - split; [reflexivity|]. unfold getoutput1, raw_output. cbn. f_equal. replace (1 * 1 + 1 / 1 * 1) with 2 by field.
    apply clamp_id. unfold inside. lra.
  - exfalso. apply L. replace (- 0 / 1) with 0 by field. rewrite Rabs_R0. unfold tiny. lra.
Qed.
Print Assumptions C34_init_ignores_input_refuted.
(** An integrator initialised from a non-zero input is not at rest: its state changes in the first step. *)
Theorem C34_integrator_input_refuted :
  exists c c' y, integrator_setparams integrator_new 1 = Ok c /\ init_given_u c 1 = Ok (c', y) /\ cx c' = Some 0 /\
    getderivative c' 0 1 = Ok 1.
Proof.
  unfold integrator_setparams, setcoeffs. destruct (Req_EM_T 1 0) as [E|E]; [lra|]. cbn [obind]. eexists. eexists. eexists.
  split; [reflexivity|]. unfold init_given_u. cbn.
  destruct (Rlt_dec (Rabs (1 / 1 - 0 * 0 / (1 * 1))) tiny) as [L|L]; [exfalso; revert L; apply abs_ge; lra|].
  destruct (Rlt_dec (Rabs (- 0 / 1)) tiny) as [L2|L2].
  - split; [reflexivity|]. split; [reflexivity|]. unfold getderivative. cbn. f_equal. field.
  - exfalso. apply L2. replace (- 0 / 1) with 0 by field. rewrite Rabs_R0. unfold tiny. lra.
Qed.
Print Assumptions C34_integrator_input_refuted.
(** A block with a very slow pole is treated as an integrator by init_given_y and drifts: a1/a0 = 1e-11, output 1 wanted. *)
Theorem C34_slow_pole_refuted :
  forall c c' u, made 100000000000 1 0 1 c -> init_given_y c 1 = Ok (c', u) -> exists d, getderivative c' 1 u = Ok d /\ d <> 0 /\ cx c' = Some 1.
Proof.
  intros c c' u M H. destruct (made_abcd M) as (N & EA & EB & EC & ED). unfold init_given_y in H. rewrite EA in H. cbn [rd obind] in H.
  destruct (Rlt_dec (Rabs (- (1) / 100000000000)) tiny) as [L|L].
  - inversion H; subst. unfold getderivative. cbn [cA cB set_x]. rewrite EA, EB. cbn [rd obind]. eexists. split; [reflexivity|]. split; [lra|reflexivity].
  - exfalso. apply L. unfold Rabs, tiny. destruct (Rcase_abs _); lra.
Qed.
Print Assumptions C34_slow_pole_refuted.
(** The rate limits given to one call of getoutput replace the limits of the block for all later calls. *)
Theorem C34_rate_limits_kept_refuted :
  forall c u dt xlo xhi dlo dhi ylo yhi st c' y, getoutput_dlim c u dt xlo xhi dlo dhi ylo yhi st false = Ok (c', y) ->
  dxmin c' = dlo /\ dxmax c' = dhi /\ xmin c' = xmin c /\ xmax c' = xmax c /\ ymin c' = ymin c /\ ymax c' = ymax c.
Proof.
  unfold getoutput_dlim. intros * H. apply out_abcd in H. cbn in H. tauto.
Qed.
Print Assumptions C34_rate_limits_kept_refuted.
(** Blocks without limits are limited to 1000: an integrator-free filter 1/(s+1) at input 5000 delivers 1000. *)
Theorem C34_unlimited_block_refuted :
  exists c, filter_setparams filter_new 1 1 = Ok c /\ getoutput1 (set_x c 5000) 5000 = Ok 1000.
Proof.
  unfold filter_setparams, setcoeffs. destruct (Req_EM_T 1 0) as [E|E]; [lra|]. cbn [obind]. eexists. split; [reflexivity|].
  unfold getoutput1, raw_output. cbn. f_equal. apply clamp_hi; lra.
Qed.
Print Assumptions C34_unlimited_block_refuted.
(** The output of the corrector stage read before any predictor stage is memory that was never written. *)
Theorem C34_corrector_first_refuted :
  forall c kp ki c' y u, pi_setparams pi_new kp ki = Ok c -> init_given_y c y = Ok (c', u) ->
  forall dt upd, getoutput c' u dt CORRECTOR upd = UB.
Proof.
  intros c kp ki c' y u H H2 dt upd. unfold pi_setparams, setcoeffs in H. destruct (Req_EM_T 1 0) as [E|E]; [lra|]. cbn [obind] in H.
  inversion H; subst. unfold init_given_y in H2. cbn in H2. destruct (Rlt_dec _ _); [inversion H2; subst; reflexivity|].
  destruct (rdiv _ _); try discriminate. cbn in H2. inversion H2; subst. reflexivity.
Qed.
Print Assumptions C34_corrector_first_refuted.

(** C46: nonlinear control blocks. *)
From Verif Require Import Prelude CbModel CbSpec CbProofs DbModel DbSpec DbProofs.
From Coq Require Import Reals Lra.
Open Scope R_scope.

(** Gain with limits: the output is the gain times the input, limited to the limits set (last call of setparams, or the limits
    given with the call). *)
Theorem C46_gain_limited :
  forall g k lo hi u, lo <= hi ->
  (exists y, gain_out (gain_set3 g k lo hi) u = Ok y /\ limited lo (k * u) hi y) /\
  (forall dlo dhi, exists y, gain_out (gain_set5 g k lo hi dlo dhi) u = Ok y /\ limited lo (k * u) hi y) /\
  (forall lo' hi', lo' <= hi' -> exists g' y, gain_out_lim (gain_set3 g k lo hi) u lo' hi' = Ok (g', y) /\ limited lo' (k * u) hi' y).
Proof.
  intros * L. split; [|split].
  - eexists. split; [reflexivity|]. now apply clamp_limited.
  - intros. eexists. split; [reflexivity|]. now apply clamp_limited.
  - intros. eexists _, _. split; [reflexivity|]. now apply clamp_limited.
Qed.
Print Assumptions C46_gain_limited.

(** Rate limits, for every history of calls of a gain set up with rate limits: every call returns; every output is within the limits;
    and, unless the output of the last step was the reserved value 100000, a call changes the output by at most the rate times the time step,
    and reaches the limited value when the rate allows it. *)
Theorem C46_rate_limits :
  forall g0 k lo hi dlo dhi l, lo <= hi -> 0 <= dhi -> (forall c, In c l -> 0 <= snd (fst c)) ->
  exists g ys, rate_calls (gain_set5 g0 k lo hi dlo dhi) l = Ok (g, ys) /\ length ys = length l /\ (forall y, In y ys -> lo <= y <= hi) /\
  (forall u dt u' dt', 0 <= dt' -> exists g1 y g2 y', gain_out_rate g u dt true = Ok (g1, y) /\ gain_out_rate g1 u' dt' true = Ok (g2, y') /\
     (y <> 100000 ->
        - Rabs dlo * dt' <= y' - y <= dhi * dt' /\
        forall v, limited lo (k * u') hi v -> (- Rabs dlo * dt' <= v - y <= dhi * dt' -> y' = v) /\
           (v - y < - Rabs dlo * dt' -> y' = y - Rabs dlo * dt') /\ (dhi * dt' < v - y -> y' = y + dhi * dt'))).
Proof.
  intros * L D T.
  assert (G0 : rate_gain (gain_set5 g0 k lo hi dlo dhi) k lo hi (Rabs dlo) dhi) by (unfold rate_gain; cbn; auto).
  destruct (rate_calls_ok l G0 (p := 100000) eq_refl) as (g & ys & E & Len). exists g, ys. split; [exact E|]. split; [exact Len|].
  destruct (@rate_calls_in k lo hi (Rabs dlo) dhi l L (Rabs_pos dlo) D T _ 100000 _ _ G0 eq_refl (or_introl eq_refl) E) as (I & p & P & _ & G).
  split; [exact I|]. intros u dt u' dt' Dt.
  destruct (rate_step u dt true G P) as (g1 & E1 & G1 & P1). cbn in P1.
  match type of E1 with _ = Ok (_, ?yy) => set (y := yy) in * end.
  destruct (rate_step u' dt' true G1 P1) as (g2 & E2 & _ & _). cbn zeta in E2.
  exists g1, y, g2. eexists. split; [exact E1|]. split; [exact E2|]. intros N.
  destruct (Req_EM_T y 100000); [contradiction|].
  pose proof (Rabs_pos dlo). assert (A1 : 0 <= Rabs dlo * dt') by now apply Rmult_le_pos. assert (A2 : 0 <= dhi * dt') by now apply Rmult_le_pos.
  assert (HC : forall w, y - Rabs dlo * dt' <= clamp (y - Rabs dlo * dt') w (y + dhi * dt') <= y + dhi * dt') by (intros w; apply clamp_in; lra).
  split; [pose proof (HC (clamp lo (k * u') hi)); lra|].
  intros v V. assert (EV : v = clamp lo (k * u') hi).
  { destruct (clamp_limited (k * u') L) as (B1 & B2 & B3). destruct V as (V1 & V2 & V3).
    destruct (Rlt_dec (k * u') lo); [now rewrite B2, V2|]. destruct (Rlt_dec hi (k * u')); [now rewrite B3, V3|]. rewrite B1, V1; lra. }
  rewrite <- EV. split; [|split]; intros W.
  - apply clamp_id. unfold inside. lra.
  - apply clamp_lo; lra.
  - apply clamp_hi; lra.
Qed.
Print Assumptions C46_rate_limits.

(** Slope: with u0 < u1 the output is ya up to u0, yb from u1 on (a band of 1e-5 counts as the end) and on the line between. *)
Theorem C46_slope :
  forall u0 u1 y0 y1 ya yb u, u0 + 2 * close5 <= u1 -> exists s y, slope_set u0 u1 y0 y1 ya yb = Ok s /\ slope_out s u = Ok y /\
  (u <= u0 -> y = ya) /\ (u1 <= u -> y = yb) /\ (u0 + close5 <= u <= u1 - close5 -> (y - y0) * (u1 - u0) = (y1 - y0) * (u - u0)).
Proof.
  intros * H. assert (C : 0 < close5) by (unfold close5; lra). unfold slope_set, rdiv. destruct (Req_EM_T _ 0) as [Z|Z]; [lra|]. cbn [obind].
  exists (Slope u0 u1 y0 y1 ya yb (Some ((y1 - y0) / (u1 - u0)))). unfold slope_out. cbn [su0 su1 sy0 sy1 sya syb sdydu rd obind].
  destruct (Rlt_dec (u - u0) close5); [|destruct (Rlt_dec (u1 - u) close5)]; eexists; (split; [reflexivity|]); (split; [reflexivity|]);
    (split; [intros; try lra|split; intros; try lra]). field. lra.
Qed.
Print Assumptions C46_slope.

(** Dead band: outside the band the input, inside zero (1e-6 from the ends). *)
Theorem C46_deadband :
  forall u1 u2 u, (u <= u1 -> dead_out u1 u2 u = u) /\ (u2 <= u -> dead_out u1 u2 u = u) /\
  (u1 + close6 < u < u2 - close6 -> dead_out u1 u2 u = 0).
Proof.
  intros. assert (C : 0 < close6) by (unfold close6; lra). unfold dead_out.
  destruct (Rlt_dec close6 (u - u1)); [destruct (Rlt_dec close6 (u2 - u))|]; repeat split; intros; lra.
Qed.
Print Assumptions C46_deadband.

(** Piecewise slope: with m + 1 points of increasing abscissas (m at most 4; further points that do not increase are ignored), given
    the number of points: constant outside the points, otherwise, on a segment containing the input, within 1e-5 of the input of the
    segment's line, exactly on the line 1e-5 away from the ends of the segment, and between the values at the ends of the segment;
    at the points themselves the given values (the last segment being longer than 1e-5). *)
Theorem C46_piecewise_partial :
  forall m us ys, (1 <= m <= 4)%nat -> (m < length us)%nat -> (m < length ys)%nat ->
  ascending (firstn (S m) us) -> unused_after m us ->
  exists p, pw_set pw_new (length us) us ys = Ok p /\
  forall u, exists y, pw_out p u = Ok y /\ (u <= pt us 0 -> y = pt ys 0) /\ (pt us m < u -> y = pt ys m) /\
  (forall i, (i < m)%nat -> u = pt us i -> y = pt ys i) /\ (u = pt us m -> pt us (m - 1) + close5 <= pt us m -> y = pt ys m) /\
  (pt us 0 <= u <= pt us m -> exists i, (i < m)%nat /\ pt us i <= u <= pt us (S i) /\
     Rabs (y - seg_line us ys i u) <= Rabs (seg_slope us ys i) * close5 /\
     (pt us i + close5 <= u <= pt us (S i) - close5 -> y = seg_line us ys i u) /\
     (pt ys i <= pt ys (S i) -> pt ys i <= y <= pt ys (S i)) /\ (pt ys (S i) <= pt ys i -> pt ys (S i) <= y <= pt ys i)).
Proof.
  intros m us ys M LU LY I U.
  assert (H : forall j, (j < m)%nat -> pt us j < pt us (S j)).
  { intros j J. specialize (I j). rewrite firstn_length in I. specialize (I ltac:(lia)). unfold pt in *.
    assert (N : forall k, (k <= m)%nat -> nth k (firstn (S m) us) 0 = nth k us 0).
    { intros k K. rewrite <- (firstn_skipn (S m) us) at 2. rewrite app_nth1; [reflexivity|]. rewrite firstn_length. lia. }
    now rewrite !N in I by lia. }
  destruct (@set_inv us ys m M LU LY H U) as (p & E & Iv). exists p. split; [exact E|]. intros u.
  pose proof (@incr_lt us m H 0%nat m ltac:(lia) ltac:(lia)) as L0.
  destruct (Rlt_dec u (pt us 0)) as [A|A]; [|destruct (Rlt_dec (pt us m) u) as [B|B]].
  - exists (pt ys 0). split; [apply (@out_outside us ys m p u); auto; lia|]. repeat split; intros; try lra.
    subst u. pose proof (@incr_le us m H 0%nat i ltac:(lia) ltac:(lia)). lra.
  - exists (pt ys m). split; [apply (@out_outside us ys m p u); auto; lia|]. repeat split; intros; try lra.
    subst u. pose proof (@incr_le us m H i m ltac:(lia) ltac:(lia)). lra.
  - destruct (@out_inside us ys m p u) as (j & J & UJ & EO & Last); auto; try lia; try lra.
    exists (seg_val us ys j u). split; [exact EO|].
    assert (K : forall i, (i < m)%nat -> u = pt us i -> seg_val us ys j u = pt ys i).
    { intros i Hi ->. destruct (Nat.lt_trichotomy i j) as [N|[->|N]].
      - pose proof (@incr_lt us m H i j N ltac:(lia)). lra.
      - apply seg_val_left.
      - assert (pt us (S j) <= pt us i) by (apply (@incr_le us m H); lia).
        assert (S j = m) by (apply Last; lra). lia. }
    split; [intros; apply K; [lia|lra]|]. split; [intros; lra|]. split; [exact K|]. split.
    + intros -> Lg. assert (S j = m).
      { destruct (Nat.eq_dec (S j) m); [auto|]. assert (pt us (S j) < pt us m) by (apply (@incr_lt us m H); lia). lra. }
      subst m. apply seg_val_right. now rewrite Nat.sub_succ, Nat.sub_0_r in Lg.
    + intros _. exists j. split; [exact J|]. split; [exact UJ|].
      destruct (@seg_val_near us ys j u (H j J) UJ) as (N1 & N2 & N3 & N4). split; [exact N1|]. split; [intros [? ?]; auto|]. auto.
Qed.
Print Assumptions C46_piecewise_partial.

(** Initialisation from the output, for increasing values as well: the input found is the inverse image (clipped to the points). *)
Theorem C46_piecewise_inverse :
  forall m us ys, (1 <= m <= 4)%nat -> (m < length us)%nat -> (m < length ys)%nat ->
  ascending (firstn (S m) us) -> unused_after m us -> ascending (firstn (S m) ys) ->
  exists p, pw_set pw_new (length us) us ys = Ok p /\
  forall y, exists u, pw_init p y = Ok u /\ (y < pt ys 0 -> u = pt us 0) /\ (pt ys m < y -> u = pt us m) /\
  (pt ys 0 <= y <= pt ys m -> exists i, (i < m)%nat /\ pt us i <= u <= pt us (S i) /\ seg_line us ys i u = y).
Proof.
  intros m us ys M LU LY I U IY.
  assert (F : forall l, (m < length l)%nat -> ascending (firstn (S m) l) -> forall j, (j < m)%nat -> pt l j < pt l (S j)).
  { intros l Hl K j J. specialize (K j). rewrite firstn_length in K. specialize (K ltac:(lia)). unfold pt in *.
    assert (N : forall k, (k <= m)%nat -> nth k (firstn (S m) l) 0 = nth k l 0).
    { intros k Hk. rewrite <- (firstn_skipn (S m) l) at 2. rewrite app_nth1; [reflexivity|]. rewrite firstn_length. lia. }
    now rewrite !N in K by lia. }
  pose proof (F us LU I) as H. pose proof (F ys LY IY) as HY.
  destruct (@set_inv us ys m M LU LY H U) as (p & E & Iv). exists p. split; [exact E|]. intros y.
  destruct (@init_all us ys m p y ltac:(lia) Iv HY) as (A & B & C).
  destruct (Rlt_dec y (pt ys 0)) as [L|L]; [|destruct (Rlt_dec (pt ys m) y) as [L'|L']].
  - exists (pt us 0). split; [auto|]. pose proof (@incr_lt ys m HY 0%nat m ltac:(lia) ltac:(lia)). repeat split; intros; lra.
  - exists (pt us m). split; [auto|]. repeat split; intros; lra.
  - destruct C as (j & J & YJ & EI); [lra|]. exists (inv_val us ys j y). split; [exact EI|]. split; [intros; lra|]. split; [intros; lra|].
    intros _. exists j. split; [exact J|]. apply inv_val_on; auto.
Qed.
Print Assumptions C46_piecewise_inverse.

(** Gates: the smaller (LV) or larger (HV) of the input and the limit. *)
Theorem C46_gates : forall lim u, lv_out lim u = Rmin lim u /\ hv_out lim u = Rmax lim u.
Proof.
  intros. unfold lv_out, hv_out, Rmin, Rmax. destruct (Rlt_dec lim u), (Rlt_dec u lim), (Rle_dec lim u); split; lra.
Qed.
Print Assumptions C46_gates.

Ltac dec := repeat (cbn; unfold slope_set, rdiv, slope_out, close5, arr; cbn; match goal with
  | |- context [Rlt_dec ?a ?b] => destruct (Rlt_dec a b); try lra
  | |- context [Rle_dec ?a ?b] => destruct (Rle_dec a b); try lra
  | |- context [Req_EM_T ?a ?b] => destruct (Req_EM_T a b); try lra end).

(** The documented number of segments instead of the number of points: the last segment is ignored. *)
Theorem C46_number_of_segments_refuted :
  exists us ys p y, ascending us /\ pw_set pw_new (length us - 1) us ys = Ok p /\ pw_out p (pt us (length us - 1)) = Ok y /\ y <> pt ys (length us - 1).
Proof.
  exists [0; 1; 2], [0; 1; 5]. unfold pw_set, pw_out, pw_ends, slope_set, rdiv, slope_out, ascending, pt, arr, arr_put, close5.
  dec. eexists _, _. split; [|split; [reflexivity|]].
  - intros [|[|i]] Hi; cbn in *; try lra. lia.
  - cbn. unfold arr. dec. split; [reflexivity|lra].
Qed.
Print Assumptions C46_number_of_segments_refuted.

(** Decreasing points: the output inside is the return value of a variable that was never assigned. *)
Theorem C46_decreasing_refuted :
  exists p, pw_set pw_new 2 [1; 0] [3; 4] = Ok p /\ pw_out p (1/2) = UB.
Proof.
  unfold pw_set, slope_set, rdiv. dec. eexists. split; [reflexivity|]. unfold pw_out, pw_ends, arr. dec. reflexivity.
Qed.
Print Assumptions C46_decreasing_refuted.
(** Falling values over increasing points: initialisation from an output in the range finds an input that gives another output. *)
Theorem C46_falling_inverse_refuted :
  exists p u y, pw_set pw_new 2 [0; 1] [4; 3] = Ok p /\ pw_init p (7/2) = Ok u /\ pw_out p u = Ok y /\ y <> 7/2.
Proof.
  unfold pw_set, slope_set, rdiv. dec. eexists _, 1, 3. split; [reflexivity|]. unfold pw_init, pw_out, pw_ends, arr, slope_out, close5.
  split; [dec; reflexivity|]. split; [dec; reflexivity|lra].
Qed.
Print Assumptions C46_falling_inverse_refuted.
(** Setting the points a second time appends them and overruns the arrays. *)
Theorem C46_setparams_twice_refuted :
  exists p, pw_set pw_new 4 [0; 1; 2; 3] [0; 1; 2; 3] = Ok p /\ pw_set p 4 [0; 1; 2; 3] [0; 1; 2; 3] = UB.
Proof.
  unfold pw_set, slope_set, rdiv. dec. eexists. split; [reflexivity|]. dec. reflexivity.
Qed.
Print Assumptions C46_setparams_twice_refuted.
(** A block before setparams, and rate limited output without rate limits, read memory that was never written. *)
Theorem C46_unset_refuted :
  slope_out slope_new (1/2) = UB /\ pw_out pw_new 0 = UB /\ forall g k lo hi u dt b, gprev g = None -> gain_out_rate (gain_set3 g k lo hi) u dt b = UB.
Proof. unfold slope_out, close5. split; [dec; reflexivity|]. split; [reflexivity|]. intros. unfold gain_out_rate. cbn. now rewrite H. Qed.
Print Assumptions C46_unset_refuted.
(** An output of exactly 100000 is taken for "no output yet": the next step ignores the rate limits. *)
Theorem C46_sentinel_refuted :
  exists g1 g2 y, gain_out_rate (gain_set5 gain_new 1 0 100000 (-1) 1) 100000 1 true = Ok (g1, 100000) /\
  gain_out_rate g1 0 1 true = Ok (g2, y) /\ y <> 100000 - 1 /\ y = 0.
Proof.
  assert (R1 : Rabs (-1) = 1) by (rewrite Rabs_left; lra).
  unfold gain_out_rate, gain_set5, gain_new. cbn [gymin gymax gK gdymin gdymax gprev gain_out rd obind]. unfold gain_out.
  cbn [gymin gymax gK gdymin gdymax gprev rd obind]. rewrite R1.
  assert (E : clamp 0 (1 * 100000) 100000 = 100000) by (apply clamp_hi; lra). rewrite E.
  assert (E' : clamp 0 (1 * 0) 100000 = 0) by (rewrite clamp_id; unfold inside; lra). 
  destruct (Req_EM_T 100000 100000); [|lra]. rewrite clamp_id by (unfold inside; lra). eexists _, _, _. split; [reflexivity|].
  cbn [gymin gymax gK gdymin gdymax gprev rd obind]. destruct (Req_EM_T 100000 100000); [|lra]. rewrite E'. rewrite clamp_id by (unfold inside; lra).
  split; [reflexivity|]. split; lra.
Qed.
Print Assumptions C46_sentinel_refuted.
(** Limits given with one call stay in force for later calls without limits. *)
Theorem C46_call_limits_stay_refuted :
  exists g y y', gain_out_lim (gain_set3 gain_new 1 (-10) 10) 5 0 1 = Ok (g, y) /\ gain_out g 5 = Ok y' /\ y' = 1 /\ gain_out (gain_set3 gain_new 1 (-10) 10) 5 = Ok 5.
Proof.
  eexists _, _, _. split; [reflexivity|]. split; [reflexivity|]. split; [apply clamp_hi; lra|]. cbn.
  unfold gain_out. cbn. f_equal. rewrite clamp_id; [lra|unfold inside; lra].
Qed.
Print Assumptions C46_call_limits_stay_refuted.

(** Non-vacuity: a voltage dependent limit with three segments and one unused point. *)
Example C46_piecewise_nonvacuous :
  let us := [1; 2; 4; 5; 0] in let ys := [0; 3; 3; 1; 0] in
  (1 <= 3 <= 4)%nat /\ (3 < length us)%nat /\ (3 < length ys)%nat /\ ascending (firstn 4 us) /\ unused_after 3 us /\
  seg_line us ys 0 (3/2) = 3/2 /\ seg_line us ys 2 (9/2) = 2.
Proof.
  cbn zeta. split; [lia|]. split; [cbn; lia|]. split; [cbn; lia|]. split; [|split].
  - intros [|[|[|i]]] Hi; unfold pt; cbn in *; try lra. lia.
  - intros [|[|[|[|i]]]] Hi HL; unfold pt; cbn in *; try lra; lia.
  - unfold seg_line, seg_slope, pt. cbn. split; field.
Qed.
Example C46_inverse_nonvacuous : ascending (firstn 4 [1; 2; 4; 5; 0]) /\ ascending (firstn 4 [0; 3; 4; 8; 0]).
Proof. split; intros [|[|[|i]]] Hi; unfold pt; cbn in *; try lra; lia. Qed.
Example C46_rate_nonvacuous : exists c : R * R * bool, In c [(3, 1/2, true); (5, 1/2, false)] /\ (forall c, In c [(3, 1/2, true); (5, 1/2, false)] -> 0 <= snd (fst c)).
Proof. eexists. split; [now left|]. intros c [<-|[<-|[]]]; cbn; lra. Qed.

From Verif Require Import Prelude CbModel CbSpec CbProofs DbModel DbSpec.
From Coq Require Import Reals Lra.
Open Scope R_scope.

Lemma clamp_limited lo v hi : lo <= hi -> limited lo v hi (clamp lo v hi).
Proof. unfold limited, clamp, cmax, cmin. intros. destruct (Rlt_dec hi v), (Rlt_dec lo _); repeat split; intros; lra. Qed.

(** *** rate limited gain *)
Definition rate_gain (g : gain) (k lo hi dlo dhi : R) : Prop :=
  gK g = Some k /\ gymin g = Some lo /\ gymax g = Some hi /\ gdymin g = Some dlo /\ gdymax g = Some dhi.
Lemma rate_step g k lo hi dlo dhi p u dt b : rate_gain g k lo hi dlo dhi -> gprev g = Some p ->
  let y := clamp lo (k * u) hi in let q := if Req_EM_T p 100000 then y else p in
  let out := clamp (q - dlo * dt) y (q + dhi * dt) in
  exists g', gain_out_rate g u dt b = Ok (g', out) /\ rate_gain g' k lo hi dlo dhi /\ gprev g' = Some (if b then out else q).
Proof.
  intros (A & B & C & D & E) P y q out. unfold gain_out_rate, gain_out. rewrite A, B, C, P, D, E. cbn [rd obind].
  eexists. split; [reflexivity|]. unfold rate_gain. cbn. auto 7.
Qed.
Lemma clamp_between lo hi p a b y : 0 <= a -> 0 <= b -> lo <= p <= hi -> lo <= y <= hi -> lo <= clamp (p - a) y (p + b) <= hi.
Proof. unfold clamp, cmax, cmin. intros. destruct (Rlt_dec (p + b) y), (Rlt_dec (p - a) _); lra. Qed.

Lemma rate_calls_ok k lo hi dlo dhi l : forall g p, rate_gain g k lo hi dlo dhi -> gprev g = Some p ->
  exists g' ys, rate_calls g l = Ok (g', ys) /\ length ys = length l.
Proof.
  induction l as [|[[u dt] b] l IH]; intros g p G P; cbn [rate_calls]; [eauto|].
  destruct (rate_step u dt b G P) as (g1 & E1 & G1 & P1). rewrite E1. cbn [obind fst snd].
  destruct (IH _ _ G1 P1) as (g2 & ys & E2 & L). rewrite E2. cbn [obind fst snd]. eexists _, _. split; [reflexivity|]. cbn. now rewrite L.
Qed.
(** outputs within the limits; the stored previous output too *)
Lemma rate_calls_in k lo hi dlo dhi l : lo <= hi -> 0 <= dlo -> 0 <= dhi -> (forall c, In c l -> 0 <= snd (fst c)) ->
  forall g p g' ys, rate_gain g k lo hi dlo dhi -> gprev g = Some p -> (p = 100000 \/ lo <= p <= hi) ->
  rate_calls g l = Ok (g', ys) -> (forall y, In y ys -> lo <= y <= hi) /\ exists p', gprev g' = Some p' /\ (p' = 100000 \/ lo <= p' <= hi) /\ rate_gain g' k lo hi dlo dhi.
Proof.
  intros L D1 D2. induction l as [|[[u dt] b] l IH]; intros T g p g' ys G P B H; cbn [rate_calls] in H.
  - inversion H; subst. split; [now intros ? []|eauto].
  - destruct (rate_step u dt b G P) as (g1 & E1 & G1 & P1). rewrite E1 in H. cbn [obind fst snd] in H.
    destruct (rate_calls g1 l) as [[g2 ys2]| |] eqn:E2; try discriminate. cbn [obind fst snd] in H. inversion H; subst; clear H.
    set (y := clamp lo (k * u) hi) in *. set (q := if Req_EM_T p 100000 then y else p) in *.
    assert (Dt : 0 <= dt) by (apply (T (u, dt, b)); now left).
    assert (Hy : lo <= y <= hi) by (apply clamp_in; auto).
    assert (Hq : lo <= q <= hi) by (unfold q; destruct (Req_EM_T p 100000); [exact Hy|destruct B; [contradiction|auto]]).
    assert (Ho : lo <= clamp (q - dlo * dt) y (q + dhi * dt) <= hi)
      by (apply clamp_between; auto; now apply Rmult_le_pos).
    destruct (IH (fun c I => T c (or_intror I)) g1 (if b then clamp (q - dlo * dt) y (q + dhi * dt) else q) g' ys2 G1 P1) as [I1 I2].
    + right. destruct b; auto.
    + exact E2.
    + split; [intros z [<-|Z]; auto|exact I2].
Qed.

(** *** piecewise slopes *)
Lemma arr_put_ok {A} (l : list A) i v : (i < length l)%nat -> arr_put l i v = Ok (upd l i v).
Proof. intros H. unfold arr_put. now rewrite (proj2 (Nat.ltb_lt _ _) H). Qed.
Lemma inp_ok l i : (i < length l)%nat -> inp l i = Ok (pt l i).
Proof. intros H. unfold inp, pt. destruct (nth_error l i) eqn:E; [now rewrite (nth_error_nth _ _ _ E)|]. apply nth_error_None in E. lia. Qed.

Definition seg (us ys : list R) (i : nat) : slope :=
  Slope (pt us i) (pt us (S i)) (pt ys i) (pt ys (S i)) (pt ys i) (pt ys (S i)) (Some (seg_slope us ys i)).
Record Inv (us ys : list R) (m : nat) (p : pw) : Prop := {
  I_lu : length (pu p) = 5%nat; I_ly : length (py p) = 5%nat; I_ls : length (psl p) = 4%nat; I_n : pn p = m; I_inc : pinc p = true;
  I_u : forall j, (0 < m)%nat -> (j <= m)%nat -> nth_error (pu p) j = Some (Some (pt us j));
  I_y : forall j, (0 < m)%nat -> (j <= m)%nat -> nth_error (py p) j = Some (Some (pt ys j));
  I_s : forall j, (j < m)%nat -> nth_error (psl p) j = Some (seg us ys j) }.

Lemma loop_unused us ys k : forall i p, pinc p = true -> (i + k < length us)%nat ->
  (forall j, (i <= j)%nat -> (S j < length us)%nat -> pt us (S j) <= pt us j) -> pw_loop us ys k i p = Ok p.
Proof.
  induction k as [|k IH]; intros i p C L H; [reflexivity|]. cbn [pw_loop]. rewrite !inp_ok by lia. cbn [obind]. rewrite C.
  pose proof (H i ltac:(lia) ltac:(lia)). destruct (Rlt_dec _ _); [lra|]. apply IH; auto; [lia|]. intros; apply H; lia.
Qed.
Lemma upd2_nth (l : list (option R)) i a b j : (S i < length l)%nat ->
  nth_error (upd (upd l i a) (S i) b) j = if (j =? S i)%nat then Some b else if (j =? i)%nat then Some a else nth_error l j.
Proof.
  intros H. destruct (Nat.eqb_spec j (S i)) as [->|N].
  - apply nth_error_upd_same. now rewrite upd_length.
  - rewrite nth_error_upd_other by auto. destruct (Nat.eqb_spec j i) as [->|N'].
    + apply nth_error_upd_same. lia.
    + now apply nth_error_upd_other; auto.
Qed.
Lemma loop_inv us ys k : forall i p, Inv us ys i p -> (i + k <= 4)%nat -> (i + k < length us)%nat -> (i + k < length ys)%nat ->
  (forall j, (j < i + k)%nat -> pt us j < pt us (S j)) -> forall k2, 
  exists p', Inv us ys (i + k) p' /\ pw_loop us ys (k + k2) i p = pw_loop us ys k2 (i + k) p'.
Proof.
  induction k as [|k IH]; intros i p I B LU LY H k2.
  - exists p. rewrite Nat.add_0_r. auto.
  - cbn [pw_loop Nat.add]. rewrite (@inp_ok us i), (@inp_ok us (S i)) by lia. cbn [obind]. rewrite (I_inc I).
    pose proof (H i ltac:(lia)) as Hi. destruct (Rlt_dec (pt us i) (pt us (S i))) as [_|]; [|contradiction].
    rewrite (@inp_ok ys i), (@inp_ok ys (S i)) by lia. cbn [obind]. rewrite (I_n I).
    repeat (rewrite arr_put_ok by (rewrite ?upd_length, ?(I_lu I), ?(I_ly I); lia); cbn [obind]).
    unfold slope_set, rdiv. destruct (Req_EM_T _ 0) as [Z|_]; [lra|]. cbn [obind].
    rewrite arr_put_ok by (rewrite (I_ls I); lia). cbn [obind].
    replace (i + S k)%nat with (S i + k)%nat in * by lia.
    apply IH; auto; try lia. constructor; cbn [pu py psl pn pinc].
    + rewrite !upd_length. apply (I_lu I).
    + rewrite !upd_length. apply (I_ly I).
    + rewrite upd_length. apply (I_ls I).
    + reflexivity.
    + reflexivity.
    + intros j _ Hj. rewrite upd2_nth by (rewrite (I_lu I); lia).
      destruct (Nat.eqb_spec j (S i)) as [->|N]; [reflexivity|]. destruct (Nat.eqb_spec j i) as [->|N']; [reflexivity|].
      apply (I_u I); lia.
    + intros j _ Hj. rewrite upd2_nth by (rewrite (I_ly I); lia).
      destruct (Nat.eqb_spec j (S i)) as [->|N]; [reflexivity|]. destruct (Nat.eqb_spec j i) as [->|N']; [reflexivity|].
      apply (I_y I); lia.
    + intros j Hj. destruct (Nat.eq_dec j i) as [->|N].
      * apply nth_error_upd_same. rewrite (I_ls I). lia.
      * rewrite nth_error_upd_other by auto. apply (I_s I); lia.
Qed.

Lemma set_inv us ys m : (1 <= m <= 4)%nat -> (m < length us)%nat -> (m < length ys)%nat ->
  (forall j, (j < m)%nat -> pt us j < pt us (S j)) -> unused_after m us ->
  exists p, pw_set pw_new (length us) us ys = Ok p /\ Inv us ys m p.
Proof.
  intros M LU LY H U. unfold pw_set. rewrite !inp_ok by lia. cbn [obind].
  destruct (Rlt_dec (pt us 0) (pt us 1)) as [_|N]; [|exfalso; apply N; apply H; lia].
  replace (length us - 1)%nat with (m + (length us - 1 - m))%nat by lia.
  destruct (@loop_inv us ys m 0 (Pw (pu pw_new) (py pw_new) (psl pw_new) (pn pw_new) true)) with (k2 := (length us - 1 - m)%nat) as (p & I & E); try (cbn; lia); auto.
  - constructor; try reflexivity; cbn; intros; lia.
  - cbn [Nat.add] in *. exists p. split; [|exact I].
    etransitivity; [exact E|]. apply loop_unused; [apply (I_inc I)|lia|]. intros j Hj HL. apply U; lia.
Qed.

Lemma incr_le us m : (forall j, (j < m)%nat -> pt us j < pt us (S j)) -> forall i j, (i <= j)%nat -> (j <= m)%nat -> pt us i <= pt us j.
Proof.
  intros H i j Hij. induction Hij as [|j Hij IH]; intros Hm; [lra|]. pose proof (H j ltac:(lia)). pose proof (IH ltac:(lia)). lra.
Qed.
Lemma incr_lt us m : (forall j, (j < m)%nat -> pt us j < pt us (S j)) -> forall i j, (i < j)%nat -> (j <= m)%nat -> pt us i < pt us j.
Proof. intros H i j Hij Hm. pose proof (H i ltac:(lia)). pose proof (@incr_le us m H (S i) j Hij Hm). lra. Qed.
Lemma locate us m u : (1 <= m)%nat -> (forall j, (j < m)%nat -> pt us j < pt us (S j)) -> pt us 0 <= u <= pt us m ->
  exists i, (i < m)%nat /\ pt us i <= u <= pt us (S i).
Proof.
  induction m as [|m IH]; intros M H U; [lia|]. destruct (Rle_dec (pt us m) u) as [L|L].
  - exists m. split; [lia|lra].
  - destruct m as [|m]; [lra|]. destruct IH as (i & A & B); [lia|intros; apply H; lia|lra|]. exists i. split; [lia|auto].
Qed.

(** what a segment gives at u *)
Definition seg_val (us ys : list R) (i : nat) (u : R) : R :=
  if Rlt_dec (u - pt us i) close5 then pt ys i else if Rlt_dec (pt us (S i) - u) close5 then pt ys (S i) else seg_line us ys i u.
Lemma slope_out_seg us ys i u : slope_out (seg us ys i) u = Ok (seg_val us ys i u).
Proof. unfold slope_out, seg_val, seg. cbn. destruct (Rlt_dec _ _); [reflexivity|]. destruct (Rlt_dec _ _); reflexivity. Qed.

(** the last segment containing u *)
Fixpoint last_seg (us : list R) (u : R) (k i : nat) : option nat :=
  match k with
  | O => None
  | S k => match last_seg us u k (S i) with Some j => Some j
           | None => if Rle_dec (pt us i) u then if Rle_dec u (pt us (S i)) then Some i else None else None end
  end.
Lemma out_loop us ys m p u : Inv us ys m p -> forall k i acc, (i + k = m)%nat ->
  pw_out_loop p u k i acc = Ok (match last_seg us u k i with Some j => Some (seg_val us ys j u) | None => acc end).
Proof.
  intros I. induction k as [|k IH]; intros i acc E; [reflexivity|]. cbn [pw_out_loop last_seg].
  unfold arr. rewrite (I_u I) by lia. cbn [rd obind].
  destruct (Rle_dec (pt us i) u) as [L|L].
  - rewrite (I_u I) by lia. cbn [rd obind]. destruct (Rle_dec u (pt us (S i))) as [L'|L'].
    + rewrite (I_s I) by lia. rewrite slope_out_seg. cbn [obind]. rewrite IH by lia. destruct (last_seg us u k (S i)); reflexivity.
    + rewrite IH by lia. destruct (last_seg us u k (S i)); reflexivity.
  - rewrite IH by lia. destruct (last_seg us u k (S i)); reflexivity.
Qed.
Lemma last_seg_some us u k : forall i j, last_seg us u k i = Some j -> (i <= j < i + k)%nat /\ pt us j <= u <= pt us (S j) /\
  forall l, (j < l < i + k)%nat -> ~ (pt us l <= u <= pt us (S l)).
Proof.
  induction k as [|k IH]; intros i j E; cbn [last_seg] in E; [discriminate|].
  destruct (last_seg us u k (S i)) as [j'|] eqn:F.
  - inversion E; subst. destruct (IH _ _ F) as (A & B & C). split; [lia|split; [auto|]]. intros l Hl. apply C. lia.
  - destruct (Rle_dec _ _); [|discriminate]. destruct (Rle_dec _ _); [|discriminate]. inversion E; subst. split; [lia|split; [lra|]].
    intros l Hl. clear - F Hl. revert F. assert (Hl' : (S j <= l < S j + k)%nat) by lia. clear Hl. revert Hl'. generalize (S j) as i. clear j.
    induction k as [|k IH]; intros i Hl F; [lia|]. cbn [last_seg] in F. destruct (last_seg us u k (S i)) eqn:G; [discriminate|].
    destruct (Nat.eq_dec l i) as [->|N]; [|apply (IH (S i)); auto; lia]. intros [A B].
    destruct (Rle_dec _ _); [|contradiction]. destruct (Rle_dec _ _); [discriminate|contradiction].
Qed.
Lemma last_seg_none us u k : forall i, last_seg us u k i = None -> forall l, (i <= l < i + k)%nat -> ~ (pt us l <= u <= pt us (S l)).
Proof.
  induction k as [|k IH]; intros i F l Hl; [lia|]. cbn [last_seg] in F. destruct (last_seg us u k (S i)) eqn:G; [discriminate|].
  destruct (Nat.eq_dec l i) as [->|N]; [|apply (IH (S i)); auto; lia]. intros [A B].
  destruct (Rle_dec _ _); [|contradiction]. destruct (Rle_dec _ _); [discriminate|contradiction].
Qed.

Lemma out_outside us ys m p u : (1 <= m)%nat -> Inv us ys m p -> (forall j, (j < m)%nat -> pt us j < pt us (S j)) ->
  (u < pt us 0 -> pw_out p u = Ok (pt ys 0)) /\ (pt us m < u -> pw_out p u = Ok (pt ys m)).
Proof.
  intros M I H. unfold pw_out, pw_ends, arr. rewrite (I_n I), (I_inc I), !(I_u I), !(I_y I) by lia. cbn [rd obind].
  pose proof (@incr_lt us m H 0%nat m ltac:(lia) ltac:(lia)) as L.
  split; intros U.
  - destruct (Rle_dec (pt us m) u); [lra|]. destruct (Rle_dec u (pt us 0)); [|lra]. cbn [obind]. rewrite (out_loop u I) by lia.
    destruct (last_seg us u m 0) as [j|] eqn:E; [|reflexivity]. apply last_seg_some in E. destruct E as (A & B & _).
    pose proof (@incr_le us m H 0%nat j ltac:(lia) ltac:(lia)). lra.
  - destruct (Rle_dec (pt us m) u); [|lra]. cbn [obind]. rewrite (out_loop u I) by lia.
    destruct (last_seg us u m 0) as [j|] eqn:E; [|reflexivity]. apply last_seg_some in E. destruct E as (A & B & _).
    pose proof (@incr_le us m H (S j) m ltac:(lia) ltac:(lia)). lra.
Qed.
Lemma out_inside us ys m p u : (1 <= m)%nat -> Inv us ys m p -> (forall j, (j < m)%nat -> pt us j < pt us (S j)) ->
  pt us 0 <= u <= pt us m -> exists j, (j < m)%nat /\ pt us j <= u <= pt us (S j) /\ pw_out p u = Ok (seg_val us ys j u) /\
  (u = pt us (S j) -> S j = m).
Proof.
  intros M I H U. destruct (last_seg us u m 0) as [j|] eqn:E.
  - pose proof (last_seg_some _ _ _ _ E) as (A & B & C). exists j. split; [lia|]. split; [exact B|]. split.
    + unfold pw_out, pw_ends, arr. rewrite (I_n I), (I_inc I), !(I_u I), !(I_y I) by lia. cbn [rd obind].
      destruct (Rle_dec (pt us m) u); [|destruct (Rle_dec u (pt us 0))]; cbn [obind]; rewrite (out_loop u I) by lia; rewrite E; reflexivity.
    + intros ->. destruct (Nat.eq_dec (S j) m) as [|N]; [auto|]. exfalso. apply (C (S j)); [lia|]. pose proof (H (S j) ltac:(lia)). lra.
  - destruct (@locate _ m _ M H U) as (i & A & B). exfalso. apply (@last_seg_none _ _ m 0%nat E i); [lia|exact B].
Qed.

Lemma seg_slope_pos us ys i : pt us i < pt us (S i) -> seg_slope us ys i * (pt us (S i) - pt us i) = pt ys (S i) - pt ys i.
Proof. intros H. unfold seg_slope. field. lra. Qed.
Lemma abs_mul_le s d : 0 <= d <= close5 -> Rabs (s * d) <= Rabs s * close5.
Proof. intros H. rewrite Rabs_mult. apply Rmult_le_compat_l; [apply Rabs_pos|]. rewrite Rabs_pos_eq; lra. Qed.
Lemma seg_val_near us ys i u : pt us i < pt us (S i) -> pt us i <= u <= pt us (S i) ->
  Rabs (seg_val us ys i u - seg_line us ys i u) <= Rabs (seg_slope us ys i) * close5 /\
  (pt us i + close5 <= u -> u <= pt us (S i) - close5 -> seg_val us ys i u = seg_line us ys i u) /\
  (pt ys i <= pt ys (S i) -> pt ys i <= seg_val us ys i u <= pt ys (S i)) /\
  (pt ys (S i) <= pt ys i -> pt ys (S i) <= seg_val us ys i u <= pt ys i).
Proof.
  intros H U. pose proof (@seg_slope_pos us ys i H) as E. unfold seg_val. set (s := seg_slope us ys i) in *.
  assert (C : 0 < close5) by (unfold close5; lra).
  assert (LU : pt ys (S i) - seg_line us ys i u = s * (pt us (S i) - u)) by (unfold seg_line; fold s; lra).
  assert (LL : seg_line us ys i u - pt ys i = s * (u - pt us i)) by (unfold seg_line; fold s; lra).
  assert (Sp : pt ys i <= pt ys (S i) -> 0 <= s).
  { intros. unfold s, seg_slope. apply Rmult_le_pos; [lra|]. left. apply Rinv_0_lt_compat. lra. }
  assert (Sn : pt ys (S i) <= pt ys i -> 0 <= - s).
  { intros. replace (- s) with ((pt ys i - pt ys (S i)) / (pt us (S i) - pt us i)) by (unfold s, seg_slope; field; lra).
    apply Rmult_le_pos; [lra|]. left. apply Rinv_0_lt_compat. lra. }
  destruct (Rlt_dec (u - pt us i) close5) as [L1|L1]; [|destruct (Rlt_dec (pt us (S i) - u) close5) as [L2|L2]].
  - split; [rewrite Rabs_minus_sym; rewrite LL; apply abs_mul_le; lra|]. split; [intros; lra|]. split; intros; lra.
  - split; [rewrite LU; apply abs_mul_le; lra|]. split; [intros; lra|]. split; intros; lra.
  - split; [rewrite Rminus_eq_0, Rabs_R0; apply Rmult_le_pos; [apply Rabs_pos|lra]|]. split; [auto|].
    assert (P1 : 0 <= s -> 0 <= s * (u - pt us i) /\ 0 <= s * (pt us (S i) - u)) by (intros; split; apply Rmult_le_pos; lra).
    assert (P2 : 0 <= - s -> 0 <= - s * (u - pt us i) /\ 0 <= - s * (pt us (S i) - u)) by (intros; split; apply Rmult_le_pos; lra).
    split; intros Y; [destruct (P1 (Sp Y))|destruct (P2 (Sn Y))]; lra.
Qed.
Lemma seg_val_left us ys i : seg_val us ys i (pt us i) = pt ys i.
Proof. unfold seg_val. destruct (Rlt_dec _ _) as [|N]; [reflexivity|]. exfalso. apply N. unfold close5. lra. Qed.
Lemma seg_val_right us ys i : pt us i + close5 <= pt us (S i) -> seg_val us ys i (pt us (S i)) = pt ys (S i).
Proof.
  intros L. unfold seg_val. assert (0 < close5) by (unfold close5; lra). destruct (Rlt_dec _ _) as [|N]; [lra|].
  destruct (Rlt_dec _ _); [reflexivity|lra].
Qed.

(** *** the inverse *)
Definition inv_val (us ys : list R) (i : nat) (y : R) : R := pt us i + (pt us (S i) - pt us i) / (pt ys (S i) - pt ys i) * (y - pt ys i).
Lemma inv_loop us ys m p y : Inv us ys m p -> (forall j, (j < m)%nat -> pt ys j < pt ys (S j)) -> forall k i acc, (i + k = m)%nat ->
  pw_inv_loop p y k i acc = Ok (match last_seg ys y k i with Some j => Some (inv_val us ys j y) | None => acc end).
Proof.
  intros I H. induction k as [|k IH]; intros i acc E; [reflexivity|]. cbn [pw_inv_loop last_seg].
  unfold arr. rewrite (I_y I) by lia. cbn [rd obind].
  destruct (Rle_dec (pt ys i) y) as [L|L].
  - rewrite !(I_y I) by lia. cbn [rd obind]. destruct (Rle_dec y (pt ys (S i))) as [L'|L'].
    + rewrite !(I_u I) by lia. cbn [rd obind]. unfold rdiv. pose proof (H i ltac:(lia)). destruct (Req_EM_T _ 0); [lra|]. cbn [obind].
      rewrite IH by lia. destruct (last_seg ys y k (S i)); reflexivity.
    + rewrite IH by lia. destruct (last_seg ys y k (S i)); reflexivity.
  - rewrite IH by lia. destruct (last_seg ys y k (S i)); reflexivity.
Qed.
Lemma init_all us ys m p y : (1 <= m)%nat -> Inv us ys m p -> (forall j, (j < m)%nat -> pt ys j < pt ys (S j)) ->
  (y < pt ys 0 -> pw_init p y = Ok (pt us 0)) /\ (pt ys m < y -> pw_init p y = Ok (pt us m)) /\
  (pt ys 0 <= y <= pt ys m -> exists j, (j < m)%nat /\ pt ys j <= y <= pt ys (S j) /\ pw_init p y = Ok (inv_val us ys j y)).
Proof.
  intros M I H. unfold pw_init, arr. rewrite (I_n I), (I_inc I), !(I_u I), !(I_y I) by lia. cbn [rd obind].
  pose proof (@incr_lt ys m H 0%nat m ltac:(lia) ltac:(lia)) as L. split; [|split]; intros U.
  - destruct (Rle_dec (pt ys m) y); [lra|]. destruct (Rle_dec y (pt ys 0)); [|lra]. cbn [obind]. rewrite (inv_loop y I H) by lia.
    destruct (last_seg ys y m 0) as [j|] eqn:E; [|reflexivity]. apply last_seg_some in E. destruct E as (A & B & _).
    pose proof (@incr_le ys m H 0%nat j ltac:(lia) ltac:(lia)). lra.
  - destruct (Rle_dec (pt ys m) y); [|lra]. cbn [obind]. rewrite (inv_loop y I H) by lia.
    destruct (last_seg ys y m 0) as [j|] eqn:E; [|reflexivity]. apply last_seg_some in E. destruct E as (A & B & _).
    pose proof (@incr_le ys m H (S j) m ltac:(lia) ltac:(lia)). lra.
  - destruct (last_seg ys y m 0) as [j|] eqn:E.
    + pose proof (last_seg_some _ _ _ _ E) as (A & B & C). exists j. split; [lia|]. split; [exact B|].
      destruct (Rle_dec (pt ys m) y); [|destruct (Rle_dec y (pt ys 0))]; cbn [obind]; rewrite (inv_loop y I H) by lia; rewrite E; reflexivity.
    + destruct (@locate _ m _ M H U) as (i & A & B). exfalso. apply (@last_seg_none _ _ m 0%nat E i); [lia|exact B].
Qed.
Lemma inv_val_on us ys i y : pt us i < pt us (S i) -> pt ys i < pt ys (S i) -> pt ys i <= y <= pt ys (S i) ->
  pt us i <= inv_val us ys i y <= pt us (S i) /\ seg_line us ys i (inv_val us ys i y) = y.
Proof.
  intros HU HY Y. unfold inv_val, seg_line, seg_slope. split; [|field; lra].
  set (q := (pt us (S i) - pt us i) / (pt ys (S i) - pt ys i)).
  assert (Q : 0 <= q) by (apply Rmult_le_pos; [lra|left; apply Rinv_0_lt_compat; lra]).
  assert (E : q * (pt ys (S i) - pt ys i) = pt us (S i) - pt us i) by (unfold q; field; lra).
  assert (0 <= q * (y - pt ys i)) by (apply Rmult_le_pos; lra). assert (0 <= q * (pt ys (S i) - y)) by (apply Rmult_le_pos; lra). lra.
Qed.

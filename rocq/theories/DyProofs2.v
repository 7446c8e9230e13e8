(** Proofs: angles, saturation and the steady state of the machines. *)
From Coq Require Import Reals Lra.
From Coquelicot Require Import Complex.
From Verif Require Import Prelude CbModel CbSpec CbProofs DbModel DyModel DySpec DyProofs.
Open Scope R_scope.

(** ** atan2 *)
Lemma sqrt_scale x y : 0 < x -> sqrt (x * x + y * y) = x * sqrt (1 + Rsqr (y / x)).
Proof.
  intros H. apply sqrt_lem_1; [nra|apply Rmult_le_pos; [lra|apply sqrt_pos]|].
  transitivity (x * x * (sqrt (1 + Rsqr (y / x)) * sqrt (1 + Rsqr (y / x)))); [ring|].
  rewrite sqrt_sqrt by (pose proof (Rle_0_sqr (y / x)); lra). unfold Rsqr. field. lra.
Qed.
Lemma sqrt1_pos u : 0 < sqrt (1 + Rsqr u).
Proof. apply sqrt_lt_R0. pose proof (Rle_0_sqr u). lra. Qed.
Lemma atan2_polar x y : sqrt (x * x + y * y) * cos (atan2 y x) = x /\ sqrt (x * x + y * y) * sin (atan2 y x) = y.
Proof.
  unfold atan2. destruct (Rlt_dec 0 x) as [H|H].
  - rewrite cos_atan, sin_atan, (sqrt_scale y H). pose proof (sqrt1_pos (y / x)). split; field; lra.
  - destruct (Rlt_dec x 0) as [L|L].
    + assert (X : 0 < - x) by lra. pose proof (sqrt1_pos (y / x)).
      assert (E : sqrt (x * x + y * y) = - x * sqrt (1 + Rsqr (y / x))).
      { replace (x * x) with (- x * - x) by ring. rewrite (sqrt_scale y X). do 2 f_equal. replace (y / - x) with (- (y / x)) by (field; lra). now rewrite <- Rsqr_neg. }
      destruct (Rle_dec 0 y).
      * rewrite neg_cos, neg_sin, cos_atan, sin_atan, E. split; field; lra.
      * replace (atan (y / x) - PI) with (- (PI - atan (y / x))) by ring. rewrite cos_neg, sin_neg.
        replace (PI - atan (y / x)) with (- atan (y / x) + PI) by ring. rewrite neg_cos, neg_sin, cos_neg, sin_neg, cos_atan, sin_atan, E. split; field; lra.
    + assert (x = 0) by lra. subst x. replace (0 * 0 + y * y) with (Rsqr y) by (unfold Rsqr; ring). rewrite sqrt_Rsqr_abs.
      destruct (Rlt_dec 0 y); [|destruct (Rlt_dec y 0)].
      * rewrite cos_PI2, sin_PI2, Rabs_right by lra. lra.
      * rewrite cos_neg, sin_neg, cos_PI2, sin_PI2, Rabs_left by lra. lra.
      * assert (y = 0) by lra. subst y. rewrite Rabs_R0. lra.
Qed.
Lemma Cmod_polar (v : C) : Cmod v * cos (atan2 (snd v) (fst v)) = fst v /\ Cmod v * sin (atan2 (snd v) (fst v)) = snd v.
Proof. pose proof (atan2_polar (fst v) (snd v)) as A. unfold Cmod. replace (fst v ^ 2 + snd v ^ 2) with (fst v * fst v + snd v * snd v) by ring. exact A. Qed.
Lemma cis_atan2 (v : C) : (cis (atan2 (snd v) (fst v)) * RtoC (Cmod v))%C = v.
Proof.
  destruct (Cmod_polar v) as [A B]. unfold cis, RtoC, Cmult. destruct v as [a b]. cbn [fst snd] in *.
  set (m := Cmod (a, b)) in *. set (t := atan2 b a) in *. clearbody m t. f_equal; nra.
Qed.
Lemma Cmod_phasor m t : 0 <= m -> Cmod (m * cos t, m * sin t) = m.
Proof.
  intros H. unfold Cmod. cbn [fst snd]. pose proof (sin2_cos2 t) as S. unfold Rsqr in S. apply sqrt_lem_1; [nra|exact H|]. 
  replace ((m * cos t) ^ 2 + (m * sin t) ^ 2) with (m * m * (sin t * sin t + cos t * cos t)) by ring. rewrite S. ring.
Qed.

(** ** Saturation *)
Definition sat_a (s10 s12 : R) : R := let r := s12 / s10 in (2 * r - 2.4 - 0.4 * sqrt r) / (2 * (r - 1)).
Lemma ratio_gt s10 s12 : 0 < s10 < s12 -> 1 < s12 / s10.
Proof. intros [A B]. apply Rmult_lt_reg_r with s10; auto. unfold Rdiv. rewrite Rmult_assoc, Rinv_l by lra. lra. Qed.
Lemma sqrt_disc r : 1 < r -> sqrt ((-2 * r + 2.4) * (-2 * r + 2.4) - 4 * (r - 1) * (r - 1.44)) = 0.4 * sqrt r.
Proof.
  intros H. replace ((-2 * r + 2.4) * (-2 * r + 2.4) - 4 * (r - 1) * (r - 1.44)) with ((0.4 * 0.4) * r) by lra.
  rewrite sqrt_mult by lra. rewrite sqrt_square by lra. reflexivity.
Qed.
Lemma sat_a_1 s10 s12 : 0 < s10 < s12 -> sat_a s10 s12 < 1.
Proof.
  intros H. pose proof (ratio_gt H) as G. unfold sat_a. set (r := s12 / s10) in *. cbv zeta. apply Rmult_lt_reg_r with (2 * (r - 1)); [lra|].
  unfold Rdiv. rewrite Rmult_assoc, Rinv_l by lra. pose proof (sqrt_pos r). lra.
Qed.
Lemma gen_sat_ok s10 s12 x : 0 < s10 < s12 ->
  gen_sat s10 s12 x = Ok (s10 / ((1 - sat_a s10 s12) * (1 - sat_a s10 s12)) * (if Rlt_dec (x - sat_a s10 s12) 0 then 0 else x - sat_a s10 s12) * (if Rlt_dec (x - sat_a s10 s12) 0 then 0 else x - sat_a s10 s12)).
Proof.
  intros H. pose proof (ratio_gt H) as G. pose proof (sat_a_1 H) as A1. unfold gen_sat. rewrite !rdiv_ok by lra. cbn [obind].
  replace (-2 * s12 / s10) with (-2 * (s12 / s10)) by (field; lra). set (r := s12 / s10) in *.
  assert (D : rsqrt ((-2 * r + 2.4) * (-2 * r + 2.4) - 4 * (r - 1) * (r - 1.44)) = Ok (0.4 * sqrt r)).
  { unfold rsqrt. destruct (Rlt_dec _ _); [exfalso; nra|]. now rewrite sqrt_disc. }
  rewrite D. cbn [obind]. rewrite rdiv_ok by lra. cbn [obind].
  replace ((- (-2 * r + 2.4) - 0.4 * sqrt r) / (2 * (r - 1))) with (sat_a s10 s12) by (unfold sat_a; fold r; cbv zeta; field; lra).
  rewrite rdiv_ok by (apply Rmult_integral_contrapositive; split; lra). reflexivity.
Qed.
Theorem gen_sat_points s10 s12 : 0 < s10 < s12 -> gen_sat s10 s12 1 = Ok s10 /\ gen_sat s10 s12 1.2 = Ok s12.
Proof.
  intros H. pose proof (ratio_gt H) as G. pose proof (sat_a_1 H) as A1. rewrite !gen_sat_ok by auto. split; f_equal.
  - destruct (Rlt_dec _ _); [lra|]. field. lra.
  - destruct (Rlt_dec _ _); [lra|]. 
    assert (Q : (1.2 - sat_a s10 s12) = sqrt (s12 / s10) * (1 - sat_a s10 s12)).
    { pose proof (sqrt_sqrt (s12 / s10) ltac:(lra)) as S. unfold sat_a. set (r := s12 / s10) in *. set (q := sqrt r) in *. clearbody q r. rewrite <- S. replace 1.2 with (12 / 10) by lra. replace 2.4 with (24 / 10) by lra. replace 0.4 with (4 / 10) by lra. field. nra. }
    rewrite Q. replace (s10 / ((1 - sat_a s10 s12) * (1 - sat_a s10 s12)) * (sqrt (s12 / s10) * (1 - sat_a s10 s12)) * (sqrt (s12 / s10) * (1 - sat_a s10 s12)))
      with (s10 * (sqrt (s12 / s10) * sqrt (s12 / s10))) by (field; lra).
    rewrite sqrt_sqrt by lra. field. lra.
Qed.
Lemma gen_sat_curve p x : 0 < g_S10 p < g_S12 p -> exists s, gen_sat (g_S10 p) (g_S12 p) x = Ok s /\ sat_curve p x s.
Proof.
  intros H. rewrite gen_sat_ok by exact H. eexists. split; [reflexivity|]. pose proof (sat_a_1 H) as A1. destruct (gen_sat_points H) as [P1 P2]. rewrite gen_sat_ok in P1, P2 by exact H.
  set (a := sat_a (g_S10 p) (g_S12 p)) in *. set (b := g_S10 p / ((1 - a) * (1 - a))) in *. exists a, b. split; [exact A1|].
  destruct (Rlt_dec (1 - a) 0); [lra|]. destruct (Rlt_dec (1.2 - a) 0); [lra|]. split; [injection P1; auto|]. split; [injection P2; auto|].
  destruct (Rlt_dec (x - a) 0); split; intros; lra.
Qed.
Lemma sal_sat_ok p : sat_ok false p -> forall x, exists s, sal_sat p x = Ok s /\ sat_curve p x s.
Proof. intros [[D _]|H] x; [discriminate|]. now apply gen_sat_curve. Qed.
Lemma rou_sat_ok p : sat_ok true p -> forall x, exists s, rou_sat p x = Ok s /\ sat_maybe p x s.
Proof.
  unfold rou_sat, sat_maybe, small6. intros H x. destruct (Rlt_dec _ _) as [L|L]; [eauto|]. destruct H as [[_ H]|H]; [contradiction|].
  destruct (@gen_sat_curve p x H) as (s & A & B). eauto.
Qed.

(** ** The axes of a machine *)
Lemma cross r X Y c s : r * c = X -> r * s = Y -> X * s - Y * c = 0.
Proof. intros <- <-. ring. Qed.
Section Axes.
  Variables (p : gpar) (P Q mag ang : R).
  Hypothesis (Hm : 0 < mag).
  Let vr := mag * cos ang.
  Let vi := mag * sin ang.
  Let ir := fst (g_cur P Q mag ang).
  Let ii := snd (g_cur P Q mag ang).
  Let d := g_delta p ir ii mag ang.
  Let id := to_d ir ii d.
  Let iq := to_q ir ii d.
  Let vdt := to_d vr vi d.
  Let vqt := to_q vr vi d.
  Lemma v2 : vr * vr + vi * vi = mag * mag.
  Proof. unfold vr, vi. pose proof (sin2_cos2 ang) as S. unfold Rsqr in S. replace (mag * cos ang * (mag * cos ang) + mag * sin ang * (mag * sin ang)) with (mag * mag * (sin ang * sin ang + cos ang * cos ang)) by ring. rewrite S. ring. Qed.
  Lemma cs : sin d * sin d + cos d * cos d = 1.
  Proof. pose proof (sin2_cos2 d) as S. exact S. Qed.
  Lemma pq_back : vr * ir + vi * ii = P /\ vi * ir - vr * ii = Q.
  Proof.
    unfold ir, ii, g_cur. cbn [fst snd]. fold vr vi. pose proof v2 as E. split.
    - replace (vr * ((P * vr + Q * vi) / (mag * mag)) + vi * ((P * vi - Q * vr) / (mag * mag))) with (P * ((vr * vr + vi * vi) / (mag * mag))) by (field; lra).
      rewrite E. field. lra.
    - replace (vi * ((P * vr + Q * vi) / (mag * mag)) - vr * ((P * vi - Q * vr) / (mag * mag))) with (Q * ((vr * vr + vi * vi) / (mag * mag))) by (field; lra).
      rewrite E. field. lra.
  Qed.
  Lemma re_back a b : to_re (to_d a b d) (to_q a b d) d = a /\ to_im (to_d a b d) (to_q a b d) d = b.
  Proof. unfold to_re, to_im, to_d, to_q. pose proof cs as E. split; [transitivity (a * (sin d * sin d + cos d * cos d))|transitivity (b * (sin d * sin d + cos d * cos d))]; try ring; rewrite E; ring. Qed.
  Lemma dq_prod a b c e : to_d a b d * to_d c e d + to_q a b d * to_q c e d = a * c + b * e.
  Proof. unfold to_d, to_q. pose proof cs as E. transitivity ((a * c + b * e) * (sin d * sin d + cos d * cos d)); [ring|rewrite E; ring]. Qed.
  (** The rotor angle: the voltage behind Ra + j Xq is on the q axis. *)
  Lemma d_axis : vdt + g_Ra p * id - g_Xq p * iq = 0.
  Proof.
    pose proof (atan2_polar (vr + ir * g_Ra p - ii * g_Xq p) (vi + ir * g_Xq p + ii * g_Ra p)) as [C S]. fold d in C, S.
    unfold vdt, id, iq, to_d, to_q. 
    assert (Z : (vr + ir * g_Ra p - ii * g_Xq p) * sin d - (vi + ir * g_Xq p + ii * g_Ra p) * cos d = 0).
    { exact (cross C S). }
    lra.
  Qed.
  Lemma q_axis : exists r, 0 <= r /\ vr + ir * g_Ra p - ii * g_Xq p = r * cos d /\ vi + ir * g_Xq p + ii * g_Ra p = r * sin d.
  Proof.
    pose proof (atan2_polar (vr + ir * g_Ra p - ii * g_Xq p) (vi + ir * g_Xq p + ii * g_Ra p)) as [C S]. fold d in C, S.
    eexists. split; [|split; symmetry; [exact C|exact S]]. apply sqrt_pos.
  Qed.
  Hypothesis (Hz : g_Ra p * g_Ra p + g_Xdpp p * g_Xdpp p <> 0).
  (** The internal voltages of the steady state *)
  Let vd := vdt + g_Ra p * id - g_Xdpp p * iq.
  Let vq := vqt + g_Ra p * iq + g_Xdpp p * id.
  Lemma cur_back m a : m * cos a = vr -> m * sin a = vi -> g_Id p vd vq d m a = id /\ g_Iq p vd vq d m a = iq.
  Proof.
    intros E1 E2. unfold g_Id, g_Iq. rewrite E1, E2. fold vdt vqt. unfold vd, vq, g_G, g_B. split; field; exact Hz.
  Qed.
  Lemma norton_back : g_norton_cur p vd vq d = (((g_G p * vr - g_B p * vi) + ir) * g_base p / g_sb p, ((g_G p * vi + g_B p * vr) + ii) * g_base p / g_sb p).
  Proof.
    unfold g_norton_cur. 
    assert (A : vd * g_G p - vq * g_B p = (vdt * g_G p - vqt * g_B p) + id) by (unfold vd, vq, g_G, g_B; field; exact Hz).
    assert (B : vd * g_B p + vq * g_G p = (vdt * g_B p + vqt * g_G p) + iq) by (unfold vd, vq, g_G, g_B; field; exact Hz).
    rewrite A, B. destruct (re_back vr vi) as [E1 E2]. destruct (re_back ir ii) as [E3 E4]. fold vdt vqt in E1, E2. fold id iq in E3, E4.
    cbv zeta. f_equal; f_equal; f_equal.
    - transitivity (g_G p * to_re vdt vqt d - g_B p * to_im vdt vqt d + to_re id iq d); [unfold to_re, to_im; ring|]. rewrite E1, E2, E3. ring.
    - transitivity (g_G p * to_im vdt vqt d + g_B p * to_re vdt vqt d + to_im id iq d); [unfold to_re, to_im; ring|]. rewrite E1, E2, E4. ring.
  Qed.
  Lemma power_axes : (vqt + g_Ra p * iq) * iq + (vdt + g_Ra p * id) * id = P + g_Ra p * (ir * ir + ii * ii).
  Proof.
    pose proof (dq_prod vr vi ir ii) as A. pose proof (dq_prod ir ii ir ii) as B. fold vdt vqt id iq in A, B. destruct pq_back as [E _].
    rewrite <- E, <- A, <- B. ring.
  Qed.
End Axes.

(** The current in the specification *)
Lemma stator_cur P Q mag ang : 0 < mag -> stator_current P Q (mag * cos ang, mag * sin ang) = g_cur P Q mag ang.
Proof.
  intros H. pose proof (@v2 mag ang) as E. unfold stator_current, g_cur, Cdiv, Cinv, Cconj, Cmult. cbn [fst snd].
  set (a := mag * cos ang) in *. set (b := mag * sin ang) in *. replace (a ^ 2 + b ^ 2) with (mag * mag) by (rewrite <- E; ring). f_equal; field; lra.
Qed.
Lemma Cmod_sq (z : C) : Cmod z * Cmod z = fst z * fst z + snd z * snd z.
Proof. unfold Cmod. rewrite sqrt_sqrt by nra. ring. Qed.

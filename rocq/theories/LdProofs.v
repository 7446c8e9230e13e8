From Verif Require Import Prelude LdModel LdSpec.
From Coq Require Import Reals Lra.
From Coquelicot Require Import Complex.
Open Scope R_scope.

Lemma quarter : 4 * atan 1 = PI. Proof. rewrite atan_1. field. Qed.

Lemma kp_fades : fades (7 / 10) kp.
Proof.
  pose proof PI_RGT_0 as P. unfold kp. rewrite quarter. split; [|split].
  - destruct (Rlt_dec 0 (7 / 10)); [|lra]. replace (PI * 0 / (7 / 10)) with 0 by field. rewrite cos_0. lra.
  - intros v H. destruct (Rlt_dec v (7 / 10)); lra.
  - intros v w H1 H2 H3. destruct (Rlt_dec v (7 / 10)); [|lra].
    assert (A : forall x, 0 <= x -> x <= 7 / 10 -> 0 <= PI * x / (7 / 10) <= PI).
    { intros x X1 X2. split.
      - apply Rmult_le_pos; [apply Rmult_le_pos; lra|lra].
      - replace (PI * x / (7 / 10)) with (PI * (x / (7 / 10))) by (unfold Rdiv; ring).
        rewrite <- (Rmult_1_r PI) at 2. apply Rmult_le_compat_l; lra. }
    assert (B : PI * v / (7 / 10) < PI * w / (7 / 10)).
    { unfold Rdiv. apply Rmult_lt_compat_r; [lra|]. apply Rmult_lt_compat_l; lra. }
    destruct (A v) as [A1 A2]; [lra|lra|]. destruct (A w) as [A3 A4]; [lra|lra|].
    pose proof (cos_decreasing_1 _ _ A1 A2 A3 A4 B) as D.
    destruct (Rlt_dec w (7 / 10)); [lra|]. replace w with (7 / 10) in * by lra.
    replace (PI * (7 / 10) / (7 / 10)) with PI in D by field. rewrite cos_PI in D. lra.
Qed.

Lemma ki_fades : fades (7 / 10) ki.
Proof.
  pose proof PI_RGT_0 as P. unfold ki. rewrite quarter. split; [|split].
  - destruct (Rlt_dec 0 (7 / 10)); [|lra]. replace (PI * 0 / 2 / (7 / 10)) with 0 by field. apply sin_0.
  - intros v H. destruct (Rlt_dec v (7 / 10)); lra.
  - intros v w H1 H2 H3. destruct (Rlt_dec v (7 / 10)); [|lra].
    assert (A : forall x, 0 <= x -> x <= 7 / 10 -> - (PI / 2) <= PI * x / 2 / (7 / 10) <= PI / 2).
    { intros x X1 X2. split.
      - apply Rle_trans with 0; [lra|]. apply Rmult_le_pos; [apply Rmult_le_pos; [apply Rmult_le_pos; lra|lra]|lra].
      - replace (PI * x / 2 / (7 / 10)) with (PI / 2 * (x / (7 / 10))) by (unfold Rdiv; ring).
        rewrite <- (Rmult_1_r (PI / 2)) at 2. apply Rmult_le_compat_l; lra. }
    assert (B : PI * v / 2 / (7 / 10) < PI * w / 2 / (7 / 10)).
    { unfold Rdiv. apply Rmult_lt_compat_r; [lra|]. apply Rmult_lt_compat_r; [lra|]. apply Rmult_lt_compat_l; lra. }
    destruct (A v) as [A1 A2]; [lra|lra|]. destruct (A w) as [A3 A4]; [lra|lra|].
    pose proof (sin_increasing_1 _ _ A1 A2 A3 A4 B) as D.
    destruct (Rlt_dec w (7 / 10)); [lra|]. replace w with (7 / 10) in * by lra.
    replace (PI * (7 / 10) / 2 / (7 / 10)) with (PI / 2) in D by field. rewrite sin_PI2 in D. lra.
Qed.

Lemma fades_range : forall top k v, 0 < top -> fades top k -> 0 <= v -> 0 <= k v <= 1.
Proof.
  intros top k v T (Z & O & M) H. assert (K : k top = 1) by (apply O; lra).
  destruct (Rle_dec top v) as [G|G]; [rewrite (O v G); lra|].
  assert (k v < k top) by (apply M; lra).
  destruct (Req_dec v 0) as [->|E]; [lra|]. assert (k 0 < k v) by (apply M; lra). lra.
Qed.

Lemma power_high : forall s0 vt v f m, 7 / 10 <= vt -> power s0 vt v f m = law s0 v f m.
Proof.
  intros s0 vt v f m H. unfold power, law, kp, ki. destruct (Rlt_dec vt (7 / 10)); [lra|]. ring.
Qed.

Lemma cmod_sq : forall V : C, Cmod V * Cmod V = fst V * fst V + snd V * snd V.
Proof.
  intros [x y]. unfold Cmod. cbn [fst snd]. rewrite sqrt_sqrt; [ring|]. nra.
Qed.

Lemma cmod_conj : forall V : C, (RtoC (Cmod V) * RtoC (Cmod V))%C = (V * Cconj V)%C.
Proof.
  intros V. rewrite <- RtoC_mult, cmod_sq. destruct V as (x, y). unfold RtoC, Cmult, Cconj. cbn [fst snd]. f_equal; ring.
Qed.

Lemma conj_minus : forall a b : C, Cconj (a - b)%C = (Cconj a - Cconj b)%C.
Proof. intros (a, b) (c, d). unfold Cconj, Cminus, Cplus, Copp. cbn [fst snd]. f_equal; ring. Qed.
Lemma conj_conj : forall a : C, Cconj (Cconj a) = a.
Proof. intros (a, b). unfold Cconj. cbn [fst snd]. f_equal; ring. Qed.
Lemma conj_mult : forall a b : C, Cconj (a * b)%C = (Cconj a * Cconj b)%C.
Proof. intros (a, b) (c, d). unfold Cconj, Cmult. cbn [fst snd]. f_equal; ring. Qed.

Lemma drawn_power : forall s f (V : C), V <> RtoC 0 ->
  drawn (ynort s) (injection s f V) V =
  (power (p0 s) (Cmod V) (Cmod V / vinit s) f (mp s), power (q0 s) (Cmod V) (Cmod V / vinit s) f (mq s)).
Proof.
  intros s f V N. unfold drawn, injection.
  set (P := power (p0 s) _ _ _ _). set (Q := power (q0 s) _ _ _ _).
  rewrite cmod_conj.
  rewrite conj_minus, conj_conj, conj_mult.
  set (W := Cconj V). set (Z := Cconj (ynort s)). clearbody P Q W Z. field. exact N.
Qed.

Lemma law_start : forall s0 m, sh1 m + sh2 m + sh3 m = 1 -> law s0 1 1 m = s0.
Proof.
  intros s0 m H. unfold law, Rpower. rewrite ln_1, !Rmult_0_r, exp_0. 
  replace (sh1 m * 1 + sh2 m * 1 + sh3 m * 1) with 1 by lra. ring.
Qed.

Lemma law_sum : forall s0 m, law s0 1 1 m = s0 * (sh1 m + sh2 m + sh3 m).
Proof. intros s0 m. unfold law, Rpower. rewrite ln_1, !Rmult_0_r, exp_0. ring. Qed.

Lemma shares_one : forall a b c, a + b + c = 1 -> shares a b c = (1, 0, 0).
Proof.
  intros a b c H. unfold shares. rewrite H. destruct (Rlt_dec 0 1); [|lra].
  replace (1 - 1) with 0 by ring. rewrite Rabs_R0. destruct (Rlt_dec (1 / 1000000) 0); [lra|reflexivity].
Qed.

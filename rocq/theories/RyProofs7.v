(** Proofs for C60: the frequency of a bus. *)
From Verif Require Import Prelude DyModel DyProofs2 RyModel RySpec RyProofs RyProofs2 RyProofs3 RyProofs4 RyProofs5 RyProofs6.
From Coq Require Import Reals Lra.
From Coquelicot Require Import Complex.
Open Scope R_scope.

Lemma atan2_range y x : - PI < atan2 y x <= PI.
Proof.
  assert (P := PI_RGT_0). assert (B := atan_bound (y / x)). unfold atan2. destruct (Rlt_dec 0 x); [lra |]. destruct (Rlt_dec x 0) as [L | L].
  - destruct (Rle_dec 0 y) as [Y | Y].
    + assert (A : atan (y / x) <= 0). { rewrite <- atan_0. destruct (Req_dec y 0) as [-> | N]; [unfold Rdiv; rewrite Rmult_0_l; lra |]. left. apply atan_increasing. unfold Rdiv. assert (/ x < 0) by now apply Rinv_lt_0_compat. nra. } lra.
    + assert (A : 0 < atan (y / x)). { rewrite <- atan_0. apply atan_increasing. unfold Rdiv. assert (/ x < 0) by now apply Rinv_lt_0_compat. nra. } lra.
  - destruct (Rlt_dec 0 y); [lra |]. destruct (Rlt_dec y 0); lra.
Qed.
Lemma atan2_cs m a : 0 < m -> cos (atan2 (snd (polar m a)) (fst (polar m a))) = cos a /\ sin (atan2 (snd (polar m a)) (fst (polar m a))) = sin a.
Proof.
  intros M. destruct (Cmod_polar (polar m a)) as [A B]. assert (E : Cmod (polar m a) = m).
  { unfold Cmod, polar. cbn [fst snd]. replace ((m * cos a) ^ 2 + (m * sin a) ^ 2) with (m ^ 2). { rewrite <- Rsqr_pow2. apply sqrt_Rsqr. lra. } assert (H := sin2_cos2 a). unfold Rsqr in H. replace ((m * cos a) ^ 2 + (m * sin a) ^ 2) with (m ^ 2 * (sin a * sin a + cos a * cos a)) by ring. rewrite H. ring. }
  rewrite E in A, B. set (t := atan2 _ _) in *. unfold polar in A, B. cbn [fst snd] in A, B. split; nra.
Qed.
Lemma cos_one d : cos d = 1 -> exists k : Z, d = IZR k * (2 * PI).
Proof.
  intros H. assert (S : sin (d / 2) = 0). { replace d with (2 * (d / 2)) in H by field. rewrite cos_2a_sin in H. assert (Q : sin (d / 2) * sin (d / 2) = 0) by lra. now apply Rsqr_0_uniq. }
  destruct (sin_eq_0_0 _ S) as [k E]. exists k. lra.
Qed.
(** The angle difference is found if it is less than ten degrees. *)
Lemma unwrapped m0 t0 m t : 0 < m0 -> 0 < m -> Rabs (t - t0) < PI / 18 ->
  let a0 := atan2 (snd (polar m0 t0)) (fst (polar m0 t0)) in let a := atan2 (snd (polar m t)) (fst (polar m t)) in
  (if Rlt_dec (170 / 180 * PI) a0 then (if Rlt_dec a 0 then a + 2 * PI else a) else if Rlt_dec a0 (-170 / 180 * PI) then (if Rlt_dec 0 a then a - 2 * PI else a) else a) - a0 = t - t0.
Proof.
  intros M0 M D a0 a. assert (P := PI_RGT_0). destruct (atan2_cs t0 M0) as [C0 S0]. destruct (atan2_cs t M) as [C1 S1]. assert (R0 := atan2_range (snd (polar m0 t0)) (fst (polar m0 t0))). assert (R1 := atan2_range (snd (polar m t)) (fst (polar m t))). fold a0 in C0, S0, R0. fold a in C1, S1, R1. clearbody a0 a.
  apply Rabs_def2 in D. destruct D as [D1 D2]. assert (K : exists k : Z, (a - a0) - (t - t0) = IZR k * (2 * PI)).
  { apply cos_one. replace (a - a0 - (t - t0)) with ((a - t) - (a0 - t0)) by ring. rewrite cos_minus, !cos_minus, !sin_minus. rewrite C0, S0, C1, S1. assert (H0 := sin2_cos2 t0). assert (H1 := sin2_cos2 t). unfold Rsqr in H0, H1. replace (cos t * cos t + sin t * sin t) with 1 by lra. replace (cos t0 * cos t0 + sin t0 * sin t0) with 1 by lra. ring. }
  destruct K as [k K]. assert (B1 : IZR k < 2) by nra. assert (B2 : -2 < IZR k) by nra. apply lt_IZR in B1. apply lt_IZR in B2. assert (k = -1 \/ k = 0 \/ k = 1)%Z as [-> | [-> | ->]] by lia.
  - destruct (Rlt_dec _ a0); [destruct (Rlt_dec a 0); lra |]. destruct (Rlt_dec a0 _); [destruct (Rlt_dec 0 a); lra | lra].
  - destruct (Rlt_dec _ a0); [destruct (Rlt_dec a 0); lra |]. destruct (Rlt_dec a0 _); [destruct (Rlt_dec 0 a); lra | lra].
  - destruct (Rlt_dec _ a0); [destruct (Rlt_dec a 0); lra |]. destruct (Rlt_dec a0 _); [destruct (Rlt_dec 0 a); lra | lra].
Qed.
Lemma frequency_eq dt fold m0 t0 m t : 0 < dt -> 0 < m0 -> 0 < m -> Rabs (t - t0) < PI / 18 ->
  frequency dt fold (polar m0 t0) (polar m t) = true_frequency (t - t0) dt + lag dt * (fold - true_frequency (t - t0) dt).
Proof.
  intros D M0 M A. assert (P := PI_RGT_0). unfold frequency. cbn zeta. replace (4 * atan 1) with PI by (rewrite atan_1; field). assert (U := @unwrapped m0 t0 m t M0 M A). cbn zeta in U. rewrite U. unfold true_frequency, lag. field. split; lra.
Qed.

(** ** The frequency in a run *)
Lemma bus_update_freq dt b : rb_cf b = true -> rb_gens b <> [] ->
  rb_f (fst (bus_update dt b)) = frequency dt (rb_fold b) (rb_vold b) (rb_v b) /\ rb_v (fst (bus_update dt b)) = rb_v b /\ rb_cf (fst (bus_update dt b)) = true.
Proof.
  intros Cf G. unfold bus_update. destruct (load_relays _ _ _ _ _) as [[ls y] t]. replace (0 <? length (rb_gens b))%nat with true by (destruct (rb_gens b); [congruence | reflexivity]). unfold compute_freq. rewrite Cf.
  destruct (all_gens _ _ _ _) as [[gs y'] t']. cbn [fst rb_f rb_v rb_cf set_freq]. auto.
Qed.
Lemma step_bus_eq dt first V s k b0 : all_ok s -> nth_error (s_bus s) k = Some b0 ->
  (forall j c, (j < k)%nat -> nth_error (s_bus (relay_step dt first V s)) j = Some c -> rb_trip c = false) ->
  exists d, nth_error (s_bus (relay_step dt first V s)) k = Some (old_volt d) /\
    unmarked d = unmarked (fst (bus_update dt (compute_freq dt (if first then old_volt (set_volts (V k) b0) else set_volts (V k) b0)))).
Proof.
  intros Ok E0 N. destruct (step_buses dt first V s) as (b1 & b2 & fb & b3 & ls & fl & E1 & E2 & E3 & R). rewrite R in *. cbn [s_bus] in *. clear R.
  assert (LU := update_lines_unmarked dt (s_line s) 0 false b2). rewrite E3 in LU. cbn [fst snd] in LU. assert (P := prepared dt first V (s_bus s) k). rewrite <- E1, E0 in P. cbn [option_map] in P. set (c1 := compute_freq dt _) in *.
  assert (Ok1 : forall c, In c b1 -> bus_ok c). { intros c I. apply In_nth_error in I. destruct I as [j Ej]. rewrite E1, prepared in Ej. destruct (nth_error (s_bus s) j) as [d |] eqn:Ed; [| discriminate]. cbn [option_map] in Ej. injection Ej as <-. eapply same_bus_ok; [apply prepared_same |]. apply Ok. eapply nth_error_In; eauto. }
  assert (US := @update_buses_seen dt b1 k c1 P). rewrite E2 in US. cbn [fst] in US. assert (B2 : nth_error b2 k = Some (fst (bus_update dt c1))).
  { apply US; [| exact Ok1]. intros j c L Ec. symmetry in LU. destruct (@unmarked_nth _ _ _ _ LU Ec) as (d & Ed & Ud). destruct (unmarked_parts Ud) as (_ & _ & _ & _ & _ & _ & _ & _ & _ & Q5). rewrite <- Q5. specialize (N j (old_volt d) L). rewrite nth_error_map, Ed in N. exact (N eq_refl). }
  symmetry in LU. destruct (@unmarked_nth _ _ _ _ LU B2) as (d & Ed & Ud). exists d. rewrite nth_error_map, Ed. split; [reflexivity | exact Ud].
Qed.
(** What a step does with the frequency of bus [k]: two updates with the same voltages. *)
Lemma step_freq dt first V s k b0 : all_ok s -> nth_error (s_bus s) k = Some b0 -> rb_cf b0 = true -> rb_gens b0 <> [] ->
  (forall j c, (j < k)%nat -> nth_error (s_bus (relay_step dt first V s)) j = Some c -> rb_trip c = false) ->
  exists b, nth_error (s_bus (relay_step dt first V s)) k = Some b /\ rb_cf b = true /\ rb_gens b <> [] /\ rb_v b = V k /\ rb_vold b = V k /\ rb_fold b = rb_f b /\
    (let vo := if first then V k else rb_vold b0 in let fo := if first then rb_f b0 else rb_fold b0 in rb_f b = frequency dt (frequency dt fo vo (V k)) vo (V k)).
Proof.
  intros Ok E0 Cf G N. destruct (@step_bus_eq dt first V s k b0 Ok E0 N) as (d & Ed & Ud). destruct (@step_seen dt first V s k b0 Ok E0 N) as (d2 & Ed2 & _ & Gd). rewrite Ed in Ed2. injection Ed2 as <-. exists (old_volt d). split; [exact Ed |].
  destruct (unmarked_parts Ud) as (Q1 & _ & Q3 & _ & Q5 & _). set (c0 := if first then old_volt (set_volts (V k) b0) else set_volts (V k) b0) in *. assert (C0 : rb_cf c0 = true) by (unfold c0; destruct first; exact Cf). assert (EC : compute_freq dt c0 = set_freq c0 (frequency dt (rb_fold c0) (rb_vold c0) (rb_v c0))) by (unfold compute_freq; now rewrite C0).
  rewrite EC in *. destruct (@bus_update_freq dt (set_freq c0 (frequency dt (rb_fold c0) (rb_vold c0) (rb_v c0)))) as (F1 & F2 & F3); [exact C0 | unfold c0; destruct first; exact G |]. cbn [old_volt rb_cf rb_gens rb_v rb_vold rb_fold rb_f] in *. rewrite Q5, Q1, Q3. split; [exact F3 |]. split.
  { rewrite Gd. unfold gens_seen. destruct (rb_gens b0); [congruence | discriminate]. }
  assert (V0 : rb_v c0 = V k) by (unfold c0; destruct first; reflexivity). rewrite F2. cbn [set_freq rb_v]. split; [exact V0 |]. split; [exact V0 |]. split; [reflexivity |]. rewrite F1. cbn [set_freq rb_fold rb_vold rb_v]. unfold c0. destruct first; reflexivity.
Qed.
Lemma second_freq dt V s k b0 : nth_error (s_bus s) k = Some b0 -> rb_cf b0 = true ->
  exists b, nth_error (s_bus (second_solution dt V s)) k = Some b /\ rb_cf b = true /\ rb_gens b = rb_gens b0 /\ rb_vold b = rb_vold b0 /\ rb_fold b = frequency dt (rb_fold b0) (rb_vold b0) (V k).
Proof.
  intros E Cf. cbn [second_solution s_bus]. rewrite nth_error_map, with_volts_nth, E. cbn [option_map Nat.add]. eexists. split; [reflexivity |]. unfold compute_freq. cbn [set_volts rb_cf]. rewrite Cf. cbn. auto.
Qed.
Lemma turning_next k t d V Vs : turning k t d (V :: Vs) -> turning k (t + d) d Vs.
Proof.
  intros H i W E. destruct (H (S i) W E) as (m1 & m2 & A & B & C1 & C2). exists m1, m2. split; [exact A |]. split; [exact B |]. rewrite C1, C2. split; f_equal; rewrite ?S_INR; ring.
Qed.
Lemma run_freq dt k d Vs : 0 < dt -> Rabs d < PI / 18 -> forall s b0 t m0 n s' b, all_ok s -> nth_error (s_bus s) k = Some b0 -> rb_cf b0 = true -> rb_gens b0 <> [] -> 0 < m0 -> rb_vold b0 = polar m0 (t - d) -> turning k t d Vs ->
  (forall i si j c, (i <= n)%nat -> nth_error (steps dt false Vs s) i = Some si -> (j < k)%nat -> nth_error (s_bus si) j = Some c -> rb_trip c = false) ->
  nth_error (steps dt false Vs s) n = Some s' -> nth_error (s_bus s') k = Some b ->
  rb_f b = true_frequency d dt + lag dt ^ (3 * n + 2) * (rb_fold b0 - true_frequency d dt).
Proof.
  intros D A. induction Vs as [| [V1 V2] Vs IH]; intros s b0 t m0 n s' b Ok E0 Cf G M0 Vo T N En Eb; [destruct n; discriminate |]. cbn [steps] in N, En.
  destruct (T 0%nat _ eq_refl) as (m1 & m2 & P1 & P2 & W1 & W2). cbn [fst snd INR] in W1, W2. rewrite Rmult_0_l, Rplus_0_r in W1. rewrite Rmult_1_l in W2.
  destruct (@step_freq dt false V1 s k b0 Ok E0 Cf G) as (c & Ec & Cc & Gc & Vc & Voc & Foc & Fc); [intros j c L Ec; exact (N 0%nat _ j c ltac:(lia) eq_refl L Ec) |]. cbn zeta in Fc. rewrite Vo, W1 in Fc.
  assert (Dt : t - (t - d) = d) by ring. rewrite !frequency_eq in Fc by (rewrite ?Dt; auto). rewrite Dt in Fc. destruct n as [| n].
  - cbn in En. injection En as <-. rewrite Ec in Eb. injection Eb as <-. rewrite Fc. cbn [Nat.mul Nat.add pow]. ring.
  - cbn [nth_error] in En. destruct (@second_freq dt V2 _ k c Ec Cc) as (e & Ee & Ce & Ge & Voe & Foe). rewrite Voc, Foc, W1, W2 in *. assert (Dt2 : t + d - t = d) by ring. rewrite frequency_eq in Foe by (rewrite ?Dt2; auto). rewrite Dt2 in Foe.
    rewrite (IH (second_solution dt V2 (relay_step dt false V1 s)) e (t + d) m1 n s' b); auto.
    + rewrite Foe, Fc. replace (3 * S n + 2)%nat with (3 * n + 2 + 3)%nat by lia. rewrite (pow_add (lag dt) (3 * n + 2) 3). cbn [pow]. ring.
    + apply second_all_ok, step_all_ok, Ok.
    + rewrite Ge. exact Gc.
    + rewrite Voe. f_equal. ring.
    + eapply turning_next; exact T.
    + intros i si j c' L Ei. exact (N (S i) si j c' ltac:(lia) Ei).
Qed.
Lemma run_freq_start dt k d Vs s b0 t n s' b : 0 < dt -> Rabs d < PI / 18 -> all_ok s -> nth_error (s_bus s) k = Some b0 -> rb_cf b0 = true -> rb_gens b0 <> [] -> rb_f b0 = 60 -> turning k t d Vs ->
  (forall i si j c, (i <= n)%nat -> nth_error (steps dt true Vs s) i = Some si -> (j < k)%nat -> nth_error (s_bus si) j = Some c -> rb_trip c = false) ->
  nth_error (steps dt true Vs s) n = Some s' -> nth_error (s_bus s') k = Some b ->
  rb_f b = true_frequency d dt + lag dt ^ (3 * n) * (60 - true_frequency d dt).
Proof.
  intros D A Ok E0 Cf G F0 T N En Eb. destruct Vs as [| [V1 V2] Vs]; [destruct n; discriminate |]. cbn [steps] in N, En. destruct (T 0%nat _ eq_refl) as (m1 & m2 & P1 & P2 & W1 & W2). cbn [fst snd INR] in W1, W2. rewrite Rmult_0_l, Rplus_0_r in W1. rewrite Rmult_1_l in W2.
  destruct (@step_freq dt true V1 s k b0 Ok E0 Cf G) as (c & Ec & Cc & Gc & Vc & Voc & Foc & Fc); [intros j c L Ec; exact (N 0%nat _ j c ltac:(lia) eq_refl L Ec) |]. cbn zeta in Fc. rewrite F0, !frequency_still in Fc by lra. destruct n as [| n].
  - cbn in En. injection En as <-. rewrite Ec in Eb. injection Eb as <-. rewrite Fc. cbn. ring.
  - cbn [nth_error] in En. destruct (@second_freq dt V2 _ k c Ec Cc) as (e & Ee & Ce & Ge & Voe & Foe). rewrite Voc, Foc, Fc, W1, W2 in *. assert (Dt2 : t + d - t = d) by ring. rewrite frequency_eq in Foe by (rewrite ?Dt2; auto). rewrite Dt2 in Foe.
    rewrite (@run_freq dt k d Vs D A (second_solution dt V2 (relay_step dt true V1 s)) e (t + d) m1 n s' b); auto.
    + rewrite Foe. replace (3 * S n)%nat with (3 * n + 2 + 1)%nat by lia. rewrite (pow_add (lag dt) (3 * n + 2) 1). cbn [pow]. ring.
    + apply second_all_ok, step_all_ok, Ok.
    + rewrite Ge. exact Gc.
    + rewrite Voe. f_equal. ring.
    + eapply turning_next; exact T.
    + intros i si j c' L Ei. exact (N (S i) si j c' ltac:(lia) Ei).
Qed.

(** Proofs: GENROU, GENCLS, and all machines. *)
From Coq Require Import Reals Lra.
From Coquelicot Require Import Complex.
From Verif Require Import Prelude CbModel CbSpec CbProofs DbModel DyModel DySpec DyProofs DyProofs2 DyProofs3.
Open Scope R_scope.

(** ** GENROU *)
Definition z0 : v6 := V6 0 0 0 0 0 0.
Definition rou_steady (p : gpar) (V J : C) (x : v6) (id iq P Q E Pm : R) : Prop :=
  z2w x = 0 /\ g_norton_cur p (- rou_psiqpp p x) (rou_psidpp p x) (z1d x) = J /\
  (forall k, k_v k V -> k_Efd k = E -> k_Pm k = Pm -> exists lad, rou_rates p k x = Ok (id, iq, lad, z0)) /\
  fst V * to_re id iq (z1d x) + snd V * to_im id iq (z1d x) = P /\ snd V * to_re id iq (z1d x) - fst V * to_im id iq (z1d x) = Q.
Definition rou_at (st : stage) (p : gpar) (s : rou) (V J : C) (r : report) : Prop :=
  exists P Q, rou_steady p V J (r_0 s) (r_Id s) (r_Iq s) P Q (o_field r) (o_shaft r) /\ r_1 s = r_0 s /\
  (st = CORRECTOR -> r_d s = Some z0) /\ com_at st (r_k s) V (o_field r) (o_shaft r) /\ k_gP (r_k s) = P /\ k_gQ (r_k s) = Q /\
  r = Rep (z1d (r_0 s)) 0 (o_field r) (o_shaft r) (P * g_base p / g_sb p) (Q * g_base p / g_sb p).
Lemma v6_add0 x t : v6_add x z0 t = x.
Proof. destruct x. unfold v6_add, z0. cbn. f_equal; ring. Qed.
Lemma v6_mid0 : v6_mid z0 z0 = z0.
Proof. unfold v6_mid, z0. cbn. f_equal; field. Qed.
Lemma rou_pcur_at p s V J r : rou_at PREDICTOR p s V J r -> exists s', rou_pcur p s = Ok s' /\ rou_at PREDICTOR p s' V J r /\ k_IN (r_k s') = J.
Proof.
  intros (P & Q & S & H1 & H2 & Hk & HP & HQ & Hr). pose proof S as (S1 & S2 & S3 & S4 & S5). unfold rou_pcur.
  pose proof Hk as ((E1 & E2 & E3) & _). eexists. split; [reflexivity|]. cbn [r_k k_IN com_setI]. split; [|exact S2].
  exists P, Q. cbn [r_0 r_1 r_d r_Id r_Iq r_k]. split; [exact S|]. split; [exact H1|]. split; [exact H2|]. split; [exact Hk|].
  cbn. rewrite E1, E2. auto.
Qed.
Lemma rou_ccur_at p s V J r : rou_at CORRECTOR p s V J r -> exists s', rou_ccur p s = Ok s' /\ rou_at CORRECTOR p s' V J r /\ k_IN (r_k s') = J.
Proof.
  intros (P & Q & S & H1 & H2 & Hk & HP & HQ & Hr). unfold rou_ccur. eexists. split; [reflexivity|]. split; [|cbn; rewrite H1; apply S].
  exists P, Q. cbn [r_0 r_1 r_d r_Id r_Iq r_k]. auto 10.
Qed.
Lemma rou_pred_at p s V J r dt : rou_at PREDICTOR p s V J r -> exists s', rou_pred p s dt = Ok s' /\ rou_at CORRECTOR p s' V J r.
Proof.
  intros (P & Q & S & H1 & H2 & Hk & HP & HQ & Hr). unfold rou_pred. pose proof S as (S1 & S2 & S3 & _). rewrite S1.
  pose proof (com_in_at (com_gvw_at (com_exV_at Hk))) as Hi. edestruct S3 as (lad & ->); [apply Hi|apply Hi|apply Hi|]. cbn [obind].
  edestruct (@com_run_at PREDICTOR (com_lad (com_in (com_gvw (com_exV (r_k s)) 0)) lad)) as (k' & -> & K & GP & GQ); [apply com_lad_at, Hi|]. cbn [obind].
  eexists. split; [reflexivity|]. rewrite v6_add0. exists P, Q. cbn [r_0 r_1 r_d r_Id r_Iq r_k]. rewrite GP, GQ. cbn. auto 10.
Qed.
Lemma rou_corr_at p s V J r dt : rou_at CORRECTOR p s V J r -> exists s', rou_corr p s dt = Ok s' /\ rou_at PREDICTOR p s' V J r /\ report1 (MROU p s') = Some r.
Proof.
  intros (P & Q & S & H1 & H2 & Hk & HP & HQ & Hr). unfold rou_corr. rewrite H1, (H2 eq_refl). cbn [got]. pose proof S as (S1 & S2 & S3 & _). rewrite S1.
  pose proof (com_in_at (com_gvw_at (com_exV_at Hk))) as Hi. edestruct S3 as (lad & ->); [apply Hi|apply Hi|apply Hi|]. cbn [obind].
  edestruct (@com_run_at CORRECTOR (com_lad (com_in (com_gvw (com_exV (r_k s)) 0)) lad)) as (k' & -> & K & GP & GQ); [apply com_lad_at, Hi|]. cbn [obind].
  eexists. split; [reflexivity|]. rewrite v6_mid0, v6_add0. split.
  - exists P, Q. cbn [r_0 r_1 r_d r_Id r_Iq r_k]. rewrite GP, GQ. cbn. apply com_down in K. repeat (split; [solve [auto|discriminate]|]). auto.
  - cbn [report1 report0 r_0 r_k]. rewrite GP, GQ, S1. cbn. rewrite HP, HQ. destruct K as (_ & -> & -> & _). now rewrite <- Hr.
Qed.
Lemma rou_setV_at st p s V J r : rou_at st p s V J r -> rou_at st p (Rou (r_0 s) (r_1 s) (r_d s) (r_Id s) (r_Iq s) (com_setV (r_k s) V)) V J r.
Proof. intros (P & Q & S & H1 & H2 & Hk & H). exists P, Q. cbn [r_0 r_1 r_d r_Id r_Iq r_k]. split; [exact S|]. split; [auto|]. split; [auto|]. split; [now apply com_setV_at|exact H]. Qed.

Lemma rou_start p ex gv mag ang : 0 < mag -> machine_ok (g_sb p) (DGENROU p ex gv) (mag * cos ang, mag * sin ang) ->
  let V := (mag * cos ang, mag * sin ang) in
  exists ex0 gv0 s r, m_load (DGENROU p ex gv) = Ok (LROU p ex0 gv0) /\ rou_init p ex0 gv0 mag ang = Ok s /\
  rou_at PREDICTOR p s V (Cplus (Cmult (rou_norton p) V) (Cconj (Cdiv (g_pg p, g_qg p) V))) r /\ report0 (MROU p s) = Some r /\ steady (DGENROU p ex gv) V r.
Proof.
  intros Hm ((Hsb & Hb & HH & HTd & HTdpp & HTqpp & Hz & Hxl) & (Hxq & HTqp) & Hsat & Hex & Hgv) V.
  set (P := g_P p / g_base p). set (Q := g_Q p / g_base p). fold (g_P p) (g_Q p) in Hex, Hgv. fold P Q in Hex, Hgv.
  set (ir := fst (g_cur P Q mag ang)). set (ii := snd (g_cur P Q mag ang)). set (d := g_delta p ir ii mag ang).
  set (id := to_d ir ii d). set (iq := to_q ir ii d). set (vqt := to_q (mag * cos ang) (mag * sin ang) d). set (vdt := to_d (mag * cos ang) (mag * sin ang) d).
  set (x3 := vqt + g_Ra p * iq + g_Xdp p * id).
  destruct (rou_sat_ok Hsat x3) as (sat & Es & Cs).
  set (E := x3 * (1 + sat) + (g_Xd p - g_Xdp p) * id). set (Pm := P + g_Ra p * (ir * ir + ii * ii)).
  assert (FE : field_voltage p (sat_maybe p) P Q V d E). { apply field_init; auto. exists sat. split; [exact Cs|reflexivity]. }
  assert (FP : shaft_power p P Q V Pm) by now apply shaft_init.
  assert (MV : mag = Cmod V) by (symmetry; apply Cmod_phasor; lra).
  destruct (@load_opt ex gv V E Pm) as (ex0 & gv0 & Le & Lg & LK); [intros; now apply Hex with d|intros; now apply Hgv|].
  destruct (LK mag ang P Q eq_refl eq_refl MV) as (k & Ek & Ak & KP & KQ).
  pose proof (@d_axis p P Q mag ang) as DA. fold ir ii d in DA. fold id iq vdt in DA.
  pose proof (@power_axes p P Q mag ang Hm) as PA. fold ir ii d in PA. fold id iq vdt vqt Pm in PA.
  set (vd := vdt + g_Ra p * id - g_Xdpp p * iq). set (vq := vqt + g_Ra p * iq + g_Xdpp p * id).
  set (x6 := vd - (g_Xqp p - g_Xdpp p) * iq). set (x4 := x3 - (g_Xdp p - g_Xl p) * id). set (x5 := x6 + (g_Xqp p - g_Xl p) * iq).
  set (x := V6 d 0 x3 x4 x5 x6).
  assert (Hx : g_Xdp p - g_Xl p <> 0) by lra. assert (Hxq' : g_Xqp p - g_Xl p <> 0) by lra.
  assert (EPD : rou_psidpp p x = vq).
  { unfold rou_psidpp, x. cbn. unfold x4, x3, vq. field. exact Hx. }
  assert (EPQ : rou_psiqpp p x = - vd).
  { unfold rou_psiqpp, x. cbn. unfold x5, x6. field. exact Hxq'. }
  exists ex0, gv0, (Rou x x None id iq k), (Rep d 0 E Pm (P * g_base p / g_sb p) (Q * g_base p / g_sb p)).
  split; [cbn; rewrite Lg; cbn; now rewrite Le|].
  assert (EI : rou_init p ex0 gv0 mag ang = Ok (Rou x x None id iq k)).
  { unfold rou_init. fold P Q. rewrite gcur_pair. fold ir ii. cbv zeta. fold d. rewrite cos_shift, sin_shift. fold (to_d ir ii d) (to_q ir ii d). fold id iq.
    replace (to_d (mag * cos ang + g_Ra p * ir - g_Xdpp p * ii) (mag * sin ang + g_Ra p * ii + g_Xdpp p * ir) d) with vd by (unfold vd, vdt, id, iq, to_d, to_q; ring).
    replace (to_q (mag * cos ang + g_Ra p * ir - g_Xdpp p * ii) (mag * sin ang + g_Ra p * ii + g_Xdpp p * ir) d) with vq by (unfold vq, vqt, id, iq, to_d, to_q; ring).
    replace (vq + (g_Xdp p - g_Xdpp p) * id) with x3 by (unfold vq, x3; ring). fold x6 x4. fold x5. fold x. rewrite Es. cbn [obind].
    replace (x3 * (1 + sat) + id * (g_Xd p - g_Xdp p)) with E by (unfold E; ring).
    replace (vq * iq - - vd * id) with Pm; [now rewrite Ek|].
    rewrite <- PA. unfold vq, vd. ring. }
  split; [exact EI|]. split; [|split; [|split; [reflexivity|]]].
  - exists P, Q. cbn [r_0 r_1 r_d r_Id r_Iq r_k o_field o_shaft]. split; [|repeat (split; [solve [auto|discriminate]|]); cbn; auto].
    unfold rou_steady. rewrite EPD, EPQ, Ropp_involutive. split; [reflexivity|]. cbn [z1d x]. split; [|split].
    + pose proof (@norton_back p P Q mag ang Hz) as NB. fold ir ii d in NB. fold id iq vdt vqt in NB. fold vd vq in NB. rewrite NB.
      apply (@norton_goal (rou_norton p) V p P Q ir ii); auto. unfold V. now rewrite (stator_cur _ _ _ Hm), gcur_pair.
    + intros k0 (K1 & K2 & K3) KE KM. unfold rou_rates. rewrite EPD, EPQ, Ropp_involutive. cbn [z1d z2w z3 z4 z5 z6 x].
      destruct (@cur_back p P Q mag ang Hz (k_mag k0) (k_ang k0) K1 K2) as [CB1 CB2]. fold ir ii d in CB1, CB2. fold id iq vdt vqt in CB1, CB2. fold vd vq in CB1, CB2. rewrite CB1, CB2.
      replace (- x4 - (g_Xdp p - g_Xl p) * id + x3) with 0 by (unfold x4; ring). 
      replace (- x5 + (g_Xqp p - g_Xl p) * iq + x6) with 0 by (unfold x5; ring). rewrite Es. cbn [obind]. rewrite KE, KM. eexists. unfold z0. f_equal. f_equal. f_equal.
      * ring.
      * rewrite <- PA. unfold vq, vd. field. exact HH.
      * unfold E. field. split; auto.
      * field. exact HTdpp.
      * field. exact HTqpp.
      * unfold x6, vd. replace (vdt + g_Ra p * id) with (g_Xq p * iq) by lra. field. split; auto.
    + destruct (@re_back p P Q mag ang ir ii) as [R1 R2]. fold ir ii d in R1, R2. fold id iq in R1, R2. rewrite R1, R2. unfold V. cbn [fst snd].
      apply (@pq_back P Q mag ang Hm).
  - cbn [report0 r_0 r_k z1d z2w x]. rewrite KP, KQ. destruct Ak as (_ & -> & -> & _). reflexivity.
  - cbn [o_P o_Q o_shaft o_angle o_field]. split; [unfold P, g_P; field; lra|]. split; [unfold Q, g_Q; field; lra|]. split; [exact FP|exact FE].
Qed.

(** ** GENCLS *)
Definition cls_at (st : stage) (flag : bool) (p : clp) (s : cls) (V J : C) (r : report) : Prop :=
  l_volt s = V /\ l_spd0 s = 1 /\ (cis (l_ang0 s) * RtoC (l_eq s))%C = l_e0 s /\
  (flag = false \/ st = CORRECTOR -> l_e1 s = l_e0 s /\ l_ang1 s = l_ang0 s /\ l_spd1 s = 1) /\ (st = CORRECTOR -> l_dang0 s = 0 /\ l_dspd0 s = 0) /\
  cls_cur p (l_e0 s) = J /\ fst (Cmult (l_e0 s) (cls_conj p V (l_e0 s))) = l_pm s /\ Cmult V (cls_conj p V (l_e0 s)) = (l_P s, l_Q s) /\
  r = Rep (l_ang0 s) 0 (l_eq s) (l_pm s) (l_P s * c_mva p / 100) (l_Q s * c_mva p / 100).
Ltac clb := cbn [l_volt l_e0 l_e1 l_ang0 l_ang1 l_spd0 l_spd1 l_dang0 l_dspd0 l_eq l_pm l_IN l_P l_Q].
Lemma cls_next_at st f p s V J r : cls_at st f p s V J r -> cls_next s f = s.
Proof.
  intros (_ & Hs & _ & H & _). unfold cls_next. destruct f; auto. destruct (H (or_introl eq_refl)) as (A & B & C).
  destruct s. cbn in *. now subst.
Qed.
Lemma cls_pcur_at f p s V J r : cls_at PREDICTOR f p s V J r -> cls_at PREDICTOR f p (cls_pcur p s f) V J r /\ l_IN (cls_pcur p s f) = J.
Proof. intros H. unfold cls_pcur. rewrite (cls_next_at H). split; [exact H|]. cbn. apply H. Qed.
Lemma cls_ccur_at f p s V J r : cls_at CORRECTOR f p s V J r -> cls_at CORRECTOR f p (cls_ccur p s) V J r /\ l_IN (cls_ccur p s) = J.
Proof. intros H. unfold cls_ccur. split; [exact H|]. cbn. destruct H as (_ & _ & _ & H & _ & <- & _). destruct (H (or_intror eq_refl)) as (-> & _). reflexivity. Qed.
Lemma cls_pred_at f p s V J r dt : c_h p <> 0 -> cls_at PREDICTOR f p s V J r -> cls_at CORRECTOR f p (cls_pred p s dt f) V J r.
Proof.
  intros Hh H. unfold cls_pred. rewrite (cls_next_at H). destruct H as (H1 & H2 & H3 & H4 & H5 & H6 & H7 & H8 & H9). unfold cls_rates. rewrite H1, H2, H7.
  replace ((1 - 1) * basrad) with 0 by ring. replace (((l_pm s - c_d0 p * (1 - 1)) / 1 - l_pm s) / (2 * c_h p)) with 0 by (field; auto).
  rewrite Rmult_0_l, !Rplus_0_r, H3. unfold cls_at. clb. rewrite H8. cbn [fst snd]. sp. auto 10.
Qed.
Lemma cls_corr_at f p s V J r dt : c_h p <> 0 -> cls_at CORRECTOR f p s V J r -> cls_at PREDICTOR false p (cls_corr p s dt) V J r /\ report1 (MCLS p (cls_corr p s dt)) = Some r.
Proof.
  intros Hh (H1 & H2 & H3 & H4 & H5 & H6 & H7 & H8 & H9). destruct (H4 (or_intror eq_refl)) as (A & B & C). destruct (H5 eq_refl) as (D1 & D2). unfold cls_corr, cls_rates. rewrite A, C, D1, D2, H1, H2, H7.
  replace ((1 - 1) * basrad) with 0 by ring. replace (((l_pm s - c_d0 p * (1 - 1)) / 1 - l_pm s) / (2 * c_h p)) with 0 by (field; auto).
  replace ((0 + 0) / 2 * dt) with 0 by field. rewrite !Rplus_0_r, H3. unfold cls_at. cbn [report1]. clb. rewrite H8. cbn [fst snd].
  split; [repeat (split; [solve [auto|discriminate]|]); auto|]. replace (1 - 1) with 0 by ring. now rewrite <- H9.
Qed.
Lemma cls_setV_at st f p s V J r : cls_at st f p s V J r -> cls_at st f p (cls_setV s V) V J r.
Proof. intros (H1 & H). exact (conj eq_refl H). Qed.

Lemma cinv_j a : a <> 0 -> Cdiv (RtoC 1) (Ci * RtoC a)%C = (0, - / a).
Proof. intros H. unfold Cdiv, Cinv, Cmult, Ci, RtoC. cbn [fst snd]. f_equal; field; lra. Qed.
Lemma polar_conj pg qg mag ang : 0 < mag -> (RtoC (sqrt (pg * pg + qg * qg) / mag) * cis (ang - atan2 qg pg))%C = g_cur pg qg mag ang.
Proof.
  intros H. destruct (atan2_polar pg qg) as [A B]. unfold cis, g_cur, Cmult, RtoC. cbn [fst snd]. rewrite cos_minus, sin_minus. set (t := atan2 qg pg) in *. set (r := sqrt (pg * pg + qg * qg)) in *.
  rewrite <- A, <- B. f_equal; field; lra.
Qed.
Lemma Cconj_conj (z : C) : Cconj (Cconj z) = z.
Proof. destruct z. unfold Cconj. cbn. now rewrite Ropp_involutive. Qed.
Lemma Cconj_mult (a b : C) : Cconj (Cmult a b) = Cmult (Cconj a) (Cconj b).
Proof. destruct a, b. unfold Cconj, Cmult. cbn [fst snd]. f_equal; ring. Qed.
Lemma cls_start p mag ang : 0 < mag -> 0 <= c_pg p -> machine_ok 100 (DGENCLS p) (mag * cos ang, mag * sin ang) ->
  let V := (mag * cos ang, mag * sin ang) in
  exists y r, cls_norton p = Ok y /\ cls_at PREDICTOR true p (cls_init p mag ang) V (Cplus (Cmult y V) (Cconj (Cdiv (c_pg p, c_qg p) V))) r /\
  report0 (MCLS p (cls_init p mag ang)) = Some r /\ steady (DGENCLS p) V r.
Proof.
  intros Hm Hp (_ & Hmva & Hr & Hd & Hx & Hh) V. set (pg := c_pg p * cl_sbase / c_mva p). set (qg := c_qg p * cl_sbase / c_mva p).
  assert (Hpg : 0 <= pg). { unfold pg, cl_sbase. apply Rmult_le_pos; [lra|]. left. now apply Rinv_0_lt_compat. }
  set (i := g_cur pg qg mag ang).
  assert (EV : (RtoC mag * cis ang)%C = V) by (unfold V, Cmult, RtoC, cis; cbn [fst snd]; f_equal; ring).
  set (e := Cplus V (Cmult (Cmult Ci (RtoC (c_dtr p))) i)).
  assert (EI : cls_init p mag ang = Cls V e 0%C (atan2 (snd e) (fst e)) 0 1 0 0 0 (Cmod e) pg 0%C pg qg).
  { unfold cls_init. fold pg qg. rewrite EV, (polar_conj _ _ _ Hm). fold i e. now rewrite (Rabs_right pg) by lra. }
  assert (Ei : i = Cconj (Cdiv (pg, qg) V)) by (unfold i; rewrite <- (stator_cur _ _ _ Hm); reflexivity).
  assert (VZ : V <> RtoC 0). { intros Z. assert (M : Cmod V = mag) by (apply Cmod_phasor; lra). rewrite Z, Cmod_0 in M. lra. }
  assert (DZ : Cmult Ci (RtoC (c_dtr p)) <> RtoC 0). { intros Z. unfold Cmult, Ci, RtoC in Z. cbn [fst snd] in Z. inversion Z. lra. }
  assert (EC : cls_conj p V e = Cconj i). { unfold cls_conj. f_equal. unfold e. field. split; intros Z; apply DZ; rewrite Z; ring. }
  assert (VI : Cmult V (Cconj i) = (pg, qg)). { rewrite Ei. rewrite Cconj_conj. field. exact VZ. }
  rewrite EI. set (n := (RtoC (c_r p * cl_sbase / c_mva p) + Ci * RtoC (c_dtr p * cl_sbase / c_mva p))%C).
  exists (Cdiv (RtoC 1) n), (Rep (atan2 (snd e) (fst e)) 0 (Cmod e) pg (pg * c_mva p / 100) (qg * c_mva p / 100)).
  split; [unfold cls_norton; destruct (Req_EM_T (c_dstr p) 0); [reflexivity|contradiction]|].
  split; [|split; [|split; [reflexivity|]]].
  - unfold cls_at. cbn [l_volt l_e0 l_e1 l_ang0 l_ang1 l_spd0 l_spd1 l_dang0 l_dspd0 l_eq l_pm l_P l_Q]. rewrite EC. split; [reflexivity|]. split; [reflexivity|]. split; [apply cis_atan2|].
    split; [intros [Z|Z]; discriminate|]. split; [discriminate|]. split; [|split; [|split; [exact VI|reflexivity]]].
    + unfold cls_cur. 
      assert (En : n = (Ci * RtoC (c_dtr p * cl_sbase / c_mva p))%C). { unfold n. rewrite Hr. unfold Rdiv. rewrite !Rmult_0_l. unfold Cplus, Cmult, Ci, RtoC. cbn [fst snd]. f_equal; ring. }
      rewrite En, cinv_j by (unfold cl_sbase, Rdiv; apply Rmult_integral_contrapositive; split; [lra|apply Rinv_neq_0_compat; lra]).
      assert (Eii : Cconj (Cdiv (c_pg p, c_qg p) V) = Cmult (RtoC (c_mva p / 100)) i).
      { rewrite Ei. replace (c_pg p, c_qg p) with (Cmult (RtoC (c_mva p / 100)) (pg, qg)) by (unfold Cmult, RtoC, pg, qg, cl_sbase; cbn [fst snd]; f_equal; field; lra).
        unfold Cdiv. rewrite <- Cmult_assoc, Cconj_mult. f_equal. unfold Cconj, RtoC. cbn. f_equal. ring. }
      rewrite Eii. unfold e, cl_sbase, Cdiv. clearbody i. destruct i as [a b]. subst V. unfold Cplus, Cmult, Cinv, RtoC, Ci. cbn [fst snd]. f_equal; field; repeat split; lra.
    + unfold e. clearbody e. rewrite Cmult_plus_distr_r, VI. clear - i. destruct i as [a b]. unfold Cplus, Cmult, Cconj, Ci, RtoC. cbn [fst snd]. ring.
  - cbn. f_equal. f_equal. ring.
  - cbn [o_P o_Q o_shaft o_angle o_field]. split; [unfold pg, cl_sbase; field; lra|]. split; [unfold qg, cl_sbase; field; lra|]. split; [reflexivity|]. split; [apply Cmod_ge_0|].
    change (c_pg p * 100 / c_mva p) with pg. change (c_qg p * 100 / c_mva p) with qg. unfold V at 2. rewrite (stator_cur _ _ _ Hm). fold i.
    fold (cis (atan2 (snd e) (fst e))). rewrite (Cmult_comm (RtoC (Cmod e))), cis_atan2. unfold e. f_equal. f_equal. unfold Cmult, Ci, RtoC. cbn [fst snd]. f_equal; ring.
Qed.

(** ** All machines *)
Definition m_at (st : stage) (flag : bool) (m : mach) (V J : C) (r : option report) : Prop :=
  match m, r with
  | MRAW _, _ => False
  | MBASE, None => J = RtoC 0
  | MCLS p s, Some r => c_h p <> 0 /\ cls_at st flag p s V J r
  | MSAL p s, Some r => sal_at st flag p s V J r
  | MROU p s, Some r => rou_at st p s V J r
  | _, _ => False
  end.
Lemma m_pcur_at f m V J r : m_at PREDICTOR f m V J r -> exists m', m_pcur f m = Ok m' /\ m_at PREDICTOR f m' V J r /\ m_IN m' = J.
Proof.
  destruct m as [m| |p s|p s|p s]; cbn [m_at m_pcur]; try contradiction; destruct r as [r|]; try contradiction.
  - intros ->. eexists. split; [reflexivity|]. cbn. auto.
  - intros [Hh H]. destruct (cls_pcur_at H). eexists. split; [reflexivity|]. cbn [m_at m_IN]. auto.
  - intros H. destruct (sal_pcur_at H) as (s' & -> & A & B). cbn [obind]. eexists. split; [reflexivity|]. cbn [m_at m_IN]. auto.
  - intros H. destruct (rou_pcur_at H) as (s' & -> & A & B). cbn [obind]. eexists. split; [reflexivity|]. cbn [m_at m_IN]. auto.
Qed.
Lemma m_ccur_at f m V J r : m_at CORRECTOR f m V J r -> exists m', m_ccur m = Ok m' /\ m_at CORRECTOR f m' V J r /\ m_IN m' = J.
Proof.
  destruct m as [m| |p s|p s|p s]; cbn [m_at m_ccur]; try contradiction; destruct r as [r|]; try contradiction.
  - intros ->. eexists. split; [reflexivity|]. cbn. auto.
  - intros [Hh H]. destruct (cls_ccur_at H). eexists. split; [reflexivity|]. cbn [m_at m_IN]. auto.
  - intros H. destruct (sal_ccur_at H) as (s' & -> & A & B). cbn [obind]. eexists. split; [reflexivity|]. cbn [m_at m_IN]. auto.
  - intros H. destruct (rou_ccur_at H) as (s' & -> & A & B). cbn [obind]. eexists. split; [reflexivity|]. cbn [m_at m_IN]. auto.
Qed.
Lemma m_setV_at st f m V J r : m_at st f m V J r -> exists m', m_setV V m = Ok m' /\ m_at st f m' V J r.
Proof.
  destruct m as [m| |p s|p s|p s]; cbn [m_at m_setV]; try contradiction; destruct r as [r|]; try contradiction.
  - intros ->. eexists. split; [reflexivity|]. cbn. auto.
  - intros [Hh H]. eexists. split; [reflexivity|]. cbn [m_at]. split; [exact Hh|now apply cls_setV_at].
  - intros H. eexists. split; [reflexivity|]. cbn [m_at]. now apply sal_setV_at.
  - intros H. eexists. split; [reflexivity|]. cbn [m_at]. now apply rou_setV_at.
Qed.
Lemma m_pred_at f m V J r dt : m_at PREDICTOR f m V J r -> exists m', m_pred dt f m = Ok m' /\ m_at CORRECTOR f m' V J r.
Proof.
  destruct m as [m| |p s|p s|p s]; cbn [m_at m_pred]; try contradiction; destruct r as [r|]; try contradiction.
  - intros ->. eexists. split; [reflexivity|]. cbn. auto.
  - intros [Hh H]. eexists. split; [reflexivity|]. cbn [m_at]. split; [exact Hh|now apply cls_pred_at].
  - intros H. destruct (sal_pred_at dt H) as (s' & -> & A). cbn [obind]. eexists. split; [reflexivity|]. cbn [m_at m_IN]. auto.
  - intros H. destruct (rou_pred_at dt H) as (s' & -> & A). cbn [obind]. eexists. split; [reflexivity|]. cbn [m_at m_IN]. auto.
Qed.
Lemma m_corr_at f m V J r dt : m_at CORRECTOR f m V J r -> exists m', m_corr dt m = Ok m' /\ m_at PREDICTOR false m' V J r /\ report1 m' = r.
Proof.
  destruct m as [m| |p s|p s|p s]; cbn [m_at m_corr]; try contradiction; destruct r as [r|]; try contradiction.
  - intros ->. eexists. split; [reflexivity|]. cbn. auto.
  - intros [Hh H]. destruct (cls_corr_at dt Hh H). eexists. split; [reflexivity|]. cbn [m_at]. auto.
  - intros H. destruct (sal_corr_at dt H) as (s' & -> & A & B). cbn [obind]. eexists. split; [reflexivity|]. cbn [m_at m_IN]. auto.
  - intros H. destruct (rou_corr_at dt H) as (s' & -> & A & B). cbn [obind]. eexists. split; [reflexivity|]. cbn [m_at m_IN]. auto.
Qed.
Theorem m_start m sb pg qg mag ang : 0 < mag -> 0 <= pg -> machine_ok sb (with_pq m sb pg qg) (mag * cos ang, mag * sin ang) ->
  let V := (mag * cos ang, mag * sin ang) in
  exists m0 y m1 r, m_load (with_pq m sb pg qg) = Ok m0 /\ m_norton m0 = Ok y /\ m_init mag ang m0 = Ok m1 /\
  m_at PREDICTOR true m1 V (Cplus (Cmult y V) (Cconj (Cdiv (pg, qg) V))) (Some r) /\ report0 m1 = Some r /\ steady (with_pq m sb pg qg) V r.
Proof.
  intros Hm Hp H V. destruct m as [p|p ex gv|p ex gv]; cbn [with_pq] in *.
  - pose proof H as (-> & _). destruct (@cls_start (clp_pq p pg qg) mag ang Hm Hp H) as (y & r & A & B & C & D).
    exists (LCLS (clp_pq p pg qg)), y, (MCLS (clp_pq p pg qg) (cls_init (clp_pq p pg qg) mag ang)), r. cbn [m_load m_norton m_init m_at]. split; [reflexivity|]. split; [exact A|]. split; [reflexivity|].
    split; [split; [apply H|exact B]|]. auto.
  - destruct (@sal_start (gpar_pq p sb pg qg) ex gv mag ang Hm H) as (ex0 & gv0 & s & r & A & B & C & D & E).
    exists (LSAL (gpar_pq p sb pg qg) ex0 gv0), (sal_norton (gpar_pq p sb pg qg)), (MSAL (gpar_pq p sb pg qg) s), r. split; [exact A|]. split; [reflexivity|]. split; [cbn [m_init]; now rewrite B|]. auto.
  - destruct (@rou_start (gpar_pq p sb pg qg) ex gv mag ang Hm H) as (ex0 & gv0 & s & r & A & B & C & D & E).
    exists (LROU (gpar_pq p sb pg qg) ex0 gv0), (rou_norton (gpar_pq p sb pg qg)), (MROU (gpar_pq p sb pg qg) s), r. split; [exact A|]. split; [reflexivity|]. split; [cbn [m_init]; now rewrite B|]. auto.
Qed.

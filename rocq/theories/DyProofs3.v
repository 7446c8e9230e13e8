(** Proofs: a machine started at its power stays there. *)
From Coq Require Import Reals Lra.
From Coquelicot Require Import Complex.
From Verif Require Import Prelude CbModel CbSpec CbProofs DbModel DyModel DySpec DyProofs DyProofs2.
Open Scope R_scope.

(** ** The common part *)
Definition k_v (k : com) (V : C) : Prop := k_mag k * cos (k_ang k) = fst V /\ k_mag k * sin (k_ang k) = snd V /\ k_mag k = Cmod V.
Definition com_at (st : stage) (k : com) (V : C) (E Pm : R) : Prop :=
  k_v k V /\ k_Efd k = E /\ k_Pm k = Pm /\ k_Efd0 k = E /\ k_Pm0 k = Pm /\
  (forall e, k_ex k = Some e -> exc_at st e (Cmod V) E) /\ (forall g, k_gov k = Some g -> gov_at st g Pm).
Lemma com_setV_at st k V E Pm : com_at st k V E Pm -> com_at st (com_setV k V) V E Pm.
Proof. intros (_ & H). split; [|exact H]. unfold k_v, com_setV. cbn. destruct (Cmod_polar V). auto. Qed.
Lemma com_setI_at st k V E Pm i : com_at st k V E Pm -> com_at st (com_setI k i) V E Pm.
Proof. exact (fun H => H). Qed.
Lemma com_setPQ_at st k V E Pm a b : com_at st k V E Pm -> com_at st (com_setPQ k a b) V E Pm.
Proof. exact (fun H => H). Qed.
Lemma com_lad_at st k V E Pm a : com_at st k V E Pm -> com_at st (com_lad k a) V E Pm.
Proof. exact (fun H => H). Qed.
Lemma com_in_at st k V E Pm : com_at st k V E Pm -> com_at st (com_in k) V E Pm.
Proof.
  intros (Hv & H1 & H2 & H3 & H4 & He & Hg). unfold com_at, com_in, k_v. cbn. split; [exact Hv|].
  split; [destruct (k_ex k) as [e|]; [eapply exc_Efd_at, He; reflexivity|auto]|].
  split; [destruct (k_gov k) as [g|]; [eapply gov_P_at, Hg; reflexivity|auto]|]. auto.
Qed.
Lemma com_exV_at st k V E Pm : com_at st k V E Pm -> com_at st (com_exV k) V E Pm.
Proof.
  intros (Hv & H1 & H2 & H3 & H4 & He & Hg). unfold com_at, com_exV. split; [exact Hv|]. sp. cbn. split; [|auto].
  destruct (k_ex k) as [e0|]; cbn; intros e Q; inversion Q; subst. destruct Hv as (_ & _ & ->). apply exc_setV_at. auto.
Qed.
Lemma com_gvw_at st k V E Pm : com_at st k V E Pm -> com_at st (com_gvw k 0) V E Pm.
Proof.
  intros (Hv & H1 & H2 & H3 & H4 & He & Hg). unfold com_at, com_gvw. split; [exact Hv|]. sp. cbn.
  destruct (k_gov k) as [e0|]; cbn; intros e Q; inversion Q; subst. apply gov_setw_at. auto.
Qed.
Lemma com_run_at st k V E Pm dt : com_at st k V E Pm -> exists k', com_run k dt st = Ok k' /\ com_at CORRECTOR k' V E Pm /\ k_gP k' = k_gP k /\ k_gQ k' = k_gQ k.
Proof.
  intros (Hv & H1 & H2 & H3 & H4 & He & Hg). unfold com_run.
  assert (A : exists ex, omap (fun e => exc_run e dt st) (k_ex k) = Ok ex /\ forall e, ex = Some e -> exc_at CORRECTOR e (Cmod V) E).
  { destruct (k_ex k) as [e|]; cbn; [|eexists; split; [reflexivity|discriminate]]. destruct (@exc_keep _ _ _ _ dt (He e eq_refl)) as (e' & -> & K). cbn. eexists. split; [reflexivity|]. intros ? Q. now inversion Q; subst. }
  destruct A as (ex & -> & Pe). cbn [obind].
  assert (A : exists gv, omap (fun e => gov_run e dt st) (k_gov k) = Ok gv /\ forall e, gv = Some e -> gov_at CORRECTOR e Pm).
  { destruct (k_gov k) as [e|]; cbn; [|eexists; split; [reflexivity|discriminate]]. destruct (@gov_keep _ _ _ dt (Hg e eq_refl)) as (e' & -> & K). cbn. eexists. split; [reflexivity|]. intros ? Q. now inversion Q; subst. }
  destruct A as (gv & -> & Pg). cbn [obind]. eexists. split; [reflexivity|]. unfold com_at. cbn. auto 10.
Qed.
Lemma com_down k V E Pm : com_at CORRECTOR k V E Pm -> com_at PREDICTOR k V E Pm.
Proof. intros (Hv & H1 & H2 & H3 & H4 & He & Hg). unfold com_at. sp. split; intros; [apply exc_down|apply gov_down]; auto. Qed.
Lemma load_opt ex gv V E Pm : (forall d, ex = Some d -> exc_ok d (Cmod V) E) -> (forall d, gv = Some d -> gov_ok d Pm) ->
  exists ex0 gv0, omap exc_load ex = Ok ex0 /\ omap gov_load gv = Ok gv0 /\
  forall mag ang P Q, mag * cos ang = fst V -> mag * sin ang = snd V -> mag = Cmod V ->
  exists k, com_init ex0 gv0 E Pm mag ang P Q = Ok k /\ com_at PREDICTOR k V E Pm /\ k_gP k = P /\ k_gQ k = Q.
Proof.
  intros He Hg.
  assert (A : exists ex0, omap exc_load ex = Ok ex0 /\ exists ex1, omap (fun e => exc_init (exc_setE (exc_setV e (Cmod V)) E) (Cmod V)) ex0 = Ok ex1 /\ forall e, ex1 = Some e -> exc_at PREDICTOR e (Cmod V) E).
  { destruct ex as [d|]; cbn; [|eexists; split; [reflexivity|]; cbn; eexists; split; [reflexivity|discriminate]].
    destruct (@exc_start _ _ _ (He d eq_refl)) as (x0 & -> & x & Ex & Ax). cbn. eexists. split; [reflexivity|]. cbn. rewrite Ex. cbn. eexists. split; [reflexivity|]. intros ? W. now inversion W; subst. }
  destruct A as (ex0 & -> & ex1 & Ex & Ax).
  assert (A : exists gv0, omap gov_load gv = Ok gv0 /\ exists gv1, omap (fun g => gov_init (gov_setw (gov_setP g Pm) 0)) gv0 = Ok gv1 /\ forall e, gv1 = Some e -> gov_at PREDICTOR e Pm).
  { destruct gv as [d|]; cbn; [|eexists; split; [reflexivity|]; cbn; eexists; split; [reflexivity|discriminate]].
    destruct (@gov_start _ _ (Hg d eq_refl)) as (x0 & -> & x & Eg & Ag). cbn. eexists. split; [reflexivity|]. cbn. rewrite Eg. cbn. eexists. split; [reflexivity|]. intros ? W. now inversion W; subst. }
  destruct A as (gv0 & -> & gv1 & Eg & Ag).
  do 2 eexists. split; [reflexivity|]. split; [reflexivity|]. intros mag ang P Q E1 E2 E3. unfold com_init. rewrite E3, Ex. cbn [obind]. rewrite Eg. cbn [obind].
  eexists. split; [reflexivity|]. unfold com_at, k_v. cbn. rewrite <- E3 at 1 2 3. auto 15.
Qed.

(** ** GENSAL *)
Definition sal_steady (p : gpar) (V J : C) (x : v5) (P Q E Pm : R) : Prop :=
  y2w x = 0 /\ g_norton_cur p (- y5 x) (sal_psidpp p x) (y1d x) = J /\
  (forall k, k_v k V -> k_Efd k = E -> k_Pm k = Pm -> exists lad, sal_rates p k x = Ok (lad, V5 0 0 0 0 0)) /\
  (forall k, k_v k V -> let id := g_Id p (- y5 x) (sal_psidpp p x) (y1d x) (k_mag k) (k_ang k) in let iq := g_Iq p (- y5 x) (sal_psidpp p x) (y1d x) (k_mag k) (k_ang k) in
     fst V * to_re id iq (y1d x) + snd V * to_im id iq (y1d x) = P /\ snd V * to_re id iq (y1d x) - fst V * to_im id iq (y1d x) = Q).
Definition sal_at (st : stage) (flag : bool) (p : gpar) (s : sal) (V J : C) (r : report) : Prop :=
  exists P Q, sal_steady p V J (s_0 s) P Q (o_field r) (o_shaft r) /\ (flag = false -> s_1 s = Some (s_0 s)) /\
  (st = CORRECTOR -> s_1 s = Some (s_0 s) /\ s_d s = Some (V5 0 0 0 0 0)) /\ com_at st (s_k s) V (o_field r) (o_shaft r) /\
  k_gP (s_k s) = P /\ k_gQ (s_k s) = Q /\
  r = Rep (y1d (s_0 s)) 0 (o_field r) (o_shaft r) (P * g_base p / g_sb p) (Q * g_base p / g_sb p).
Lemma v5_add0 x t : v5_add x (V5 0 0 0 0 0) t = x.
Proof. destruct x. unfold v5_add. cbn. f_equal; ring. Qed.
Lemma v5_mid0 : v5_mid (V5 0 0 0 0 0) (V5 0 0 0 0 0) = V5 0 0 0 0 0.
Proof. unfold v5_mid. cbn. f_equal; field. Qed.
Lemma sal_next_at st f p s V J r : sal_at st f p s V J r -> sal_next s f = Ok s.
Proof. intros (P & Q & _ & H & _). unfold sal_next. destruct f; auto. specialize (H eq_refl). destruct s as [a b c k]; cbn in *. now subst b. Qed.
Lemma sal_pcur_at f p s V J r : sal_at PREDICTOR f p s V J r -> exists s', sal_pcur p s f = Ok s' /\ sal_at PREDICTOR f p s' V J r /\ k_IN (s_k s') = J.
Proof.
  intros H. pose proof (sal_next_at H) as N. destruct H as (P & Q & (S1 & S2 & S3 & S4) & H1 & H2 & Hk & HP & HQ & Hr). unfold sal_pcur. rewrite N. cbn [obind].
  pose proof Hk as ((E1 & E2 & E3) & _). eexists. split; [reflexivity|]. cbn [s_k k_IN com_setI]. split; [|exact S2].
  destruct (S4 (s_k s) (proj1 Hk)) as [A B]. exists P, Q. cbn [s_0 s_1 s_d s_k]. split; [repeat split; auto; now apply S4|]. sp.
  split; [|split; [|auto]].
  - cbn. rewrite E1, E2. exact A.
  - cbn. rewrite E1, E2. exact B.
Qed.
Lemma sal_ccur_at f p s V J r : sal_at CORRECTOR f p s V J r -> exists s', sal_ccur p s = Ok s' /\ sal_at CORRECTOR f p s' V J r /\ k_IN (s_k s') = J.
Proof.
  intros (P & Q & S & H1 & H2 & Hk & HP & HQ & Hr). destruct (H2 eq_refl) as [G D]. unfold sal_ccur. rewrite G. cbn [got obind]. eexists. split; [reflexivity|].
  split; [|cbn; apply S]. exists P, Q. cbn [s_0 s_1 s_d s_k]. rewrite <- G. auto 10.
Qed.
Lemma sal_pred_at f p s V J r dt : sal_at PREDICTOR f p s V J r -> exists s', sal_pred p s dt f = Ok s' /\ sal_at CORRECTOR f p s' V J r.
Proof.
  intros H. pose proof (sal_next_at H) as N. destruct H as (P & Q & S & H1 & H2 & Hk & HP & HQ & Hr). unfold sal_pred. rewrite N. cbn [obind].
  pose proof (com_in_at Hk) as Hi. destruct S as (S1 & S2 & S3 & S4). edestruct (S3 (com_in (s_k s))) as (lad & ->); [apply Hi|apply Hi|apply Hi|]. cbn [obind]. rewrite S1.
  edestruct (@com_run_at PREDICTOR (com_gvw (com_exV (com_lad (com_in (s_k s)) lad)) 0)) as (k' & -> & K & GP & GQ); [apply com_gvw_at, com_exV_at, com_lad_at, Hi|]. cbn [obind].
  eexists. split; [reflexivity|]. rewrite v5_add0. exists P, Q. cbn [s_0 s_1 s_d s_k]. rewrite GP, GQ. cbn. split; [repeat split; auto; now apply S4|]. auto 10.
Qed.
Lemma sal_corr_at f p s V J r dt : sal_at CORRECTOR f p s V J r -> exists s', sal_corr p s dt = Ok s' /\ sal_at PREDICTOR false p s' V J r /\ report1 (MSAL p s') = Some r.
Proof.
  intros (P & Q & S & H1 & H2 & Hk & HP & HQ & Hr). destruct (H2 eq_refl) as [G D]. unfold sal_corr. rewrite G, D. cbn [got obind].
  pose proof (com_in_at Hk) as Hi. destruct S as (S1 & S2 & S3 & S4). edestruct (S3 (com_in (s_k s))) as (lad & ->); [apply Hi|apply Hi|apply Hi|]. cbn [obind].
  rewrite v5_mid0, v5_add0, S1.
  edestruct (@com_run_at CORRECTOR (com_gvw (com_exV (com_lad (com_in (s_k s)) lad)) 0)) as (k' & -> & K & GP & GQ); [apply com_gvw_at, com_exV_at, com_lad_at, Hi|]. cbn [obind].
  eexists. split; [reflexivity|]. split.
  - exists P, Q. cbn [s_0 s_1 s_d s_k]. rewrite GP, GQ. cbn. split; [repeat split; auto; now apply S4|]. apply com_down in K. repeat (split; [solve [auto|discriminate]|]). auto.
  - cbn [report1 s_0 s_1 s_k]. rewrite GP, GQ, S1. cbn. rewrite HP, HQ. destruct K as (_ & -> & -> & _). now rewrite <- Hr.
Qed.
Lemma sal_setV_at st f p s V J r : sal_at st f p s V J r -> sal_at st f p (Sal (s_0 s) (s_1 s) (s_d s) (com_setV (s_k s) V)) V J r.
Proof. intros (P & Q & S & H1 & H2 & Hk & H). exists P, Q. cbn [s_0 s_1 s_d s_k]. split; [exact S|]. split; [auto|]. split; [auto|]. split; [now apply com_setV_at|exact H]. Qed.

(** *** The steady state that init makes *)
Lemma gcur_pair P Q mag ang : g_cur P Q mag ang = (fst (g_cur P Q mag ang), snd (g_cur P Q mag ang)).
Proof. reflexivity. Qed.
Lemma field_init p sat P Q mag ang e : 0 < mag ->
  let ir := fst (g_cur P Q mag ang) in let ii := snd (g_cur P Q mag ang) in let d := g_delta p ir ii mag ang in
  let id := to_d ir ii d in let iq := to_q ir ii d in let vqt := to_q (mag * cos ang) (mag * sin ang) d in
  let x3 := vqt + g_Ra p * iq + g_Xdp p * id in
  (exists s, sat x3 s /\ e = x3 * (1 + s) + (g_Xd p - g_Xdp p) * id) -> field_voltage p sat P Q (mag * cos ang, mag * sin ang) d e.
Proof.
  intros Hm ir ii d id iq vqt x3 (s & Hs & He). destruct (@q_axis p P Q mag ang) as (r & Hr & A & B). fold ir ii d in A, B.
  exists r. split; [exact Hr|].
  rewrite (stator_cur _ _ _ Hm), gcur_pair. fold ir ii. cbv zeta. split.
  - unfold Cplus, Cmult, RtoC. cbn [fst snd]. f_equal; nra.
  - exists s.
    replace (fst (Cmult (mag * cos ang, mag * sin ang) (Cconj (cos d, sin d)))) with vqt by (unfold vqt, to_q, Cmult, Cconj; cbn [fst snd]; ring).
    replace (fst (Cmult (ir, ii) (Cconj (cos d, sin d)))) with iq by (unfold iq, to_q, Cmult, Cconj; cbn [fst snd]; ring).
    replace (- snd (Cmult (ir, ii) (Cconj (cos d, sin d)))) with id by (unfold id, to_d, Cmult, Cconj; cbn [fst snd]; ring).
    auto.
Qed.
Lemma shaft_init p P Q mag ang : 0 < mag ->
  let ir := fst (g_cur P Q mag ang) in let ii := snd (g_cur P Q mag ang) in
  shaft_power p P Q (mag * cos ang, mag * sin ang) (P + g_Ra p * (ir * ir + ii * ii)).
Proof. intros Hm ir ii. unfold shaft_power. now rewrite (stator_cur _ _ _ Hm), Cmod_sq. Qed.
(** The Norton current on the system base *)
Lemma norton_goal y V (p : gpar) P Q ir ii : 0 < g_sb p -> 0 < g_base p ->
  y = (g_G p * (g_base p / g_sb p), g_B p * (g_base p / g_sb p)) -> (ir, ii) = stator_current P Q V -> P = g_P p / g_base p -> Q = g_Q p / g_base p ->
  (((g_G p * fst V - g_B p * snd V) + ir) * g_base p / g_sb p, ((g_G p * snd V + g_B p * fst V) + ii) * g_base p / g_sb p) = Cplus (Cmult y V) (Cconj (Cdiv (g_pg p, g_qg p) V)).
Proof.
  intros Hs Hb -> Hi EP EQ.
  assert (E : Cconj (Cdiv (g_pg p, g_qg p) V) = (ir * g_base p / g_sb p, ii * g_base p / g_sb p)).
  { unfold stator_current in Hi. unfold Cdiv, Cmult, Cconj in *. destruct (Cinv V) as [a b]. cbn [fst snd] in *. inversion Hi as [[A B]]. subst. unfold g_P, g_Q. f_equal; field; lra. }
  rewrite E. unfold Cplus, Cmult. cbn [fst snd]. f_equal; field; lra.
Qed.
Lemma sal_norton_eq p : 0 < g_sb p -> 0 < g_base p -> g_Ra p * g_Ra p + g_Xdpp p * g_Xdpp p <> 0 -> sal_norton p = rou_norton p.
Proof.
  intros Hs Hb Hz. unfold sal_norton, rou_norton, g_G, g_B. cbv zeta.
  replace (g_Ra p * g_sb p / g_base p * (g_Ra p * g_sb p / g_base p) + g_Xdpp p * g_sb p / g_base p * (g_Xdpp p * g_sb p / g_base p))
    with ((g_Ra p * g_Ra p + g_Xdpp p * g_Xdpp p) * ((g_sb p / g_base p) * (g_sb p / g_base p))) by (field; lra).
  f_equal; field; repeat split; auto; lra.
Qed.

Lemma sal_start p ex gv mag ang : 0 < mag -> machine_ok (g_sb p) (DGENSAL p ex gv) (mag * cos ang, mag * sin ang) ->
  let V := (mag * cos ang, mag * sin ang) in
  exists ex0 gv0 s r, m_load (DGENSAL p ex gv) = Ok (LSAL p ex0 gv0) /\ sal_init p ex0 gv0 mag ang = Ok s /\
  sal_at PREDICTOR true p s V (Cplus (Cmult (sal_norton p) V) (Cconj (Cdiv (g_pg p, g_qg p) V))) r /\ report0 (MSAL p s) = Some r /\ steady (DGENSAL p ex gv) V r.
Proof.
  intros Hm ((Hsb & Hb & HH & HTd & HTdpp & HTqpp & Hz & Hxl) & Hsat & Hex & Hgv) V.
  set (P := g_P p / g_base p). set (Q := g_Q p / g_base p). fold (g_P p) (g_Q p) in Hex, Hgv. fold P Q in Hex, Hgv.
  set (ir := fst (g_cur P Q mag ang)). set (ii := snd (g_cur P Q mag ang)). set (d := g_delta p ir ii mag ang).
  set (id := to_d ir ii d). set (iq := to_q ir ii d). set (vqt := to_q (mag * cos ang) (mag * sin ang) d). set (vdt := to_d (mag * cos ang) (mag * sin ang) d).
  set (x3 := vqt + g_Ra p * iq + g_Xdp p * id).
  destruct (sal_sat_ok Hsat x3) as (sat & Es & Cs).
  set (E := x3 * (1 + sat) + (g_Xd p - g_Xdp p) * id). set (Pm := P + g_Ra p * (ir * ir + ii * ii)).
  assert (FE : field_voltage p (sat_curve p) P Q V d E). { apply field_init; auto. exists sat. split; [exact Cs|reflexivity]. }
  assert (FP : shaft_power p P Q V Pm) by now apply shaft_init.
  assert (MV : mag = Cmod V) by (symmetry; apply Cmod_phasor; lra).
  destruct (@load_opt ex gv V E Pm) as (ex0 & gv0 & Le & Lg & LK); [intros; now apply Hex with d|intros; now apply Hgv|].
  destruct (LK mag ang P Q eq_refl eq_refl MV) as (k & Ek & Ak & KP & KQ).
  pose proof (@d_axis p P Q mag ang) as DA. fold ir ii d in DA. fold id iq vdt in DA.
  pose proof (@power_axes p P Q mag ang Hm) as PA. fold ir ii d in PA. fold id iq vdt vqt Pm in PA.
  set (x5 := (g_Xdpp p - g_Xq p) * iq). set (x4 := x3 - id * (g_Xdp p - g_Xl p)).
  assert (EX5 : - x5 = vdt + g_Ra p * id - g_Xdpp p * iq) by (unfold x5; lra).
  assert (Hx : g_Xdp p - g_Xl p <> 0) by lra.
  assert (EPD : sal_psidpp p (V5 d 0 x3 x4 x5) = vqt + g_Ra p * iq + g_Xdpp p * id).
  { unfold sal_psidpp. cbn. unfold x4, x3. field. exact Hx. }
  exists ex0, gv0, (Sal (V5 d 0 x3 x4 x5) None None k), (Rep d 0 E Pm (P * g_base p / g_sb p) (Q * g_base p / g_sb p)).
  split; [cbn; rewrite Lg; cbn; now rewrite Le|].
  assert (EI : sal_init p ex0 gv0 mag ang = Ok (Sal (V5 d 0 x3 x4 x5) None None k)).
  { unfold sal_init. fold P Q. rewrite gcur_pair. fold ir ii. cbv zeta. fold d. fold id iq vqt. fold x5.
    replace (vqt + g_Ra p * iq + id * g_Xdpp p - id * (g_Xdpp p - g_Xl p)) with x4 by (unfold x4, x3; ring).
    replace (x4 + id * (g_Xdp p - g_Xl p)) with x3 by (unfold x4; ring). rewrite Es. cbn [obind].
    replace (x3 * (1 + sat) + id * (g_Xd p - g_Xdp p)) with E by (unfold E; ring).
    replace ((vqt + g_Ra p * iq) * iq - (x5 - iq * g_Xdpp p) * id) with Pm; [now rewrite Ek|].
    rewrite <- PA. unfold x5. replace (vdt + g_Ra p * id) with (g_Xq p * iq) by lra. ring. }
  split; [exact EI|]. split; [|split; [|split; [reflexivity|]]].
  - exists P, Q. cbn [s_0 s_1 s_d s_k o_field o_shaft]. split; [|repeat (split; [solve [auto|discriminate]|]); cbn; auto].
    unfold sal_steady. cbn [y1d y2w y3 y4 y5]. split; [reflexivity|]. rewrite EPD, EX5. split; [|split].
    + pose proof (@norton_back p P Q mag ang Hz) as NB. fold ir ii d in NB. fold id iq vdt vqt in NB. rewrite NB.
      apply (@norton_goal (sal_norton p) V p P Q ir ii); auto; [now apply sal_norton_eq|]. unfold V. now rewrite (stator_cur _ _ _ Hm), gcur_pair.
    + intros k0 (K1 & K2 & K3) KE KM. unfold sal_rates. cbn [y1d y2w y3 y4 y5]. rewrite EPD, EX5.
      destruct (@cur_back p P Q mag ang Hz (k_mag k0) (k_ang k0) K1 K2) as [CB1 CB2]. fold ir ii d in CB1, CB2. fold id iq vdt vqt in CB1, CB2. rewrite CB1, CB2.
      replace (- x4 - (g_Xdp p - g_Xl p) * id + x3) with 0 by (unfold x4; ring). rewrite Es. cbn [obind]. rewrite KE, KM. eexists. f_equal. f_equal.
      f_equal.
      * ring.
      * rewrite <- PA. unfold x5. replace (vdt + g_Ra p * id) with (g_Xq p * iq) by lra. field. exact HH.
      * unfold E. field. split; auto.
      * field. exact HTdpp.
      * replace (vdt + g_Ra p * id - g_Xdpp p * iq) with ((g_Xq p - g_Xdpp p) * iq) by lra. field. exact HTqpp.
    + intros k0 (K1 & K2 & K3). cbv zeta.
      destruct (@cur_back p P Q mag ang Hz (k_mag k0) (k_ang k0) K1 K2) as [CB1 CB2]. fold ir ii d in CB1, CB2. fold id iq vdt vqt in CB1, CB2. rewrite CB1, CB2.
      destruct (@re_back p P Q mag ang ir ii) as [R1 R2]. fold ir ii d in R1, R2. fold id iq in R1, R2. rewrite R1, R2. unfold V. cbn [fst snd].
      apply (@pq_back P Q mag ang Hm).
  - cbn [report0 s_0 s_k y1d y2w]. rewrite KP, KQ. destruct Ak as (_ & -> & -> & _). reflexivity.
  - cbn [o_P o_Q o_shaft o_angle o_field]. split; [unfold P, g_P; field; lra|]. split; [unfold Q, g_Q; field; lra|]. split; [exact FP|exact FE].
Qed.

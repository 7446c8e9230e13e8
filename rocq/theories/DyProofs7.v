(** Proofs: networks that do not stay at the power flow solution. *)
From Coq Require Import Reals Lra.
From Coquelicot Require Import Complex.
From Verif Require Import Prelude CbModel CbSpec CbProofs DbModel DyModel DyProofs DyProofs2 DyProofs3 DyProofs4 DyProofs5 DyProofs6 DySpec.
Open Scope R_scope.

Lemma first_volt b b1 J y V solve dt : bus_for (m_pcur true) b = Ok b1 -> bus_IN b1 = Ok J -> Cmult y V <> J -> linear_solver 1 (fun _ _ => y) solve ->
  forall bs vs, steps solve true [dt] [b] = Ok (bs, vs) -> nth 0 vs [] <> [V].
Proof.
  intros E1 E2 N L bs vs H. cbn [steps] in H. unfold one_step in H. cbn [omapl] in H. rewrite E1 in H. cbn [obind omapl] in H. unfold solve_net in H. cbn [omapl] in H. rewrite E2 in H. cbn [obind] in H.
  destruct (set_volts [b1] (solve [J])) as [b2| |] eqn:S; try discriminate. cbn [obind] in H.
  destruct (omapl (bus_for (m_pred dt true)) b2) as [b3| |]; try discriminate. cbn [obind] in H. destruct (omapl (bus_for m_ccur) b3) as [b4| |]; try discriminate. cbn [obind] in H.
  destruct (omapl bus_IN b4) as [i4| |]; try discriminate. cbn [obind] in H. destruct (set_volts b4 (solve i4)) as [b5| |]; try discriminate. cbn [obind] in H.
  destruct (omapl (bus_for (m_corr dt)) b5) as [b6| |]; try discriminate. cbn [obind] in H. inversion H; subst. cbn [app nth]. intros Z.
  destruct (L [J] eq_refl) as [_ Q]. specialize (Q 0%nat ltac:(lia)). cbn [csum nth] in Q. rewrite Z in Q. cbn [nth] in Q. apply N. rewrite <- Q. ring.
Qed.
Lemma first_current X b V J rs : bus_at X PREDICTOR true b V J rs -> exists b1, bus_for (m_pcur true) b = Ok b1 /\ bus_IN b1 = Ok J.
Proof.
  intros H. edestruct (@bus_for_at X XI PREDICTOR PREDICTOR true true (m_pcur true) b V J rs) as (b1 & E & B); [|exact H|].
  - intros m j r A _. destruct (@m_pcur_at _ _ _ _ _ A) as (m' & E & A' & I). exists m'. auto.
  - exists b1. split; [exact E|]. eapply bus_IN_at, B.
Qed.
(** The start of a bus with any loads *)
Theorem any_start sb y d : 0 < bd_mag d -> let V := phasor d in Forall (gen_ok sb V) (bd_gens d) ->
  let la := (sum_pl (bd_loads d) / sb / (bd_mag d * bd_mag d), - (sum_ql (bd_loads d) / sb) / (bd_mag d * bd_mag d)) : C in
  exists b b1 J, setup sb [(y, d)] = Ok [((y + (la + fold_right (fun g s => gen_adm sb V g + s) (RtoC 0) (bd_gens d)))%C, b)] /\
  bus_for (m_pcur true) b = Ok b1 /\ bus_IN b1 = Ok J /\
  Cminus J (Cmult (fold_right (fun g s => Cplus (gen_adm sb V g) s) (RtoC 0) (bd_gens d)) V) = Cconj (Cdiv (gen_power d) V).
Proof.
  intros Hm V F la. set (ang := bd_deg d * PI / 180).
  destruct (@gens_start sb (bd_mag d) ang (bd_gens d) Hm F) as (ms & sl & ys & gs & Js & rs & L & Len & Fp & Ey & Eg & GA & EQ & GG & ADM).
  assert (B : bus_at X0 PREDICTOR true (Bus sl gs) V (ctotal Js) rs). { exists Js. split; [|reflexivity]. eapply gens_imp, GA. cbn. unfold X0. auto. }
  destruct (first_current B) as (b1 & E1 & E2). exists (Bus sl gs), b1, (ctotal Js). split; [|split; [exact E1|split; [exact E2|]]].
  - unfold setup, bus_setup. cbn [omapl fst snd]. specialize (L [] [] []). cbn [app length] in L. rewrite L. cbn [obind]. rewrite !for_loop by exact Len. fold ang. rewrite Ey. cbn [obind]. rewrite Eg. cbn [obind]. do 3 f_equal.
    fold la. change (bd_mag d * cos ang, bd_mag d * sin ang) with V in ADM. unfold pg_adm. rewrite (no_neg _ Fp). cbn [map ctotal]. rewrite !Cplus_0_l. fold (nodyn (bd_mag d)). rewrite <- ADM. unfold nodyn. ring.
  - change (bd_mag d * cos ang, bd_mag d * sin ang) with V in *. change (gen_power d) with (gsum (bd_gens d)). rewrite <- ADM, Cmult_plus_distr_r, EQ. ring.
Qed.
Lemma not_kept sb y d : 0 < bd_mag d -> Forall (gen_ok sb (phasor d)) (bd_gens d) ->
  Cmult (Cplus y (sum_pl (bd_loads d) / sb / (bd_mag d * bd_mag d), - (sum_ql (bd_loads d) / sb) / (bd_mag d * bd_mag d))) (phasor d) <> Cconj (Cdiv (gen_power d) (phasor d)) ->
  exists y' b, setup sb [(y, d)] = Ok [(y', b)] /\
  y' = Cplus y (Cplus (sum_pl (bd_loads d) / sb / (bd_mag d * bd_mag d), - (sum_ql (bd_loads d) / sb) / (bd_mag d * bd_mag d)) (fold_right (fun g s => Cplus (gen_adm sb (phasor d) g) s) (RtoC 0) (bd_gens d))) /\
  forall solve dt bs vs, linear_solver 1 (fun _ _ => y') solve -> steps solve true [dt] [b] = Ok (bs, vs) -> nth 0 vs [] <> [phasor d].
Proof.
  intros Hm F N. destruct (@any_start sb y d Hm F) as (b & b1 & J & E & E1 & E2 & EJ). do 2 eexists. split; [exact E|]. split; [reflexivity|].
  intros solve dt bs vs L. eapply first_volt; [exact E1|exact E2| |exact L]. intros Z. apply N. rewrite <- EJ, <- Z. ring.
Qed.

(** A load of constant current *)
Definition cur_bus : bdata := Bd (1/2) 0 [Ld true 0 0 100 0 0 0] [Gd true (1/2) 0 (Some (Some ex_cls))].
Lemma cur_v : phasor cur_bus = (1/2, 0).
Proof. unfold phasor. cbn [bd_mag bd_deg cur_bus]. replace (0 * PI / 180) with 0 by field. rewrite cos_0, sin_0. f_equal; ring. Qed.
Lemma cur_flow : power_flow 100 (fun _ _ => RtoC 0) [cur_bus].
Proof.
  intros [|[|i]] d H; cbn in H; try discriminate. inversion H; subst. cbn [length csum nth map]. rewrite cur_v. unfold gen_power, load_power. cbn [bd_gens bd_loads bd_mag fold_right cur_bus gd_on gd_pg gd_qg ld_on ld_pl ld_ql ld_ip ld_iq ld_yp ld_yq]. cc.
Qed.
Lemma solver1 y : y <> RtoC 0 -> (exists solve, linear_solver 1 (fun _ _ => y) solve).
Proof. intros N. exists (fun b => [Cdiv (nth 0 b (RtoC 0)) y]). intros [|b0 [|]] L; try discriminate. split; [reflexivity|]. intros [|i] Hi; [|lia]. cbn [csum nth]. field. exact N. Qed.
Lemma cpl_ne (a b c d : R) : a <> c \/ b <> d -> (a, b) <> ((c, d) : C).
Proof. intros [H|H] E; apply H; congruence. Qed.
Ltac cne := unfold Cdiv, Cminus, Cplus, Copp, Cmult, Cinv, Cconj, RtoC, Ci; cbn [fst snd]; apply cpl_ne.

(** A classical machine with a stator resistance *)
Definition res_clp : clp := Clp 100 (1/4) 0 (1/4) 5 2 0 0.
Definition res_bus : bdata := Bd 1 0 [Ld true 50 0 0 0 0 0] [Gd true (1/2) 0 (Some (Some (DGENCLS res_clp)))].
Lemma res_v : phasor res_bus = (1, 0).
Proof. unfold phasor. cbn [bd_mag bd_deg res_bus]. replace (0 * PI / 180) with 0 by field. rewrite cos_0, sin_0. f_equal; ring. Qed.
Lemma res_flow : power_flow 100 (fun _ _ => RtoC 0) [res_bus].
Proof.
  intros [|[|i]] d H; cbn in H; try discriminate. inversion H; subst. cbn [length csum nth map]. rewrite res_v. unfold gen_power, load_power. cbn [bd_gens bd_loads bd_mag fold_right res_bus gd_on gd_pg gd_qg ld_on ld_pl ld_ql ld_ip ld_iq ld_yp ld_yq]. cc.
Qed.
Theorem res_not_kept : exists y' b, setup 100 [(RtoC 0, res_bus)] = Ok [(y', b)] /\ y' = (5/2, -2) /\
  forall solve dt bs vs, linear_solver 1 (fun _ _ => y') solve -> steps solve true [dt] [b] = Ok (bs, vs) -> nth 0 vs [] <> [phasor res_bus].
Proof.
  set (q := clp_pq res_clp (1/2) 0). set (ang := bd_deg res_bus * PI / 180).
  set (b := Bus [Slot true (1/2) 0 None] [MCLS q (cls_init q 1 ang)]).
  assert (S : setup 100 [(RtoC 0, res_bus)] = Ok [((5/2, -2), b)]).
  { unfold setup, bus_setup. cbn [omapl fst snd bd_gens bd_mag bd_loads res_bus load_gens gd_pg gd_qg gd_on gd_model]. destruct (Rle_dec 0 (1/2)) as [_|N]; [|lra].
    cbn [Nat.eqb length m_load with_pq obind app load_gens for_gens loop_on sl_on m_norton m_init]. fold q. unfold cls_norton. destruct (Req_EM_T (c_dstr q) 0) as [_|N]; [|elim N; reflexivity]. cbn [obind loop_on]. fold ang. do 3 f_equal.
    unfold pg_adm, cl_sbase, q. cbn [ctotal map sl_on sl_pg sl_qg sl_nodyn sum_pl sum_ql ld_on ld_pl ld_ql ld_ip ld_iq ld_yp ld_yq c_r c_dtr c_mva clp_pq res_clp]. destruct (Rlt_dec (1/2) 0); [lra|]. cc. }
  exists (5/2, -2), b. split; [exact S|]. split; [reflexivity|].
  set (q0 := clp_pq (Clp 100 0 0 (1/4) 5 2 0 0) (1/2) 0).
  destruct (@cls_start q0 1 ang) as (y0 & r & N0 & A & _); [lra|cbn; lra|cbn; repeat split; lra|]. change (1 * cos ang, 1 * sin ang) with (phasor res_bus) in A. rewrite res_v in A.
  assert (Y0 : y0 = (0, -4)). { unfold cls_norton in N0. destruct (Req_EM_T _ _) as [_|]; [|discriminate]. inversion N0. unfold cl_sbase. cbn [c_r c_dtr c_mva q0 clp_pq]. cc. } subst y0.
  set (J := Cplus (Cmult (0, -4) (1, 0)) (Cconj (Cdiv (c_pg q0, c_qg q0) (1, 0)))) in *.
  destruct (@m_pcur_at true (MCLS q0 (cls_init q0 1 ang)) (1, 0) J (Some r)) as (m' & E & _ & I); [split; [cbn; lra|exact A]|].
  intros solve dt bs vs L. eapply first_volt with (J := J) (y := (5/2, -2)); [| |rewrite res_v; unfold J; cbn [c_pg c_qg q0 clp_pq]; cne; right; lra|exact L].
  - unfold b, bus_for. cbn [u_slots u_gens for_gens loop_on sl_on m_pcur obind]. reflexivity.
  - unfold bus_IN. cbn [u_slots u_gens for_gens loop_on sl_on obind m_IN ctotal]. rewrite Cplus_0_r. f_equal.
    cbn [m_pcur] in E. inversion E; subst m'. cbn [m_IN] in I. exact I.
Qed.

(** ** Controllers *)
Theorem exc_turns d v e dts : exc_ok d v e -> exc_from d v e (turns v dts) = Ok (repeat e (2 * length dts)).
Proof.
  intros H. destruct (@exc_start d v e H) as (x0 & E0 & x & E1 & A). unfold exc_from. rewrite E0. cbn [obind]. rewrite E1. cbn [obind]. clear E0 E1 x0. revert x A. induction dts as [|dt l IH]; intros x A; [reflexivity|]. cbn [turns exc_sim].
  destruct (@exc_keep _ _ _ _ dt (@exc_setV_at _ _ _ _ A)) as (x1 & -> & A1). cbn [obind].
  destruct (@exc_keep _ _ _ _ dt (@exc_setV_at _ _ _ _ A1)) as (x2 & -> & A2). cbn [obind]. rewrite (IH x2 (@exc_down _ _ _ A2)). cbn [obind]. rewrite (@exc_Efd_at _ _ _ _ A1), (@exc_Efd_at _ _ _ _ A2).
  f_equal. cbn [length]. rewrite Nat.mul_succ_r, Nat.add_comm. reflexivity.
Qed.
Theorem gov_turns d P dts : gov_ok d P -> gov_from d P (turns 0 dts) = Ok (repeat P (2 * length dts)).
Proof.
  intros H. destruct (@gov_start d P H) as (x0 & E0 & x & E1 & A). unfold gov_from. rewrite E0. cbn [obind]. rewrite E1. cbn [obind]. clear E0 E1 x0. revert x A. induction dts as [|dt l IH]; intros x A; [reflexivity|]. cbn [turns gov_sim].
  destruct (@gov_keep _ _ _ dt (@gov_setw_at _ _ _ A)) as (x1 & -> & A1). cbn [obind].
  destruct (@gov_keep _ _ _ dt (@gov_setw_at _ _ _ A1)) as (x2 & -> & A2). cbn [obind]. rewrite (IH x2 (@gov_down _ _ A2)). cbn [obind]. rewrite (@gov_P_at _ _ _ A1), (@gov_P_at _ _ _ A2).
  f_equal. cbn [length]. rewrite Nat.mul_succ_r, Nat.add_comm. reflexivity.
Qed.
Lemma deaf_sim g l : (match g with GAST _ _ | HYGOV _ _ => True | _ => False end) -> gov_sim g l = gov_sim g (map (fun x => (fst (fst x), 0, snd x)) l).
Proof.
  revert g. induction l as [|[[st w] dt] l IH]; intros g H; [reflexivity|]. cbn [gov_sim map fst snd]. destruct g as [p s|p s|p s|p s]; try contradiction; cbn [gov_setw gov_run].
  - destruct (gast_run p s dt st) as [s'| |]; cbn [obind]; try reflexivity. now rewrite (IH (GAST p s') I).
  - destruct (hygov_run p s dt st) as [s'| |]; cbn [obind]; try reflexivity. now rewrite (IH (HYGOV p s') I).
Qed.
Lemma deaf_from d P l : (match d with DGAST _ | DHYGOV _ => True | _ => False end) -> gov_from d P l = gov_from d P (map (fun x => (fst (fst x), 0, snd x)) l).
Proof.
  intros H. unfold gov_from. destruct d as [p|p|p|p]; try contradiction; cbn [gov_load].
  - destruct (gast_load p) as [s| |]; cbn [obind gov_setP gov_setw gov_init]; try reflexivity. destruct (gast_init _ _) as [s'| |]; cbn [obind]; try reflexivity. now apply deaf_sim.
  - destruct (hygov_load p) as [s| |]; cbn [obind gov_setP gov_setw gov_init]; try reflexivity. destruct (hygov_init _ _) as [s'| |]; cbn [obind]; try reflexivity. now apply deaf_sim.
Qed.
(** EXDC1 with another TC *)
Definition with_TC (p : dcp) (t : R) : dcp := Dcp (e_TR p) (e_KA p) (e_TA p) (e_TB p) t (e_Vrmax p) (e_Vrmin p) (e_KE p) (e_TE p) (e_KF p) (e_TF1 p) (e_E1 p) (e_SE1 p) (e_E2 p) (e_SE2 p).
Lemma with_TC_run p t s dt st : has_ll p = true -> has_ll (with_TC p t) = true -> dc_run true (with_TC p t) s dt st = dc_run true p s dt st.
Proof. reflexivity. Qed.
Lemma TC_sim p t s l : has_ll p = true -> has_ll (with_TC p t) = true -> exc_sim (EXDC1 (with_TC p t) s) l = exc_sim (EXDC1 p s) l.
Proof.
  intros H1 H2. revert s. induction l as [|[[st v] dt] l IH]; intros s; [reflexivity|]. cbn [exc_sim exc_setV exc_run]. rewrite H1, H2, with_TC_run by auto.
  destruct (dc_run true p (dc_setV s v) dt st) as [s'| |]; cbn [obind]; try reflexivity. now rewrite IH.
Qed.
Theorem TC_unused p t v e l : e_TC p <> 0 -> ~ Rabs (e_TB p * e_TC p) < / 1000000 -> ~ Rabs (e_TB p * t) < / 1000000 -> exc_from (DEXDC1 (with_TC p t)) v e l = exc_from (DEXDC1 p) v e l.
Proof.
  intros _ N1 N2. assert (H1 : has_ll p = true) by (unfold has_ll, small6; destruct (Rlt_dec _ _); [contradiction|reflexivity]).
  assert (H2 : has_ll (with_TC p t) = true) by (unfold has_ll, small6; cbn [e_TB e_TC with_TC]; destruct (Rlt_dec _ _); [contradiction|reflexivity]).
  assert (L : exdc1_load (with_TC p t) = exdc1_load p). { unfold exdc1_load. rewrite H1, H2. reflexivity. }
  unfold exc_from. cbn [exc_load]. rewrite L. destruct (exdc1_load p) as [s| |]; cbn [obind]; try reflexivity. cbn [exc_setV exc_setE exc_init].
  assert (I : exdc1_init (with_TC p t) (dc_setE (dc_setV s v) e) = exdc1_init p (dc_setE (dc_setV s v) e)). { unfold exdc1_init. rewrite H1, H2. reflexivity. }
  rewrite I. destruct (exdc1_init p _) as [s'| |]; cbn [obind]; try reflexivity. now apply TC_sim.
Qed.
(** SEXS with TE = 0 *)
Definition clamp_sexs : sxp := Sxp 1 1 100 4 (1/2) 0.
Theorem sexs_clamped v dt : exc_from (DSEXS clamp_sexs) v 1 [(PREDICTOR, v, dt)] = Ok [4].
Proof.
  unfold exc_from. cbn [exc_load]. unfold sexs_load. cbn [x_TAB x_TB x_TE clamp_sexs]. destruct (@leadlag_set (1 * 1) 1 ltac:(lra)) as (c & -> & M & L1 & L2 & L3 & L4 & L5 & L6). cbn [obind].
  rewrite small6_true by (rewrite Rabs_R0; lra). cbn [obind exc_setV exc_setE exc_init]. unfold sexs_init. cbn [sx_ll sx_fl sx_Ec sx_Vref sx_Vs sx_Efd x_TE x_K x_EMAX x_EMIN clamp_sexs].
  rewrite small6_true by (rewrite Rabs_R0; lra). unfold rdiv. destruct (Req_EM_T 100 0); [lra|]. cbn [obind].
  replace (cmin 4 (cmax (1 / 2) (1 / 100))) with (1/2) by (unfold cmin, cmax; destruct (Rlt_dec (1/2) (1/100)); [lra|]; destruct (Rlt_dec _ _); lra).
  destruct (@leadlag_y c _ _ (1/2) M) as (c' & -> & RR); [split; [lra|rewrite Rabs_R1; lra]| | | |]; lims. cbn [obind exc_sim exc_setV exc_run]. unfold sexs_run. cbn [sx_ll sx_fl sx_Ec sx_Vref sx_Vs sx_Efd x_TE x_K x_EMAX x_EMIN clamp_sexs].
  replace (v + 1 / 2 - 0 + 0 - v) with (1/2) by lra. destruct (@at_run PREDICTOR c' (1/2) (1/2) dt (rest_at RR)) as (c2 & -> & _). cbn [obind].
  rewrite small6_true by (rewrite Rabs_R0; lra). unfold gain_out, gain_set3, gain_new. cbn [gK gymin gymax rd obind].
  assert (E : clamp (1/2) (100 * (1/2)) 4 = 4). { unfold clamp. replace (cmin (100 * (1/2)) 4) with 4 by (unfold cmin; destruct (Rlt_dec _ _); lra). unfold cmax. destruct (Rlt_dec _ _); lra. }
  rewrite E. reflexivity.
Qed.
(** WSIEG1 that uses the second output only *)
Definition even_ws : wsp := Wsp 20 0 0 1 (1/10) (-1/10) 1 0 0 0 1 0 0 0 0 0 0 0 0 0 0.
Theorem even_run dt : gov_from (DWSIEG1 even_ws) (1/2) [(PREDICTOR, 0, dt)] = Ok [0].
Proof.
  assert (Z : is0 0 = true) by (unfold is0; destruct (Req_EM_T 0 0); [reflexivity|lra]).
  assert (NL : ws_has_ll even_ws = false) by (unfold ws_has_ll; cbn [w_T1 w_T2 even_ws]; now rewrite Z).
  unfold gov_from. cbn [gov_load]. unfold wsieg1_load. rewrite NL. cbn [obind].
  destruct (@integ_set 1 R1_neq_R0) as (pb & -> & Mo & O1 & O2 & O3 & O4 & O5 & O6). cbn [obind with_x]. unfold opt_filter. cbn [w_T4 w_T5 w_T6 w_T7 w_Pmin w_Pmax w_Uo w_Uc even_ws]. rewrite Z. cbn [obind].
  cbn [gov_setP gov_setw gov_init]. unfold wsieg1_init. rewrite NL. cbn [ws_ll ws_P ws_f1 ws_f2 ws_f3 ws_f4 ws_Uo ws_Uc ws_Pmax ws_Pmin ws_Pm1 ws_Pm2 ws_w ws_GV ws_GV0 w_K1 w_K2 w_K3 w_K4 w_K5 w_K6 w_K7 w_K8 w_T4 w_T5 w_T6 w_T7 even_ws].
  destruct (Rlt_dec 0 (0 + 0 + 0 + 0)) as [N|_]; [lra|]. destruct (Rlt_dec 0 (1 + 0 + 0 + 0)) as [_|N]; [|lra]. unfold ws_back. rewrite Z. cbn [obind].
  replace (1 / 2 / (1 + 0 + 0 + 0)) with (1/2) by field.
  destruct (@level_y (setxlimits pb 0 1) _ _ _ (1/2) (made_xlim _ _ Mo)) as (pb' & -> & Rp); cbn; lims. unfold wsieg1_run. rewrite NL.
  cbn [ws_ll ws_P ws_f1 ws_f2 ws_f3 ws_f4 ws_Uo ws_Uc ws_Pmax ws_Pmin ws_Pm1 ws_Pm2 ws_w ws_GV ws_GV0 w_K w_T3 w_Db2 w_K1 w_K2 w_K3 w_K4 w_K5 w_K6 w_K7 w_K8 w_T4 w_T5 w_T6 w_T7 even_ws obind].
  rewrite rdiv_ok by lra. cbn [obind]. replace ((1 / 2 - 0 * 20 - 1 / 2) * 1 / 1) with 0 by field.
  rewrite limit_id by (destruct (Rlt_dec _ _), (Rlt_dec _ _); lra). destruct (@at_run PREDICTOR pb' 0 (1/2) dt (rest_at Rp)) as (c2 & -> & _). cbn [obind]. unfold ws_fwd. rewrite Z. cbn [obind gov_P ws_Pm1]. f_equal. f_equal. ring.
Qed.
(** WSIEG1 whose gate opening is above the limit at the start *)
Definition high_ws : wsp := Wsp 20 0 0 1 (1/10) (-1/10) (2/5) 0 0 1 0 0 0 0 0 0 0 0 0 0 0.
Lemma clamp_hi lo x hi : lo <= hi -> hi <= x -> clamp lo x hi = hi.
Proof. intros H1 H2. unfold clamp, cmin, cmax. repeat destruct (Rlt_dec _ _); lra. Qed.
Lemma high_block pb dt : made 1 0 0 1 pb -> ymin pb = -1000 -> ymax pb = 1000 -> dxmin pb = -1000 -> dxmax pb = 1000 ->
  exists c1, getoutput (set_x (setxlimits pb 0 (2/5)) (1/2)) 0 dt PREDICTOR true = Ok (c1, 1/2) /\ forall dt2, exists c2, getoutput c1 0 dt2 CORRECTOR true = Ok (c2, 2/5).
Proof.
  intros Mo O3 O4 O5 O6. destruct (made_abcd Mo) as (_ & EA & EB & EC & ED).
  unfold getoutput at 1, getoutput_lim at 1, raw_output at 1, stage_x at 1, updatestate_lim at 1, getderivative at 1. cbn [set_x setxlimits cx cA cB cC cD xmin xmax ymin ymax dxmin dxmax]. rewrite EA, EB, EC, ED. cbn [rd obind].
  rewrite O3, O4, O5, O6. rewrite (@clamp_id (-1000) (1 * (1 / 2) + 0 / 1 * 0) 1000) by (unfold inside; lra). replace (1 * (1 / 2) + 0 / 1 * 0) with (1/2) by field.
  match goal with |- context [clamp (-1000) ?e 1000] => replace e with 0 by field end. rewrite clamp0 by lra. replace (1 / 2 + dt * 0) with (1/2) by ring. rewrite (@clamp_hi 0 (1/2) (2/5)) by lra.
  eexists. split; [reflexivity|]. intros dt2.
  unfold getoutput, getoutput_lim, raw_output, stage_x, updatestate_lim, getderivative. cbn [set_x setxlimits cx cA cB cC cD xhat dxdt xmin xmax ymin ymax dxmin dxmax rd obind]. rewrite ?EA, ?EB, ?EC, ?ED. cbn [rd obind].
  rewrite (@clamp_id (-1000) (1 * (2 / 5) + 0 / 1 * 0) 1000) by (unfold inside; lra). replace (1 * (2 / 5) + 0 / 1 * 0) with (2/5) by field. eexists. reflexivity.
Qed.
Theorem high_run dt : gov_from (DWSIEG1 high_ws) (1/2) [(PREDICTOR, 0, dt); (CORRECTOR, 0, dt)] = Ok [1/2; 2/5].
Proof.
  assert (Z : is0 0 = true) by (unfold is0; destruct (Req_EM_T 0 0); [reflexivity|lra]).
  assert (NL : ws_has_ll high_ws = false) by (unfold ws_has_ll; cbn [w_T1 w_T2 high_ws]; now rewrite Z).
  unfold gov_from. cbn [gov_load]. unfold wsieg1_load. rewrite NL. cbn [obind].
  destruct (@integ_set 1 R1_neq_R0) as (pb & -> & Mo & O1 & O2 & O3 & O4 & O5 & O6). cbn [obind with_x]. unfold opt_filter. cbn [w_T4 w_T5 w_T6 w_T7 w_Pmin w_Pmax w_Uo w_Uc high_ws]. rewrite Z. cbn [obind].
  cbn [gov_setP gov_setw gov_init]. unfold wsieg1_init. rewrite NL. cbn [ws_ll ws_P ws_f1 ws_f2 ws_f3 ws_f4 ws_Uo ws_Uc ws_Pmax ws_Pmin ws_Pm1 ws_Pm2 ws_w ws_GV ws_GV0 w_K1 w_K2 w_K3 w_K4 w_K5 w_K6 w_K7 w_K8 w_T4 w_T5 w_T6 w_T7 high_ws].
  destruct (Rlt_dec 0 (1 + 0 + 0 + 0)) as [_|N]; [|lra]. unfold ws_back. rewrite Z. cbn [obind]. replace (1 / 2 / (1 + 0 + 0 + 0)) with (1/2) by field.
  destruct (made_abcd Mo) as (_ & EA & EB & EC & ED).
  assert (I : init_given_y (setxlimits pb 0 (2/5)) (1/2) = Ok (set_x (setxlimits pb 0 (2/5)) (1/2), 0)).
  { unfold init_given_y. cbn [setxlimits cA]. rewrite EA. cbn [rd obind]. destruct (Rlt_dec _ _) as [_|L]; [reflexivity|]. exfalso. apply L. replace (- 0 / 1) with 0 by field. rewrite Rabs_R0. apply tiny_pos. }
  rewrite I. cbn [obind gov_sim gov_setw gov_run]. unfold wsieg1_run. rewrite NL.
  cbn [ws_ll ws_P ws_f1 ws_f2 ws_f3 ws_f4 ws_Uo ws_Uc ws_Pmax ws_Pmin ws_Pm1 ws_Pm2 ws_w ws_GV ws_GV0 w_K w_T3 w_Db2 w_K1 w_K2 w_K3 w_K4 w_K5 w_K6 w_K7 w_K8 w_T4 w_T5 w_T6 w_T7 high_ws obind].
  rewrite rdiv_ok by lra. cbn [obind]. replace ((1 / 2 - 0 * 20 - 1 / 2) * 1 / 1) with 0 by field.
  rewrite limit_id by (destruct (Rlt_dec _ _), (Rlt_dec _ _); lra).
  destruct (@high_block pb dt Mo O3 O4 O5 O6) as (c1 & -> & G2). cbn [obind]. unfold ws_fwd. rewrite Z. cbn [obind].
  rewrite limit_id by (destruct (Rlt_dec _ _), (Rlt_dec _ _); lra). assert (Dd : forall x, dead_out 0 0 x = x) by (intros x; unfold dead_out, close6; repeat destruct (Rlt_dec _ _); lra). rewrite !Dd.
  cbn [obind gov_sim gov_setw gov_run]. unfold wsieg1_run. rewrite NL.
  cbn [ws_ll ws_P ws_f1 ws_f2 ws_f3 ws_f4 ws_Uo ws_Uc ws_Pmax ws_Pmin ws_Pm1 ws_Pm2 ws_w ws_GV ws_GV0 w_K w_T3 w_Db2 w_K1 w_K2 w_K3 w_K4 w_K5 w_K6 w_K7 w_K8 w_T4 w_T5 w_T6 w_T7 high_ws obind].
  rewrite rdiv_ok by lra. cbn [obind]. replace ((1 / 2 - 0 * 20 - 1 / 2) * 1 / 1) with 0 by field.
  rewrite limit_id by (destruct (Rlt_dec _ _), (Rlt_dec _ _); lra). destruct (G2 dt) as (c2 & ->). cbn [obind]. unfold ws_fwd. rewrite Z. cbn [obind].
  rewrite limit_id by (destruct (Rlt_dec _ _), (Rlt_dec _ _); lra). rewrite !Dd. cbn [gov_P ws_Pm1 gov_sim obind]. f_equal. f_equal; [ring|]. f_equal. ring.
Qed.

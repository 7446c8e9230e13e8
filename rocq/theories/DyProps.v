(** Theorems about dynamic simulation (C56): a simulation without a disturbance stays at the power flow solution. *)
From Coq Require Import Reals Lra.
From Coquelicot Require Import Complex.
From Verif Require Import Prelude CbModel CbSpec CbProofs DbModel DyModel DyProofs DyProofs2 DyProofs3 DyProofs4 DyProofs5 DyProofs6 DyProofs7 DySpec.
Open Scope R_scope.

(** A network at the power flow solution: setup succeeds and puts the machines and loads into the matrix; with a linear solver of that matrix every
    number of time steps, of any lengths, succeeds; both network solutions of every step are the voltages of the power flow; the machines start in
    the steady state (speed, field voltage, mechanical power, power) and are still there after the last step.  Missing for the full property: loads
    of constant current and admittance, classical machines with resistance or on another base, and the other cases refuted below. *)
Theorem C56_undisturbed_partial : forall sb Y xs,
  (forall i y d, nth_error xs i = Some (y, d) -> y = Y i i /\ bus_ok sb d) -> power_flow sb Y (map snd xs) ->
  exists ybs, setup sb xs = Ok ybs /\
  (forall i y d, nth_error xs i = Some (y, d) -> exists b, nth_error ybs i = Some ((y + bus_adm sb d)%C, b)) /\
  forall solve, linear_solver (length xs) (system Y ybs) solve -> regular (length xs) (system Y ybs) ->
  forall dt dts, exists bs', steps solve true (dt :: dts) (map snd ybs) = Ok (bs', repeat (map phasor (map snd xs)) (2 * length (dt :: dts))) /\
  forall i y d, nth_error xs i = Some (y, d) -> exists y' b b', nth_error ybs i = Some (y', b) /\ nth_error bs' i = Some b' /\ at_rest sb d b b'.
Proof. exact undisturbed. Qed.
Print Assumptions C56_undisturbed_partial.

(** Two buses: GENROU with SEXS and TGOV1, a generator without a model and a machine out of service at one, GENSAL with saturation, EXDC1 and
    HYGOV, and GENCLS at the other. *)
Example C56_undisturbed_nonvacuous :
  (forall i y d, nth_error ex_net i = Some (y, d) -> y = exY i i /\ bus_ok 100 d) /\ power_flow 100 exY (map snd ex_net) /\ length ex_net = 2%nat /\
  exists ybs, setup 100 ex_net = Ok ybs /\ (exists solve, linear_solver 2 (system exY ybs) solve) /\ regular 2 (system exY ybs).
Proof. exact (conj ex_ok (conj ex_flow (conj eq_refl ex_solver))). Qed.

(** Exciters and governors by themselves: at constant voltage the field voltage stays, and at nominal speed the mechanical power. *)
Theorem C56_exciters : forall d v e dts, exc_ok d v e -> exc_from d v e (turns v dts) = Ok (repeat e (2 * length dts)).
Proof. exact exc_turns. Qed.
Print Assumptions C56_exciters.
Theorem C56_governors : forall d P dts, gov_ok d P -> gov_from d P (turns 0 dts) = Ok (repeat P (2 * length dts)).
Proof. exact gov_turns. Qed.
Print Assumptions C56_governors.
Example C56_exciters_nonvacuous : exc_ok (DSEXS ex_sexs) 1 (11/10) /\ exc_ok (DIEEET1 ex_exdc1) 1 2 /\ exc_ok (DEXDC1 ex_exdc1) 1 2.
Proof.
  assert (S : sat_signal ex_exdc1 2 = Ok 2). { unfold sat_signal, has_sat, ex_exdc1. cbn [e_SE1 e_SE2 e_KE]. rewrite small6_true by (rewrite Rmult_0_l, Rabs_R0; lra). cbn [negb]. f_equal. ring. }
  assert (D : forall l, dc_ok l ex_exdc1 1 2). { intros l. unfold dc_ok. exists 2. split; [exact S|]. unfold ex_exdc1. cbn [e_TR e_KA e_TA e_TB e_TC e_Vrmax e_Vrmin e_KE e_TE e_KF e_TF1].
    split; [lra|]. split; [bd|]. split; [bd|]. split; [lra|]. split; [lra|]. split; [left; rewrite Rabs_R0; lra|].
    split; [split; [apply tc_pos'; lra|]; split; [right; unfold tiny; rewrite Rabs_right; lra|bd]|]. split; [right; apply tc_pos'; lra|].
    intros _. right. split; [apply tc_pos'; lra|]. split; bd. }
  split; [|split; apply D]. cbn [exc_ok]. unfold sexs_ok, ex_sexs. cbn. split; [apply tc_pos'; lra|]. repeat split; try lra. left. split; [apply tc_pos'; lra|]. rewrite Rabs_right; lra.
Qed.
Example C56_governors_nonvacuous : gov_ok (DTGOV1 ex_tgov1) (3/5) /\ gov_ok (DHYGOV ex_hygov) (3/5) /\
  gov_ok (DGAST (Gap (1/20) 1 1 3 1 2 1 0 0)) (3/5) /\ gov_ok (DWSIEG1 (Wsp 20 1 2 1 (1/10) (-1/10) 1 0 (1/2) (1/2) 0 0 (1/2) 0 0 0 0 0 0 0 0)) (3/5).
Proof.
  repeat split; cbn; try lra; try (apply tc_pos'; lra); try (rewrite Rabs_right; lra).
  - exists (3/10). split; [reflexivity|lra].
  - right. right. apply tc_pos'. lra.
  - intros t [<-|[<-|[<-|[<-|[]]]]]; auto. right. apply tc_pos'. lra.
Qed.

(** The saturation of GENSAL and GENROU goes through the two points of the data. *)
Theorem C56_saturation : forall p, 0 < g_S10 p < g_S12 p -> sal_sat p 1 = Ok (g_S10 p) /\ sal_sat p 1.2 = Ok (g_S12 p).
Proof. intros p H. unfold sal_sat. now apply gen_sat_points. Qed.
Print Assumptions C56_saturation.
Example C56_saturation_nonvacuous : 0 < g_S10 (ex_par (1/25) (4/25)) < g_S12 (ex_par (1/25) (4/25)).
Proof. cbn. lra. Qed.

(** A load of constant current (or constant admittance) is put into the matrix with the power it has at voltage 1: at another voltage the first network
    solution is not the power flow solution (dsf_components.cpp:1160-1186). *)
Theorem C56_load_types_refuted : exists d m, 0 < bd_mag d /\ bd_gens d = [Gd true (1/2) 0 (Some (Some m))] /\ machine_ok 100 (with_pq m 100 (1/2) 0) (phasor d) /\ power_flow 100 (fun _ _ => RtoC 0) [d] /\
  exists y' b, setup 100 [(RtoC 0, d)] = Ok [(y', b)] /\ (exists solve, linear_solver 1 (fun _ _ => y') solve) /\
  forall solve dt bs vs, linear_solver 1 (fun _ _ => y') solve -> steps solve true [dt] [b] = Ok (bs, vs) -> nth 0 vs [] <> [phasor d].
Proof.
  exists cur_bus, ex_cls. assert (G : Forall (gen_ok 100 (phasor cur_bus)) (bd_gens cur_bus)). { constructor; [|constructor]. split; [cbn; lra|]. cbn [gd_model gd_on]. apply ex_cls_ok. }
  split; [cbn; lra|]. split; [reflexivity|]. split; [apply ex_cls_ok|]. split; [exact cur_flow|].
  destruct (@not_kept 100 (RtoC 0) cur_bus) as (y' & b & E & Ey & H); [cbn; lra|exact G| |].
  - rewrite cur_v. unfold gen_power. cbn [bd_gens bd_loads bd_mag fold_right cur_bus gd_on gd_pg gd_qg sum_pl sum_ql ld_on ld_pl ld_ql ld_ip ld_iq ld_yp ld_yq]. cne. left. intros Z. field_simplify in Z. lra.
  - exists y', b. split; [exact E|]. split; [|exact H]. apply solver1. rewrite Ey. unfold gen_adm, machine_adm. cbn [bd_gens bd_loads bd_mag fold_right cur_bus gd_on gd_model gd_pg gd_qg with_pq ex_cls c_mva c_r c_dtr clp_pq sum_pl sum_ql ld_on ld_pl ld_ql ld_ip ld_iq ld_yp ld_yq].
    cne. left. intros Z. field_simplify in Z. lra.
Qed.
Print Assumptions C56_load_types_refuted.

(** GENCLS with a stator resistance: it is part of the admittance in the matrix and not of the injected current (classical.cpp:178-217), so the first
    network solution is not the power flow solution. *)
Theorem C56_classical_resistance_refuted : exists d p, bd_gens d = [Gd true (1/2) 0 (Some (Some (DGENCLS p)))] /\ 0 < c_r p /\ power_flow 100 (fun _ _ => RtoC 0) [d] /\
  exists y' b, setup 100 [(RtoC 0, d)] = Ok [(y', b)] /\ (exists solve, linear_solver 1 (fun _ _ => y') solve) /\
  forall solve dt bs vs, linear_solver 1 (fun _ _ => y') solve -> steps solve true [dt] [b] = Ok (bs, vs) -> nth 0 vs [] <> [phasor d].
Proof.
  exists res_bus, res_clp. split; [reflexivity|]. split; [cbn; lra|]. split; [exact res_flow|]. destruct res_not_kept as (y' & b & E & Ey & H). exists y', b. split; [exact E|]. split; [|exact H].
  apply solver1. rewrite Ey. unfold RtoC. apply cpl_ne. left. lra.
Qed.
Print Assumptions C56_classical_resistance_refuted.

(** GENCLS takes the system base for 100 whatever CASE_SBASE is (classical.cpp:52): on a base of 50 the admittance of the machine is half of what it is. *)
Theorem C56_classical_base_refuted : exists d p b, bd_gens d = [Gd true (1/2) 0 (Some (Some (DGENCLS p)))] /\ bd_loads d = [] /\ c_r p = 0 /\ c_dstr p = 0 /\
  setup 50 [(RtoC 0, d)] = Ok [((0, -4), b)] /\ Cdiv (RtoC (c_mva p / 50)) (c_r p, c_dtr p) = (0, -8).
Proof.
  exists (Bd 1 0 [] [Gd true (1/2) 0 (Some (Some ex_cls))]), (Clp 100 0 0 (1/4) 5 2 0 0).
  eexists. split; [reflexivity|]. split; [reflexivity|]. split; [reflexivity|]. split; [reflexivity|]. split; [|cbn [c_mva c_r c_dtr]; cc].
  unfold setup, bus_setup. cbn [omapl fst snd bd_gens bd_mag bd_loads load_gens gd_pg gd_qg gd_on gd_model]. destruct (Rle_dec 0 (1/2)) as [_|N]; [|lra].
  cbn [Nat.eqb length m_load with_pq obind app load_gens for_gens loop_on sl_on m_norton m_init ex_cls]. unfold cls_norton. cbn [c_dstr clp_pq]. destruct (Req_EM_T 0 0) as [_|N]; [|lra]. cbn [obind loop_on]. do 3 f_equal.
  unfold pg_adm, cl_sbase. cbn [ctotal map sl_on sl_pg sl_qg sl_nodyn sum_pl sum_ql c_r c_dtr c_mva clp_pq]. destruct (Rlt_dec (1/2) 0); [lra|]. cc.
Qed.
Print Assumptions C56_classical_base_refuted.

(** GENCLS with a subtransient reactance: the member xd is read without having been assigned (classical.cpp:178-190). *)
Theorem C56_classical_subtransient_refuted : forall y p, c_dstr p <> 0 -> setup 100 [(y, Bd 1 0 [] [Gd true 1 0 (Some (Some (DGENCLS p)))])] = UB.
Proof.
  intros y p H. unfold setup, bus_setup. cbn [omapl fst snd bd_gens bd_mag bd_loads load_gens gd_pg gd_qg gd_on gd_model]. destruct (Rle_dec 0 1) as [_|N]; [|lra].
  cbn [Nat.eqb length m_load with_pq obind app load_gens for_gens loop_on sl_on m_norton m_init]. unfold cls_norton. cbn [c_dstr clp_pq]. destruct (Req_EM_T (c_dstr p) 0); [contradiction|reflexivity].
Qed.
Print Assumptions C56_classical_subtransient_refuted.

(** GENSAL without saturation (S10 = 0): the saturation divides by zero (gensal.cpp:96-112), so no value of the machine is a number; GENROU with the
    same data has a test for it. *)
Theorem C56_no_saturation_refuted : forall y p, g_S10 p = 0 -> setup 100 [(y, Bd 1 0 [] [Gd true 1 0 (Some (Some (DGENSAL p None None)))])] = UB.
Proof.
  intros y p H. unfold setup, bus_setup. cbn [omapl fst snd bd_gens bd_mag bd_loads load_gens gd_pg gd_qg gd_on gd_model]. destruct (Rle_dec 0 1) as [_|N]; [|lra].
  cbn [Nat.eqb length m_load with_pq obind app load_gens for_gens loop_on sl_on m_norton m_init omap]. unfold sal_init. set (c := g_cur _ _ _ _). destruct c as [ir ii].
  unfold sal_sat, gen_sat. cbn [g_S10 gpar_pq]. rewrite H. unfold rdiv at 1. destruct (Req_EM_T 0 0); [reflexivity|lra].
Qed.
Print Assumptions C56_no_saturation_refuted.

(** A generator that consumes, before one with a model on the same bus: the machine is appended to the list of machines but used under the number of
    the generator (dsf_components.cpp:933-1121), an access behind the end of the list. *)
Theorem C56_negative_generator_refuted : forall sb y d l, setup sb [(y, Bd 1 0 l [Gd true (-1) 0 None; Gd true 1 0 (Some (Some d))])] = UB.
Proof.
  intros sb y d l. unfold setup, bus_setup. cbn [omapl fst snd bd_gens bd_mag bd_loads load_gens gd_pg gd_qg gd_on gd_model]. destruct (Rle_dec 0 (-1)) as [N|_]; [lra|].
  destruct (Rle_dec 0 1) as [_|N]; [|lra]. reflexivity.
Qed.
Print Assumptions C56_negative_generator_refuted.

(** A generator that consumes: it is in the list of negative generators and is also found by its negative power, so the matrix has its load twice
    (dsf_components.cpp:223-258). *)
Theorem C56_negative_twice_refuted : exists d b, bd_gens d = [Gd true (-1) 0 None] /\ bd_loads d = [] /\ setup 100 [(RtoC 0, d)] = Ok [(RtoC 2, b)] /\ bus_adm 100 d = RtoC 1.
Proof.
  exists (Bd 1 0 [] [Gd true (-1) 0 None]), (Bus [Slot true (-1) 0 None] []). split; [reflexivity|]. split; [reflexivity|]. split.
  - unfold setup, bus_setup. cbn [omapl fst snd bd_gens bd_mag bd_loads load_gens gd_pg gd_qg gd_on gd_model]. destruct (Rle_dec 0 (-1)) as [N|_]; [lra|]. cbn [obind app for_gens]. do 3 f_equal.
    unfold pg_adm, neg_adm. cbn [ctotal map sl_on sl_pg sl_qg sl_nodyn sum_pl sum_ql fst snd]. destruct (Rlt_dec (-1) 0); [|lra]. cc.
  - unfold bus_adm, gen_adm, power_adm, load_power, phasor. cbn [bd_gens bd_loads bd_mag bd_deg fold_right gd_on gd_model gd_pg gd_qg]. rewrite Cmod_phasor by lra. cc.
Qed.
Print Assumptions C56_negative_twice_refuted.

(** A generator without a model that is out of service is put into the matrix as if it were in service (dsf_components.cpp:249-257 looks at the model only). *)
Theorem C56_out_of_service_refuted : exists d b, bd_gens d = [Gd false 1 0 None] /\ bd_loads d = [] /\ setup 100 [(RtoC 0, d)] = Ok [(RtoC (-1), b)] /\ bus_adm 100 d = RtoC 0.
Proof.
  exists (Bd 1 0 [] [Gd false 1 0 None]), (Bus [Slot false 1 0 (Some (1, 0))] [MRAW LBASE]). split; [reflexivity|]. split; [reflexivity|]. split.
  - unfold setup, bus_setup. cbn [omapl fst snd bd_gens bd_mag bd_loads load_gens gd_pg gd_qg gd_on gd_model]. destruct (Rle_dec 0 1) as [_|N]; [|lra]. cbn [obind app for_gens loop_on sl_on]. do 3 f_equal.
    unfold pg_adm, neg_adm. cbn [ctotal map sl_on sl_pg sl_qg sl_nodyn sum_pl sum_ql fst snd]. cc.
  - unfold bus_adm, gen_adm, power_adm, load_power, phasor. cbn [bd_gens bd_loads bd_mag bd_deg fold_right gd_on gd_model gd_pg gd_qg]. rewrite Cmod_phasor by lra. cc.
Qed.
Print Assumptions C56_out_of_service_refuted.

(** A generator model the factory does not know: the null pointer it returns is used (dsf_components.cpp:960-1000). *)
Theorem C56_unknown_model_refuted : forall sb y, setup sb [(y, Bd 1 0 [] [Gd true 1 0 (Some None)])] = UB.
Proof.
  intros sb y. unfold setup, bus_setup. cbn [omapl fst snd bd_gens bd_mag bd_loads load_gens gd_pg gd_qg gd_on gd_model]. destruct (Rle_dec 0 1) as [_|N]; [|lra]. reflexivity.
Qed.
Print Assumptions C56_unknown_model_refuted.

(** EXDC1: the time constant TC of the regulator has no effect on any trajectory; the lead-lag block gets TA and TB (exdc1.cpp:97-99). *)
Theorem C56_exdc1_lead_refuted : forall p t v e l, e_TC p <> 0 -> ~ Rabs (e_TB p * e_TC p) < / 1000000 -> ~ Rabs (e_TB p * t) < / 1000000 ->
  exc_from (DEXDC1 (with_TC p t)) v e l = exc_from (DEXDC1 p) v e l.
Proof. exact TC_unused. Qed.
Print Assumptions C56_exdc1_lead_refuted.

(** GAST and HYGOV do not see the speed of the machine: whatever the speeds, the mechanical power is the one at nominal speed (gast.cpp:165-168,
    hygov.cpp:169-172 assign a parameter to itself). *)
Theorem C56_speed_unseen_refuted : forall d P l, (match d with DGAST _ | DHYGOV _ => True | _ => False end) ->
  gov_from d P l = gov_from d P (map (fun x => (fst (fst x), 0, snd x)) l).
Proof. exact deaf_from. Qed.
Print Assumptions C56_speed_unseen_refuted.

(** HYGOV without GOVERNOR_r in the data: the default is given to R, and r is read without having been assigned (hygov.cpp:56-57). *)
Theorem C56_hygov_default_refuted : forall p P l, h_r p = None -> h_TF p <> 0 -> gov_from (DHYGOV p) P l = UB.
Proof.
  intros p P l H T. unfold gov_from. cbn [gov_load]. unfold hygov_load. destruct (@filter_set 1 (h_TF p) T) as (c & -> & _). cbn [obind]. rewrite H. reflexivity.
Qed.
Print Assumptions C56_hygov_default_refuted.

(** SEXS with TE = 0: the input of the gain, not its output, is limited to EMIN .. EMAX when it is started (sexs.cpp:90-112), so a field voltage between the
    limits jumps to the limit in the first step. *)
Theorem C56_sexs_limit_refuted : exists p, x_EMIN p <= 1 <= x_EMAX p /\ forall v dt, exc_from (DSEXS p) v 1 [(PREDICTOR, v, dt)] = Ok [4].
Proof. exists clamp_sexs. split; [cbn; lra|]. exact sexs_clamped. Qed.
Print Assumptions C56_sexs_limit_refuted.

(** WSIEG1 with the even coefficients only: the power of the first shaft is returned (wsieg1.cpp:320-323), which is 0 from the first step on. *)
Theorem C56_wsieg1_even_refuted : exists p, w_K2 p = 1 /\ w_Pmin p <= 1/2 <= w_Pmax p /\ forall dt, gov_from (DWSIEG1 p) (1/2) [(PREDICTOR, 0, dt)] = Ok [0].
Proof. exists even_ws. split; [reflexivity|]. split; [cbn; lra|]. exact even_run. Qed.
Print Assumptions C56_wsieg1_even_refuted.
(** WSIEG1 started with a gate opening above PMAX: the limit is raised for the comparison, but not in the integrator that has it too
    (wsieg1.cpp:95, 192), so the opening falls to PMAX in the first step. *)
Theorem C56_wsieg1_limit_refuted : exists p, w_K1 p = 1 /\ w_Pmax p = 2/5 /\ forall dt, gov_from (DWSIEG1 p) (1/2) [(PREDICTOR, 0, dt); (CORRECTOR, 0, dt)] = Ok [1/2; 2/5].
Proof. exists high_ws. split; [reflexivity|]. split; [reflexivity|]. exact high_run. Qed.
Print Assumptions C56_wsieg1_limit_refuted.

(** Model of the dynamic simulation (applications/modules/dynamic_simulation_full_y): the machines GENCLS, GENSAL and GENROU, the
    exciters EXDC1, IEEET1 and SEXS, the governors TGOV1, GAST, HYGOV and WSIEG1 (model_classes/*.cpp), the buses
    (dsf_components.cpp) and one time step (dsf_app_module2.cpp).  The control blocks are those of CbModel and DbModel.

    Simplifications: doubles are real numbers; a division by zero or the root of a negative number, which give infinities or NaN,
    are UB where the parameters of a model can cause them (saturation, blocks), and otherwise excluded by the hypotheses of the
    theorems.  The data collection is the list of its values; keys that are missing get their default values before the model
    starts, except where a default is part of a finding.  Machines are not tripped; stabilisers, relays, the frequency monitors,
    dynamic loads and the watch files are not modelled. *)
From Verif Require Import Prelude CbModel DbModel.
From Coq Require Import Reals.
From Coquelicot Require Import Complex.
Open Scope R_scope.

Local Notation "x <- e ;; f" := (obind e (fun x => f)) (at level 61, e at next level, right associativity).
Local Notation "' p <- e ;; f" := (obind e (fun p => f)) (at level 61, p pattern, e at next level, right associativity).

(** The C function atan2 (without signed zeros). *)
Definition atan2 (y x : R) : R :=
  if Rlt_dec 0 x then atan (y / x)
  else if Rlt_dec x 0 then (if Rle_dec 0 y then atan (y / x) + PI else atan (y / x) - PI)
  else if Rlt_dec 0 y then PI / 2 else if Rlt_dec y 0 then - (PI / 2) else 0.
(** exp of an imaginary number *)
Definition cis (a : R) : C := (cos a, sin a).
(** [fabs(x) < 1e-6] *)
Definition small6 (x : R) : bool := if Rlt_dec (Rabs x) (/ 1000000) then true else false.
Definition is0 (x : R) : bool := if Req_EM_T x 0 then true else false.
(** sqrt of a negative number is NaN. *)
Definition rsqrt (x : R) : outcome R := if Rlt_dec x 0 then UB else Ok (sqrt x).

(** * Exciters *)
(** ** EXDC1 and IEEET1: exdc1.hpp:125-146, ieeet1.hpp; the two classes have the same parameters but TB and TC, which IEEET1 lacks. *)
Record dcp := Dcp { e_TR : R; e_KA : R; e_TA : R; e_TB : R; e_TC : R; e_Vrmax : R; e_Vrmin : R; e_KE : R; e_TE : R; e_KF : R; e_TF1 : R;
                    e_E1 : R; e_SE1 : R; e_E2 : R; e_SE2 : R }.
(** The blocks Vmeas_blk, Leadlag_blk, Regulator_blk, Feedback_blk and Output_blk, and the members that are read before they are
    written in the same call: Ec, Vref, Vs, Efd. Regulator_gain_blk has no state but its parameters. *)
Record dcs := Dcs { d_vm : cblock; d_ll : cblock; d_rg : cblock; d_fb : cblock; d_out : cblock; d_Ec : R; d_Vref : R; d_Vs : R; d_Efd : R }.
(** exdc1.cpp:79-82 *)
Definition has_sat (p : dcp) : bool := negb (small6 (e_SE1 p * e_SE2 p)).
Definition has_ll (p : dcp) : bool := negb (small6 (e_TB p * e_TC p)).
(** exdc1.cpp:84-90 with 122-130, ieeet1.cpp:78-84 with 112-120: sat_A and sat_B depend on nothing else. *)
Definition dc_satval (p : dcp) (x : R) : outcome R :=
  q <- rdiv (e_SE1 p * e_E1 p) (e_SE2 p * e_E2 p);;
  r <- rsqrt q;;
  a <- rdiv (e_E1 p - r * e_E2 p) (1 - r);;
  b <- rdiv (e_SE1 p * e_E1 p) ((e_E1 p - a) * (e_E1 p - a));;
  if Rlt_dec x a then Ok 0 else rdiv (b * (x - a) * (x - a)) x.
(** exdc1.cpp:145-148, 203-206 sat_signal *)
Definition sat_signal (p : dcp) (efd : R) : outcome R :=
  if has_sat p then s <- dc_satval p efd;; Ok (e_KE p * efd + efd * s) else Ok (e_KE p * efd).
(** exdc1.cpp:93-112, ieeet1.cpp:87-102: the blocks; [ll] makes the lead-lag block. *)
Definition dc_blocks (p : dcp) (ll : outcome cblock) : outcome dcs :=
  vm <- (if small6 (e_TR p) then Ok filter_new else filter_setparams filter_new 1 (e_TR p));;
  ll <- ll;;
  rg <- (if small6 (e_TA p) then Ok filter_new else with_xy (filter_setparams filter_new (e_KA p) (e_TA p)) (e_Vrmin p) (e_Vrmax p) (-1000) 1000);;
  fb <- setcoeffs cb_new (e_TF1 p) 1 (e_KF p) 0;;
  out <- integrator_setparams integrator_new (e_TE p);;
  Ok (Dcs vm ll rg fb out 0 0 0 0).
(** exdc1.cpp:97-99: the lead-lag block gets TA and TB *)
Definition exdc1_load (p : dcp) : outcome dcs :=
  dc_blocks p (if has_ll p then leadlag_setparams leadlag_new (e_TA p) (e_TB p) else Ok leadlag_new).
Definition ieeet1_load (p : dcp) : outcome dcs := dc_blocks p (Ok leadlag_new).

(** exdc1.cpp:138-173 init *)
Definition exdc1_init (p : dcp) (s : dcs) : outcome dcs :=
  '(fb, vf) <- init_given_u (d_fb s) (d_Efd s);;
  '(out, oin) <- init_given_y (d_out s) (d_Efd s);;
  sat <- sat_signal p (d_Efd s);;
  let vr := oin + sat in
  '(rg, vll) <- (if small6 (e_TA p) then q <- rdiv vr (e_KA p);; Ok (d_rg s, q) else init_given_y (d_rg s) vr);;
  '(ll, lin) <- (if has_ll p then init_given_y (d_ll s) vll else Ok (d_ll s, vll));;
  let verr := lin - vf + d_Vs s in
  '(vm, vmeas) <- (if small6 (e_TR p) then Ok (d_vm s, d_Ec s) else init_given_u (d_vm s) (d_Ec s));;
  Ok (Dcs vm ll rg fb out (d_Ec s) (verr + vmeas) (d_Vs s) (d_Efd s)).
(** ieeet1.cpp:128-157 init *)
Definition ieeet1_init (p : dcp) (s : dcs) : outcome dcs :=
  '(fb, vf) <- init_given_u (d_fb s) (d_Efd s);;
  '(out, oin) <- init_given_y (d_out s) (d_Efd s);;
  sat <- sat_signal p (d_Efd s);;
  let vr := oin + sat in
  '(rg, rin) <- (if small6 (e_TA p) then q <- rdiv vr (e_KA p);; Ok (d_rg s, q) else init_given_y (d_rg s) vr);;
  let verr := rin + vf in
  '(vm, vmeas) <- (if small6 (e_TR p) then Ok (d_vm s, d_Ec s) else init_given_u (d_vm s) (d_Ec s));;
  Ok (Dcs vm (d_ll s) rg fb out (d_Ec s) (verr + vmeas - d_Vs s) (d_Vs s) (d_Efd s)).
(** exdc1.cpp:178-211 computeModel ([lead]: with the lead-lag block), ieeet1.cpp:162-190 *)
Definition dc_run (lead : bool) (p : dcp) (s : dcs) (dt : R) (st : stage) : outcome dcs :=
  '(vm, vmeas) <- (if small6 (e_TR p) then Ok (d_vm s, d_Ec s) else getoutput (d_vm s) (d_Ec s) dt st true);;
  let verr := d_Vref s - vmeas + d_Vs s in
  '(fb, vf) <- getoutput (d_fb s) (d_Efd s) dt st true;;
  let lin := verr - vf in
  '(ll, vll) <- (if lead then getoutput (d_ll s) lin dt st true else Ok (d_ll s, lin));;
  '(rg, vr) <- (if small6 (e_TA p) then v <- gain_out (gain_set3 gain_new (e_KA p) (e_Vrmin p) (e_Vrmax p)) vll;; Ok (d_rg s, v)
                else getoutput (d_rg s) vll dt st true);;
  sat <- sat_signal p (d_Efd s);;
  '(out, efd) <- getoutput (d_out s) (vr - sat) dt st true;;
  Ok (Dcs vm ll rg fb out (d_Ec s) (d_Vref s) (d_Vs s) efd).

(** ** SEXS *)
(** sexs.cpp:57-64: TA = TA_OVER_TB*TB *)
Record sxp := Sxp { x_TAB : R; x_TB : R; x_K : R; x_EMAX : R; x_EMIN : R; x_TE : R }.
Record sxs := Sxs { sx_ll : cblock; sx_fl : cblock; sx_Ec : R; sx_Vref : R; sx_Vs : R; sx_Efd : R }.
(** sexs.cpp:64-81 *)
Definition sexs_load (p : sxp) : outcome sxs :=
  ll <- leadlag_setparams leadlag_new (x_TAB p * x_TB p) (x_TB p);;
  fl <- (if small6 (x_TE p) then Ok filter_new else with_xy (filter_setparams filter_new (x_K p) (x_TE p)) (x_EMIN p) (x_EMAX p) (-1000) 1000);;
  Ok (Sxs ll fl 0 0 0 0).
(** sexs.cpp:90-112 init: Vm is its argument *)
Definition sexs_init (p : sxp) (s : sxs) (vm : R) : outcome sxs :=
  '(fl, y1) <- (if small6 (x_TE p) then q <- rdiv (sx_Efd s) (x_K p);; Ok (sx_fl s, cmin (x_EMAX p) (cmax (x_EMIN p) q))
                else init_given_y (sx_fl s) (sx_Efd s));;
  '(ll, u1) <- init_given_y (sx_ll s) y1;;
  Ok (Sxs ll fl (sx_Ec s) (vm + u1 - sx_Vs s) (sx_Vs s) (sx_Efd s)).
(** sexs.cpp:119-160 predictor and corrector *)
Definition sexs_run (p : sxp) (s : sxs) (dt : R) (st : stage) : outcome sxs :=
  '(ll, y1) <- getoutput (sx_ll s) (sx_Vref s + sx_Vs s - sx_Ec s) dt st true;;
  '(fl, efd) <- (if small6 (x_TE p) then v <- gain_out (gain_set3 gain_new (x_K p) (x_EMIN p) (x_EMAX p)) y1;; Ok (sx_fl s, v)
                 else getoutput (sx_fl s) y1 dt st true);;
  Ok (Sxs ll fl (sx_Ec s) (sx_Vref s) (sx_Vs s) efd).

(** The virtual functions of an exciter. *)
Inductive excd := DEXDC1 (p : dcp) | DIEEET1 (p : dcp) | DSEXS (p : sxp).
Inductive exc := EXDC1 (p : dcp) (s : dcs) | IEEET1 (p : dcp) (s : dcs) | SEXS (p : sxp) (s : sxs).
Definition exc_load (d : excd) : outcome exc :=
  match d with
  | DEXDC1 p => s <- exdc1_load p;; Ok (EXDC1 p s)
  | DIEEET1 p => s <- ieeet1_load p;; Ok (IEEET1 p s)
  | DSEXS p => s <- sexs_load p;; Ok (SEXS p s)
  end.
Definition dc_setV (s : dcs) (v : R) : dcs := Dcs (d_vm s) (d_ll s) (d_rg s) (d_fb s) (d_out s) v (d_Vref s) (d_Vs s) (d_Efd s).
Definition dc_setE (s : dcs) (v : R) : dcs := Dcs (d_vm s) (d_ll s) (d_rg s) (d_fb s) (d_out s) (d_Ec s) (d_Vref s) (d_Vs s) v.
(** setVterminal: exdc1.cpp:254-257, ieeet1.cpp:233-236, sexs.cpp:185-188 *)
Definition exc_setV (e : exc) (v : R) : exc :=
  match e with
  | EXDC1 p s => EXDC1 p (dc_setV s v) | IEEET1 p s => IEEET1 p (dc_setV s v)
  | SEXS p s => SEXS p (Sxs (sx_ll s) (sx_fl s) v (sx_Vref s) (sx_Vs s) (sx_Efd s))
  end.
(** setFieldVoltage: exdc1.cpp:237-240, ieeet1.cpp:216-219, sexs.cpp:166-170 *)
Definition exc_setE (e : exc) (v : R) : exc :=
  match e with
  | EXDC1 p s => EXDC1 p (dc_setE s v) | IEEET1 p s => IEEET1 p (dc_setE s v)
  | SEXS p s => SEXS p (Sxs (sx_ll s) (sx_fl s) (sx_Ec s) (sx_Vref s) (sx_Vs s) v)
  end.
(** getFieldVoltage *)
Definition exc_Efd (e : exc) : R := match e with EXDC1 _ s => d_Efd s | IEEET1 _ s => d_Efd s | SEXS _ s => sx_Efd s end.
Definition exc_init (e : exc) (vm : R) : outcome exc :=
  match e with
  | EXDC1 p s => s <- exdc1_init p s;; Ok (EXDC1 p s)
  | IEEET1 p s => s <- ieeet1_init p s;; Ok (IEEET1 p s)
  | SEXS p s => s <- sexs_init p s vm;; Ok (SEXS p s)
  end.
(** predictor and corrector *)
Definition exc_run (e : exc) (dt : R) (st : stage) : outcome exc :=
  match e with
  | EXDC1 p s => s <- dc_run (has_ll p) p s dt st;; Ok (EXDC1 p s)
  | IEEET1 p s => s <- dc_run false p s dt st;; Ok (IEEET1 p s)
  | SEXS p s => s <- sexs_run p s dt st;; Ok (SEXS p s)
  end.

(** * Governors *)
(** ** TGOV1 *)
Record tgp := Tgp { t_R : R; t_T1 : R; t_Vmax : R; t_Vmin : R; t_T2 : R; t_T3 : R; t_Dt : R }.
Record tgs := Tgs { tg_ll : cblock; tg_dl : cblock; tg_Pm : R; tg_Pref : R; tg_w : R }.
(** tgov1.cpp:29-34, 63-64 *)
Definition tgov1_load (p : tgp) : outcome tgs :=
  ll <- leadlag_setparams leadlag_new (t_T2 p) (t_T3 p);;
  dl <- with_xy (filter_setparams filter_new 1 (t_T1 p)) (t_Vmin p) (t_Vmax p) (-1000) 1000;;
  Ok (Tgs ll dl 1 1 0).
(** tgov1.cpp:73-85 init *)
Definition tgov1_init (p : tgp) (s : tgs) : outcome tgs :=
  '(ll, dout) <- init_given_y (tg_ll s) (tg_Pm s + t_Dt p * tg_w s);;
  '(dl, din) <- init_given_y (tg_dl s) dout;;
  Ok (Tgs ll dl (tg_Pm s) (t_R p * din + tg_w s) (tg_w s)).
(** tgov1.cpp:87-97 computeModel *)
Definition tgov1_run (p : tgp) (s : tgs) (dt : R) (st : stage) : outcome tgs :=
  q <- rdiv (tg_Pref s - tg_w s) (t_R p);;
  '(dl, dout) <- getoutput (tg_dl s) q dt st true;;
  '(ll, lout) <- getoutput (tg_ll s) dout dt st true;;
  Ok (Tgs ll dl (lout - t_Dt p * tg_w s) (tg_Pref s) (tg_w s)).

(** ** GAST *)
Record gap := Gap { a_R : R; a_T1 : R; a_T2 : R; a_T3 : R; a_AT : R; a_KT : R; a_VMAX : R; a_VMIN : R; a_Dt : R }.
Record gas := Gas { ga_fv : cblock; ga_ff : cblock; ga_et : cblock; ga_Pm : R; ga_Pref : R; ga_w : R; ga_exh : R }.
(** gast.cpp:31-36, 66-68 *)
Definition gast_load (p : gap) : outcome gas :=
  fv <- with_xy (filter_setparams filter_new 1 (a_T1 p)) (a_VMIN p) (a_VMAX p) (-10000) 10000;;
  ff <- filter_setparams filter_new 1 (a_T2 p);;
  et <- filter_setparams filter_new 1 (a_T3 p);;
  Ok (Gas fv ff et 1 1 0 0).
(** gast.cpp:77-98 init; droop is not used, but R divides. *)
Definition gast_init (p : gap) (s : gas) : outcome gas :=
  let fout := ga_Pm s + a_Dt p * ga_w s in
  '(ff, vout) <- init_given_y (ga_ff s) fout;;
  '(et, exh) <- init_given_u (ga_et s) fout;;
  '(fv, vin) <- init_given_y (ga_fv s) vout;;
  Ok (Gas fv ff et (ga_Pm s) (vin + ga_w s * a_R p) (ga_w s) exh).
(** gast.cpp:105-150 predictor and corrector *)
Definition gast_run (p : gap) (s : gas) (dt : R) (st : stage) : outcome gas :=
  droop <- rdiv (ga_w s) (a_R p);;
  let lv := a_AT p + a_KT p * (a_AT p - ga_exh s) in
  let vin := cmin lv (ga_Pref s - droop) in
  '(fv, vout) <- getoutput (ga_fv s) vin dt st true;;
  '(ff, fout) <- getoutput (ga_ff s) vout dt st true;;
  '(et, exh) <- getoutput (ga_et s) fout dt st true;;
  Ok (Gas fv ff et (fout - a_Dt p * ga_w s) (ga_Pref s) (ga_w s) exh).

(** ** HYGOV *)
(** The values for GOVERNOR_R and GOVERNOR_r in the data collection are optional. VELM is not used. *)
Record hyp := Hyp { h_R : option R; h_r : option R; h_TR : R; h_TF : R; h_TG : R; h_GMAX : R; h_GMIN : R; h_TW : R; h_AT : R; h_Dt : R; h_qNL : R }.
(** hygov.cpp:56-57: the default of GOVERNOR_r is given to R; the member r is then not assigned. *)
Definition hy_R (p : hyp) : R := match h_r p with None => 0.05 | Some _ => match h_R p with Some v => v | None => 0.05 end end.
Record hys := Hys { hy_fl : cblock; hy_gt : cblock; hy_op : cblock; hy_tf : cblock; hy_Pm : R; hy_nref : R; hy_w : R;
                    hy_gout : R; hy_oout : R; hy_tout : R }.
(** hygov.cpp:69-72 *)
Definition hygov_load (p : hyp) : outcome hys :=
  fl <- filter_setparams filter_new 1 (h_TF p);;
  r <- rd (h_r p);;
  kp <- rdiv 1 r;; ki <- rdiv 1 (r * h_TR p);;
  gt <- with_xy (pi_setparams pi_new kp ki) (h_GMIN p) (h_GMAX p) (-10000) 10000;;
  op <- filter_setparams filter_new 1 (h_TG p);;
  tf <- integrator_setparams integrator_new (h_TW p);;
  Ok (Hys fl gt op tf 1 1 0 0 0 0).
(** hygov.cpp:81-99 init *)
Definition hygov_init (p : hyp) (s : hys) : outcome hys :=
  q <- rdiv (hy_Pm s) (h_AT p);;
  let tout := q + h_qNL p in
  '(tf, _) <- init_given_y (hy_tf s) tout;;
  let oout := tout in
  '(op, gout) <- init_given_y (hy_op s) oout;;
  '(gt, gin) <- init_given_y (hy_gt s) gout;;
  '(fl, fin) <- init_given_y (hy_fl s) gin;;
  Ok (Hys fl gt op tf (hy_Pm s) (fin + hy_R p * gout + hy_w s) (hy_w s) gout oout tout).
(** hygov.cpp:106-154 predictor and corrector *)
Definition hygov_run (p : hyp) (s : hys) (dt : R) (st : stage) : outcome hys :=
  '(fl, fout) <- getoutput (hy_fl s) (hy_nref s - (hy_w s + hy_R p * hy_gout s)) dt st true;;
  '(gt, gout) <- getoutput (hy_gt s) fout dt st true;;
  '(op, oout) <- getoutput (hy_op s) gout dt st true;;
  q <- rdiv oout (hy_tout s);;
  let h := q * q in
  '(tf, tout) <- getoutput (hy_tf s) (1 - h) dt st true;;
  Ok (Hys fl gt op tf (h_AT p * (tout - h_qNL p) * h - oout * h_Dt p * hy_w s) (hy_nref s) (hy_w s) gout oout tout).

(** ** WSIEG1 *)
(** NGV_blk, which load sets up from an array with four elements not assigned (wsieg1.cpp:99-105), and Db1_blk are never used
    afterwards and are left out. *)
Record wsp := Wsp { w_K : R; w_T1 : R; w_T2 : R; w_T3 : R; w_Uo : R; w_Uc : R; w_Pmax : R; w_Pmin : R; w_T4 : R; w_K1 : R; w_K2 : R;
                    w_T5 : R; w_K3 : R; w_K4 : R; w_T6 : R; w_K5 : R; w_K6 : R; w_T7 : R; w_K7 : R; w_K8 : R; w_Db2 : R }.
(** Uo, Uc, Pmax and Pmin are changed by init. *)
Record wss := Wss { ws_ll : cblock; ws_P : cblock; ws_f1 : cblock; ws_f2 : cblock; ws_f3 : cblock; ws_f4 : cblock;
                    ws_Uo : R; ws_Uc : R; ws_Pmax : R; ws_Pmin : R; ws_Pm1 : R; ws_Pm2 : R; ws_w : R; ws_GV : R; ws_GV0 : R }.
Definition ws_has_ll (p : wsp) : bool := negb (is0 (w_T1 p)) && negb (is0 (w_T2 p)).
Definition opt_filter (t : R) : outcome cblock := if is0 t then Ok filter_new else filter_setparams filter_new 1 t.
(** wsieg1.cpp:90-118 *)
Definition wsieg1_load (p : wsp) : outcome wss :=
  ll <- (if ws_has_ll p then leadlag_setparams leadlag_new (w_T2 p) (w_T1 p) else Ok leadlag_new);;
  pb <- with_x (integrator_setparams integrator_new 1) (w_Pmin p) (w_Pmax p);;
  f1 <- opt_filter (w_T4 p);; f2 <- opt_filter (w_T5 p);; f3 <- opt_filter (w_T6 p);; f4 <- opt_filter (w_T7 p);;
  Ok (Wss ll pb f1 f2 f3 f4 (w_Uo p) (w_Uc p) (w_Pmax p) (w_Pmin p) 0 0 0 0 0).
(** wsieg1.cpp:136-156, 160-180: one of the four filters *)
Definition ws_back (t : R) (f : cblock) (y : R) : outcome (cblock * R) := if is0 t then Ok (f, y) else init_given_y f y.
(** wsieg1.cpp:129-204 init *)
Definition wsieg1_init (p : wsp) (s : wss) : outcome wss :=
  let a := w_K1 p + w_K3 p + w_K5 p + w_K7 p in
  let b := w_K2 p + w_K4 p + w_K6 p + w_K8 p in
  let chain u9 :=
    ('(f4, u8) <- ws_back (w_T7 p) (ws_f4 s) u9;; '(f3, u7) <- ws_back (w_T6 p) (ws_f3 s) u8;;
     '(f2, u6) <- ws_back (w_T5 p) (ws_f2 s) u7;; '(f1, u5) <- ws_back (w_T4 p) (ws_f1 s) u6;; Ok (f1, f2, f3, f4, u5)) in
  '(f1, f2, f3, f4, gv) <- (if Rlt_dec 0 a then chain (ws_Pm1 s / a) else if Rlt_dec 0 b then chain (ws_Pm2 s / b)
                            else Ok (ws_f1 s, ws_f2 s, ws_f3 s, ws_f4 s, 0));;
  '(pb, _) <- init_given_y (ws_P s) gv;;
  let pmax := if Rlt_dec (ws_Pmax s) gv then gv + 0.1 else ws_Pmax s in
  let pmin := if Rlt_dec gv (ws_Pmin s) then gv - 0.1 else ws_Pmin s in
  let uo := if Rlt_dec (ws_Uo s) gv then gv + 0.1 else ws_Uo s in
  let uc := if Rlt_dec gv (ws_Uc s) then gv - 0.1 else ws_Uc s in
  '(ll, _) <- (if ws_has_ll p then init_given_y (ws_ll s) 0 else Ok (ws_ll s, 0));;
  Ok (Wss ll pb f1 f2 f3 f4 uo uc pmax pmin (ws_Pm1 s) (ws_Pm2 s) (ws_w s) gv gv).
(** Comparisons of wsieg1.cpp:225-228, 232-235 *)
Definition limit (hi lo x : R) : R := if Rlt_dec hi x then hi else if Rlt_dec x lo then lo else x.
Definition ws_fwd (t : R) (f : cblock) (u dt : R) (st : stage) : outcome (cblock * R) := if is0 t then Ok (f, u) else getoutput f u dt st true.
(** wsieg1.cpp:209-268 computeModel *)
Definition wsieg1_run (p : wsp) (s : wss) (dt : R) (st : stage) : outcome wss :=
  '(ll, y2) <- (if ws_has_ll p then getoutput (ws_ll s) (ws_w s * w_K p) dt st true else Ok (ws_ll s, ws_w s * w_K p));;
  q <- rdiv ((ws_GV0 s - y2 - ws_GV s) * 1) (w_T3 p);;
  '(pb, y3) <- getoutput (ws_P s) (limit (ws_Uo s) (ws_Uc s) q) dt st true;;
  let gv := dead_out (w_Db2 p) (w_Db2 p) (limit (ws_Pmax s) (ws_Pmin s) y3) in
  '(f1, u6) <- ws_fwd (w_T4 p) (ws_f1 s) gv dt st;; '(f2, u7) <- ws_fwd (w_T5 p) (ws_f2 s) u6 dt st;;
  '(f3, u8) <- ws_fwd (w_T6 p) (ws_f3 s) u7 dt st;; '(f4, u9) <- ws_fwd (w_T7 p) (ws_f4 s) u8 dt st;;
  Ok (Wss ll pb f1 f2 f3 f4 (ws_Uo s) (ws_Uc s) (ws_Pmax s) (ws_Pmin s)
        (w_K1 p * u6 + w_K3 p * u7 + w_K5 p * u8 + w_K7 p * u9) (w_K2 p * u6 + w_K4 p * u7 + w_K6 p * u8 + w_K8 p * u9) (ws_w s) gv (ws_GV0 s)).

(** The virtual functions of a governor. *)
Inductive govd := DTGOV1 (p : tgp) | DGAST (p : gap) | DHYGOV (p : hyp) | DWSIEG1 (p : wsp).
Inductive gov := TGOV1 (p : tgp) (s : tgs) | GAST (p : gap) (s : gas) | HYGOV (p : hyp) (s : hys) | WSIEG1 (p : wsp) (s : wss).
Definition gov_load (d : govd) : outcome gov :=
  match d with
  | DTGOV1 p => s <- tgov1_load p;; Ok (TGOV1 p s)
  | DGAST p => s <- gast_load p;; Ok (GAST p s)
  | DHYGOV p => s <- hygov_load p;; Ok (HYGOV p s)
  | DWSIEG1 p => s <- wsieg1_load p;; Ok (WSIEG1 p s)
  end.
(** setMechanicalPower: tgov1.cpp:123-126, gast.cpp:156-159, hygov.cpp:160-163, wsieg1.cpp:296-300 *)
Definition gov_setP (g : gov) (v : R) : gov :=
  match g with
  | TGOV1 p s => TGOV1 p (Tgs (tg_ll s) (tg_dl s) v (tg_Pref s) (tg_w s))
  | GAST p s => GAST p (Gas (ga_fv s) (ga_ff s) (ga_et s) v (ga_Pref s) (ga_w s) (ga_exh s))
  | HYGOV p s => HYGOV p (Hys (hy_fl s) (hy_gt s) (hy_op s) (hy_tf s) v (hy_nref s) (hy_w s) (hy_gout s) (hy_oout s) (hy_tout s))
  | WSIEG1 p s => WSIEG1 p (Wss (ws_ll s) (ws_P s) (ws_f1 s) (ws_f2 s) (ws_f3 s) (ws_f4 s) (ws_Uo s) (ws_Uc s) (ws_Pmax s) (ws_Pmin s) v v (ws_w s) (ws_GV s) (ws_GV0 s))
  end.
(** setRotorSpeedDeviation: tgov1.cpp:132-135, wsieg1.cpp:306-309; in gast.cpp:165-168 and hygov.cpp:169-172 the parameter hides
    the member of the same name and is assigned to itself. *)
Definition gov_setw (g : gov) (v : R) : gov :=
  match g with
  | TGOV1 p s => TGOV1 p (Tgs (tg_ll s) (tg_dl s) (tg_Pm s) (tg_Pref s) v)
  | GAST p s => GAST p s
  | HYGOV p s => HYGOV p s
  | WSIEG1 p s => WSIEG1 p (Wss (ws_ll s) (ws_P s) (ws_f1 s) (ws_f2 s) (ws_f3 s) (ws_f4 s) (ws_Uo s) (ws_Uc s) (ws_Pmax s) (ws_Pmin s) (ws_Pm1 s) (ws_Pm2 s) v (ws_GV s) (ws_GV0 s))
  end.
(** getMechanicalPower: tgov1.cpp:141-144, gast.cpp:174-177, hygov.cpp:178-181, wsieg1.cpp:320-323 *)
Definition gov_P (g : gov) : R := match g with TGOV1 _ s => tg_Pm s | GAST _ s => ga_Pm s | HYGOV _ s => hy_Pm s | WSIEG1 _ s => ws_Pm1 s end.
Definition gov_init (g : gov) : outcome gov :=
  match g with
  | TGOV1 p s => s <- tgov1_init p s;; Ok (TGOV1 p s)
  | GAST p s => s <- gast_init p s;; Ok (GAST p s)
  | HYGOV p s => s <- hygov_init p s;; Ok (HYGOV p s)
  | WSIEG1 p s => s <- wsieg1_init p s;; Ok (WSIEG1 p s)
  end.
Definition gov_run (g : gov) (dt : R) (st : stage) : outcome gov :=
  match g with
  | TGOV1 p s => s <- tgov1_run p s dt st;; Ok (TGOV1 p s)
  | GAST p s => s <- gast_run p s dt st;; Ok (GAST p s)
  | HYGOV p s => s <- hygov_run p s dt st;; Ok (HYGOV p s)
  | WSIEG1 p s => s <- wsieg1_run p s dt st;; Ok (WSIEG1 p s)
  end.

(** * Machines *)
(** An optional controller. *)
Definition omap {A B} (f : A -> outcome B) (o : option A) : outcome (option B) :=
  match o with None => Ok None | Some a => b <- f a;; Ok (Some b) end.

(** ** GENCLS *)
(** classical.hpp; p_mva, p_r, p_dstr, p_dtr (the imaginary part of ZSOURCE), p_h, p_d0, p_pg, p_qg *)
Record clp := Clp { c_mva : R; c_r : R; c_dstr : R; c_dtr : R; c_h : R; c_d0 : R; c_pg : R; c_qg : R }.
(** The members of type ComplexType that hold real numbers are real here. *)
Record cls := Cls { l_volt : C; l_e0 : C; l_e1 : C; l_ang0 : R; l_ang1 : R; l_spd0 : R; l_spd1 : R; l_dang0 : R; l_dspd0 : R;
                    l_eq : R; l_pm : R; l_IN : C; l_P : R; l_Q : R }.
(** classical.cpp:52: p_sbase is always 100 *)
Definition cl_sbase : R := 100.
(** classical.cpp:88-162 init *)
Definition cls_init (p : clp) (mag ang : R) : cls :=
  let pg := c_pg p * cl_sbase / c_mva p in
  let qg := c_qg p * cl_sbase / c_mva p in
  let v := (RtoC mag * cis ang)%C in
  let currr := sqrt (pg * pg + qg * qg) / mag in
  let phi := atan2 qg pg in
  let curr := (RtoC currr * cis (ang - phi))%C in
  let e := (v + Ci * RtoC (c_dtr p) * curr)%C in
  Cls v e 0%C (atan2 (snd e) (fst e)) 0 1 0 0 0 (Cmod e) (Rabs pg) 0%C pg qg.
(** classical.cpp:178-190 NortonImpedence: xd is assigned only for p_dstr = 0 *)
Definition cls_norton (p : clp) : outcome C :=
  if Req_EM_T (c_dstr p) 0 then
    Ok (1 / (RtoC (c_r p * cl_sbase / c_mva p) + Ci * RtoC (c_dtr p * cl_sbase / c_mva p)))%C
  else UB.
(** classical.cpp:198-202, 231-235 *)
Definition cls_next (s : cls) (flag : bool) : cls :=
  if flag then s else Cls (l_volt s) (l_e1 s) (l_e1 s) (l_ang1 s) (l_ang1 s) (l_spd1 s) (l_spd1 s) (l_dang0 s) (l_dspd0 s) (l_eq s) (l_pm s) (l_IN s) (l_P s) (l_Q s).
Definition cls_setI (s : cls) (i : C) : cls := Cls (l_volt s) (l_e0 s) (l_e1 s) (l_ang0 s) (l_ang1 s) (l_spd0 s) (l_spd1 s) (l_dang0 s) (l_dspd0 s) (l_eq s) (l_pm s) i (l_P s) (l_Q s).
(** classical.cpp:204-208, 272-275 *)
Definition cls_cur (p : clp) (e : C) : C := (e / (RtoC (c_dtr p) * Ci) * RtoC (c_mva p) / RtoC cl_sbase)%C.
(** classical.cpp:196-217 predictor_currentInjection, 270-276 corrector_currentInjection *)
Definition cls_pcur (p : clp) (s : cls) (flag : bool) : cls := let s := cls_next s flag in cls_setI s (cls_cur p (l_e0 s)).
Definition cls_ccur (p : clp) (s : cls) : cls := cls_setI s (cls_cur p (l_e1 s)).
(** classical.cpp:237-245, 298-305: the conjugate of the current *)
Definition cls_conj (p : clp) (v e : C) : C := Cconj ((e - v) / (Ci * RtoC (c_dtr p)))%C.
(** 2.0*p_PI*60 *)
Definition basrad : R := 2 * PI * 60.
(** classical.cpp:246-257, 306-317: the derivatives *)
Definition cls_rates (p : clp) (s : cls) (e : C) (spd : R) : R * R :=
  let pelect := fst (e * cls_conj p (l_volt s) e)%C in
  ((spd - 1) * basrad, ((l_pm s - c_d0 p * (spd - 1)) / spd - pelect) / (2 * c_h p)).
(** classical.cpp:224-264 predictor *)
Definition cls_pred (p : clp) (s : cls) (dt : R) (flag : bool) : cls :=
  let s := cls_next s flag in
  let cc := cls_conj p (l_volt s) (l_e0 s) in
  let '(da, dw) := cls_rates p s (l_e0 s) (l_spd0 s) in
  let ang1 := l_ang0 s + da * dt in
  Cls (l_volt s) (l_e0 s) (cis ang1 * RtoC (l_eq s))%C (l_ang0 s) ang1 (l_spd0 s) (l_spd0 s + dw * dt) da dw (l_eq s) (l_pm s) (l_IN s)
    (fst (l_volt s * cc)%C) (snd (l_volt s * cc)%C).
(** classical.cpp:291-327 corrector *)
Definition cls_corr (p : clp) (s : cls) (dt : R) : cls :=
  let cc := cls_conj p (l_volt s) (l_e1 s) in
  let '(da, dw) := cls_rates p s (l_e1 s) (l_spd1 s) in
  let ang1 := l_ang0 s + (l_dang0 s + da) / 2 * dt in
  Cls (l_volt s) (l_e0 s) (cis ang1 * RtoC (l_eq s))%C (l_ang0 s) ang1 (l_spd0 s) (l_spd0 s + (l_dspd0 s + dw) / 2 * dt) (l_dang0 s) (l_dspd0 s) (l_eq s) (l_pm s) 0%C
    (fst (l_volt s * cc)%C) (snd (l_volt s * cc)%C).
(** classical.cpp:352-357 setVoltage *)
Definition cls_setV (s : cls) (v : C) : cls := Cls v (l_e0 s) (l_e1 s) (l_ang0 s) (l_ang1 s) (l_spd0 s) (l_spd1 s) (l_dang0 s) (l_dspd0 s) (l_eq s) (l_pm s) (l_IN s) (l_P s) (l_Q s).

(** ** Common to GENSAL and GENROU *)
(** The parameters in the data collection (g_pg, g_qg: GENERATOR_PG and _QG on the system base); Xqp and Tqop are read by GENROU only. *)
Record gpar := Gpar { g_sb : R; g_MB : R; g_H : R; g_D : R; g_Ra : R; g_Xd : R; g_Xq : R; g_Xdp : R; g_Xdpp : R; g_Xl : R; g_Tdop : R; g_Tdopp : R;
                      g_Tqopp : R; g_S10 : R; g_S12 : R; g_Xqp : R; g_Tqop : R; g_pg : R; g_qg : R }.
(** gensal.cpp:68-71, 86-89, genrou.cpp:86-89, 114-118: p_pg, p_qg, and MBase with its adjustment *)
Definition g_P (p : gpar) : R := g_pg p * g_sb p.
Definition g_Q (p : gpar) : R := g_qg p * g_sb p.
Definition g_base (p : gpar) : R :=
  let t := sqrt (g_P p * g_P p + g_Q p * g_Q p) in if Rlt_dec (g_MB p) t then t * 1.2 else g_MB p.
(** gensal.cpp:96-112, genrou.cpp:126-147 Sat *)
Definition gen_sat (s10 s12 x : R) : outcome R :=
  r <- rdiv s12 s10;;
  r2 <- rdiv (-2 * s12) s10;;
  let a := r - 1 in
  let b := r2 + 2.4 in
  let c := r - 1.44 in
  d <- rsqrt (b * b - 4 * a * c);;
  aa <- rdiv (- b - d) (2 * a);;
  bb <- rdiv s10 ((1 - aa) * (1 - aa));;
  let t := if Rlt_dec (x - aa) 0 then 0 else x - aa in
  Ok (bb * t * t).
Definition sal_sat (p : gpar) (x : R) : outcome R := gen_sat (g_S10 p) (g_S12 p) x.
(** genrou.cpp:108-111, 126-147: enableSat *)
Definition rou_sat (p : gpar) (x : R) : outcome R := if small6 (g_S10 p * g_S12 p) then Ok 0 else gen_sat (g_S10 p) (g_S12 p) x.
(** gensal.cpp:133-136, genrou.cpp:172-178: Ir and Ii from the power *)
Definition g_cur (P Q mag ang : R) : R * R :=
  let vr := mag * cos ang in let vi := mag * sin ang in
  ((P * vr + Q * vi) / (mag * mag), (P * vi - Q * vr) / (mag * mag)).
(** x1d: gensal.cpp:139, genrou.cpp:186 *)
Definition g_delta (p : gpar) (ir ii mag ang : R) : R :=
  let vr := mag * cos ang in let vi := mag * sin ang in
  atan2 (vi + ir * g_Xq p + ii * g_Ra p) (vr + ir * g_Ra p - ii * g_Xq p).
(** The change of reference: to the d and q axes and back, gensal.cpp:140-142, 242-243, 253-254, genrou.cpp:202-203, 323-324 *)
Definition to_d (re im d : R) : R := re * sin d - im * cos d.
Definition to_q (re im d : R) : R := re * cos d + im * sin d.
Definition to_re (vd vq d : R) : R := vd * sin d + vq * cos d.
Definition to_im (vd vq d : R) : R := - vd * cos d + vq * sin d.
(** The members B and G, gensal.cpp:228-229, genrou.cpp:301-302, as the current injections leave them. NortonImpedence leaves other values in them, which the next current
    injection replaces before they are read. *)
Definition g_B (p : gpar) : R := - g_Xdpp p / (g_Ra p * g_Ra p + g_Xdpp p * g_Xdpp p).
Definition g_G (p : gpar) : R := g_Ra p / (g_Ra p * g_Ra p + g_Xdpp p * g_Xdpp p).
(** The currents for the internal voltages Vd, Vq at rotor angle d, gensal.cpp:242-249, genrou.cpp:390-395 *)
Definition g_Id (p : gpar) (vd vq d mag ang : R) : R :=
  (vd - to_d (mag * cos ang) (mag * sin ang) d) * g_G p - (vq - to_q (mag * cos ang) (mag * sin ang) d) * g_B p.
Definition g_Iq (p : gpar) (vd vq d mag ang : R) : R :=
  (vd - to_d (mag * cos ang) (mag * sin ang) d) * g_B p + (vq - to_q (mag * cos ang) (mag * sin ang) d) * g_G p.
(** The Norton current on the system base, gensal.cpp:250-263, genrou.cpp:319-334 *)
Definition g_norton_cur (p : gpar) (vd vq d : R) : C :=
  let idn := vd * g_G p - vq * g_B p in let iqn := vd * g_B p + vq * g_G p in
  (to_re idn iqn d * g_base p / g_sb p, to_im idn iqn d * g_base p / g_sb p).
(** Field voltage, field current, mechanical power, their initial values, presentMag, presentAng, p_INorton, genP, genQ, exciter and governor *)
Record com := Com { k_Efd : R; k_Lad : R; k_Pm : R; k_Efd0 : R; k_Pm0 : R; k_mag : R; k_ang : R; k_IN : C; k_gP : R; k_gQ : R;
                    k_ex : option exc; k_gov : option gov }.
Definition com_setV (k : com) (v : C) : com :=
  Com (k_Efd k) (k_Lad k) (k_Pm k) (k_Efd0 k) (k_Pm0 k) (Cmod v) (atan2 (snd v) (fst v)) (k_IN k) (k_gP k) (k_gQ k) (k_ex k) (k_gov k).
Definition com_setI (k : com) (i : C) : com :=
  Com (k_Efd k) (k_Lad k) (k_Pm k) (k_Efd0 k) (k_Pm0 k) (k_mag k) (k_ang k) i (k_gP k) (k_gQ k) (k_ex k) (k_gov k).
Definition com_setPQ (k : com) (P Q : R) : com :=
  Com (k_Efd k) (k_Lad k) (k_Pm k) (k_Efd0 k) (k_Pm0 k) (k_mag k) (k_ang k) (k_IN k) P Q (k_ex k) (k_gov k).
(** gensal.cpp:152-176, genrou.cpp:224-251: the exciter and the governor are initialised *)
Definition com_init (ex : option exc) (gv : option gov) (efd pm mag ang P Q : R) : outcome com :=
  ex <- omap (fun e => exc_init (exc_setE (exc_setV e mag) efd) mag) ex;;
  gv <- omap (fun g => gov_init (gov_setw (gov_setP g pm) 0)) gv;;
  Ok (Com efd efd pm efd pm mag ang 0%C P Q ex gv).
(** gensal.cpp:300-312, 489-501, genrou.cpp:366-377, 539-550: Efd and Pmech *)
Definition com_in (k : com) : com :=
  Com (match k_ex k with Some e => exc_Efd e | None => k_Efd0 k end) (k_Lad k) (match k_gov k with Some g => gov_P g | None => k_Pm0 k end)
    (k_Efd0 k) (k_Pm0 k) (k_mag k) (k_ang k) (k_IN k) (k_gP k) (k_gQ k) (k_ex k) (k_gov k).
(** setVterminal on the exciter, setRotorSpeedDeviation on the governor: gensal.cpp:379, 388, 560, 568, genrou.cpp:362, 373, 535, 546 *)
Definition com_exV (k : com) : com :=
  Com (k_Efd k) (k_Lad k) (k_Pm k) (k_Efd0 k) (k_Pm0 k) (k_mag k) (k_ang k) (k_IN k) (k_gP k) (k_gQ k) (option_map (fun e => exc_setV e (k_mag k)) (k_ex k)) (k_gov k).
Definition com_gvw (k : com) (w : R) : com :=
  Com (k_Efd k) (k_Lad k) (k_Pm k) (k_Efd0 k) (k_Pm0 k) (k_mag k) (k_ang k) (k_IN k) (k_gP k) (k_gQ k) (k_ex k) (option_map (fun g => gov_setw g w) (k_gov k)).
Definition com_lad (k : com) (v : R) : com :=
  Com (k_Efd k) v (k_Pm k) (k_Efd0 k) (k_Pm0 k) (k_mag k) (k_ang k) (k_IN k) (k_gP k) (k_gQ k) (k_ex k) (k_gov k).
(** predictor or corrector of the exciter and the governor: gensal.cpp:384-389, 564-569, genrou.cpp:430-436, 592-598 *)
Definition com_run (k : com) (dt : R) (st : stage) : outcome com :=
  ex <- omap (fun e => exc_run e dt st) (k_ex k);;
  gv <- omap (fun g => gov_run g dt st) (k_gov k);;
  Ok (Com (k_Efd k) (k_Lad k) (k_Pm k) (k_Efd0 k) (k_Pm0 k) (k_mag k) (k_ang k) (k_IN k) (k_gP k) (k_gQ k) ex gv).
(** A member that was never assigned *)
Definition got {A} (o : option A) : outcome A := match o with Some a => Ok a | None => UB end.

(** ** GENSAL *)
(** x1d, x2w, x3Eqp, x4Psidp, x5Psiqpp *)
Record v5 := V5 { y1d : R; y2w : R; y3 : R; y4 : R; y5 : R }.
Definition v5_add (a b : v5) (t : R) : v5 := V5 (y1d a + y1d b * t) (y2w a + y2w b * t) (y3 a + y3 b * t) (y4 a + y4 b * t) (y5 a + y5 b * t).
Definition v5_mid (a b : v5) : v5 := V5 ((y1d a + y1d b) / 2) ((y2w a + y2w b) / 2) ((y3 a + y3 b) / 2) ((y4 a + y4 b) / 2) ((y5 a + y5 b) / 2).
(** x_0, x_1, dx_0 and the common members *)
Record sal := Sal { s_0 : v5; s_1 : option v5; s_d : option v5; s_k : com }.
(** gensal.cpp:119-186 init *)
Definition sal_init (p : gpar) (ex : option exc) (gv : option gov) (mag ang : R) : outcome sal :=
  let P := g_P p / g_base p in let Q := g_Q p / g_base p in
  let '(ir, ii) := g_cur P Q mag ang in
  let d := g_delta p ir ii mag ang in
  let id := to_d ir ii d in let iq := to_q ir ii d in
  let vqt := to_q (mag * cos ang) (mag * sin ang) d in
  let x5 := (g_Xdpp p - g_Xq p) * iq in
  let psiq := x5 - iq * g_Xdpp p in
  let psid := vqt + g_Ra p * iq in
  let psidpp := psid + id * g_Xdpp p in
  let x4 := psidpp - id * (g_Xdpp p - g_Xl p) in
  let x3 := x4 + id * (g_Xdp p - g_Xl p) in
  sat <- sal_sat p x3;;
  let efd := x3 * (1 + sat) + id * (g_Xd p - g_Xdp p) in
  let pm := psid * iq - psiq * id in
  k <- com_init ex gv efd pm mag ang P Q;;
  Ok (Sal (V5 d 0 x3 x4 x5) None None k).
(** gensal.cpp:202-211 NortonImpedence *)
Definition sal_norton (p : gpar) : C :=
  let ra := g_Ra p * g_sb p / g_base p in let xd := g_Xdpp p * g_sb p / g_base p in
  (ra / (ra * ra + xd * xd), - xd / (ra * ra + xd * xd)).
(** Psidpp, gensal.cpp:233-234, 327-328, 421-422, 508-509 *)
Definition sal_psidpp (p : gpar) (x : v5) : R :=
  y3 x * (g_Xdpp p - g_Xl p) / (g_Xdp p - g_Xl p) + y4 x * (g_Xdp p - g_Xdpp p) / (g_Xdp p - g_Xl p).
(** gensal.cpp:219-225, 314-320 *)
Definition sal_next (s : sal) (flag : bool) : outcome sal :=
  if flag then Ok s else x <- got (s_1 s);; Ok (Sal x (s_1 s) (s_d s) (s_k s)).
(** gensal.cpp:217-274 predictor_currentInjection *)
Definition sal_pcur (p : gpar) (s : sal) (flag : bool) : outcome sal :=
  s <- sal_next s flag;;
  let x := s_0 s in let k := s_k s in
  let vd := - y5 x in let vq := sal_psidpp p x in
  let id := g_Id p vd vq (y1d x) (k_mag k) (k_ang k) in let iq := g_Iq p vd vq (y1d x) (k_mag k) (k_ang k) in
  let ir := to_re id iq (y1d x) in let ii := to_im id iq (y1d x) in
  let vr := k_mag k * cos (k_ang k) in let vi := k_mag k * sin (k_ang k) in
  Ok (Sal x (s_1 s) (s_d s) (com_setI (com_setPQ k (vr * ir + vi * ii) (vi * ir - vr * ii)) (g_norton_cur p vd vq (y1d x)))).
(** gensal.cpp:412-463 corrector_currentInjection: genP1 and genQ1 are local *)
Definition sal_ccur (p : gpar) (s : sal) : outcome sal :=
  x <- got (s_1 s);;
  Ok (Sal (s_0 s) (s_1 s) (s_d s) (com_setI (s_k s) (g_norton_cur p (- y5 x) (sal_psidpp p x) (y1d x)))).
(** gensal.cpp:322-358, 503-538: LadIfd and the derivatives *)
Definition sal_rates (p : gpar) (k : com) (x : v5) : outcome (R * v5) :=
  let vd := - y5 x in let vq := sal_psidpp p x in
  let id := g_Id p vd vq (y1d x) (k_mag k) (k_ang k) in let iq := g_Iq p vd vq (y1d x) (k_mag k) (k_ang k) in
  let psiq := y5 x - iq * g_Xdpp p in
  let psid := sal_psidpp p x - id * g_Xdpp p in
  let telec := psid * iq - psiq * id in
  let tempd := (g_Xdp p - g_Xdpp p) / ((g_Xdp p - g_Xl p) * (g_Xdp p - g_Xl p)) * (- y4 x - (g_Xdp p - g_Xl p) * id + y3 x) in
  sat <- sal_sat p (y3 x);;
  let lad := y3 x * (1 + sat) + (g_Xd p - g_Xdp p) * (id + tempd) in
  Ok (lad, V5 (y2w x * 2 * PI * 60) (1 / (2 * g_H p) * ((k_Pm k - g_D p * y2w x) / (1 + y2w x) - telec)) ((k_Efd k - lad) / g_Tdop p)
             ((- y4 x - (g_Xdp p - g_Xl p) * id + y3 x) / g_Tdopp p) ((- y5 x - (g_Xq p - g_Xdpp p) * iq) / g_Tqopp p)).
(** gensal.cpp:281-406 predictor *)
Definition sal_pred (p : gpar) (s : sal) (dt : R) (flag : bool) : outcome sal :=
  let k := com_in (s_k s) in
  s <- sal_next s flag;;
  '(lad, d) <- sal_rates p k (s_0 s);;
  k <- com_run (com_gvw (com_exV (com_lad k lad)) (y2w (s_0 s))) dt PREDICTOR;;
  Ok (Sal (s_0 s) (Some (v5_add (s_0 s) d dt)) (Some d) k).
(** gensal.cpp:470-586 corrector *)
Definition sal_corr (p : gpar) (s : sal) (dt : R) : outcome sal :=
  let k := com_in (s_k s) in
  x <- got (s_1 s);;
  '(lad, d1) <- sal_rates p k x;;
  d <- got (s_d s);;
  let x1 := v5_add (s_0 s) (v5_mid d d1) dt in
  k <- com_run (com_gvw (com_exV (com_lad k lad)) (y2w x1)) dt CORRECTOR;;
  Ok (Sal (s_0 s) (Some x1) (s_d s) k).

(** ** GENROU *)
(** x1d, x2w, x3Eqp, x4Psidp, x5Psiqp, x6Edp *)
Record v6 := V6 { z1d : R; z2w : R; z3 : R; z4 : R; z5 : R; z6 : R }.
Definition v6_add (a b : v6) (t : R) : v6 :=
  V6 (z1d a + z1d b * t) (z2w a + z2w b * t) (z3 a + z3 b * t) (z4 a + z4 b * t) (z5 a + z5 b * t) (z6 a + z6 b * t).
Definition v6_mid (a b : v6) : v6 :=
  V6 ((z1d a + z1d b) / 2) ((z2w a + z2w b) / 2) ((z3 a + z3 b) / 2) ((z4 a + z4 b) / 2) ((z5 a + z5 b) / 2) ((z6 a + z6 b) / 2).
(** x, x_1, dx, the members Id and Iq, and the common members *)
Record rou := Rou { r_0 : v6; r_1 : v6; r_d : option v6; r_Id : R; r_Iq : R; r_k : com }.
(** genrou.cpp:154-262 init; rotate() assigns Id and Iq (with theta = pi/2 - x1d), Vd and Vq are assigned again after it; Xqpp = Xdpp *)
Definition rou_init (p : gpar) (ex : option exc) (gv : option gov) (mag ang : R) : outcome rou :=
  let P := g_P p / g_base p in let Q := g_Q p / g_base p in
  let '(ir, ii) := g_cur P Q mag ang in
  let d := g_delta p ir ii mag ang in
  let theta := PI / 2 - d in
  let id := ir * cos theta - ii * sin theta in let iq := ir * sin theta + ii * cos theta in
  let vr := mag * cos ang + g_Ra p * ir - g_Xdpp p * ii in let vi := mag * sin ang + g_Ra p * ii + g_Xdpp p * ir in
  let vd := to_d vr vi d in let vq := to_q vr vi d in
  let x3 := vq + (g_Xdp p - g_Xdpp p) * id in
  let x6 := vd - (g_Xqp p - g_Xdpp p) * iq in
  let x4 := x3 - (g_Xdp p - g_Xl p) * id in
  let x5 := x6 + (g_Xqp p - g_Xl p) * iq in
  sat <- rou_sat p x3;;
  let efd := x3 * (1 + sat) + id * (g_Xd p - g_Xdp p) in
  let pm := vq * iq - (- vd) * id in
  k <- com_init ex gv efd pm mag ang P Q;;
  let x := V6 d 0 x3 x4 x5 x6 in
  Ok (Rou x x None id iq k).
(** genrou.cpp:278-291 NortonImpedence *)
Definition rou_norton (p : gpar) : C :=
  (g_G p * (g_base p / g_sb p), g_B p * (g_base p / g_sb p)).
(** Psiqpp and Psidpp, genrou.cpp:305-306, 380-381, 486-487, 553-554 *)
Definition rou_psiqpp (p : gpar) (x : v6) : R :=
  - z6 x * (g_Xdpp p - g_Xl p) / (g_Xqp p - g_Xl p) - z5 x * (g_Xqp p - g_Xdpp p) / (g_Xqp p - g_Xl p).
Definition rou_psidpp (p : gpar) (x : v6) : R :=
  z3 x * (g_Xdpp p - g_Xl p) / (g_Xdp p - g_Xl p) + z4 x * (g_Xdp p - g_Xdpp p) / (g_Xdp p - g_Xl p).
(** genrou.cpp:297-346 predictor_currentInjection: Id and Iq are those of the last corrector *)
Definition rou_pcur (p : gpar) (s : rou) : outcome rou :=
  let x := r_0 s in let k := r_k s in
  let ir := to_re (r_Id s) (r_Iq s) (z1d x) in let ii := to_im (r_Id s) (r_Iq s) (z1d x) in
  let vr := k_mag k * cos (k_ang k) in let vi := k_mag k * sin (k_ang k) in
  Ok (Rou x (r_1 s) (r_d s) (r_Id s) (r_Iq s)
        (com_setI (com_setPQ k (vr * ir + vi * ii) (vi * ir - vr * ii)) (g_norton_cur p (- rou_psiqpp p x) (rou_psidpp p x) (z1d x)))).
(** genrou.cpp:478-521 corrector_currentInjection *)
Definition rou_ccur (p : gpar) (s : rou) : outcome rou :=
  let x := r_1 s in
  Ok (Rou (r_0 s) (r_1 s) (r_d s) (r_Id s) (r_Iq s) (com_setI (r_k s) (g_norton_cur p (- rou_psiqpp p x) (rou_psidpp p x) (z1d x)))).
(** genrou.cpp:380-415, 553-583: Id, Iq, LadIfd and the derivatives *)
Definition rou_rates (p : gpar) (k : com) (x : v6) : outcome (R * R * R * v6) :=
  let psiqpp := rou_psiqpp p x in let psidpp := rou_psidpp p x in
  let vd := - psiqpp in let vq := psidpp in
  let id := g_Id p vd vq (z1d x) (k_mag k) (k_ang k) in let iq := g_Iq p vd vq (z1d x) (k_mag k) (k_ang k) in
  let telec := psidpp * iq - psiqpp * id in
  let tempd := (g_Xdp p - g_Xdpp p) / ((g_Xdp p - g_Xl p) * (g_Xdp p - g_Xl p)) * (- z4 x - (g_Xdp p - g_Xl p) * id + z3 x) in
  sat <- rou_sat p (z3 x);;
  let lad := z3 x * (1 + sat) + (g_Xd p - g_Xdp p) * (id + tempd) in
  let tempq := (g_Xqp p - g_Xdpp p) / ((g_Xqp p - g_Xl p) * (g_Xqp p - g_Xl p)) * (- z5 x + (g_Xqp p - g_Xl p) * iq + z6 x) in
  Ok (id, iq, lad, V6 (z2w x * 2 * PI * 60) (1 / (2 * g_H p) * ((k_Pm k - g_D p * z2w x) / (1 + z2w x) - telec)) ((k_Efd k - lad) / g_Tdop p)
             ((- z4 x - (g_Xdp p - g_Xl p) * id + z3 x) / g_Tdopp p) ((- z5 x + (g_Xqp p - g_Xl p) * iq + z6 x) / g_Tqopp p)
             ((- z6 x + (g_Xq p - g_Xqp p) * (iq - tempq)) / g_Tqop p)).
(** genrou.cpp:353-472 predictor *)
Definition rou_pred (p : gpar) (s : rou) (dt : R) : outcome rou :=
  let k := com_in (com_gvw (com_exV (r_k s)) (z2w (r_0 s))) in
  '(id, iq, lad, d) <- rou_rates p k (r_0 s);;
  k <- com_run (com_lad k lad) dt PREDICTOR;;
  Ok (Rou (r_0 s) (v6_add (r_0 s) d dt) (Some d) id iq k).
(** genrou.cpp:528-634 corrector: the new state goes to x, and x_1 stays the predicted one *)
Definition rou_corr (p : gpar) (s : rou) (dt : R) : outcome rou :=
  let k := com_in (com_gvw (com_exV (r_k s)) (z2w (r_1 s))) in
  '(id, iq, lad, d1) <- rou_rates p k (r_1 s);;
  d <- got (r_d s);;
  k <- com_run (com_lad k lad) dt CORRECTOR;;
  Ok (Rou (v6_add (r_0 s) (v6_mid d d1) dt) (r_1 s) (r_d s) id iq k).

(** ** The virtual functions of a machine *)
(** What the data collection holds for a machine the factory knows (generator_factory.cpp); GENCLS does not use its exciter and governor. *)
Inductive mdata := DGENCLS (p : clp) | DGENSAL (p : gpar) (ex : option excd) (gv : option govd) | DGENROU (p : gpar) (ex : option excd) (gv : option govd).
(** A machine between load and init, and a machine that runs. [MBASE] is the class BaseGeneratorModel itself, [MRAW] a machine out of service,
    which init was not called for and no function may be called on. *)
Inductive mach0 := LBASE | LCLS (p : clp) | LSAL (p : gpar) (ex : option exc) (gv : option gov) | LROU (p : gpar) (ex : option exc) (gv : option gov).
Inductive mach := MRAW (m : mach0) | MBASE | MCLS (p : clp) (s : cls) | MSAL (p : gpar) (s : sal) | MROU (p : gpar) (s : rou).
Definition m_load (d : mdata) : outcome mach0 :=
  match d with
  | DGENCLS p => Ok (LCLS p)
  | DGENSAL p ex gv => gv <- omap gov_load gv;; ex <- omap exc_load ex;; Ok (LSAL p ex gv)
  | DGENROU p ex gv => gv <- omap gov_load gv;; ex <- omap exc_load ex;; Ok (LROU p ex gv)
  end.
Definition m_init (mag ang : R) (m : mach0) : outcome mach :=
  match m with
  | LBASE => Ok MBASE
  | LCLS p => Ok (MCLS p (cls_init p mag ang))
  | LSAL p ex gv => s <- sal_init p ex gv mag ang;; Ok (MSAL p s)
  | LROU p ex gv => s <- rou_init p ex gv mag ang;; Ok (MROU p s)
  end.
Definition m_norton (m : mach0) : outcome C :=
  match m with LBASE => Ok (RtoC 0) | LCLS p => cls_norton p | LSAL p _ _ => Ok (sal_norton p) | LROU p _ _ => Ok (rou_norton p) end.
Definition m_IN (m : mach) : C := match m with MRAW _ => RtoC 0 | MBASE => RtoC 0 | MCLS _ s => l_IN s | MSAL _ s => k_IN (s_k s) | MROU _ s => k_IN (r_k s) end.
Definition m_pcur (flag : bool) (m : mach) : outcome mach :=
  match m with
  | MRAW _ => UB | MBASE => Ok MBASE | MCLS p s => Ok (MCLS p (cls_pcur p s flag))
  | MSAL p s => s <- sal_pcur p s flag;; Ok (MSAL p s) | MROU p s => s <- rou_pcur p s;; Ok (MROU p s)
  end.
Definition m_ccur (m : mach) : outcome mach :=
  match m with
  | MRAW _ => UB | MBASE => Ok MBASE | MCLS p s => Ok (MCLS p (cls_ccur p s))
  | MSAL p s => s <- sal_ccur p s;; Ok (MSAL p s) | MROU p s => s <- rou_ccur p s;; Ok (MROU p s)
  end.
Definition m_pred (dt : R) (flag : bool) (m : mach) : outcome mach :=
  match m with
  | MRAW _ => UB | MBASE => Ok MBASE | MCLS p s => Ok (MCLS p (cls_pred p s dt flag))
  | MSAL p s => s <- sal_pred p s dt flag;; Ok (MSAL p s) | MROU p s => s <- rou_pred p s dt;; Ok (MROU p s)
  end.
Definition m_corr (dt : R) (m : mach) : outcome mach :=
  match m with
  | MRAW _ => UB | MBASE => Ok MBASE | MCLS p s => Ok (MCLS p (cls_corr p s dt))
  | MSAL p s => s <- sal_corr p s dt;; Ok (MSAL p s) | MROU p s => s <- rou_corr p s dt;; Ok (MROU p s)
  end.
(** classical.cpp:352-357, gensal.cpp:607-611, genrou.cpp:646-651 setVoltage *)
Definition m_setV (v : C) (m : mach) : outcome mach :=
  match m with
  | MRAW _ => UB | MBASE => Ok MBASE | MCLS p s => Ok (MCLS p (cls_setV s v))
  | MSAL p s => Ok (MSAL p (Sal (s_0 s) (s_1 s) (s_d s) (com_setV (s_k s) v)))
  | MROU p s => Ok (MROU p (Rou (r_0 s) (r_1 s) (r_d s) (r_Id s) (r_Iq s) (com_setV (r_k s) v)))
  end.

(** * Buses *)
(** A load: LOAD_STATUS, LOAD_PL, _QL, _IP, _IQ, _YP, _YQ *)
Record ldata := Ld { ld_on : bool; ld_pl : R; ld_ql : R; ld_ip : R; ld_iq : R; ld_yp : R; ld_yq : R }.
(** A generator: GENERATOR_STAT, _PG and _QG (on the system base, as transferPFtoDS leaves them), and GENERATOR_MODEL: missing, not
    known to the factory, or known. *)
Record gdata := Gd { gd_on : bool; gd_pg : R; gd_qg : R; gd_model : option (option mdata) }.
Record bdata := Bd { bd_mag : R; bd_deg : R; bd_loads : list ldata; bd_gens : list gdata }.
(** GENERATOR_PG, GENERATOR_QG and CASE_SBASE for the machine *)
Definition clp_pq (p : clp) (pg qg : R) : clp := Clp (c_mva p) (c_r p) (c_dstr p) (c_dtr p) (c_h p) (c_d0 p) pg qg.
Definition gpar_pq (p : gpar) (sb pg qg : R) : gpar :=
  Gpar sb (g_MB p) (g_H p) (g_D p) (g_Ra p) (g_Xd p) (g_Xq p) (g_Xdp p) (g_Xdpp p) (g_Xl p) (g_Tdop p) (g_Tdopp p) (g_Tqopp p) (g_S10 p) (g_S12 p) (g_Xqp p) (g_Tqop p) pg qg.
Definition with_pq (d : mdata) (sb pg qg : R) : mdata :=
  match d with
  | DGENCLS p => DGENCLS (clp_pq p pg qg) | DGENSAL p ex gv => DGENSAL (gpar_pq p sb pg qg) ex gv | DGENROU p ex gv => DGENROU (gpar_pq p sb pg qg) ex gv
  end.
(** p_gstatus[i], p_pg[i], p_qg[i], and p_gen_nodynmodel[i] with p_genpg_nodynmodel[i], p_genqg_nodynmodel[i] *)
Record slot := Slot { sl_on : bool; sl_pg : R; sl_qg : R; sl_nodyn : option (R * R) }.
(** dsf_components.cpp:933-1121, the generators: [icnt] generators were read, [ms] is p_generators, [neg] are p_negpg and p_negqg. A
    machine goes to the end of p_generators but is used as p_generators[icnt]. *)
Fixpoint load_gens (sb : R) (l : list gdata) (icnt : nat) (ms : list mach0) (neg : list (R * R)) (sl : list slot) : outcome (list mach0 * list (R * R) * list slot) :=
  match l with
  | [] => Ok (ms, neg, sl)
  | g :: l =>
      if Rle_dec 0 (gd_pg g) then
        match gd_model g with
        | Some (Some d) =>
            if Nat.eqb (length ms) icnt then
              m <- m_load (with_pq d sb (gd_pg g) (gd_qg g));;
              load_gens sb l (S icnt) (ms ++ [m]) neg (sl ++ [Slot (gd_on g) (gd_pg g) (gd_qg g) None])
            else UB
        | Some None => UB
        | None => load_gens sb l (S icnt) (ms ++ [LBASE]) neg (sl ++ [Slot (gd_on g) (gd_pg g) (gd_qg g) (Some (gd_pg g, gd_qg g))])
        end
      else load_gens sb l (S icnt) ms (neg ++ [(gd_pg g, gd_qg g)]) (sl ++ [Slot (gd_on g) (gd_pg g) (gd_qg g) None])
  end.
(** dsf_components.cpp:1160-1186, 1230-1237, 1261-1262 (no dynamic loads): p_pl and p_ql *)
Fixpoint sum_pl (l : list ldata) : R := match l with [] => 0 | x :: r => (if ld_on x then ld_pl x + ld_ip x + ld_yp x else 0) + sum_pl r end.
Fixpoint sum_ql (l : list ldata) : R := match l with [] => 0 | x :: r => (if ld_on x then ld_ql x - ld_iq x - ld_yq x else 0) + sum_ql r end.

(** The loops over the generators, dsf_components.cpp:261-272, 467-470, 645-648, 665-668, 690-693, 709-712, 733-736, 792-795:
    for i < p_ngen, if p_gstatus[i] and p_generators is not empty, [f] on p_generators[i]; [skip] for the machines left out. *)
Fixpoint loop_on {A B} (f : A -> outcome B) (skip : A -> B) (sl : list slot) (l : list A) : outcome (list B) :=
  match sl, l with
  | [], _ => Ok (map skip l)
  | s :: sl, [] => if sl_on s then UB else loop_on f skip sl []
  | s :: sl, a :: l => b <- (if sl_on s then f a else Ok (skip a));; r <- loop_on f skip sl l;; Ok (b :: r)
  end.
Definition for_gens {A B} (f : A -> outcome B) (skip : A -> B) (sl : list slot) (l : list A) : outcome (list B) :=
  match l with [] => Ok [] | _ => loop_on f skip sl l end.
Fixpoint ctotal (l : list C) : C := match l with [] => RtoC 0 | x :: r => (x + ctotal r)%C end.
(** -P + jQ over the square of the voltage: dsf_components.cpp:229-230, 244-245, 252-253 *)
Definition neg_adm (mag : R) (pq : R * R) : C := ((- fst pq) / (mag * mag), snd pq / (mag * mag)).
(** dsf_components.cpp:223-258, mode PG: what is added to the diagonal *)
Definition pg_adm (mag : R) (sl : list slot) (neg : list (R * R)) : C :=
  (ctotal (map (fun s => if sl_on s then if Rlt_dec (sl_pg s) 0 then neg_adm mag (sl_pg s, sl_qg s) else RtoC 0 else RtoC 0) sl)
   + (ctotal (map (neg_adm mag) neg)
      + ctotal (map (fun s => match sl_nodyn s with Some pq => neg_adm mag pq | None => RtoC 0 end) sl)))%C.
(** A bus that runs: the slots and p_generators *)
Record bus := Bus { u_slots : list slot; u_gens : list mach }.
(** DSFullBus::load, the modes YBUS, YL, PG, jxd and YDYNLOAD (dsf_components.cpp:205-281, 375-396; there are no dynamic loads) and
    initDSVect (642-655) for one bus; [y] is the diagonal element of the admittance matrix. The modes PG and jxd leave values[0]
    unassigned in some cases, but only the matrix of YDYNLOAD is used. *)
Definition bus_setup (sb : R) (y : C) (d : bdata) : outcome (C * bus) :=
  '(ms, neg, sl) <- load_gens sb (bd_gens d) 0 [] [] [];;
  let mag := bd_mag d in let ang := bd_deg d * PI / 180 in
  let yl := Cplus y (sum_pl (bd_loads d) / sb / (mag * mag), - (sum_ql (bd_loads d) / sb) / (mag * mag)) in
  let ypg := (yl + pg_adm mag sl neg)%C in
  ys <- for_gens m_norton (fun _ => RtoC 0) sl ms;;
  gs <- for_gens (m_init mag ang) MRAW sl ms;;
  Ok ((ypg + ctotal ys)%C, Bus sl gs).

(** * The application *)
Fixpoint omapl {A B} (f : A -> outcome B) (l : list A) : outcome (list B) :=
  match l with [] => Ok [] | a :: l => b <- f a;; r <- omapl f l;; Ok (b :: r) end.
(** dsf_app_module2.cpp:154-230 setup: the diagonal of the matrix the linear solver gets, and the buses; [ys] is the diagonal of the
    admittance matrix, whose other elements are not changed. *)
Definition setup (sb : R) (l : list (C * bdata)) : outcome (list (C * bus)) := omapl (fun x => bus_setup sb (fst x) (snd x)) l.
(** dsf_components.cpp:461-470, 590 vectorValues *)
Definition bus_IN (b : bus) : outcome C := cs <- for_gens (fun m => Ok (m_IN m)) (fun _ => RtoC 0) (u_slots b) (u_gens b);; Ok (ctotal cs).
Definition bus_for (f : mach -> outcome mach) (b : bus) : outcome bus := gs <- for_gens f (fun m => m) (u_slots b) (u_gens b);; Ok (Bus (u_slots b) gs).
(** dsf_components.cpp:594-601, 789-796 setValues and setVolt *)
Fixpoint set_volts (bs : list bus) (vs : list C) : outcome (list bus) :=
  match bs, vs with
  | [], _ => Ok []
  | b :: bs, v :: vs => b <- bus_for (m_setV v) b;; r <- set_volts bs vs;; Ok (b :: r)
  | _ :: _, [] => UB
  end.
(** dsf_app_module2.cpp:76-125 solveNetwork, with p_biterative_solve_network = false; [solve] is the linear solver *)
Definition solve_net (solve : list C -> list C) (bs : list bus) : outcome (list bus * list C) :=
  i <- omapl bus_IN bs;;
  let v := solve i in
  bs <- set_volts bs v;; Ok (bs, v).
(** dsf_app_module2.cpp:235-338 runonestep; [flag] is true in the first step. The voltages of the two network solutions are returned. *)
Definition one_step (solve : list C -> list C) (dt : R) (flag : bool) (bs : list bus) : outcome (list bus * list (list C)) :=
  bs <- omapl (bus_for (m_pcur flag)) bs;;
  '(bs, v1) <- solve_net solve bs;;
  bs <- omapl (bus_for (m_pred dt flag)) bs;;
  bs <- omapl (bus_for m_ccur) bs;;
  '(bs, v2) <- solve_net solve bs;;
  bs <- omapl (bus_for (m_corr dt)) bs;;
  Ok (bs, [v1; v2]).
(** dsf_app_module2.cpp:402-415 run, without events; the time step may be changed between the steps (setTimeStep). *)
Fixpoint steps (solve : list C -> list C) (flag : bool) (dts : list R) (bs : list bus) : outcome (list bus * list (list C)) :=
  match dts with
  | [] => Ok (bs, [])
  | dt :: dts => '(bs, v) <- one_step solve dt flag bs;; '(bs, w) <- steps solve false dts bs;; Ok (bs, v ++ w)
  end.

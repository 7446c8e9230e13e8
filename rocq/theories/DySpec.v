(** Specification for the dynamic simulation: the steady state of the network and of its machines. *)
From Verif Require Import Prelude CbModel DyModel.
From Coq Require Import Reals.
From Coquelicot Require Import Complex.
Open Scope R_scope.

(** ** The power flow solution *)
Fixpoint csum (n : nat) (f : nat -> C) : C := match n with O => RtoC 0 | S k => (csum k f + f k)%C end.
(** The voltage of a bus *)
Definition phasor (d : bdata) : C := (bd_mag d * cos (bd_deg d * PI / 180), bd_mag d * sin (bd_deg d * PI / 180)).
(** The power of its generators in service, and of its loads in service at voltage v: constant power, current and admittance. *)
Definition gen_power (d : bdata) : C := fold_right (fun g s => if gd_on g then Cplus (gd_pg g, gd_qg g) s else s) (RtoC 0) (bd_gens d).
Definition load_power (sb : R) (d : bdata) : C :=
  let v := bd_mag d in
  fold_right (fun x s => if ld_on x then Cplus ((ld_pl x + ld_ip x * v + ld_yp x * v * v) / sb, (ld_ql x + ld_iq x * v - ld_yq x * v * v) / sb) s else s)
    (RtoC 0) (bd_loads d).
(** At every bus the power of the generators less that of the loads goes into the network. *)
Definition power_flow (sb : R) (Y : nat -> nat -> C) (l : list bdata) : Prop :=
  forall i d, nth_error l i = Some d ->
  (phasor d * Cconj (csum (length l) (fun j => Y i j * nth j (map phasor l) (RtoC 0))))%C = Cminus (gen_power d) (load_power sb d).

(** ** Machines *)
(** The stator current for power P + jQ at voltage V. *)
Definition stator_current (P Q : R) (v : C) : C := Cconj (Cdiv (P, Q) v).
(** The mechanical power: the power of the terminals and the losses of the stator. *)
Definition shaft_power (p : gpar) (P Q : R) (v : C) (pm : R) : Prop := pm = P + g_Ra p * (Cmod (stator_current P Q v) * Cmod (stator_current P Q v)).
(** The rotor angle [a] and the field voltage [e]: the q axis of the rotor has the direction [a], which is that of V + (Ra + j Xq) I; Iq is the
    part of the current along it and Id the part that lags it by a right angle; sat is the saturation. *)
Definition field_voltage (p : gpar) (sat : R -> R -> Prop) (P Q : R) (v : C) (a e : R) : Prop :=
  exists r : R, 0 <= r /\
  let q : C := (cos a, sin a) in let i := stator_current P Q v in
  (v + (g_Ra p, g_Xq p) * i)%C = (RtoC r * q)%C /\
  let iq := fst (i * Cconj q)%C in let id := - snd (i * Cconj q)%C in let vq := fst (v * Cconj q)%C in
  let eqp := vq + g_Ra p * iq + g_Xdp p * id in
  exists s, sat eqp s /\ e = eqp * (1 + s) + (g_Xd p - g_Xdp p) * id.

(** The saturation: a parabola from its vertex (a,0) on, before which there is none, with the values S10 at 1 and S12 at 1.2. GENROU has none
    if the product of the two is (almost) zero. *)
Definition sat_curve (p : gpar) (x s : R) : Prop :=
  exists a b, a < 1 /\ b * (1 - a) * (1 - a) = g_S10 p /\ b * (1.2 - a) * (1.2 - a) = g_S12 p /\ (x < a -> s = 0) /\ (a <= x -> s = b * (x - a) * (x - a)).
Definition sat_maybe (p : gpar) (x s : R) : Prop :=
  Rabs (g_S10 p * g_S12 p) < / 1000000 /\ s = 0 \/ ~ Rabs (g_S10 p * g_S12 p) < / 1000000 /\ sat_curve p x s.

(** ** What a model needs to be started at a given point *)
(** A time constant that is not zero and not huge (the blocks take the inverse of a huge one for 0). *)
Definition tc (t : R) : Prop := t <> 0 /\ Rabs t <= 10000000000.
Definition bounded (x : R) : Prop := -1000 <= x <= 1000.
(** EXDC1 and IEEET1 at terminal voltage v and field voltage e: the regulator output is vr. *)
Definition dc_ok (lead : bool) (p : dcp) (v e : R) : Prop :=
  exists vr, sat_signal p e = Ok vr /\ e_Vrmin p <= vr <= e_Vrmax p /\ bounded vr /\ bounded e /\ e_KA p <> 0 /\ e_TE p <> 0 /\
  (Rabs (e_TR p) < / 1000000 \/ tc (e_TR p) /\ bounded v) /\
  (tc (e_TF1 p) /\ (e_KF p = 0 \/ tiny <= Rabs (e_KF p / (e_TF1 p * e_TF1 p))) /\ bounded (e_KF p / e_TF1 p * e)) /\
  (Rabs (e_TA p) < / 1000000 \/ tc (e_TA p)) /\
  (lead = true -> Rabs (e_TB p * e_TC p) < / 1000000 \/ tc (e_TB p) /\ bounded (vr / e_KA p) /\ bounded ((1 - e_TA p / e_TB p) * (vr / e_KA p))).
Definition sexs_ok (p : sxp) (v e : R) : Prop :=
  tc (x_TB p) /\ x_K p <> 0 /\ x_EMIN p <= e <= x_EMAX p /\ bounded e /\ bounded (e / x_K p) /\ bounded ((1 - x_TAB p) * (e / x_K p)) /\
  (tc (x_TE p) /\ ~ Rabs (x_TE p) < / 1000000 \/ Rabs (x_TE p) < / 1000000 /\ x_EMIN p <= e / x_K p <= x_EMAX p).
Definition exc_ok (d : excd) (v e : R) : Prop :=
  match d with DEXDC1 p => dc_ok true p v e | DIEEET1 p => dc_ok false p v e | DSEXS p => sexs_ok p v e end.
Definition tgov1_ok (p : tgp) (pm : R) : Prop :=
  t_R p <> 0 /\ tc (t_T1 p) /\ tc (t_T3 p) /\ t_Vmin p <= pm <= t_Vmax p /\ bounded pm /\ bounded ((1 - t_T2 p / t_T3 p) * pm).
Definition gast_ok (p : gap) (pm : R) : Prop :=
  a_R p <> 0 /\ tc (a_T1 p) /\ tc (a_T2 p) /\ tc (a_T3 p) /\ a_VMIN p <= pm <= a_VMAX p /\ bounded pm /\ pm <= a_AT p + a_KT p * (a_AT p - pm).
Definition hygov_ok (p : hyp) (pm : R) : Prop :=
  (exists r, h_r p = Some r /\ r <> 0) /\ h_TR p <> 0 /\ tc (h_TF p) /\ tc (h_TG p) /\ h_TW p <> 0 /\ h_AT p <> 0 /\
  let g := pm / h_AT p + h_qNL p in g <> 0 /\ h_GMIN p <= g <= h_GMAX p /\ bounded g.
Definition wsieg1_ok (p : wsp) (pm : R) : Prop :=
  let k := w_K1 p + w_K3 p + w_K5 p + w_K7 p in let g := pm / k in
  0 < k /\ w_T3 p <> 0 /\ w_Uc p <= 0 <= w_Uo p /\ w_Pmin p <= g <= w_Pmax p /\ bounded g /\
  (w_T1 p = 0 \/ w_T2 p = 0 \/ tc (w_T1 p)) /\ (forall t, In t [w_T4 p; w_T5 p; w_T6 p; w_T7 p] -> t = 0 \/ tc t).
Definition gov_ok (d : govd) (pm : R) : Prop :=
  match d with DTGOV1 p => tgov1_ok p pm | DGAST p => gast_ok p pm | DHYGOV p => hygov_ok p pm | DWSIEG1 p => wsieg1_ok p pm end.
(** The saturation parameters: none (GENROU only), or a curve that goes up. *)
Definition sat_ok (none : bool) (p : gpar) : Prop := none = true /\ Rabs (g_S10 p * g_S12 p) < / 1000000 \/ 0 < g_S10 p < g_S12 p.
Definition gpar_ok (p : gpar) : Prop :=
  0 < g_sb p /\ 0 < g_base p /\ g_H p <> 0 /\ g_Tdop p <> 0 /\ g_Tdopp p <> 0 /\ g_Tqopp p <> 0 /\
  g_Ra p * g_Ra p + g_Xdpp p * g_Xdpp p <> 0 /\ g_Xdp p <> g_Xl p.
Definition rou_ok (p : gpar) : Prop := g_Xqp p <> g_Xl p /\ g_Tqop p <> 0.
(** The controllers can be started at every field voltage and mechanical power the machine may need (there is one of each, unless the
    machine has no internal voltage). *)
Definition ctl_ok (p : gpar) (sat : R -> R -> Prop) (ex : option excd) (gv : option govd) (v : C) : Prop :=
  let P := g_pg p * g_sb p / g_base p in let Q := g_qg p * g_sb p / g_base p in
  (forall d a e, ex = Some d -> field_voltage p sat P Q v a e -> exc_ok d (Cmod v) e) /\
  (forall d pm, gv = Some d -> shaft_power p P Q v pm -> gov_ok d pm).
(** A machine with its power in its parameters; GENCLS takes the system base for 100 and the stator resistance for 0. *)
Definition machine_ok (sb : R) (d : mdata) (v : C) : Prop :=
  match d with
  | DGENCLS p => sb = 100 /\ 0 < c_mva p /\ c_r p = 0 /\ c_dstr p = 0 /\ c_dtr p <> 0 /\ c_h p <> 0
  | DGENSAL p ex gv => gpar_ok p /\ sat_ok false p /\ ctl_ok p (sat_curve p) ex gv v
  | DGENROU p ex gv => gpar_ok p /\ rou_ok p /\ sat_ok true p /\ ctl_ok p (sat_maybe p) ex gv v
  end.
(** A bus: positive voltage, loads of constant power, generators that do not consume; a generator without a model is in service. *)
Definition bus_ok (sb : R) (d : bdata) : Prop :=
  0 < bd_mag d /\
  (forall x, In x (bd_loads d) -> ld_ip x = 0 /\ ld_iq x = 0 /\ ld_yp x = 0 /\ ld_yq x = 0) /\
  (forall g, In g (bd_gens d) -> 0 <= gd_pg g /\
     match gd_model g with
     | None => gd_on g = true
     | Some None => False
     | Some (Some m) => if gd_on g then machine_ok sb (with_pq m sb (gd_pg g) (gd_qg g)) (phasor d) else exists m0, m_load (with_pq m sb (gd_pg g) (gd_qg g)) = Ok m0
     end).

(** ** The network *)
(** The matrix of the linear solver: the admittance matrix with the diagonal elements of setup *)
Definition system (Y : nat -> nat -> C) (ys : list (C * bus)) (i j : nat) : C :=
  if Nat.eqb i j then match nth_error ys i with Some (y, _) => y | None => RtoC 0 end else Y i j.
Definition solves (n : nat) (A : nat -> nat -> C) (b x : list C) : Prop :=
  length x = n /\ forall i, (i < n)%nat -> csum n (fun j => A i j * nth j x (RtoC 0))%C = nth i b (RtoC 0).
(** A linear solver gives a solution; the matrix is regular. *)
Definition linear_solver (n : nat) (A : nat -> nat -> C) (solve : list C -> list C) : Prop := forall b, length b = n -> solves n A b (solve b).
Definition regular (n : nat) (A : nat -> nat -> C) : Prop :=
  forall x, length x = n -> (forall i, (i < n)%nat -> csum n (fun j => A i j * nth j x (RtoC 0))%C = RtoC 0) -> forall i, (i < n)%nat -> nth i x (RtoC 0) = RtoC 0.

(** What setup adds to the diagonal: the constant admittance that takes the power s at voltage v, for the loads and, with the other sign,
    for the generators without a model; and the reciprocal of Ra + j X''d (j X'd for GENCLS) on the system base for every machine in service. *)
Definition power_adm (s v : C) : C := Cdiv (Cconj s) (RtoC (Cmod v * Cmod v)).
Definition machine_adm (d : mdata) : C :=
  match d with
  | DGENCLS p => Cdiv (RtoC (c_mva p / 100)) (c_r p, c_dtr p)
  | DGENSAL p _ _ | DGENROU p _ _ => Cdiv (RtoC (g_base p / g_sb p)) (g_Ra p, g_Xdpp p)
  end.
Definition gen_adm (sb : R) (v : C) (g : gdata) : C :=
  if gd_on g then match gd_model g with Some (Some d) => machine_adm (with_pq d sb (gd_pg g) (gd_qg g)) | _ => Copp (power_adm (gd_pg g, gd_qg g) v) end else RtoC 0.
Definition bus_adm (sb : R) (d : bdata) : C :=
  (power_adm (load_power sb d) (phasor d) + fold_right (fun g s => gen_adm sb (phasor d) g + s) (RtoC 0) (bd_gens d))%C.

(** ** What a user sees of a machine *)
(** Rotor angle, speed deviation, internal or field voltage, mechanical power, and the power on the system base [sb] *)
Record report := Rep { o_angle : R; o_speed : R; o_field : R; o_shaft : R; o_P : R; o_Q : R }.
(** after setup, and after a time step *)
Definition report0 (m : mach) : option report :=
  match m with
  | MRAW _ => None | MBASE => None
  | MCLS p s => Some (Rep (l_ang0 s) (l_spd0 s - 1) (l_eq s) (l_pm s) (l_P s * c_mva p / 100) (l_Q s * c_mva p / 100))
  | MSAL p s => Some (Rep (y1d (s_0 s)) (y2w (s_0 s)) (k_Efd (s_k s)) (k_Pm (s_k s)) (k_gP (s_k s) * g_base p / g_sb p) (k_gQ (s_k s) * g_base p / g_sb p))
  | MROU p s => Some (Rep (z1d (r_0 s)) (z2w (r_0 s)) (k_Efd (r_k s)) (k_Pm (r_k s)) (k_gP (r_k s) * g_base p / g_sb p) (k_gQ (r_k s) * g_base p / g_sb p))
  end.
Definition report1 (m : mach) : option report :=
  match m with
  | MRAW _ => None | MBASE => None
  | MCLS p s => Some (Rep (l_ang1 s) (l_spd1 s - 1) (l_eq s) (l_pm s) (l_P s * c_mva p / 100) (l_Q s * c_mva p / 100))
  | MSAL p s => match s_1 s with Some x => Some (Rep (y1d x) (y2w x) (k_Efd (s_k s)) (k_Pm (s_k s)) (k_gP (s_k s) * g_base p / g_sb p) (k_gQ (s_k s) * g_base p / g_sb p)) | None => None end
  | MROU p s => report0 (MROU p s)
  end.
(** The report of a machine in the steady state with its power at voltage v: the speed is the nominal one and the power that of the power flow.
    For GENCLS the internal voltage is that behind the transient reactance. *)
Definition steady (d : mdata) (v : C) (r : report) : Prop :=
  o_speed r = 0 /\
  match d with
  | DGENCLS p =>
      let P := c_pg p * 100 / c_mva p in let Q := c_qg p * 100 / c_mva p in
      o_P r = c_pg p /\ o_Q r = c_qg p /\ o_shaft r = P /\ 0 <= o_field r /\
      Cplus v (Cmult (0, c_dtr p) (stator_current P Q v)) = (RtoC (o_field r) * (cos (o_angle r), sin (o_angle r)))%C
  | DGENSAL p _ _ | DGENROU p _ _ =>
      let sat := match d with DGENROU _ _ _ => sat_maybe p | _ => sat_curve p end in
      let P := g_pg p * g_sb p / g_base p in let Q := g_qg p * g_sb p / g_base p in
      o_P r = g_pg p /\ o_Q r = g_qg p /\ shaft_power p P Q v (o_shaft r) /\ field_voltage p sat P Q v (o_angle r) (o_field r)
  end.
(** Every machine in service of a bus: its report after setup is steady, and it is the same after the steps. *)
Definition at_rest (sb : R) (d : bdata) (b b' : bus) : Prop :=
  forall k g m, nth_error (bd_gens d) k = Some g -> gd_on g = true -> gd_model g = Some (Some m) ->
  exists m0 m1 r, nth_error (u_gens b) k = Some m0 /\ nth_error (u_gens b') k = Some m1 /\ report0 m0 = Some r /\ report1 m1 = Some r /\
  steady (with_pq m sb (gd_pg g) (gd_qg g)) (phasor d) r.

(** ** Controllers by themselves *)
(** A governor or exciter over a list of steps: the stage, the speed deviation or the voltage, and the time step. The results are the
    mechanical powers or the field voltages. *)
Fixpoint gov_sim (g : gov) (l : list (stage * R * R)) : outcome (list R) :=
  match l with
  | [] => Ok []
  | (st, w, dt) :: l => obind (gov_run (gov_setw g w) dt st) (fun g => obind (gov_sim g l) (fun r => Ok (gov_P g :: r)))
  end.
Fixpoint exc_sim (e : exc) (l : list (stage * R * R)) : outcome (list R) :=
  match l with
  | [] => Ok []
  | (st, v, dt) :: l => obind (exc_run (exc_setV e v) dt st) (fun e => obind (exc_sim e l) (fun r => Ok (exc_Efd e :: r)))
  end.
(** Read from the data, started at mechanical power P, or at voltage v and field voltage e, and run *)
Definition gov_from (d : govd) (P : R) (l : list (stage * R * R)) : outcome (list R) :=
  obind (gov_load d) (fun g => obind (gov_init (gov_setw (gov_setP g P) 0)) (fun g => gov_sim g l)).
Definition exc_from (d : excd) (v e : R) (l : list (stage * R * R)) : outcome (list R) :=
  obind (exc_load d) (fun x => obind (exc_init (exc_setE (exc_setV x v) e) v) (fun x => exc_sim x l)).
(** Predictor and corrector in turn, with the time steps of [dts] *)
Fixpoint turns (w : R) (dts : list R) : list (stage * R * R) :=
  match dts with [] => [] | dt :: l => (PREDICTOR, w, dt) :: (CORRECTOR, w, dt) :: turns w l end.

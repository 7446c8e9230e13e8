(** Relays of the dynamic simulation (applications/modules/dynamic_simulation_full_y): model_classes/lvshbl.cpp, frqtpat.cpp and
    distr1.cpp, updateRelay of buses and branches and the modes bus_relay and branch_relay (dsf_components.cpp), the loops of
    dsf_factory.cpp and their place in a time step (dsf_app_module2.cpp:233-276).

    Simplifications: doubles are real numbers, counters do not overflow; dynamic loads, messages on the console and the reading of
    relay parameters (C58) are left out.  A network of one process, except where several are mentioned. *)
From Verif Require Import Prelude DyModel.
From Coq Require Import Reals.
From Coquelicot Require Import Complex.
Open Scope R_scope.

Definition below (a b : R) : bool := if Rlt_dec a b then true else false.
Definition atmost (a b : R) : bool := if Rle_dec a b then true else false.

(** ** The three relays *)
(** What a relay keeps between updates: the counters for its pick-up, icount_breaker, iflag, the signal and the signal of the update
    before, and boperationstatus of base_relay_model.cpp.  The flags are 0 or 1. *)
Record relay (A : Type) := Relay { r_count : A; r_brk : nat; r_flag : bool; r_trip : bool; r_prev : bool; r_op : bool }.
Arguments Relay {A}.  Arguments r_count {A}.  Arguments r_brk {A}.  Arguments r_flag {A}.  Arguments r_trip {A}.  Arguments r_prev {A}.  Arguments r_op {A}.
(** The constructors, lvshbl.cpp:29-49, frqtpat.cpp:28-46, distr1.cpp:29-49 *)
Definition fresh {A} (zero : A) : relay A := Relay zero 0 false false false true.

(** lvshbl.hpp:72-84: three stages of voltage, pick-up time and fraction, and the breaker time *)
Record lvshbl := Lvshbl { lv_v1 : R; lv_t1 : R; lv_f1 : R; lv_v2 : R; lv_t2 : R; lv_f2 : R; lv_v3 : R; lv_t3 : R; lv_f3 : R; lv_tb : R }.
(** lvshbl.cpp:121-161 updateRelay with the voltage given by setMonitorVariables *)
Definition lv_update (p : lvshbl) (dt : R) (v : C) (r : relay nat) : relay nat :=
  let c := if r_flag r then r_count r else if below (Cmod v) (lv_v1 p) then S (r_count r) else 0%nat in
  if atmost (lv_t1 p) (INR c * dt) then
    let b := S (r_brk r) in
    if atmost (lv_tb p) (INR b * dt) then Relay 0%nat 0 false true (r_trip r) (r_op r)
    else Relay c b true false (r_trip r) (r_op r)
  else Relay c (r_brk r) false (r_trip r) (r_trip r) (r_op r).

(** frqtpat.hpp:71 *)
Record frqtpat := Frqtpat { fq_low : R; fq_up : R; fq_tp : R; fq_tb : R }.
(** frqtpat.cpp:108-156 updateRelay; the frequency in hertz *)
Definition fq_update (p : frqtpat) (dt f : R) (r : relay (nat * nat)) : relay (nat * nat) :=
  let c := if r_flag r then r_count r else (if below f (fq_low p) then S (fst (r_count r)) else 0%nat, if below (fq_up p) f then S (snd (r_count r)) else 0%nat) in
  if atmost (fq_tp p) (INR (fst c) * dt) || atmost (fq_tp p) (INR (snd c) * dt) then
    let b := S (r_brk r) in
    if below (fq_tb p) (INR b * dt) then Relay (0%nat, 0%nat) 0 false true (r_trip r) (r_op r)
    else Relay c b true false (r_trip r) (r_op r)
  else Relay c (r_brk r) false (r_trip r) (r_trip r) (r_op r).

(** distr1.hpp:78-81: times in cycles, reach, angle in degrees and distance of the centre of a zone *)
Record zone := Zone { zn_time : R; zn_reach : R; zn_ang : R; zn_dis : R }.
Record distr1 := Distr1 { ds_1 : zone; ds_2 : zone; ds_3 : zone; ds_tb : R }.
(** distr1.cpp:108-113 the centres, computed in load *)
Definition centre (z : zone) : C := (zn_dis z * cos (zn_ang z * (4 * atan 1) / 180), zn_dis z * sin (zn_ang z * (4 * atan 1) / 180)).
(** distr1.cpp:171-180: without current the quotient is infinite or not a number, and the comparison fails. *)
Definition in_zone (z : zone) (v i : C) : bool :=
  if Ceq_dec i (RtoC 0) then false else below (Cmod (v / i - centre z)%C) (zn_reach z / 2).
(** distr1.cpp:162-215 updateRelay *)
Definition ds_update (p : distr1) (dt : R) (vi : C * C) (r : relay (nat * nat)) : relay (nat * nat) :=
  let c := if r_flag r then r_count r
           else if in_zone (ds_2 p) (fst vi) (snd vi) then
             (if in_zone (ds_1 p) (fst vi) (snd vi) then S (fst (r_count r)) else 0%nat, S (snd (r_count r)))
           else (fst (r_count r), 0%nat) in
  if below (zn_time (ds_1 p) / 60) (INR (fst c) * dt) || below (zn_time (ds_2 p) / 60) (INR (snd c) * dt) then
    let b := S (r_brk r) in
    if below (ds_tb p / 60) (INR b * dt) then Relay (0%nat, 0%nat) 0 false true (r_trip r) (r_op r)
    else Relay c b true false (r_trip r) (r_op r)
  else Relay c (r_brk r) false (r_trip r) (r_trip r) (r_op r).

(** dsf_components.cpp:1962-1971, 2003-2015 and 3616-3634: an update by the owner of the relay, and whether the relay operates:
    the signal is given, it was not given before and the relay has not operated yet. *)
Definition operate {A} (u : relay A -> relay A) (r : relay A) : relay A * bool :=
  let r' := u r in
  if r_trip r' && negb (r_prev r') && r_op r' then (Relay (r_count r') (r_brk r') (r_flag r') (r_trip r') (r_prev r') false, true) else (r', false).

(** ** A bus *)
(** A generator: p_gstatus, p_genservicestatus of the machine, the Norton admittance, its relays. *)
Record rgen := Rgen { rg_stat : bool; rg_on : bool; rg_y : C; rg_relays : list (frqtpat * relay (nat * nat)) }.
(** p_volt_full, p_volt_full_old, p_busvolfreq, pbusvolfreq_old, bcomputefreq, p_loadimpedancer/i, p_ybusr/i, the load relays, the
    generators, p_busrelaytripflag, p_branchrelay_from_flag or p_branchrelay_to_flag, p_relaytrippedbranch *)
Record rbus := Rbus { rb_v : C; rb_vold : C; rb_f : R; rb_fold : R; rb_cf : bool; rb_load : C; rb_y : C; rb_lv : list (lvshbl * relay nat); rb_gens : list rgen;
  rb_trip : bool; rb_brflag : bool; rb_br : option nat }.
(** dsf_components.cpp:1864-1900 computeBusVolFrequency: the old and the new frequency are the same afterwards *)
Definition frequency (dt fold : R) (vold v : C) : R :=
  let pi := 4 * atan 1 in let w0 := 2 * 60 * pi in
  let x := fold / 60 - 1 in
  let a0 := atan2 (snd vold) (fst vold) in let a := atan2 (snd v) (fst v) in
  let a := if Rlt_dec (170 / 180 * pi) a0 then (if Rlt_dec a 0 then a + 2 * pi else a)
           else if Rlt_dec a0 (-170 / 180 * pi) then (if Rlt_dec 0 a then a - 2 * pi else a) else a in
  let d1 := ((a - a0) / dt / w0 - x) / (1 / 10) in
  let x1 := x + d1 * dt in
  let d2 := ((a - a0) / dt / w0 - x1) / (1 / 10) in
  (x + (d1 + d2) / 2 * dt + 1) * 60.
Definition set_freq (b : rbus) (f : R) : rbus :=
  Rbus (rb_v b) (rb_vold b) f f (rb_cf b) (rb_load b) (rb_y b) (rb_lv b) (rb_gens b) (rb_trip b) (rb_brflag b) (rb_br b).
Definition compute_freq (dt : R) (b : rbus) : rbus := if rb_cf b then set_freq b (frequency dt (rb_fold b) (rb_vold b) (rb_v b)) else b.
(** dsf_components.cpp:1922-1930 updateoldbusvoltage *)
Definition old_volt (b : rbus) : rbus :=
  Rbus (rb_v b) (rb_v b) (rb_f b) (rb_f b) (rb_cf b) (rb_load b) (rb_y b) (rb_lv b) (rb_gens b) (rb_trip b) (rb_brflag b) (rb_br b).
(** dsf_components.cpp:1957-1981: the load relays and p_ybusr/i after them *)
Fixpoint load_relays (dt : R) (v ld : C) (l : list (lvshbl * relay nat)) (y : C) : list (lvshbl * relay nat) * C * bool :=
  match l with
  | [] => ([], y, false)
  | (p, r) :: l =>
      let (r', t) := operate (lv_update p dt v) r in
      let '(l', y', t') := load_relays dt v ld l (if t then y - ld * RtoC (lv_f1 p) else y)%C in
      ((p, r') :: l', y', t || t')
  end.
(** dsf_components.cpp:2002-2029: the relays of one generator, its service status and p_ybusr/i after them *)
Fixpoint gen_relays (dt f : R) (yg : C) (l : list (frqtpat * relay (nat * nat))) (on : bool) (y : C) : list (frqtpat * relay (nat * nat)) * bool * C * bool :=
  match l with
  | [] => ([], on, y, false)
  | (p, r) :: l =>
      let (r', t) := operate (fq_update p dt f) r in
      let '(l', on', y', t') := gen_relays dt f yg l (if t then false else on) (if t then y - yg else y)%C in
      ((p, r') :: l', on', y', t || t')
  end.
(** dsf_components.cpp:1997-2031 *)
Fixpoint all_gens (dt f : R) (l : list rgen) (y : C) : list rgen * C * bool :=
  match l with
  | [] => ([], y, false)
  | g :: l =>
      if rg_stat g then
        let '(rs, on, y1, t) := gen_relays dt f (rg_y g) (rg_relays g) (rg_on g) y in
        let '(l', y', t') := all_gens dt f l y1 in (Rgen true on (rg_y g) rs :: l', y', t || t')
      else let '(l', y', t') := all_gens dt f l y in (g :: l', y', t')
  end.
(** dsf_components.cpp:1944-2034 DSFullBus::updateRelay.  bcomputefreq is set when a generator has a relay (1087). *)
Definition bus_update (dt : R) (b : rbus) : rbus * bool :=
  let '(ls, y, t) := load_relays dt (rb_v b) (rb_load b) (rb_lv b) (rb_y b) in
  let b1 := if (0 <? length (rb_gens b))%nat then compute_freq dt b else b in
  let '(gs, y', t') := all_gens dt (rb_f b1) (rb_gens b) y in
  (Rbus (rb_v b1) (rb_vold b1) (rb_f b1) (rb_fold b1) (rb_cf b1) (rb_load b1) y' ls gs (t || t') (rb_brflag b1) (rb_br b1), t || t').
(** dsf_factory.cpp:326-339 updateBusRelay: [bflag = bflag || updateRelay(...)] does not evaluate updateRelay once bflag is true. *)
Fixpoint update_buses (dt : R) (flag : bool) (l : list rbus) : list rbus * bool :=
  match l with
  | [] => ([], flag)
  | b :: l =>
      let (b', f) := if flag then (b, true) else bus_update dt b in
      let (l', f') := update_buses dt f l in (b' :: l', f')
  end.

(** ** A branch *)
(** The ends, the elements (p_branch_status, p_resistance and p_reactance), the relays with p_relaybranchidx,
    p_newtripbranchcktidx and p_branchrelaytripflag *)
Record rline := Rline { rl_1 : nat; rl_2 : nat; rl_el : list (bool * C); rl_rel : list (nat * (distr1 * relay (nat * nat))); rl_new : list nat; rl_trip : bool }.
Definition volt (l : list rbus) (k : nat) : C := match nth_error l k with Some b => rb_v b | None => RtoC 0 end.
(** dsf_components.cpp:3549-3580 updateBranchCurrent *)
Definition current (l : list rbus) (x : rline) (e : nat) : C :=
  match nth_error (rl_el x) e with Some (_, z) => (volt l (rl_1 x) - volt l (rl_2 x)) / z | None => RtoC 0 end%C.
Definition open_el (e : nat) (l : list (bool * C)) : list (bool * C) :=
  match nth_error l e with Some (_, z) => firstn e l ++ (false, z) :: skipn (S e) l | None => l end.
(** dsf_components.cpp:3611-3649: the relays, the elements and p_newtripbranchcktidx after them *)
Fixpoint line_relays (dt : R) (v : C) (cur : nat -> C) (l : list (nat * (distr1 * relay (nat * nat)))) (es : list (bool * C))
  : list (nat * (distr1 * relay (nat * nat))) * list (bool * C) * list nat :=
  match l with
  | [] => ([], es, [])
  | (e, (p, r)) :: l =>
      let (r', t) := operate (ds_update p dt (v, cur e)) r in
      let '(l', es', ns) := line_relays dt v cur l (if t then open_el e es else es) in
      ((e, (p, r')) :: l', es', if t then e :: ns else ns)
  end.
Definition set_br (f : bool) (br : option nat) (b : rbus) : rbus :=
  Rbus (rb_v b) (rb_vold b) (rb_f b) (rb_fold b) (rb_cf b) (rb_load b) (rb_y b) (rb_lv b) (rb_gens b) (rb_trip b) f br.
Fixpoint upd_at {A} (k : nat) (f : A -> A) (l : list A) : list A :=
  match l, k with [], _ => [] | a :: l, O => f a :: l | a :: l, S k => a :: upd_at k f l end.
(** dsf_components.cpp:3586-3653 DSFullBranch::updateRelay of branch number [k]: both ends are marked, or their marks cleared. *)
Definition line_update (dt : R) (k : nat) (x : rline) (bs : list rbus) : rline * list rbus * bool :=
  let '(rs, es, ns) := line_relays dt (volt bs (rl_1 x)) (current bs x) (rl_rel x) (rl_el x) in
  let t := match ns with [] => false | _ => true end in
  let mark := set_br t (if t then Some k else None) in
  (Rline (rl_1 x) (rl_2 x) es rs ns t, upd_at (rl_2 x) mark (upd_at (rl_1 x) mark bs), t).
(** dsf_factory.cpp:342-354 updateBranchRelay: as above, and the result is not combined over the processes. *)
Fixpoint update_lines (dt : R) (k : nat) (flag : bool) (l : list rline) (bs : list rbus) : list rline * list rbus * bool :=
  match l with
  | [] => ([], bs, flag)
  | x :: l =>
      let '(x', bs', f) := if flag then (x, bs, true) else line_update dt k x bs in
      let '(l', bs2, f') := update_lines dt (S k) f l bs' in (x' :: l', bs2, f')
  end.

(** ** The matrix *)
Definition mat := nat -> nat -> C.
Definition set_at (i j : nat) (v : C) (m : mat) : mat := fun a b => if ((a =? i) && (b =? j))%nat then v else m a b.
Definition add_at (i j : nat) (v : C) (m : mat) : mat := fun a b => if ((a =? i) && (b =? j))%nat then (m a b + v)%C else m a b.
(** dsf_components.cpp:367-374 mode bus_relay with overwriteMatrix (C17): the diagonal elements of the buses whose flag is set *)
Fixpoint overwrite (k : nat) (l : list rbus) (m : mat) : mat :=
  match l with [] => m | b :: l => overwrite (S k) l (if rb_trip b then set_at k k (rb_y b) m else m) end.
(** dsf_components.cpp:3798-3821 getBranchRelayTripUpdateFactor *)
Definition factor (x : rline) : C :=
  fold_left (fun s e => match nth_error (rl_el x) e with Some (_, z) => s + - (1) / z | None => s end)%C (rl_new x) (RtoC 0).
(** dsf_components.cpp:397-412 mode branch_relay with incrementMatrix, diagonal elements *)
Fixpoint inc_diag (k : nat) (l : list rbus) (xs : list rline) (m : mat) : mat :=
  match l with
  | [] => m
  | b :: l => inc_diag (S k) l xs
      (if rb_brflag b then match rb_br b with Some x => match nth_error xs x with Some x => add_at k k (factor x) m | None => m end | None => m end else m)
  end.
(** dsf_components.cpp:3283-3293 and 3344-3354 the other elements *)
Fixpoint inc_off (xs : list rline) (m : mat) : mat :=
  match xs with
  | [] => m
  | x :: xs => inc_off xs (if rl_trip x then add_at (rl_2 x) (rl_1 x) (- factor x)%C (add_at (rl_1 x) (rl_2 x) (- factor x)%C m) else m)
  end.

(** ** The part of a time step that concerns relays *)
Record rsys := Rsys { s_bus : list rbus; s_line : list rline; s_mat : mat }.
Definition set_volts (v : C) (b : rbus) : rbus :=
  Rbus v (rb_vold b) (rb_f b) (rb_fold b) (rb_cf b) (rb_load b) (rb_y b) (rb_lv b) (rb_gens b) (rb_trip b) (rb_brflag b) (rb_br b).
Fixpoint with_volts (k : nat) (V : nat -> C) (l : list rbus) : list rbus :=
  match l with [] => [] | b :: l => set_volts (V k) b :: with_volts (S k) V l end.
(** dsf_app_module2.cpp:242-276, with the voltages of the first network solution of the step; [first]: Simu_Current_Step is 0 *)
Definition relay_step (dt : R) (first : bool) (V : nat -> C) (s : rsys) : rsys :=
  let b0 := with_volts 0 V (s_bus s) in
  let b1 := map (compute_freq dt) (if first then map old_volt b0 else b0) in
  let (b2, fb) := update_buses dt false b1 in
  let '(ls, b3, fl) := update_lines dt 0 false (s_line s) b2 in
  let m1 := if fb then overwrite 0 b3 (s_mat s) else s_mat s in
  let m2 := if fl then inc_off ls (inc_diag 0 b3 ls m1) else m1 in
  Rsys (map old_volt b3) ls m2.
(** dsf_app_module2.cpp:295-297: the second solution of the step and the frequency after it *)
Definition second_solution (dt : R) (V : nat -> C) (s : rsys) : rsys :=
  Rsys (map (compute_freq dt) (with_volts 0 V (s_bus s))) (s_line s) (s_mat s).
Fixpoint steps (dt : R) (first : bool) (Vs : list ((nat -> C) * (nat -> C))) (s : rsys) : list rsys :=
  match Vs with
  | [] => []
  | (V1, V2) :: Vs => let s1 := relay_step dt first V1 s in s1 :: steps dt false Vs (second_solution dt V2 s1)
  end.

(** Model of contingencies, limit checks and area totals of the power flow module:
    applications/modules/powerflow/pf_factory_module.cpp and pf_app_module.cpp, on top of the bus model of PqModel. *)
From Verif Require Import Prelude GAModel ParModel PqModel.
From Verif Require TaskModel.
From Coq Require Import Reals.
Open Scope R_scope.

(** ** Data *)
(** One line of a branch: its tag, status (p_branch_status of both PFBranch and YMBranch, which hold the same values), BRANCH_RATING_A and _B if present,
    ignore flag and magnitude of getComplexPower for this line (pf_components.cpp:2237-2251, which does not look at the status). *)
Record line := Line { n_tag : string; n_on : bool; n_A : option R; n_B : option R; n_ign : bool; n_S : R }.
(** A branch: active flag, original indices of its buses, their local indices, its lines. BRANCH_NUM_ELEMENTS is the number of lines. *)
Record fbr := Fbr { f_act : bool; f_1 : Z; f_2 : Z; f_b1 : nat; f_b2 : nat; f_lines : list line }.
(** A bus: active flag, original index, area, zone, isolated flag, ignore flag, voltage limits, local indices of its branches, and the part modelled in PqModel. *)
Record fbus := Fbus { u_act : bool; u_id : Z; u_area : Z; u_zone : Z; u_iso : bool; u_ign : bool; u_vmin : R; u_vmax : R; u_near : list nat; u_q : qbus }.
(** pf_factory_module.hpp struct Violation; [None] is an uninitialised tag. *)
Record viol := Viol { v_bus : bool; v_1 : Z; v_2 : Z; v_tag : option string }.
(** One process: its buses and branches, p_violations, p_saveIsolatedStatus, p_rateB. *)
Record proc := Proc { s_bus : list fbus; s_brs : list fbr; s_viol : list viol; s_sav : list bool; s_rateB : bool }.

Definition with_iso (b : fbus) (x : bool) : fbus := Fbus (u_act b) (u_id b) (u_area b) (u_zone b) x (u_ign b) (u_vmin b) (u_vmax b) (u_near b) (u_q b).
Definition with_ign (b : fbus) (x : bool) : fbus := Fbus (u_act b) (u_id b) (u_area b) (u_zone b) (u_iso b) x (u_vmin b) (u_vmax b) (u_near b) (u_q b).
Definition with_q (b : fbus) (q : qbus) : fbus := Fbus (u_act b) (u_id b) (u_area b) (u_zone b) (u_iso b) (u_ign b) (u_vmin b) (u_vmax b) (u_near b) q.
Definition with_lines (f : fbr) (l : list line) : fbr := Fbr (f_act f) (f_1 f) (f_2 f) (f_b1 f) (f_b2 f) l.
Definition with_on (l : line) (x : bool) : line := Line (n_tag l) x (n_A l) (n_B l) (n_ign l) (n_S l).
Definition with_lign (l : line) (x : bool) : line := Line (n_tag l) (n_on l) (n_A l) (n_B l) x (n_S l).
Definition with_bus (s : proc) (l : list fbus) : proc := Proc l (s_brs s) (s_viol s) (s_sav s) (s_rateB s).
Definition with_brs (s : proc) (l : list fbr) : proc := Proc (s_bus s) l (s_viol s) (s_sav s) (s_rateB s).
Definition with_viol (s : proc) (l : list viol) : proc := Proc (s_bus s) (s_brs s) l (s_sav s) (s_rateB s).
Definition with_sav (s : proc) (l : list bool) : proc := Proc (s_bus s) (s_brs s) (s_viol s) l (s_rateB s).

(** ** Lone buses *)
(** pf_factory_module.cpp:150-171 and 199-220: no branch has a line in service *)
Definition lone (brs : list fbr) (b : fbus) : bool :=
  negb (existsb (fun j => match nth_error brs j with Some f => existsb n_on (f_lines f) | None => false end) (u_near b)).
(** pf_factory_module.cpp:138-184 checkLoneBus on one process: the buses, the saved flags, and bus_ok *)
Fixpoint mark_lone (brs : list fbr) (l : list fbus) : list fbus * list bool * bool :=
  match l with
  | [] => ([], [], true)
  | b :: r =>
      let '(r', sv, ok) := mark_lone brs r in
      if u_act b && lone brs b then (with_iso b true :: r', u_iso b :: sv, false) else (b :: r', sv, ok)
  end.
Definition check_lone1 (s : proc) : proc * bool :=
  let '(l, sv, ok) := mark_lone (s_brs s) (s_bus s) in (with_sav (with_bus s l) sv, ok).
(** the call on all processes, with the value it returns (line 183: checkTrue(!bus_ok)) *)
Definition check_lone (w : list proc) : list proc * bool :=
  (map (fun s => fst (check_lone1 s)) w, TaskModel.check_true (map (fun s => negb (snd (check_lone1 s))) w)).
(** pf_factory_module.cpp:189-226 clearLoneBus: the saved flags are read in order; reading past their end is undefined *)
Fixpoint unmark_lone (brs : list fbr) (l : list fbus) (sv : list bool) : outcome (list fbus) :=
  match l with
  | [] => Ok []
  | b :: r =>
      if u_act b && lone brs b then match sv with [] => UB | x :: sv' => obind (unmark_lone brs r sv') (fun r' => Ok (with_iso b x :: r')) end
      else obind (unmark_lone brs r sv) (fun r' => Ok (b :: r'))
  end.
Definition clear_lone1 (s : proc) : outcome proc :=
  match s_sav s with [] => Ok s | _ => obind (unmark_lone (s_brs s) (s_bus s) (s_sav s)) (fun l => Ok (with_bus s l)) end.

(** ** Contingencies *)
(** struct Contingency: the elements with the statuses saved for them, on one process. The saved vectors are as long as the lists of elements
    (the callers fill them, for instance contingency_analysis/ca_driver.cpp). *)
Inductive event :=
  | EGen (l : list (Z * string * bool))
  | ELine (l : list (Z * Z * string * bool))
  | EOther.
(** base_network.hpp:2494-2512 getLocalBusIndices and 2519-2542 getLocalBranchIndices *)
Definition local_bus (s : list fbus) (id : Z) : list nat :=
  filter (fun i => match nth_error s i with Some b => (u_id b =? id)%Z | None => false end) (iota (length s)).
Definition branches_of (s : list fbr) (a b : Z) : list nat :=
  filter (fun i => match nth_error s i with Some f => (f_1 f =? a)%Z && (f_2 f =? b)%Z | None => false end) (iota (length s)).
Definition local_branch (s : list fbr) (a b : Z) : list nat :=
  match branches_of s a b with [] => branches_of s b a | l => l end.
(** pf_components.cpp:2395-2406 getBranchStatus and 2413-2424 setBranchStatus *)
Definition tagged (t : string) (l : line) : bool := String.eqb t (n_tag l).
Definition line_status (ls : list line) (t : string) : bool := match find (tagged t) ls with Some l => n_on l | None => false end.
Definition set_line_status (ls : list line) (t : string) (x : bool) : list line := upd_first (tagged t) (fun l => with_on l x) ls.
(** pf_components.cpp:701-711 getGenStatus, for a bus whose generators all have a status *)
Definition gen_status (q : qbus) (id : string) : bool :=
  match find (fun p => String.eqb (g_id (snd p)) id) (combine (q_gst q) (q_gens q)) with Some p => negb (fst p =? 0)%Z | None => false end.
(** The body of the loops over the local indices: pf_app_module.cpp:881-888 and 903-910. The status saved last stays. *)
Fixpoint trip_lines (brs : list fbr) (ids : list nat) (t : string) (sv : bool) : list fbr * bool :=
  match ids with
  | [] => (brs, sv)
  | j :: r =>
      match nth_error brs j with
      | Some f => trip_lines (upd brs j (with_lines f (set_line_status (f_lines f) t false))) r t (line_status (f_lines f) t)
      | None => trip_lines brs r t sv
      end
  end.
Fixpoint trip_gens (bs : list fbus) (ids : list nat) (t : string) (sv : bool) : outcome (list fbus * bool) :=
  match ids with
  | [] => Ok (bs, sv)
  | j :: r =>
      match nth_error bs j with
      | Some b => obind (set_gen_status (u_q b) t false) (fun q => trip_gens (upd bs j (with_q b q)) r t (gen_status (u_q b) t))
      | None => trip_gens bs r t sv
      end
  end.
Definition has_some (l : list nat) : bool := match l with [] => false | _ => true end.
Fixpoint set_lines (brs : list fbr) (l : list (Z * Z * string * bool)) : list fbr * list (Z * Z * string * bool) * bool :=
  match l with
  | [] => (brs, [], true)
  | (a, b, t, sv) :: r =>
      let ids := local_branch brs a b in
      let '(brs1, sv1) := trip_lines brs ids t sv in
      let '(brs2, r2, ok) := set_lines brs1 r in
      (brs2, (a, b, t, sv1) :: r2, has_some ids && ok)
  end.
Fixpoint set_gens_out (bs : list fbus) (l : list (Z * string * bool)) : outcome (list fbus * list (Z * string * bool) * bool) :=
  match l with
  | [] => Ok (bs, [], true)
  | (i, t, sv) :: r =>
      let ids := local_bus bs i in
      obind (trip_gens bs ids t sv) (fun x =>
      obind (set_gens_out (fst x) r) (fun y =>
      let '(bs2, r2, ok) := y in Ok (bs2, (i, t, snd x) :: r2, has_some ids && ok)))
  end.
(** pf_app_module.cpp:866-919 setContingency on one process: the new state, the event with the saved statuses, and the value returned *)
Definition set_contingency (s : proc) (e : event) : outcome (proc * event * bool) :=
  match e with
  | EGen l => obind (set_gens_out (s_bus s) l) (fun y => let '(bs, l', ok) := y in Ok (fst (check_lone1 (with_bus s bs)), EGen l', ok))
  | ELine l => let '(brs, l', ok) := set_lines (s_brs s) l in Ok (fst (check_lone1 (with_brs s brs)), ELine l', ok)
  | EOther => Ok (fst (check_lone1 s), e, false)
  end.
(** pf_app_module.cpp:927-970 unSetContingency on one process *)
Fixpoint back_lines (brs : list fbr) (ids : list nat) (t : string) (sv : bool) : list fbr :=
  match ids with
  | [] => brs
  | j :: r => back_lines (match nth_error brs j with Some f => upd brs j (with_lines f (set_line_status (f_lines f) t sv)) | None => brs end) r t sv
  end.
Fixpoint back_gens (bs : list fbus) (ids : list nat) (t : string) (sv : bool) : outcome (list fbus) :=
  match ids with
  | [] => Ok bs
  | j :: r =>
      match nth_error bs j with
      | Some b => obind (set_gen_status (u_q b) t sv) (fun q => back_gens (upd bs j (with_q b q)) r t sv)
      | None => back_gens bs r t sv
      end
  end.
Fixpoint unset_lines (brs : list fbr) (l : list (Z * Z * string * bool)) : list fbr * bool :=
  match l with
  | [] => (brs, true)
  | (a, b, t, sv) :: r =>
      let ids := local_branch brs a b in
      let '(brs2, ok) := unset_lines (back_lines brs ids t sv) r in (brs2, has_some ids && ok)
  end.
Fixpoint unset_gens (bs : list fbus) (l : list (Z * string * bool)) : outcome (list fbus * bool) :=
  match l with
  | [] => Ok (bs, true)
  | (i, t, sv) :: r =>
      let ids := local_bus bs i in
      obind (back_gens bs ids t sv) (fun bs1 => obind (unset_gens bs1 r) (fun y => Ok (fst y, has_some ids && snd y)))
  end.
Definition unset_contingency (s : proc) (e : event) : outcome (proc * bool) :=
  obind (clear_lone1 s) (fun s =>
  match e with
  | EGen l => obind (unset_gens (s_bus s) l) (fun y => Ok (with_bus s (fst y), snd y))
  | ELine l => let '(brs, ok) := unset_lines (s_brs s) l in Ok (with_brs s brs, ok)
  | EOther => Ok (s, false)
  end).

(** ** Voltage limits *)
(** *p_vMag_ptr: the magnitude in the exchange buffer. The buffers exist once setExchange has been called; the checks are modelled from then on. *)
Definition vmag (b : fbus) : R := match q_xc (u_q b) with Some (_, v, _) => v | None => 0 end.
(** pf_components.cpp:661-666 checkVoltageViolation: true if there is none *)
Definition voltage_ok (b : fbus) : bool :=
  if Rlt_dec (u_vmax b) (vmag b) then false else if Rlt_dec (vmag b) (u_vmin b) then false else true.
(** pf_factory_module.cpp:253-270 *)
Definition check_voltage (w : list proc) : bool :=
  TaskModel.check_true (map (fun s => fold_left (fun ok b => if u_act b && negb (u_ign b) && negb (voltage_ok b) then false else ok) (s_bus s) true) w).
(** pf_factory_module.cpp:277-304 on one process, and on all *)
Definition check_voltage_area1 (area : Z) (s : proc) : proc * bool :=
  fold_left (fun st b => if u_act b && (negb (u_ign b) && (u_area b =? area)%Z) && negb (voltage_ok b)
                         then (with_viol (fst st) (s_viol (fst st) ++ [Viol true (u_id b) (-1) None])%list, false) else st)
    (s_bus s) (s, true).
Definition check_voltage_area (area : Z) (w : list proc) : list proc * bool :=
  (map (fun s => fst (check_voltage_area1 area s)) w, TaskModel.check_true (map (fun s => snd (check_voltage_area1 area s)) w)).
(** pf_factory_module.cpp:310-321 ignoreVoltageViolations and 327-338 clearVoltageViolations *)
Definition ignore_voltage (w : list proc) : list proc :=
  map (fun s => with_bus s (map (fun b => if u_act b && voltage_ok b then with_ign b true else b) (s_bus s))) w.
Definition clear_voltage (w : list proc) : list proc :=
  map (fun s => with_bus s (map (fun b => if u_act b then with_ign b false else b) (s_bus s))) w.

(** ** Line limits *)
(** pf_components.cpp:2494-2503 setIgnore (every line with the tag), 2510-2521 getIgnore, 2237-2251 getComplexPower (the first line with the tag) *)
Definition set_ignore (ls : list line) (t : string) (x : bool) : list line := map (fun l => if tagged t l then with_lign l x else l) ls.
Definition get_ignore (ls : list line) (t : string) : bool := match find (tagged t) ls with Some l => n_ign l | None => false end.
Definition power (ls : list line) (t : string) : R := match find (tagged t) ls with Some l => n_S l | None => 0 end.
(** pf_factory_module.cpp:362-376: the rating used *)
Definition rate (rb : bool) (l : line) : option R := if rb then match n_B l with Some r => Some r | None => n_A l end else n_A l.
(** pf_factory_module.cpp:377-381: a rating that is not positive does not limit *)
Definition above (o : option R) (p : R) : bool :=
  match o with Some r => if Rlt_dec 0 r then if Rlt_dec r p then true else false else false | None => false end.
(** pf_factory_module.cpp:383-389: strncpy of two characters *)
Definition line_viol (f : fbr) (t : string) : viol := Viol false (f_1 f) (f_2 f) (Some (String.substring 0 2 t)).
(** pf_factory_module.cpp:345-395 on one process, and on all *)
Definition check_lines1 (s : proc) : proc * bool :=
  fold_left (fun st f =>
    if f_act f then
      fold_left (fun st l =>
        if negb (get_ignore (f_lines f) (n_tag l)) && above (rate (s_rateB s) l) (power (f_lines f) (n_tag l))
        then (with_viol (fst st) (s_viol (fst st) ++ [line_viol f (n_tag l)])%list, false) else st) (f_lines f) st
    else st) (s_brs s) (s, true).
Definition check_lines (w : list proc) : list proc * bool :=
  (map (fun s => fst (check_lines1 s)) w, TaskModel.check_true (map (fun s => snd (check_lines1 s)) w)).
(** pf_factory_module.cpp:403-449: only branches with an end in the area; nothing is recorded *)
Definition area_of (s : proc) (i : nat) : option Z := match nth_error (s_bus s) i with Some b => Some (u_area b) | None => None end.
Definition in_area (s : proc) (area : Z) (f : fbr) : bool :=
  existsb (fun i => match area_of s i with Some a => (a =? area)%Z | None => false end) [f_b1 f; f_b2 f].
Definition check_lines_area (area : Z) (w : list proc) : bool :=
  TaskModel.check_true (map (fun s =>
    fold_left (fun ok f =>
      if f_act f && in_area s area f then
        fold_left (fun ok l => if negb (get_ignore (f_lines f) (n_tag l)) && above (rate (s_rateB s) l) (power (f_lines f) (n_tag l)) then false else ok) (f_lines f) ok
      else ok) (s_brs s) true) w).
(** pf_factory_module.cpp:494-527: one branch for request [i]; the inner tests use tags[k] of the requests, out of bounds when there are fewer requests than lines,
    and rating A whatever the choice of rating *)
Fixpoint listed_lines (tags : list string) (t : string) (all ls : list line) (k : nat) : outcome bool :=
  match ls with
  | [] => Ok false
  | l :: r =>
      if tagged t l then
        match nth_error tags k with
        | None => UB
        | Some tk => obind (listed_lines tags t all r (S k)) (fun x => Ok ((negb (get_ignore all tk) && above (n_A l) (power all tk)) || x))
        end
      else listed_lines tags t all r (S k)
  end.
Fixpoint any_fails (tags : list string) (t : string) (brs : list fbr) (ids : list nat) : outcome bool :=
  match ids with
  | [] => Ok false
  | j :: r =>
      obind (match nth_error brs j with Some f => listed_lines tags t (f_lines f) (f_lines f) 0 | None => Ok false end) (fun x =>
      obind (any_fails tags t brs r) (fun y => Ok (x || y)))
  end.
Fixpoint mapO A B (f : A -> outcome B) (l : list A) : outcome (list B) :=
  match l with [] => Ok [] | x :: r => obind (f x) (fun y => obind (mapO f r) (fun ys => Ok (y :: ys))) end.
(** pf_factory_module.cpp:473-540: the answer for each request is false if some process found a failure. [None]: the lists differ in length and nothing is answered.
    With no request the sum is taken at the address of an element that does not exist; that is not followed. *)
Definition check_listed (b1 b2 : list Z) (tags : list string) (w : list proc) : outcome (option (list bool) * bool) :=
  if (length b1 =? length b2)%nat && (length b1 =? length tags)%nat then
    obind (mapO (fun q => let '((a, b), t) := q in
             obind (mapO (fun s => any_fails tags t (s_brs s) (local_branch (s_brs s) a b)) w) (fun fs => Ok (negb (existsb (fun x => x) fs))))
             (combine (combine b1 b2) tags)) (fun v => Ok (Some v, forallb (fun x => x) v))
  else Ok (None, false).
(** pf_factory_module.cpp:546-570 ignoreLineOverloadViolations (always rating A) and 575-594 clearLineOverloadViolations *)
Definition ignore_branch (f : fbr) : fbr :=
  with_lines f (fold_left (fun ls l => if above (n_A l) (power ls (n_tag l)) then set_ignore ls (n_tag l) true else ls) (f_lines f) (f_lines f)).
Definition ignore_lines (w : list proc) : list proc := map (fun s => with_brs s (map (fun f => if f_act f then ignore_branch f else f) (s_brs s))) w.
Definition clear_lines (w : list proc) : list proc :=
  map (fun s => with_brs s (map (fun f => if f_act f then with_lines f (fold_left (fun ls l => set_ignore ls (n_tag l) false) (f_lines f) (f_lines f)) else f) (s_brs s))) w.

(** ** Reactive limits over the network *)
(** chkQlim on the buses selected by [sel], in order; the flag starts as [ok]. [viol]: what a result of chkQlim means for the flag. *)
Fixpoint qlim_loop (sel : fbus -> bool) (bad : bool -> bool) (l : list fbus) : outcome (list fbus * bool) :=
  match l with
  | [] => Ok ([], true)
  | b :: r =>
      if sel b then
        obind (chk_qlim (u_q b)) (fun x =>
        obind (qlim_loop sel bad r) (fun y => Ok (with_q b (snd x) :: fst y, negb (bad (fst x)) && snd y)))
      else obind (qlim_loop sel bad r) (fun y => Ok (b :: fst y, snd y))
  end.
(** updateBuses: the buffer of a ghost becomes that of the owner (C12), then pushIsPV (pf_components.cpp:1517-1520) *)
Definition owner (w : list proc) (id : Z) : option fbus := find (fun b => u_act b && (u_id b =? id)%Z) (flat_map s_bus w).
Definition with_buf (q : qbus) (xc : option (R * R * bool)) : qbus :=
  QBus (q_gst q) (q_gsave q) (q_gens q) (q_savePg q) (q_lds q) (q_saveL q) (q_sb q) (q_Qi q) (match xc with Some (_, _, p) => p | None => q_pv q end) (q_save q) (q_save2 q)
    (q_v q) (q_a q) (q_volt q) (q_angle q) xc (q_P0 q) (q_Q0 q).
Definition update_ghosts (w : list proc) : list proc :=
  map (fun s => with_bus s (map (fun b => if u_act b then b else match owner w (u_id b) with Some o => with_q b (with_buf (u_q b) (q_xc (u_q o))) | None => b end) (s_bus s))) w.
Definition qlim_all (sel : fbus -> bool) (bad : bool -> bool) (w : list proc) : outcome (list proc * bool) :=
  obind (mapO (fun s => obind (qlim_loop sel bad (s_bus s)) (fun y => Ok (with_bus s (fst y), snd y))) w) (fun ys =>
  Ok (update_ghosts (map fst ys), TaskModel.check_true (map snd ys))).
(** pf_factory_module.cpp:600-623: a result true of chkQlim makes the check fail *)
Definition check_qlim (w : list proc) : outcome (list proc * bool) := qlim_all u_act (fun r => r) w.
(** pf_factory_module.cpp:630-655: a result false makes it fail *)
Definition check_qlim_area (area : Z) (w : list proc) : outcome (list proc * bool) := qlim_all (fun b => u_act b && (u_area b =? area)%Z) negb w.

(** ** Recorded violations *)
(** pf_factory_module.cpp:908-933 getViolations: the positions of process [me] start at the sum of sizes[1..me-1] *)
Definition viol_offset (sizes : list nat) (me : nat) : nat := sumn (firstn (me - 1) (skipn 1 sizes)).
Definition placed (sizes : list nat) (me : nat) (v : list viol) : list (Z * viol) :=
  combine (map (fun i => Z.of_nat (viol_offset sizes me + i)) (iota (length v))) v.
Definition get_violations (zero : viol) (own : nat -> nat) (s1 s2 : sched) (w : list proc) : outcome (list viol) :=
  let sizes := map (fun s => length (s_viol s)) w in
  if (sumn sizes =? 0)%nat then Ok []
  else obind (gv_upload zero own (map (fun p => placed sizes (fst p) (s_viol (snd p))) (combine (iota (length w)) w)) s1 s2) (fun g => gv_getAllData g).

(** ** Areas *)
(** pf_factory_module.cpp:715-721 and its copies: a zone below 1 selects the whole area *)
Definition selected (area zone : Z) (b : fbus) : bool :=
  let iz := if (0 <? zone)%Z then u_zone b else zone in (u_area b =? area)%Z && (zone =? iz)%Z.
(** pf_factory_module.cpp:709-730: every local bus, ghosts included; one call per generator id *)
Fixpoint scale_gens (q : qbus) (ids : list string) (v : R) : outcome qbus :=
  match ids with [] => Ok q | i :: r => obind (scale_generator q i v) (fun q => scale_gens q r v) end.
Definition scale_generation (v : R) (area zone : Z) (s : proc) : outcome proc :=
  obind (mapO (fun b => if selected area zone b then obind (scale_gens (u_q b) (map g_id (q_gens (u_q b))) v) (fun q => Ok (with_q b q)) else Ok b) (s_bus s))
    (fun l => Ok (with_bus s l)).
(** pf_factory_module.cpp:739-760 *)
Definition scale_loads (v : R) (area zone : Z) (s : proc) : proc :=
  with_bus s (map (fun b => if selected area zone b then with_q b (fold_left (fun q i => scale_load q i v) (map l_id (q_lds (u_q b))) (u_q b)) else b) (s_bus s)).
(** pf_components.cpp:1802-1817 getLoadPower (the saved values, for loads 0..p_nload-1) and the sum of pf_factory_module.cpp:786-790 *)
Definition bus_load (q : qbus) : R :=
  fold_left (fun acc p => if negb (l_st (snd p) =? 0)%Z then acc + fst (fst p) else acc) (combine (q_saveL q) (q_lds q)) 0.
(** pf_factory_module.cpp:769-794: every local bus counts, then the sum over the processes *)
Definition total_load (area zone : Z) (w : list proc) : R :=
  sumR (map (fun s => fold_left (fun acc b => if selected area zone b then acc + bus_load (u_q b) else acc) (s_bus s) 0) w).
(** pf_factory_module.cpp:806-842: total, pmin and pmax of one process, over all its buses; there is no sum over the processes *)
Definition bus_margin (q : qbus) : R * R * R :=
  fold_left (fun acc p => let '(t, lo, hi) := acc in let '(pg, (st, g)) := p in
               if negb (st =? 0)%Z then (t + pg, lo + g_pb g, hi + g_pt g) else acc) (combine (q_savePg q) (combine (q_gst q) (q_gens q))) (0, 0, 0).
Definition margins (area zone : Z) (s : proc) : R * R * R :=
  fold_left (fun acc b => if selected area zone b then
      let '(t, lo, hi) := acc in let '(t', lo', hi') := bus_margin (u_q b) in (t + t', lo + lo', hi + hi') else acc) (s_bus s) (0, 0, 0).

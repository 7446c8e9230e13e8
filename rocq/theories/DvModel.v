(** Model of the switching events of a dynamic simulation: applications/modules/dynamic_simulation_full_y/dsf_events.cpp,
    dsf_app_module2.cpp (run, setLineStatus, setGenStatus) and the parts of dsf_components.cpp that change the matrix the
    simulation solves. Doubles are real numbers. The elements of a branch and their contributions are those of YbModel. Reading
    the events from the configuration (getEvents), relays and the old action interface are not modelled. *)
From Verif Require Import Prelude.
From Coq Require Import Reals.
From Coquelicot Require Import Complex.
From Verif Require Import StrModel YbModel.
Open Scope R_scope.

(** dsf_components.hpp:28-58 Event, with the members that belong to its kind: a fault (start, end, bus_idx, Gfault, Bfault), a change of
    line status (time, from_idx, to_idx, tag, status) or of generator status (time, bus_idx, tag, status). *)
Inductive event :=
| EFault (t0 t1 : R) (bus : Z) (G B : R)
| ELine (t : R) (f g : Z) (tag : string) (status : Z)
| EGen (t : R) (bus : Z) (tag : string) (status : Z).

(** p_genid[i] and whether p_gstatus[i] is not 0; one object of p_generators: bStatus (base_generator_model.cpp:26-39: true at first)
    and its NortonImpedence() *)
Record dgen := Dgen { dg_id : string; dg_on : bool }.
Record dmach := Dmach { dm_on : bool; dm_y : C }.
(** The copy of a bus on one process: its number, its global index, whether it is active (not a ghost) and isolated; p_gfault and
    p_bfault while p_busfault is set; p_yii while p_line_status_change and p_ygen while p_gen_status_change is set (the values are not
    read when the flag is not set); p_genid with p_gstatus, and p_generators. *)
Record dbus := Dbus { bu_num : Z; bu_idx : nat; bu_act : bool; bu_iso : bool; bu_fault : option (R * R); bu_yii : option C;
                      bu_ygen : option C; bu_gens : list dgen; bu_mach : list dmach }.
(** The copy of a branch on one process: the numbers of its buses, the elements (the ends are positions in the list of buses of the
    process), and p_yft, p_ytf while p_line_status_change is set. *)
Record dbr := Dbr { br_f : Z; br_t : Z; br_b : ybranch; br_chg : option (C * C) }.
Record proc := Proc { pr_bus : list dbus; pr_br : list dbr }.

Definition set_fault (f : option (R * R)) (b : dbus) : dbus :=
  Dbus (bu_num b) (bu_idx b) (bu_act b) (bu_iso b) f (bu_yii b) (bu_ygen b) (bu_gens b) (bu_mach b).
Definition set_yii (y : option C) (b : dbus) : dbus :=
  Dbus (bu_num b) (bu_idx b) (bu_act b) (bu_iso b) (bu_fault b) y (bu_ygen b) (bu_gens b) (bu_mach b).
Definition set_ygen (y : option C) (b : dbus) : dbus :=
  Dbus (bu_num b) (bu_idx b) (bu_act b) (bu_iso b) (bu_fault b) (bu_yii b) y (bu_gens b) (bu_mach b).
Definition set_gens (g : list dgen) (m : list dmach) (b : dbus) : dbus :=
  Dbus (bu_num b) (bu_idx b) (bu_act b) (bu_iso b) (bu_fault b) (bu_yii b) (bu_ygen b) g m.

(** ** The matrix *)
(** The matrix by global bus index. Simplified: a bus has one row and column, numbered by its global index (C17 treats the mapper's
    numbering); isolated buses have none, their row here is not used. *)
Definition mat := nat -> nat -> C.
(** addElement *)
Definition add_at (i j : nat) (v : C) (m : mat) : mat := fun a b => if ((a =? i) && (b =? j))%nat then (m a b + v)%C else m a b.
Inductive mode := FaultOn | FaultOff | LineChange | GenChange.
(** dsf_components.cpp:183-195 matrixDiagSize and 282-320 matrixDiagValues in the four modes *)
Definition diag_change (m : mode) (b : dbus) : option C * dbus :=
  if bu_iso b then (None, b) else
  match m with
  | FaultOn => (match bu_fault b with Some (g, s) => Some (- g, - s) | None => None end, b)
  | FaultOff => match bu_fault b with Some (g, s) => (Some (g, s), set_fault None b) | None => (None, b) end
  | LineChange => match bu_yii b with Some y => (Some y, set_yii None b) | None => (None, b) end
  | GenChange => match bu_ygen b with Some y => (Some y, set_ygen None b) | None => (None, b) end
  end.
(** full_map.hpp:931-969 loadBusData with addElement: the active buses *)
Fixpoint inc_buses (m : mode) (l : list dbus) (Y : mat) : list dbus * mat :=
  match l with
  | [] => ([], Y)
  | b :: l =>
      let (v, b') := if bu_act b then diag_change m b else (None, b) in
      let Y := match v with Some y => add_at (bu_idx b) (bu_idx b) y Y | None => Y end in
      let (l', Y') := inc_buses m l Y in (b' :: l', Y')
  end.
Definition at_bus {A} (f : dbus -> A) (d : A) (l : list dbus) (k : nat) : A := match nth_error l k with Some b => f b | None => d end.
(** dsf_components.cpp:3232-3250 the sizes in mode LineChange: those of YMBranch *)
Definition sized (l : list dbus) (b : ybranch) : bool :=
  yact b && (negb (at_bus bu_iso false l (yb1 b)) && negb (at_bus bu_iso false l (yb2 b))).
(** full_map.hpp:1114-1184 loadBranchData with addElement, dsf_components.cpp:3271-3275 and 3331-3336: the forward value goes to the
    row of the first bus if that row belongs to the process (the bus is active), the reverse value to the row of the second bus. In
    the other modes branches contribute nothing. *)
Fixpoint inc_brs (l : list dbus) (rs : list dbr) (Y : mat) : list dbr * mat :=
  match rs with
  | [] => ([], Y)
  | r :: rs =>
      let b := br_b r in let i := at_bus bu_idx 0%nat l (yb1 b) in let j := at_bus bu_idx 0%nat l (yb2 b) in
      let Y := match br_chg r with
               | Some (f, _) => if sized l b && at_bus bu_act false l (yb1 b) then add_at i j f Y else Y
               | None => Y end in
      let (r', Y) := match br_chg r with
               | Some (_, t) => if sized l b && at_bus bu_act false l (yb2 b) then (Dbr (br_f r) (br_t r) b None, add_at j i t Y) else (r, Y)
               | None => (r, Y) end in
      let (rs', Y) := inc_brs l rs Y in (r' :: rs', Y)
  end.
(** full_map.hpp:328-335 incrementMatrix, on all the processes *)
Fixpoint increment (m : mode) (w : list proc) (Y : mat) : list proc * mat :=
  match w with
  | [] => ([], Y)
  | p :: w =>
      let (bs, Y) := inc_buses m (pr_bus p) Y in
      let (rs, Y) := match m with LineChange => inc_brs bs (pr_br p) Y | _ => (pr_br p, Y) end in
      let (w', Y) := increment m w Y in (Proc bs rs :: w', Y)
  end.

(** ** Setting the changes *)
(** the first position with a property *)
Fixpoint find_pos {A} (f : A -> bool) (l : list A) : option nat :=
  match l with [] => None | a :: l => if f a then Some 0%nat else option_map S (find_pos f l) end.
(** base_network.hpp:2500-2511 getLocalBusIndices, the first index found; bus numbers are assumed to occur once *)
Definition bus_pos (l : list dbus) (n : Z) : option nat := find_pos (fun b => Z.eqb (bu_num b) n) l.
(** base_network.hpp:2519-2542 getLocalBranchIndices, the first index found *)
Definition br_pos (l : list dbr) (a b : Z) : option nat :=
  match find_pos (fun r => Z.eqb (br_f r) a && Z.eqb (br_t r) b) l with
  | Some i => Some i
  | None => find_pos (fun r => Z.eqb (br_f r) b && Z.eqb (br_t r) a) l
  end.
Definition clean (t : string) : outcome string := obind (clean2char (list_ascii_of_string t)) (fun c => Ok (string_of_list_ascii c)).
Definition on_bus (f : dbus -> outcome dbus) (l : list dbus) (k : nat) : outcome (list dbus) :=
  match nth_error l k with Some b => obind (f b) (fun b' => Ok (upd l k b')) | None => UB end.

(** dsf_events.cpp:144-150 with dsf_components.cpp:94-99 setFault, on one process *)
Definition start_fault (n : Z) (g s : R) (p : proc) : outcome proc :=
  match bus_pos (pr_bus p) n with
  | Some k => obind (on_bus (fun b => Ok (set_fault (Some (g, s)) b)) (pr_bus p) k) (fun bs => Ok (Proc bs (pr_br p)))
  | None => Ok p
  end.
(** dsf_components.cpp:158-176 DSFullBus::setGenStatus with 131-141 getGenNum; an index outside p_generators is undefined behaviour.
    The comparison is one of integers. *)
Definition bus_gen_status (tag : string) (status : Z) (b : dbus) : outcome dbus :=
  obind (clean tag) (fun t =>
  match find_pos (fun g => String.eqb (dg_id g) t) (bu_gens b) with
  | None => UB
  | Some i =>
      match nth_error (bu_mach b) i, nth_error (bu_gens b) i with
      | Some m, Some g =>
          if Z.eqb status (if dm_on m then 1 else 0) then Ok b
          else let on := negb (Z.eqb status 0) in
               Ok (set_ygen (Some (if on then dm_y m else Copp (dm_y m)))
                     (set_gens (upd (bu_gens b) i (Dgen (dg_id g) on)) (upd (bu_mach b) i (Dmach on (dm_y m))) b))
      | _, _ => UB
      end
  end).
(** dsf_app_module2.cpp:386-395 setGenStatus, on one process *)
Definition set_gen (n : Z) (tag : string) (status : Z) (p : proc) : outcome proc :=
  match bus_pos (pr_bus p) n with
  | Some k => obind (on_bus (bus_gen_status tag status) (pr_bus p) k) (fun bs => Ok (Proc bs (pr_br p)))
  | None => Ok p
  end.
(** dsf_app_module2.cpp:357-370 setLineStatus on one process: the first entry of the vector of indices is used although the vector is
    empty when the process has no such branch; dsf_components.cpp:4162-4199 DSFullBranch::setLineStatus and 3182-3186
    diagValuesInsertForLineStatusChange. *)
Definition set_line (a c : Z) (tag : string) (status : Z) (p : proc) : outcome proc :=
  match br_pos (pr_br p) a c with
  | None => UB
  | Some k =>
      match nth_error (pr_br p) k with
      | None => UB
      | Some r =>
          obind (clean tag) (fun t =>
          let b := br_b r in let on := negb (Z.eqb status 0) in
          if Bool.eqb (getLineStatus b t) on then Ok p
          else
            let '(yii, yij) := getLineElements b t in
            let '(yjj, yji) := getRvrsLineElements b t in
            let sg (y : C) : C := if on then y else Copp y in
            obind (on_bus (fun u => Ok (set_yii (Some (sg yii)) u)) (pr_bus p) (yb1 b)) (fun bs =>
            obind (on_bus (fun u => Ok (set_yii (Some (sg yjj)) u)) bs (yb2 b)) (fun bs =>
            Ok (Proc bs (upd (pr_br p) k (Dbr (br_f r) (br_t r) (fst (YbModel.setLineStatus b t on)) (Some (sg yij, sg yji))))))))
      end
  end.
Fixpoint each (f : proc -> outcome proc) (w : list proc) : outcome (list proc) :=
  match w with [] => Ok [] | p :: w => obind (f p) (fun p => obind (each f w) (fun w => Ok (p :: w))) end.

(** ** The simulation *)
Definition near (a b : R) : bool := if Rlt_dec (Rabs (a - b)) (/ 1000000) then true else false.
(** dsf_events.cpp:133-183 handleEvents, one event at the time [now] *)
Definition handle_event (now : R) (e : event) (s : list proc * mat) : outcome (list proc * mat) :=
  let (w, Y) := s in
  match e with
  | EFault t0 t1 n g b =>
      if near t0 now then obind (each (start_fault n g b) w) (fun w => Ok (increment FaultOn w Y))
      else if near t1 now then Ok (increment FaultOff w Y)
      else Ok (w, Y)
  | ELine t a b tag st => if near t now then obind (each (set_line a b tag st) w) (fun w => Ok (increment LineChange w Y)) else Ok (w, Y)
  | EGen t n tag st => if near t now then obind (each (set_gen n tag st) w) (fun w => Ok (increment GenChange w Y)) else Ok (w, Y)
  end.
Fixpoint handle_events (now : R) (es : list event) (s : list proc * mat) : outcome (list proc * mat) :=
  match es with [] => Ok s | e :: es => obind (handle_event now e s) (handle_events now es) end.
(** dsf_app_module2.cpp:402-415 run(tend) from time [now] with time step [h] (runonestep adds it, line 337): the time and the matrix of
    every step made, the state reached, and whether the loop has ended; [fuel] bounds the number of passes. *)
Fixpoint run (fuel : nat) (h tend now : R) (es : list event) (s : list proc * mat) : outcome (list (R * mat) * (list proc * mat) * bool) :=
  match fuel with
  | O => Ok ([], s, false)
  | S fuel =>
      if Rlt_dec (/ 1000000) (Rabs (tend - now)) then
        obind (handle_events now es s) (fun s =>
        obind (run fuel h tend (now + h) es s) (fun r => let '(l, s', d) := r in Ok ((now, snd s) :: l, s', d)))
      else Ok ([], s, true)
  end.

(** ** Loading again *)
(** dsf_components.cpp:923-953 and 1016-1104 DSFullBus::load, called by reset() (dsf_app_module2.cpp:49-66): p_genid and p_gstatus are appended to
    the old entries, p_generators is cleared first; only the first p_ngen entries are used. [stat] and [ms]: GENERATOR_ID,
    GENERATOR_STAT and the machines of the data. *)
Definition reload (stat : list dgen) (ms : list C) (b : dbus) : dbus :=
  set_gens (firstn (length stat) (bu_gens b ++ stat)) (map (Dmach true) ms) b.
(** dsf_components.cpp:260-272, mode jxd: the Norton admittances that go into the matrix for generators in service *)
Fixpoint jxd (g : list dgen) (m : list dmach) : C :=
  match g, m with g :: gs, m :: ms => if dg_on g then (dm_y m + jxd gs ms)%C else jxd gs ms | _, _ => RtoC 0 end.

(** The modes jxd of all buses: the copy of a bus that is active contributes to the diagonal of its row (dsf_app_module2.cpp:176-192). *)
Definition machines_at (w : list proc) (k : nat) : C :=
  match find (fun b => bu_act b && (bu_idx b =? k)%nat) (flat_map pr_bus w) with Some b => jxd (bu_gens b) (bu_mach b) | None => RtoC 0 end.

(** ** The matrix at the start *)
(** dsf_app_module2.cpp:167-192 (setup): the matrix of YMBus and YMBranch (mode YBUS, see YbModel) with [g k] added to the diagonal by the
    modes YL and PG (C56) and jxd. Simplified: elements are added, which is the same when no two branches join the same buses. *)
Definition assembled (n : ynet) (g : nat -> C) : mat := fun i j =>
  Cplus (if (i =? j)%nat then Cplus (match diag_value n i with Some v => v | None => RtoC 0 end) (g i) else RtoC 0)
    (sumC (map (fun b =>
       Cplus (if ((yb1 b =? i) && (yb2 b =? j))%nat then match forward_value n b with Some v => v | None => RtoC 0 end else RtoC 0)
             (if ((yb2 b =? i) && (yb1 b =? j))%nat then match reverse_value n b with Some v => v | None => RtoC 0 end else RtoC 0)) (nbr n))).

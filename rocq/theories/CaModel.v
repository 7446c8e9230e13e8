(** Contingency analysis: /repo/src/applications/contingency_analysis/ca_driver.cpp with the power flow module it runs
    (pf_app_module.cpp, pf_factory_module.cpp, pf_components.cpp), for groups of one process (groupSize 1, the default):
    every process holds the whole network.  Numbers are real; values written to text and read back with atof are not
    rounded.  Timers, messages on the console and the output files of the single contingencies are left out. *)
From Verif Require Import Prelude DCModel StrModel GAModel ParModel PqModel FmModel.
From Verif Require TaskModel.
From Coq Require Import Ascii Reals.
Open Scope R_scope.

(** ** The list of contingencies *)
(** ca_driver.cpp:48-139 getContingencies.  A child is its keys and values; get leaves a std::string empty when the key is
    missing.  C23 proves that blankTokenizer ends. *)
Definition val (c : list (string * string)) (k : string) : str := match m_find c k with Some v => s_ v | None => [] end.
Definition words (s : str) : outcome (list str) := match blank_tokenizer (S (length s)) s with Some o => o | None => UB end.
Definition tag2 (s : str) : outcome string := obind (clean2char s) (fun t => Ok (string_of_list_ascii t)).
Fixpoint line_elements (bs : list Z) (ts : list string) : list (Z * Z * string * bool) :=
  match bs, ts with a :: b :: bs', t :: ts' => (a, b, t, true) :: line_elements bs' ts' | _, _ => [] end.
(** None: the child is passed over. *)
Definition read_contingency (c : list (string * string)) : outcome (option (string * event)) :=
  let name := string_of_list_ascii (val c "contingencyName") in
  if str_eqb (val c "contingencyType") (s_ "Line") then
    obind (words (val c "contingencyLineBuses")) (fun bw => obind (mapO atoi bw) (fun bs =>
    obind (words (val c "contingencyLineNames")) (fun tw => obind (mapO tag2 tw) (fun ts =>
      Ok (if (length bs =? 2 * length ts)%nat then Some (name, ELine (line_elements bs ts)) else None)))))
  else if str_eqb (val c "contingencyType") (s_ "Generator") then
    obind (words (val c "contingencyBuses")) (fun bw => obind (mapO atoi bw) (fun bs =>
    obind (words (val c "contingencyGenerators")) (fun tw => obind (mapO tag2 tw) (fun ts =>
      Ok (if (length bs =? length ts)%nat then Some (name, EGen (map (fun p => (fst p, snd p, true)) (combine bs ts))) else None)))))
  else Ok None.
Definition read_contingencies (cs : list (list (string * string))) : outcome (list (string * event)) :=
  obind (mapO read_contingency cs) (fun os => Ok (flat_map (fun o => match o with Some x => [x] | None => [] end) os)).

(** ** The power flow solution *)
(** How the Newton loop ends: below the tolerance, above it (:442-449 of pf_app_module.cpp) or with an exception of the
    linear solver. *)
Inductive ending := Converged | Short | Failed.
(** What the loop leaves behind: voltages of the buses, their reactive injection as last computed by rhsValues, the
    injection serialWrite computes for the reference bus and isolated buses, and the complex power of the lines. *)
Record sol := Sol { z_end : ending; z_v : nat -> R; z_a : nat -> R; z_Q : nat -> R; z_inj : nat -> R * R; z_flow : nat -> nat -> R * R }.
Definition cabs (z : R * R) : R := sqrt (fst z * fst z + snd z * snd z).

(** What is computed anew by every solution and read by none: p_Qinj, p_P0, p_Q0, the line flows and the lists of violations
    and of saved flags. *)
Definition blank_bus (b : fbus) : fbus := with_q b (set_s (set_Qi (u_q b) 0) 0 0).
Definition blank_line (l : line) : line := Line (n_tag l) (n_on l) (n_A l) (n_B l) (n_ign l) 0.
Definition blank (s : proc) : proc :=
  Proc (map blank_bus (s_bus s)) (map (fun f => with_lines f (map blank_line (f_lines f))) (s_brs s)) [] [] (s_rateB s).

Fixpoint mapi A B (f : nat -> A -> B) (i : nat) (l : list A) : list B :=
  match l with [] => [] | x :: r => f i x :: mapi f (S i) r end.

Section Driver.
(** The solution of the power flow equations: any function of the network without the computed values. *)
Variable newton : proc -> sol.
(** The reference bus and the buses that were isolated in the file, by local index. *)
Variables isref orig : nat -> bool.

Definition place_bus (z : sol) (i : nat) (b : fbus) : fbus :=
  let q := u_q b in let q1 := if u_iso b || isref i then q else set_Qi q (z_Q z i) in
  with_q b (set_volt q1 (z_v z i) (z_a z i) (rebuf (q_xc q) (z_v z i) (z_a z i))).
Definition place_line (z : sol) (k : nat) (j : nat) (l : line) : line :=
  Line (n_tag l) (n_on l) (n_A l) (n_B l) (n_ign l) (cabs (z_flow z k j)).
Definition place (z : sol) (s : proc) : proc :=
  Proc (mapi (place_bus z) 0 (s_bus s)) (mapi (fun k f => with_lines f (mapi (place_line z k) 0 (f_lines f))) 0 (s_brs s))
    (s_viol s) (s_sav s) (s_rateB s).

(** pf_app_module.cpp:314-562 solve.  [qlim]: p_qlim is not 0.  The violations are cleared at the start (:321).  Reactive
    limits are checked after each solution (:532-544) and the solution repeated until there is no violation; the return
    value never becomes true again.  Simplified: the last push of values (:546-549) comes before the check. *)
Fixpoint solve_loop (qlim : bool) (fuel : nat) (ret : bool) (s : proc) : option (outcome (proc * sol * bool)) :=
  match fuel with
  | O => None
  | S f =>
      let z := newton (blank s) in
      let s1 := place z s in
      match z_end z with
      | Failed => Some (Ok (s1, z, false))
      | e =>
          let ret1 := match e with Converged => ret | _ => false end in
          if qlim then
            match check_qlim [s1] with
            | Ok ([s2], r) => if r then Some (Ok (s2, z, ret1)) else solve_loop qlim f ret1 s2
            | Ok _ => None
            | Throw => Some Throw
            | UB => Some UB
            end
          else Some (Ok (s1, z, ret1))
      end
  end.
Definition solve (qlim : bool) (s : proc) : outcome (proc * sol * bool) :=
  match solve_loop qlim (S (length (s_bus s))) true (with_viol s []) with Some o => o | None => UB end.

(** pf_factory_module.cpp:688-700 resetVoltages. *)
Definition reset_voltages (s : proc) : proc :=
  with_bus s (map (fun b => if u_act b then with_q b (reset_voltage (u_q b)) else b) (s_bus s)).
(** pf_factory_module.cpp:661-684 clearQlimViolations on one process. *)
Definition clear_qlims (s : proc) : outcome proc :=
  obind (mapO (fun b => if u_act b then obind (clear_qlim (u_q b)) (fun q => Ok (with_q b q)) else Ok b) (s_bus s))
    (fun l => Ok (with_bus s l)).

(** ** The values put into the tables *)
Definition actives (s : proc) : list (nat * fbus) := filter (fun p => u_act (snd p)) (mapi (fun i b => (i, b)) 0 (s_bus s)).
Definition rows A B (f : A -> outcome (list B)) (l : list A) : outcome (list B) := obind (mapO f l) (fun x => Ok (concat x)).
(** vr_str and vfail_str, pf_components.cpp:859-875, with ca_driver.cpp:555-574 and 644-655.  [val]: the value of a bus and
    its mask, given whether the bus changed its type. *)
Definition mag_rows (v : fbus -> bool -> R * Z) (s : proc) : outcome (list (R * Z)) :=
  rows (fun p => match q_save (u_q (snd p)) with
                 | None => UB
                 | Some sv => Ok (if sv || orig (fst p) then [] else [v (snd p) (negb (Bool.eqb (q_pv (u_q (snd p))) sv))])
                 end) (actives s).
Definition ang_rows (v : fbus -> R * Z) (s : proc) : list (R * Z) := map (fun p => v (snd p)) (actives s).
(** "power", pf_components.cpp:986-1057. *)
Definition gen_values (z : sol) (i : nat) (b : fbus) : outcome (list (R * R)) :=
  let q := u_q b in
  let inj := if isref i || u_iso b then z_inj z i else (0, q_Qi q) in
  let pl := lsum l_pl (q_lds q) in let ql := lsum l_ql (q_lds q) in
  obind (aligned q) (fun gs => Ok (map (fun p =>
    let g := snd p in
    if isref i then (g_fac g * (fst inj * q_sb q + pl), g_fac g * (snd inj * q_sb q + ql))
    else if q_pv q then (g_pg g, if (fst p =? 0)%Z then 0 else g_fac g * (snd inj * q_sb q + ql))
    else (g_pg g, g_qg g)) gs)).
Definition gen_rows (z : sol) (s : proc) : outcome (list (R * R)) := rows (fun p => gen_values z (fst p) (snd p)) (actives s).
(** "pfail_str", pf_components.cpp:1059-1080: as many rows. *)
Definition gen_count (s : proc) : nat := length (flat_map (fun p => q_gens (u_q (snd p))) (actives s)).
(** flow_str, pf_components.cpp PFBranch::serialWrite: P, Q, squared loading and the flag, of each line of each active branch. *)
Definition iso_at (s : proc) (i : nat) : bool := match nth_error (s_bus s) i with Some b => u_iso b | None => false end.
Definition rate_a (l : line) : R := match n_A l with Some r => r | None => 0 end.
Definition flow_row (s : proc) (z : sol) (k : nat) (f : fbr) (j : nat) (l : line) : R * R * R * Z :=
  let w := z_flow z k j in
  let out := negb (n_on l) || iso_at s (f_b1 f) || iso_at s (f_b2 f) in
  let a := rate_a l in
  let load := if Rlt_dec 0 a then cabs w / a else 0 in
  ((if out then 0 else fst w), (if out then 0 else snd w), load * load, if Rlt_dec 1 load then 2%Z else 1%Z).
Definition flow_rows (s : proc) (z : sol) : list (R * R * R * Z) :=
  concat (mapi (fun k f => if f_act f then mapi (flow_row s z k f) 0 (f_lines f) else []) 0 (s_brs s)).

(** One contingency's entries: success, the violation code (0 none was made, 1 no violation, 2 bus, 3 branch, 4 both) and a
    column for each of the seven tables. *)
Record result := Res {
  r_ok : bool; r_code : Z;
  r_mag : list (R * Z); r_ang : list (R * Z); r_pg : list (R * Z); r_qg : list (R * Z);
  r_pf : list (R * Z); r_qf : list (R * Z); r_perf : list (R * Z) }.
Definition marked (l : list R) : list (R * Z) := map (fun x => (x, 1%Z)) l.
(** ca_driver.cpp:548-626 (and 297-429 for the base case). *)
Definition tables (ok : bool) (code : Z) (s : proc) (z : sol) : outcome result :=
  obind (mag_rows (fun b ch => (q_v (u_q b), if ch then 2%Z else 1%Z)) s) (fun mg =>
  obind (gen_rows z s) (fun gs =>
  let fl := flow_rows s z in
  Ok (Res ok code mg (ang_rows (fun b => (q_a (u_q b) * 180 / (4 * atan 1), 1%Z)) s) (marked (map fst gs)) (marked (map snd gs))
        (map (fun r => let '(p, _, _, m) := r in (p, m)) fl) (map (fun r => let '(_, q, _, m) := r in (q, m)) fl)
        (map (fun r => let '(_, _, x, m) := r in (x, m)) fl)))).
(** ca_driver.cpp:628-706: zero with mask 0 everywhere. *)
Definition zeros (n : nat) : list (R * Z) := repeat (0, 0%Z) n.
Definition no_tables (s : proc) (z : sol) : outcome result :=
  obind (mag_rows (fun _ _ => (0, 0%Z)) s) (fun mg =>
  let nf := length (flow_rows s z) in
  Ok (Res false 0 mg (ang_rows (fun _ => (0, 0%Z)) s) (zeros (gen_count s)) (zeros (gen_count s)) (zeros nf) (zeros nf) (zeros nf))).

(** char sbuf[128]: sprintf of a longer text is undefined. *)
Definition nl : string := String "010"%char EmptyString.
Definition say (a name b : string) : outcome unit :=
  if (String.length a + String.length name + String.length b <=? 127)%nat then Ok tt else UB.

(** ** One task, ca_driver.cpp:459-710 *)
(** [qlim]: the power flow setting; [checkQ]: checkQLimit of the contingency analysis. *)
Definition code_of (ok1 ok2 : bool) : Z :=
  match ok1, ok2 with true, true => 1 | false, true => 2 | true, false => 3 | false, false => 4 end%Z.
Definition assess (checkQ qlim : bool) (s : proc) (z : sol) (name : string) : outcome (result * proc) :=
  obind (if checkQ then obind (check_qlim [s]) (fun x => match x with
           | ([s'], true) => Ok (s', z)
           | ([s'], false) => obind (solve qlim s') (fun y => Ok (fst y))
           | _ => UB end)
         else Ok (s, z)) (fun sz => let '(s1, z1) := sz in
  let ok1 := check_voltage [s1] in
  let '(s2, ok2) := check_lines1 s1 in
  obind (if ok1 && ok2 then say (nl ++ "No violation for contingency ") name nl else Ok tt) (fun _ =>
  obind (if ok1 then Ok tt else say (nl ++ "Bus Violation for contingency ") name nl) (fun _ =>
  obind (if ok2 then Ok tt else say (nl ++ "Branch Violation for contingency ") name nl) (fun _ =>
  obind (tables true (code_of ok1 ok2) s2 z1) (fun r =>
  obind (if checkQ then clear_qlims s2 else Ok s2) (fun s3 => Ok (r, s3))))))).
Definition task (checkQ qlim : bool) (s : proc) (c : string * event) : outcome (result * proc) :=
  obind (say "" (fst c) ".out") (fun _ =>
  obind (set_contingency (reset_voltages s) (snd c)) (fun x => let '(s1, e1, _) := x in
  obind (solve qlim s1) (fun y => let '(s2, z, ok) := y in
  obind (if ok then assess checkQ qlim s2 z (fst c)
         else obind (say (nl ++ "Divergent for contingency ") (fst c) nl) (fun _ =>
              obind (no_tables s2 z) (fun r => Ok (r, s2)))) (fun rs =>
  obind (unset_contingency (snd rs) e1) (fun u => Ok (fst rs, fst u)))))).

(** ** The whole run *)
(** ca_driver.cpp:215-252, 297-451: the base case on every process, its columns, and the state the tasks start from. *)
Definition base_case (checkQ qlim : bool) (s : proc) : outcome (result * proc) :=
  obind (solve qlim s) (fun y => let '(s1, z, _) := y in
  obind (if checkQ then obind (check_qlim [s1]) (fun x => match x with
           | ([s'], true) => Ok (s', z)
           | ([s'], false) => obind (solve qlim s') (fun y => Ok (fst y))
           | _ => UB end)
         else Ok (s1, z)) (fun sz =>
  match ignore_voltage [fst sz] with
  | [s2] => obind (tables true 0 s2 (snd sz)) (fun r => obind (if checkQ then clear_qlims s2 else Ok s2) (fun s3 => Ok (r, s3)))
  | _ => UB
  end)).
(** The tasks a process receives from nextTask, in order, when the processes call in the order [cs] (TaskModel). *)
Definition answers (n P : nat) (cs : list nat) : list (nat * (bool * Z)) :=
  concat (snd (TaskModel.trun (TaskModel.tm_set (Z.of_nat n) P) (map (fun r => TaskModel.NextGroup [r]) cs))).
Definition tasks_of (n P : nat) (cs : list nat) (r : nat) : list Z :=
  flat_map (fun a => if (fst a =? r)%nat && fst (snd a) then [snd (snd a)] else []) (answers n P cs).
(** The task loop of one process: contingency_idx with what is stored for each. *)
Fixpoint work (checkQ qlim : bool) (evs : list (string * event)) (s : proc) (ts : list Z) : outcome (list (Z * result)) :=
  match ts with
  | [] => Ok []
  | t :: r =>
      match nth_error evs (Z.to_nat t) with
      | None => UB
      | Some c => obind (task checkQ qlim s c) (fun x => obind (work checkQ qlim evs (snd x) r) (fun l => Ok ((t, fst x) :: l)))
      end
  end.
(** All processes: the base case columns (of process 0) and what each process has stored.  Every process starts from its own
    copy of the network. *)
Definition analyse (checkQ qlim : bool) (evs : list (string * event)) (P : nat) (cs : list nat) (s : proc) : outcome (result * list (list (Z * result))) :=
  obind (base_case checkQ qlim s) (fun b =>
  obind (mapO (fun r => work checkQ qlim evs (snd b) (tasks_of (length evs) P cs r)) (iota P)) (fun w => Ok (fst b, w))).
End Driver.

(** ** Results of all processes *)
(** ca_driver.cpp:719-724: the two vectors of the processes. *)
Definition successes (w : list (list (Z * result))) : list (list (Z * bool)) := map (map (fun x => (fst x, r_ok (snd x)))) w.
Definition codes (w : list (list (Z * result))) : list (list (Z * Z)) := map (map (fun x => (fst x, r_code (snd x)))) w.
(** addColumnValues(task_id+1,...) of a table, and column 0 by process 0; [col] selects the table. *)
Definition column_calls (col : result -> list (R * Z)) (base : result) (w : list (list (Z * result))) : list (Z * list (R * Z)) :=
  (0%Z, col base) :: map (fun x => ((fst x + 1)%Z, col (snd x))) (concat w).
(** ca_driver.cpp:726-757: process 0 fetches both vectors for all tasks, clears the first one (:733) and then reads its
    elements.  A line of success.txt: the number of the contingency and, if it was a success, the code. *)
Definition success_file (own : nat -> nat) (sA sB sC sD : sched) (n : nat) (w : list (list (Z * result))) : outcome (list (Z * option Z)) :=
  obind (gv_upload false own (successes w) sA sB) (fun gs =>
  obind (gv_upload 0%Z own (codes w) sC sD) (fun gc =>
  let idx := map Z.of_nat (iota n) in
  obind (gv_getData gs idx) (fun _ =>
  let contingency_success := @nil bool in
  obind (gv_getData gc idx) (fun vs =>
  mapO (fun i => match nth_error contingency_success i, nth_error vs i with
                 | Some ok, Some c => Ok ((Z.of_nat i + 1)%Z, if ok then Some c else None)
                 | _, _ => UB
                 end) (iota n))))).

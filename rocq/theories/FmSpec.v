(** Specification for contingencies (C48), limit checks (C49) and area totals (C50). *)
From Verif Require Import Prelude PqModel PqSpec FmModel.
From Coq Require Import Reals.
Open Scope R_scope.

(** ** C48 *)
(** The lines of a branch and the generators of a bus, each with its id and whether it is in service. *)
Definition line_states (f : fbr) : list (string * bool) := map (fun l => (n_tag l, n_on l)) (f_lines f).
Definition gen_states (b : fbus) : list (string * bool) := map (fun p => (g_id (snd p), negb (fst p =? 0)%Z)) (combine (q_gst (u_q b)) (q_gens (u_q b))).
(** What a contingency may change, with what identifies it: the status of lines and generators and the isolated flags. *)
Definition topology (s : proc) :=
  (map (fun f => (f_1 f, f_2 f, line_states f)) (s_brs s), map (fun b => (u_act b, u_id b, u_near b, u_iso b, gen_states b)) (s_bus s)).
(** A process holds a branch between two buses once, a bus once, and every generator has a status. *)
Definition joins (f : fbr) (a b : Z) : Prop := (f_1 f = a /\ f_2 f = b) \/ (f_1 f = b /\ f_2 f = a).
Definition one_branch (brs : list fbr) : Prop :=
  forall i j f g, nth_error brs i = Some f -> nth_error brs j = Some g -> joins g (f_1 f) (f_2 f) -> i = j.
Definition gens_ok (s : proc) : Prop := forall b, In b (s_bus s) -> length (q_gst (u_q b)) = length (q_gens (u_q b)).
Definition well_formed (s : proc) : Prop := one_branch (s_brs s) /\ NoDup (map u_id (s_bus s)) /\ gens_ok s.
(** The contingency names no element twice. *)
Definition same_ends (a b c d : Z) : Prop := (a = c /\ b = d) \/ (a = d /\ b = c).
Definition distinct_elements (e : event) : Prop :=
  match e with
  | ELine l => ForallOrdPairs (fun x y => let '(a, b, t, _) := x in let '(c, d, t', _) := y in ~ (t = t' /\ same_ends a b c d)) l
  | EGen l => ForallOrdPairs (fun x y => let '(i, t, _) := x in let '(j, t', _) := y in ~ (t = t' /\ i = j)) l
  | EOther => True
  end.
(** The contingency names the line [t] of branch [f], the generator [t] of bus [b]. *)
Definition names_line (e : event) (f : fbr) (t : string) : Prop :=
  match e with ELine l => exists a b sv, In (a, b, t, sv) l /\ joins f a b | _ => False end.
Definition names_gen (e : event) (b : fbus) (t : string) : Prop :=
  match e with EGen l => exists sv, In (u_id b, t, sv) l | _ => False end.
(** In service by its id. *)
Definition line_on (f : fbr) (t : string) : Prop := exists l, In l (f_lines f) /\ n_tag l = t /\ n_on l = true.
(** No line at the bus is in service. *)
Definition cut_off (s : proc) (b : fbus) : Prop :=
  forall j f l, In j (u_near b) -> nth_error (s_brs s) j = Some f -> In l (f_lines f) -> n_on l = false.
(** The location of every element of the contingency exists on the process. *)
Definition located (s : proc) (e : event) : Prop :=
  match e with
  | ELine l => forall a b t sv, In (a, b, t, sv) l -> exists f, In f (s_brs s) /\ joins f a b
  | EGen l => forall i t sv, In (i, t, sv) l -> exists b, In b (s_bus s) /\ u_id b = i
  | EOther => False
  end.

(** ** C49 *)
(** The voltage of the bus is outside its limits; the flow of the line exceeds its rating. *)
Definition off_limits (b : fbus) : Prop := u_vmax b < vmag b \/ vmag b < u_vmin b.
Definition rating (rb : bool) (l : line) : option R := match rb, n_B l with true, Some r => Some r | _, _ => n_A l end.
Definition overloaded (rb : bool) (l : line) : Prop := exists r, rating rb l = Some r /\ 0 < r /\ r < n_S l.
Definition off_limitsb (b : fbus) : bool := if Rlt_dec (u_vmax b) (vmag b) then true else if Rlt_dec (vmag b) (u_vmin b) then true else false.
Definition overloadedb (rb : bool) (l : line) : bool :=
  match rating rb l with Some r => if Rlt_dec 0 r then if Rlt_dec r (n_S l) then true else false else false | None => false end.
(** Lines of a branch have different tags. *)
Definition tags_ok (s : proc) : Prop := forall f, In f (s_brs s) -> NoDup (map n_tag (f_lines f)).
(** The buses and lines a process is responsible for and that are not to be ignored. *)
Definition watched_bus (s : proc) (b : fbus) : Prop := In b (s_bus s) /\ u_act b = true /\ u_ign b = false.
Definition watched_line (s : proc) (f : fbr) (l : line) : Prop := In f (s_brs s) /\ f_act f = true /\ In l (f_lines f) /\ n_ign l = false.
Definition touches (s : proc) (area : Z) (f : fbr) : Prop :=
  exists i b, (i = f_b1 f \/ i = f_b2 f) /\ nth_error (s_bus s) i = Some b /\ u_area b = area.
(** A PV bus whose generators would have to deliver more or less reactive power than they can. *)
Definition q_violated (q : qbus) : Prop :=
  q_pv q = true /\ (total g_qmax (gens_on q) < required q \/ required q < total g_qmin (gens_on q)).
(** Buses can be checked: a status for every generator, a buffer. *)
Definition checkable (w : list proc) : Prop :=
  forall s b, In s w -> In b (s_bus s) -> length (q_gst (u_q b)) = length (q_gens (u_q b)) /\ q_xc (u_q b) <> None.
(** Every bus is active on one process. *)
Definition owned_once (w : list proc) : Prop :=
  NoDup (map u_id (filter u_act (flat_map s_bus w))) /\
  forall s b, In s w -> In b (s_bus s) -> exists s' b', In s' w /\ In b' (s_bus s') /\ u_act b' = true /\ u_id b' = u_id b.

(** ** C50 *)
(** The buses of an area, or of a zone in it when one is given (a positive number). *)
Definition belongs (area zone : Z) (b : fbus) : Prop := u_area b = area /\ (zone <= 0 \/ u_zone b = zone)%Z.
Definition belongsb (area zone : Z) (b : fbus) : bool := (u_area b =? area)%Z && ((zone <=? 0)%Z || (u_zone b =? zone)%Z).
(** The real power of the loads in service at a bus, as it was loaded; the same of the generators, with their limits. *)
Definition loaded_load (q : qbus) : R := fold_right Rplus 0 (map (fun p => fst (fst p)) (filter (fun p => negb (l_st (snd p) =? 0)%Z) (combine (q_saveL q) (q_lds q)))).
Definition current_load (q : qbus) : R := fold_right Rplus 0 (map l_pl (filter (fun l => negb (l_st l =? 0)%Z) (q_lds q))).
Definition gens_in_service (q : qbus) : list (R * gen) :=
  map (fun p => (fst p, snd (snd p))) (filter (fun p => negb (fst (snd p) =? 0)%Z) (combine (q_savePg q) (combine (q_gst q) (q_gens q)))).
(** The buses with each counted once. *)
Definition active_buses (w : list proc) : list fbus := filter u_act (flat_map s_bus w).
Definition ghost_buses (w : list proc) : list fbus := filter (fun b => negb (u_act b)) (flat_map s_bus w).

(** In service by its id, for generators. *)
Definition gen_on (b : fbus) (t : string) : Prop := In (t, true) (gen_states b).
(** Generators of a bus have different ids. *)
Definition ids_ok (s : proc) : Prop := forall b, In b (s_bus s) -> NoDup (map fst (gen_states b)).

(** A generator moved towards its upper limit by a part [v] of the way, or towards its lower limit if [v] is not positive; a load multiplied by [v]. *)
Definition moved (v : R) (g : gen) : R := if Rlt_dec 0 v then g_pg g + v * (g_pt g - g_pg g) else g_pg g + v * (g_pg g - g_pb g).
Definition ids_distinct (s : proc) : Prop := forall b, In b (s_bus s) -> NoDup (map g_id (q_gens (u_q b))) /\ NoDup (map l_id (q_lds (u_q b))).

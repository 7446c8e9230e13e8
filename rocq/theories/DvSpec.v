(** Specification of C57: what the network looks like after switching, and the law the matrix of the simulation has to express.
    The network without machines and faults is that of YbSpec. *)
From Verif Require Import Prelude.
From Coq Require Import Reals.
From Coquelicot Require Import Complex.
From Verif Require Import StrSpec YbSpec DvModel.
Open Scope R_scope.

(** A generator: its name, whether it is in service, and the admittance behind which it feeds the network. *)
Record unit_ := Unit { un_id : string; un_on : bool; un_y : C }.
(** A plant: the numbers of the nodes, the network, the generators at every node, the faults in force (the event that made it, the node
    and its admittance), and the constant admittance of everything else at a node (loads). *)
Record plant := Plant { pl_num : list Z; pl_grid : grid; pl_gens : list (list unit_); pl_faults : list (nat * nat * C); pl_rest : nat -> C }.
Definition total (l : list C) : C := fold_right Cplus (RtoC 0) l.
(** Admittance to ground at node [k] besides that of the network. *)
Definition ground (P : plant) (k : nat) : C :=
  (pl_rest P k + total (map (fun u => if un_on u then un_y u else RtoC 0) (nth k (pl_gens P) []))
   + total (map (fun f => if (snd (fst f) =? k)%nat then snd f else RtoC 0) (pl_faults P)))%C.
(** Kirchhoff's current law at node [k]: with voltages [V] the current [j] flows from the node into everything connected to it. *)
Definition leaves (P : plant) (s : R) (V : nat -> C) (k : nat) (j : C) : Prop :=
  exists i, out_of (pl_grid P) s V k i /\ j = (i + ground P k * V k)%C.
(** A matrix is right for a plant: at every node that is not isolated, it gives the current that leaves the node. *)
Definition times (n : nat) (Y : nat -> nat -> C) (V : nat -> C) (k : nat) : C := total (map (fun m => Y k m * V m)%C (seq 0 n)).
Definition right (s : R) (P : plant) (Y : nat -> nat -> C) : Prop :=
  forall k nd, nth_error (gnode (pl_grid P)) k = Some nd -> niso nd = false ->
  forall V j, leaves P s V k j <-> times (length (pl_num P)) Y V k = j.

(** ** Switching *)
Inductive action :=
| Start (i : nat) (bus : Z) (G B : R)      (* fault number i with conductance G and inductive susceptance B begins *)
| Stop (i : nat)                            (* and ends *)
| Line_ (a b : Z) (t : string) (on : bool)  (* circuit t between buses a and b *)
| Gen_ (bus : Z) (t : string) (on : bool).  (* generator t at a bus *)
Fixpoint where_ (n : Z) (l : list Z) : option nat :=
  match l with [] => None | a :: l => if Z.eqb a n then Some 0%nat else option_map S (where_ n l) end.
Definition joins (P : plant) (a b : Z) (x : arc) : bool :=
  match nth_error (pl_num P) (a1 x), nth_error (pl_num P) (a2 x) with
  | Some m, Some n => (Z.eqb m a && Z.eqb n b) || (Z.eqb m b && Z.eqb n a)
  | _, _ => false
  end.
Definition act (P : plant) (c : action) : plant :=
  match c with
  | Start i n G B =>
      match where_ n (pl_num P) with
      | Some k => Plant (pl_num P) (pl_grid P) (pl_gens P) ((i, k, (G, - B) : C) :: pl_faults P) (pl_rest P)
      | None => P
      end
  | Stop i => Plant (pl_num P) (pl_grid P) (pl_gens P) (filter (fun f => negb (fst (fst f) =? i)%nat) (pl_faults P)) (pl_rest P)
  | Line_ a b t on =>
      Plant (pl_num P) (Grid (gnode (pl_grid P)) (map (fun x => if joins P a b x then Arc (a1 x) (a2 x) (switch t on (ael x)) else x) (garc (pl_grid P))))
            (pl_gens P) (pl_faults P) (pl_rest P)
  | Gen_ n t on =>
      Plant (pl_num P) (pl_grid P)
            (match where_ n (pl_num P) with
             | Some k => upd (pl_gens P) k (map (fun u => if String.eqb (un_id u) t then Unit (un_id u) on (un_y u) else u) (nth k (pl_gens P) []))
             | None => pl_gens P
             end) (pl_faults P) (pl_rest P)
  end.

(** ** Which actions are due at a time: within a microsecond *)
Definition at_time (t now : R) : Prop := Rabs (t - now) < / 1000000.
(** Event number [i]; [nm] gives the two character name meant by the text of a tag. *)
Inductive due (nm : string -> string) (now : R) (i : nat) : event -> list action -> Prop :=
| due_start : forall t0 t1 n G B, at_time t0 now -> due nm now i (EFault t0 t1 n G B) [Start i n G B]
| due_stop : forall t0 t1 n G B, ~ at_time t0 now -> at_time t1 now -> due nm now i (EFault t0 t1 n G B) [Stop i]
| due_line : forall t a b tag st, at_time t now -> due nm now i (ELine t a b tag st) [Line_ a b (nm tag) (negb (Z.eqb st 0))]
| due_gen : forall t n tag st, at_time t now -> due nm now i (EGen t n tag st) [Gen_ n (nm tag) (negb (Z.eqb st 0))]
| due_none : forall e, match e with EFault t0 t1 _ _ _ => ~ at_time t0 now /\ ~ at_time t1 now | ELine t _ _ _ _ => ~ at_time t now | EGen t _ _ _ => ~ at_time t now end ->
    due nm now i e [].
Inductive all_due (nm : string -> string) (now : R) : nat -> list event -> list action -> Prop :=
| ad_nil : forall i, all_due nm now i [] []
| ad_cons : forall i e es l ls, due nm now i e l -> all_due nm now (S i) es ls -> all_due nm now i (e :: es) (l ++ ls).
(** The text of a tag stands for the name [c]: blanks and quotes around an identifier do not matter. *)
Definition stands_for (tag c : string) : Prop :=
  exists t, ident t /\ spelling t (list_ascii_of_string tag) /\ c = string_of_list_ascii (canonical t).
Definition tag_of (e : event) : option string := match e with EFault _ _ _ _ _ => None | ELine _ _ _ t _ => Some t | EGen _ _ t _ => Some t end.
Definition well_named (nm : string -> string) (es : list event) : Prop :=
  forall e t, In e es -> tag_of e = Some t -> stands_for t (nm t).

(** The steps of a run: before every step the actions due are carried out, in the order of the events. *)
Fixpoint follows (s : R) (nm : string -> string) (es : list event) (P : plant) (steps : list (R * (nat -> nat -> C))) : Prop :=
  match steps with
  | [] => True
  | (t, Y) :: steps => exists acts, all_due nm t 0 es acts /\ let P' := fold_left act acts P in right s P' Y /\ follows s nm es P' steps
  end.

(** ** The events for which the matrix is right *)
(** [P0]: the plant at the start. At most one fault is in force, it has no conductance and its bus is not isolated; an element that is
    switched has nothing connected at its ends besides its two-port and no isolated bus at its ends, its branch is the only one
    between its buses, and had something in service at the start if it is switched on; a generator that is switched exists. *)
Definition ok_act (P0 P : plant) (c : action) : Prop :=
  match c with
  | Start i n G B => pl_faults P = [] /\ G = 0 /\
      (forall k, where_ n (pl_num P) = Some k -> exists nd, nth_error (gnode (pl_grid P)) k = Some nd /\ niso nd = false)
  | Stop i => pl_faults P = [] \/ exists f, pl_faults P = [f] /\ fst (fst f) = i
  | Line_ a b t on =>
      exists i x, nth_error (garc (pl_grid P)) i = Some x /\ joins P a b x = true /\
        (forall j y, nth_error (garc (pl_grid P)) j = Some y -> joins P a b y = true -> j = i) /\
        (forall l, find_line t (ael x) = Some l -> no_end_shunts l) /\
        (forall k nd, nth_error (gnode (pl_grid P)) k = Some nd -> a1 x = k \/ a2 x = k -> niso nd = false) /\
        (on = true -> exists x0, nth_error (garc (pl_grid P0)) i = Some x0 /\ exists l, In l (ael x0) /\ lserv l = true)
  | Gen_ n t on =>
      forall k, where_ n (pl_num P) = Some k -> exists u, In u (nth k (pl_gens P) []) /\ un_id u = t
  end.
Fixpoint ok_acts (P0 P : plant) (l : list action) : Prop := match l with [] => True | c :: l => ok_act P0 P c /\ ok_acts P0 (act P c) l end.
(** ... along the times of a run *)
Inductive ok_run (nm : string -> string) (es : list event) (P0 : plant) : plant -> list R -> Prop :=
| okr_nil : forall P, ok_run nm es P0 P []
| okr_cons : forall P t ts acts, all_due nm t 0 es acts -> ok_acts P0 P acts -> ok_run nm es P0 (fold_left act acts P) ts -> ok_run nm es P0 P (t :: ts).
(** Status codes are 0 or 1. *)
Definition plain_status (e : event) : Prop := match e with EFault _ _ _ _ _ => True | ELine _ _ _ _ st => True | EGen _ _ _ st => st = 0%Z \/ st = 1%Z end.

(** ** A simulation that is ready to run the plant [P] *)
(** The copy of a bus shows node number [bu_idx]: no change is pending, no fault is in force, its generators are those of the node, with
    a machine object each, all in service. *)
Definition shows (P : plant) (b : dbus) : Prop :=
  nth_error (pl_num P) (bu_idx b) = Some (bu_num b) /\
  (exists nd, nth_error (gnode (pl_grid P)) (bu_idx b) = Some nd /\ bu_iso b = niso nd) /\
  bu_fault b = None /\ bu_yii b = None /\ bu_ygen b = None /\
  Forall2 (fun g u => dg_id g = un_id u /\ dg_on g = un_on u) (bu_gens b) (nth (bu_idx b) (pl_gens P) []) /\
  Forall2 (fun m u => dm_on m = un_on u /\ dm_y m = un_y u) (bu_mach b) (nth (bu_idx b) (pl_gens P) []).
(** The buses of all the processes: every node is active on one process, and a process has one copy of a node at most. *)
Definition spread (P : plant) (w : list proc) : Prop :=
  (forall p b, In p w -> In b (pr_bus p) -> shows P b) /\
  (forall p, In p w -> NoDup (map bu_idx (pr_bus p))) /\
  Permutation (map bu_idx (filter bu_act (flat_map pr_bus w))) (seq 0 (length (pl_num P))).
(** One process that holds the whole network, with the branches as they were loaded (YbSpec) *)
Definition whole (P : plant) (p : proc) : Prop :=
  map bu_idx (pr_bus p) = seq 0 (length (pl_num P)) /\
  Forall2 (fun r x => nth_error (pl_num P) (a1 x) = Some (br_f r) /\ nth_error (pl_num P) (a2 x) = Some (br_t r) /\ br_chg r = None /\
                      exists ds, Forall2 describes ds (ael x) /\ YbModel.load_branch (a1 x) (a2 x) ds = Ok (br_b r)) (pr_br p) (garc (pl_grid P)).
(** A plant makes sense: as many numbers, nodes and lists of generators, numbers and names of generators occur once, no fault is in force,
    branches join two different nodes and impedances are not zero. *)
Definition sane (P : plant) : Prop :=
  length (gnode (pl_grid P)) = length (pl_num P) /\ length (pl_gens P) = length (pl_num P) /\ NoDup (pl_num P) /\
  (forall k, NoDup (map un_id (nth k (pl_gens P) []))) /\ pl_faults P = [] /\
  (forall x, In x (garc (pl_grid P)) -> a1 x <> a2 x /\ (a1 x < length (pl_num P))%nat /\ (a2 x < length (pl_num P))%nat) /\
  (forall x l, In x (garc (pl_grid P)) -> In l (ael x) -> wf_line l).
(** The times of the first [n] steps. *)
Definition step_times (t0 h : R) (n : nat) : list R := map (fun i => t0 + INR i * h) (seq 0 n).

(** Specification of the admittance matrix (C35) and of line flows (C47): two-port laws of lines and transformers and Kirchhoff's current law,
    independent of the model. *)
From Verif Require Import Prelude.
From Coq Require Import Reals.
From Coquelicot Require Import Complex.
Open Scope R_scope.
Open Scope C_scope.

(** A branch record of a case: series impedance r + jx, line charging b, turns ratio (0 for a plain line) and phase shift in degrees of an ideal
    transformer at the record's from bus, shunts g1 + j b1 at the from bus and g2 + j b2 at the to bus, whether the element is in service, and
    whether the branch is stored with its two buses exchanged. *)
Record line := Line { ltag : string; lr : R; lx : R; lb : R; ltap : R; ldeg : R; lg1 : R; lb1 : R; lg2 : R; lb2 : R; lserv : bool; lrev : bool }.
Definition impedance (l : line) : C := (lr l, lx l).
Definition turns (l : line) : C := if Req_EM_T (ltap l) 0 then 1 else ((ltap l * cos (ldeg l * PI / 180))%R, (ltap l * sin (ldeg l * PI / 180))%R).

(** An ideal transformer with complex turns ratio [a] in front of a pi section with impedance [z] and half the charging [b] at each side:
    voltages [vf], [vt] and currents [jf], [jt] into the element at its two ends. Inside the transformer the voltage is [v] and the current [j]. *)
Definition two_port (a z : C) (b : R) (vf vt jf jt : C) : Prop :=
  exists v j, a * v = vf /\ Cconj a * jf = j /\
    z * (j - (0%R, (b / 2)%R) * v) = v - vt /\
    z * (jt - (0%R, (b / 2)%R) * vt) = vt - v.

(** The element with its end shunts, between the record's from and to bus; nothing flows when it is out of service. *)
Definition element (l : line) (vf vt jf jt : C) : Prop :=
  if lserv l then
    exists kf kt, two_port (turns l) (impedance l) (lb l) vf vt kf kt /\ jf = kf + (lg1 l, lb1 l) * vf /\ jt = kt + (lg2 l, lb2 l) * vt
  else jf = 0 /\ jt = 0.
(** The same in terms of the two buses of the branch that holds the element. *)
Definition at_branch (l : line) (v1 v2 j1 j2 : C) : Prop :=
  if lrev l then element l v2 v1 j2 j1 else element l v1 v2 j1 j2.
(** Currents into all the elements of a branch. *)
Inductive branch_currents : list line -> C -> C -> C -> C -> Prop :=
| bc_nil : forall v1 v2, branch_currents [] v1 v2 0 0
| bc_cons : forall l ls v1 v2 j1 j2 k1 k2, at_branch l v1 v2 j1 j2 -> branch_currents ls v1 v2 k1 k2 ->
    branch_currents (l :: ls) v1 v2 (j1 + k1) (j2 + k2).

(** Fixed shunts of a bus: in service or not, and the admittance in MW and MVar at unit voltage; the initial switched shunt in MVar. *)
Record shunt := Shunt { sserv : bool; sg : R; sb : R }.
Record nodeT := Node { niso : bool; nfix : list shunt; nsw : option R }.
Definition shunt_total (n : nodeT) : C :=
  (fold_right Rplus 0%R (map (fun s => if sserv s then sg s else 0%R) (nfix n)),
   (fold_right Rplus 0 (map (fun s => if sserv s then sb s else 0) (nfix n)) + match nsw n with Some b => b | None => 0 end)%R).

(** A physical network: nodes, and branches given by their two nodes and their elements. *)
Record arc := Arc { a1 : nat; a2 : nat; ael : list line }.
Record grid := Grid { gnode : list nodeT; garc : list arc }.
(** [inflow arcs V k j]: the currents from bus [k] into the elements add up to [j]. *)
Inductive inflow (V : nat -> C) (k : nat) : list arc -> C -> Prop :=
| if_nil : inflow V k [] 0
| if_one : forall x xs j1 j2 j, branch_currents (ael x) (V (a1 x)) (V (a2 x)) j1 j2 -> inflow V k xs j -> a1 x = k -> a2 x <> k -> inflow V k (x :: xs) (j1 + j)
| if_two : forall x xs j1 j2 j, branch_currents (ael x) (V (a1 x)) (V (a2 x)) j1 j2 -> inflow V k xs j -> a2 x = k -> a1 x <> k -> inflow V k (x :: xs) (j2 + j)
| if_oth : forall x xs j, inflow V k xs j -> a1 x <> k -> a2 x <> k -> inflow V k (x :: xs) j.
(** All that flows out of node [k]: into the elements and into the shunts of the node, at base power [s]. *)
Definition out_of (g : grid) (s : R) (V : nat -> C) (k : nat) (j : C) : Prop :=
  exists n i, nth_error (gnode g) k = Some n /\ inflow V k (garc g) i /\ j = i + shunt_total n / RtoC s * V k.

(** Switching one element of a branch: the first one with the tag. *)
Fixpoint switch (t : string) (on : bool) (ls : list line) : list line :=
  match ls with
  | [] => []
  | l :: ls => if String.eqb t (ltag l) then Line (ltag l) (lr l) (lx l) (lb l) (ltap l) (ldeg l) (lg1 l) (lb1 l) (lg2 l) (lb2 l) on (lrev l) :: ls
               else l :: switch t on ls
  end.

(** A well formed physical network: branches join two different nodes and impedances are not zero; nothing in service ends at an isolated node. *)
Definition wf_line (l : line) : Prop := impedance l <> 0.
Definition wf_grid (g : grid) : Prop :=
  (forall x, In x (garc g) -> a1 x <> a2 x /\ (a1 x < length (gnode g))%nat /\ (a2 x < length (gnode g))%nat) /\
  (forall x l, In x (garc g) -> In l (ael x) -> wf_line l) /\
  (forall x l k n, In x (garc g) -> In l (ael x) -> nth_error (gnode g) k = Some n -> niso n = true -> a1 x = k \/ a2 x = k -> lserv l = false).

(** ** How the records and nodes are held in the data collections *)
From Verif Require Import YbModel.
(** A data collection entry describing a record: ratio, shift, status and switch may be missing when they have their usual value. *)
Definition describes (d : edata) (l : line) : Prop :=
  dX d = Some (lx l) /\ dR d = Some (lr l) /\ (dShift d = Some (ldeg l) \/ dShift d = None /\ ldeg l = 0%R) /\
  (dTap d = Some (ltap l) \/ dTap d = None /\ ltap l = 0%R) /\ dCkt d = Some (ltag l) /\
  (dStat d = Some (if lserv l then 1 else 0)%Z \/ dStat d = None /\ lserv l = true) /\
  (dSw d = Some (lrev l) \/ dSw d = None /\ lrev l = false) /\
  dB d = Some (lb l) /\ dG1 d = Some (lg1 l) /\ dB1 d = Some (lb1 l) /\ dG2 d = Some (lg2 l) /\ dB2 d = Some (lb2 l).
(** A bus entry: the fixed shunts under their index, the switched shunt, base power and bus type. *)
Definition describes_node (s : R) (d : bdata) (n : nodeT) : Prop :=
  dSbase d = Some s /\ (forall i, dGL d i = option_map sg (nth_error (nfix n) i)) /\ (forall i, dBL d i = option_map sb (nth_error (nfix n) i)) /\
  dBinit d = nsw n /\ exists t, dType d = Some t /\ (niso n = true <-> t = 4%Z).

(** The model network built by load from the data of a grid. *)
Definition loaded (s : R) (n : ynet) (g : grid) : Prop :=
  Forall2 (fun u nd => exists d r, describes_node s d nd /\ load_bus d = Ok (u, r)) (nbus n) (gnode g) /\
  Forall2 (fun b x => exists ds, Forall2 describes ds (ael x) /\ load_branch (a1 x) (a2 x) ds = Ok b) (nbr n) (garc g).
(** What the assembled matrix gives for a voltage vector at row [k]: diagonal value plus the forward values of the branches starting at [k]
    and the reverse values of those ending there; a missing value is no entry. *)
Definition ent (o : option C) : C := match o with Some v => v | None => 0 end.
Definition y_row (n : ynet) (V : nat -> C) (k : nat) : C :=
  ent (diag_value n k) * V k +
  fold_right Cplus 0 (map (fun b => (if (yb1 b =? k)%nat then ent (forward_value n b) * V (yb2 b) else 0) +
                                    (if (yb2 b =? k)%nat then ent (reverse_value n b) * V (yb1 b) else 0)) (nbr n)).
(** The cases in which the shunts of a node are read completely, and the end shunts of a record are put at the right end. *)
Definition simple_node (n : nodeT) : Prop :=
  nfix n = [] \/ (exists s, nfix n = [s] /\ sserv s = true) /\ nsw n = None.
Definition simple_line (l : line) : Prop := lrev l = false \/ lg1 l = lg2 l /\ lb1 l = lb2 l.

(** ** Switching after loading: (branch, tag, on) *)
Definition op : Type := nat * string * bool.
Definition step_grid (g : grid) (o : op) : grid :=
  let '(i, t, on) := o in
  match nth_error (garc g) i with
  | Some x => Grid (gnode g) (upd (garc g) i (Arc (a1 x) (a2 x) (switch t on (ael x))))
  | None => g
  end.
Definition step_net (n : ynet) (o : op) : ynet :=
  let '(i, t, on) := o in
  match nth_error (nbr n) i with
  | Some b => Net (nbus n) (upd (nbr n) i (fst (setLineStatus b t on)))
  | None => n
  end.
(** Only branches with something in service when they were loaded are switched on. *)
Definition allowed (g : grid) (o : op) : Prop :=
  let '(i, t, on) := o in on = true -> exists x l, nth_error (garc g) i = Some x /\ In l (ael x) /\ lserv l = true.

(** The first record with a tag. *)
Fixpoint find_line (t : string) (ls : list line) : option line :=
  match ls with [] => None | l :: ls => if String.eqb t (ltag l) then Some l else find_line t ls end.

(** Nothing is connected at the ends of an element besides its own two-port. *)
Definition no_end_shunts (l : line) : Prop := lg1 l = 0%R /\ lb1 l = 0%R /\ lg2 l = 0%R /\ lb2 l = 0%R.

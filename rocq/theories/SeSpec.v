(** Specification of state estimation (C54): what the measured quantities are, in complex voltages and currents, and the least squares problem. *)
From Verif Require Import Prelude PfModel PfSpec YbModel YbSpec SeModel.
From Coq Require Import Reals.
From Coquelicot Require Import Complex Derive Hierarchy.
Open Scope R_scope.

(** The electrical network and its state. *)
Definition el (n : snet) : pnet := PNet (map s_bus (sbs n)) (map s_br (srs n)).
Definition state : Type := (nat -> R) * (nat -> R).   (* angles and magnitudes *)
Definition now (n : snet) : state := (angle (el n), magn (el n)).
Definition volt (x : state) (k : nat) : C := phasor (snd x k) (fst x k).

(** The current into a line or transformer at its from end and at its to end, see [two_port] of YbSpec: the complex turns ratio is at the from end. *)
Open Scope C_scope.
Definition i_from (l : line) (vf vt : C) : C := ((1 / impedance l + (0%R, (lb l / 2)%R)) * (vf / turns l) - vt / impedance l) / Cconj (turns l).
Definition i_to (l : line) (vf vt : C) : C := (1 / impedance l + (0%R, (lb l / 2)%R)) * vt - (vf / turns l) / impedance l.
Open Scope R_scope.
(** The value of a measurement on the branch with element [l] from bus [i] to bus [j]. *)
Definition flow (l : line) (i j : nat) (ty : mtype) (x : state) : R :=
  let sf := Cmult (volt x i) (Cconj (i_from l (volt x i) (volt x j))) in
  let st := Cmult (volt x j) (Cconj (i_to l (volt x i) (volt x j))) in
  match ty with
  | PIJ => Re sf | QIJ => Im sf | PJI => Re st | QJI => Im st
  | IIJ => Cmod (i_from l (volt x i) (volt x j)) | IJI => Cmod (i_to l (volt x i) (volt x j))
  | _ => 0
  end.
(** The value of a measurement at bus [k]: magnitude, angle, injected power. *)
Definition at_node (n : snet) (k : nat) (ty : mtype) (x : state) : R :=
  match ty with
  | VM => snd x k | VA => fst x k
  | PI_ => Re (power (el n) (fst x) (snd x) k) | QI_ => Im (power (el n) (fst x) (snd x) k)
  | _ => 0
  end.

(** The unknowns: column 0 of the reference bus is its magnitude, columns 0 and 1 of another bus its angle and magnitude. *)
Definition is_angle (n : snet) (c : nat * nat) : bool := negb (p_ref (getb (el n) (fst c))) && (snd c =? 0)%nat.
Definition unknown (n : snet) (k i : nat) : Prop := (k < length (sbs n))%nat /\ p_iso (getb (el n) k) = false /\ (i < if p_ref (getb (el n) k) then 1 else 2)%nat.
Definition value (n : snet) (c : nat * nat) : R := if is_angle n c then angle (el n) (fst c) else magn (el n) (fst c).
Definition moved (n : snet) (c : nat * nat) (y : R) : state :=
  if is_angle n c then (bump (angle (el n)) (fst c) y, magn (el n)) else (angle (el n), bump (magn (el n)) (fst c) y).
(** [d] is the derivative of [h] with respect to an unknown at the present state. *)
Definition deriv (n : snet) (h : state -> R) (c : nat * nat) (d : R) : Prop := is_derive (fun y : R => h (moved n c y)) (value n c) d.

(** The record an element was loaded from: reactances of at least 1e-5 (load changes smaller ones), no exchanged buses. *)
Definition loaded_from (e : selem) (l : line) : Prop :=
  e = load_sel (ltag l) (lr l) (lx l) (ltap l) (ldeg l) (lb l) /\ 1 / 100000 <= Rabs (lx l) /\ lrev l = false.

(** Networks: branches join two different existing buses. *)
Definition wf (n : snet) : Prop := forall b, In b (srs n) -> r_1 (s_br b) <> r_2 (s_br b) /\ (r_1 (s_br b) < length (sbs n))%nat /\ (r_2 (s_br b) < length (sbs n))%nat.
Definition alone (n : snet) (k : nat) : Prop := p_iso (getb (el n) k) = true.
Definition touches (k : nat) (b : sbr) : Prop := r_1 (s_br b) = k \/ r_2 (s_br b) = k.

(** Measurements that belong to a bus and are known there; no branch goes to an isolated bus. *)
Definition bus_type (ty : mtype) : Prop := ty = VM \/ ty = VA \/ ty = PI_ \/ ty = QI_.
Definition good_bus (n : snet) (k : nat) (u : sbus) : Prop :=
  nth_error (sbs n) k = Some u /\ p_iso (s_bus u) = false /\ (forall m, In m (s_bmeas u) -> bus_type (m_type m)) /\
  (forall b, In b (srs n) -> touches k b -> ~ alone n (r_1 (s_br b)) /\ ~ alone n (r_2 (s_br b))).
(** Measurements of a branch: its elements come from the records [ls] with distinct tags; every measurement names one that is in service, and is one of
    the types the program implements. *)
Definition good_branch (n : snet) (b : sbr) (ls : list line) : Prop :=
  In b (srs n) /\ ~ alone n (r_1 (s_br b)) /\ ~ alone n (r_2 (s_br b)) /\ r_act (s_br b) = true /\
  Forall2 loaded_from (s_els b) ls /\ NoDup (map ltag ls) /\
  (forall m, In m (s_rmeas b) -> In (m_type m) [PIJ; QIJ; PJI; QJI; IIJ] /\ exists l, In l ls /\ ltag l = m_ckt m /\ lserv l = true).
(** What a measurement of a branch measures. *)
Definition measures (b : sbr) (ls : list line) (m : meas) (h : state -> R) : Prop :=
  exists l, In l ls /\ ltag l = m_ckt m /\ h = flow l (r_1 (s_br b)) (r_2 (s_br b)) (m_type m).
(** The rows for which the Jacobian is right: a shunt conductance at the metered bus is not allowed for real power, and a current must be in a line
    without transformer and charging, and not be zero. *)
Definition row_ok (n : snet) (b : sbr) (ls : list line) (m : meas) : Prop :=
  (m_type m = PIJ -> s_gs (nth (r_1 (s_br b)) (sbs n) sbus0) = 0) /\ (m_type m = PJI -> s_gs (nth (r_2 (s_br b)) (sbs n) sbus0) = 0) /\
  (m_type m = IIJ -> forall l, In l ls -> ltag l = m_ckt m -> ltap l = 0 /\ lb l = 0 /\ flow l (r_1 (s_br b)) (r_2 (s_br b)) IIJ (now n) <> 0).

(** The measurements of the network and the functions they measure: [lss] holds the records of each branch. *)
Definition term : Type := meas * (state -> R).
Definition meter (b : sbr) (ls : list line) (m : meas) (x : state) : R :=
  match find (fun l => String.eqb (ltag l) (m_ckt m)) ls with Some l => flow l (r_1 (s_br b)) (r_2 (s_br b)) (m_type m) x | None => 0 end.
Definition terms (n : snet) (lss : list (list line)) : list term :=
  (concat (map (fun ku => map (fun m => (m, at_node n (fst ku) (m_type m))) (s_bmeas (snd ku))) (combine (Prelude.iota (length (sbs n))) (sbs n))) ++
   concat (map (fun bl => map (fun m => (m, meter (fst bl) (snd bl) m)) (s_rmeas (fst bl))) (combine (srs n) lss)))%list.
(** Every component is as above or has no measurement. *)
Definition complete (n : snet) (lss : list (list line)) : Prop :=
  (forall k u, nth_error (sbs n) k = Some u -> good_bus n k u \/ (p_iso (s_bus u) = true /\ s_bmeas u = nil)) /\
  Forall2 (fun b ls => s_rmeas b = nil \/
    (good_branch n b ls /\ (forall m, In m (s_rmeas b) -> row_ok n b ls m) /\ (forall m, In m (s_rmeas b) -> m_type m = IIJ -> 0 < magn (el n) (r_1 (s_br b)))))
    (srs n) lss.
(** The weight of a measurement: the reciprocal of the variance, none when no deviation is given. *)
Definition weight_of (m : meas) : R := if Req_EM_T (m_dev m) 0 then 0 else / (m_dev m ^ 2).
(** Half the weighted sum of squares of measured minus calculated values. *)
Definition objective (ts : list term) (x : state) : R :=
  fold_right Rplus 0 (map (fun t : term => / 2 * weight_of (fst t) * (m_val (fst t) - snd t x) ^ 2) ts).
(** The same with the calculated values replaced by their linear approximation for a correction [x] of the columns [cs]; [g] gives the derivatives. *)
Definition linearised (n : snet) (ts : list (term * (nat * nat -> R))) (cs : list (nat * nat)) (x : nat * nat -> R) : R :=
  fold_right Rplus 0 (map (fun q : term * (nat * nat -> R) => let '(t, g) := q in
    / 2 * weight_of (fst t) * (m_val (fst t) - (snd t (now n) + fold_right Rplus 0 (map (fun c => g c * x c) cs))) ^ 2) ts).

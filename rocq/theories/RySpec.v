(** Specification of C60: when a relay has to operate, and what the network is afterwards. *)
From Verif Require Import Prelude RyModel.
From Coq Require Import Reals.
From Coquelicot Require Import Complex.
Open Scope R_scope.

(** ** Relays by themselves *)
Definition first (P : nat -> Prop) (n : nat) : Prop := P n /\ forall m, (m < n)%nat -> ~ P m.
(** [P] holds at [c] updates in a row, the last of which is update [p] (counted from 0). *)
Definition in_a_row (P : nat -> Prop) (c p : nat) : Prop := (0 < c <= S p)%nat /\ forall i, (p < i + c)%nat -> (i <= p)%nat -> P i.
(** The relay picks up at the first update at which [picked] holds, and its breaker opens at the first update at which the time
    since then, both updates included, is enough. *)
Definition operates_at (dt : R) (picked : nat -> Prop) (enough : R -> Prop) (n : nat) : Prop :=
  exists p, first picked p /\ first (fun q => (p <= q)%nat /\ enough (INR (S q - p) * dt)) n.
Definition low_voltage (p : lvshbl) (v : nat -> C) (i : nat) : Prop := Cmod (v i) < lv_v1 p.
Definition lvshbl_at (p : lvshbl) (dt : R) (v : nat -> C) : nat -> Prop :=
  operates_at dt (fun q => exists c, in_a_row (low_voltage p v) c q /\ lv_t1 p <= INR c * dt) (fun t => lv_tb p <= t).
Definition frqtpat_at (p : frqtpat) (dt : R) (f : nat -> R) : nat -> Prop :=
  operates_at dt (fun q => exists c, (in_a_row (fun i => f i < fq_low p) c q \/ in_a_row (fun i => fq_up p < f i) c q) /\ fq_tp p <= INR c * dt)
    (fun t => fq_tb p < t).
(** The impedance seen lies in the circle of the zone; without current there is no impedance. Times are in cycles of 60 Hz. *)
Definition middle (z : zone) : C := (zn_dis z * cos (zn_ang z * PI / 180), zn_dis z * sin (zn_ang z * PI / 180)).
Definition sees (z : zone) (vi : nat -> C * C) (i : nat) : Prop :=
  snd (vi i) <> RtoC 0 /\ Cmod (fst (vi i) / snd (vi i) - middle z)%C < zn_reach z / 2.
Definition distr1_at (p : distr1) (dt : R) (vi : nat -> C * C) : nat -> Prop :=
  operates_at dt (fun q => exists c, in_a_row (sees (ds_1 p) vi) c q /\ zn_time (ds_1 p) / 60 < INR c * dt
                                  \/ in_a_row (sees (ds_2 p) vi) c q /\ zn_time (ds_2 p) / 60 < INR c * dt)
    (fun t => ds_tb p / 60 < t).

(** A relay that is updated once per step with the values [x], and whether it operates at update [n] *)
Fixpoint relay_after {X A} (u : X -> relay A -> relay A) (x : nat -> X) (n : nat) (r : relay A) : relay A :=
  match n with O => r | S n => fst (operate (u (x n)) (relay_after u x n r)) end.
Definition operated {X A} (u : X -> relay A -> relay A) (x : nat -> X) (n : nat) (r : relay A) : Prop :=
  snd (operate (u (x n)) (relay_after u x n r)) = true.

(** ** Buses *)
Definition total (l : list C) : C := fold_right Cplus (RtoC 0) l.
(** What the relays of a bus have taken away: the fractions of the load, and the admittances of the generators out of service *)
Definition removed (b : rbus) : C :=
  (total (map (fun x => if r_op (snd x) then RtoC 0 else rb_load b * RtoC (lv_f1 (fst x))) (rb_lv b))
   + total (map (fun g => if rg_on g then RtoC 0 else rg_y g) (rb_gens b)))%C.
(** No relay has operated yet, all generators are in service, and none has more than one relay. *)
Definition intact (b : rbus) : Prop :=
  (forall x, In x (rb_lv b) -> r_op (snd x) = true) /\
  (forall g, In g (rb_gens b) -> rg_on g = true /\ (length (rg_relays g) <= 1)%nat /\ forall x, In x (rg_relays g) -> r_op (snd x) = true).

(** ** Lines *)
(** The matrix element ([a], [b]) of an element with impedance [z] between two buses *)
Definition stamp (i j : nat) (z : C) (a b : nat) : C :=
  (if ((a =? b) && ((a =? i) || (a =? j)))%nat then 1 / z
   else if ((a =? i) && (b =? j) || (a =? j) && (b =? i))%nat then - (1 / z) else RtoC 0)%C.
(** The matrix element of all elements of lines that are in service *)
Definition in_service (ls : list rline) (a b : nat) : C :=
  total (map (fun x : rline => total (map (fun e : bool * C => if fst e then stamp (rl_1 x) (rl_2 x) (snd e) a b else RtoC 0) (rl_el x))) ls).
(** Lines: the ends are two different buses; a relay is for an element of the line that no other relay is for, and which is in service
    exactly as long as the relay has not operated. *)
Definition line_ok (n : nat) (x : rline) : Prop :=
  (rl_1 x < n)%nat /\ (rl_2 x < n)%nat /\ rl_1 x <> rl_2 x /\ NoDup (map fst (rl_rel x)) /\
  forall e p r, In (e, (p, r)) (rl_rel x) -> exists st z, nth_error (rl_el x) e = Some (st, z) /\ r_op r = st.

(** ** The frequency of a bus *)
Definition polar (m a : R) : C := (m * cos a, m * sin a).
(** The frequency of a voltage whose angle grows by [d] in the time [dt] *)
Definition true_frequency (d dt : R) : R := 60 + d / (2 * PI * dt).
(** What is left of a deviation after one step [dt] of the lag with the time constant 0.1 s, by the method of Heun *)
Definition lag (dt : R) : R := 1 - dt / (1 / 10) + (dt / (1 / 10)) ^ 2 / 2.
(** The voltage of bus [k] turns by [d] per step: the first solution of a step is at the begin of it, the second at its end. *)
Definition turning (k : nat) (t d : R) (Vs : list ((nat -> C) * (nat -> C))) : Prop :=
  forall i V, nth_error Vs i = Some V -> exists m1 m2, 0 < m1 /\ 0 < m2 /\ fst V k = polar m1 (t + INR i * d) /\ snd V k = polar m2 (t + INR (S i) * d).

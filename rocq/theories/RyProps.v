(** C60: relays of the dynamic simulation. *)
From Verif Require Import Prelude RyModel RySpec RyProofs RyProofs2 RyProofs3 RyProofs4 RyProofs5 RyProofs6 RyProofs7.
From Coq Require Import Reals Lra.
From Coquelicot Require Import Complex.
Open Scope R_scope.

(** A load shedding relay operates at one update exactly: when the voltage has been low in a row for the pick-up time, and the breaker time has passed
    since then. *)
Theorem C60_lvshbl : forall p dt v n, 0 < dt -> 0 < lv_t1 p -> operated (lv_update p dt) v n (fresh 0%nat) <-> lvshbl_at p dt v n.
Proof. exact lvshbl_eq. Qed.
Print Assumptions C60_lvshbl.

(** A frequency relay operates when the frequency has been too low, or too high, in a row for the pick-up time, and the breaker time has passed. *)
Theorem C60_frqtpat : forall p dt f n, 0 < dt -> 0 < fq_tp p -> operated (fq_update p dt) f n (fresh (0%nat, 0%nat)) <-> frqtpat_at p dt f n.
Proof. exact frqtpat_eq. Qed.
Print Assumptions C60_frqtpat.

(** A distance relay operates when the impedance seen has been in one of the first two zones in a row for the time of the zone, and the breaker time has
    passed.  Missing: an impedance that goes from zone 1 to outside of zone 2 between two updates (finding below). *)
Theorem C60_distr1_partial : forall p dt vi n, 0 < dt -> 0 <= zn_time (ds_1 p) -> 0 <= zn_time (ds_2 p) ->
  (forall i, sees (ds_1 p) vi i -> sees (ds_2 p) vi i /\ sees (ds_2 p) vi (S i)) ->
  operated (ds_update p dt) vi n (fresh (0%nat, 0%nat)) <-> distr1_at p dt vi n.
Proof. exact distr1_eq. Qed.
Print Assumptions C60_distr1_partial.

(** No relay operates twice. *)
Theorem C60_once : (forall p dt v r m n, operated (lv_update p dt) v m r -> operated (lv_update p dt) v n r -> m = n) /\
  (forall p dt f r m n, operated (fq_update p dt) f m r -> operated (fq_update p dt) f n r -> m = n) /\
  (forall p dt vi r m n, operated (ds_update p dt) vi m r -> operated (ds_update p dt) vi n r -> m = n).
Proof. split; [| split]; intros; eapply once; eauto; intros; [apply lv_op | apply fq_op | apply ds_op]. Qed.
Print Assumptions C60_once.

(** In a run, a load relay has operated at the end of step [n] exactly if its condition on the voltages of its bus was met at a step up to [n].
    Missing: a relay of an earlier bus operates during these steps (finding below). *)
Theorem C60_load_relay_partial :
  forall dt Vs s n s' k b0 b q p v, 0 < dt -> 0 < lv_t1 p -> (forall c, In c (s_bus s) -> intact c) ->
    nth_error (steps dt true Vs s) n = Some s' -> nth_error (s_bus s) k = Some b0 -> nth_error (s_bus s') k = Some b -> nth_error (rb_lv b0) q = Some (p, fresh 0%nat) ->
    (forall i si j c, (i <= n)%nat -> nth_error (steps dt true Vs s) i = Some si -> (j < k)%nat -> nth_error (s_bus si) j = Some c -> rb_trip c = false) ->
    (forall i V, (i <= n)%nat -> nth_error Vs i = Some V -> v i = fst V k) ->
    exists r, nth_error (rb_lv b) q = Some (p, r) /\ (r_op r = false <-> exists m, (m <= n)%nat /\ lvshbl_at p dt v m).
Proof.
  intros dt Vs s n s' k b0 b q p v D T In0 En E0 Eb Eq N Hv.
  destruct (@run_seen dt k Vs true s n s' b0 b v (fun i => match nth_error (steps dt true Vs s) i with Some si => match nth_error (s_bus si) k with Some c => rb_f c | None => 0 end | None => 0 end) En E0 Eb) as [L _]; auto.
  { intros c I. now apply intact_ok, In0. } { intros i si c _ E1 E2. now rewrite E1, E2. }
  rewrite L, nth_error_map, Eq. cbn [option_map fst snd]. eexists. split; [reflexivity |]. rewrite relay_after_op; [| intros; apply lv_op | reflexivity].
  split; intros (m & Lm & O); exists m; (split; [lia |]); now apply (@lvshbl_eq p dt v m D T).
Qed.
Print Assumptions C60_load_relay_partial.

(** In a run, a generator with a relay is out of service at the end of step [n] exactly if the condition on the frequency of its bus was met at a step up
    to [n].  Missing: as above, and more than one relay for a generator (finding below). *)
Theorem C60_generator_relay_partial :
  forall dt Vs s n s' k b0 b e g0 p f, 0 < dt -> 0 < fq_tp p -> (forall c, In c (s_bus s) -> intact c) ->
    nth_error (steps dt true Vs s) n = Some s' -> nth_error (s_bus s) k = Some b0 -> nth_error (s_bus s') k = Some b ->
    nth_error (rb_gens b0) e = Some g0 -> rg_stat g0 = true -> rg_relays g0 = [(p, fresh (0%nat, 0%nat))] ->
    (forall i si j c, (i <= n)%nat -> nth_error (steps dt true Vs s) i = Some si -> (j < k)%nat -> nth_error (s_bus si) j = Some c -> rb_trip c = false) ->
    (forall i si c, (i <= n)%nat -> nth_error (steps dt true Vs s) i = Some si -> nth_error (s_bus si) k = Some c -> f i = rb_f c) ->
    exists g, nth_error (rb_gens b) e = Some g /\ (rg_on g = false <-> exists m, (m <= n)%nat /\ frqtpat_at p dt f m).
Proof.
  intros dt Vs s n s' k b0 b e g0 p f D T In0 En E0 Eb Eg St Er N Hf. assert (Ok : all_ok s) by (intros c I; now apply intact_ok, In0).
  destruct (@run_seen dt k Vs true s n s' b0 b (fun i => match nth_error Vs i with Some V => fst V k | None => RtoC 0 end) f En E0 Eb Ok N) as [_ G]; [intros i V _ E; now rewrite E | exact Hf |].
  destruct (G e g0 Eg St) as (g & G1 & G2 & G3). exists g. split; [exact G1 |]. rewrite Er in G3. cbn [map fst snd] in G3.
  assert (Gok := @run_all_ok dt Vs true s Ok s' (nth_error_In _ _ En) b (nth_error_In _ _ Eb) g (nth_error_In _ _ G1)). destruct Gok as [_ Gok]. rewrite G3 in Gok. specialize (Gok _ (or_introl eq_refl)). cbn [snd] in Gok. rewrite <- Gok.
  rewrite relay_after_op; [| intros; apply fq_op | reflexivity]. split; intros (m & Lm & O); exists m; (split; [lia |]); now apply (@frqtpat_eq p dt f m D T).
Qed.
Print Assumptions C60_generator_relay_partial.

(** In a run without relays of lines, the matrix of the network is the one of the start, less on the diagonal the load fractions of the relays that have
    operated and the admittances of the generators they took out.  Missing: relays of lines and switching events in the same run (findings below). *)
Theorem C60_network_partial :
  forall dt Vs s, (forall x, In x (s_line s) -> rl_rel x = []) -> (forall k b, nth_error (s_bus s) k = Some b -> intact b /\ s_mat s k k = rb_y b) ->
    forall s', In s' (steps dt true Vs s) -> length (s_bus s') = length (s_bus s) /\
      (forall k b, nth_error (s_bus s') k = Some b -> s_mat s' k k = s_mat s k k - removed b)%C /\
      (forall i j, i <> j \/ (length (s_bus s) <= i)%nat -> s_mat s' i j = s_mat s i j) /\
      (forall b g x, In b (s_bus s') -> In g (rb_gens b) -> In x (rg_relays g) -> rg_on g = r_op (snd x)).
Proof.
  intros dt Vs s A B s' I. destruct (@steps_hold dt s Vs true s (@start_holds s A B) s' I) as (H1 & _ & H3 & H4 & H5). split; [exact H1 |]. split; [| split].
  - intros k b E. destruct (H3 k b E) as (b0 & E0 & [_ S2] & M). destruct (B k b0 E0) as [_ M0]. rewrite M, M0, <- S2. ring.
  - intros i j [N | L]; [now apply H5 |]. destruct (Nat.eq_dec i j) as [<- | N]; [| now apply H5]. apply H4, nth_error_None. lia.
  - intros b g x Ib Ig Ix. apply In_nth_error in Ib. destruct Ib as [k E]. destruct (H3 k b E) as (b0 & _ & [S1 _] & _). symmetry. now apply (S1 g Ig).
Qed.
Print Assumptions C60_network_partial.

(** In a run, an element of a line with a relay is out of service at the end of step [n] exactly if the condition on the voltage at the first end and the
    current through the element was met at a step up to [n].  Missing: a relay of an earlier line operates during these steps; relays of buses operate;
    relays of lines operate in two steps one after the other (findings below). *)
Theorem C60_line_relay_partial :
  forall dt Vs s n s' k x0 q e p z vi, 0 < dt -> 0 <= zn_time (ds_1 p) -> 0 <= zn_time (ds_2 p) ->
    (forall x, In x (s_line s) -> line_ok (length (s_bus s)) x /\ rl_trip x = false) -> (forall b, In b (s_bus s) -> rb_brflag b = false) ->
    nth_error (steps dt true Vs s) n = Some s' -> nth_error (s_line s) k = Some x0 -> nth_error (rl_rel x0) q = Some (e, (p, fresh (0%nat, 0%nat))) -> nth_error (rl_el x0) e = Some (true, z) ->
    (forall i si j c, (i <= n)%nat -> nth_error (steps dt true Vs s) i = Some si -> (j < k)%nat -> nth_error (s_line si) j = Some c -> rl_trip c = false) ->
    (forall si b, In si (steps dt true Vs s) -> In b (s_bus si) -> rb_trip b = false) ->
    (forall i s1 s2 x1 x2, nth_error (steps dt true Vs s) i = Some s1 -> nth_error (steps dt true Vs s) (S i) = Some s2 ->
       In x1 (s_line s1) -> rl_trip x1 = true -> In x2 (s_line s2) -> rl_trip x2 = false) ->
    (forall i V, (i <= n)%nat -> nth_error Vs i = Some V -> vi i = (fst V (rl_1 x0), (fst V (rl_1 x0) - fst V (rl_2 x0)) / z)%C) ->
    (forall i, sees (ds_1 p) vi i -> sees (ds_2 p) vi i /\ sees (ds_2 p) vi (S i)) ->
    exists x st, nth_error (s_line s') k = Some x /\ nth_error (rl_el x) e = Some (st, z) /\ (st = false <-> exists m, (m <= n)%nat /\ distr1_at p dt vi m).
Proof.
  intros dt Vs s n s' k x0 q e p z vi D T1 T2 Ok Mk En Ek Eq Ez N Calm NT Hv Hz.
  assert (Inv : line_inv s). { split; [intros x I; now apply Ok |]. assert (F : forall j, flag_at (s_bus s) j = false) by (intros j; unfold flag_at; destruct (nth_error (s_bus s) j) eqn:E; [apply Mk; eapply nth_error_In; eauto | reflexivity]). split; [intros j; rewrite F; discriminate |]. right. split; [intros x I; now apply Ok | exact F]. }
  destruct (Ok x0 (nth_error_In _ _ Ek)) as [(B1 & B2 & _) _].
  destruct (@run_line_seen dt k Vs true s n s' x0 q e p (fresh (0%nat, 0%nat)) z vi En Ek B1 B2 N Eq) as (x & X1 & X2 & X3); [rewrite nth_error_map, Ez; reflexivity | exact Hv |].
  assert (LO : lines_ok s').
  { apply (@line_run dt Vs true s Inv) with (s' := s'); [intros s1 I b; now apply Calm | | | eapply nth_error_In; eauto].
    - intros s1 _ [(y & Iy & Ty) _]. destruct (Ok y Iy) as [_ F]. congruence.
    - intros i s1 s2 E1 E2 [(y1 & I1 & F1) (y2 & I2 & F2)]. rewrite (NT i s1 s2 y1 y2 E1 E2 I1 F1 I2) in F2. discriminate. }
  destruct (LO x (nth_error_In _ _ X1)) as (_ & _ & _ & _ & R). destruct (R e p _ (nth_error_In _ _ X2)) as (st & z' & Es & Op). exists x, st. split; [exact X1 |].
  assert (z' = z). { assert (A : nth_error (map snd (rl_el x)) e = Some z') by (rewrite nth_error_map, Es; reflexivity). rewrite X3, nth_error_map, Ez in A. cbn in A. congruence. } subst z'. split; [exact Es |]. rewrite <- Op.
  rewrite relay_after_op; [| intros; apply ds_op | reflexivity]. split; intros (m & Lm & O); exists m; (split; [lia |]); now apply (@distr1_eq p dt vi m D T1 T2 Hz).
Qed.
Print Assumptions C60_line_relay_partial.

(** In such a run the matrix of the network follows the elements of lines that are in service: the rest of it does not change. *)
Theorem C60_line_matrix_partial :
  forall dt Vs s, (forall x, In x (s_line s) -> line_ok (length (s_bus s)) x /\ rl_trip x = false) -> (forall b, In b (s_bus s) -> rb_brflag b = false) ->
    (forall si b, In si (steps dt true Vs s) -> In b (s_bus si) -> rb_trip b = false) ->
    (forall i s1 s2 x1 x2, nth_error (steps dt true Vs s) i = Some s1 -> nth_error (steps dt true Vs s) (S i) = Some s2 ->
       In x1 (s_line s1) -> rl_trip x1 = true -> In x2 (s_line s2) -> rl_trip x2 = false) ->
    forall s' i j, In s' (steps dt true Vs s) -> (s_mat s' i j - in_service (s_line s') i j = s_mat s i j - in_service (s_line s) i j)%C.
Proof.
  intros dt Vs s Ok Mk Calm NT s' i j I.
  assert (Inv : line_inv s). { split; [intros x Ix; now apply Ok |]. assert (F : forall j, flag_at (s_bus s) j = false) by (intros k; unfold flag_at; destruct (nth_error (s_bus s) k) eqn:E; [apply Mk; eapply nth_error_In; eauto | reflexivity]). split; [intros k; rewrite F; discriminate |]. right. split; [intros x Ix; now apply Ok | exact F]. }
  apply (@line_run dt Vs true s Inv) with (s' := s'); [intros s1 Is b; now apply Calm | | | exact I].
  - intros s1 _ [(y & Iy & Ty) _]. destruct (Ok y Iy) as [_ F]. congruence.
  - intros k s1 s2 E1 E2 [(y1 & I1 & F1) (y2 & I2 & F2)]. rewrite (NT k s1 s2 y1 y2 E1 E2 I1 F1 I2) in F2. discriminate.
Qed.
Print Assumptions C60_line_matrix_partial.

(** One computation of the frequency of a bus: what is left of the deviation from the frequency of the voltage is that of a lag with the time constant
    0.1 s, if the angle changes by less than ten degrees, wherever it is. *)
Theorem C60_frequency : forall dt fold m0 t0 m t, 0 < dt -> 0 < m0 -> 0 < m -> Rabs (t - t0) < PI / 18 ->
  frequency dt fold (polar m0 t0) (polar m t) = true_frequency (t - t0) dt + lag dt * (fold - true_frequency (t - t0) dt).
Proof. exact frequency_eq. Qed.
Print Assumptions C60_frequency.

(** In a run in which the voltage of a bus turns evenly, the frequency that its relays see tends to that of the voltage; it is computed three times per
    step.  Missing: relays of earlier buses operate, buses without generators. *)
Theorem C60_frequency_run_partial :
  forall dt k d Vs s b0 t n s' b, 0 < dt -> Rabs d < PI / 18 -> (forall c, In c (s_bus s) -> intact c) -> nth_error (s_bus s) k = Some b0 -> rb_cf b0 = true -> rb_gens b0 <> [] -> rb_f b0 = 60 -> turning k t d Vs ->
    (forall i si j c, (i <= n)%nat -> nth_error (steps dt true Vs s) i = Some si -> (j < k)%nat -> nth_error (s_bus si) j = Some c -> rb_trip c = false) ->
    nth_error (steps dt true Vs s) n = Some s' -> nth_error (s_bus s') k = Some b ->
    rb_f b = true_frequency d dt + lag dt ^ (3 * n) * (60 - true_frequency d dt).
Proof. intros dt k d Vs s b0 t n s' b D A I. apply run_freq_start; auto. intros c Ic. now apply intact_ok, I. Qed.
Print Assumptions C60_frequency_run_partial.

(** ** Non-vacuity *)
(** A voltage that is low from the second update on, a pick-up time of two and a breaker time of two steps: the relay operates at the fourth. *)
Example C60_lvshbl_nonvacuous : lvshbl_at (Lvshbl (1 / 2) 2 (1 / 5) 0 0 0 0 0 0 2) 1 (fun i => if (i =? 0)%nat then RtoC 1 else RtoC 0) 3.
Proof.
  assert (I : forall k : nat, forall c, 2 <= INR c * 1 -> (2 <= c)%nat). { intros _ c H. apply INR_le. rewrite Rmult_1_r in H. cbn [INR]. lra. }
  exists 2%nat. split; split.
  - exists 2%nat. split; [| cbn; lra]. split; [lia |]. intros i A B. unfold low_voltage. cbn [lv_v1]. destruct (Nat.eqb_spec i 0); [lia |]. rewrite Cmod_0. lra.
  - intros m L (c & ((C1 & C2) & C3) & T). cbn [lv_t1] in T. apply (I 0%nat) in T. specialize (C3 0%nat ltac:(lia) ltac:(lia)). unfold low_voltage in C3. cbn [Nat.eqb lv_v1] in C3. rewrite Cmod_1 in C3. lra.
  - split; [lia |]. cbn. lra.
  - intros m L (A & B). cbn [lv_tb] in B. apply (I 0%nat) in B. lia.
Qed.
Example C60_frqtpat_nonvacuous : frqtpat_at fq1 1 (fun _ => 60) 0.
Proof.
  exists 0%nat. split; split; try (intros m L; lia).
  - exists 1%nat. split; [right; split; [lia |]; intros; cbn; lra | cbn; lra].
  - split; [lia |]. cbn. lra.
Qed.
Lemma ds1_sees vi i : vi i = (RtoC 1, RtoC 1) -> sees (Zone 0 4 0 0) vi i.
Proof.
  intros E. unfold sees. rewrite E. cbn [fst snd]. split; [intros Q; injection Q; lra |]. unfold middle. cbn [zn_dis zn_ang zn_reach]. rewrite !Rmult_0_l. change (0, 0) with (RtoC 0).
  replace (RtoC 1 / RtoC 1 - RtoC 0)%C with (RtoC 1) by (field; intros Q; injection Q; lra). rewrite Cmod_1. lra.
Qed.
Example C60_distr1_nonvacuous : distr1_at ds1 1 (fun _ => (RtoC 1, RtoC 1)) 0 /\
  forall i, sees (ds_1 ds1) (fun _ => (RtoC 1, RtoC 1)) i -> sees (ds_2 ds1) (fun _ => (RtoC 1, RtoC 1)) i /\ sees (ds_2 ds1) (fun _ => (RtoC 1, RtoC 1)) (S i).
Proof.
  split; [| intros i _; split; now apply ds1_sees].
  exists 0%nat. split; split; try (intros m L; lia).
  - exists 1%nat. left. split; [split; [lia |]; intros; now apply ds1_sees | cbn; lra].
  - split; [lia |]. cbn. lra.
Qed.

Ltac run := cbv -[operate lv_update fq_update ds_update fresh lv1 ds1 fq1 IZR INR Rdiv Rminus Cminus Cmult Cplus Copp Cdiv RtoC frequency factor lvshbl_at].
Lemma lv1_at f : lvshbl_at (lv1 f) 1 (fun _ => RtoC 0) 0.
Proof.
  exists 0%nat. split; split; try (intros m L; lia).
  - exists 1%nat. split; [split; [lia |]; intros; unfold low_voltage; rewrite Cmod_0; cbn; lra | cbn; lra].
  - split; [lia |]. cbn. lra.
Qed.
(** One bus with a load relay: after a step with low voltage a fifth of the load is gone. *)
Definition s_one : rsys := Rsys [lv_bus (1 / 5)] [] five.
Definition s_one1 : rsys := relay_step 1 true at_zero s_one.
Lemma s_one_start : (forall x, In x (s_line s_one) -> rl_rel x = []) /\ (forall k b, nth_error (s_bus s_one) k = Some b -> intact b /\ s_mat s_one k k = rb_y b).
Proof.
  split; [intros x [] |]. intros [| [| k]] b E; [| discriminate | discriminate]. injection E as <-. split; [| reflexivity]. split; [intros x [<- | []]; reflexivity | intros g []].
Qed.
Example C60_network_nonvacuous : In s_one1 (steps 1 true [(at_zero, at_zero)] s_one) /\ exists b, nth_error (s_bus s_one1) 0 = Some b /\ removed b = (RtoC 1 * RtoC (1 / 5))%C /\ s_mat s_one1 0%nat 0%nat = (RtoC 5 - removed b)%C.
Proof.
  split; [now left |]. assert (E : exists b, nth_error (s_bus s_one1) 0 = Some b /\ removed b = (RtoC 1 * RtoC (1 / 5))%C).
  { unfold s_one1. run. rewrite lv1_trips. eexists. split; [reflexivity |]. unfold removed, total. cbn -[Cplus Cmult RtoC Rdiv]. change (lv_f1 (lv1 (1 / 5))) with (1 / 5). match goal with |- ?a = ?b => change (@eq C a b) end. ring. }
  destruct E as (b & E1 & E2). exists b. split; [exact E1 |]. split; [exact E2 |]. destruct (@C60_network_partial 1 [(at_zero, at_zero)] s_one (proj1 s_one_start) (proj2 s_one_start) s_one1 (or_introl eq_refl)) as (_ & H & _). now rewrite (H 0%nat b E1).
Qed.
(** A bus with a generator and a bus with a load: the load relay sees the voltage of its bus, and the generator relay the frequency. *)
Example C60_load_relay_nonvacuous : exists s' b r, nth_error (steps 1 true [(at_zero, at_zero)] s_one) 0 = Some s' /\ nth_error (s_bus s') 0 = Some b /\ nth_error (rb_lv b) 0 = Some (lv1 (1 / 5), r) /\ r_op r = false.
Proof. exists s_one1. unfold s_one1. run. rewrite lv1_trips. eexists. eexists. split; [reflexivity |]. split; [reflexivity |]. split; reflexivity. Qed.
Definition s_gen (l : list frqtpat) : rsys := Rsys [gen_bus l] [] five.
Example C60_generator_relay_nonvacuous : intact (gen_bus [fq1]) /\ exists s' b g, nth_error (steps 1 true [(at_one, at_one)] (s_gen [fq1])) 0 = Some s' /\ nth_error (s_bus s') 0 = Some b /\ rb_f b = 60 /\ nth_error (rb_gens b) 0 = Some g /\ rg_on g = false.
Proof.
  split; [split; [intros x [] |]; intros g [<- | []]; split; [reflexivity |]; split; [cbn; lia |]; intros x [<- | []]; reflexivity |].
  exists (relay_step 1 true at_one (s_gen [fq1])). run. rewrite !frequency_still by lra. rewrite fq1_trips. eexists. eexists. split; [reflexivity |]. split; [reflexivity |]. split; [reflexivity |]. split; reflexivity.
Qed.
(** A line between two buses: its relay operates at the first step, and the line leaves the matrix. *)
Definition one_zero (k : nat) : C := if (k =? 0)%nat then RtoC 1 else RtoC 0.
Definition s_line1 : rsys := Rsys [bare_bus; bare_bus] [ds_line 0 1] five.
Lemma ds_line_ok n i j : (i < n)%nat -> (j < n)%nat -> i <> j -> line_ok n (ds_line i j).
Proof.
  intros A B D. split; [exact A |]. split; [exact B |]. split; [exact D |]. split; [constructor; [intros [] | constructor] |]. intros e p r [E | []]. injection E as <- <- <-. exists true, (RtoC 1). split; reflexivity.
Qed.
Lemma one_over : ((RtoC 1 - RtoC 0) / RtoC 1 = RtoC 1)%C.
Proof. field. intros Q. injection Q. lra. Qed.
Lemma lu k i j st r ns tr bs r' t : operate (ds_update ds1 1 (volt bs i, (volt bs i - volt bs j) / RtoC 1)%C) r = (r', t) ->
  line_update 1 k (Rline i j [(st, RtoC 1)] [(0%nat, (ds1, r))] ns tr) bs =
  (Rline i j [(if t then false else st, RtoC 1)] [(0%nat, (ds1, r'))] (if t then [0%nat] else []) t,
   upd_at j (set_br t (if t then Some k else None)) (upd_at i (set_br t (if t then Some k else None)) bs), t).
Proof. intros E. unfold line_update. cbn [line_relays rl_1 rl_2 rl_rel rl_el]. unfold current. cbn [nth_error rl_el rl_1 rl_2]. rewrite E. destruct t; reflexivity. Qed.
Definition busv (v : C) (f : bool) (br : option nat) : rbus := Rbus v v 60 60 false (RtoC 0) (RtoC 5) [] [] false f br.
Lemma trips_now i j k st ns tr bs : volt bs i = RtoC 1 -> volt bs j = RtoC 0 ->
  line_update 1 k (Rline i j [(st, RtoC 1)] [(0%nat, (ds1, fresh (0%nat, 0%nat)))] ns tr) bs =
  (Rline i j [(false, RtoC 1)] [(0%nat, (ds1, Relay (0%nat, 0%nat) 0 false true false false))] [0%nat] true, upd_at j (set_br true (Some k)) (upd_at i (set_br true (Some k)) bs), true).
Proof. intros A B. apply (@lu k i j st (fresh (0%nat, 0%nat)) ns tr bs _ true). rewrite A, B, one_over. apply ds1_trips. Qed.
Lemma same_volts v : ((v - v) / RtoC 1 = RtoC 0)%C.
Proof. field. intros Q. injection Q. lra. Qed.
Lemma stays_now i j k st ns tr bs : volt bs i = volt bs j ->
  line_update 1 k (Rline i j [(st, RtoC 1)] [(0%nat, (ds1, fresh (0%nat, 0%nat)))] ns tr) bs =
  (Rline i j [(st, RtoC 1)] [(0%nat, (ds1, fresh (0%nat, 0%nat)))] [] false, upd_at j (set_br false None) (upd_at i (set_br false None) bs), false).
Proof. intros A. apply (@lu k i j st (fresh (0%nat, 0%nat)) ns tr bs _ false). rewrite A, same_volts. apply ds1_stays. Qed.
Lemma stays_after i j k st ns tr bs p : volt bs i = volt bs j ->
  line_update 1 k (Rline i j [(st, RtoC 1)] [(0%nat, (ds1, Relay (0%nat, 0%nat) 0 false true p false))] ns tr) bs =
  (Rline i j [(st, RtoC 1)] [(0%nat, (ds1, Relay (0%nat, 0%nat) 0 false true true false))] [] false, upd_at j (set_br false None) (upd_at i (set_br false None) bs), false).
Proof. intros A. apply (@lu k i j st (Relay (0%nat, 0%nat) 0 false true p false) ns tr bs _ false). rewrite A, same_volts. apply ds1_after. Qed.
Definition tripped_line (i j : nat) : rline := Rline i j [(false, RtoC 1)] [(0%nat, (ds1, Relay (0%nat, 0%nat) 0 false true false false))] [0%nat] true.
Lemma tripped_factor i j : factor (tripped_line i j) = RtoC (-1).
Proof. unfold factor, tripped_line. cbn -[Cplus Copp Cdiv RtoC IZR]. rewrite <- !RtoC_opp, <- RtoC_div by lra. rewrite <- RtoC_plus. f_equal. lra. Qed.
Ltac steps1 := cbn -[line_update operate lv_update fresh lv1 ds1 IZR INR Rdiv Rminus Cminus Cmult Cplus Copp Cdiv RtoC factor five add_at set_at].
Definition line1_after : rsys := Rsys [busv (RtoC 1) true (Some 0%nat); busv (RtoC 0) true (Some 0%nat)] [tripped_line 0 1]
  (inc_off [tripped_line 0 1] (inc_diag 0 [busv (RtoC 1) true (Some 0%nat); busv (RtoC 0) true (Some 0%nat)] [tripped_line 0 1] five)).
Lemma step_line1 : relay_step 1 true one_zero s_line1 = line1_after.
Proof. unfold relay_step, s_line1. cbn [s_bus s_line s_mat]. steps1. unfold ds_line. rewrite trips_now by reflexivity. reflexivity. Qed.
Example C60_line_nonvacuous : line_ok 2 (ds_line 0 1) /\ exists s', steps 1 true [(one_zero, one_zero)] s_line1 = [s'] /\ (forall b, In b (s_bus s') -> rb_trip b = false) /\
  (forall x, In x (s_line s') -> rl_trip x = true /\ rl_el x = [(false, RtoC 1)]) /\ s_mat s' 0%nat 0%nat = RtoC 4 /\ s_mat s' 0%nat 1%nat = RtoC 1.
Proof.
  split; [apply ds_line_ok; lia |]. exists line1_after. split; [cbn [steps]; now rewrite step_line1 |]. split; [intros b [<- | [<- | []]]; reflexivity |]. split; [intros x [<- | []]; split; reflexivity |].
  unfold line1_after. cbn [s_mat]. rewrite !inc_off_at, !inc_diag_at. unfold offval, markval. cbn -[factor Cplus Copp RtoC five IZR]. fold (tripped_line 0 1). rewrite !tripped_factor. unfold five, total. cbn -[Cplus Copp RtoC IZR]. rewrite <- !RtoC_opp, <- !RtoC_plus. split; f_equal; lra.
Qed.

(** ** Findings *)
(** With a pick-up time of zero the relay operates although the voltage was never low: the test that the time has passed does not ask whether the relay
    has picked up. *)
Theorem C60_zero_pick_up_refuted : exists p, (forall i, ~ low_voltage p (fun _ => RtoC 1) i) /\ operated (lv_update p 1) (fun _ => RtoC 1) 0 (fresh 0%nat).
Proof.
  exists (Lvshbl (1 / 2) 0 1 0 0 0 0 0 0 0). split; [intros i; unfold low_voltage; rewrite Cmod_1; cbn; lra |]. unfold operated, relay_after, operate, lv_update, fresh. cbn [r_flag r_count r_brk r_trip r_op lv_v1 lv_t1 lv_tb].
  rewrite Cmod_1, (@below_false 1 (1 / 2)), (@atmost_true 0 (INR 0 * 1)), (@atmost_true 0 (INR 1 * 1)) by (cbn; lra). reflexivity.
Qed.
Print Assumptions C60_zero_pick_up_refuted.

(** The second and third stage of a load relay (voltage, time and fraction) and zone 3 of a distance relay have no effect on anything. *)
Theorem C60_unused_settings_refuted :
  (forall v1 t1 f1 tb v2 t2 f2 v3 t3 f3 v2' t2' f2' v3' t3' f3' dt v ld r l y, 
     let p := Lvshbl v1 t1 f1 v2 t2 f2 v3 t3 f3 tb in let p' := Lvshbl v1 t1 f1 v2' t2' f2' v3' t3' f3' tb in
     lv_update p dt v r = lv_update p' dt v r /\ snd (fst (load_relays dt v ld ((p, r) :: l) y)) = snd (fst (load_relays dt v ld ((p', r) :: l) y))) /\
  (forall z1 z2 z3 z3' tb dt vi r, ds_update (Distr1 z1 z2 z3 tb) dt vi r = ds_update (Distr1 z1 z2 z3' tb) dt vi r).
Proof.
  split; [| reflexivity]. intros. split; [reflexivity |]. cbn [load_relays]. change (lv_update p' dt v) with (lv_update p dt v). destruct (operate (lv_update p dt v) r) as [r' t]. change (lv_f1 p') with (lv_f1 p). destruct (load_relays _ _ _ _ _) as [[l' y'] t']. reflexivity.
Qed.
Print Assumptions C60_unused_settings_refuted.

(** The counter of zone 1 is not reset when the impedance leaves zone 2: the relay operates although the impedance was never in a zone for two updates in
    a row, as its time demands. *)
Theorem C60_zone_one_not_reset_refuted : exists p vi, (forall c q, ~ (in_a_row (sees (ds_1 p) vi) c q /\ zn_time (ds_1 p) / 60 < INR c * 1 \/ in_a_row (sees (ds_2 p) vi) c q /\ zn_time (ds_2 p) / 60 < INR c * 1)) /\
  operated (ds_update p 1) vi 2 (fresh (0%nat, 0%nat)).
Proof.
  set (z := Zone 60 4 0 0). exists (Distr1 z z z 0), (fun i => (RtoC 1, if (i =? 1)%nat then RtoC 0 else if (3 <=? i)%nat then RtoC 0 else RtoC 1)). split.
  - assert (G : forall c q, in_a_row (sees z (fun i => (RtoC 1, if (i =? 1)%nat then RtoC 0 else if (3 <=? i)%nat then RtoC 0 else RtoC 1))) c q -> zn_time z / 60 < INR c * 1 -> False); [| intros c q [[A B] | [A B]]; exact (G c q A B)].
    intros c q ((C1 & C2) & C3) T. cbn [zn_time z] in T. assert (L : (1 < c)%nat) by (apply INR_lt; cbn [INR]; lra). assert (Q := C3 q ltac:(lia) ltac:(lia)). assert (Q1 := C3 (q - 1)%nat ltac:(lia) ltac:(lia)). destruct Q as [Q _], Q1 as [Q1 _]. cbn [snd] in Q, Q1.
    destruct (Nat.eqb_spec q 1); [tauto |]. destruct (Nat.leb_spec 3 q); [tauto |]. destruct (Nat.eqb_spec (q - 1) 1); [tauto |]. lia.
  - unfold operated. cbn [relay_after Nat.eqb Nat.leb]. assert (Z1 : in_zone z (RtoC 1) (RtoC 1) = true).
    { unfold in_zone. destruct (Ceq_dec (RtoC 1) (RtoC 0)) as [E | _]; [exfalso; injection E; lra |]. unfold z. rewrite centre0. cbn [zn_reach]. apply below_true. replace (RtoC 1 / RtoC 1 - RtoC 0)%C with (RtoC 1) by (field; intros E; injection E; lra). rewrite Cmod_1. lra. }
    assert (B1 : below (zn_time z / 60) (INR 1 * 1) = false) by (apply below_false; cbn; lra). assert (B0 : below (zn_time z / 60) (INR 0 * 1) = false) by (apply below_false; cbn; lra). assert (B2 : below (zn_time z / 60) (INR 2 * 1) = true) by (apply below_true; cbn; lra).
    assert (BT : below (0 / 60) (INR 1 * 1) = true) by (apply below_true; cbn; lra).
    assert (U1 : ds_update (Distr1 z z z 0) 1 (RtoC 1, RtoC 1) (fresh (0%nat, 0%nat)) = Relay (1%nat, 1%nat) 0 false false false true). { unfold ds_update, fresh. cbn [r_flag r_count r_brk r_trip r_op ds_1 ds_2 ds_tb fst snd]. rewrite Z1. cbn [fst snd]. rewrite B1. reflexivity. }
    assert (U2 : ds_update (Distr1 z z z 0) 1 (RtoC 1, RtoC 0) (Relay (1%nat, 1%nat) 0 false false false true) = Relay (1%nat, 0%nat) 0 false false false true). { unfold ds_update. cbn [r_flag r_count r_brk r_trip r_op ds_1 ds_2 ds_tb fst snd]. rewrite zone_none. cbn [fst snd]. rewrite B1, B0. reflexivity. }
    assert (U3 : ds_update (Distr1 z z z 0) 1 (RtoC 1, RtoC 1) (Relay (1%nat, 0%nat) 0 false false false true) = Relay (0%nat, 0%nat) 0 false true false true). { unfold ds_update. cbn [r_flag r_count r_brk r_trip r_op ds_1 ds_2 ds_tb fst snd]. rewrite Z1. cbn [fst snd]. rewrite B2, BT. reflexivity. }
    unfold operate at 3. rewrite U1. cbn [r_trip r_prev r_op negb andb fst]. unfold operate at 2. rewrite U2. cbn [r_trip r_prev r_op negb andb fst]. unfold operate. rewrite U3. reflexivity.
Qed.
Print Assumptions C60_zone_one_not_reset_refuted.

(** Two buses with the same relay and the same low voltage: the relay of the first bus operates, and that of the second is not updated in this step
    ([bflag = bflag || updateRelay(...)]), so that it loses the step, although its condition is met. *)
Theorem C60_missed_update_refuted : exists s s' b r, (forall c, In c (s_bus s) -> intact c) /\ steps 1 true [(at_zero, at_zero)] s = [s'] /\
  nth_error (s_bus s') 1 = Some b /\ rb_lv b = [(lv1 (1 / 5), r)] /\ lvshbl_at (lv1 (1 / 5)) 1 (fun _ => RtoC 0) 0 /\ r_op r = true /\ r = fresh 0%nat.
Proof.
  exists (Rsys [lv_bus (1 / 5); lv_bus (1 / 5)] [] five), (relay_step 1 true at_zero (Rsys [lv_bus (1 / 5); lv_bus (1 / 5)] [] five)).
  assert (E : exists b, nth_error (s_bus (relay_step 1 true at_zero (Rsys [lv_bus (1 / 5); lv_bus (1 / 5)] [] five))) 1 = Some b /\ rb_lv b = [(lv1 (1 / 5), fresh 0%nat)]). { run. rewrite lv1_trips. eexists. split; [reflexivity |]. reflexivity. }
  destruct E as (b & E1 & E2). exists b, (fresh 0%nat). split; [intros c [<- | [<- | []]]; (split; [intros x [<- | []]; reflexivity | intros g []]) |]. split; [reflexivity |]. split; [exact E1 |]. split; [exact E2 |]. split; [apply lv1_at |]. split; reflexivity.
Qed.
Print Assumptions C60_missed_update_refuted.

(** Two relays for one generator, for example for a low and a high frequency, that operate in the same step (or one after the other) take the admittance
    of the generator out of the matrix twice. *)
Theorem C60_two_relays_refuted : exists s s', steps 1 true [(at_one, at_one)] s = [s'] /\
  (exists g, rg_y g = RtoC 1 /\ rg_on g = true /\ map rb_gens (s_bus s) = [[g]]) /\ s_mat s 0%nat 0%nat = RtoC 5 /\ s_mat s' 0%nat 0%nat = RtoC 3.
Proof.
  exists (s_gen [fq1; fq1]), (relay_step 1 true at_one (s_gen [fq1; fq1])). split; [reflexivity |]. split; [eexists; split; [| split; [| reflexivity]]; reflexivity |]. split; [reflexivity |].
  run. rewrite !frequency_still by lra. rewrite fq1_trips. rewrite <- !RtoC_minus. f_equal. lra.
Qed.
Print Assumptions C60_two_relays_refuted.

Definition s_lines : rsys := Rsys [bare_bus; bare_bus; bare_bus; bare_bus] [ds_line 0 1; ds_line 2 3] five.
Definition V_a (k : nat) : C := if (k =? 3)%nat then RtoC 0 else RtoC 1.
Definition V_b (k : nat) : C := if (k =? 1)%nat then RtoC 0 else RtoC 1.
Definition lines_after1 : rsys := Rsys [busv (RtoC 1) false None; busv (RtoC 1) false None; busv (RtoC 1) true (Some 1%nat); busv (RtoC 0) true (Some 1%nat)] [ds_line 0 1; tripped_line 2 3]
  (inc_off [ds_line 0 1; tripped_line 2 3] (inc_diag 0 [busv (RtoC 1) false None; busv (RtoC 1) false None; busv (RtoC 1) true (Some 1%nat); busv (RtoC 0) true (Some 1%nat)] [ds_line 0 1; tripped_line 2 3] five)).
Lemma step_lines1 : relay_step 1 true V_a s_lines = lines_after1.
Proof. unfold relay_step, s_lines. cbn [s_bus s_line s_mat]. steps1. unfold ds_line. rewrite stays_now by reflexivity. steps1. rewrite trips_now by reflexivity. reflexivity. Qed.
Definition lines_after2 : rsys := Rsys [busv (RtoC 1) true (Some 0%nat); busv (RtoC 0) true (Some 0%nat); busv (RtoC 1) true (Some 1%nat); busv (RtoC 1) true (Some 1%nat)] [tripped_line 0 1; tripped_line 2 3]
  (inc_off [tripped_line 0 1; tripped_line 2 3] (inc_diag 0 [busv (RtoC 1) true (Some 0%nat); busv (RtoC 0) true (Some 0%nat); busv (RtoC 1) true (Some 1%nat); busv (RtoC 1) true (Some 1%nat)] [tripped_line 0 1; tripped_line 2 3] (s_mat lines_after1))).
Lemma step_lines2 : relay_step 1 false V_b (second_solution 1 V_a lines_after1) = lines_after2.
Proof. unfold relay_step, second_solution. unfold lines_after1 at 1 2. cbn [s_bus s_line s_mat]. steps1. unfold ds_line. rewrite trips_now by reflexivity. steps1. reflexivity. Qed.
(** A relay of line 1 operates in one step and a relay of line 0 in the next.  In the second step line 1 is not updated, its marks stay, and its
    admittance is taken out of the matrix again. *)
Theorem C60_stale_marks_refuted : exists s1 s2, steps 1 true [(V_a, V_a); (V_b, V_b)] s_lines = [s1; s2] /\
  in_service (s_line s_lines) 2 2 = RtoC 1 /\ in_service (s_line s2) 2 2 = RtoC 0 /\ s_mat s_lines 2%nat 2%nat = RtoC 5 /\ s_mat s2 2%nat 2%nat = RtoC 3.
Proof.
  exists lines_after1, lines_after2. split; [cbn [steps]; now rewrite step_lines1, step_lines2 |]. split; [| split; [| split; [reflexivity |]]].
  - unfold in_service, total. cbn -[Cplus Cdiv Copp RtoC IZR]. replace (RtoC 1 / RtoC 1)%C with (RtoC 1) by (field; intros Q; injection Q; lra). rewrite <- !RtoC_plus. f_equal. lra.
  - unfold in_service, total. cbn -[Cplus Cdiv Copp RtoC IZR]. rewrite <- !RtoC_plus. f_equal. lra.
  - unfold lines_after2, lines_after1. cbn [s_mat]. rewrite !inc_off_at, !inc_diag_at. rewrite !inc_off_at, !inc_diag_at. unfold offval, markval. cbn -[factor Cplus Copp RtoC five IZR]. fold (tripped_line 0 1). fold (tripped_line 2 3). rewrite !tripped_factor. unfold five, total. cbn -[Cplus Copp RtoC IZR]. rewrite <- ?RtoC_opp, <- !RtoC_plus. f_equal; lra.
Qed.
Print Assumptions C60_stale_marks_refuted.

Definition s_undo : rsys := Rsys [lv_bus (1 / 5); bare_bus] [ds_line 0 1] five.
Definition lvb (v : C) (f : bool) (br : option nat) : rbus := Rbus v v 60 60 false (RtoC 1) (RtoC 5) [(lv1 (1 / 5), fresh 0%nat)] [] false f br.
Definition undo_after1 : rsys := Rsys [lvb (RtoC 1) true (Some 0%nat); busv (RtoC 0) true (Some 0%nat)] [tripped_line 0 1]
  (inc_off [tripped_line 0 1] (inc_diag 0 [lvb (RtoC 1) true (Some 0%nat); busv (RtoC 0) true (Some 0%nat)] [tripped_line 0 1] five)).
Lemma step_undo1 : relay_step 1 true one_zero s_undo = undo_after1.
Proof. unfold relay_step, s_undo. cbn [s_bus s_line s_mat]. steps1. change (one_zero 0) with (RtoC 1). unfold bus_update at 1. steps1. rewrite lv1_stays. steps1. unfold ds_line. rewrite trips_now by reflexivity. reflexivity. Qed.
Lemma step_undo2 : exists bs ls, relay_step 1 false at_zero (second_solution 1 one_zero undo_after1) = Rsys bs ls (set_at 0 0 (RtoC 5 - RtoC 1 * RtoC (lv_f1 (lv1 (1 / 5))))%C (s_mat undo_after1)).
Proof.
  unfold relay_step, second_solution. unfold undo_after1 at 1 2. cbn [s_bus s_line s_mat]. steps1. change (at_zero 0) with (RtoC 0). change (at_zero 1) with (RtoC 0). unfold bus_update. steps1. rewrite lv1_trips. steps1. unfold tripped_line at 1.
  rewrite stays_after by reflexivity. eexists. eexists. reflexivity.
Qed.
(** A relay of a line operates, and in the next step a load relay at one of its ends.  The diagonal element of the bus is then overwritten with a value
    that does not know about the line: the line is back in the diagonal, and still gone from the rest of the matrix. *)
Theorem C60_undone_refuted : exists s1 s2, steps 1 true [(one_zero, one_zero); (at_zero, at_zero)] s_undo = [s1; s2] /\
  s_mat s_undo 0%nat 0%nat = RtoC 5 /\ s_mat s1 0%nat 0%nat = RtoC 4 /\ s_mat s1 0%nat 1%nat = RtoC 1 /\ s_mat s2 0%nat 0%nat = (RtoC 5 - RtoC 1 * RtoC (1 / 5))%C /\ s_mat s2 0%nat 1%nat = RtoC 1.
Proof.
  assert (M : s_mat undo_after1 0%nat 0%nat = RtoC 4 /\ s_mat undo_after1 0%nat 1%nat = RtoC 1).
  { unfold undo_after1. cbn [s_mat]. rewrite !inc_off_at, !inc_diag_at. unfold offval, markval. cbn -[factor Cplus Copp RtoC five IZR]. fold (tripped_line 0 1). rewrite !tripped_factor. unfold five, total. cbn -[Cplus Copp RtoC IZR]. rewrite <- !RtoC_opp, <- !RtoC_plus. split; f_equal; lra. }
  exists undo_after1, (relay_step 1 false at_zero (second_solution 1 one_zero undo_after1)). split; [cbn [steps]; now rewrite step_undo1 |]. split; [reflexivity |]. split; [apply M |]. split; [apply M |]. destruct M as [_ M].
  destruct step_undo2 as (bs & ls & ->). split; [reflexivity | exact M].
Qed.
Print Assumptions C60_undone_refuted.

Definition turn (k : nat) : C := polar 1 (1 / 100).
Definition turn0 (k : nat) : C := polar 1 0.
Definition s_turn : rsys := Rsys [gen_bus []] [] five.
Lemma turn_ok : turning 0 0 (1 / 100) [(turn0, turn); (turn, fun _ => polar 1 (2 / 100))].
Proof.
  intros [| [| i]] V E; [| | destruct i; discriminate]; injection E as <-; exists 1, 1; (split; [lra |]); (split; [lra |]); cbn [fst snd INR]; unfold turn0, turn; split; f_equal; lra.
Qed.
(** The lag of the frequency is computed three times per time step (twice before the relays are updated, once after the second solution), each time for
    a whole step: its time constant is a third of 0.1 s.  A step of 0.01 s should leave 0.905 of a deviation, and leaves the third power of it. *)
Theorem C60_time_constant_refuted : exists s Vs s1 b d, turning 0 0 d Vs /\ nth_error (steps (1 / 100) true Vs s) 1 = Some s1 /\ nth_error (s_bus s1) 0 = Some b /\ 60 <> true_frequency d (1 / 100) /\
  rb_f b - true_frequency d (1 / 100) = lag (1 / 100) ^ 3 * (60 - true_frequency d (1 / 100)) /\ rb_f b - true_frequency d (1 / 100) <> lag (1 / 100) * (60 - true_frequency d (1 / 100)).
Proof.
  assert (P := PI_RGT_0). assert (P4 := PI2_3_2).
  set (Vs := [(turn0, turn); (turn, fun _ : nat => polar 1 (2 / 100))]).
  assert (F : true_frequency (1 / 100) (1 / 100) - 60 = / (2 * PI)) by (unfold true_frequency; field; lra). assert (Fp : 0 < / (2 * PI)) by (apply Rinv_0_lt_compat; lra).
  assert (I : intact (gen_bus [])). { split; [intros x [] |]. intros g [<- | []]. split; [reflexivity |]. split; [cbn; lia | intros x []]. }
  assert (L : length (steps (1 / 100) true Vs s_turn) = 2%nat) by reflexivity. destruct (nth_error (steps (1 / 100) true Vs s_turn) 1) as [s1 |] eqn:E1; [| apply nth_error_None in E1; lia].
  destruct (@C60_network_partial (1 / 100) Vs s_turn) with (s' := s1) as (L1 & _); [intros x [] | | eapply nth_error_In; exact E1 |]. { intros [| [| k]] b E; [| discriminate | discriminate]. injection E as <-. split; [exact I | reflexivity]. }
  destruct (nth_error (s_bus s1) 0) as [b |] eqn:Eb; [| apply nth_error_None in Eb; cbn in L1; lia].
  assert (R : rb_f b = true_frequency (1 / 100) (1 / 100) + lag (1 / 100) ^ (3 * 1) * (60 - true_frequency (1 / 100) (1 / 100))).
  { apply (@C60_frequency_run_partial (1 / 100) 0 (1 / 100) Vs s_turn (gen_bus []) 0 1 s1 b); auto; try reflexivity; try (cbn; discriminate).
    - lra.
    - rewrite Rabs_right; lra.
    - intros c [<- | []]. exact I.
    - apply turn_ok.
    - intros i si j c _ _ Lj. lia. }
  exists s_turn, Vs, s1, b, (1 / 100). split; [apply turn_ok |]. split; [exact E1 |]. split; [exact Eb |]. split; [lra |]. rewrite R. cbn [Nat.mul Nat.add]. split; [ring |]. intros Q.
  set (f := true_frequency (1 / 100) (1 / 100)) in *. assert (Lg : lag (1 / 100) = 905 / 1000) by (unfold lag; field). rewrite Lg in Q. assert (f = 60 + / (2 * PI)) by lra. clearbody f. nra.
Qed.
Print Assumptions C60_time_constant_refuted.

(** C48, C49 and C50: contingencies, limit checks, area totals and scaling. *)
From Verif Require Import Prelude PqModel PqSpec GAModel ParModel FmModel FmSpec FmProofs.
From Verif Require TaskModel TaskProofs.
From Coq Require Import Reals Lra.
Open Scope R_scope.

(** ** C48 *)

(** Setting a contingency takes exactly the named lines and generators out of service, marks exactly the active buses left without a line in service (beside those that
    were marked before), and reports whether every location exists on the process. *)
Theorem C48_takes_out_what_it_names : forall s e, well_formed s -> tags_ok s -> ids_ok s ->
  exists s1 e1 ok, set_contingency s e = Ok (s1, e1, ok) /\ (ok = true <-> located s e) /\ length (s_brs s1) = length (s_brs s) /\ length (s_bus s1) = length (s_bus s) /\
    (forall i f f1, nth_error (s_brs s) i = Some f -> nth_error (s_brs s1) i = Some f1 -> forall t, line_on f1 t <-> line_on f t /\ ~ names_line e f t) /\
    (forall i b b1, nth_error (s_bus s) i = Some b -> nth_error (s_bus s1) i = Some b1 ->
       (forall t, gen_on b1 t <-> gen_on b t /\ ~ names_gen e b t) /\ (u_iso b1 = true <-> u_iso b = true \/ (u_act b = true /\ cut_off s1 b))).
Proof. exact takes_out. Qed.
Print Assumptions C48_takes_out_what_it_names.

(** Unsetting it restores every status and isolated flag, whatever was computed in between as long as that left statuses and flags alone. *)
Theorem C48_unset_restores_partial : forall s e s1 e1 ok s2, well_formed s -> distinct_elements e -> set_contingency s e = Ok (s1, e1, ok) ->
  topology s2 = topology s1 -> s_sav s2 = s_sav s1 -> gens_ok s2 ->
  exists s3, unset_contingency s2 e1 = Ok (s3, ok) /\ topology s3 = topology s.
Proof. exact restores. Qed.
Print Assumptions C48_unset_restores_partial.

Definition ln (t : string) (x : bool) : line := Line t x None None false 0.
Definition bu (i : Z) (near : list nat) : fbus := Fbus true i 1 1 false false 0 0 near new_bus.
Definition chain : proc := Proc [bu 1 [0%nat]; bu 2 [0; 1]%nat; bu 3 [1%nat]] [Fbr true 1 2 0 1 [ln "1" true; ln "2" false]; Fbr true 2 3 1 2 [ln "1" true]] [] [] false.
Lemma chain_ok : well_formed chain /\ tags_ok chain /\ ids_ok chain.
Proof.
  split; [split; [| split] | split].
  - intros [| [| i]] [| [| j]] f g F G J; cbn in *; try discriminate; try (destruct i; discriminate); try (destruct j; discriminate); auto; injection F as <-; injection G as <-; unfold joins in J; cbn in J; lia.
  - cbn. repeat constructor; cbn; intuition lia.
  - intros b H. cbn in H. destruct H as [<- | [<- | [<- | []]]]; reflexivity.
  - intros f H. cbn in H. destruct H as [<- | [<- | []]]; cbn; repeat constructor; cbn; intuition discriminate.
  - intros b H. cbn in H. destruct H as [<- | [<- | [<- | []]]]; cbn; constructor.
Qed.
Example C48_nonvacuous : exists s1 e1, set_contingency chain (ELine [(2%Z, 1%Z, "1"%string, false)]) = Ok (s1, e1, true) /\ distinct_elements (ELine [(2%Z, 1%Z, "1"%string, false)]) /\
  map u_iso (s_bus s1) = [true; false; false] /\ map line_states (s_brs s1) = [[("1"%string, false); ("2"%string, false)]; [("1"%string, true)]] /\
  exists s3, unset_contingency s1 e1 = Ok (s3, true) /\ topology s3 = topology chain.
Proof. do 2 eexists. split; [reflexivity |]. split; [cbn; repeat constructor |]. split; [reflexivity |]. split; [reflexivity |]. eexists. split; reflexivity. Qed.

(** Finding: a contingency that names a line twice is not undone. *)
Theorem C48_duplicate_refuted : exists s e s1 e1 s3, well_formed s /\ set_contingency s e = Ok (s1, e1, true) /\ unset_contingency s1 e1 = Ok (s3, true) /\ topology s3 <> topology s.
Proof.
  exists chain, (ELine [(1%Z, 2%Z, "1"%string, false); (2%Z, 1%Z, "1"%string, false)]). do 3 eexists. split; [apply chain_ok |]. split; [reflexivity |]. split; [reflexivity |]. cbn. discriminate.
Qed.
Print Assumptions C48_duplicate_refuted.

(** Finding: undoing two contingencies in reverse order leaves a bus isolated, as the second one overwrites the flags saved for the first. *)
Theorem C48_nested_refuted : exists s e f s1 e1 s2 f1 s3 s4, well_formed s /\ set_contingency s e = Ok (s1, e1, true) /\ set_contingency s1 f = Ok (s2, f1, true) /\
  unset_contingency s2 f1 = Ok (s3, true) /\ unset_contingency s3 e1 = Ok (s4, true) /\
  map u_iso (s_bus s) = [false; false; false] /\ map u_iso (s_bus s4) = [true; false; false].
Proof.
  exists chain, (ELine [(1%Z, 2%Z, "1"%string, false)]), (ELine [(2%Z, 3%Z, "1"%string, false)]). do 6 eexists. split; [apply chain_ok |]. repeat split.
Qed.
Print Assumptions C48_nested_refuted.

(** Finding: "false if location of contingency is not found in network", but a process answers false when another process holds the location. *)
Theorem C48_found_in_network_refuted : exists w e, (exists s, In s w /\ located s e) /\ exists s s1 e1, In s w /\ well_formed s /\ set_contingency s e = Ok (s1, e1, false).
Proof.
  exists [chain; Proc [bu 4 []] [] [] [] false], (ELine [(1%Z, 2%Z, "1"%string, false)]). split.
  - exists chain. split; [now left |]. cbn. intros a b t sv [E | []]. injection E as <- <- <- <-. eexists. split; [now left |]. left. auto.
  - exists (Proc [bu 4 []] [] [] [] false). do 2 eexists. split; [right; now left |]. split; [| reflexivity]. split; [| split].
    + intros [| i] j f g F; discriminate.
    + cbn. repeat constructor. intros [].
    + intros b [<- | []]. reflexivity.
Qed.
Print Assumptions C48_found_in_network_refuted.

(** Finding: checkLoneBus is to return "false if there is an isolated bus in the network"; on one process it returns true exactly then. *)
Theorem C48_lone_bus_result_refuted : forall s, snd (check_lone [s]) = true <-> exists b, In b (s_bus s) /\ u_act b = true /\ cut_off s b.
Proof.
  intros s. unfold check_lone. cbn [map snd]. rewrite TaskProofs.check_true_spec. unfold check_lone1.
  assert (G : forall l, snd (mark_lone (s_brs s) l) = false <-> exists b, In b l /\ u_act b = true /\ cut_off s b).
  { induction l as [| b l IH]; cbn; [split; [discriminate | intros (? & [] & _)] |]. destruct (mark_lone (s_brs s) l) as [[r sv] ok]. cbn in IH. destruct (u_act b && lone (s_brs s) b) eqn:E; cbn.
    - apply andb_prop in E as [E1 E2]. split; auto. intros _. exists b. split; auto. split; auto. now apply lone_cut.
    - rewrite IH. split.
      + intros (c & C & H). eauto.
      + intros (c & [<- | C] & A & K); [| eauto]. apply lone_cut in K. rewrite A, K in E. discriminate. }
  specialize (G (s_bus s)). destruct (mark_lone (s_brs s) (s_bus s)) as [[l sv] ok]. cbn in *. rewrite <- G. destruct ok; cbn; split; auto; try discriminate.
  - intros H. specialize (H false (or_introl eq_refl)). discriminate.
  - intros _ x [<- | []]. reflexivity.
Qed.
Print Assumptions C48_lone_bus_result_refuted.

(** Finding: a bus that loses its only generator still holds its voltage. *)
Theorem C48_voltage_control_refuted : exists s e s1 e1 b1, well_formed s /\ set_contingency s e = Ok (s1, e1, true) /\ In b1 (s_bus s1) /\ q_pv (u_q b1) = true /\ forall t, ~ gen_on b1 t.
Proof.
  set (q := QBus [1%Z] [] [Gen "1" 1 0 1 0 1 0 1 0 1 1] [1] [] [] 100 0 true (Some true) None 1 0 1 0 None 0 0).
  exists (Proc [Fbus true 1 1 1 false false 0 2 [] q] [] [] [] false), (EGen [(1%Z, "1"%string, false)]). do 3 eexists. split; [| split; [reflexivity |]].
  - split; [intros [| i] j f g F; discriminate |]. split; [cbn; repeat constructor; intros [] |]. intros b [<- | []]. reflexivity.
  - split; [now left |]. split; [reflexivity |]. intros t [E | []]. discriminate.
Qed.
Print Assumptions C48_voltage_control_refuted.

(** ** C49 *)

(** The voltage check answers true exactly when no watched bus of any process is outside its limits. *)
Theorem C49_voltage_check : forall w, check_voltage w = true <-> forall s b, In s w -> watched_bus s b -> ~ off_limits b.
Proof. exact check_voltage_iff. Qed.
Print Assumptions C49_voltage_check.

(** For one area it answers the same of the buses of the area, and each process records exactly those outside their limits. *)
Theorem C49_voltage_check_in_area : forall area w, let '(w', r) := check_voltage_area area w in
  (r = true <-> forall s b, In s w -> watched_bus s b -> u_area b = area -> ~ off_limits b) /\
  Forall2 (fun s s' => s_bus s' = s_bus s /\ s_brs s' = s_brs s /\
    s_viol s' = (s_viol s ++ map (fun b => Viol true (u_id b) (-1) None)
                   (filter (fun b => u_act b && (negb (u_ign b) && (u_area b =? area)%Z) && off_limitsb b) (s_bus s)))%list) w w'.
Proof.
  intros area w. unfold check_voltage_area. split.
  - rewrite TaskProofs.check_true_spec. split.
    + intros H s b S (B & A & I) E O. specialize (H _ (in_map _ _ _ S)). cbv beta in H. rewrite voltage_area_eq in H. cbn in H. rewrite forallb_forall in H. specialize (H b B).
      apply off_limits_iff in O. rewrite A, I, O, E, Z.eqb_refl in H. discriminate.
    + intros H x X. apply in_map_iff in X as (s & <- & S). rewrite voltage_area_eq. cbn. apply forallb_forall. intros b B. apply negb_true_iff. apply not_true_iff_false. intros E.
      apply andb_prop in E as [E O]. apply andb_prop in E as [A E]. apply andb_prop in E as [I E]. apply (H s b S); [split; [auto | split; auto; now apply negb_true_iff] | now apply Z.eqb_eq | now apply off_limits_iff].
  - induction w as [| s w IH]; cbn; constructor; auto. rewrite voltage_area_eq. cbn. auto.
Qed.
Print Assumptions C49_voltage_check_in_area.

(** The line check answers true exactly when no watched line is overloaded, and each process records exactly the overloaded ones. *)
Theorem C49_line_check : forall w, (forall s, In s w -> tags_ok s) -> let '(w', r) := check_lines w in
  (r = true <-> forall s f l, In s w -> watched_line s f l -> ~ overloaded (s_rateB s) l) /\
  Forall2 (fun s s' => s_bus s' = s_bus s /\ s_brs s' = s_brs s /\
    s_viol s' = (s_viol s ++ flat_map (fun f => if f_act f then map (fun l => Viol false (f_1 f) (f_2 f) (Some (String.substring 0 2 (n_tag l))))
                                                  (filter (fun l => negb (n_ign l) && overloadedb (s_rateB s) l) (f_lines f)) else []) (s_brs s))%list) w w'.
Proof.
  intros w T. unfold check_lines. split.
  - rewrite TaskProofs.check_true_spec. split.
    + intros H s f l S (F & A & L & I) O. specialize (H _ (in_map _ _ _ S)). cbv beta in H. rewrite check_lines_eq in H by auto. cbn in H. rewrite forallb_forall in H. specialize (H f F). rewrite A in H. cbn in H.
      rewrite forallb_forall in H. specialize (H l L). apply overloaded_iff in O. rewrite I, O in H. discriminate.
    + intros H x X. apply in_map_iff in X as (s & <- & S). rewrite check_lines_eq by auto. cbn. apply forallb_forall. intros f F. destruct (f_act f) eqn:A; auto. cbn. apply forallb_forall. intros l L.
      apply negb_true_iff. apply not_true_iff_false. intros E. apply andb_prop in E as [I O]. apply (H s f l S); [| now apply overloaded_iff]. repeat split; auto. now apply negb_true_iff.
  - clear -T. induction w as [| s w IH]; cbn; constructor; auto.
    + rewrite check_lines_eq by (apply T; now left). cbn. auto.
    + apply IH. intros; apply T; now right.
Qed.
Print Assumptions C49_line_check.

Theorem C49_line_check_in_area : forall area w, (forall s, In s w -> tags_ok s) ->
  (check_lines_area area w = true <-> forall s f l, In s w -> watched_line s f l -> touches s area f -> ~ overloaded (s_rateB s) l).
Proof. intros. now apply lines_area_iff. Qed.
Print Assumptions C49_line_check_in_area.

(** After ignoring the present overloads the check passes, when rating A is in use; clearing makes every line count again. *)
Theorem C49_ignored_lines_partial : forall w, (forall s, In s w -> tags_ok s /\ s_rateB s = false) ->
  snd (check_lines (ignore_lines w)) = true /\
  forall s f l, In s (clear_lines (ignore_lines w)) -> In f (s_brs s) -> f_act f = true -> In l (f_lines f) -> n_ign l = false.
Proof.
  intros w T. assert (T2 : forall s, In s (ignore_lines w) -> tags_ok s /\ s_rateB s = false /\ forall f l, watched_line s f l -> overloadedb false l = false).
  { intros s S. unfold ignore_lines in S. apply in_map_iff in S as (s0 & <- & S). destruct (T s0 S) as [T1 T2].
    split; [| split; auto].
    - intros f F. cbn in F. apply in_map_iff in F as (f0 & <- & F). destruct (f_act f0) eqn:A; [| now apply T1]. rewrite ignore_branch_eq by now apply T1. rewrite map_map.
      rewrite (map_ext _ n_tag); [now apply T1 |]. intros l. now destruct (overloadedb false l).
    - intros f l (F & A & L & I). cbn in F. apply in_map_iff in F as (f0 & <- & F). destruct (f_act f0) eqn:A0; [| congruence]. rewrite ignore_branch_eq in L by now apply T1.
      apply in_map_iff in L as (l0 & <- & L). destruct (overloadedb false l0) eqn:O; auto. discriminate. }
  split.
  - pose proof (C49_line_check (ignore_lines w) (fun s S => proj1 (T2 s S))) as H. destruct (check_lines (ignore_lines w)) as [w' r]. destruct H as [H _]. cbn. apply H. intros s f l S W O.
    destruct (T2 s S) as (_ & R & V). rewrite R in O. apply overloaded_iff in O. rewrite (V f l W) in O. discriminate.
  - intros s f l S F A L. unfold clear_lines in S. apply in_map_iff in S as (s0 & <- & S). cbn in F. apply in_map_iff in F as (f0 & <- & F). destruct (f_act f0) eqn:A0; [| congruence].
    cbn in L. rewrite clear_branch_eq in L. apply in_map_iff in L as (l0 & <- & _). reflexivity.
Qed.
Print Assumptions C49_ignored_lines_partial.

(** The reactive check answers true exactly when no active PV bus is beyond the limits of its generators. Afterwards every copy of a bus, active or ghost, is PV exactly when its
    owner was PV and within limits. *)
Theorem C49_reactive_check : forall w, checkable w -> owned_once w -> exists w' r, check_qlim w = Ok (w', r) /\ length w' = length w /\
  (r = true <-> forall s b, In s w -> In b (s_bus s) -> u_act b = true -> ~ q_violated (u_q b)) /\
  (forall i j s s' b b', nth_error w i = Some s -> nth_error w' i = Some s' -> nth_error (s_bus s) j = Some b -> nth_error (s_bus s') j = Some b' -> u_id b' = u_id b /\ u_act b' = u_act b /\
     forall so o, In so w -> In o (s_bus so) -> u_act o = true -> u_id o = u_id b -> (q_pv (u_q b') = true <-> q_pv (u_q o) = true /\ ~ q_violated (u_q o))).
Proof. exact check_qlim_ok. Qed.
Print Assumptions C49_reactive_check.

(** Lines given by name are judged correctly when every branch has one line, all requests give the same tag and rating A is meant. *)
Theorem C49_listed_lines_partial : forall b1 b2 tags t w, length b1 = length b2 -> length b1 = length tags -> (forall x, In x tags -> x = t) ->
  (forall s, In s w -> one_branch (s_brs s) /\ forall f, In f (s_brs s) -> length (f_lines f) = 1%nat) ->
  exists v r, check_listed b1 b2 tags w = Ok (Some v, r) /\ length v = length b1 /\ (r = true <-> forall x, In x v -> x = true) /\
    forall i a b x, nth_error b1 i = Some a -> nth_error b2 i = Some b -> nth_error v i = Some x ->
      (x = false <-> exists s f l, In s w /\ In f (s_brs s) /\ joins f a b /\ In l (f_lines f) /\ n_tag l = t /\ n_ign l = false /\ overloaded false l).
Proof.
  intros b1 b2 tags t w L1 L2 T S. rewrite (@listed_ok b1 b2 tags t w) by (auto; intros s H; exact (proj2 (S s H))). do 2 eexists. split; [reflexivity |]. cbn zeta. rewrite map_length, combine_length. split; [lia |].
  split; [rewrite forallb_forall; tauto |]. intros i a b x N1 N2 N. rewrite nth_error_map in N.
  assert (C : nth_error (combine b1 b2) i = Some (a, b)). { clear - N1 N2. revert b1 b2 N1 N2. induction i as [| i IH]; intros [| c b1] [| d b2] N1 N2; cbn in *; try discriminate; [congruence | auto]. }
  rewrite C in N. cbn in N. injection N as <-. rewrite negb_false_iff, existsb_exists. split.
  - intros (s & H & E). rewrite bad_iff in E by now apply S. destruct E as (f & l & E). exists s, f, l. tauto.
  - intros (s & f & l & H & E). exists s. split; auto. rewrite bad_iff by now apply S. exists f, l. tauto.
Qed.
Print Assumptions C49_listed_lines_partial.

(** The recorded violations of all processes are returned in order of process, when process 0 has none or is the only one with any, and with barriers in GlobalVector (C07). *)
Theorem C49_reported_violations_partial : forall zero own s1 s2 w,
  (s_viol (nth 0 w (Proc [] [] [] [] false)) = [] \/ forall s, In s (tl w) -> s_viol s = []) -> (forall i, (own i < length w)%nat) ->
  Permutation s1 (sched_ops (length w)) -> barrier s1 -> Permutation s2 (sched_ops (length w)) -> barrier s2 ->
  get_violations zero own s1 s2 w = Ok (concat (map s_viol w)).
Proof. exact violations_ok. Qed.
Print Assumptions C49_reported_violations_partial.

(** Finding: otherwise the positions of process 0 and the following ones overlap and the call throws. *)
Theorem C49_reported_violations_refuted : exists zero w, forall own s1 s2, (forall i, (own i < length w)%nat) -> Permutation s1 (sched_ops (length w)) -> barrier s1 ->
  get_violations zero own s1 s2 w = Throw.
Proof.
  set (v := fun i => Viol true i (-1) None). exists (v 0%Z), [Proc [] [] [v 1%Z] [] false; Proc [] [] [v 2%Z] [] false]. intros own s1 s2 O P B. unfold get_violations. cbn [map length sumn fold_right s_viol Nat.add Nat.eqb].
  cbn -[gv_upload]. rewrite ParProps.C07_bad_indices_throw_partial; auto.
  left. cbn. intros N. inversion N as [| ? ? H]; subst. apply H. now left.
Qed.
Print Assumptions C49_reported_violations_refuted.

(** Finding: ignoring voltage violations has no effect on the check at all: it marks the buses that are within their limits. *)
Theorem C49_ignore_voltage_refuted : forall w, check_voltage (ignore_voltage w) = check_voltage w.
Proof.
  intros w. apply eq_iff_eq_true. rewrite !check_voltage_iff. split.
  - intros H s b S (B & A & I) O. set (g := fun b => if u_act b && voltage_ok b then with_ign b true else b). apply (H (with_bus s (map g (s_bus s))) b); auto.
    + unfold ignore_voltage. apply in_map_iff. exists s. auto.
    + split; [| auto]. cbn. apply in_map_iff. exists b. split; auto. unfold g. destruct (voltage_ok b) eqn:V; [apply voltage_ok_iff in V; tauto |]. now rewrite andb_false_r.
  - intros H s b S (B & A & I). unfold ignore_voltage in S. apply in_map_iff in S as (s0 & <- & S). cbn in B. apply in_map_iff in B as (b0 & <- & B). destruct (u_act b0 && voltage_ok b0) eqn:E.
    + discriminate.
    + apply (H s0); auto. split; auto.
Qed.
Print Assumptions C49_ignore_voltage_refuted.

(** Finding: with rating B in use, overloads are ignored by rating A, so that the check still fails. *)
Definition two_rates : proc := Proc [] [Fbr true 1 2 0 1 [Line "1" true (Some 3) (Some 1) false 2]] [] [] true.
Theorem C49_ignored_lines_refuted : exists w, (forall s, In s w -> tags_ok s) /\ snd (check_lines (ignore_lines w)) = false.
Proof.
  exists [two_rates]. assert (T : forall s, In s (ignore_lines [two_rates]) -> tags_ok s).
  { intros s [<- | []] f [<- | []]. cbn. unfold ignore_branch. cbn. repeat match goal with |- context [if ?b then _ else _] => destruct b end; cbn; repeat constructor; intros []. }
  split; [intros s [<- | []] f [<- | []]; cbn; repeat constructor; intros [] |]. apply not_true_iff_false. intros E. pose proof (C49_line_check (ignore_lines [two_rates]) T) as H.
  destruct (check_lines (ignore_lines [two_rates])) as [w' r]. destruct H as [H _]. cbn in E. subst r.
  assert (A : above (Some 3) (power [Line "1" true (Some 3) (Some 1) false 2] "1") = false). { cbn. destruct (Rlt_dec 0 3); [| lra]. destruct (Rlt_dec 3 2); auto. lra. }
  refine (proj1 H eq_refl two_rates (Fbr true 1 2 0 1 [Line "1" true (Some 3) (Some 1) false 2]) (Line "1" true (Some 3) (Some 1) false 2) _ _ _).
  - unfold ignore_lines, two_rates, ignore_branch. cbn [map s_brs with_brs f_act f_lines fold_left n_A n_tag s_bus s_viol s_sav s_rateB with_lines f_1 f_2 f_b1 f_b2]. rewrite A. now left.
  - repeat split; now left.
  - exists 1. repeat split; cbn; lra.
Qed.
Print Assumptions C49_ignored_lines_refuted.

(** Finding: a line out of service can be reported as overloaded. *)
Theorem C49_out_of_service_refuted : exists s, tags_ok s /\ (forall f l, In f (s_brs s) -> In l (f_lines f) -> n_on l = false) /\ snd (check_lines [s]) = false.
Proof.
  exists (Proc [] [Fbr true 1 2 0 1 [Line "1" false (Some 1) None false 2]] [] [] false). split; [intros f [<- | []]; cbn; repeat constructor; intros [] |]. split; [intros f l [<- | []] [<- | []]; reflexivity |].
  cbn. unfold check_lines1. cbn. destruct (Rlt_dec 0 1); [| lra]. destruct (Rlt_dec 1 2); [| lra]. reflexivity.
Qed.
Print Assumptions C49_out_of_service_refuted.

(** Finding: of two listed lines on one branch the flow of the wrong one is compared; and a line that is not among the first of its branch makes the code read past the list. *)
Definition pair_branch : proc := Proc [] [Fbr true 1 2 0 1 [Line "1" true (Some 1) None false 2; Line "2" true (Some 1) None false 0]] [] [] false.
Theorem C49_listed_lines_refuted :
  (exists v, check_listed [1; 1]%Z [2; 2]%Z ["2"; "1"]%string [pair_branch] = Ok (Some v, false) /\ nth_error v 0 = Some false /\
     forall f l, In f (s_brs pair_branch) -> In l (f_lines f) -> n_tag l = "2"%string -> ~ overloaded false l) /\
  check_listed [1%Z] [2%Z] ["2"%string] [pair_branch] = UB.
Proof.
  split; [| reflexivity]. exists [false; true]. split; [| split; [reflexivity |]].
  - cbn. destruct (Rlt_dec 0 1); [| lra]. destruct (Rlt_dec 1 2); [| lra]. destruct (Rlt_dec 1 0); [lra |]. reflexivity.
  - intros f l [<- | []] [<- | [<- | []]] E; try discriminate. intros (r & R & H1 & H2). cbn in *. injection R as <-. lra.
Qed.
Print Assumptions C49_listed_lines_refuted.

(** Finding: restricted to an area, the reactive check answers the opposite: true exactly when every bus of the area had to be converted. *)
Theorem C49_reactive_check_in_area_refuted : forall area w, checkable w -> exists w' r, check_qlim_area area w = Ok (w', r) /\
  (r = true <-> forall s b, In s w -> In b (s_bus s) -> u_act b = true -> u_area b = area -> q_violated (u_q b)).
Proof.
  intros area w K. unfold check_qlim_area. destruct (@qlim_all_ok (fun b => u_act b && (u_area b =? area)%Z) negb w K) as (w1 & rs & E & _ & _ & RS). rewrite E. do 2 eexists. split; [reflexivity |].
  rewrite TaskProofs.check_true_spec, RS. split.
  - intros H s b S B A AR. destruct (K s b S B) as [K1 K2]. destruct (PqProps.C38_converts_exactly_beyond_limits K1 K2) as (r & q & Q & V & _).
    assert (X : negb r = false) by (apply (H s b r q S B); auto; rewrite A, AR, Z.eqb_refl; reflexivity). apply V. now apply negb_false_iff.
  - intros H s b r q S B A Q. apply andb_prop in A as [A1 A2]. apply Z.eqb_eq in A2. destruct (K s b S B) as [K1 K2]. destruct (@chk_result _ _ _ K1 K2 Q) as [V _]. apply negb_false_iff. apply V. eauto.
Qed.
Print Assumptions C49_reactive_check_in_area_refuted.

Example C49_nonvacuous : exists w, checkable w /\ owned_once w /\ (forall s, In s w -> tags_ok s) /\ check_voltage w = false /\ exists s b, In s w /\ In b (s_bus s) /\ q_violated (u_q b).
Proof.
  set (q := QBus [1%Z] [] [Gen "1" 1 0 1 0 1 0 1 0 1 1] [1] [] [] 100 1 true (Some true) None 1 0 1 0 (Some (0, 1, true)) 0 0).
  set (s := Proc [Fbus true 1 1 1 false false 2 3 [] q] [] [] [] false). set (s2 := Proc [Fbus false 1 1 1 false false 2 3 [] q] [] [] [] false). exists [s; s2].
  split; [intros t b [<- | [<- | []]] [<- | []]; split; [reflexivity | discriminate | reflexivity | discriminate] |].
  split; [split; [cbn; repeat constructor; intros [] |]; intros t b [<- | [<- | []]] [<- | []]; exists s; eexists; (split; [now left |]; split; [now left |]; auto) |].
  split; [intros t [<- | [<- | []]] f [] |]. split.
  - apply not_true_iff_false. rewrite C49_voltage_check. intros H. apply (H s (Fbus true 1 1 1 false false 2 3 [] q)); [now left | split; [now left | auto] |]. right. unfold vmag. cbn. lra.
  - exists s. eexists. split; [now left |]. split; [now left |]. cbn. split; [reflexivity |]. left. unfold total, required, gens_on, loads_on, total. cbn. lra.
Qed.

(** ** C50 *)

(** The total load counts the buses of the area (or zone) on the processes that own them, and once more wherever they are ghosts. *)
Theorem C50_total_load_partial : forall area zone w, total_load area zone w =
  total (fun b => loaded_load (u_q b)) (filter (belongsb area zone) (active_buses w)) + total (fun b => loaded_load (u_q b)) (filter (belongsb area zone) (ghost_buses w)).
Proof. exact total_load_eq. Qed.
Print Assumptions C50_total_load_partial.
Theorem C50_selection : forall area zone b, selected area zone b = true <-> belongs area zone b.
Proof. intros. rewrite selected_eq. apply belongs_iff. Qed.
Print Assumptions C50_selection.

Definition load_bus (act : bool) (p : R) : fbus := Fbus act 1 1 1 false false 0 0 [] (QBus [] [] [] [] [Ld "1" p 0 1] [(p, 0)] 100 0 false None None 1 0 1 0 None 0 0).
(** Finding: a bus that is a ghost on another process is counted twice. *)
Theorem C50_total_load_refuted : exists w, active_buses w = [load_bus true 5] /\ total_load 1 0 w = 10.
Proof.
  exists [Proc [load_bus true 5] [] [] [] false; Proc [load_bus false 5] [] [] [] false]. split; [reflexivity |]. unfold total_load, bus_load. cbn. unfold sumR. cbn. lra.
Qed.
Print Assumptions C50_total_load_refuted.
(** Finding: after scaling the loads the total is the one before. *)
Theorem C50_total_after_scaling_refuted : forall v area zone s, total_load area zone [scale_loads v area zone s] = total_load area zone [s].
Proof.
  intros v area zone s. unfold total_load. cbn [map]. f_equal. f_equal. cbn [s_bus scale_loads with_bus]. generalize 0 as z. induction (s_bus s) as [| b l IH]; intros z; cbn; auto.
  assert (E : forall ids q, bus_load (fold_left (fun q i => scale_load q i v) ids q) = bus_load q).
  { induction ids as [| i ids IHi]; intros q; cbn; auto. rewrite IHi. unfold bus_load. cbn. clear.
    assert (G : forall (sl : list (R * R)) ls z, fold_left (fun acc p => if negb (l_st (snd p) =? 0)%Z then acc + fst (fst p) else acc)
      (combine sl (upd_first (fun l => String.eqb (l_id l) i && on (l_st l)) (fun l => set_ld l (v * l_pl l) (v * l_ql l)) ls)) z =
      fold_left (fun acc p => if negb (l_st (snd p) =? 0)%Z then acc + fst (fst p) else acc) (combine sl ls) z).
    { induction sl as [| x sl IHs]; intros [| y ls] z; cbn; auto. destruct (String.eqb (l_id y) i && on (l_st y)); cbn; auto. }
    apply G. }
  destruct (selected area zone b) eqn:S; cbn.
  - assert (S2 : selected area zone (with_q b (fold_left (fun q i => scale_load q i v) (map l_id (q_lds (u_q b))) (u_q b))) = true) by exact S. rewrite S2, E. apply IH.
  - rewrite S. apply IH.
Qed.
Print Assumptions C50_total_after_scaling_refuted.

(** The margins are those of the generators in service on the buses of the area that the process holds: on one process without ghosts, of the network. *)
Theorem C50_margins_partial : forall area zone s, let gs := flat_map (fun b => gens_in_service (u_q b)) (filter (belongsb area zone) (s_bus s)) in
  margins area zone s = (total fst gs, total (fun p => g_pb (snd p)) gs, total (fun p => g_pt (snd p)) gs).
Proof. exact margins_eq. Qed.
Print Assumptions C50_margins_partial.

(** Scaling moves every generator in service on the selected buses once, by the same part of its margin, and nothing else. *)
Theorem C50_scaling_generation : forall v area zone s, gens_ok s -> ids_distinct s -> exists s', scale_generation v area zone s = Ok s' /\ length (s_bus s') = length (s_bus s) /\
  forall i b b', nth_error (s_bus s) i = Some b -> nth_error (s_bus s') i = Some b' ->
    (~ belongs area zone b -> b' = b) /\
    (belongs area zone b -> q_gst (u_q b') = q_gst (u_q b) /\ q_lds (u_q b') = q_lds (u_q b) /\
       q_gens (u_q b') = map (fun p => if (fst p =? 0)%Z then snd p else set_pg (snd p) (moved v (snd p))) (combine (q_gst (u_q b)) (q_gens (u_q b)))).
Proof.
  intros v area zone s G I. unfold scale_generation.
  destruct (@mapO_some _ _ (fun b => if selected area zone b then obind (scale_gens (u_q b) (map g_id (q_gens (u_q b))) v) (fun q => Ok (with_q b q)) else Ok b) (s_bus s)) as (l & E & F).
  { intros b B. destruct (selected area zone b); eauto. destruct (@scale_gens_ok (u_q b) v (G b B) (proj1 (I b B))) as (q & Q & _). rewrite Q. cbn. eauto. }
  rewrite E. cbn. eexists; split; [reflexivity |]. apply F2_nth in F as [L F]. cbn. split; auto. intros i b b' N N'. specialize (F i b b' N N'). cbn beta in F. rewrite selected_eq in F. rewrite <- belongs_iff.
  destruct (belongsb area zone b).
  - split; [intros H; exfalso; now apply H |]. intros _. pose proof (nth_error_In _ _ N) as B. destruct (@scale_gens_ok (u_q b) v (G b B) (proj1 (I b B))) as (q & Q & Q1 & Q2 & Q3). rewrite Q in F. cbn in F. injection F as <-. cbn. auto.
  - split; [intros _; congruence | discriminate].
Qed.
Print Assumptions C50_scaling_generation.
Theorem C50_scaling_loads : forall v area zone s, ids_distinct s -> forall i b b', nth_error (s_bus s) i = Some b -> nth_error (s_bus (scale_loads v area zone s)) i = Some b' ->
  (~ belongs area zone b -> b' = b) /\
  (belongs area zone b -> q_gst (u_q b') = q_gst (u_q b) /\ q_gens (u_q b') = q_gens (u_q b) /\
     q_lds (u_q b') = map (fun l => if (l_st l =? 1)%Z then set_ld l (v * l_pl l) (v * l_ql l) else l) (q_lds (u_q b))).
Proof.
  intros v area zone s I i b b' N N'. cbn in N'. rewrite nth_error_map, N in N'. cbn in N'. injection N' as <-. rewrite selected_eq, <- belongs_iff. destruct (belongsb area zone b).
  - split; [intros H; exfalso; now apply H |]. intros _. cbn. apply scale_loads_ok. exact (proj2 (I b (nth_error_In _ _ N))).
  - split; auto. discriminate.
Qed.
Print Assumptions C50_scaling_loads.

(** Finding: of two generators with the same id the first is scaled twice and the second not at all. *)
Theorem C50_same_id_refuted : exists s s', scale_generation (1/2) 1 0 s = Ok s' /\
  map (fun b => map g_pg (q_gens (u_q b))) (s_bus s) = [[0; 0]] /\ map (fun b => map g_pg (q_gens (u_q b))) (s_bus s') = [[3; 0]] /\
  map (fun b => map g_pt (q_gens (u_q b))) (s_bus s) = [[4; 4]].
Proof.
  set (g := Gen "1" 0 0 1 0 1 0 4 0 1 1). exists (Proc [Fbus true 1 1 1 false false 0 0 [] (QBus [1; 1]%Z [] [g; g] [0; 0] [] [] 100 0 false None None 1 0 1 0 None 0 0)] [] [] [] false).
  eexists. split; [reflexivity |]. cbn. unfold scale_gen. destruct (Rlt_dec 0 (1/2)); [| lra]. cbn. split; auto. split; auto. repeat f_equal. lra.
Qed.
Print Assumptions C50_same_id_refuted.

Example C50_nonvacuous : gens_ok chain /\ ids_distinct chain /\ belongs 1 0 (bu 1 [0%nat]) /\ ~ belongs 1 2 (bu 1 [0%nat]).
Proof.
  split; [apply chain_ok |]. split; [intros b [<- | [<- | [<- | []]]]; split; constructor |]. unfold belongs. cbn. lia.
Qed.

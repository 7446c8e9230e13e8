(** C59: contingency analysis. *)
From Verif Require Import Prelude DCModel StrModel StrSpec PqModel PqSpec FmModel FmSpec FmProofs GAModel ParModel ParSpec CaModel CaSpec CaProofs2 CaProofs3 CaProofs4 CaProofs5.
From Verif Require TaskModel TaskSpec StatSpec ParProps.
From Coq Require Import Ascii Reals Lra.
Open Scope R_scope.

(** Every contingency of the list is processed by exactly one process.  What is stored for it is what the network of the case gives with the named
    elements out of service, whatever was processed before and however the tasks were shared out.  Missing: reactive limits (see the findings
    below), contingencies that name an element twice. *)
Theorem C59_own_results_partial :
  forall newton isref orig evs P cs s, well_formed s -> tags_ok s -> whole s -> Forall (usable s) evs ->
    (0 < P)%nat -> TaskSpec.no_overflow (length evs) (map (fun r => TaskModel.NextGroup [r]) cs) = true -> all_called (length evs) P cs ->
    let z0 := newton (blank s) in
    exists w, analyse newton isref orig false false evs P cs s = Ok (report isref orig true 0 (blank s) z0, w) /\ length w = P /\
      Permutation (concat w) (mapi (fun k c => (Z.of_nat k, expected newton isref orig (outage (snd c) (start (flagged z0 s))))) 0 evs) /\
      (forall r, (r < P)%nat -> map fst (nth r w []) = tasks_of (length evs) P cs r).
Proof.
  intros newton isref orig evs P cs s W T H U HP NO AC z0. destruct (@analyse_eq newton isref orig evs P cs s (conj W (conj T H)) U HP NO AC) as (w & A & B & C & D). exists w. auto.
Qed.
Print Assumptions C59_own_results_partial.

(** The columns added to each of the seven tables are the base case and then the contingencies in the order of the list, each as long as the base case
    (so that C29 gives the statistics made of them). *)
Theorem C59_columns_partial :
  forall newton isref orig evs P cs s base w col, well_formed s -> tags_ok s -> whole s -> Forall (usable s) evs ->
    (0 < P)%nat -> TaskSpec.no_overflow (length evs) (map (fun r => TaskModel.NextGroup [r]) cs) = true -> all_called (length evs) P cs ->
    In col [r_mag; r_ang; r_pg; r_qg; r_pf; r_qf; r_perf] -> analyse newton isref orig false false evs P cs s = Ok (base, w) ->
    StatSpec.adds_table (length (col base))
      (col base :: map (fun c => col (expected newton isref orig (outage (snd c) (start (flagged (newton (blank s)) s))))) evs) (column_calls col base w).
Proof.
  intros newton isref orig evs P cs s base w col W T H U HP NO AC I E. destruct (@analyse_eq newton isref orig evs P cs s (conj W (conj T H)) U HP NO AC) as (w' & A & B & _). rewrite A in E. injection E as <- <-.
  now apply columns_eq.
Qed.
Print Assumptions C59_columns_partial.

(** Process 0 fetches the success flags and the codes of all contingencies in the order of the list, if a barrier separates the operations of an
    upload (C07). *)
Theorem C59_fetched_partial :
  forall newton isref orig evs P cs s base w own sA sB sC sD, well_formed s -> tags_ok s -> whole s -> Forall (usable s) evs -> evs <> [] ->
    (0 < P)%nat -> TaskSpec.no_overflow (length evs) (map (fun r => TaskModel.NextGroup [r]) cs) = true -> all_called (length evs) P cs ->
    analyse newton isref orig false false evs P cs s = Ok (base, w) -> (forall i, (own i < P)%nat) ->
    (forall x, In x [sA; sB; sC; sD] -> Permutation x (sched_ops P) /\ barrier x) ->
    let want := map (fun c => expected newton isref orig (outage (snd c) (start (flagged (newton (blank s)) s)))) evs in
    let idx := map Z.of_nat (iota (length evs)) in
    exists gs gc, gv_upload false own (successes w) sA sB = Ok gs /\ gv_getData gs idx = Ok (map r_ok want) /\
      gv_upload 0%Z own (codes w) sC sD = Ok gc /\ gv_getData gc idx = Ok (map r_code want).
Proof.
  intros newton isref orig evs P cs s base w own sA sB sC sD W T H U Ne HP NO AC E Own Sch want idx. destruct (@analyse_eq newton isref orig evs P cs s (conj W (conj T H)) U HP NO AC) as (w' & A & B & L & _). rewrite A in E. injection E as <- <-.
  rewrite <- L in Own, Sch. destruct (Sch sA) as [A1 A2]; [cbn; tauto |]. destruct (Sch sB) as [B1 B2]; [cbn; tauto |]. destruct (Sch sC) as [C1 C2]; [cbn; tauto |]. destruct (Sch sD) as [D1 D2]; [cbn; tauto |].
  destruct (@fetched newton isref orig s evs _ B _ r_ok false own _ _ Ne Own A1 A2 B1 B2) as (gs & G1 & G2). destruct (@fetched newton isref orig s evs _ B _ r_code 0%Z own _ _ Ne Own C1 C2 D1 D2) as (gc & G3 & G4).
  exists gs, gc. unfold want. rewrite !map_map. auto.
Qed.
Print Assumptions C59_fetched_partial.

(** The list of contingencies of the input is read as it is written. *)
Theorem C59_contingency_list : forall cs evs, Forall2 describes cs evs -> read_contingencies cs = Ok evs.
Proof. exact read_list. Qed.
Print Assumptions C59_contingency_list.

(** ** A network *)
(** Two buses joined by two lines, the first with a generator; without line 1 the voltage of the second bus is 0.9. *)
Definition xbus (v : R) (gens : list gen) (lds : list ld) (pv : bool) : qbus :=
  QBus (map (fun _ => 1%Z) gens) [] gens [] lds [] 100 0 pv (Some pv) None v 0 v 0 (Some (0, v, pv)) 0 0.
Definition xgen : gen := Gen "1 " 50 10 60 (-60) 60 (-60) 100 0 1 1.
Definition xline (t : string) : line := Line t true (Some 2) None false 0.
Definition xnet : proc :=
  Proc [Fbus true 1 1 1 false false (95/100) (105/100) [0%nat] (xbus 1 [xgen] [] true);
        Fbus true 2 1 1 false false (95/100) (105/100) [0%nat] (xbus 1 [] [Ld "1 " 40 20 1] false)]
       [Fbr true 1 2 0 1 [xline "1 "; xline "2 "]] [] [] false.
Definition first_on (s : proc) : bool := match s_brs s with f :: _ => match f_lines f with l :: _ => n_on l | [] => false end | [] => false end.
Definition xsolve (s : proc) : sol :=
  Sol Converged (fun i => match i with O => 1 | S _ => if first_on s then 1 else 9/10 end) (fun _ => 0) (fun _ => 0) (fun _ => (0, 0)) (fun _ _ => (1, 0)).
Definition none : nat -> bool := fun _ => false.
Definition ref0 (i : nat) : bool := (i =? 0)%nat.
Lemma xnet_ok : well_formed xnet /\ tags_ok xnet /\ whole xnet.
Proof.
  split; [split; [| split] | split; [| split]].
  - intros [| i] [| j] f g F G J; cbn in *; try discriminate; try (destruct i; discriminate); try (destruct j; discriminate); auto.
  - cbn. repeat constructor; cbn; intuition lia.
  - intros b [<- | [<- | []]]; reflexivity.
  - intros f [<- | []]; cbn; repeat constructor; cbn; intuition discriminate.
  - intros b [<- | [<- | []]]; cbn; (split; [reflexivity | split; [discriminate | split; [reflexivity | repeat constructor; auto]]]).
  - intros f [<- | []]; reflexivity.
Qed.
Definition x_line : string * event := ("line"%string, ELine [(2%Z, 1%Z, "1 "%string, true)]).
Definition x_gen : string * event := ("gen"%string, EGen [(1%Z, "1 "%string, true)]).
Lemma x_usable : usable xnet x_line /\ usable xnet x_gen.
Proof.
  split; (split; [cbn; repeat constructor | split; [| cbn; lia]]).
  - intros b p _ _ E. discriminate.
  - intros b p [<- | [<- | []]] I E; cbn in I; [destruct I as [<- | []]; left; cbn; auto | destruct I].
Qed.
Example C59_nonvacuous :
  all_called 2 2 [0; 1; 0; 1]%nat /\ map (tasks_of 2 2 [0; 1; 0; 1]%nat) [0; 1]%nat = [[0%Z]; [1%Z]] /\
  (exists base w, analyse xsolve ref0 none false false [x_line; x_gen] 2 [0; 1; 0; 1]%nat xnet = Ok (base, w)) /\
  (let z := xsolve (blank xnet) in let y := outage (snd x_line) (start (flagged z xnet)) in map n_on (flat_map f_lines (s_brs y)) = [false; true] /\ r_ok (expected xsolve ref0 none y) = true /\
     r_mag (expected xsolve ref0 none y) = [(9/10, 1%Z)]).
Proof.
  split; [split |].
  - intros r I. cbn in I. intuition lia.
  - intros [| [| r]] L; [vm_compute; reflexivity | vm_compute; reflexivity | lia].
  - split; [vm_compute; reflexivity |]. split.
    + destruct xnet_ok as (W & T & H). destruct x_usable as [U1 U2]. destruct (@C59_own_results_partial xsolve ref0 none [x_line; x_gen] 2 [0; 1; 0; 1]%nat xnet W T H) as (w & E & _); [constructor; [exact U1 | constructor; [exact U2 | constructor]] | lia | reflexivity | |].
      * split; [intros r I; cbn in I; intuition lia |]. intros [| [| r]] L; [vm_compute; reflexivity | vm_compute; reflexivity | lia].
      * eexists. exists w. exact E.
    + split; [reflexivity |]. split; reflexivity.
Qed.

(** ** Findings *)
(** Finding: success.txt is never written as it should be.  The driver clears the vector of success flags after fetching it and then reads its elements,
    which do not exist, for every run with a contingency. *)
Theorem C59_success_file_refuted : forall own sA sB sC sD n w l, (0 < n)%nat -> success_file own sA sB sC sD n w <> Ok l.
Proof.
  intros own sA sB sC sD [| n] w l N; [lia |]. unfold success_file. destruct (gv_upload false own (successes w) sA sB) as [gs | |]; try discriminate. cbn [obind].
  destruct (gv_upload 0%Z own (codes w) sC sD) as [gc | |]; try discriminate. cbn [obind]. destruct (gv_getData gs _); try discriminate. cbn [obind]. destruct (gv_getData gc _); try discriminate.
Qed.
Print Assumptions C59_success_file_refuted.

(** Finding: with an empty list of contingencies (or one whose entries are all passed over) the driver throws when it uploads the success flags. *)
Theorem C59_no_contingency_refuted : forall own sA sB sC sD P, (forall i, (own i < P)%nat) -> Permutation sA (sched_ops P) -> barrier sA ->
  success_file own sA sB sC sD 0 (repeat [] P) = Throw.
Proof.
  intros own sA sB sC sD P Own Pm Ba. unfold success_file. assert (L : length (successes (repeat [] P)) = P) by (unfold successes; now rewrite map_length, repeat_length).
  rewrite (@ParProps.C07_bad_indices_throw_partial _ false own (successes (repeat [] P)) sA sB); [reflexivity | | | |]; rewrite ?L; auto.
  right. right. clear. induction P; auto.
Qed.
Print Assumptions C59_no_contingency_refuted.

(** Finding: a contingency that drives a bus out of its voltage limits is not reported.  The driver ignores the buses that are within their limits in the
    base case instead of those that are not; when all are, no contingency ever gets the code 2 or 4 of a bus violation. *)
Theorem C59_new_violation_refuted :
  (forall newton isref orig evs P cs s base w k r, well_formed s -> tags_ok s -> whole s -> Forall (usable s) evs ->
    (0 < P)%nat -> TaskSpec.no_overflow (length evs) (map (fun r => TaskModel.NextGroup [r]) cs) = true -> all_called (length evs) P cs ->
    analyse newton isref orig false false evs P cs s = Ok (base, w) ->
    (forall i b, nth_error (s_bus s) i = Some b -> u_vmin b <= z_v (newton (blank s)) i <= u_vmax b) ->
    In (k, r) (concat w) -> r_code r <> 2%Z /\ r_code r <> 4%Z) /\
  (exists w r, analyse xsolve ref0 none false false [x_line] 1 [0; 0]%nat xnet = Ok w /\ concat (snd w) = [(0%Z, r)] /\ r_code r = 1%Z /\ r_mag r = [(9/10, 1%Z)]).
Proof.
  assert (NB : forall z z' e (s : proc), (forall i b, nth_error (s_bus s) i = Some b -> u_vmin b <= z_v z i <= u_vmax b) -> bus_bad (outage e (start (flagged z s))) z' = false).
  { intros z z' e s H. unfold bus_bad. apply not_true_iff_false. intros E. apply existsb_exists in E as (o & I & ->). apply In_nth_error in I as (i & I). rewrite nth_mapi in I. destruct (nth_error (s_bus (outage e (start (flagged z s)))) i) as [b |] eqn:B; [| discriminate]. cbn in I. injection I as I.
    unfold outage in B. cbn [s_bus] in B. rewrite nth_error_map in B. unfold start, blank in B. cbn [s_bus] in B. rewrite nth_error_map in B. unfold reset_voltages in B. cbn [s_bus with_bus] in B. rewrite nth_error_map in B. unfold flagged in B. cbn [s_bus with_bus] in B. rewrite nth_mapi in B.
    destruct (nth_error (s_bus s) i) as [b0 |] eqn:B0; [| discriminate]. cbn in B. injection B as <-. specialize (H i b0 B0). cbn in I. destruct (Rlt_dec (u_vmax b0) (z_v z i)); [lra |]. destruct (Rlt_dec (z_v z i) (u_vmin b0)); [lra |]. cbn in I. rewrite orb_true_r in I. destruct (u_act b0); discriminate I. }
  split.
  - intros newton isref orig evs P cs s base w k r W T H U HP NO AC E V I. destruct (@analyse_eq newton isref orig evs P cs s (conj W (conj T H)) U HP NO AC) as (w' & A & B & _). rewrite A in E. injection E as <- <-.
    eapply Permutation_in in I; [| exact B]. apply In_nth_error in I as (i & I). rewrite nth_mapi in I. destruct (nth_error evs i) as [c |]; [| discriminate]. cbn in I. injection I as _ <-. unfold expected. destruct (z_end _); [| cbn; split; discriminate | cbn; split; discriminate].
    cbn. unfold verdict. rewrite NB by exact V. destruct (line_bad _ _); split; discriminate.
  - destruct xnet_ok as (W & T & H). destruct x_usable as [U1 U2]. destruct (@C59_own_results_partial xsolve ref0 none [x_line] 1 [0; 0]%nat xnet W T H) as (w & E & _ & Pm & _); [constructor; [exact U1 | constructor] | lia | reflexivity | |].
    + split; [intros r I; cbn in I; intuition lia |]. intros [| r] L; [vm_compute; reflexivity | lia].
    + cbn [mapi] in Pm. apply Permutation_sym, Permutation_length_1_inv in Pm. eexists (_, w). eexists. split; [exact E |]. split; [exact Pm |]. split; [| reflexivity].
      set (y := outage (snd x_line) _). unfold expected. cbn [z_end xsolve]. cbn [r_code report]. unfold verdict. unfold y. rewrite NB.
      * replace (line_bad _ _) with false; [reflexivity |]. symmetry. unfold line_bad. cbn. unfold cabs. cbn. replace (1 * 1 + 0 * 0) with 1 by ring. rewrite sqrt_1. destruct (Rlt_dec 0 2); [| lra]. destruct (Rlt_dec 2 1); [lra | reflexivity].
      * intros [| [| i]] b B; cbn in B; [injection B as <- | injection B as <- | destruct i; discriminate]; cbn; lra.
Qed.
Print Assumptions C59_new_violation_refuted.

(** Finding: a contingency whose line does not exist is reported like one that was simulated: success and no violation. *)
Theorem C59_unknown_element_refuted : let e := ELine [(7%Z, 9%Z, "1 "%string, true)] in
  ~ located xnet e /\ exists w r, analyse xsolve ref0 none false false [("x"%string, e)] 1 [0; 0]%nat xnet = Ok w /\ concat (snd w) = [(0%Z, r)] /\ r_ok r = true /\ r_code r = 1%Z.
Proof.
  cbn zeta. split.
  - intros L. destruct (L 7%Z 9%Z "1 "%string true (or_introl eq_refl)) as (f & [<- | []] & J). unfold joins in J. cbn in J. lia.
  - destruct xnet_ok as (W & T & H). destruct (@C59_own_results_partial xsolve ref0 none [("x"%string, ELine [(7%Z, 9%Z, "1 "%string, true)])] 1 [0; 0]%nat xnet W T H) as (w & E & _ & Pm & _).
    + constructor; [| constructor]. split; [cbn; repeat constructor | split; [intros b p _ _ K; discriminate | cbn; lia]].
    + lia.
    + reflexivity.
    + split; [intros r I; cbn in I; intuition lia |]. intros [| r] L; [vm_compute; reflexivity | lia].
    + cbn [mapi] in Pm. apply Permutation_sym, Permutation_length_1_inv in Pm. eexists (_, w). eexists. split; [exact E |]. split; [exact Pm |]. split; [reflexivity |].
      unfold expected. cbn [z_end xsolve]. cbn [r_code report]. unfold verdict. replace (bus_bad _ _) with false; [replace (line_bad _ _) with false; [reflexivity |] |]; symmetry.
      * unfold line_bad. cbn. unfold cabs. cbn. replace (1 * 1 + 0 * 0) with 1 by ring. rewrite sqrt_1. destruct (Rlt_dec 0 2); [| lra]. destruct (Rlt_dec 2 1); [lra | reflexivity].
      * unfold bus_bad. cbn. repeat (destruct (Rlt_dec _ _); try lra).
Qed.
Print Assumptions C59_unknown_element_refuted.

(** Finding: a contingency that names a line twice spoils the contingencies processed after it: the line stays out of service. *)
Definition xshort (s : proc) : sol := let z := xsolve s in Sol (if first_on s then Converged else Short) (z_v z) (z_a z) (z_Q z) (z_inj z) (z_flow z).
Definition x_twice : string * event := ("twice"%string, ELine [(1%Z, 2%Z, "1 "%string, true); (2%Z, 1%Z, "1 "%string, true)]).
Theorem C59_duplicate_refuted :
  (exists r0 r1, work xshort ref0 none false false [x_twice; x_gen] xnet [0%Z; 1%Z] = Ok [(0%Z, r0); (1%Z, r1)] /\ r_ok r1 = false) /\
  (exists r1, work xshort ref0 none false false [x_twice; x_gen] xnet [1%Z] = Ok [(1%Z, r1)] /\ r_ok r1 = true).
Proof.
  split.
  - do 2 eexists. split; [cbv -[IZR Rdiv Rmult Rplus Ropp Rlt_dec sqrt atan Rinv]; reflexivity | reflexivity].
  - change (work xshort ref0 none false false [x_twice; x_gen] xnet [1%Z]) with (obind (task xshort ref0 none false false xnet x_gen) (fun x => Ok [(1%Z, fst x)])). destruct x_usable as [_ U]. destruct xnet_ok as (W & T & H).
    destruct (@task_eq xshort ref0 none xnet x_gen (conj W (conj T H)) U) as (s3 & E & _). rewrite E. eexists. split; reflexivity.
Qed.
Print Assumptions C59_duplicate_refuted.

Definition xlim (s : proc) : sol :=
  let pv := match s_bus s with b :: _ => q_pv (u_q b) | [] => false end in
  Sol (if first_on s && pv then Converged else Short) (fun _ => 1) (fun _ => 0) (fun _ => if first_on s then 0 else 10) (fun _ => (0, 0)) (fun _ _ => (1, 0)).
Definition x_unknown : string * event := ("none"%string, EGen [(9%Z, "1 "%string, true)]).
Lemma loop_on newton isref f ret s s2 e : z_end (newton (blank s)) = e -> e <> Failed -> check_qlim [place isref (newton (blank s)) s] = Ok ([s2], false) ->
  solve_loop newton isref true (S f) ret s = solve_loop newton isref true f (match e with Converged => ret | _ => false end) s2.
Proof. intros E N C. cbn [solve_loop]. rewrite C, E. destruct e; tauto. Qed.
Lemma loop_end newton isref f ret s s2 e : z_end (newton (blank s)) = e -> e <> Failed -> check_qlim [place isref (newton (blank s)) s] = Ok ([s2], true) ->
  solve_loop newton isref true (S f) ret s = Some (Ok (s2, newton (blank s), match e with Converged => ret | _ => false end)).
Proof. intros E N C. cbn [solve_loop]. rewrite C, E. destruct e; tauto. Qed.
Definition taken (o : outcome (proc * event * bool)) : proc := match o with Ok (s, _, _) => s | _ => xnet end.
Definition takene (o : outcome (proc * event * bool)) : event := match o with Ok (_, e, _) => e | _ => EOther end.
Definition checked (s : proc) : proc :=
  with_bus s (map (fun b => let q := u_q b in if q_pv q then with_q b (convert q g_qmax (combine (q_gst q) (q_gens q))) else with_q b (keep_pv q (q_save2 q))) (s_bus s)).
Definition fine (s : proc) : proc := with_bus s (map (fun b => let q := u_q b in with_q b (keep_pv q (if q_pv q then Some true else q_save2 q))) (s_bus s)).
Definition nA := Eval cbv -[IZR Rdiv Rmult Rplus Ropp Rlt_dec Rminus sqrt atan Rinv wrap] in set_contingency (reset_voltages xnet) (snd x_line).
Definition sA := Eval cbv -[IZR Rdiv Rmult Rplus Ropp Rlt_dec Rminus sqrt atan Rinv wrap] in with_viol (taken nA) [].
Definition eA := Eval cbv in takene nA.
Definition pA := Eval cbv -[IZR Rdiv Rmult Rplus Ropp Rlt_dec Rminus sqrt atan Rinv wrap] in place none (xlim (blank sA)) sA.
Definition cA := Eval cbv -[IZR Rdiv Rmult Rplus Ropp Rlt_dec Rminus sqrt atan Rinv wrap] in checked pA.
Definition dA := Eval cbv -[IZR Rdiv Rmult Rplus Ropp Rlt_dec Rminus sqrt atan Rinv wrap] in fine (place none (xlim (blank cA)) cA).
Ltac compute_reals := cbv -[IZR Rdiv Rmult Rplus Ropp Rlt_dec Rminus sqrt Rinv atan wrap].
Lemma check_A : check_qlim [pA] = Ok ([cA], false).
Proof. compute_reals. destruct (Rlt_dec _ _) as [_ | N]; [reflexivity | exfalso; lra]. Qed.
Lemma check_A2 : check_qlim [place none (xlim (blank cA)) cA] = Ok ([dA], true).
Proof. compute_reals. reflexivity. Qed.
Lemma solve_A : solve xlim none true (taken nA) = Ok (dA, xlim (blank cA), false).
Proof.
  unfold solve. change (with_viol (taken nA) []) with sA. change (length (s_bus (taken nA))) with 2%nat.
  rewrite (@loop_on xlim none 2 true sA cA Short) by (reflexivity || discriminate || exact check_A).
  rewrite (@loop_end xlim none 1 false cA dA Short) by (reflexivity || discriminate || exact check_A2). reflexivity.
Qed.
Definition fA := Eval cbv -[IZR Rdiv Rmult Rplus Ropp Rlt_dec Rminus sqrt atan Rinv wrap] in match unset_contingency dA eA with Ok (s, _) => s | _ => xnet end.
Lemma task_A : exists r, task xlim none none false true xnet x_line = Ok (r, fA) /\ r_ok r = false.
Proof.
  eexists. split; [| shelve]. unfold task. change (say "" (fst x_line) ".out") with (@Ok unit tt). cbn [obind]. change (set_contingency (reset_voltages xnet) (snd x_line)) with (Ok (taken nA, eA, true)). cbn [obind]. rewrite solve_A. cbn [obind].
  change (say (nl ++ "Divergent for contingency ") (fst x_line) nl) with (@Ok unit tt). cbn [obind].
  change (no_tables none dA (xlim (blank cA))) with (@Ok result (no_report none xnet)). cbn [obind fst snd]. change (unset_contingency dA eA) with (@Ok (proc * bool) (fA, true)). reflexivity.
  Unshelve. all: reflexivity.
Qed.
(** The second contingency after the first one, and by itself. *)
Definition nB := Eval cbv -[IZR Rdiv Rmult Rplus Ropp Rlt_dec Rminus sqrt atan Rinv wrap] in set_contingency (reset_voltages fA) (snd x_unknown).
Definition sB := Eval cbv -[IZR Rdiv Rmult Rplus Ropp Rlt_dec Rminus sqrt atan Rinv wrap] in with_viol (taken nB) [].
Definition dB := Eval cbv -[IZR Rdiv Rmult Rplus Ropp Rlt_dec Rminus sqrt atan Rinv wrap] in fine (place none (xlim (blank sB)) sB).
Lemma check_B : check_qlim [place none (xlim (blank sB)) sB] = Ok ([dB], true).
Proof. compute_reals. reflexivity. Qed.
Lemma task_B : exists r s, task xlim none none false true fA x_unknown = Ok (r, s) /\ r_ok r = false.
Proof.
  do 2 eexists. split; [| shelve]. unfold task. change (say "" (fst x_unknown) ".out") with (@Ok unit tt). cbn [obind]. change (set_contingency (reset_voltages fA) (snd x_unknown)) with (Ok (taken nB, takene nB, false)). cbn [obind].
  unfold solve. change (with_viol (taken nB) []) with sB. change (length (s_bus (taken nB))) with 2%nat. rewrite (@loop_end xlim none 2 true sB dB Short) by (reflexivity || discriminate || exact check_B). cbn [obind].
  change (say (nl ++ "Divergent for contingency ") (fst x_unknown) nl) with (@Ok unit tt). cbn [obind].
  change (no_tables none dB (xlim (blank sB))) with (@Ok result (no_report none xnet)). cbn [obind fst snd]. 
  let t := eval cbv -[IZR Rdiv Rmult Rplus Ropp Rlt_dec Rminus sqrt atan Rinv wrap] in (unset_contingency dB (takene nB)) in change (unset_contingency dB (takene nB)) with t. reflexivity.
  Unshelve. all: reflexivity.
Qed.
Definition nC := Eval cbv -[IZR Rdiv Rmult Rplus Ropp Rlt_dec Rminus sqrt atan Rinv wrap] in set_contingency (reset_voltages xnet) (snd x_unknown).
Definition sC := Eval cbv -[IZR Rdiv Rmult Rplus Ropp Rlt_dec Rminus sqrt atan Rinv wrap] in with_viol (taken nC) [].
Definition dC := Eval cbv -[IZR Rdiv Rmult Rplus Ropp Rlt_dec Rminus sqrt atan Rinv wrap] in fine (place none (xlim (blank sC)) sC).
Lemma check_C : check_qlim [place none (xlim (blank sC)) sC] = Ok ([dC], true).
Proof. compute_reals. destruct (Rlt_dec _ _) as [N | _]; [exfalso; lra |]. destruct (Rlt_dec _ _) as [N | _]; [exfalso; lra | reflexivity]. Qed.
Lemma volt_C : check_voltage [dC] = true.
Proof. compute_reals. repeat (destruct (Rlt_dec _ _) as [N | _]; [exfalso; lra |]). reflexivity. Qed.
Lemma lines_C : exists v, check_lines1 dC = (with_viol dC v, true).
Proof.
  eexists. rewrite check_lines_eq.
  - apply f_equal2; [reflexivity |]. compute_reals. replace (1 * 1 + 0 * 0) with 1 by ring. rewrite sqrt_1. destruct (Rlt_dec 0 2); [| lra]. destruct (Rlt_dec 2 1); [lra | reflexivity].
  - intros f [<- | []]. cbn. repeat constructor; cbn; intuition discriminate.
Qed.
Lemma task_C : exists r s, task xlim none none false true xnet x_unknown = Ok (r, s) /\ r_ok r = true.
Proof.
  destruct lines_C as (v & LC). do 2 eexists. split; [| shelve]. unfold task. change (say "" (fst x_unknown) ".out") with (@Ok unit tt). cbn [obind]. change (set_contingency (reset_voltages xnet) (snd x_unknown)) with (Ok (taken nC, takene nC, false)). cbn [obind].
  unfold solve. change (with_viol (taken nC) []) with sC. change (length (s_bus (taken nC))) with 2%nat. rewrite (@loop_end xlim none 2 true sC dC Converged) by (reflexivity || discriminate || exact check_C). cbn [obind].
  unfold assess. cbn [obind]. rewrite volt_C, LC. cbn [andb]. change (say (nl ++ "No violation for contingency ") (fst x_unknown) nl) with (@Ok unit tt). cbn [obind].
  let t := eval cbv -[IZR Rdiv Rmult Rplus Ropp Rminus sqrt atan Rlt_dec] in (tables none none true (code_of true true) (with_viol dC v) (xlim (blank sC))) in change (tables none none true (code_of true true) (with_viol dC v) (xlim (blank sC))) with t. cbn [obind fst snd].
  let t := eval cbv -[IZR Rdiv Rmult Rplus Ropp Rlt_dec Rminus sqrt atan Rinv wrap] in (unset_contingency (with_viol dC v) (takene nC)) in change (unset_contingency (with_viol dC v) (takene nC)) with t. reflexivity.
  Unshelve. all: reflexivity.
Qed.
(** Finding: with reactive limits in the power flow (qlim) a contingency that makes a bus give up its voltage control spoils the contingencies
    processed after it: the bus does not get it back, and its loads stay changed. *)
Theorem C59_reactive_limits_refuted :
  (exists r0 r1, work xlim none none false true [x_line; x_unknown] xnet [0%Z; 1%Z] = Ok [(0%Z, r0); (1%Z, r1)] /\ r_ok r1 = false) /\
  (exists r1, work xlim none none false true [x_line; x_unknown] xnet [1%Z] = Ok [(1%Z, r1)] /\ r_ok r1 = true).
Proof.
  split.
  - destruct task_A as (r & A & _). destruct task_B as (r1 & s1 & B & O). exists r, r1. split; [| exact O].
    change (work xlim none none false true [x_line; x_unknown] xnet [0%Z; 1%Z]) with (obind (task xlim none none false true xnet x_line) (fun x => obind (obind (task xlim none none false true (snd x) x_unknown) (fun y => Ok [(1%Z, fst y)])) (fun l => Ok ((0%Z, fst x) :: l)))).
    rewrite A. cbn [obind fst snd]. rewrite B. reflexivity.
  - destruct task_C as (r1 & s1 & B & O). exists r1. split; [| exact O].
    change (work xlim none none false true [x_line; x_unknown] xnet [1%Z]) with (obind (task xlim none none false true xnet x_unknown) (fun y => Ok [(1%Z, fst y)])). rewrite B. reflexivity.
Qed.
Print Assumptions C59_reactive_limits_refuted.

(** Finding: with checkQLimit the base case ends in undefined behaviour for every network with a bus that does not control its voltage: clearing the limits
    reads a flag that was never set. *)
Theorem C59_check_limits_refuted : forall newton isref orig s b r, In b (s_bus s) -> u_act b = true -> q_pv (u_q b) = false -> q_save2 (u_q b) = None ->
  base_case newton isref orig true false s <> Ok r.
Proof.
  intros newton isref orig s b r I A V N. set (bad := fun b => u_act b = true /\ q_pv (u_q b) = false /\ q_save2 (u_q b) = None).
  assert (E0 : Exists bad (s_bus s)) by (apply Exists_exists; exists b; unfold bad; auto).
  assert (Pl : forall z s, Exists bad (s_bus s) -> Exists bad (s_bus (place isref z s))).
  { intros z s0 E. unfold place. cbn [s_bus]. generalize 0%nat. induction E as [b0 l (A0 & V0 & N0) | b0 l E IH]; intros i; cbn; [left | right; apply IH]. unfold bad, place_bus. cbn. destruct (u_iso b0 || isref i); auto. }
  assert (Ck : forall s s' x, Exists bad (s_bus s) -> check_qlim [s] = Ok ([s'], x) -> Exists bad (s_bus s')).
  { intros s0 s' x E C. unfold check_qlim, qlim_all in C. cbn [mapO] in C. destruct (qlim_loop u_act (fun r0 => r0) (s_bus s0)) as [[l y] | |] eqn:Q; try discriminate. cbn in C. injection C as <- _. cbn [s_bus with_bus].
    assert (E2 : Exists bad l).
    { clear - E Q. revert l y Q. induction E as [b0 l0 (A0 & V0 & N0) | b0 l0 E IH]; intros l y Q; cbn in Q.
      - rewrite A0 in Q. unfold chk_qlim in Q. rewrite V0 in Q. cbn in Q. destruct (qlim_loop u_act (fun r => r) l0) as [[l1 y1] | |]; try discriminate. cbn in Q. injection Q as <- _. left. unfold bad. cbn. auto.
      - destruct (u_act b0).
        + destruct (chk_qlim (u_q b0)) as [[c q] | |]; try discriminate. cbn in Q. destruct (qlim_loop u_act (fun r => r) l0) as [[l1 y1] | |]; try discriminate. cbn in Q. injection Q as <- _. right. eapply IH. reflexivity.
        + destruct (qlim_loop u_act (fun r => r) l0) as [[l1 y1] | |]; try discriminate. cbn in Q. injection Q as <- _. right. eapply IH. reflexivity. }
    clear - E2. apply Exists_exists in E2 as (b0 & I0 & A0 & V0 & N0). apply Exists_exists. exists b0. split; [| repeat split; auto]. apply in_map_iff. exists b0. split; auto. now rewrite A0. }
  unfold base_case. rewrite solve_eq. cbn [obind]. set (s1 := place isref (newton (blank s)) (with_viol s [])). assert (E1 : Exists bad (s_bus s1)) by (apply Pl; exact E0).
  assert (F : forall (s : proc) z, Exists bad (s_bus s) -> match ignore_voltage [s] with [s2] => obind (tables isref orig true 0 s2 z) (fun r => obind (clear_qlims s2) (fun s3 => Ok (r, s3))) | _ => UB end <> Ok r).
  { intros s0 z E. unfold ignore_voltage. cbn [map]. destruct (tables _ _ _ _ _ _); try discriminate. cbn [obind]. unfold clear_qlims. cbn [s_bus with_bus].
    assert (K : forall l, Exists bad l -> forall y, mapO (fun b => if u_act b then obind (clear_qlim (u_q b)) (fun q => Ok (with_q b q)) else Ok b) (map (fun b => if u_act b && voltage_ok b then with_ign b true else b) l) <> Ok y).
    { induction 1 as [b0 l (A0 & V0 & N0) | b0 l E' IH]; intros y; cbn [map mapO].
      - rewrite A0. cbn [andb]. destruct (voltage_ok b0); cbn [with_ign u_act u_q]; rewrite ?A0; unfold clear_qlim; rewrite N0; discriminate.
      - match goal with |- obind ?o _ <> _ => destruct o end; try discriminate. cbn [obind]. match goal with |- obind ?o _ <> _ => destruct o eqn:M end; try discriminate. exfalso. eapply IH; eauto. }
    specialize (K _ E). destruct (mapO _ _) eqn:M; try discriminate. exfalso. eapply K. reflexivity. }
  destruct (check_qlim [s1]) as [[w x] | |] eqn:C; try discriminate. cbn [obind]. destruct w as [| s2 [| ? ?]]; try discriminate. assert (E2 := Ck _ _ _ E1 C). destruct x; cbn [obind fst snd].
  - apply F. exact E2.
  - rewrite solve_eq. cbn [obind fst snd]. apply F. apply Pl. exact E2.
Qed.
Print Assumptions C59_check_limits_refuted.

(** Finding: an entry whose numbers of buses and names do not fit is passed over without a message; the contingencies after it have other numbers. *)
Theorem C59_malformed_refuted :
  read_contingencies [[("contingencyType", "Line"); ("contingencyName", "A"); ("contingencyLineBuses", "1 2 3"); ("contingencyLineNames", "1 2")];
                      [("contingencyType", "Line"); ("contingencyName", "B"); ("contingencyLineBuses", "1 2"); ("contingencyLineNames", "1")]]%string
  = Ok [("B"%string, ELine [(1%Z, 2%Z, "1 "%string, true)])].
Proof. vm_compute. reflexivity. Qed.
Print Assumptions C59_malformed_refuted.
(** Finding: an entry without names, or with an empty value, makes the driver read outside a string. *)
Theorem C59_missing_names_refuted :
  read_contingency [("contingencyType", "Line"); ("contingencyName", "A"); ("contingencyLineBuses", "1 2")]%string = UB /\
  read_contingency [("contingencyType", "Generator"); ("contingencyName", "A"); ("contingencyBuses", ""); ("contingencyGenerators", "1")]%string = UB.
Proof. split; vm_compute; reflexivity. Qed.
Print Assumptions C59_missing_names_refuted.
(** Finding: a name of more than 123 characters overflows the buffer for the name of the output file. *)
Theorem C59_long_name_refuted : forall newton isref orig checkQ qlim s c, (123 < String.length (fst c))%nat -> task newton isref orig checkQ qlim s c = UB.
Proof.
  intros newton isref orig checkQ qlim s c L. unfold task, say. destruct (Nat.leb_spec (String.length "" + String.length (fst c) + String.length ".out") 127); [cbn in *; lia | reflexivity].
Qed.
Print Assumptions C59_long_name_refuted.
Example C59_list_nonvacuous : exists x,
  describes [("contingencyType", "Line"); ("contingencyName", "A"); ("contingencyLineBuses", "1 2"); ("contingencyLineNames", "'1'")]%string x /\ x = ("A"%string, ELine [(1%Z, 2%Z, "1 "%string, true)]).
Proof.
  eexists. split; [eapply (@d_line _ _ [(1%Z, 2%Z, s_ "1")]) | reflexivity].
  - reflexivity.
  - reflexivity.
  - exists "1 2"%string, [([], s_ "1"); ([sp], s_ "2")], []. split; [reflexivity |]. split; [reflexivity |]. split; [discriminate |]. split; [| reflexivity].
    assert (W : forall c, c <> sp -> c <> tab -> c <> qt1 -> c <> qt2 -> c <> cr -> field [c]).
    { intros c H1 H2 H3 H4 H5. left. split; [intros [E | []]; congruence |]. split; [intros [E | []]; congruence |]. split; [exists c, []; auto |]. exists c. split; [now left | auto]. }
    split; [| split].
    + constructor; [split; [constructor | apply W; discriminate] |]. constructor; [split; [constructor; [now left | constructor] | apply W; discriminate] | constructor].
    + cbn. constructor; [discriminate | constructor].
    + constructor.
  - exists "'1'"%string, [([], s_ "'1'")], []. split; [reflexivity |]. split; [reflexivity |]. split; [discriminate |]. split; [| reflexivity].
    split; [| split; constructor]. constructor; [split; [constructor |] | constructor]. right. exists qt1. split; [now left |]. exists (s_ "1"). split; [reflexivity |]. split; intros [E | []]; discriminate.
  - repeat constructor.
  - constructor; [| constructor]. split; [split; [discriminate | constructor; [repeat split; discriminate | constructor]] |]. exact (@sp_quoted (s_ "1") qt1 0 0 0 0 (or_introl eq_refl)).
Qed.

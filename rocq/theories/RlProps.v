(** C68: the lists of N-1 contingencies of an area or zone. *)
From Coq Require Import Ascii.
From Verif Require Import Prelude GAModel ParModel StrModel StrSpec RlModel RlSpec RlProofs.

(** * C68 Contingency lists *)
(** createGeneratorContingencies returns, on every process, one contingency for each generator that is in service at a bus of the area
    (and zone, if one above zero is given), whatever process the bus is on, and no other; each has the number of the bus and the name of
    the generator, and they are numbered from one.  On any number of processes this needs the barrier inside the global vector that C07
    shows to be missing. *)
Theorem C68_generator_contingencies_partial :
  forall name own area zone procs sb1 sb2 st1 st2,
  (forall i, own i < length procs) -> Forall (fun b => d_active b = true -> good_bus name zone b) (concat procs) ->
  Forall (fun s => Permutation s (sched_ops (length procs)) /\ barrier s) [sb1; sb2; st1; st2] ->
  exists l, gen_ctgs own area zone procs sb1 sb2 st1 st2 = Ok l /\
    map (fun c => (c_bus c, c_gen c)) l = flat_map (wanted_gens name area zone) (concat procs) /\ map c_number l = seq 1 (length l).
Proof. exact gen_ctgs_ok. Qed.
Print Assumptions C68_generator_contingencies_partial.

(** The same for createBranchContingencies: both ends of the branch are in the area (and zone). *)
Theorem C68_branch_contingencies_partial :
  forall name own area zone procs f1 f2 t1 t2 k1 k2,
  (forall i, own i < length procs) -> Forall (fun b => b_active b = true -> good_branch name zone b) (concat procs) ->
  Forall (fun s => Permutation s (sched_ops (length procs)) /\ barrier s) [f1; f2; t1; t2; k1; k2] ->
  exists l, line_ctgs own area zone procs f1 f2 t1 t2 k1 k2 = Ok l /\
    map (fun c => (lc_from c, lc_to c, lc_ckt c)) l = flat_map (wanted_lines name area zone) (concat procs) /\ map lc_number l = seq 1 (length l).
Proof. exact line_ctgs_ok. Qed.
Print Assumptions C68_branch_contingencies_partial.

(** On a communicator with one process (a network that is not distributed) nothing is missing. *)
Theorem C68_generator_contingencies_one_process :
  forall name own area zone buses sb1 sb2 st1 st2,
  (forall i, own i = 0) -> Forall (fun b => d_active b = true -> good_bus name zone b) buses ->
  Forall (legal 1) [sb1; sb2; st1; st2] ->
  exists l, gen_ctgs own area zone [buses] sb1 sb2 st1 st2 = Ok l /\
    map (fun c => (c_bus c, c_gen c)) l = flat_map (wanted_gens name area zone) buses /\ map c_number l = seq 1 (length l).
Proof.
  intros name own area zone buses sb1 sb2 st1 st2 O F S. destruct (@gen_ctgs_ok name own area zone [buses] sb1 sb2 st1 st2) as (l & E1 & E2 & E3).
  - intros i. rewrite O. apply le_n.
  - cbn [concat]. now rewrite app_nil_r.
  - eapply Forall_impl; [|exact S]. intros s L. split; [exact (proj1 L)|now apply barrier_one].
  - exists l. split; [exact E1|]. split; [|exact E3]. rewrite E2. cbn [concat]. now rewrite app_nil_r.
Qed.
Print Assumptions C68_generator_contingencies_one_process.
Theorem C68_branch_contingencies_one_process :
  forall name own area zone branches f1 f2 t1 t2 k1 k2,
  (forall i, own i = 0) -> Forall (fun b => b_active b = true -> good_branch name zone b) branches ->
  Forall (legal 1) [f1; f2; t1; t2; k1; k2] ->
  exists l, line_ctgs own area zone [branches] f1 f2 t1 t2 k1 k2 = Ok l /\
    map (fun c => (lc_from c, lc_to c, lc_ckt c)) l = flat_map (wanted_lines name area zone) branches /\ map lc_number l = seq 1 (length l).
Proof.
  intros name own area zone branches f1 f2 t1 t2 k1 k2 O F S.
  destruct (@line_ctgs_ok name own area zone [branches] f1 f2 t1 t2 k1 k2) as (l & E1 & E2 & E3).
  - intros i. rewrite O. apply le_n.
  - cbn [concat]. now rewrite app_nil_r.
  - eapply Forall_impl; [|exact S]. intros s L. split; [exact (proj1 L)|now apply barrier_one].
  - exists l. split; [exact E1|]. split; [|exact E3]. rewrite E2. cbn [concat]. now rewrite app_nil_r.
Qed.
Print Assumptions C68_branch_contingencies_one_process.

(** findWatchedGenerators gives the same generators, names as kept by the components, if there is at least one ... *)
Theorem C68_watched_generators_partial :
  forall name own area zone procs old sb1 sb2 st1 st2,
  (forall i, own i < length procs) -> Forall (fun b => d_active b = true -> good_bus name zone b) (concat procs) ->
  Forall (fun s => Permutation s (sched_ops (length procs)) /\ barrier s) [sb1; sb2; st1; st2] ->
  flat_map (wanted_gens name area zone) (concat procs) <> [] ->
  exists buses tags, watched own area zone procs old sb1 sb2 st1 st2 = Ok (buses, tags) /\ length buses = length tags /\
    combine buses tags = flat_map (wanted_gens name area zone) (concat procs).
Proof.
  intros name own area zone procs old sb1 sb2 st1 st2 O F S N. pose proof (@watched_ok name own area zone procs old sb1 sb2 st1 st2 O F S) as E. cbv zeta in E.
  destruct (flat_map (wanted_gens name area zone) (concat procs)) as [|e r] eqn:EG; [congruence|]. do 2 eexists. split; [exact E|].
  split; [now rewrite !map_length|]. rewrite combine_map2. rewrite <- (map_id (e :: r)) at 2. apply map_ext. now intros (x, y).
Qed.
Print Assumptions C68_watched_generators_partial.

(** ... and, a finding, leaves the generators of an earlier call in the lists if there is none. *)
Theorem C68_no_watched_generators_refuted :
  exists procs old, Forall (fun b => d_active b = true -> good_bus (fun _ => ["A"]%char) 0 b) (concat procs) /\
    flat_map (wanted_gens (fun _ => ["A"]%char) 2 0) (concat procs) = [] /\ old <> ([], []) /\
    watched (fun _ => 0) 2 0 procs old (sched_ops 1) (sched_ops 1) (sched_ops 1) (sched_ops 1) = Ok old.
Proof.
  exists [[BusD true 5 (Some 1%Z) None None]], ([7%Z], [["A"; " "]%char]). split; [|now split].
  apply Forall_cons; [|apply Forall_nil]. intros _. split; [split; [discriminate|lia]|]. discriminate.
Qed.
Print Assumptions C68_no_watched_generators_refuted.

(** The lists of any kind that the processes hold are joined in the order of the processes (used for the tie lines and the watched
    generators too). *)
Theorem C68_gathered_in_order_partial :
  forall (A : Type) (zero : A) own (ls : list (list A)) s1 s2,
  (forall i, own i < length ls) -> Permutation s1 (sched_ops (length ls)) -> barrier s1 ->
  Permutation s2 (sched_ops (length ls)) -> barrier s2 -> gather zero own ls s1 s2 = Ok (concat ls).
Proof. exact @gather_ok. Qed.
Print Assumptions C68_gathered_in_order_partial.

(** Finding: with two processes and no barrier the second entry of the list can come out as zero: a contingency at bus 0. *)
Theorem C68_gathered_in_order_refuted :
  exists own (ls : list (list Z)) s1 s2, (forall i, i < length (concat ls) -> own i < length ls) /\ legal 2 s1 /\ legal 2 s2 /\ length ls = 2 /\
  concat ls = [5; 7]%Z /\ gather 0%Z own ls s1 s2 = Ok [5; 0]%Z.
Proof.
  exists (fun i => i), [[5; 7]%Z; []], [(false, 0); (false, 1); (true, 0); (true, 1)], [(false, 0); (true, 0); (false, 1); (true, 1)].
  split; [cbn; intros i H; exact H|]. split; [|split; [|split; [reflexivity|split; [reflexivity|vm_compute; reflexivity]]]].
  - split; [apply Permutation_refl|]. intros [|[|p]] Hp; [| |lia].
    + exists [], [(false, 1)], [(true, 1)]. reflexivity.
    + exists [(false, 0)], [(true, 0)], []. reflexivity.
  - split; [apply perm_skip, perm_swap|]. intros [|[|p]] Hp; [| |lia].
    + exists [], [], [(false, 1); (true, 1)]. reflexivity.
    + exists [(false, 0); (true, 0)], [], []. reflexivity.
Qed.
Print Assumptions C68_gathered_in_order_refuted.

(** Finding: the area is read into a variable that lives outside of the loop, so that a bus without an area counts as a bus of the area
    of the bus before it ... *)
Theorem C68_bus_without_area_refuted :
  exists b1 b2 l, d_area b2 = None /\ local_gens 1 0 None None [b1; b2] = Ok l /\ In (d_index b2, ["A"; " "]%char) l.
Proof.
  exists (BusD true 5 (Some 1%Z) None (Some [])), (BusD true 6 None None (Some [UnitD (Some 1%Z) (Some ["A"]%char)])). eexists.
  split; [reflexivity|]. split; [vm_compute; reflexivity|]. now left.
Qed.
Print Assumptions C68_bus_without_area_refuted.

(** ... and at the first bus the variable has no value at all. *)
Theorem C68_first_bus_without_area_refuted : exists b, d_active b = true /\ local_gens 1 0 None None [b] = UB.
Proof. exists (BusD true 5 None None None). now split. Qed.
Print Assumptions C68_first_bus_without_area_refuted.

(** A generator of a grid on two processes: bus 5 with units A (in service) and B (not), bus 9 of another area, bus 7 with unit C2 *)
Example C68_nonvacuous :
  let a := UnitD (Some 1%Z) (Some ["A"]%char) in let b := UnitD (Some 0%Z) (Some ["B"]%char) in let c := UnitD (Some 1%Z) (Some ["'"; "C"; "2"; "'"]%char) in
  let procs := [[BusD true 5 (Some 1%Z) (Some 2%Z) (Some [a; b]); BusD true 9 (Some 3%Z) (Some 2%Z) (Some [a])];
                [BusD true 7 (Some 1%Z) (Some 2%Z) (Some [c]); BusD false 5 (Some 1%Z) (Some 2%Z) (Some [a; b])]] in
  gen_ctgs (fun i => i mod 2) 1 2 procs (sched_ops 2) (sched_ops 2) (sched_ops 2) (sched_ops 2) =
    Ok [Ctg 1 5 ["A"; " "]%char; Ctg 2 7 ["C"; "2"]%char] /\
  watched (fun i => i mod 2) 1 2 procs ([], []) (sched_ops 2) (sched_ops 2) (sched_ops 2) (sched_ops 2) = Ok ([5; 7]%Z, [["A"; " "]; ["C"; "2"]]%char) /\
  barrier (sched_ops 2) /\
  (let name := fun u => if match u_id u with Some (x :: _) => Ascii.eqb x "'"%char | _ => false end then ["C"; "2"]%char else ["A"]%char in
   Forall (fun b => d_active b = true -> good_bus name 2 b) (concat procs)).
Proof.
  cbv zeta. split; [vm_compute; reflexivity|]. split; [vm_compute; reflexivity|]. split; [exists [(false, 0); (false, 1)], [(true, 0); (true, 1)]; now cbn|].
  assert (HA : ident ["A"]%char) by (split; [discriminate|]; unfold all_of, sp, qt1, qt2, cr; repeat constructor; discriminate).
  assert (HC : ident ["C"; "2"]%char) by (split; [discriminate|]; unfold all_of, sp, qt1, qt2, cr; repeat constructor; discriminate).
  cbn [concat app]. apply Forall_cons; [|apply Forall_cons; [|apply Forall_cons; [|apply Forall_cons; [intros X; discriminate X|apply Forall_nil]]]];
    (intros _; split; [split; discriminate|]; cbn [d_units]; intros us u E I S; injection E as <-; cbn in I).
  - destruct I as [<- |[<- |[]]]; [|discriminate S]. split; [exact HA|]. split; [cbn; lia|]. exists ["A"]%char. split; [reflexivity|]. exact (sp_plain ["A"]%char 0 0).
  - destruct I as [<- |[]]. split; [exact HA|]. split; [cbn; lia|]. exists ["A"]%char. split; [reflexivity|]. exact (sp_plain ["A"]%char 0 0).
  - destruct I as [<- |[]]. split; [exact HC|]. split; [cbn; lia|]. exists ["'"; "C"; "2"; "'"]%char. split; [reflexivity|].
    exact (@sp_quoted ["C"; "2"]%char "'"%char 0 0 0 0 (or_introl eq_refl)).
Qed.

(** A branch with two circuits, both ends in area 1; one circuit is out of service; another branch leaves the area *)
Example C68_lines_nonvacuous :
  let a := UnitD (Some 1%Z) (Some ["1"]%char) in let b := UnitD (Some 0%Z) (Some ["2"]%char) in
  let bs := [BranchD true 5 7 (Some 1%Z) (Some 1%Z) None None (Some [b; a]); BranchD true 5 9 (Some 1%Z) (Some 3%Z) None None (Some [a])] in
  line_ctgs (fun _ => 0) 1 0 [bs] (sched_ops 1) (sched_ops 1) (sched_ops 1) (sched_ops 1) (sched_ops 1) (sched_ops 1) = Ok [LCtg 1 5 7 ["1"; " "]%char] /\
  legal 1 (sched_ops 1) /\ Forall (fun b => b_active b = true -> good_branch (fun _ => ["1"]%char) 0 b) bs.
Proof.
  cbv zeta. split; [vm_compute; reflexivity|]. split.
  { split; [apply Permutation_refl|]. intros [|p] H; [|lia]. exists [], [], []. reflexivity. }
  assert (HA : ident ["1"]%char) by (split; [discriminate|]; unfold all_of, sp, qt1, qt2, cr; repeat constructor; discriminate).
  apply Forall_cons; [|apply Forall_cons; [|apply Forall_nil]];
    (intros _; split; [split; [discriminate|lia]|]; split; [split; [discriminate|lia]|]; cbn [b_lines]; intros us u E I S; injection E as <-; cbn in I).
  - destruct I as [<- |[<- |[]]]; [discriminate S|]. split; [exact HA|]. split; [cbn; lia|]. exists ["1"]%char. split; [reflexivity|]. exact (sp_plain ["1"]%char 0 0).
  - destruct I as [<- |[]]. split; [exact HA|]. split; [cbn; lia|]. exists ["1"]%char. split; [reflexivity|]. exact (sp_plain ["1"]%char 0 0).
Qed.

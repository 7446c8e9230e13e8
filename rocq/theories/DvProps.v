(** C57: switching events of a dynamic simulation change the matrix it solves to that of the network after the switching. *)
From Verif Require Import Prelude.
From Coq Require Import Ascii.
From Coq Require Import Reals Lra.
From Coquelicot Require Import Complex.
From Verif Require Import StrModel StrSpec YbModel YbSpec YbProofs YbProps DvModel DvSpec DvProofs DvProofs2 DvProofs3 DvProofs4.
Open Scope R_scope.

(** Faults, line switching and generator switching, at any number of steps of a run and in any order: at every step the matrix is the one
    of the network with all the actions due so far carried out, and nothing is undefined. Faults and generators: on any number of
    processes. Partial: the events are restricted by [ok_run] and [plain_status] (one fault at a time, without conductance; switched lines
    without end shunts, ...), and line switching is on one process; the refuted theorems below show what happens otherwise. *)
Theorem C57_matrix_partial : forall s nm P w Y es t0 h tend fuel,
  sane P -> spread P w -> ((exists t a b tag st, In (ELine t a b tag st) es) -> exists p, w = [p] /\ whole P p) -> right s P Y ->
  well_named nm es -> Forall plain_status es -> ok_run nm es P P (step_times t0 h fuel) ->
  exists steps st d, run fuel h tend t0 es (w, Y) = Ok (steps, st, d) /\ follows s nm es P steps.
Proof.
  intros s nm P w Y es t0 h tend fuel Sa Sp Wh R T Pl Or.
  apply (@run_ok s nm P (exists t a b tag st, In (ELine t a b tag st) es) es h tend fuel t0 P w Y); auto.
  - apply start_Inv; auto.
  - intros [| |] He Hl; cbn in Hl; try easy. eauto 8.
Qed.
Print Assumptions C57_matrix_partial.
(** The matrix the simulation starts with is right: that of the admittance model (C35) with loads and the machines in service, as the
    active copies of the buses have them, on the diagonal. *)
Theorem C57_start_partial : forall s P w n, s <> 0 -> sane P -> spread P w -> wf_grid (pl_grid P) -> Forall simple_node (gnode (pl_grid P)) ->
  (forall x l, In x (garc (pl_grid P)) -> In l (ael x) -> simple_line l) -> loaded s n (pl_grid P) ->
  right s P (assembled n (fun k => pl_rest P k + machines_at w k)%C).
Proof. exact start_machines. Qed.
Print Assumptions C57_start_partial.
(** The steps of a run are at equal distances from the starting time, and the run ends at the first step time within a microsecond of the end
    time asked for, whatever the events. *)
Theorem C57_run_time : forall es h tend fuel t0 st steps st' d, run fuel h tend t0 es st = Ok (steps, st', d) ->
  let n := length steps in
  (n <= fuel)%nat /\ map fst steps = step_times t0 h n /\ (forall i, (i < n)%nat -> Rabs (tend - (t0 + INR i * h)) > / 1000000) /\
  (d = true -> Rabs (tend - (t0 + INR n * h)) <= / 1000000) /\ (d = false -> n = fuel).
Proof. exact run_time. Qed.
Print Assumptions C57_run_time.
(** With a time step of two microseconds or more an event time belongs to one step at most. *)
Theorem C57_once : forall t t0 h i j, h >= 2 / 1000000 -> at_time t (t0 + INR i * h) -> at_time t (t0 + INR j * h) -> i = j.
Proof.
  intros t t0 h i j Hh H1 H2. unfold at_time in *. apply Rabs_def2 in H1 as [A1 A2]. apply Rabs_def2 in H2 as [B1 B2].
  destruct (Nat.lt_trichotomy i j) as [L|[L|L]]; auto; exfalso.
  - assert (X : INR i + 1 <= INR j) by (rewrite <- S_INR; apply le_INR; lia). nra.
  - assert (X : INR j + 1 <= INR i) by (rewrite <- S_INR; apply le_INR; lia). nra.
Qed.
Print Assumptions C57_once.

(** *** A case *)
Definition nm0 (t : string) : string := match t with "1"%string => "1 "%string | " 2"%string => "2 "%string | _ => t end.
Definition lnA : line := Line "1 " 0 1 (1/10) 0 0 0 0 0 0 true false.
Definition lnB : line := Line "2 " (1/10) 2 0 0 0 0 0 0 0 false false.
Definition gr : grid := Grid [Node false [] None; Node false [] None] [Arc 0 1 [lnA; lnB]].
Definition pl0 : plant := Plant [10; 20]%Z gr [[Unit "1 " true (0, -2)]; []] [] (fun k => if (k =? 1)%nat then (1, 0) else RtoC 0).
Definition bs0 : list dbus :=
  [Dbus 10 0 true false None None None [Dgen "1 " true] [Dmach true (0, -2)]; Dbus 20 1 true false None None None [] []].
Definition pc0 : proc := Proc bs0 [Dbr 10 20 (mk_branch (Arc 0 1 [lnA; lnB])) None].
Definition es0 : list event := [EFault 0 1 10 0 100; ELine 1 20 10 "1" 0; EGen 2 10 "1" 0; ELine 3 10 20 " 2" 1].
Lemma sane0 : sane pl0.
Proof.
  unfold sane, pl0; cbn [pl_grid pl_num pl_gens pl_faults gr gnode garc length].
  split; [auto|split; [auto|split; [|split; [|split; [auto|split]]]]].
  - constructor; [cbn; lia|]. constructor; [easy|constructor].
  - intros [|[|k]]; cbn; [constructor; [easy|constructor]|constructor|destruct k; constructor].
  - intros x [<-|[]]. cbn. lia.
  - intros x l [<-|[]] [<-|[<-|[]]]; unfold wf_line, impedance; cbn; intros E; injection E; lra.
Qed.
Lemma spread0 : spread pl0 [pc0].
Proof.
  split; [|split].
  - intros p b [<-|[]] [<-|[<-|[]]]; unfold shows; cbn.
    + split; [reflexivity|split; [eexists; split; reflexivity|]]. repeat (split; [reflexivity|]). split; repeat constructor.
    + split; [reflexivity|split; [eexists; split; reflexivity|]]. repeat (split; [reflexivity|]). split; constructor.
  - intros p [<-|[]]. cbn. constructor; [cbn; lia|]. constructor; [easy|constructor].
  - cbn. apply Permutation_refl.
Qed.
Lemma whole0 : whole pl0 pc0.
Proof.
  split; [reflexivity|]. cbn. constructor; [|constructor]. cbn. repeat (split; [reflexivity|]). exists (map dat [lnA; lnB]). split; [apply dats_ok|].
  rewrite (load_branch_ok _ _ (dats_ok [lnA; lnB])). reflexivity.
Qed.
Lemma right0 : right 100 pl0 (assembled (mk_net 100 gr) (ground pl0)).
Proof.
  apply start_right; [lra|exact sane0| | | |apply mk_loaded; lra].
  - split; [|split].
    + intros x [<-|[]]. cbn. lia.
    + intros x l [<-|[]] [<-|[<-|[]]]; unfold wf_line, impedance; cbn; intros E; injection E; lra.
    + intros x l k n [<-|[]] _ E Hn [<-|<-]; cbn in E; injection E as <-; discriminate Hn.
  - repeat (apply Forall_cons; [left; reflexivity|]). constructor.
  - intros x l [<-|[]] [<-|[<-|[]]]; left; reflexivity.
Qed.
Example C57_start_nonvacuous : right 100 pl0 (assembled (mk_net 100 gr) (fun k => pl_rest pl0 k + machines_at [pc0] k)%C) /\ machines_at [pc0] 0 <> RtoC 0.
Proof.
  split; [|unfold machines_at; cbn; intros E; injection E; lra].
  apply (@right_ext 100 pl0 (mk_net 100 gr) (ground pl0)); [reflexivity | | exact right0]. intros k Hk. apply machines_ground; [exact sane0 | exact spread0 | exact Hk].
Qed.
Lemma near_num : forall a b, - (/ 1000000) < a - b < / 1000000 -> at_time a b.
Proof. intros a b H. apply Rabs_def1; lra. Qed.
Lemma far_num : forall a b, (a - b >= / 1000000 \/ a - b <= - (/ 1000000)) -> ~ at_time a b.
Proof. intros a b H X. apply Rabs_def2 in X. lra. Qed.
Ltac now_ := apply near_num; cbn [INR]; lra.
Ltac not_now := apply far_num; cbn [INR]; lra.
Ltac no_due := apply due_none; repeat split; not_now.
Lemma named0 : well_named nm0 es0.
Proof.
  assert (A : stands_for "1" "1 ").
  { exists ["1"%char]. split; [split; [discriminate|]|split; [apply (sp_plain ["1"%char] 0 0)|reflexivity]]. constructor; [repeat split; discriminate|constructor]. }
  assert (B : stands_for " 2" "2 ").
  { exists ["2"%char]. split; [split; [discriminate|]|split; [apply (sp_plain ["2"%char] 1 0)|reflexivity]]. constructor; [repeat split; discriminate|constructor]. }
  intros e t [<-|[<-|[<-|[<-|[]]]]] E; cbn in E; try discriminate; injection E as <-; cbn; auto.
Qed.
Lemma ok0 : ok_run nm0 es0 pl0 pl0 (step_times 0 1 4).
Proof.
  assert (C4 : forall now i e1 e2 e3 e4 l1 l2 l3 l4 l, l = l1 ++ l2 ++ l3 ++ l4 -> due nm0 now i e1 l1 -> due nm0 now (S i) e2 l2 -> due nm0 now (S (S i)) e3 l3 ->
    due nm0 now (S (S (S i))) e4 l4 -> all_due nm0 now i [e1; e2; e3; e4] l).
  { intros now i e1 e2 e3 e4 l1 l2 l3 l4 l -> D1 D2 D3 D4. rewrite <- (app_nil_r l4). repeat (apply ad_cons; [assumption|]). constructor. }
  unfold step_times; cbn [seq map].
  apply okr_cons with (acts := [Start 0 10 0 100]); [|split; [|exact I]|apply okr_cons with (acts := [Stop 0; Line_ 20 10 "1 " false]);
    [|split; [|split; [|exact I]]|apply okr_cons with (acts := [Gen_ 10 "1 " false]); [|split; [|exact I]|apply okr_cons with (acts := [Line_ 10 20 "2 " true]); [|split; [|exact I]|constructor]]]].
  - eapply C4; [|apply due_start; now_|no_due|no_due|no_due]. reflexivity.
  - cbn. split; [auto|split; [auto|]]. intros k E. injection E as <-. eexists; split; reflexivity.
  - eapply C4; [|apply due_stop; [not_now|now_]|apply due_line; now_|no_due|no_due]. reflexivity.
  - cbn. right. eexists. split; reflexivity.
  - cbn. exists 0%nat, (Arc 0 1 [lnA; lnB]). split; [reflexivity|split; [reflexivity|split; [|split; [|split; [|discriminate]]]]].
    + intros j y E _. destruct j as [|[|j]]; cbn in E; [auto|discriminate|discriminate].
    + cbn. intros l E. injection E as <-. cbn. repeat split.
    + intros k nd E _. destruct k as [|[|[|k]]]; cbn in E; try discriminate; injection E as <-; reflexivity.
  - eapply C4; [|no_due|no_due|apply due_gen; now_|no_due]. reflexivity.
  - cbn. intros k E. injection E as <-. eexists. split; [left; reflexivity|reflexivity].
  - eapply C4; [|no_due|no_due|no_due|apply due_line; now_]. reflexivity.
  - cbn. eexists 0%nat, _. split; [reflexivity|split; [reflexivity|split; [|split; [|split; [|intros _]]]]].
    + intros j y E _. destruct j as [|[|j]]; cbn in E; [auto|discriminate|discriminate].
    + cbn. intros l E. injection E as <-. cbn. repeat split.
    + intros k nd E _. destruct k as [|[|[|k]]]; cbn in E; try discriminate; injection E as <-; reflexivity.
    + eexists. split; [reflexivity|]. exists lnA. split; [left|]; reflexivity.
Qed.
(** A fault is cleared and the faulted circuit opened one step later, then the generator is tripped and the other circuit closed. *)
Example C57_nonvacuous : exists Y steps st, right 100 pl0 Y /\ run 10 1 4 0 es0 ([pc0], Y) = Ok (steps, st, true) /\ length steps = 4%nat /\ follows 100 nm0 es0 pl0 steps.
Proof.
  exists (assembled (mk_net 100 gr) (ground pl0)).
  destruct (@C57_matrix_partial 100 nm0 pl0 [pc0] _ es0 0 1 4 4 sane0 spread0 (fun _ => ex_intro _ pc0 (conj eq_refl whole0)) right0 named0) as (steps & st & d & E & F).
  - repeat constructor; cbn; auto.
  - exact ok0.
  - destruct (C57_run_time _ _ _ _ _ _ E) as (N1 & N2 & N3 & N4 & N5).
    assert (L : length steps = 4%nat).
    { destruct d; [|auto]. specialize (N4 eq_refl). unfold Rabs in N4. destruct (length steps) as [|[|[|[|[|n]]]]]; try lia; auto; cbn [INR] in N4; destruct (Rcase_abs _) in N4; lra. }
    assert (M : forall n m h tend es now st x, (n <= m)%nat -> (exists l a, x = (l, a, true) /\ run n h tend now es st = Ok x) -> run m h tend now es st = Ok x).
    { induction n as [|n IH]; intros m h tend es now st0 x Hm (l & a & -> & E0); cbn [run] in E0; [discriminate|]. destruct m as [|m]; [lia|]. cbn [run].
      destruct (Rlt_dec (/ 1000000) (Rabs (tend - now))); auto. destruct (handle_events now es st0) as [s1| |]; cbn [obind] in *; auto.
      destruct (run n h tend (now + h) es s1) as [[[l1 s2] d1]| |] eqn:E1; cbn [obind] in E0; try discriminate. injection E0 as <- <- ->.
      rewrite (IH m h tend es (now + h) s1 (l1, s2, true)); [reflexivity|lia|eauto]. }
    assert (X : exists steps st, run 10 1 4 0 es0 ([pc0], assembled (mk_net 100 gr) (ground pl0)) = Ok (steps, st, true) /\ length steps = 4%nat /\ follows 100 nm0 es0 pl0 steps).
    { exists steps, st. split; [|split; auto]. apply (M 5%nat); [lia|]. exists steps, st. split; [reflexivity|].
      assert (Q : forall n h tend es now s0 l a, run n h tend now es s0 = Ok (l, a, false) -> Rabs (tend - (now + INR n * h)) <= / 1000000 -> run (S n) h tend now es s0 = Ok (l, a, true)).
      { clear. induction n as [|n IH]; intros h tend es now s0 l a E H.
        - cbn in E. injection E as <- <-. cbn [run]. cbn [INR] in H. replace (now + 0 * h) with now in H by ring. destruct (Rlt_dec (/ 1000000) (Rabs (tend - now))); [lra|reflexivity].
        - cbn [run] in E. cbn [run]. destruct (Rlt_dec (/ 1000000) (Rabs (tend - now))); [|discriminate]. destruct (handle_events now es s0) as [s1| |]; cbn [obind] in *; try discriminate.
          destruct (run n h tend (now + h) es s1) as [[[l1 s2] d1]| |] eqn:E1; cbn [obind] in E; try discriminate. injection E as <- <- ->.
          specialize (IH h tend es (now + h) s1 l1 s2 E1). cbn [run] in IH. rewrite IH; [reflexivity|]. rewrite S_INR in H. replace (now + h + INR n * h) with (now + (INR n + 1) * h) by ring. auto. }
      destruct d; [|apply Q; auto; cbn [INR]; rewrite Rabs_left1; lra].
      apply (M 4%nat); [lia|]. eauto. }
    destruct X as (st1 & st2 & X). exists st1, st2. split; [exact right0|exact X].
Qed.
(** The same plant on two processes, each with one active bus and a ghost of the other: faults and generator switching are covered. *)
Definition ghost (b : dbus) : dbus := Dbus (bu_num b) (bu_idx b) false (bu_iso b) (bu_fault b) (bu_yii b) (bu_ygen b) (bu_gens b) (bu_mach b).
Definition pcA : proc := Proc [nth 0 bs0 (Dbus 0 0 true true None None None [] []); ghost (nth 1 bs0 (Dbus 0 0 true true None None None [] []))] [].
Definition pcB : proc := Proc [ghost (nth 0 bs0 (Dbus 0 0 true true None None None [] [])); nth 1 bs0 (Dbus 0 0 true true None None None [] [])] [].
Example C57_processes_nonvacuous : spread pl0 [pcA; pcB] /\ exists steps st d, run 3 1 4 0 [EFault 0 1 10 0 100; EGen 2 10 "1" 0] ([pcA; pcB], assembled (mk_net 100 gr) (ground pl0)) = Ok (steps, st, d) /\
  follows 100 nm0 [EFault 0 1 10 0 100; EGen 2 10 "1" 0] pl0 steps /\ length steps = 3%nat.
Proof.
  assert (Sp : spread pl0 [pcA; pcB]).
  { split; [|split].
    - intros p b [<-|[<-|[]]] [<-|[<-|[]]]; unfold shows; cbn; (split; [reflexivity|split; [eexists; split; reflexivity|]]); repeat (split; [reflexivity|]); split; repeat constructor.
    - intros p [<-|[<-|[]]]; cbn; (constructor; [cbn; lia|]); constructor; [easy|constructor|easy|constructor].
    - cbn. apply Permutation_refl. }
  split; auto.
  destruct (@C57_matrix_partial 100 nm0 pl0 [pcA; pcB] (assembled (mk_net 100 gr) (ground pl0)) [EFault 0 1 10 0 100; EGen 2 10 "1" 0] 0 1 4 3 sane0 Sp) as (steps & st & d & E & F).
  - intros (t & a & b & tag & st & [H|[H|[]]]); discriminate.
  - exact right0.
  - intros e t [<-|[<-|[]]] H; cbn in H; [discriminate|]. apply (@named0 (EGen 2 10 "1" 0) t); auto. cbn; auto.
  - repeat constructor; cbn; auto.
  - assert (C2 : forall now e1 e2 l1 l2 l, l = l1 ++ l2 -> due nm0 now 0 e1 l1 -> due nm0 now 1 e2 l2 -> all_due nm0 now 0 [e1; e2] l).
    { intros now e1 e2 l1 l2 l -> D1 D2. rewrite <- (app_nil_r l2). repeat (apply ad_cons; [assumption|]). constructor. }
    unfold step_times; cbn [seq map]. apply okr_cons with (acts := [Start 0 10 0 100]); [|split; [|exact I]|apply okr_cons with (acts := [Stop 0]); [|split; [|exact I]|apply okr_cons with (acts := [Gen_ 10 "1 " false]); [|split; [|exact I]|constructor]]].
    + eapply C2; [|apply due_start; now_|no_due]. reflexivity.
    + cbn. split; [auto|split; [auto|]]. intros k E. injection E as <-. eexists; split; reflexivity.
    + eapply C2; [|apply due_stop; [not_now|now_]|no_due]. reflexivity.
    + cbn. right. eexists. split; reflexivity.
    + eapply C2; [|no_due|apply due_gen; now_]. reflexivity.
    + cbn. intros k E. injection E as <-. eexists. split; [left; reflexivity|reflexivity].
  - exists steps, st, d. split; [auto|split; auto]. destruct (C57_run_time _ _ _ _ _ _ E) as (N1 & N2 & N3 & N4 & N5).
    destruct d; [|auto]. specialize (N4 eq_refl). unfold Rabs in N4. destruct (length steps) as [|[|[|[|n]]]]; try lia; auto; cbn [INR] in N4; destruct (Rcase_abs _) in N4; lra.
Qed.

(** *** Where the matrix is wrong *)
Ltac go_near := repeat match goal with |- context [near ?a ?b] =>
  first [rewrite (proj2 (near_spec a b)) by (apply near_num; lra) | rewrite (@near_not a b) by (apply far_num; lra)] end.
Ltac go_run := match goal with |- context [Rlt_dec ?a ?b] => let H := fresh in destruct (Rlt_dec a b) as [H|H]; [|exfalso; apply H; unfold Rabs; destruct (Rcase_abs _); lra] end.
Definition bus (n : Z) (k : nat) : dbus := Dbus n k true false None None None [] [].
(** Two faults at different buses that overlap in time: starting the second adds the admittance of the first again, and ending the first ends
    both. Afterwards, with no fault left, the bus of the first fault still has the admittance of a fault, and while only the second
    fault should be in force its bus has none. *)
Theorem C57_overlapping_faults_refuted : forall (Y : mat) (B1 B2 : R), B1 <> 0 -> B2 <> 0 ->
  exists Y0 Y1 Y2 Y3 st, run 4 1 4 0 [EFault 0 2 1 0 B1; EFault 1 3 2 0 B2] ([Proc [bus 1 0; bus 2 1] []], Y) = Ok ([(0, Y0); (0 + 1, Y1); (0 + 1 + 1, Y2); (0 + 1 + 1 + 1, Y3)], (st, Y3), false) /\
    Y2 1%nat 1%nat = Y 1%nat 1%nat /\ Y3 0%nat 0%nat = Cplus (Y 0%nat 0%nat) (0, - B1) /\ Y3 0%nat 0%nat <> Y 0%nat 0%nat.
Proof.
  intros Y B1 B2 H1 H2. cbn [run]. repeat go_run. repeat (progress (cbn [handle_events handle_event]; go_near; cbn [each start_fault bus_pos find_pos bus bu_num Z.eqb Pos.eqb pr_bus pr_br option_map on_bus nth_error obind upd
    set_fault increment inc_buses bu_act bu_idx bu_iso bu_fault bu_yii bu_ygen bu_gens bu_mach diag_change snd fst])).
  eexists _, _, _, _, _. split; [reflexivity|]. unfold add_at; cbn [Nat.eqb andb]. split; [|split].
  - apply Cext; cbn; ring.
  - apply Cext; cbn; ring.
  - intros E. apply (f_equal snd) in E. cbn in E. lra.
Qed.
Print Assumptions C57_overlapping_faults_refuted.

(** One node without anything connected. *)
Definition plain : plant := Plant [1%Z] (Grid [Node false [] None] []) [[]] [] (fun _ => RtoC 0).
Lemma plain_right : right 1 plain (fun _ _ => RtoC 0).
Proof.
  intros k nd Hk Hi V j. destruct k as [|[|k]]; cbn in Hk; try discriminate. injection Hk as <-. unfold leaves, out_of, times, ground. cbn. split.
  - intros (i & (n & i0 & E & F & ->) & ->). inversion F; subst. injection E as <-. unfold shunt_total. cbn. apply Cext; cbn; field.
  - intros <-. exists (RtoC 0). split.
    + exists (Node false [] None), (RtoC 0). split; [auto|split; [constructor|]]. unfold shunt_total. cbn. apply Cext; cbn; field.
    + apply Cext; cbn; ring.
Qed.
(** A fault with conductance G and susceptance B changes the admittance at its bus by -G - jB instead of G - jB (dsf_components.cpp:282-300). *)
Theorem C57_fault_conductance_refuted : forall G B, G <> 0 ->
  right 1 plain (fun _ _ => RtoC 0) /\ spread plain [Proc [bus 1 0] []] /\
  exists w' Y', handle_event 0 (EFault 0 1 1 G B) ([Proc [bus 1 0] []], fun _ _ => RtoC 0) = Ok (w', Y') /\
    Y' 0%nat 0%nat = (- G, - B) /\ ~ right 1 (act plain (Start 0 1 G B)) Y'.
Proof.
  intros G B HG. split; [exact plain_right|split].
  { split; [|split].
    - intros p b [<-|[]] [<-|[]]. unfold shows; cbn. split; [reflexivity|split; [eexists; split; reflexivity|]]. repeat (split; [reflexivity|]). split; constructor.
    - intros p [<-|[]]. cbn. constructor; [easy|constructor].
    - cbn. apply Permutation_refl. }
  cbn [handle_event]. go_near. cbn. eexists _, _. split; [reflexivity|].
  assert (E : add_at 0 0 (- G, - B) (fun _ _ => RtoC 0) 0%nat 0%nat = (- G, - B)) by (unfold add_at; cbn; apply Cext; cbn; ring).
  split; [exact E|]. intros R. specialize (R 0%nat (Node false [] None) eq_refl eq_refl (fun _ => RtoC 1) (G, - B)).
  assert (L : leaves (act plain (Start 0 1 G B)) 1 (fun _ => RtoC 1) 0 (G, - B)).
  { exists (RtoC 0). split.
    - exists (Node false [] None), (RtoC 0). split; [reflexivity|split; [constructor|]]. unfold shunt_total. cbn. apply Cext; cbn; field.
    - unfold ground. cbn. apply Cext; cbn; ring. }
  apply R in L. unfold times in L. cbn [act plain pl_num length seq map] in L. cbn [where_ plain pl_num Z.eqb Pos.eqb] in L. cbn [length pl_num seq map] in L. rewrite E in L.
  unfold total in L. cbn [fold_right] in L. apply (f_equal fst) in L. cbn in L. lra.
Qed.
Print Assumptions C57_fault_conductance_refuted.

Definition lnS : line := Line "1 " 0 1 0 0 0 1 0 0 0 true false.
Definition grS : grid := Grid [Node false [] None; Node false [] None] [Arc 0 1 [lnS]].
Definition plS : plant := Plant [1; 2]%Z grS [[]; []] [] (fun _ => RtoC 0).
Definition pcS : proc := Proc [bus 1 0; bus 2 1] [Dbr 1 2 (mk_branch (Arc 0 1 [lnS])) None].
Lemma two_zero : forall l k (c : C), impedance l <> RtoC 0 -> lserv l = true -> ltap l = 0 -> lb l = 0 -> lb1 l = 0 -> lg2 l = 0 -> lb2 l = 0 -> lrev l = false -> k = Cmult (lg1 l, 0) c -> at_branch l c c k (RtoC 0).
Proof.
  intros l k c Hz Sv Ta Lb B1 G2 B2 Rv ->. unfold at_branch. rewrite Rv. unfold element. rewrite Sv. exists (RtoC 0), (RtoC 0). split; [|split].
  - unfold two_port, turns. destruct (Req_EM_T (ltap l) 0); [|easy]. exists c, (RtoC 0). rewrite Lb. split; [ring|split; [|split]]; apply Cext; cbn; try ring; field.
  - rewrite B1. ring.
  - rewrite G2, B2. apply Cext; cbn; ring.
Qed.
Lemma startS : forall ls, Forall wf_line ls -> Forall simple_line ls -> let P := Plant [1; 2]%Z (Grid [Node false [] None; Node false [] None] [Arc 0 1 ls]) [[]; []] [] (fun _ => RtoC 0) in
  sane P /\ right 1 P (assembled (mk_net 1 (pl_grid P)) (ground P)) /\ spread P [Proc [bus 1 0; bus 2 1] [Dbr 1 2 (mk_branch (Arc 0 1 ls)) None]] /\
  whole P (Proc [bus 1 0; bus 2 1] [Dbr 1 2 (mk_branch (Arc 0 1 ls)) None]).
Proof.
  intros ls Wf Sl P. rewrite Forall_forall in Wf, Sl.
  assert (Sa : sane P).
  { unfold sane; cbn. split; [auto|split; [auto|split; [|split; [|split; [auto|split]]]]].
    - constructor; [cbn; lia|]. constructor; [easy|constructor].
    - intros [|[|[|k]]]; constructor.
    - intros x [<-|[]]. cbn. lia.
    - intros x l [<-|[]] Hl. auto. }
  split; [exact Sa|split; [|split]].
  - apply start_right; [lra|exact Sa| | | |apply mk_loaded; lra].
    + split; [|split].
      * intros x [<-|[]]. cbn. lia.
      * intros x l [<-|[]] Hl. auto.
      * intros x l k n [<-|[]] _ E Hn [<-|<-]; cbn in E; injection E as <-; discriminate Hn.
    + repeat (apply Forall_cons; [left; reflexivity|]). constructor.
    + intros x l [<-|[]] Hl. auto.
  - split; [|split].
    + intros p b [<-|[]] [<-|[<-|[]]]; unfold shows; cbn; (split; [reflexivity|split; [eexists; split; reflexivity|]]); repeat (split; [reflexivity|]); split; constructor.
    + intros p [<-|[]]. cbn. constructor; [cbn; lia|]. constructor; [easy|constructor].
    + cbn. apply Permutation_refl.
  - split; [reflexivity|]. cbn. constructor; [|constructor]. cbn. repeat (split; [reflexivity|]). exists (map dat ls). split; [apply dats_ok|]. rewrite (load_branch_ok _ _ (dats_ok ls)). reflexivity.
Qed.
Lemma tag1 : stands_for "1" "1 ".
Proof. exists ["1"%char]. split; [split; [discriminate|]|split; [apply (sp_plain ["1"%char] 0 0)|reflexivity]]. constructor; [repeat split; discriminate|constructor]. Qed.
Lemma getS : getLineElements (mk_branch (Arc 0 1 [lnS])) "1 " = (Copp (- RtoC 1 / (0, 1)), - RtoC 1 / (0, 1))%C /\ getRvrsLineElements (mk_branch (Arc 0 1 [lnS])) "1 " = (Copp (- RtoC 1 / (0, 1)), - RtoC 1 / (0, 1))%C.
Proof.
  unfold getLineElements, getRvrsLineElements, mk_branch. cbn [yel a1 a2 ael map find_tag elem_of etag ltag lnS String.eqb Ascii.eqb Bool.eqb exform ltap zz eR eX lr lx eB lb].
  destruct (Req_EM_T 0 0) as [_|N]; [|easy]. change (zz (elem_of lnS)) with ((0, 1) : C). destruct (Ceq_dec (0, 1) (RtoC 0)) as [E|_]; [injection E; lra|].
  change ((0, 0) : C) with (RtoC 0). split; f_equal; ring.
Qed.
Lemma inflow_eq : forall V k l j j', j = j' -> inflow V k l j -> inflow V k l j'.
Proof. intros V k l j j' <-. auto. Qed.
(** A line with a conductance at one end is opened: the conductance stays in the matrix, because the elements of a single circuit are
    computed without the shunts at its ends (ymatrix_components.cpp:631-723). *)
Theorem C57_end_shunts_refuted : exists Y w' Y', sane plS /\ whole plS pcS /\ spread plS [pcS] /\ right 1 plS Y /\
  handle_event 0 (ELine 0 1 2 "1" 0) ([pcS], Y) = Ok (w', Y') /\ ~ right 1 (act plS (Line_ 1 2 "1 " false)) Y'.
Proof.
  destruct (@startS [lnS]) as (S1 & S2 & S3 & S4).
  { constructor; [|constructor]. unfold wf_line, impedance; cbn. intros E; injection E; lra. } { constructor; [left; reflexivity|constructor]. }
  set (Y := assembled _ _) in S2. fold grS plS in *. cbv zeta in *. cbn [handle_event]. destruct getS as [G1 G2].
  assert (Em : forall Y, exists w' Y', (if near 0 0 then obind (each (set_line 1 2 "1" 0) [pcS]) (fun w => Ok (increment LineChange w Y)) else Ok ([pcS], Y)) = Ok (w', Y') /\
    Cplus (Y' 0%nat 0%nat) (Y' 0%nat 1%nat) = Cplus (Y 0%nat 0%nat) (Y 0%nat 1%nat)).
  { intros Z. go_near. cbn [each]. unfold set_line. cbn [pcS pr_br br_pos find_pos br_f br_t Z.eqb Pos.eqb andb nth_error]. rewrite (clean_ok tag1). cbn [obind br_b]. rewrite G1, G2.
    cbn [negb Z.eqb getLineStatus mk_branch yel ael map find_tag elem_of etag ltag lnS String.eqb Ascii.eqb Bool.eqb estat lserv].
    cbn. eexists _, _. split; [reflexivity|]. unfold add_at; cbn. apply Cext; cbn; field. }
  destruct (Em Y) as (w' & Y' & E1 & E2). exists Y, w', Y'. split; [exact S1|split; [exact S4|split; [exact S3|split; [exact S2|split; [exact E1|]]]]].
  intros R. specialize (R 0%nat (Node false [] None) eq_refl eq_refl (fun _ => RtoC 1)). specialize (S2 0%nat (Node false [] None) eq_refl eq_refl (fun _ => RtoC 1)).
  assert (L1 : leaves plS 1 (fun _ => RtoC 1) 0 (RtoC 1)).
  { exists (RtoC 1). split; [|unfold ground; cbn; apply Cext; cbn; ring]. exists (Node false [] None), (RtoC 1). split; [reflexivity|split].
    - cbn [plS pl_grid grS garc]. apply (@inflow_eq _ _ _ (Cplus (Cplus (RtoC 1) (RtoC 0)) (RtoC 0))); [ring|].
      eapply if_one; cbn [a1 a2 ael]; [apply bc_cons; [|apply bc_nil]|apply if_nil|reflexivity|lia].
      apply two_zero; cbn; auto. { intros E; injection E; lra. } apply Cext; cbn; ring.
    - unfold shunt_total. cbn. apply Cext; cbn; field. }
  assert (L2 : leaves (act plS (Line_ 1 2 "1 " false)) 1 (fun _ => RtoC 1) 0 (RtoC 0)).
  { exists (RtoC 0). split; [|unfold ground; cbn; apply Cext; cbn; ring]. exists (Node false [] None), (RtoC 0). split; [reflexivity|split].
    - cbn. apply (@inflow_eq _ _ _ (Cplus (Cplus (RtoC 0) (RtoC 0)) (RtoC 0))); [ring|].
      eapply if_one; cbn [a1 a2 ael]; [apply bc_cons; [|apply bc_nil]|apply if_nil|reflexivity|lia].
      apply at_off; [reflexivity|split; reflexivity].
    - unfold shunt_total. cbn. apply Cext; cbn; field. }
  apply S2 in L1. apply R in L2. unfold times in L1, L2. cbn [act plS pl_num length seq map] in L1, L2. unfold total in L1, L2. cbn [fold_right] in L1, L2.
  assert (X : RtoC 1 = RtoC 0).
  { rewrite <- L1. rewrite <- L2 at 2. replace (Y 0%nat 0%nat * 1 + (Y 0%nat 1%nat * 1 + 0))%C with (Cplus (Y 0%nat 0%nat) (Y 0%nat 1%nat)) by ring. rewrite <- E2. ring. }
  injection X. lra.
Qed.
Print Assumptions C57_end_shunts_refuted.

(** Three buses on two processes; the first owns buses 1 and 3, the second bus 2. *)
Definition gbus (n : Z) (k : nat) : dbus := Dbus n k false false None None None [] [].
Definition lnP : line := Line "1 " 0 1 0 0 0 0 0 0 0 true false.
Definition brP : list dbr := [Dbr 1 2 (mk_branch (Arc 0 1 [lnP])) None; Dbr 3 2 (mk_branch (Arc 2 1 [lnP])) None].
Definition wP : list proc := [Proc [bus 1 0; gbus 2 1; bus 3 2] brP; Proc [gbus 1 0; bus 2 1; gbus 3 2] brP].
Lemma getP : forall a b, getLineElements (mk_branch (Arc a b [lnP])) "1 " = (Copp (- RtoC 1 / (0, 1)), - RtoC 1 / (0, 1))%C /\ getRvrsLineElements (mk_branch (Arc a b [lnP])) "1 " = (Copp (- RtoC 1 / (0, 1)), - RtoC 1 / (0, 1))%C.
Proof.
  intros a b. unfold getLineElements, getRvrsLineElements, mk_branch. cbn [yel a1 a2 ael map find_tag elem_of etag ltag lnP String.eqb Ascii.eqb Bool.eqb exform ltap zz eR eX lr lx eB lb].
  destruct (Req_EM_T 0 0) as [_|N]; [|easy]. change (zz (elem_of lnP)) with ((0, 1) : C). destruct (Ceq_dec (0, 1) (RtoC 0)) as [E|_]; [injection E; lra|].
  change ((0, 0) : C) with (RtoC 0). split; f_equal; ring.
Qed.
Ltac line_step := cbn [each]; unfold set_line; cbn [pr_br br_pos find_pos br_f br_t Z.eqb Pos.eqb andb nth_error option_map]; rewrite ?(clean_ok tag1); cbn [obind br_b].
(** Opening the line between buses 1 and 2 and then the one between buses 3 and 2, on two processes: the second event changes the element of
    buses 1 and 2 again, because the process that owns bus 1 but not bus 2 does not forget the first change
    (dsf_components.cpp:3331-3336 clears the flag with the reverse element only). *)
Theorem C57_line_processes_refuted : forall Y : mat, exists w1 Y1 w2 Y2,
  handle_event 0 (ELine 0 1 2 "1" 0) (wP, Y) = Ok (w1, Y1) /\ handle_event 0 (ELine 0 3 2 "1" 0) (w1, Y1) = Ok (w2, Y2) /\
  Y2 0%nat 1%nat <> Y1 0%nat 1%nat.
Proof.
  intros Y. cbn [handle_event]. go_near. destruct (getP 0 1) as [G1 G2]. destruct (getP 2 1) as [G3 G4]. unfold wP, brP.
  set (y := (- RtoC 1 / (0, 1))%C) in *. assert (Ny : y <> RtoC 0). { subst y. intros E. apply (f_equal snd) in E. cbn in E. field_simplify in E. lra. }
  clearbody y.
  assert (St : forall a b, getLineStatus (mk_branch (Arc a b [lnP])) "1 " = true) by reflexivity.
  line_step. rewrite !G1, !G2, !St. cbn [Bool.eqb negb Z.eqb]. eexists _, _, _, _. split; [cbn; reflexivity|].
  line_step. rewrite !G3, !G4, !St. split; [cbn; reflexivity|]. unfold add_at; cbn. intros E. apply Ny.
  pose proof (f_equal fst E) as E1. pose proof (f_equal snd E) as E2. cbn in E1, E2. apply Cext; cbn; lra.
Qed.
Print Assumptions C57_line_processes_refuted.

(** A line event on a process that does not hold the branch: the first entry of an empty vector is read (dsf_app_module2.cpp:357-370). *)
Theorem C57_line_elsewhere_refuted : forall Y : mat, handle_event 0 (ELine 0 1 2 "1" 0) ([Proc [bus 1 0; bus 2 1] [Dbr 1 2 (mk_branch (Arc 0 1 [lnP])) None]; Proc [bus 3 2] []], Y) = UB.
Proof.
  intros Y. cbn [handle_event]. go_near. line_step. destruct (getP 0 1) as [G1 G2]. rewrite G1, G2. reflexivity.
Qed.
Print Assumptions C57_line_elsewhere_refuted.

(** A branch with nothing in service when it was loaded, and one of its circuits closed: only the diagonal elements change (dsf_components.cpp:3232-3250). *)
Theorem C57_closing_refuted : let off := Line "1 " 0 1 0 0 0 0 0 0 0 false false in forall Y : mat, exists w' Y',
  handle_event 0 (ELine 0 1 2 "1" 1) ([Proc [bus 1 0; bus 2 1] [Dbr 1 2 (mk_branch (Arc 0 1 [off])) None]], Y) = Ok (w', Y') /\
  Y' 0%nat 0%nat = Cplus (Y 0%nat 0%nat) (RtoC 1 / (0, 1))%C /\ Y' 0%nat 1%nat = Y 0%nat 1%nat /\ Y' 1%nat 0%nat = Y 1%nat 0%nat.
Proof.
  intros off Y. cbn [handle_event]. go_near.
  assert (G : getLineElements (mk_branch (Arc 0 1 [off])) "1 " = (Copp (- RtoC 1 / (0, 1)), - RtoC 1 / (0, 1))%C /\ getRvrsLineElements (mk_branch (Arc 0 1 [off])) "1 " = (Copp (- RtoC 1 / (0, 1)), - RtoC 1 / (0, 1))%C) by exact (getP 0 1).
  destruct G as [G1 G2]. line_step. rewrite G1, G2. eexists _, _. split; [cbn; reflexivity|]. unfold add_at; cbn. split; [|auto]. f_equal. unfold Cdiv. ring.
Qed.
Print Assumptions C57_closing_refuted.

Definition gb (on mon : bool) (y : C) : dbus := Dbus 1 0 true false None None None [Dgen "1 " on] [Dmach mon y].
(** A status other than 0 and 1 for a generator that is in service: its admittance is added once more. *)
Theorem C57_generator_code_refuted : forall (Y : mat) y, exists w' Y',
  handle_event 0 (EGen 0 1 "1" 2) ([Proc [gb true true y] []], Y) = Ok (w', Y') /\ w' = [Proc [gb true true y] []] /\ Y' 0%nat 0%nat = Cplus (Y 0%nat 0%nat) y.
Proof.
  intros Y y. cbn [handle_event]. go_near. cbn [each]. unfold set_gen, bus_gen_status. cbn [pr_bus bus_pos find_pos gb bu_num Z.eqb Pos.eqb on_bus nth_error]. rewrite (clean_ok tag1).
  cbn. eexists _, _. split; [reflexivity|]. split; reflexivity.
Qed.
Print Assumptions C57_generator_code_refuted.
(** A generator that is out of service in the case: its machine object counts as in service, so closing it does nothing, and opening it
    takes an admittance out of the matrix that was never in it. *)
Theorem C57_generator_out_refuted : forall (Y : mat) y,
  (exists w' Y', handle_event 0 (EGen 0 1 "1" 1) ([Proc [gb false true y] []], Y) = Ok (w', Y') /\ w' = [Proc [gb false true y] []] /\ Y' = Y) /\
  (exists w' Y', handle_event 0 (EGen 0 1 "1" 0) ([Proc [gb false true y] []], Y) = Ok (w', Y') /\ Y' 0%nat 0%nat = Cplus (Y 0%nat 0%nat) (Copp y)) /\
  jxd [Dgen "1 " false] [Dmach true y] = RtoC 0.
Proof.
  intros Y y. cbn [handle_event]. go_near. cbn [each]. unfold set_gen, bus_gen_status. cbn [pr_bus bus_pos find_pos gb bu_num Z.eqb Pos.eqb on_bus nth_error]. rewrite (clean_ok tag1).
  cbn. split; [|split; [|reflexivity]]; eexists _, _; (split; [reflexivity|]); auto.
Qed.
Print Assumptions C57_generator_out_refuted.
(** An event for a generator the bus does not have: the generator with index -1 is used (dsf_components.cpp:131-176). *)
Theorem C57_unknown_generator_refuted : forall Y : mat, handle_event 0 (EGen 0 1 "1" 0) ([Proc [bus 1 0] []], Y) = UB.
Proof. intros Y. cbn [handle_event]. go_near. cbn [each]. unfold set_gen, bus_gen_status. cbn [pr_bus bus_pos find_pos bus bu_num Z.eqb Pos.eqb on_bus nth_error]. rewrite (clean_ok tag1). reflexivity. Qed.
Print Assumptions C57_unknown_generator_refuted.
(** After a generator was tripped, resetting the simulation and loading the case again leaves the generator out of the matrix although its
    data say that it is in service. *)
Theorem C57_reset_refuted : forall y : C, let b := gb false false y in let b' := reload [Dgen "1 " true] [y] b in
  bu_gens b' = [Dgen "1 " false] /\ jxd (bu_gens b') (bu_mach b') = RtoC 0 /\ jxd [Dgen "1 " true] [Dmach true y] = y.
Proof. intros y. cbn. split; [auto|split; [auto|ring]]. Qed.
Print Assumptions C57_reset_refuted.

(** The loop goes on for ever when the end time is not within a microsecond of a step (dsf_app_module2.cpp:402-415). *)
Theorem C57_end_refuted : forall fuel es st steps st' d, run fuel (3/10) 1 0 es st = Ok (steps, st', d) -> d = false /\ length steps = fuel.
Proof.
  intros fuel es st steps st' d E. destruct (C57_run_time _ _ _ _ _ _ E) as (N1 & N2 & N3 & N4 & N5). destruct d; [|auto]. exfalso. specialize (N4 eq_refl).
  remember (length steps) as n eqn:En. clear En. assert (X : INR n = 0 \/ INR n = 1 \/ INR n = 2 \/ INR n = 3 \/ INR n >= 4).
  { destruct n as [|[|[|[|n]]]]; [left; reflexivity|right; left; reflexivity|right; right; left; cbn; lra|right; right; right; left; cbn; lra|]. right; right; right; right. rewrite !S_INR. pose proof (pos_INR n). lra. }
  unfold Rabs in N4. destruct (Rcase_abs _) in N4; lra.
Qed.
Print Assumptions C57_end_refuted.
(** A fault that ends between two steps is never ended. *)
Theorem C57_missed_refuted : forall (Y : mat) B, B <> 0 -> exists steps st Y', run 5 1 4 0 [EFault 0 (3/2) 1 0 B] ([Proc [bus 1 0] []], Y) = Ok (steps, (st, Y'), true) /\
  Y' 0%nat 0%nat = Cplus (Y 0%nat 0%nat) (0, - B) /\ Y' 0%nat 0%nat <> Y 0%nat 0%nat.
Proof.
  intros Y B HB. cbn [run]. repeat go_run. match goal with |- context [Rlt_dec ?a ?b] => let H := fresh in destruct (Rlt_dec a b) as [H|H]; [exfalso; revert H; unfold Rabs; destruct (Rcase_abs _); lra|] end.
  repeat (progress (cbn [handle_events handle_event]; go_near; cbn [each start_fault bus_pos find_pos bus bu_num Z.eqb Pos.eqb pr_bus pr_br option_map on_bus nth_error obind upd
    set_fault increment inc_buses bu_act bu_idx bu_iso bu_fault bu_yii bu_ygen bu_gens bu_mach diag_change snd fst])).
  eexists _, _, _. split; [reflexivity|]. unfold add_at; cbn [Nat.eqb andb]. split.
  - apply Cext; cbn; ring.
  - intros E. apply (f_equal snd) in E. cbn in E. lra.
Qed.
Print Assumptions C57_missed_refuted.

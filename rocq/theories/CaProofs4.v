(** Proofs for C59, fourth part: the tasks of a process and of all processes. *)
From Verif Require Import Prelude PqModel PqSpec FmModel FmSpec FmProofs GAModel CaModel CaSpec CaProofs CaProofs2 CaProofs3.
From Verif Require TaskModel TaskSpec TaskProofs.
From Coq Require Import Reals Lra.
Open Scope R_scope.

Section Run.
Variable newton : proc -> sol.
Variables isref orig : nat -> bool.

Definition conv (z : sol) : bool := match z_end z with Converged => true | _ => false end.
Lemma solve_eq s : solve newton isref false s = Ok (place isref (newton (blank s)) (with_viol s []), newton (blank s), conv (newton (blank s))).
Proof.
  unfold solve, conv. cbn [solve_loop]. change (blank (with_viol s [])) with (blank s). destruct (z_end (newton (blank s))); reflexivity.
Qed.
Lemma say_ok a name b n : (String.length name <= n)%nat -> (String.length a + n + String.length b <= 127)%nat -> say a name b = Ok tt.
Proof. intros H K. unfold say. destruct (Nat.leb_spec (String.length a + String.length name + String.length b) 127); [reflexivity | lia]. Qed.
Lemma good_viol s v : good s -> good (with_viol s v). Proof. apply good_same; reflexivity. Qed.
Lemma place_viol z s v : place isref z (with_viol s v) = with_viol (place isref z s) v. Proof. reflexivity. Qed.

Lemma assess_eq s name : good s -> (String.length name <= 92)%nat ->
  exists v, assess newton isref orig false false (place isref (newton (blank s)) (with_viol s [])) (newton (blank s)) name =
    Ok (report isref orig true (verdict (blank s) (newton (blank s))) (blank s) (newton (blank s)), with_viol (place isref (newton (blank s)) s) v).
Proof.
  intros G L. rewrite place_viol. set (z := newton (blank s)). unfold assess. cbn [obind]. rewrite (voltage_eq isref orig z G). destruct (lines_eq isref z G []) as (v & E). rewrite E. exists v.
  rewrite tables_eq by exact G. unfold verdict. destruct (bus_bad (blank s) z), (line_bad (blank s) z); cbn [negb andb];
    rewrite ?(@say_ok (nl ++ "No violation for contingency ") name nl 92), ?(@say_ok (nl ++ "Bus Violation for contingency ") name nl 92), ?(@say_ok (nl ++ "Branch Violation for contingency ") name nl 92) by (auto; cbn; lia); reflexivity.
Qed.

Lemma task_eq s c : good s -> usable s c -> exists s3, task newton isref orig false false s c = Ok (expected newton isref orig (outage (snd c) (start s)), s3) /\ start s3 = start s.
Proof.
  destruct c as [name e]. intros G (D & S & L). cbn [fst snd] in *. set (s0 := reset_voltages s). assert (G0 : good s0) by (apply -> good_reset; exact G). assert (S0 : settled e s0) by (apply settled_reset; exact S).
  pose proof G0 as (W0 & T0 & H0). destruct (takes_out e W0 T0 (good_ids G0)) as (s1 & e1 & ok & E & _).
  destruct (set_outage W0 T0 (good_ids G0) (good_acts G0) S0 E) as (TP & B1). assert (X : blank s1 = outage e (start s)) by (rewrite B1; apply blank_outage).
  assert (G1 : good s1). { apply <- good_blank. rewrite X. apply good_outage. apply -> good_start. exact G. }
  unfold task. cbn [fst snd]. rewrite (@say_ok "" name ".out" 92) by (auto; cbn; lia). cbn [obind]. fold s0. rewrite E. cbn [obind]. rewrite solve_eq. cbn [obind]. set (z := newton (blank s1)).
  assert (R : exists r v, (if conv z then assess newton isref orig false false (place isref z (with_viol s1 [])) z name
      else obind (say (nl ++ "Divergent for contingency ") name nl) (fun _ => obind (no_tables orig (place isref z (with_viol s1 [])) z) (fun r => Ok (r, place isref z (with_viol s1 []))))) =
      Ok (r, with_viol (place isref z s1) v) /\ r = expected newton isref orig (outage e (start s))).
  { unfold conv. destruct (z_end z) eqn:Z.
    - destruct (assess_eq name G1 L) as (v & A). fold z in A. rewrite A. eexists. exists v. split; [reflexivity |]. unfold expected. rewrite <- X. fold z. now rewrite Z.
    - rewrite (@say_ok (nl ++ "Divergent for contingency ") name nl 92) by (auto; cbn; lia). cbn [obind]. rewrite (no_tables_eq isref orig z (good_viol [] G1)). cbn [obind]. eexists. exists []. split; [reflexivity |]. unfold expected. rewrite <- X. fold z. now rewrite Z.
    - rewrite (@say_ok (nl ++ "Divergent for contingency ") name nl 92) by (auto; cbn; lia). cbn [obind]. rewrite (no_tables_eq isref orig z (good_viol [] G1)). cbn [obind]. eexists. exists []. split; [reflexivity |]. unfold expected. rewrite <- X. fold z. now rewrite Z. }
  destruct R as (r & v & R1 & R2). rewrite R1. cbn [obind snd]. set (s2 := with_viol (place isref z s1) v).
  assert (TP2 : topology s2 = topology s1) by apply (place_topology isref z s1).
  assert (GO2 : gens_ok s2). { intros b I. unfold s2, place in I. cbn in I. apply in_mapi in I as (k & b0 & I & ->). destruct G1 as ((_ & _ & GO) & _). specialize (GO b0 I). unfold place_bus. cbn. destruct (u_iso b0 || isref k); exact GO. }
  destruct (@restores s0 e s1 e1 ok s2 W0 D E TP2 eq_refl GO2) as (s3 & U & TP3). rewrite U. cbn [obind fst]. exists s3. split; [now rewrite R2 |].
  assert (Ev : unsaved e1 = unsaved e) by (eapply set_event; eauto).
  assert (SK : forall q, skel e1 q = skel e q). { intros q. unfold skel. f_equal. f_equal. apply map_ext. intros b. now apply skelb_same. }
  assert (A1 : forall b, In b (s_bus s1) -> u_act b = true) by now apply good_acts.
  assert (A2 : forall b, In b (s_bus s2) -> u_act b = true) by (apply (acts2 isref z G1)).
  assert (K3 : skel e s3 = skel e s2) by (rewrite <- !SK; eapply skel_unset; eauto).
  assert (A3 : forall b, In b (s_bus s3) -> u_act b = true).
  { intros b I. destruct (skel_ids K3) as [M _]. apply (f_equal (map (fun p : bool * Z * list nat * list string => fst (fst (fst p))))) in M. rewrite !map_map in M. cbn in M. apply (in_map (fun x => u_act x)) in I. rewrite M in I. apply in_map_iff in I as (b2 & <- & I). auto. }
  assert (Acts : forall b, In b (s_bus s) -> u_act b = true) by now apply good_acts.
  assert (RR : skel e (reset_voltages s0) = skel e s0).
  { unfold s0. assert (Q : reset_voltages (reset_voltages s) = reset_voltages s); [| now rewrite Q]. unfold reset_voltages. cbn. unfold with_bus. cbn. f_equal. rewrite map_map. apply map_ext_in. intros b I. rewrite (Acts b I). cbn. rewrite (Acts b I). unfold with_q, reset_voltage, set_volt. cbn. destruct (q_xc (u_q b)) as [[[a w] p] |]; reflexivity. }
  assert (K : skel e (reset_voltages s3) = skel e s0).
  { transitivity (skel e (reset_voltages s2)); [now apply skel_reset |]. transitivity (skel e (reset_voltages s1)); [apply (place_skel isref e z s1 A1) |]. transitivity (skel e (reset_voltages s0)); [| exact RR]. apply skel_reset; auto; [now apply good_acts |]. eapply skel_set; eauto. }
  assert (St1 : Forall (settled_bus e) (s_bus s1)) by (eapply inv_set; [| | | exact E]; [intros; eapply settled_set; eauto | intros; now apply settled_iso | now apply settled_iff]).
  assert (St2 : Forall (settled_bus e) (s_bus s2)).
  { rewrite Forall_forall in *. intros b I. unfold s2, place in I. cbn in I. apply in_mapi in I as (k & b0 & I & ->). specialize (St1 b0 I). intros p Ip Np. unfold place_bus in Ip, Np. rewrite named_with_q in Np. apply St1; auto. unfold pairs in *. cbn in Ip. destruct (u_iso b0 || isref k); exact Ip. }
  assert (St3 : Forall (settled_bus e) (s_bus s3)) by (eapply inv_unset; [| | | exact U]; [intros; eapply settled_set; eauto | intros; now apply settled_iso | exact St2]).
  assert (Ok3 : Forall okb (s_bus s3)) by (eapply inv_unset; [| | | exact U]; [intros; eapply okb_set; eauto | intros; now apply okb_iso | now apply okb_gens]).
  unfold start. fold s0. apply (@state_determined e); auto.
  - rewrite reset_topology. exact TP3.
  - rewrite reset_all by exact A3. rewrite Forall_forall in *. intros b I. apply in_map_iff in I as (b0 & <- & I). specialize (St3 b0 I). intros p Ip Np. unfold resetb in Np. rewrite named_with_q in Np. apply St3; auto.
  - now apply settled_iff.
  - rewrite reset_all by exact A3. rewrite Forall_forall in *. intros b I. apply in_map_iff in I as (b0 & <- & I). exact (Ok3 b0 I).
  - apply okb_gens, W0.
Qed.

(** ** All the tasks of a process *)
Lemma usable_start s c : usable s c <-> usable (start s) c.
Proof. unfold usable. now rewrite settled_start. Qed.
Lemma work_eq evs ts : forall s, good s -> Forall (usable s) evs -> (forall t, In t ts -> (0 <= t < Z.of_nat (length evs))%Z) ->
  work newton isref orig false false evs s ts = Ok (map (fun t => (t, expected newton isref orig (outage (snd (nth (Z.to_nat t) evs (EmptyString, EOther))) (start s)))) ts).
Proof.
  induction ts as [| t ts IH]; intros s G U H; [reflexivity |]. cbn [work map]. assert (B : (Z.to_nat t < length evs)%nat) by (specialize (H t (or_introl eq_refl)); lia).
  rewrite (nth_error_nth' evs (EmptyString, EOther)) by exact B. assert (Uc : usable s (nth (Z.to_nat t) evs (EmptyString, EOther))) by (rewrite Forall_forall in U; apply U; now apply nth_In).
  destruct (task_eq G Uc) as (s3 & E & St). rewrite E. cbn [obind fst snd]. rewrite IH.
  - cbn [obind]. rewrite St. reflexivity.
  - apply <- good_start. rewrite St. apply -> good_start. exact G.
  - rewrite Forall_forall in *. intros c I. apply <- usable_start. rewrite St. apply -> usable_start. auto.
  - intros; apply H; now right.
Qed.
End Run.

(** ** The tasks given out *)
Lemma answers_tasks n P cs : TaskSpec.no_overflow n (map (fun r => TaskModel.NextGroup [r]) cs) = true ->
  exists ans : list (nat * (bool * Z)), answers n P cs = ans /\ map fst ans = cs /\
    flat_map (fun a : nat * (bool * Z) => if fst (snd a) then [snd (snd a)] else []) ans = TaskSpec.tasks (Nat.min (length cs) n).
Proof.
  intros NO. eexists. split; [reflexivity |]. unfold answers. set (ts := map (fun r => TaskModel.NextGroup [r]) cs) in *.
  assert (C0 : TaskSpec.cancels ts = 0%nat) by (unfold ts; clear; induction cs; cbn; auto).
  assert (Asks : length (filter TaskSpec.asks ts) = length cs) by (unfold ts; clear; induction cs; cbn; auto).
  pose proof (TaskProofs.given_run n P ts NO C0) as GR. rewrite Asks in GR. rewrite <- GR. clear GR NO C0 Asks. unfold ts. clear ts. generalize (TaskModel.tm_set (Z.of_nat n) P) as s.
  induction cs as [| r cs IH]; intros s; [split; reflexivity |]. cbn [map TaskModel.trun TaskModel.tstep]. destruct (TaskModel.read_inc s 1) as [v s1]. set (a := TaskModel.answer _ _).
  specialize (IH (TaskModel.count_if (fst a) s1 [r])). destruct (TaskModel.trun (TaskModel.count_if (fst a) s1 [r]) (map (fun r0 => TaskModel.NextGroup [r0]) cs)) as [s2 al]. cbn in IH |- *. destruct IH as [IH1 IH2]. split; [now rewrite IH1 |]. rewrite IH2. destruct a as [[|] v0]; reflexivity.
Qed.
Lemma flat_map_app' A B (f : A -> list B) l l' : flat_map f (l ++ l')%list = (flat_map f l ++ flat_map f l')%list.
Proof. induction l; cbn; auto. now rewrite IHl, app_assoc. Qed.
Lemma one_of P r (v : Z) : (r < P)%nat -> flat_map (fun k => if (r =? k)%nat && true then [v] else []) (iota P) = [v].
Proof.
  intros L. unfold iota. assert (K : forall n i, (i <= r < i + n)%nat -> flat_map (fun k => if (r =? k)%nat && true then [v] else []) (seq i n) = [v]).
  { induction n as [| n IH]; intros i B; [lia |]. cbn. destruct (Nat.eqb_spec r i) as [-> | N]; cbn.
    - assert (Z0 : forall m j, (i < j)%nat -> flat_map (fun k => if (i =? k)%nat && true then [v] else []) (seq j m) = []) by (induction m as [| m IHm]; intros j B'; cbn; auto; destruct (Nat.eqb_spec i j); [lia | cbn; apply IHm; lia]). rewrite Z0; auto.
    - apply IH. lia. }
  apply K. lia.
Qed.
Lemma spread A (f g : nat -> list A) l : Permutation (flat_map (fun k => f k ++ g k)%list l) (flat_map f l ++ flat_map g l)%list.
Proof.
  induction l as [| k l IH]; cbn; auto. rewrite IH. rewrite <- !app_assoc. apply Permutation_app_head. rewrite !app_assoc. apply Permutation_app_tail. apply Permutation_app_comm.
Qed.
Lemma shared_out P (ans : list (nat * (bool * Z))) : (forall a, In a ans -> (fst a < P)%nat) ->
  Permutation (flat_map (fun r => flat_map (fun a : nat * (bool * Z) => if (fst a =? r)%nat && fst (snd a) then [snd (snd a)] else []) ans) (iota P)) (flat_map (fun a : nat * (bool * Z) => if fst (snd a) then [snd (snd a)] else []) ans).
Proof.
  induction ans as [| [r [b v]] ans IH]; intros H; cbn [flat_map fst snd].
  - assert (K : forall l : list nat, flat_map (fun _ => @nil Z) l = []) by (induction l; cbn; auto). now rewrite K.
  - rewrite spread. apply Permutation_app; [| apply IH; intros; apply H; now right]. destruct b.
    + rewrite one_of; [reflexivity |]. apply (H (r, (true, v))). now left.
    + assert (K : forall l, flat_map (fun k => if (r =? k)%nat && false then [v] else []) l = []) by (induction l; cbn; auto; now rewrite andb_false_r). now rewrite K.
Qed.
Lemma count_total P cs : (forall r, In r cs -> (r < P)%nat) -> length cs = list_sum (map (count_occ Nat.eq_dec cs) (iota P)).
Proof.
  induction cs as [| c cs IH]; intros H; cbn [length].
  - symmetry. assert (K : forall l, list_sum (map (count_occ Nat.eq_dec []) l) = 0%nat) by (induction l; auto). apply K.
  - rewrite IH by (intros; apply H; now right). assert (L : (c < P)%nat) by (apply H; now left). unfold iota. clear IH H.
    assert (Z0 : forall m j, (c < j)%nat -> list_sum (map (count_occ Nat.eq_dec (c :: cs)) (seq j m)) = list_sum (map (count_occ Nat.eq_dec cs) (seq j m))).
    { induction m as [| m IHm]; intros j B'; auto. cbn [seq map list_sum fold_right]. change (fold_right Nat.add 0%nat) with list_sum. rewrite IHm by lia. cbn. destruct (Nat.eq_dec c j); [lia | reflexivity]. }
    assert (K : forall n i, (i <= c < i + n)%nat -> S (list_sum (map (count_occ Nat.eq_dec cs) (seq i n))) = list_sum (map (count_occ Nat.eq_dec (c :: cs)) (seq i n))).
    { induction n as [| n IH]; intros i B; [lia |]. cbn [seq map]. change (list_sum (count_occ Nat.eq_dec cs i :: map (count_occ Nat.eq_dec cs) (seq (S i) n))) with (count_occ Nat.eq_dec cs i + list_sum (map (count_occ Nat.eq_dec cs) (seq (S i) n)))%nat.
      change (list_sum (count_occ Nat.eq_dec (c :: cs) i :: map (count_occ Nat.eq_dec (c :: cs)) (seq (S i) n))) with (count_occ Nat.eq_dec (c :: cs) i + list_sum (map (count_occ Nat.eq_dec (c :: cs)) (seq (S i) n)))%nat.
      destruct (Nat.eq_dec c i) as [-> | N].
      - rewrite Z0 by lia. cbn. destruct (Nat.eq_dec i i); [lia | tauto].
      - rewrite <- IH by lia. cbn. destruct (Nat.eq_dec c i); [tauto | lia]. }
    apply K. lia.
Qed.
Lemma all_done n P cs : (0 < P)%nat -> TaskSpec.no_overflow n (map (fun r => TaskModel.NextGroup [r]) cs) = true -> all_called n P cs ->
  Permutation (flat_map (tasks_of n P cs) (iota P)) (TaskSpec.tasks n).
Proof.
  intros HP NO (HR & HC). destruct (answers_tasks n P cs NO) as (ans & E & F & Gv).
  assert (Sh : Permutation (flat_map (tasks_of n P cs) (iota P)) (TaskSpec.tasks (Nat.min (length cs) n))).
  { rewrite <- Gv. unfold tasks_of. rewrite E. apply shared_out. intros a I. apply HR. rewrite <- F. now apply in_map. }
  assert (L : (length cs = length (flat_map (tasks_of n P cs) (iota P)) + P)%nat).
  { rewrite (@count_total P cs HR). assert (K : forall l, (forall r, In r l -> (r < P)%nat) -> list_sum (map (count_occ Nat.eq_dec cs) l) = (length (flat_map (tasks_of n P cs) l) + length l)%nat).
    { induction l as [| r l IH]; intros B; auto. cbn [map flat_map length]. change (list_sum (count_occ Nat.eq_dec cs r :: map (count_occ Nat.eq_dec cs) l)) with (count_occ Nat.eq_dec cs r + list_sum (map (count_occ Nat.eq_dec cs) l))%nat. rewrite app_length. rewrite IH by (intros; apply B; now right). rewrite HC by (apply B; now left). lia. }
    rewrite K by (intros r I; apply in_iota in I; exact I). f_equal. unfold iota. apply seq_length. }
  pose proof (Permutation_length Sh) as Pl. unfold TaskSpec.tasks at 1 in Pl. rewrite map_length in Pl. unfold iota at 2 in Pl. rewrite seq_length in Pl. replace (Nat.min (length cs) n) with n in Sh by lia. exact Sh.
Qed.

(** ** The base case *)
Section Base.
Variable newton : proc -> sol.
Variables isref orig : nat -> bool.
Lemma sumb_ign b x : sumb (with_ign b x) = sumb b. Proof. reflexivity. Qed.
Lemma good_flagged z s : good s -> good (flagged z s).
Proof.
  apply good_same; [| reflexivity]. unfold flagged. cbn. rewrite map_mapi. symmetry. etransitivity; [| apply mapi_const with (i := 0%nat)]. reflexivity.
Qed.
Lemma ignore_eq z s : good s -> ignore_voltage [place isref z s] = [place isref z (flagged z s)].
Proof.
  intros G. unfold ignore_voltage. cbn [map]. f_equal. unfold place, flagged, with_bus. cbn. f_equal. rewrite map_mapi, mapi_mapi. apply mapi_ext. intros k b I. destruct G as (_ & _ & (W & _)). destruct (W b I) as (W1 & W2 & _).
  change (u_act (place_bus isref z k b)) with (u_act b). rewrite W1. cbn [andb]. rewrite voltage_okb. unfold off_limitsb. replace (vmag (place_bus isref z k b)) with (z_v z k) by (unfold vmag, place_bus, with_q, set_volt; cbn; destruct (q_xc (u_q b)) as [[[a v] p] |]; [reflexivity | tauto]). change (u_vmax (place_bus isref z k b)) with (u_vmax b). change (u_vmin (place_bus isref z k b)) with (u_vmin b).
  destruct (Rlt_dec (u_vmax b) (z_v z k)), (Rlt_dec (z_v z k) (u_vmin b)); destruct b; cbn; rewrite ?orb_false_r, ?orb_true_r; reflexivity.
Qed.
Lemma blank_flagged z' s : blank (flagged z' s) = flagged z' (blank s).
Proof. unfold blank, flagged, with_bus. cbn. f_equal. rewrite map_mapi, mapi_map. reflexivity. Qed.
Lemma iso_flagged z' s i : match nth_error (s_bus (flagged z' s)) i with Some b => u_iso b | None => false end = match nth_error (s_bus s) i with Some b => u_iso b | None => false end.
Proof. unfold flagged, with_bus. cbn. rewrite nth_mapi. destruct (nth_error (s_bus s) i); reflexivity. Qed.
Lemma report_flagged ok code z' z s : report isref orig ok code (flagged z' s) z = report isref orig ok code s z.
Proof.
  unfold report, per_mag, per_gen. cbn [s_bus flagged with_bus]. rewrite !mapi_mapi. f_equal.
  - unfold per_line. f_equal. apply mapi_ext. intros k f _. apply mapi_ext. intros j l _. unfold dead. cbn [existsb]. rewrite !iso_flagged. reflexivity.
  - unfold per_line. f_equal. apply mapi_ext. intros k f _. apply mapi_ext. intros j l _. unfold dead. cbn [existsb]. rewrite !iso_flagged. reflexivity.
Qed.
Lemma start_placed z s : good s -> start (place isref z s) = start s.
Proof.
  intros G. unfold start. assert (A : forall b, In b (s_bus s) -> u_act b = true) by now apply good_acts. unfold blank. rewrite !reset_all by (auto; exact (acts2 isref z G)). unfold reset_voltages, place, with_bus. cbn [s_bus s_brs s_rateB]. f_equal.
  - rewrite map_map, map_map, map_mapi. etransitivity; [| apply mapi_const with (i := 0%nat)]. apply mapi_ext. intros k b _. rewrite place_reset. unfold blank_bus, resetb, with_q, reset_voltage. cbn. destruct (u_iso b || isref k); reflexivity.
  - rewrite map_mapi. etransitivity; [| apply mapi_const with (i := 0%nat)]. apply mapi_ext. intros k f _. unfold with_lines. cbn. f_equal. rewrite map_mapi. etransitivity; [| apply mapi_const with (i := 0%nat)]. reflexivity.
Qed.
Lemma start_flagged z s : start (flagged z s) = flagged z (start s).
Proof.
  unfold start. rewrite <- blank_flagged. f_equal. unfold reset_voltages, flagged, with_bus. cbn. f_equal. rewrite map_mapi, mapi_map. apply mapi_ext. intros k b _. cbn. destruct (u_act b) eqn:E; cbn; reflexivity.
Qed.
Lemma good_place z s : good s -> good (place isref z s).
Proof. intros G. apply <- good_start. rewrite start_placed by exact G. apply -> good_start. exact G. Qed.
Lemma base_eq s : good s -> exists s1, base_case newton isref orig false false s = Ok (report isref orig true 0 (blank s) (newton (blank s)), s1) /\ start s1 = start (flagged (newton (blank s)) s) /\ good s1.
Proof.
  intros G. unfold base_case. rewrite solve_eq. cbn [obind fst snd]. set (z := newton (blank s)). rewrite ignore_eq by (now apply good_viol). cbn [obind].
  change (place isref z (flagged z (with_viol s []))) with (with_viol (place isref z (flagged z s)) []). rewrite tables_eq by (now apply good_flagged). cbn [obind]. eexists. split; [apply f_equal, f_equal2; [| reflexivity] |].
  - rewrite blank_flagged. apply report_flagged.
  - split; [| now apply good_viol, good_place, good_flagged].
    change (start (with_viol (place isref z (flagged z s)) [])) with (start (place isref z (flagged z s))). apply start_placed. now apply good_flagged.
Qed.
Lemma usable_flagged z s c : usable s c -> usable (flagged z s) c.
Proof.
  intros (D & S & L). split; [exact D | split; [| exact L]]. eapply settled_same; [| exact S]. unfold flagged. cbn. rewrite map_mapi. symmetry. etransitivity; [| apply mapi_const with (i := 0%nat)]. reflexivity.
Qed.
Lemma mapO_ok A B (f : A -> outcome B) (g : A -> B) l : (forall x, In x l -> f x = Ok (g x)) -> mapO f l = Ok (map g l).
Proof. induction l as [| x l IH]; intros H; cbn; auto. rewrite H by now left. cbn. rewrite IH; auto. intros; apply H; now right. Qed.
Lemma mapi_tasks A B (f : Z -> A -> B) (d : A) l : mapi (fun k c => f (Z.of_nat k) c) 0 l = map (fun t => f t (nth (Z.to_nat t) l d)) (TaskSpec.tasks (length l)).
Proof.
  unfold TaskSpec.tasks. rewrite map_map. unfold iota.
  assert (K : forall p, mapi (fun k c => f (Z.of_nat k) c) (length p) l = map (fun k => f (Z.of_nat k) (nth (Z.to_nat (Z.of_nat k)) (p ++ l)%list d)) (seq (length p) (length l))).
  { induction l as [| a l IH]; intros p; cbn; auto. f_equal.
    - f_equal. rewrite Nat2Z.id, app_nth2 by lia. now rewrite Nat.sub_diag.
    - specialize (IH (p ++ [a])%list). rewrite app_length in IH. cbn in IH. rewrite Nat.add_1_r in IH. rewrite IH. rewrite <- app_assoc. reflexivity. }
  apply (K []).
Qed.
Lemma analyse_eq evs P cs s : good s -> Forall (usable s) evs -> (0 < P)%nat -> TaskSpec.no_overflow (length evs) (map (fun r => TaskModel.NextGroup [r]) cs) = true -> all_called (length evs) P cs ->
  exists w, analyse newton isref orig false false evs P cs s = Ok (report isref orig true 0 (blank s) (newton (blank s)), w) /\
    Permutation (concat w) (mapi (fun k c => (Z.of_nat k, expected newton isref orig (outage (snd c) (start (flagged (newton (blank s)) s))))) 0 evs) /\ length w = P /\
    (forall r, (r < P)%nat -> map fst (nth r w []) = tasks_of (length evs) P cs r).
Proof.
  intros G U HP NO AC. unfold analyse. destruct (base_eq G) as (s1 & B & St & G1). rewrite B. cbn [obind fst snd]. pose proof (all_done HP NO AC) as Pm.
  set (h := fun t => (t, expected newton isref orig (outage (snd (nth (Z.to_nat t) evs (EmptyString, EOther))) (start (flagged (newton (blank s)) s))))).
  rewrite (@mapO_ok _ _ _ (fun r => map h (tasks_of (length evs) P cs r))).
  - cbn [obind]. eexists. split; [reflexivity |]. split; [| split].
    + rewrite (mapi_tasks (fun t c => (t, expected newton isref orig (outage (snd c) (start (flagged (newton (blank s)) s))))) (EmptyString, EOther)). fold h. rewrite <- Pm. rewrite <- flat_map_concat_map.
      assert (K : forall l, flat_map (fun r => map h (tasks_of (length evs) P cs r)) l = map h (flat_map (tasks_of (length evs) P cs) l)) by (induction l as [| r l IH]; cbn; auto; now rewrite map_app, IH). rewrite K. reflexivity.
    + rewrite map_length. unfold iota. apply seq_length.
    + intros r L. assert (N : nth_error (map (fun r => map h (tasks_of (length evs) P cs r)) (iota P)) r = Some (map h (tasks_of (length evs) P cs r))).
      { rewrite nth_error_map. unfold iota. rewrite (nth_error_nth' _ 0%nat) by (now rewrite seq_length). cbn. now rewrite seq_nth. }
      rewrite (nth_error_nth _ _ _ N). rewrite map_map. cbn. apply map_id.
  - intros r I. rewrite (@work_eq newton isref orig evs (tasks_of (length evs) P cs r) s1 G1).
    + rewrite St. reflexivity.
    + rewrite Forall_forall in *. intros c Ic. apply <- usable_start. rewrite St. apply -> usable_start. apply usable_flagged. auto.
    + intros t It. assert (J : In t (TaskSpec.tasks (length evs))). { eapply Permutation_in; [exact Pm |]. apply in_flat_map. eauto. } unfold TaskSpec.tasks in J. apply in_map_iff in J as (k & <- & J). apply in_iota in J. lia.
Qed.
End Base.

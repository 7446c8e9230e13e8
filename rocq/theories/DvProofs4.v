(** Proofs for C57: events, runs and the matrix at the start. *)
From Verif Require Import Prelude.
From Coq Require Import Reals Lra.
From Coquelicot Require Import Complex.
From Verif Require Import StrModel StrSpec StrProofs3 YbModel YbSpec YbProofs DvModel DvSpec DvProofs DvProofs2 DvProofs3.
Open Scope R_scope.

Lemma Forall2_imp : forall A B (P Q : A -> B -> Prop) l l', (forall a b, P a b -> Q a b) -> Forall2 P l l' -> Forall2 Q l l'.
Proof. intros A B P Q l l' H F. induction F; constructor; auto. Qed.
Lemma near_spec : forall a b, near a b = true <-> at_time a b.
Proof. intros a b. unfold near, at_time. destruct (Rlt_dec (Rabs (a - b)) (/ 1000000)); split; auto; discriminate. Qed.
Lemma near_not : forall a b, ~ at_time a b -> near a b = false.
Proof. intros a b H. destruct (near a b) eqn:E; auto. apply near_spec in E. easy. Qed.

Lemma stat_act : forall P c, stat P -> stat (act P c).
Proof.
  intros P [i n G B|i|a b t on|n t on] (S1 & S2 & S3 & S4 & S5 & S6); cbn [act].
  - destruct (where_ n (pl_num P)); repeat split; cbn; auto; try (apply S5; auto).
  - repeat split; cbn; auto; apply S5; auto.
  - unfold stat. cbn [pl_grid pl_num pl_gens gnode garc]. split; [auto|split; [auto|split; [auto|split; [auto|split]]]].
    + intros x Hx. apply in_map_iff in Hx as (y & <- & Hy). destruct (joins P a b y); cbn; apply S5; auto.
    + intros x l Hx Hl. apply in_map_iff in Hx as (y & <- & Hy). destruct (joins P a b y); cbn in Hl; [|eapply S6; eauto].
      assert (W : Forall wf_line (switch t on (ael y))) by (apply switch_wf; apply Forall_forall; intros; eapply S6; eauto). rewrite Forall_forall in W. auto.
  - unfold stat. cbn [pl_grid pl_num pl_gens]. split; [auto|split; [|split; [auto|split; [|auto]]]].
    + destruct (where_ n (pl_num P)); auto. rewrite upd_length. auto.
    + intros k. destruct (where_ n (pl_num P)) as [m|]; auto.
      set (f := fun u => if String.eqb (un_id u) t then Unit (un_id u) on (un_y u) else u).
      destruct (Nat.eq_dec m k) as [->|Ne].
      * destruct (le_lt_dec (length (pl_gens P)) k) as [L|L].
        -- rewrite nth_overflow by (rewrite upd_length; auto). constructor.
        -- rewrite (nth_error_nth _ _ _ (nth_error_upd_same _ _ L)). rewrite map_map.
           rewrite (map_ext _ un_id); auto. intros u. subst f. cbn. destruct (String.eqb (un_id u) t); reflexivity.
      * pose proof (@nth_error_upd_other _ (pl_gens P) m k (map f (nth m (pl_gens P) [])) Ne) as X.
        destruct (nth_error (pl_gens P) k) as [v|] eqn:V.
        -- rewrite (nth_error_nth _ _ _ X). specialize (S4 k). rewrite (nth_error_nth _ _ _ V) in S4. auto.
        -- apply nth_error_None in X. rewrite nth_overflow by auto. constructor.
Qed.

Definition Inv (s : R) (P0 : plant) (L : Prop) (P : plant) (w : list proc) (Y : mat) : Prop := stat P /\ inv P w /\ (L -> single P0 P w) /\ right s P Y.
Definition lineish (e : event) : Prop := match e with ELine _ _ _ _ _ => True | _ => False end.

Lemma single_pm : forall P0 P P' f w, static f -> pl_num P' = pl_num P -> pl_grid P' = pl_grid P -> single P0 P w -> single P0 P' (map (pm f) w).
Proof.
  intros P0 P P' f w F E1 E2 (p & -> & H1 & H2 & H3). exists (pm f p). split; [reflexivity|]. cbn [pm pr_bus pr_br]. split; [|split; auto].
  - rewrite map_map, (map_ext _ bu_idx) by (intro; apply F). congruence.
  - rewrite E2. eapply Forall2_imp; [|exact H2]. intros r x. unfold brk. rewrite E1. auto.
Qed.
Lemma event_ok : forall s nm P0 (L : Prop) P now i e l w Y, Inv s P0 L P w Y -> due nm now i e l ->
  (forall t, tag_of e = Some t -> stands_for t (nm t)) -> plain_status e -> (lineish e -> L) -> ok_acts P0 P l ->
  exists w' Y', handle_event now e (w, Y) = Ok (w', Y') /\ Inv s P0 L (fold_left act l P) w' Y'.
Proof.
  intros s nm P0 L P now i e l w Y (St & I & Si & R) D T Pl Hl Oa.
  inversion D as [t0 t1 n G B H|t0 t1 n G B H0 H|t a b tag st H|t n tag st H|e' H]; subst; cbn [handle_event].
  - apply near_spec in H. rewrite H. destruct Oa as [Oa _]. pose proof Oa as (Nf & -> & Iso).
    destruct (@start_event s P i n B w Y St I R Oa) as (w1 & E1 & E2 & E3 & E4). rewrite E1. cbn [obind].
    exists (fst (increment FaultOn w1 Y)), (snd (increment FaultOn w1 Y)). split; [destruct (increment FaultOn w1 Y); reflexivity|].
    cbn [fold_left]. split; [apply stat_act; auto|split; [auto|split; [|auto]]]. intros HL. rewrite E2. apply (@single_pm P0 P); auto.
    + apply (static_comp (@static_bnext FaultOn)). apply static_num. intro; cbn; auto.
    + cbn [act]. destruct (where_ n (pl_num P)); auto.
    + cbn [act]. destruct (where_ n (pl_num P)); auto.
  - rewrite (near_not H0). apply near_spec in H. rewrite H. destruct Oa as [Oa _].
    destruct (@stop_event s P i w Y St I R Oa) as (E2 & E3 & E4).
    exists (fst (increment FaultOff w Y)), (snd (increment FaultOff w Y)). split; [destruct (increment FaultOff w Y); reflexivity|].
    cbn [fold_left]. split; [apply stat_act; auto|split; [auto|split; [|auto]]]. intros HL. rewrite E2. apply (@single_pm P0 P); auto. apply static_bnext.
  - apply near_spec in H. rewrite H. destruct Oa as [Oa _].
    destruct (@line_event s P0 P a b tag (nm tag) st w Y St I (Si (Hl Logic.I)) R (T tag eq_refl) Oa) as (w1 & E1 & E3 & E4 & E5). rewrite E1. cbn [obind].
    exists (fst (increment LineChange w1 Y)), (snd (increment LineChange w1 Y)). split; [destruct (increment LineChange w1 Y); reflexivity|].
    cbn [fold_left]. split; [apply stat_act; auto|split; [auto|split; auto]].
  - apply near_spec in H. rewrite H. destruct Oa as [Oa _].
    destruct (@gen_event s P n tag (nm tag) st w Y St I R (T tag eq_refl) Pl Oa) as (w1 & E1 & E2 & E3 & E4). rewrite E1. cbn [obind].
    exists (fst (increment GenChange w1 Y)), (snd (increment GenChange w1 Y)). split; [destruct (increment GenChange w1 Y); reflexivity|].
    cbn [fold_left]. split; [apply stat_act; auto|split; [auto|split; [|auto]]]. intros HL. rewrite E2. apply (@single_pm P0 P); auto.
    apply (static_comp (@static_bnext GenChange)). apply static_num, static_gset.
  - exists w, Y. split; [|split; auto]. destruct e as [t0 t1 n G B|t a b tag st|t n tag st].
    + destruct H as [H1 H2]. rewrite (near_not H1), (near_not H2). reflexivity.
    + rewrite (near_not H). reflexivity.
    + rewrite (near_not H). reflexivity.
Qed.
Lemma ok_acts_app : forall P0 l l' P, ok_acts P0 P (l ++ l') <-> ok_acts P0 P l /\ ok_acts P0 (fold_left act l P) l'.
Proof. induction l as [|c l IH]; intros l' P; cbn; [tauto|]. rewrite IH. tauto. Qed.
Lemma events_ok : forall s nm P0 (L : Prop) now es i acts P w Y, all_due nm now i es acts -> Inv s P0 L P w Y ->
  well_named nm es -> Forall plain_status es -> (forall e, In e es -> lineish e -> L) -> ok_acts P0 P acts ->
  exists w' Y', handle_events now es (w, Y) = Ok (w', Y') /\ Inv s P0 L (fold_left act acts P) w' Y'.
Proof.
  intros s nm P0 L now es. induction es as [|e es IH]; intros i acts P w Y D In_ T Pl Hl Oa; inversion D as [|? ? ? l ls D1 D2]; subst.
  - exists w, Y. split; auto.
  - apply ok_acts_app in Oa as [O1 O2]. inversion Pl as [|? ? Pl1 Pl2]; subst.
    destruct (@event_ok s nm P0 L P now i e l w Y In_ D1) as (w1 & Y1 & E1 & I1); auto.
    { intros t Ht. apply (T e t); [left|]; auto. } { apply Hl; left; auto. }
    destruct (IH (S i) ls (fold_left act l P) w1 Y1 D2 I1) as (w2 & Y2 & E2 & I2); auto.
    { intros e' t He' Ht. apply (T e' t); [right|]; auto. } { intros e' He'. apply Hl; right; auto. }
    exists w2, Y2. cbn [handle_events]. rewrite E1. cbn [obind]. split; auto. rewrite fold_left_app. auto.
Qed.
Lemma step_times_S : forall t h n, step_times t h (S n) = t :: step_times (t + h) h n.
Proof.
  intros t h n. unfold step_times. cbn [seq map]. f_equal; [cbn; ring|]. rewrite <- seq_shift, map_map. apply map_ext. intros i. rewrite S_INR. ring.
Qed.
Lemma run_ok : forall s nm P0 (L : Prop) es h tend fuel now P w Y, Inv s P0 L P w Y ->
  well_named nm es -> Forall plain_status es -> (forall e, In e es -> lineish e -> L) -> ok_run nm es P0 P (step_times now h fuel) ->
  exists steps st d, run fuel h tend now es (w, Y) = Ok (steps, st, d) /\ follows s nm es P steps.
Proof.
  intros s nm P0 L es h tend fuel. induction fuel as [|fuel IH]; intros now P w Y In_ T Pl Hl Or.
  - exists [], (w, Y), false. split; [reflexivity|exact I].
  - cbn [run]. destruct (Rlt_dec (/ 1000000) (Rabs (tend - now))) as [Lt|Lt].
    + rewrite step_times_S in Or. inversion Or as [|? ? ? acts D Oa Or']; subst.
      destruct (@events_ok s nm P0 L now es 0 acts P w Y D In_ T Pl Hl Oa) as (w1 & Y1 & E1 & I1). rewrite E1. cbn [obind].
      destruct (IH (now + h) (fold_left act acts P) w1 Y1 I1 T Pl Hl Or') as (steps & st & d & E2 & F2). rewrite E2. cbn [obind snd].
      exists ((now, Y1) :: steps), st, d. split; [reflexivity|]. cbn [follows]. exists acts. split; auto. cbv zeta. split; auto. apply I1.
    + exists [], (w, Y), true. split; [reflexivity|exact I].
Qed.
Lemma run_time : forall es h tend fuel now st steps st' d, run fuel h tend now es st = Ok (steps, st', d) ->
  let n := length steps in
  (n <= fuel)%nat /\ map fst steps = step_times now h n /\ (forall i, (i < n)%nat -> Rabs (tend - (now + INR i * h)) > / 1000000) /\
  (d = true -> Rabs (tend - (now + INR n * h)) <= / 1000000) /\ (d = false -> n = fuel).
Proof.
  intros es h tend fuel. induction fuel as [|fuel IH]; intros now st steps st' d E; cbn [run] in E.
  - injection E as <- <- <-. cbn. repeat split; auto; try lia; discriminate.
  - destruct (Rlt_dec (/ 1000000) (Rabs (tend - now))) as [Lt|Lt].
    + destruct (handle_events now es st) as [st1| |]; cbn [obind] in E; try discriminate.
      destruct (run fuel h tend (now + h) es st1) as [[[l s2] d2]| |] eqn:E2; cbn [obind] in E; try discriminate. injection E as <- <- <-.
      destruct (IH _ _ _ _ _ E2) as (H1 & H2 & H3 & H4 & H5). cbn [length map fst]. split; [lia|split; [|split; [|split]]].
      * rewrite step_times_S, H2. reflexivity.
      * intros [|i] Hi; [cbn [INR]; replace (now + 0 * h) with now by ring; lra|]. rewrite S_INR. specialize (H3 i ltac:(lia)). replace (now + (INR i + 1) * h) with (now + h + INR i * h) by ring. auto.
      * intros X. rewrite S_INR. replace (now + (INR (length l) + 1) * h) with (now + h + INR (length l) * h) by ring. auto.
      * intros X. f_equal. auto.
    + injection E as <- <- <-. cbn [length map INR]. split; [lia|split; [reflexivity|split; [intros; lia|split; [|discriminate]]]].
      intros _. replace (now + 0 * h) with now by ring. lra.
Qed.

(** ** From the statement's hypotheses *)
Lemma sane_stat : forall P, sane P -> stat P.
Proof. intros P (H1 & H2 & H3 & H4 & H5 & H6 & H7). repeat split; auto; apply H6; auto. Qed.
Lemma spread_inv : forall P w, pl_faults P = [] -> spread P w -> inv P w.
Proof.
  intros P w F (H1 & H2 & H3). split; [|auto]. intros p b Hp Hb. destruct (H1 p b Hp Hb) as (B1 & B2 & B3 & B4 & B5 & B6 & B7).
  unfold okb, fault_ok. rewrite F. auto 8.
Qed.
Lemma whole_single : forall P p, whole P p -> single P P [p].
Proof.
  intros P p (H1 & H2). exists p. split; [auto|split; [auto|]].
  assert (F : Forall2 (fun r x => brk P r x /\ yact (br_b r) = existsb lserv (ael x)) (pr_br p) (garc (pl_grid P))).
  { eapply Forall2_imp; [|exact H2]. intros r x (Q1 & Q2 & Q3 & ds & Q4 & Q5). rewrite (load_branch_ok _ _ Q4) in Q5. injection Q5 as Q5.
    unfold brk, repr. rewrite <- Q5. cbn. repeat split; auto. }
  split.
  - eapply Forall2_imp; [|exact F]. intros r x [Q _]. exact Q.
  - intros i r x0 Er Ex Hx. destruct (Forall2_nth_r _ F Er) as (x & Ex' & _ & Q). rewrite Ex in Ex'. injection Ex' as <-. congruence.
Qed.
Lemma start_Inv : forall s P w Y (L : Prop), sane P -> spread P w -> (L -> exists p, w = [p] /\ whole P p) -> right s P Y -> Inv s P L P w Y.
Proof.
  intros s P w Y L Sa Sp Wh R. split; [apply sane_stat; auto|split; [apply spread_inv; auto; apply Sa|split; auto]].
  intros HL. destruct (Wh HL) as (p & -> & Hp). apply whole_single; auto.
Qed.

(** ** The matrix at the start *)
Open Scope C_scope.
Lemma total_swap : forall A B (f : A -> B -> C) (l : list A) (m : list B),
  total (map (fun a => total (map (f a) m)) l) = total (map (fun b => total (map (fun a => f a b) l)) m).
Proof.
  induction l as [|a l IH]; intros m; cbn [map].
  - symmetry. apply total_zero. auto.
  - rewrite total_cons, IH. rewrite <- total_plus. apply total_ext. intros b _. cbn [map]. rewrite total_cons. reflexivity.
Qed.
Lemma total_scale : forall A (f : A -> C) c l, total (map f l) * c = total (map (fun a => f a * c) l).
Proof. induction l as [|a l IH]; cbn [map]; [change (total []) with (RtoC 0); ring|]. rewrite !total_cons, <- IH. ring. Qed.
Lemma start_right : forall s P n, s <> 0%R -> sane P -> wf_grid (pl_grid P) -> Forall simple_node (gnode (pl_grid P)) ->
  (forall x l, In x (garc (pl_grid P)) -> In l (ael x) -> simple_line l) -> loaded s n (pl_grid P) ->
  right s P (assembled n (ground P)).
Proof.
  intros s P n Hs Sa W Sn Sl Ld k nd Hk Hi V j.
  pose proof (loaded_rep Hs Sn Ld) as Rp. pose proof (rep_law Rp W Sl) as Lw.
  assert (T : times (length (pl_num P)) (assembled n (ground P)) V k = y_row n V k + ground P k * V k).
  { destruct Sa as (S1 & _). assert (Hk' : (k < length (pl_num P))%nat) by (rewrite <- S1; apply nth_error_Some; congruence).
    unfold times, assembled. change sumC with total.
    rewrite (@total_ext _ _ (fun m => (if (k =? m)%nat then (ent (diag_value n k) + ground P k) * V m else RtoC 0) +
       total (map (fun b => ((if ((yb1 b =? k) && (yb2 b =? m))%nat then ent (forward_value n b) else RtoC 0) + (if ((yb2 b =? k) && (yb1 b =? m))%nat then ent (reverse_value n b) else RtoC 0)) * V m) (nbr n)))).
    2: { intros m _. rewrite Cmult_plus_distr_r. rewrite total_scale. unfold ent. destruct (k =? m)%nat; try reflexivity. f_equal. ring. }
    rewrite total_plus. unfold y_row. replace (ent (diag_value n k) * V k + fold_right Cplus 0 _ + ground P k * V k) with ((ent (diag_value n k) + ground P k) * V k +
       total (map (fun b => (if (yb1 b =? k)%nat then ent (forward_value n b) * V (yb2 b) else 0) + (if (yb2 b =? k)%nat then ent (reverse_value n b) * V (yb1 b) else 0)) (nbr n))) by (unfold total; ring).
    f_equal.
    - rewrite (@total_ext _ _ (fun m => if (m =? k)%nat then (ent (diag_value n k) + ground P k) * V m else RtoC 0)) by (intros m _; rewrite (Nat.eqb_sym k); auto).
      apply (@total_pick _ (fun x => x) (fun m => (ent (diag_value n k) + ground P k) * V m)); auto; [rewrite map_id; apply seq_NoDup|apply in_seq; lia].
    - rewrite total_swap. apply total_ext. intros b Hb. apply In_nth_error in Hb as (i & Ei). destruct Rp as [_ Rb]. destruct (Forall2_nth_r _ Rb Ei) as (x & Ex & R1 & R2 & _).
      destruct W as (W1 & _). destruct (W1 x (nth_error_In _ _ Ex)) as (W0 & L1 & L2). rewrite S1 in L1, L2. rewrite <- R1 in L1. rewrite <- R2 in L2.
      rewrite (@total_ext _ _ (fun m => (if (m =? yb2 b)%nat then (if (yb1 b =? k)%nat then ent (forward_value n b) * V m else RtoC 0) else RtoC 0) + (if (m =? yb1 b)%nat then (if (yb2 b =? k)%nat then ent (reverse_value n b) * V m else RtoC 0) else RtoC 0))).
      2: { intros m _. rewrite !(Nat.eqb_sym m). destruct (yb1 b =? k)%nat, (yb2 b =? k)%nat, (yb1 b =? m)%nat, (yb2 b =? m)%nat; cbn [andb]; ring. }
      rewrite total_plus. f_equal.
      + apply (@total_pick _ (fun x => x) (fun m => if (yb1 b =? k)%nat then ent (forward_value n b) * V m else RtoC 0)); auto; [rewrite map_id; apply seq_NoDup|apply in_seq; lia].
      + apply (@total_pick _ (fun x => x) (fun m => if (yb2 b =? k)%nat then ent (reverse_value n b) * V m else RtoC 0)); auto; [rewrite map_id; apply seq_NoDup|apply in_seq; lia]. }
  rewrite T. unfold leaves. split.
  - intros (i & H1 & ->). apply (Lw k nd V i Hk Hi) in H1. rewrite H1. reflexivity.
  - intros <-. exists (y_row n V k). split; auto. apply (Lw k nd V _ Hk Hi). reflexivity.
Qed.

(** The same with the machine admittances the processes have. *)
Lemma jxd_total : forall gs ms us, Forall2 (fun g u => dg_id g = un_id u /\ dg_on g = un_on u) gs us -> Forall2 (fun m u => dm_on m = un_on u /\ dm_y m = un_y u) ms us ->
  jxd gs ms = total (map (fun u => if un_on u then un_y u else RtoC 0) us).
Proof.
  intros gs ms us H. revert ms. induction H as [|g u gs us (_ & E) _ IH]; intros ms Hm; inversion Hm as [|m u' ms' us' (_ & E2) Hm']; subst; [reflexivity|].
  cbn [jxd map]. rewrite total_cons, E, (IH _ Hm'), E2. destruct (un_on u); [reflexivity | ring].
Qed.
Lemma machines_ground : forall P w k, sane P -> spread P w -> (k < length (pl_num P))%nat -> ground P k = (pl_rest P k + machines_at w k)%C.
Proof.
  intros P w k Sa (Sh & _ & Pm) Hk. unfold ground, machines_at. destruct Sa as (_ & _ & _ & _ & F & _). rewrite F.
  destruct (find _ (flat_map pr_bus w)) as [b|] eqn:Fd.
  - apply find_some in Fd as (Hb & E). apply andb_prop in E as (_ & E). apply Nat.eqb_eq in E. subst k. apply in_flat_map in Hb as (p & Hp & Hb).
    destruct (Sh p b Hp Hb) as (_ & _ & _ & _ & _ & G & M). rewrite (jxd_total G M). cbn [map total fold_right]. ring.
  - exfalso. assert (I : In k (map bu_idx (filter bu_act (flat_map pr_bus w)))) by (apply (Permutation_in k (Permutation_sym Pm)), in_seq; lia).
    apply in_map_iff in I as (b & Eb & I). apply filter_In in I as (I & A). pose proof (find_none _ _ Fd b I) as Q. cbn in Q. rewrite A, Eb, Nat.eqb_refl in Q. discriminate.
Qed.
Lemma right_ext : forall s P n g g', length (gnode (pl_grid P)) = length (pl_num P) -> (forall k, (k < length (pl_num P))%nat -> g k = g' k) -> right s P (assembled n g) -> right s P (assembled n g').
Proof.
  intros s P n g g' L E R k nd Hk Hi V j. pose proof (R k nd Hk Hi V j) as Q. assert (Hk' : (k < length (pl_num P))%nat) by (rewrite <- L; apply nth_error_Some; congruence).
  replace (times (length (pl_num P)) (assembled n g') V k) with (times (length (pl_num P)) (assembled n g) V k); auto. unfold times, assembled. rewrite (E k Hk'). reflexivity.
Qed.
Lemma start_machines : forall s P w n, s <> 0%R -> sane P -> spread P w -> wf_grid (pl_grid P) -> Forall simple_node (gnode (pl_grid P)) ->
  (forall x l, In x (garc (pl_grid P)) -> In l (ael x) -> simple_line l) -> loaded s n (pl_grid P) ->
  right s P (assembled n (fun k => pl_rest P k + machines_at w k)%C).
Proof.
  intros s P w n Hs Sa Sp W Sn Sl Ld. apply (@right_ext s P n (ground P)); [apply Sa | | now apply start_right]. intros k Hk. now apply machines_ground.
Qed.

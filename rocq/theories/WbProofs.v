(** Proofs about the blocks. *)
From Verif Require Import Prelude WbModel WbSpec.
From Coq Require Import Reals Lra.
Open Scope R_scope.

Lemma lim_in mx mn v : mn <= mx -> mn <= lim mx mn v <= mx.
Proof. intros H. unfold lim. destruct (Rlt_dec mx v); destruct (Rlt_dec _ mn); lra. Qed.
Lemma lim_id mx mn v : mn <= v <= mx -> lim mx mn v = v.
Proof. intros H. unfold lim. destruct (Rlt_dec mx v); [lra|]. destruct (Rlt_dec v mn); lra. Qed.
Lemma stop_zero mx mn x : stop_at mx mn x 0 = 0.
Proof. unfold stop_at. destruct (Rlt_dec 0 0); [lra|]. destruct (Rlt_dec 0 0); lra. Qed.

(** An invariant of the state gives a property of all outputs *)
Lemma outputs_all pred corr (Q : call -> Prop) (I : blk -> Prop) (P : R -> Prop) :
  (forall c s, Q c -> I s -> P (fst (step pred corr c s)) /\ I (snd (step pred corr c s))) ->
  forall cs s, Forall Q cs -> I s -> Forall P (outputs pred corr cs s).
Proof.
  intros H. induction cs as [|c r IH]; intros s F Is; [constructor|]. inversion F; subst. destruct (H c s) as (A & B); try assumption.
  cbn [outputs]. constructor; [exact A|]. now apply IH.
Qed.
Definition rest (y : R) (s : blk) : Prop := b_x0 s = y /\ b_x1 s = y /\ b_d0 s = 0.
Lemma start_rest y f s : rest y s -> start_of f s = y.
Proof. intros (A & B & _). now destruct f. Qed.
Lemma heun_rest y s h : rest y s -> rest y (heun s 0 h).
Proof. intros (A & B & C). unfold heun, rest. cbn. rewrite A, C. repeat split; lra. Qed.

Lemma delay_flat Ts y cs : Forall (fun c => input_of c = y) cs -> flat y (outputs (delay_pred Ts) (delay_corr Ts) cs (snd (delay_init y))).
Proof.
  intros F. apply (@outputs_all _ _ (fun c => input_of c = y) (rest y)); [|exact F|unfold rest; cbn; auto].
  intros c s E R. destruct c as [u h f|u h]; cbn in E; subst u; cbn [step].
  - unfold delay_pred. rewrite (start_rest f R). destruct (Rlt_dec Ts (4 * h)); cbn [fst snd]; (split; [reflexivity|]); unfold rest; cbn.
    + repeat split; lra.
    + replace ((y - y) / Ts) with 0 by (unfold Rdiv; ring). repeat split; lra.
  - unfold delay_corr. destruct (Rlt_dec Ts (4 * h)); cbn [fst snd].
    + split; [reflexivity|now apply heun_rest].
    + destruct R as (A & B & C). rewrite B. split; [reflexivity|]. replace ((y - y) / Ts) with 0 by (unfold Rdiv; ring). now apply heun_rest.
Qed.
Lemma dlim_flat Ts mx mn y cs : mn <= y <= mx -> Forall (fun c => input_of c = y) cs ->
  flat y (outputs (dlim_pred Ts mx mn) (dlim_corr Ts mx mn) cs (Blk y y 0 0)).
Proof.
  intros L F. apply (@outputs_all _ _ (fun c => input_of c = y) (rest y)); [|exact F|unfold rest; cbn; auto].
  assert (Z : forall b : bool, (y - y) / Ts = 0) by (intros _; unfold Rdiv; ring).
  intros c s E R. destruct c as [u h f|u h]; cbn in E; subst u; cbn [step].
  - unfold dlim_pred. rewrite (start_rest f R). replace (if Rlt_dec Ts (4 * h) then y else y) with y by (now destruct (Rlt_dec Ts (4 * h))).
    rewrite !(lim_id L). replace (if Rlt_dec Ts (4 * h) then 0 else (y - y) / Ts) with 0 by (destruct (Rlt_dec Ts (4 * h)); [reflexivity|now rewrite (Z true)]).
    rewrite stop_zero. cbn [fst snd]. split; [reflexivity|]. unfold rest; cbn. repeat split; lra.
  - unfold dlim_corr. destruct R as (A & B & C) eqn:ER. rewrite B. replace (if Rlt_dec Ts (4 * h) then y else y) with y by (now destruct (Rlt_dec Ts (4 * h))).
    rewrite !(lim_id L). replace (if Rlt_dec Ts (4 * h) then 0 else (y - y) / Ts) with 0 by (destruct (Rlt_dec Ts (4 * h)); [reflexivity|now rewrite (Z true)]).
    rewrite stop_zero. cbn [fst snd]. split; [reflexivity|now apply heun_rest].
Qed.
Lemma dlim_limited Ts mx mn cs s : mn <= mx -> limited mx mn (outputs (dlim_pred Ts mx mn) (dlim_corr Ts mx mn) cs s).
Proof.
  intros H. apply (@outputs_all _ _ (fun _ => True) (fun _ => True)); [|now apply Forall_forall|exact Logic.I].
  intros [u h f|u h] t _ _; (split; [now apply lim_in|exact Logic.I]).
Qed.
Lemma dlim_init_limits y mx mn : let p := fst (dlim_init y mx mn) in mx <= fst p /\ snd p <= mn /\ snd p <= y <= fst p /\ (mn <= mx -> mn <= y <= mx -> p = (mx, mn)).
Proof.
  unfold dlim_init. cbn [fst snd]. destruct (Rlt_dec mx y), (Rlt_dec y mn); (split; [lra|split; [lra|split; [lra|]]]); intros; try lra; reflexivity.
Qed.
Lemma pi_limited Kp Ki mx mn cs s : mn <= mx -> limited mx mn (outputs (pi_pred Kp Ki mx mn) (pi_corr Kp Ki mx mn) cs s).
Proof.
  intros H. apply (@outputs_all _ _ (fun _ => True) (fun _ => True)); [|now apply Forall_forall|exact Logic.I].
  intros [u h f|u h] t _ _; (split; [now apply lim_in|exact Logic.I]).
Qed.
Lemma pi_no_windup Kp Ki mx mn u h f s : mn <= mx -> tiny <= Ki -> fst (pi_pred Kp Ki mx mn u h f s) = u * Kp + b_x0 (snd (pi_pred Kp Ki mx mn u h f s)).
Proof.
  intros H K. unfold pi_pred. cbn [fst snd b_x0]. destruct (Rlt_dec Ki tiny); [lra|]. apply lim_id.
  assert (mn - Kp * u <= mx - Kp * u) as L by lra. pose proof (lim_in (start_of f s) L). lra.
Qed.
Lemma pi_flat Kp Ki mx mn y cs : mn <= y <= mx -> tiny < Ki \/ (Ki < tiny /\ Kp <> 0) ->
  Forall (fun c => input_of c = fst (pi_init y Kp Ki)) cs ->
  flat y (outputs (pi_pred Kp Ki mx mn) (pi_corr Kp Ki mx mn) cs (snd (pi_init y Kp Ki))).
Proof.
  intros L K F. unfold pi_init in *. destruct (Rlt_dec tiny Ki) as [T|T]; cbn [fst snd] in *.
  - apply (@outputs_all _ _ (fun c => input_of c = 0) (rest y)); [|exact F|unfold rest; cbn; auto].
    intros c s E R. destruct c as [u h f|u h]; cbn in E; subst u; cbn [step].
    + unfold pi_pred. rewrite (start_rest f R). destruct (Rlt_dec Ki tiny); [lra|]. rewrite !Rmult_0_r, Rmult_0_l, !Rminus_0_r, (lim_id L), stop_zero, Rplus_0_l, (lim_id L).
      cbn [fst snd]. split; [reflexivity|]. unfold rest; cbn. repeat split; lra.
    + unfold pi_corr. destruct (Rlt_dec Ki tiny); [lra|]. rewrite (proj1 (proj2 R)). rewrite !Rmult_0_r, Rmult_0_l, !Rminus_0_r, (lim_id L), stop_zero, Rplus_0_l, (lim_id L).
      cbn [fst snd]. split; [reflexivity|]. now apply heun_rest.
  - destruct K as [K|(K & NZ)]; [lra|].
    assert (E0 : y / Kp * Kp + 0 = y) by (field; exact NZ).
    apply (@outputs_all _ _ (fun c => input_of c = y / Kp) (rest 0)); [|exact F|unfold rest; cbn; auto].
    intros c s E R. destruct c as [u h f|u h]; cbn in E; subst u; cbn [step].
    + unfold pi_pred. rewrite (start_rest f R). destruct (Rlt_dec Ki tiny); [|lra]. rewrite E0, (lim_id L). cbn [fst snd]. split; [reflexivity|]. unfold rest; cbn. repeat split; lra.
    + unfold pi_corr. destruct (Rlt_dec Ki tiny); [|lra]. rewrite (proj1 (proj2 R)), E0, (lim_id L). cbn [fst snd]. split; [reflexivity|]. now apply heun_rest.
Qed.
Lemma ll_flat T1 T2 h0 y cs : 0 < T1 -> Forall (fun c => input_of c = y /\ (T1 < 4 * h0 -> T1 < 4 * step_of c)) cs ->
  flat y (outputs (ll_pred T1 T2) (ll_corr T1 T2) cs (snd (ll_init y T1 T2 h0))).
Proof.
  intros P F. unfold ll_init. cbn [snd]. destruct (Rlt_dec T1 (4 * h0)) as [S|S].
  - apply (@outputs_all _ _ (fun c => input_of c = y /\ T1 < 4 * step_of c) (rest 0)); [|eapply Forall_impl; [|exact F]; intros c (A & B); auto|unfold rest; cbn; auto].
    intros c s (E & SC) R. destruct c as [u h f|u h]; cbn in E, SC; subst u; cbn [step].
    + unfold ll_pred. rewrite (start_rest f R). destruct (Rlt_dec T1 (4 * h)); [|lra]. cbn [fst snd]. split; [reflexivity|]. unfold rest; cbn. repeat split; lra.
    + unfold ll_corr. destruct (Rlt_dec T1 (4 * h)); [|lra]. cbn [fst snd]. split; [reflexivity|]. now apply heun_rest.
  - set (x := y * (1 - T2 / T1)). assert (E0 : y * T2 / T1 + x = y) by (unfold x; field; lra).
    assert (Z : (y * (1 - T2 / T1) - x) / T1 = 0) by (unfold x, Rdiv; ring).
    apply (@outputs_all _ _ (fun c => input_of c = y) (rest x)); [|eapply Forall_impl; [|exact F]; intros c (A & B); auto|unfold rest; cbn; auto].
    intros c s E R. destruct c as [u h f|u h]; cbn in E; subst u; cbn [step].
    + unfold ll_pred. rewrite (start_rest f R). destruct (Rlt_dec T1 (4 * h)); cbn [fst snd]; rewrite ?E0, ?Z; (split; [reflexivity|]); unfold rest; cbn; repeat split; lra.
    + unfold ll_corr. rewrite (proj1 (proj2 R)). destruct (Rlt_dec T1 (4 * h)); cbn [fst snd]; rewrite ?E0, ?Z; (split; [reflexivity|]); now apply heun_rest.
Qed.

(** The response of the delay block *)
Lemma delay_one Ts u h s : 0 < h -> 4 * h <= Ts ->
  b_x1 (snd (delay_corr Ts u h (snd (delay_pred Ts u h false s)))) - u = (1 - h / Ts + h / Ts * (h / Ts) / 2) * (b_x1 s - u).
Proof.
  intros H T. unfold delay_corr, delay_pred, heun, start_of. destruct (Rlt_dec Ts (4 * h)); [lra|]. cbn [fst snd b_x0 b_x1 b_d0 b_d1]. field. lra.
Qed.
Lemma delay_response Ts u h : 0 < h -> 4 * h <= Ts -> forall n s, b_x1 (delay_steps Ts u h n s) - u = (1 - h / Ts + h / Ts * (h / Ts) / 2) ^ n * (b_x1 s - u).
Proof.
  intros H T. induction n as [|n IH]; intros s; cbn [delay_steps pow]; [ring|]. rewrite IH, (delay_one u s H T). ring.
Qed.
Lemma delay_factor Ts h : 0 < h -> 4 * h <= Ts -> 0 < 1 - h / Ts + h / Ts * (h / Ts) / 2 < 1.
Proof.
  intros H T. assert (A : 0 < h / Ts) by (apply Rdiv_lt_0_compat; lra).
  assert (B : h / Ts <= 1 / 4). { apply Rmult_le_reg_r with Ts; [lra|]. unfold Rdiv. rewrite Rmult_assoc, Rinv_l by lra. lra. }
  set (a := h / Ts) in *. split; [nra|nra].
Qed.
Lemma delay_fast Ts u h s : Ts < 4 * h -> b_x1 (snd (delay_corr Ts u h (snd (delay_pred Ts u h false s)))) = u.
Proof.
  intros T. unfold delay_corr, delay_pred, heun, start_of. destruct (Rlt_dec Ts (4 * h)); [|lra]. cbn [fst snd b_x0 b_x1 b_d0 b_d1]. lra.
Qed.

(** Backlash *)
Lemma backlash_near db l u : 0 <= db -> Rabs (u - backlash db l u) <= db.
Proof.
  intros H. unfold backlash. destruct (Rle_dec (l - db) u); [destruct (Rle_dec u (l + db))|]; try destruct (Rlt_dec (l + db) u); unfold Rabs; destruct (Rcase_abs _); lra.
Qed.
Lemma backlash_all_near db : 0 <= db -> forall us l, Forall2 (fun u o => Rabs (u - o) <= db) us (backlash_all db l us).
Proof. intros H. induction us as [|u r IH]; intros l; cbn; constructor; [now apply backlash_near|apply IH]. Qed.
Lemma abs_le x d : Rabs x <= d -> - d <= x <= d.
Proof. unfold Rabs. destruct (Rcase_abs x); lra. Qed.
Lemma backlash_again db l u : 0 <= db -> backlash db (backlash db l u) u = backlash db l u.
Proof.
  intros H. pose proof (@abs_le _ _ (backlash_near l u H)). set (o := backlash db l u) in *. unfold backlash.
  destruct (Rle_dec (o - db) u); [|lra]. destruct (Rle_dec u (o + db)); lra.
Qed.
Lemma backlash_rising db l u v : 0 <= db -> u <= v -> let o := backlash db l u in 0 <= backlash db o v - o <= v - u.
Proof.
  intros H L o. pose proof (@abs_le _ _ (backlash_near l u H)) as A. fold o in A. unfold backlash.
  destruct (Rle_dec (o - db) v); [|lra]. destruct (Rle_dec v (o + db)); [lra|]. destruct (Rlt_dec (o + db) v); lra.
Qed.

(** Dead band *)
Lemma db_init_ok d e : let p := db_init d e in 0 <= snd p <= fst p /\ fst p = Rabs d /\ (Rabs e <= Rabs d -> snd p = Rabs e).
Proof.
  unfold db_init. cbn [fst snd]. pose proof (Rabs_pos d). pose proof (Rabs_pos e). destruct (Rlt_dec (Rabs d) (Rabs e)); (split; [lra|split; [reflexivity|]]); intros; try lra; reflexivity.
Qed.
Lemma db_plain db init : 0 <= db -> forall us st, exists outs, db_all db 0 init st us = Ok outs /\ Forall2 (fun u o => dead db (u - init) (o - init)) us outs.
Proof.
  intros H. induction us as [|u r IH]; intros st; [exists []; split; [reflexivity|constructor]|]. cbn [db_all].
  unfold db_output. assert (E0 : req 0 0 = true) by (unfold req; destruct (Req_EM_T 0 0); [reflexivity|lra]). rewrite E0. cbn [orb].
  unfold rle. destruct (Rle_dec (Rabs (u - init)) db) as [L|L]; cbn [andb obind fst snd].
  - destruct (IH st) as (o & Eo & Fo). rewrite Eo. cbn [obind]. eexists. split; [reflexivity|]. constructor; [|exact Fo].
    apply abs_le in L. unfold dead. repeat split; intros; lra.
  - destruct (IH st) as (o & Eo & Fo). rewrite Eo. cbn [obind]. eexists. split; [reflexivity|]. constructor; [|exact Fo].
    assert (~ (- db <= u - init <= db)) by (intros X; apply L; unfold Rabs; destruct (Rcase_abs (u - init)); lra).
    unfold dead. destruct (Rlt_dec db (u - init)); repeat split; intros; lra.
Qed.
(** With Eps = Db1 *)
Section Bowtie.
Variables (db init : R).
Hypothesis (H : 0 < db).
Lemma bt_ok st u : (st <= 2)%nat -> exists o st', db_output db db init st u = Ok (o, st') /\ (st' <= 2)%nat /\
  (o = u \/ o = init) /\ (db < Rabs (u - init) -> o = u) /\ (0 <= u - init -> st' <> 2%nat) /\ (u - init <= 0 -> st' <> 1%nat) /\
  (db < u - init -> st' = 1%nat) /\ (u - init < - db -> st' = 2%nat) /\
  (st = 1%nat -> 0 < u - init -> o = u /\ st' = 1%nat) /\ (st = 2%nat -> u - init < 0 -> o = u /\ st' = 2%nat) /\
  (st <> 1%nat -> 0 <= u - init < db -> o = init /\ st' = 0%nat) /\ (st <> 2%nat -> - db < u - init <= 0 -> o = init /\ st' = 0%nat).
Proof.
  intros S. unfold db_output. assert (E0 : req db 0 = false) by (unfold req; destruct (Req_EM_T db 0); [lra|reflexivity]).
  assert (E1 : req db db = true) by (unfold req; destruct (Req_EM_T db db); [reflexivity|lra]). rewrite E0, E1. cbn [orb].
  set (x := u - init). assert (EX : x + init = u) by (unfold x; ring). assert (EZ : 0 + init = init) by ring.
  unfold rle. destruct st as [|[|[|st]]]; [| | |lia]; cbn [Nat.eqb]; rewrite ?andb_true_r, ?andb_false_r.
  - destruct (Rle_dec (Rabs x) db) as [L|L]; cbn [obind fst snd]; [|destruct (Rle_dec db x) as [A|A]; cbn [obind fst snd]; [|destruct (Rle_dec x (- db)) as [B|B]; cbn [obind fst snd]]].
    + apply abs_le in L. exists (0 + init), 0%nat. rewrite EZ. repeat split; auto; intros; try discriminate; try lra; try lia.
      exfalso. revert H0. unfold Rabs. destruct (Rcase_abs x); lra.
    + exists (x + init), 1%nat. rewrite EX. repeat split; auto; intros; try discriminate; try lra; try lia.
      all: exfalso; assert (~ x <= db) by (intros Y; apply L; unfold Rabs; destruct (Rcase_abs x); lra); lra.
    + exists (x + init), 2%nat. rewrite EX. repeat split; auto; intros; try discriminate; try lra; try lia.
    + exfalso. apply L. unfold Rabs. destruct (Rcase_abs x); lra.
  - destruct (Rle_dec db x) as [A|A]; cbn [obind fst snd]; [|destruct (Rle_dec x (- db)) as [B|B]; cbn [obind fst snd]; [|destruct (Rlt_dec 0 x); cbn [fst snd]]].
    + exists (x + init), 1%nat. rewrite EX. repeat split; auto; intros; try discriminate; try lra; try lia; try congruence.
    + exists (x + init), 2%nat. rewrite EX. repeat split; auto; intros; try discriminate; try lra; try lia; try congruence.
    + exists (x + init), 1%nat. rewrite EX. repeat split; auto; intros; try discriminate; try lra; try lia; try congruence.
    + exists (0 + init), 0%nat. rewrite EZ. repeat split; auto; intros; try discriminate; try lra; try lia; try congruence.
      exfalso. revert H0. unfold Rabs. destruct (Rcase_abs x); lra.
  - destruct (Rle_dec db x) as [A|A]; cbn [obind fst snd]; [|destruct (Rle_dec x (- db)) as [B|B]; cbn [obind fst snd]; [|destruct (Rlt_dec x 0); cbn [fst snd]]].
    + exists (x + init), 1%nat. rewrite EX. repeat split; auto; intros; try discriminate; try lra; try lia; try congruence.
    + exists (x + init), 2%nat. rewrite EX. repeat split; auto; intros; try discriminate; try lra; try lia; try congruence.
    + exists (x + init), 2%nat. rewrite EX. repeat split; auto; intros; try discriminate; try lra; try lia; try congruence.
    + exists (0 + init), 0%nat. rewrite EZ. repeat split; auto; intros; try discriminate; try lra; try lia; try congruence.
      exfalso. revert H0. unfold Rabs. destruct (Rcase_abs x); lra.
Qed.
(** The state after a history *)
Lemma bt_split : forall pre st rest, (st <= 2)%nat -> exists o1 st', length o1 = length pre /\ (st' <= 2)%nat /\
  (forall o2, db_all db db init st' rest = Ok o2 -> db_all db db init st (pre ++ rest) = Ok (o1 ++ o2)%list) /\
  (pre = [] -> st' = st) /\ (forall p w, pre = (p ++ [w])%list -> (0 <= w - init -> st' <> 2%nat) /\ (w - init <= 0 -> st' <> 1%nat)).
Proof.
  induction pre as [|u pre IH]; intros st rest S.
  - exists [], st. repeat split; auto; intros; destruct p; discriminate.
  - destruct (bt_ok u S) as (o & s1 & E & S1 & _ & _ & N2 & N1 & _). destruct (IH s1 rest S1) as (o1 & s2 & L & S2 & A & B & C).
    exists (o :: o1), s2. split; [cbn; now rewrite L|]. split; [exact S2|]. split; [|split].
    + intros o2 E2. cbn [app db_all]. rewrite E. cbn [obind fst snd]. rewrite (A o2 E2). reflexivity.
    + discriminate.
    + intros p w EQ. destruct p as [|a p].
      * injection EQ as -> ->. specialize (B eq_refl). subst s2. now split.
      * injection EQ as -> EQ. exact (C p w EQ).
Qed.
Lemma bt_total : forall us st, (st <= 2)%nat -> exists outs, db_all db db init st us = Ok outs /\
  Forall2 (fun u o => (o = u \/ o = init) /\ (db < Rabs (u - init) -> o = u)) us outs.
Proof.
  induction us as [|u r IH]; intros st S; [exists []; split; [reflexivity|constructor]|].
  destruct (bt_ok u S) as (o & s1 & E & S1 & A & B & _). destruct (IH s1 S1) as (os & E2 & F). cbn [db_all]. rewrite E. cbn [obind fst snd]. rewrite E2. cbn [obind].
  eexists. split; [reflexivity|]. constructor; [now split|exact F].
Qed.
Lemma bt_follow_pos : forall mid, Forall (fun v => 0 < v - init) mid -> db_all db db init 1 mid = Ok mid.
Proof.
  induction mid as [|v r IH]; intros F; [reflexivity|]. inversion F; subst. destruct (@bt_ok 1 v) as (o & s1 & E & _ & _ & _ & _ & _ & _ & _ & A & _); [lia|].
  destruct (A eq_refl) as (-> & ->); [assumption|]. cbn [db_all]. rewrite E. cbn [obind fst snd]. rewrite IH by assumption. reflexivity.
Qed.
Lemma bt_follow_neg : forall mid, Forall (fun v => v - init < 0) mid -> db_all db db init 2 mid = Ok mid.
Proof.
  induction mid as [|v r IH]; intros F; [reflexivity|]. inversion F; subst. destruct (@bt_ok 2 v) as (o & s1 & E & _ & _ & _ & _ & _ & _ & _ & _ & A & _); [lia|].
  destruct (A eq_refl) as (-> & ->); [assumption|]. cbn [db_all]. rewrite E. cbn [obind fst snd]. rewrite IH by assumption. reflexivity.
Qed.
Lemma bt_quiet_pos : forall mid st, (st <= 2)%nat -> st <> 1%nat -> Forall (fun v => 0 <= v - init < db) mid -> db_all db db init st mid = Ok (map (fun _ => init) mid).
Proof.
  induction mid as [|v r IH]; intros st S N F; [reflexivity|]. inversion F; subst. destruct (@bt_ok st v S) as (o & s1 & E & _ & _ & _ & _ & _ & _ & _ & _ & _ & A & _).
  destruct (A N) as (-> & ->); [assumption|]. cbn [db_all]. rewrite E. cbn [obind fst snd]. rewrite IH by (auto; discriminate). reflexivity.
Qed.
Lemma bt_quiet_neg : forall mid st, (st <= 2)%nat -> st <> 2%nat -> Forall (fun v => - db < v - init <= 0) mid -> db_all db db init st mid = Ok (map (fun _ => init) mid).
Proof.
  induction mid as [|v r IH]; intros st S N F; [reflexivity|]. inversion F; subst. destruct (@bt_ok st v S) as (o & s1 & E & _ & _ & _ & _ & _ & _ & _ & _ & _ & _ & A).
  destruct (A N) as (-> & ->); [assumption|]. cbn [db_all]. rewrite E. cbn [obind fst snd]. rewrite IH by (auto; discriminate). reflexivity.
Qed.
Theorem bt_follows pre u mid : (db < u - init /\ Forall (fun v => 0 < v - init) mid) \/ (u - init < - db /\ Forall (fun v => v - init < 0) mid) ->
  exists o1, length o1 = length pre /\ db_all db db init 0 (pre ++ u :: mid) = Ok (o1 ++ u :: mid)%list.
Proof.
  intros C. destruct (@bt_split pre 0 (u :: mid)) as (o1 & st & L & S & A & _); [lia|]. exists o1. split; [exact L|]. apply A.
  destruct (bt_ok u S) as (o & s1 & E & _ & _ & B & _ & _ & P1 & P2 & _). cbn [db_all]. rewrite E. cbn [obind fst snd]. destruct C as [(C & F)|(C & F)].
  - rewrite (P1 C), bt_follow_pos by exact F. cbn [obind]. rewrite B; [reflexivity|]. unfold Rabs; destruct (Rcase_abs (u - init)); lra.
  - rewrite (P2 C), bt_follow_neg by exact F. cbn [obind]. rewrite B; [reflexivity|]. unfold Rabs; destruct (Rcase_abs (u - init)); lra.
Qed.
Theorem bt_silent pre mid :
  ((pre = [] \/ exists p w, pre = (p ++ [w])%list /\ w - init <= 0) /\ Forall (fun v => 0 <= v - init < db) mid) \/
  ((pre = [] \/ exists p w, pre = (p ++ [w])%list /\ 0 <= w - init) /\ Forall (fun v => - db < v - init <= 0) mid) ->
  exists o1, length o1 = length pre /\ db_all db db init 0 (pre ++ mid) = Ok (o1 ++ map (fun _ => init) mid)%list.
Proof.
  intros C. destruct (@bt_split pre 0 mid) as (o1 & st & L & S & A & B & D); [lia|]. exists o1. split; [exact L|]. apply A.
  destruct C as [(C & F)|(C & F)].
  - apply bt_quiet_pos; try assumption. destruct C as [C|(p & w & E & W)]; [now rewrite (B C)|exact (proj2 (D p w E) W)].
  - apply bt_quiet_neg; try assumption. destruct C as [C|(p & w & E & W)]; [now rewrite (B C)|exact (proj1 (D p w E) W)].
Qed.
End Bowtie.
Lemma stop_inside mx mn x d : mn < x < mx -> stop_at mx mn x d = d.
Proof. intros H. unfold stop_at. destruct (Rlt_dec 0 d); [destruct (Rle_dec mx x); [lra|]|]; destruct (Rlt_dec d 0); try destruct (Rle_dec x mn); lra. Qed.
Lemma dlim_free_pred Ts mx mn u h f s : mn < start_of f s < mx -> mn < u < mx -> dlim_pred Ts mx mn u h f s = delay_pred Ts u h f s.
Proof.
  intros A B. unfold dlim_pred, delay_pred. cbv zeta. destruct (Rlt_dec Ts (4 * h)); rewrite !lim_id by (rewrite ?lim_id; lra); now rewrite stop_inside by lra.
Qed.
Lemma dlim_free_corr Ts mx mn u h s : mn < b_x1 s < mx -> mn < u < mx -> dlim_corr Ts mx mn u h s = delay_corr Ts u h s.
Proof.
  intros A B. unfold dlim_corr, delay_corr. cbv zeta. destruct (Rlt_dec Ts (4 * h)); rewrite !lim_id by (rewrite ?lim_id; lra); now rewrite stop_inside by lra.
Qed.
Lemma lim_high mx mn v : mn <= mx -> mx <= v -> lim mx mn v = mx.
Proof. intros H L. unfold lim. destruct (Rlt_dec mx v); destruct (Rlt_dec _ mn); lra. Qed.
Lemma lim_low mx mn v : mn <= mx -> v <= mn -> lim mx mn v = mn.
Proof. intros H L. unfold lim. destruct (Rlt_dec mx v); destruct (Rlt_dec _ mn); lra. Qed.
Lemma dlim_at_max Ts mx mn u h f s : mn <= mx -> 0 < Ts -> mx <= start_of f s -> mx <= u ->
  fst (dlim_pred Ts mx mn u h f s) = mx /\ b_x1 (snd (dlim_pred Ts mx mn u h f s)) = mx.
Proof.
  intros H T A B. unfold dlim_pred. cbv zeta. replace (lim mx mn (if Rlt_dec Ts (4 * h) then u else start_of f s)) with mx by (destruct (Rlt_dec Ts (4 * h)); symmetry; now apply lim_high).
  cbn [fst snd b_x1]. split; [apply lim_high; lra|].
  assert (D : 0 <= (u - mx) / Ts) by (unfold Rdiv; apply Rmult_le_pos; [lra|left; now apply Rinv_0_lt_compat]).
  replace (stop_at mx mn mx (if Rlt_dec Ts (4 * h) then 0 else (u - mx) / Ts)) with 0; [lra|].
  symmetry. destruct (Rlt_dec Ts (4 * h)); [apply stop_zero|]. unfold stop_at. destruct (Rlt_dec 0 ((u - mx) / Ts)).
  - destruct (Rle_dec mx mx); [|lra]. destruct (Rlt_dec 0 0); lra.
  - destruct (Rlt_dec ((u - mx) / Ts) 0); lra.
Qed.
Lemma dlim_at_min Ts mx mn u h f s : mn <= mx -> 0 < Ts -> start_of f s <= mn -> u <= mn ->
  fst (dlim_pred Ts mx mn u h f s) = mn /\ b_x1 (snd (dlim_pred Ts mx mn u h f s)) = mn.
Proof.
  intros H T A B. unfold dlim_pred. cbv zeta. replace (lim mx mn (if Rlt_dec Ts (4 * h) then u else start_of f s)) with mn by (destruct (Rlt_dec Ts (4 * h)); symmetry; now apply lim_low).
  cbn [fst snd b_x1]. split; [apply lim_low; lra|].
  assert (D : 0 <= (mn - u) / Ts) by (unfold Rdiv; apply Rmult_le_pos; [lra|left; now apply Rinv_0_lt_compat]).
  assert (D' : (u - mn) / Ts = - ((mn - u) / Ts)) by (unfold Rdiv; ring).
  replace (stop_at mx mn mn (if Rlt_dec Ts (4 * h) then 0 else (u - mn) / Ts)) with 0; [lra|].
  symmetry. destruct (Rlt_dec Ts (4 * h)); [apply stop_zero|]. unfold stop_at. destruct (Rlt_dec 0 ((u - mn) / Ts)); [lra|].
  destruct (Rlt_dec ((u - mn) / Ts) 0); [|lra]. destruct (Rle_dec mn mn); lra.
Qed.
Lemma backlash_history db : 0 <= db -> forall pre l u v r, exists o1 o o' os,
  backlash_all db l (pre ++ u :: v :: r) = (o1 ++ o :: o' :: os)%list /\ length o1 = length pre /\ (u = v -> o' = o) /\ (u <= v -> 0 <= o' - o <= v - u).
Proof.
  intros H. induction pre as [|w pre IH]; intros l u v r.
  - exists [], (backlash db l u), (backlash db (backlash db l u) v), (backlash_all db (backlash db (backlash db l u) v) r). split; [reflexivity|]. split; [reflexivity|].
    split; [intros <-; now apply backlash_again|]. intros L. exact (@backlash_rising db l u v H L).
  - destruct (IH (backlash db l w) u v r) as (o1 & o & o' & os & E & L & A & B). exists (backlash db l w :: o1), o, o', os.
    cbn [app backlash_all]. rewrite E. split; [reflexivity|]. split; [cbn; now rewrite L|]. now split.
Qed.

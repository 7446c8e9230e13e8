(** Proofs for C60: single updates used by the examples and findings. *)
From Verif Require Import Prelude RyModel RySpec RyProofs RyProofs2 RyProofs3 RyProofs4 RyProofs5.
From Coq Require Import Reals Lra.
From Coquelicot Require Import Complex.
Open Scope R_scope.

Lemma run_all_ok dt Vs : forall first s, all_ok s -> forall s', In s' (steps dt first Vs s) -> all_ok s'.
Proof.
  induction Vs as [| [V1 V2] Vs IH]; intros first s H s' I; [destruct I |]. cbn [steps] in I. destruct I as [<- | I]; [now apply step_all_ok |]. eapply IH; [| exact I]. apply second_all_ok, step_all_ok, H.
Qed.
Lemma intact_ok b : intact b -> bus_ok b.
Proof. intros [_ H] g G. destruct (H g G) as (A & B & D). split; [exact B |]. intros x X. rewrite A. now apply D. Qed.

Lemma below_true a b : a < b -> below a b = true.
Proof. unfold below. destruct (Rlt_dec a b); tauto. Qed.
Lemma below_false a b : b <= a -> below a b = false.
Proof. unfold below. destruct (Rlt_dec a b); [lra | reflexivity]. Qed.
Lemma atmost_true a b : a <= b -> atmost a b = true.
Proof. unfold atmost. destruct (Rle_dec a b); tauto. Qed.
Lemma atmost_false a b : b < a -> atmost a b = false.
Proof. unfold atmost. destruct (Rle_dec a b); [lra | reflexivity]. Qed.

(** A load relay that operates at once when the voltage is below 1/2, with steps of one second *)
Definition lv1 (f : R) : lvshbl := Lvshbl (1 / 2) 1 f 0 0 0 0 0 0 1.
Lemma lv1_trips f : operate (lv_update (lv1 f) 1 (RtoC 0)) (fresh 0%nat) = (Relay 0%nat 0 false true false false, true).
Proof.
  unfold operate, lv_update, fresh, lv1. cbn [r_flag r_count r_brk r_trip r_op lv_v1 lv_t1 lv_tb]. rewrite Cmod_0, (@below_true 0 (1 / 2)) by lra. rewrite (@atmost_true 1 (INR 1 * 1)) by (cbn; lra). reflexivity.
Qed.
Lemma lv1_stays f : operate (lv_update (lv1 f) 1 (RtoC 1)) (fresh 0%nat) = (fresh 0%nat, false).
Proof.
  unfold operate, lv_update, fresh, lv1. cbn [r_flag r_count r_brk r_trip r_op lv_v1 lv_t1 lv_tb]. rewrite Cmod_1, (@below_false 1 (1 / 2)) by lra. rewrite (@atmost_false 1 (INR 0 * 1)) by (cbn; lra). reflexivity.
Qed.
(** A line relay that operates at once when the voltage is below twice the current *)
Definition ds1 : distr1 := Distr1 (Zone 0 4 0 0) (Zone 0 4 0 0) (Zone 0 4 0 0) 0.
Lemma centre0 t r a : centre (Zone t r a 0) = RtoC 0.
Proof. unfold centre. cbn [zn_dis zn_ang]. rewrite !Rmult_0_l. reflexivity. Qed.
Lemma ds1_zone1 : in_zone (Zone 0 4 0 0) (RtoC 1) (RtoC 1) = true.
Proof.
  unfold in_zone. destruct (Ceq_dec (RtoC 1) (RtoC 0)) as [E | _]; [exfalso; injection E; lra |]. rewrite centre0. cbn [zn_reach]. apply below_true. replace (RtoC 1 / RtoC 1 - RtoC 0)%C with (RtoC 1) by (field; intros E; injection E; lra). rewrite Cmod_1. lra.
Qed.
Lemma zone_none z v : in_zone z v (RtoC 0) = false.
Proof. unfold in_zone. destruct (Ceq_dec (RtoC 0) (RtoC 0)); [reflexivity | tauto]. Qed.
Lemma ds1_trips : operate (ds_update ds1 1 (RtoC 1, RtoC 1)) (fresh (0%nat, 0%nat)) = (Relay (0%nat, 0%nat) 0 false true false false, true).
Proof.
  unfold operate, ds_update, fresh, ds1. cbn [r_flag r_count r_brk r_trip r_op ds_1 ds_2 ds_tb fst snd zn_time]. rewrite ds1_zone1. cbn [fst snd]. rewrite (@below_true (0 / 60) (INR 1 * 1)) by (cbn; lra). reflexivity.
Qed.
Lemma ds1_stays v : operate (ds_update ds1 1 (v, RtoC 0)) (fresh (0%nat, 0%nat)) = (fresh (0%nat, 0%nat), false).
Proof.
  unfold operate, ds_update, fresh, ds1. cbn [r_flag r_count r_brk r_trip r_op ds_1 ds_2 ds_tb fst snd zn_time]. rewrite zone_none. cbn [fst snd]. rewrite (@below_false (0 / 60) (INR 0 * 1)) by (cbn; lra). reflexivity.
Qed.
Lemma ds1_after v p o : operate (ds_update ds1 1 (v, RtoC 0)) (Relay (0%nat, 0%nat) 0 false true p o) = (Relay (0%nat, 0%nat) 0 false true true o, false).
Proof.
  unfold operate, ds_update, ds1. cbn [r_flag r_count r_brk r_trip r_op ds_1 ds_2 ds_tb fst snd zn_time]. rewrite zone_none. cbn [fst snd]. rewrite (@below_false (0 / 60) (INR 0 * 1)) by (cbn; lra). reflexivity.
Qed.
(** A generator relay that operates at once when the frequency is above 59 *)
Definition fq1 : frqtpat := Frqtpat 50 59 1 0.
Lemma fq1_trips : operate (fq_update fq1 1 60) (fresh (0%nat, 0%nat)) = (Relay (0%nat, 0%nat) 0 false true false false, true).
Proof.
  unfold operate, fq_update, fresh, fq1. cbn [r_flag r_count r_brk r_trip r_op fq_low fq_up fq_tp fq_tb fst snd]. rewrite (@below_false 60 50), (@below_true 59 60) by lra. cbn [fst snd].
  rewrite (@atmost_false 1 (INR 0 * 1)), (@atmost_true 1 (INR 1 * 1)), (@below_true 0 (INR 1 * 1)) by (cbn; lra). reflexivity.
Qed.
Lemma frequency_still dt v : dt <> 0 -> frequency dt 60 v v = 60.
Proof.
  intros D. unfold frequency. cbn zeta. set (a := DyModel.atan2 (snd v) (fst v)). assert (P : 0 < atan 1) by (rewrite atan_1; assert (H := PI_RGT_0); lra).
  assert (E : (if Rlt_dec (170 / 180 * (4 * atan 1)) a then if Rlt_dec a 0 then a + 2 * (4 * atan 1) else a else if Rlt_dec a (-170 / 180 * (4 * atan 1)) then if Rlt_dec 0 a then a - 2 * (4 * atan 1) else a else a) = a).
  { destruct (Rlt_dec _ a); [destruct (Rlt_dec a 0); [lra | reflexivity] |]. destruct (Rlt_dec a _); [destruct (Rlt_dec 0 a); [lra | reflexivity] | reflexivity]. }
  rewrite E. replace (60 / 60 - 1) with 0 by field. replace (a - a) with 0 by ring. replace (0 / dt / (2 * 60 * (4 * atan 1))) with 0 by (unfold Rdiv; ring). field.
Qed.
Definition lv_bus (f : R) : rbus := Rbus (RtoC 1) (RtoC 1) 60 60 false (RtoC 1) (RtoC 5) [(lv1 f, fresh 0%nat)] [] false false None.
Definition bare_bus : rbus := Rbus (RtoC 1) (RtoC 1) 60 60 false (RtoC 0) (RtoC 5) [] [] false false None.
Definition gen_bus (l : list frqtpat) : rbus := Rbus (RtoC 1) (RtoC 1) 60 60 true (RtoC 0) (RtoC 5) [] [Rgen true true (RtoC 1) (map (fun p => (p, fresh (0%nat, 0%nat))) l)] false false None.
Definition ds_line (i j : nat) : rline := Rline i j [(true, RtoC 1)] [(0%nat, (ds1, fresh (0%nat, 0%nat)))] [] false.
Definition five : mat := fun a b => if (a =? b)%nat then RtoC 5 else RtoC 0.
Definition at_one (k : nat) : C := RtoC 1.
Definition at_zero (k : nat) : C := RtoC 0.

(** Proofs: an example network, and the networks of the refuted claims. *)
From Coq Require Import Reals Lra.
From Coquelicot Require Import Complex.
From Verif Require Import Prelude CbModel CbSpec CbProofs DbModel DyModel DyProofs DyProofs2 DyProofs3 DyProofs4 DyProofs5 DySpec.
Open Scope R_scope.

(** ** A network of two buses with a line of reactance 1 *)
Definition exY (i j : nat) : C := if Nat.eqb i j then (0, -1) else (0, 1).
Definition ex_sexs : sxp := Sxp (1/10) 10 100 4 0 (1/10).
Definition ex_exdc1 : dcp := Dcp 0 50 (1/5) 1 1 5 (-5) 1 (1/2) (1/10) 1 0 0 0 0.
Definition ex_tgov1 : tgp := Tgp (1/20) (1/2) 1 0 1 2 0.
Definition ex_hygov : hyp := Hyp (Some (1/20)) (Some (3/10)) 5 (1/20) (1/2) 1 0 1 (6/5) 0 (2/25).
Definition ex_par (s10 s12 : R) : gpar := Gpar 0 100 3 0 0 (3/2) 1 (1/2) (1/5) (1/10) 6 (1/20) (1/20) s10 s12 (3/5) 1 0 0.
Definition ex_rou : mdata := DGENROU (ex_par 0 0) (Some (DSEXS ex_sexs)) (Some (DTGOV1 ex_tgov1)).
Definition ex_sal : mdata := DGENSAL (ex_par (1/25) (4/25)) (Some (DEXDC1 ex_exdc1)) (Some (DHYGOV ex_hygov)).
Definition ex_cls : mdata := DGENCLS (Clp 100 0 0 (1/4) 5 2 0 0).
Definition ex_b1 : bdata := Bd 1 0 [Ld true 170 (-100) 0 0 0 0; Ld false 5 5 0 0 0 0]
  [Gd true (3/5) (-1/5) (Some (Some ex_rou)); Gd true (1/10) (1/5) None; Gd false 1 1 (Some (Some ex_cls))].
Definition ex_b2 : bdata := Bd 1 90 [Ld true 10 (-110) 0 0 0 0]
  [Gd true (3/5) (-1/5) (Some (Some ex_sal)); Gd true (1/2) (1/10) (Some (Some ex_cls))].
Definition ex_net : list (C * bdata) := [((0, -1), ex_b1); ((0, -1), ex_b2)].

Lemma ex_v1 : phasor ex_b1 = (1, 0).
Proof. unfold phasor. cbn [bd_mag bd_deg ex_b1]. replace (0 * PI / 180) with 0 by field. rewrite cos_0, sin_0. f_equal; ring. Qed.
Lemma ex_v2 : phasor ex_b2 = (0, 1).
Proof. unfold phasor. cbn [bd_mag bd_deg ex_b2]. replace (90 * PI / 180) with (PI / 2) by field. rewrite cos_PI2, sin_PI2. f_equal; ring. Qed.
Lemma pair_eq (a b c d : R) : a = c -> b = d -> (a, b) = ((c, d) : C).
Proof. congruence. Qed.
Ltac cc := unfold Cdiv, Cminus, Cplus, Copp, Cmult, Cinv, Cconj, RtoC, Ci; cbn [fst snd]; apply pair_eq; try (field; repeat split; lra); try lra.
Lemma cur1 : stator_current (3/5) (-1/5) (1, 0) = (3/5, 1/5).
Proof. unfold stator_current. cc. Qed.
Lemma cur2 : stator_current (3/5) (-1/5) (0, 1) = (-1/5, 3/5).
Proof. unfold stator_current. cc. Qed.
Lemma unit_q r a x y : 0 <= r -> x * x + y * y = 1 -> (x, y) = (RtoC r * (cos a, sin a))%C -> cos a = x /\ sin a = y.
Proof.
  intros Hr H E. unfold Cmult, RtoC in E. cbn [fst snd] in E. inversion E as [[E1 E2]]. pose proof (sin2_cos2 a) as S. unfold Rsqr in S.
  assert (r = 1). { assert (r * r = 1) by (replace (r * r) with (r * r * (sin a * sin a + cos a * cos a)) by (rewrite S; ring); rewrite <- H, E1, E2; ring). nra. }
  subst r. split; lra.
Qed.
Lemma ex_base s10 s12 : g_base (gpar_pq (ex_par s10 s12) 100 (3/5) (-1/5)) = 100.
Proof.
  unfold g_base. destruct (Rlt_dec _ _) as [L|_]; [|reflexivity]. exfalso. revert L. unfold g_P, g_Q. cbn [g_MB g_pg g_qg g_sb gpar_pq ex_par].
  apply Rle_not_lt. apply Rle_trans with (sqrt (100 * 100)); [apply sqrt_le_1_alt; lra|rewrite sqrt_square; lra].
Qed.
Lemma ex_field v s10 s12 sat a e : v = (1, 0) \/ v = (0, 1) ->
  field_voltage (gpar_pq (ex_par s10 s12) 100 (3/5) (-1/5)) sat (3/5) (-1/5) v a e -> exists s, sat (9/10) s /\ e = 9/10 * (1 + s) + 1/5.
Proof.
  intros Hv (r & Hr & E & s & Hs & ->). cbn [g_Ra g_Xq g_Xd g_Xdp gpar_pq ex_par] in *.
  assert (Q : (v = (1, 0) /\ cos a = 4/5 /\ sin a = 3/5) \/ (v = (0, 1) /\ cos a = -3/5 /\ sin a = 4/5)).
  { destruct Hv as [-> | ->]; [left|right]; (split; [reflexivity|]); [rewrite cur1 in E|rewrite cur2 in E]; apply (@unit_q r a); try lra; rewrite <- E; cc. }
  exists s. destruct Q as [(-> & Ca & Sa)|(-> & Ca & Sa)]; [rewrite cur1 in *|rewrite cur2 in *]; unfold Cmult, Cconj in *; cbn [fst snd] in *; rewrite Ca, Sa in *.
  - match type of Hs with sat ?x s => replace x with (9/10) in * by field end. split; [exact Hs|]. field.
  - match type of Hs with sat ?x s => replace x with (9/10) in * by field end. split; [exact Hs|]. field.
Qed.
Lemma ex_shaft v s10 s12 pm : shaft_power (gpar_pq (ex_par s10 s12) 100 (3/5) (-1/5)) (3/5) (-1/5) v pm -> pm = 3/5.
Proof. unfold shaft_power. cbn [g_Ra gpar_pq ex_par]. intros ->. ring. Qed.
Lemma ex_pq : 3/5 * 100 / 100 = 3/5 /\ -1/5 * 100 / 100 = -1/5.
Proof. split; field. Qed.
Lemma tc_pos' t : 0 < t <= 1000 -> tc t.
Proof. intros H. split; [lra|]. rewrite Rabs_right; lra. Qed.
Ltac bd := unfold bounded; lra.
Lemma ex_gpar s10 s12 : gpar_ok (gpar_pq (ex_par s10 s12) 100 (3/5) (-1/5)).
Proof. unfold gpar_ok. rewrite ex_base. cbn. repeat split; lra. Qed.
Lemma ex_rou_ok v : v = (1, 0) -> machine_ok 100 (with_pq ex_rou 100 (3/5) (-1/5)) v.
Proof.
  intros Hv. unfold ex_rou. cbn [with_pq machine_ok]. split; [apply ex_gpar|]. split; [unfold rou_ok; cbn; lra|].
  split; [left; split; [reflexivity|]; cbn; rewrite Rmult_0_l, Rabs_R0; lra|].
  unfold ctl_ok. rewrite ex_base. destruct ex_pq as [E1 E2]. cbn [g_pg g_qg g_sb gpar_pq ex_par]. fold (ex_par 0 0). change (Gpar 100 100 3 0 0 (3/2) 1 (1/2) (1/5) (1/10) 6 (1/20) (1/20) 0 0 (3/5) 1 (3/5) (-1/5)) with (gpar_pq (ex_par 0 0) 100 (3/5) (-1/5)).
  rewrite E1, E2. split.
  - intros d a e Ed F. inversion Ed; subst d. apply ex_field in F; [|auto]. destruct F as (s & Hs & ->).
    assert (s = 0). { destruct Hs as [[_ Hs]|[N _]]; [exact Hs|]. exfalso. apply N. cbn. rewrite Rmult_0_l, Rabs_R0. lra. } subst s.
    cbn [exc_ok]. unfold sexs_ok, ex_sexs. cbn. split; [apply tc_pos'; lra|]. repeat split; try lra. left. split; [apply tc_pos'; lra|]. rewrite Rabs_right; lra.
  - intros d pm Ed F. inversion Ed; subst d. apply ex_shaft in F. subst pm. cbn [gov_ok]. unfold tgov1_ok, ex_tgov1. cbn.
    split; [lra|]. split; [apply tc_pos'; lra|]. split; [apply tc_pos'; lra|]. repeat split; lra.
Qed.
Lemma ex_sal_ok v : v = (0, 1) -> machine_ok 100 (with_pq ex_sal 100 (3/5) (-1/5)) v.
Proof.
  intros Hv. unfold ex_sal. cbn [with_pq machine_ok]. split; [apply ex_gpar|].
  split; [right; cbn; lra|].
  unfold ctl_ok. rewrite ex_base. destruct ex_pq as [E1 E2]. cbn [g_pg g_qg g_sb gpar_pq ex_par]. change (Gpar 100 100 3 0 0 (3/2) 1 (1/2) (1/5) (1/10) 6 (1/20) (1/20) (1/25) (4/25) (3/5) 1 (3/5) (-1/5)) with (gpar_pq (ex_par (1/25) (4/25)) 100 (3/5) (-1/5)).
  rewrite E1, E2. split.
  - intros d a e Ed F. inversion Ed; subst d. apply ex_field in F; [|auto]. destruct F as (s & (xa & xb & A1 & A2 & A3 & A4 & A5) & ->). cbn [g_S10 g_S12 gpar_pq ex_par] in *.
    assert (xa = 4/5). { replace 1.2 with (6/5) in A3 by lra. assert (Z : xb * ((6/5 - xa) - 2 * (1 - xa)) * ((6/5 - xa) + 2 * (1 - xa)) = 0) by (transitivity (xb * (6/5 - xa) * (6/5 - xa) - 4 * (xb * (1 - xa) * (1 - xa))); [ring|rewrite A2, A3; field]).
      apply Rmult_integral in Z. destruct Z as [Z|Z]; [|lra]. apply Rmult_integral in Z. destruct Z as [Z|Z]; [|lra]. subst xb. lra. }
    subst xa. assert (xb = 1) by lra. subst xb. rewrite A5 by lra.
    cbn [exc_ok]. unfold dc_ok, ex_exdc1. exists (9/10 * (1 + 1 * (9/10 - 4/5) * (9/10 - 4/5)) + 1/5). cbn [e_TR e_KA e_TA e_TB e_TC e_Vrmax e_Vrmin e_KE e_TE e_KF e_TF1].
    split. { unfold sat_signal, has_sat. cbn [e_SE1 e_SE2 e_KE]. rewrite small6_true by (rewrite Rmult_0_l, Rabs_R0; lra). cbn [negb]. f_equal. ring. }
    split; [lra|]. split; [bd|]. split; [bd|]. split; [lra|]. split; [lra|]. split; [left; rewrite Rabs_R0; lra|].
    split; [split; [apply tc_pos'; lra|]; split; [right; unfold tiny; rewrite Rabs_right; lra|bd]|]. split; [right; apply tc_pos'; lra|].
    intros _. right. split; [apply tc_pos'; lra|]. split; bd.
  - intros d pm Ed F. inversion Ed; subst d. apply ex_shaft in F. subst pm. cbn [gov_ok]. unfold hygov_ok, ex_hygov. cbn.
    split; [exists (3/10); split; [reflexivity|lra]|]. split; [lra|]. split; [apply tc_pos'; lra|]. split; [apply tc_pos'; lra|]. repeat split; lra.
Qed.
Lemma ex_cls_ok pg qg v : machine_ok 100 (with_pq ex_cls 100 pg qg) v.
Proof. cbn. repeat split; lra. Qed.
Theorem ex_ok : forall i y d, nth_error ex_net i = Some (y, d) -> y = exY i i /\ bus_ok 100 d.
Proof.
  intros i y d H. split; [unfold exY; rewrite Nat.eqb_refl; destruct i as [|[|[|i]]]; cbn in H; congruence|].
  destruct i as [|[|[|i]]]; cbn in H; try discriminate; inversion H; subst; (split; [cbn; lra|split]).
  - intros x [<-|[<-|[]]]; cbn; auto.
  - rewrite ex_v1. intros g [<-|[<-|[<-|[]]]]; cbn [gd_pg gd_qg gd_on gd_model]; (split; [lra|]); [now apply ex_rou_ok|reflexivity|eexists; reflexivity].
  - intros x [<-|[]]; cbn; auto.
  - rewrite ex_v2. intros g [<-|[<-|[]]]; cbn [gd_pg gd_qg gd_on gd_model]; (split; [lra|]); [now apply ex_sal_ok|apply ex_cls_ok].
Qed.
Theorem ex_flow : power_flow 100 exY (map snd ex_net).
Proof.
  intros i d H. cbn [map snd ex_net] in *. destruct i as [|[|[|i]]]; cbn in H; try discriminate; inversion H; subst; clear H;
  cbn [length csum nth map exY Nat.eqb]; rewrite ex_v1, ex_v2; unfold gen_power, load_power; cbn [bd_gens bd_loads bd_mag fold_right ex_b1 ex_b2 gd_on gd_pg gd_qg ld_on ld_pl ld_ql ld_ip ld_iq ld_yp ld_yq]; cc.
Qed.
Lemma cramer A : Cminus (Cmult (A 0%nat 0%nat) (A 1%nat 1%nat)) (Cmult (A 0%nat 1%nat) (A 1%nat 0%nat)) <> RtoC 0 ->
  (exists solve, linear_solver 2 A solve) /\ regular 2 A.
Proof.
  intros D. split.
  - exists (fun b => [Cdiv (Cminus (Cmult (A 1%nat 1%nat) (nth 0 b (RtoC 0))) (Cmult (A 0%nat 1%nat) (nth 1 b (RtoC 0)))) (Cminus (Cmult (A 0%nat 0%nat) (A 1%nat 1%nat)) (Cmult (A 0%nat 1%nat) (A 1%nat 0%nat)));
                      Cdiv (Cminus (Cmult (A 0%nat 0%nat) (nth 1 b (RtoC 0))) (Cmult (A 1%nat 0%nat) (nth 0 b (RtoC 0)))) (Cminus (Cmult (A 0%nat 0%nat) (A 1%nat 1%nat)) (Cmult (A 0%nat 1%nat) (A 1%nat 0%nat)))]).
    intros [|b0 [|b1 [|]]] L; try discriminate. split; [reflexivity|]. intros [|[|i]] Hi; [| |lia]; cbn [csum nth]; field; exact D.
  - intros [|x0 [|x1 [|]]] L H; try discriminate. pose proof (H 0%nat ltac:(lia)) as H0. pose proof (H 1%nat ltac:(lia)) as H1. cbn [csum nth] in H0, H1.
    set (dt := Cminus (Cmult (A 0%nat 0%nat) (A 1%nat 1%nat)) (Cmult (A 0%nat 1%nat) (A 1%nat 0%nat))) in *.
    assert (E0 : Cmult dt x0 = RtoC 0). { match type of H0 with ?l = _ => match type of H1 with ?r = _ => transitivity (Cminus (Cmult (A 1%nat 1%nat) l) (Cmult (A 0%nat 1%nat) r)) end end; [unfold dt; ring|rewrite H0, H1; ring]. }
    assert (E1 : Cmult dt x1 = RtoC 0). { match type of H0 with ?l = _ => match type of H1 with ?r = _ => transitivity (Cminus (Cmult (A 0%nat 0%nat) r) (Cmult (A 1%nat 0%nat) l)) end end; [unfold dt; ring|rewrite H0, H1; ring]. }
    intros [|[|i]] Hi; [| |lia]; cbn [nth].
    + transitivity (Cdiv (Cmult dt x0) dt); [field; exact D|]. rewrite E0. field. exact D.
    + transitivity (Cdiv (Cmult dt x1) dt); [field; exact D|]. rewrite E1. field. exact D.
Qed.
Lemma ex_adm1 : bus_adm 100 ex_b1 = (8/5, -19/5).
Proof.
  unfold bus_adm, gen_adm, power_adm, machine_adm, load_power. rewrite ex_v1. cbn [bd_gens bd_loads bd_mag fold_right ex_b1 gd_on gd_model gd_pg gd_qg ld_on ld_pl ld_ql ld_ip ld_iq ld_yp ld_yq with_pq ex_rou].
  assert (M : Cmod (1, 0) = 1) by (unfold Cmod; cbn [fst snd]; replace (1 ^ 2 + 0 ^ 2) with 1 by ring; apply sqrt_1). rewrite M, ex_base. cbn [g_sb g_Ra g_Xdpp gpar_pq ex_par]. cc.
Qed.
Lemma ex_adm2 : bus_adm 100 ex_b2 = (1/10, -79/10).
Proof.
  unfold bus_adm, gen_adm, power_adm, machine_adm, load_power. rewrite ex_v2. cbn [bd_gens bd_loads bd_mag fold_right ex_b2 gd_on gd_model gd_pg gd_qg ld_on ld_pl ld_ql ld_ip ld_iq ld_yp ld_yq with_pq ex_sal ex_cls].
  assert (M : Cmod (0, 1) = 1) by (unfold Cmod; cbn [fst snd]; replace (0 ^ 2 + 1 ^ 2) with 1 by ring; apply sqrt_1). rewrite M, ex_base. cbn [g_sb g_Ra g_Xdpp gpar_pq ex_par c_mva c_r c_dtr clp_pq]. cc.
Qed.
Theorem ex_solver : exists ybs, setup 100 ex_net = Ok ybs /\ (exists solve, linear_solver 2 (system exY ybs) solve) /\ regular 2 (system exY ybs).
Proof.
  destruct (undisturbed ex_net ex_ok ex_flow) as (ybs & E & M & _). exists ybs. split; [exact E|]. apply cramer.
  destruct (M 0%nat (0, -1) ex_b1 eq_refl) as (u1 & E1). destruct (M 1%nat (0, -1) ex_b2 eq_refl) as (u2 & E2).
  unfold system. cbn [Nat.eqb]. rewrite E1, E2, ex_adm1, ex_adm2. unfold exY. cbn [Nat.eqb]. intros Z. unfold Cminus, Cplus, Copp, Cmult, RtoC in Z. cbn [fst snd] in Z. injection Z as Z1 Z2. lra.
Qed.

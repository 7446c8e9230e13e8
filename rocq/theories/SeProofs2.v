(** Proofs for SeProps.v: measurements on branches. *)
From Verif Require Import Prelude PfModel PfSpec PfProofs YbModel YbSpec SeModel SeSpec SeProofs.
From Coq Require Import Reals Lra Nsatz.
From Coquelicot Require Import Complex Derive AutoDerive Hierarchy.
Open Scope R_scope.

Definition ratio_of (l : line) : R := if Req_EM_T (ltap l) 0 then 1 else ltap l.
Definition shift_of (l : line) : R := if Req_EM_T (ltap l) 0 then 0 else ldeg l * Rtrigo1.PI / 180.
Definition gl (l : line) : R := lr l / (lr l * lr l + lx l * lx l).
Definition bl (l : line) : R := - lx l / (lr l * lr l + lx l * lx l).

Lemma turns_val : forall l, turns l = (ratio_of l * cos (shift_of l), ratio_of l * sin (shift_of l)) /\ ratio_of l <> 0.
Proof.
  intro l. unfold turns, ratio_of, shift_of. destruct (Req_EM_T (ltap l) 0); split; auto; try lra.
  rewrite cos_0, sin_0. unfold RtoC. f_equal; ring.
Qed.
Lemma sc1 : forall a, cos a * cos a + sin a * sin a = 1.
Proof. intro a. pose proof (sin2_cos2 a); unfold Rsqr in *; lra. Qed.
Lemma inv_turns : forall l, Cinv (turns l) = (cos (shift_of l) * / ratio_of l, - sin (shift_of l) * / ratio_of l) /\
  Cinv (Cconj (turns l)) = (cos (shift_of l) * / ratio_of l, sin (shift_of l) * / ratio_of l).
Proof.
  intro l. destruct (turns_val l) as [-> T]. set (t := ratio_of l) in *. set (a := shift_of l). pose proof (sc1 a) as S.
  assert (D : (t * cos a) ^ 2 + (t * sin a) ^ 2 = t * t) by (transitivity (t * t * (cos a * cos a + sin a * sin a)); [ring | rewrite S; ring]).
  assert (D' : (t * cos a) ^ 2 + (- (t * sin a)) ^ 2 = t * t) by (rewrite <- D; ring).
  unfold Cinv, Cconj; cbn [fst snd]. rewrite D, D'. split; f_equal; field; auto.
Qed.
Lemma inv_imp : forall l, Cinv (impedance l) = (gl l, bl l).
Proof. intro l. unfold Cinv, impedance, gl, bl; cbn [fst snd]. f_equal; f_equal; ring. Qed.

Lemma i_from_val : forall l v1 a1 v2 a2, i_from l (phasor v1 a1) (phasor v2 a2) =
  let t := ratio_of l in let w := a2 + shift_of l in let B := / 2 * lb l in
  ((gl l * v1 * cos a1 - (bl l + B) * v1 * sin a1) * / t * / t - v2 * / t * (gl l * cos w - bl l * sin w),
   (gl l * v1 * sin a1 + (bl l + B) * v1 * cos a1) * / t * / t - v2 * / t * (gl l * sin w + bl l * cos w)).
Proof.
  intros l v1 a1 v2 a2. unfold i_from, Cdiv. destruct (inv_turns l) as [-> ->]. rewrite inv_imp.
  cbv zeta. rewrite cos_plus, sin_plus. pose proof (sc1 (shift_of l)) as S.
  set (ca := cos (shift_of l)) in *. set (sa := sin (shift_of l)) in *. set (ti := / ratio_of l).
  unfold phasor, Cminus, Cmult, Cplus, Copp, RtoC; cbn [fst snd].
  set (h := / 2 * lb l). replace (lb l / 2) with h by (unfold h; field).
  set (g := gl l). set (b := bl l). set (c1 := cos a1). set (s1 := sin a1). set (c2 := cos a2). set (s2 := sin a2). clearbody g b h c1 s1 c2 s2 ca sa ti.
  f_equal.
  - transitivity ((g * v1 * c1 - (b + h) * v1 * s1) * ti * ti * (ca * ca + sa * sa) - v2 * ti * (g * (c2 * ca - s2 * sa) - b * (s2 * ca + c2 * sa))); [ring | rewrite S; ring].
  - transitivity ((g * v1 * s1 + (b + h) * v1 * c1) * ti * ti * (ca * ca + sa * sa) - v2 * ti * (g * (s2 * ca + c2 * sa) + b * (c2 * ca - s2 * sa))); [ring | rewrite S; ring].
Qed.
Lemma i_to_val : forall l v1 a1 v2 a2, i_to l (phasor v1 a1) (phasor v2 a2) =
  let t := ratio_of l in let w := a1 - shift_of l in let B := / 2 * lb l in
  (gl l * v2 * cos a2 - (bl l + B) * v2 * sin a2 - v1 * / t * (gl l * cos w - bl l * sin w),
   gl l * v2 * sin a2 + (bl l + B) * v2 * cos a2 - v1 * / t * (gl l * sin w + bl l * cos w)).
Proof.
  intros l v1 a1 v2 a2. unfold i_to, Cdiv. destruct (inv_turns l) as [-> _]. rewrite inv_imp.
  cbv zeta. rewrite cos_minus, sin_minus.
  set (ca := cos (shift_of l)) in *. set (sa := sin (shift_of l)) in *. set (ti := / ratio_of l).
  unfold phasor, Cminus, Cmult, Cplus, Copp, RtoC; cbn [fst snd].
  set (h := / 2 * lb l). replace (lb l / 2) with h by (unfold h; field).
  f_equal; ring.
Qed.

(** the flows as functions of the real state *)
Definition gP (l : line) (v1 a1 v2 a2 : R) : R :=
  v1 * v1 * gl l * / ratio_of l * / ratio_of l - / ratio_of l * v1 * v2 * (gl l * cos (a1 - a2 - shift_of l) + bl l * sin (a1 - a2 - shift_of l)).
Definition gQ (l : line) (v1 a1 v2 a2 : R) : R :=
  - v1 * v1 * (bl l + / 2 * lb l) * / ratio_of l * / ratio_of l - / ratio_of l * v1 * v2 * (gl l * sin (a1 - a2 - shift_of l) - bl l * cos (a1 - a2 - shift_of l)).
Definition hP (l : line) (v1 a1 v2 a2 : R) : R :=
  v2 * v2 * gl l - / ratio_of l * v1 * v2 * (gl l * cos (- (a1 - a2) + shift_of l) + bl l * sin (- (a1 - a2) + shift_of l)).
Definition hQ (l : line) (v1 a1 v2 a2 : R) : R :=
  - v2 * v2 * (bl l + / 2 * lb l) - / ratio_of l * v1 * v2 * (gl l * sin (- (a1 - a2) + shift_of l) - bl l * cos (- (a1 - a2) + shift_of l)).
Lemma from_power : forall l v1 a1 v2 a2, Cmult (phasor v1 a1) (Cconj (i_from l (phasor v1 a1) (phasor v2 a2))) = (gP l v1 a1 v2 a2, gQ l v1 a1 v2 a2).
Proof.
  intros l v1 a1 v2 a2. rewrite i_from_val. cbv zeta. unfold gP, gQ.
  replace (a1 - a2 - shift_of l) with (a1 - (a2 + shift_of l)) by ring. rewrite cos_minus, sin_minus.
  set (w := a2 + shift_of l). pose proof (sc1 a1) as S. set (c1 := cos a1) in *. set (s1 := sin a1) in *.
  unfold phasor, Cmult, Cconj; cbn [fst snd]. fold c1 s1.
  set (g := gl l). set (b := bl l). set (h := / 2 * lb l). set (ti := / ratio_of l). set (cw := cos w). set (sw := sin w). clearbody g b h ti cw sw c1 s1.
  f_equal.
  - transitivity (v1 * v1 * g * ti * ti * (c1 * c1 + s1 * s1) - ti * v1 * v2 * (g * (c1 * cw + s1 * sw) + b * (s1 * cw - c1 * sw))); [ring | rewrite S; ring].
  - transitivity (- v1 * v1 * (b + h) * ti * ti * (c1 * c1 + s1 * s1) - ti * v1 * v2 * (g * (s1 * cw - c1 * sw) - b * (c1 * cw + s1 * sw))); [ring | rewrite S; ring].
Qed.
Lemma to_power : forall l v1 a1 v2 a2, Cmult (phasor v2 a2) (Cconj (i_to l (phasor v1 a1) (phasor v2 a2))) = (hP l v1 a1 v2 a2, hQ l v1 a1 v2 a2).
Proof.
  intros l v1 a1 v2 a2. rewrite i_to_val. cbv zeta. unfold hP, hQ.
  replace (- (a1 - a2) + shift_of l) with (a2 - (a1 - shift_of l)) by ring. rewrite (cos_minus a2), (sin_minus a2).
  set (w := a1 - shift_of l). pose proof (sc1 a2) as S. set (c1 := cos a2) in *. set (s1 := sin a2) in *.
  unfold phasor, Cmult, Cconj; cbn [fst snd]. fold c1 s1.
  set (g := gl l). set (b := bl l). set (h := / 2 * lb l). set (ti := / ratio_of l). set (cw := cos w). set (sw := sin w). clearbody g b h ti cw sw c1 s1.
  f_equal.
  - transitivity (v2 * v2 * g * (c1 * c1 + s1 * s1) - ti * v1 * v2 * (g * (c1 * cw + s1 * sw) + b * (s1 * cw - c1 * sw))); [ring | rewrite S; ring].
  - transitivity (- v2 * v2 * (b + h) * (c1 * c1 + s1 * s1) - ti * v1 * v2 * (g * (s1 * cw - c1 * sw) - b * (c1 * cw + s1 * sw))); [ring | rewrite S; ring].
Qed.
Definition mag (l : line) (v1 a1 v2 a2 : R) : R := sqrt ((gl l * gl l + bl l * bl l) * (v1 * v1 + v2 * v2 - 2 * v1 * v2 * cos (a1 - a2))).
Lemma plain_current : forall l v1 a1 v2 a2, ltap l = 0 -> lb l = 0 -> Cmod (i_from l (phasor v1 a1) (phasor v2 a2)) = mag l v1 a1 v2 a2.
Proof.
  intros l v1 a1 v2 a2 Ht Hb. rewrite i_from_val. cbv zeta. unfold Cmod, mag. cbn [fst snd]. f_equal. rewrite Hb.
  assert (R1 : ratio_of l = 1) by (unfold ratio_of; destruct (Req_EM_T (ltap l) 0); congruence).
  assert (S1 : shift_of l = 0) by (unfold shift_of; destruct (Req_EM_T (ltap l) 0); congruence).
  rewrite R1, S1, Rinv_1, Rplus_0_r, cos_minus. pose proof (sc1 a1) as C1. pose proof (sc1 a2) as C2.
  set (c1 := cos a1) in *. set (s1 := sin a1) in *. set (c2 := cos a2) in *. set (s2 := sin a2) in *. set (g := gl l). set (b := bl l). clearbody g b c1 s1 c2 s2.
  transitivity ((g * g + b * b) * (v1 * v1 * (c1 * c1 + s1 * s1) + v2 * v2 * (c2 * c2 + s2 * s2) - 2 * v1 * v2 * (c1 * c2 + s1 * s2))); [ring | rewrite C1, C2; ring].
Qed.
(** current from power *)
Lemma Cmod_conj : forall z, Cmod (Cconj z) = Cmod z.
Proof. intro z. unfold Cmod, Cconj; cbn [fst snd]. f_equal; ring. Qed.
Lemma current_power : forall l v1 a1 v2 a2, 0 < v1 ->
  Cmod (i_from l (phasor v1 a1) (phasor v2 a2)) = sqrt (gP l v1 a1 v2 a2 * gP l v1 a1 v2 a2 + gQ l v1 a1 v2 a2 * gQ l v1 a1 v2 a2) / v1.
Proof.
  intros l v1 a1 v2 a2 H. pose proof (from_power l v1 a1 v2 a2) as E. apply (f_equal Cmod) in E. rewrite Cmod_mult, Cmod_conj in E.
  assert (M : Cmod (phasor v1 a1) = v1).
  { unfold Cmod, phasor; cbn [fst snd]. replace ((v1 * cos a1) ^ 2 + (v1 * sin a1) ^ 2) with (v1 * v1 * (cos a1 * cos a1 + sin a1 * sin a1)) by ring.
    rewrite sc1, Rmult_1_r. apply sqrt_square; lra. }
  rewrite M in E. unfold Cmod at 2 in E. cbn [fst snd] in E.
  replace (gP l v1 a1 v2 a2 * gP l v1 a1 v2 a2 + gQ l v1 a1 v2 a2 * gQ l v1 a1 v2 a2) with (gP l v1 a1 v2 a2 ^ 2 + gQ l v1 a1 v2 a2 ^ 2) by ring.
  rewrite <- E. field. lra.
Qed.

(** ** Elements and records *)
Lemma load_x_id : forall x, 1 / 100000 <= Rabs x -> load_x x = x.
Proof.
  intros x H. unfold load_x. destruct (Rlt_dec x (1 / 100000)); auto. destruct (Rle_dec 0 x).
  - rewrite Rabs_right in H by lra. lra.
  - destruct (Rlt_dec (- (1 / 100000)) x); auto. rewrite Rabs_left in H by lra. lra.
Qed.
Lemma four_atan : 4 * atan 1 = Rtrigo1.PI.
Proof. rewrite atan_1. field. Qed.
Lemma loaded_vals : forall e l, loaded_from e l -> q_tag e = ltag l /\ g_of e = gl l /\ b_of e = bl l /\ t_of e = ratio_of l /\ s_of e = - shift_of l /\ q_chg e = lb l /\ q_tap e = ltap l.
Proof.
  intros e l (-> & Hx & _). unfold load_sel, g_of, b_of, t_of, s_of, ratio_of, shift_of, gl, bl. cbn [q_tag q_r q_x q_tap q_ph q_chg].
  rewrite load_x_id, four_atan by auto. repeat split. destruct (Req_EM_T (ltap l) 0); [ring | unfold Rdiv; ring].
Qed.
Lemma one_match : forall els ls t l, Forall2 loaded_from els ls -> NoDup (map ltag ls) -> In l ls -> ltag l = t ->
  exists e, filter (fun e => String.eqb (q_tag e) t) els = e :: nil /\ loaded_from e l.
Proof.
  intros els ls t l F; induction F as [| e l0 els ls H F IH]; intros N Hl Ht; [destruct Hl |].
  cbn [map] in N. inversion N as [| ? ? N1 N2]; subst. cbn [filter].
  assert (none : forall ls els, Forall2 loaded_from els ls -> ~ In (ltag l) (map ltag ls) -> filter (fun e => String.eqb (q_tag e) (ltag l)) els = nil).
  { clear. intros ls els F; induction F as [| e l0 els ls H F IH]; intro N; cbn; auto.
    destruct (loaded_vals H) as (-> & _). destruct (String.eqb_spec (ltag l0) (ltag l)) as [E | E]; [exfalso; apply N; left; auto |].
    apply IH. intro; apply N; right; auto. }
  destruct (loaded_vals H) as (Tg & _). rewrite Tg.
  destruct Hl as [-> | Hl].
  - rewrite String.eqb_refl. exists e. rewrite (none ls els F N1). auto.
  - destruct (String.eqb_spec (ltag l0) (ltag l)) as [E | E].
    + exfalso. apply N1. rewrite E. apply in_map; auto.
    + apply IH; auto.
Qed.

Lemma deriv4 : forall n i1 i2 (h : state -> R) (F : R -> R -> R -> R -> R) d1 d2 d3 d4 j i, i1 <> i2 -> unknown n j i ->
  (forall x : state, h x = F (snd x i1) (fst x i1) (snd x i2) (fst x i2)) ->
  let v := magn (el n) in let th := angle (el n) in
  is_derive (fun y : R => F y (th i1) (v i2) (th i2)) (v i1) d1 -> is_derive (fun y : R => F (v i1) y (v i2) (th i2)) (th i1) d2 ->
  is_derive (fun y : R => F (v i1) (th i1) y (th i2)) (v i2) d3 -> is_derive (fun y : R => F (v i1) (th i1) (v i2) y) (th i2) d4 ->
  deriv n h (j, i) (coef (cols2 n i1 d2 d1 ++ cols2 n i2 d4 d3)%list (j, i)).
Proof.
  intros n i1 i2 h F d1 d2 d3 d4 j i Ne U H v th H1 H2 H3 H4. rewrite coef_app, !coef_cols2 by auto.
  unfold deriv. eapply is_derive_ext; [intro y; symmetry; apply H |].
  unfold moved, value. cbn [fst]. fold th v. destruct (is_angle n (j, i)); cbn [fst snd]; unfold bump.
  - destruct (Nat.eqb_spec i1 j) as [<- | N1]; destruct (Nat.eqb_spec i2 i1) as [E | N2]; try congruence.
    + rewrite Rplus_0_r; auto.
    + destruct (Nat.eqb_spec i2 j) as [<- | N3]; rewrite Rplus_0_l; auto. apply (is_derive_const (K := R_AbsRing) (V := R_NormedModule)).
  - destruct (Nat.eqb_spec i1 j) as [<- | N1]; destruct (Nat.eqb_spec i2 i1) as [E | N2]; try congruence.
    + rewrite Rplus_0_r; auto.
    + destruct (Nat.eqb_spec i2 j) as [<- | N3]; rewrite Rplus_0_l; auto. apply (is_derive_const (K := R_AbsRing) (V := R_NormedModule)).
Qed.

Section Branch.
  Variables (n : snet) (b : sbr) (e : selem) (l : line).
  Hypothesis Le : loaded_from e l.
  Notation i1 := (r_1 (s_br b)). Notation i2 := (r_2 (s_br b)).
  Notation th := (angle (el n)). Notation v := (magn (el n)).

  Lemma flows : fP n b e = flow l i1 i2 PIJ (now n) /\ fQ n b e = flow l i1 i2 QIJ (now n) /\ rP n b e = flow l i1 i2 PJI (now n) /\ rQ n b e = flow l i1 i2 QJI (now n) /\
    (0 < v i1 -> sqrt (fP n b e * fP n b e + fQ n b e * fQ n b e) / vm n i1 = flow l i1 i2 IIJ (now n)).
  Proof.
    destruct (loaded_vals Le) as (_ & G & B & T & S & Q & _). destruct (turns_val l) as [_ T0].
    assert (E1 : fP n b e = gP l (v i1) (th i1) (v i2) (th i2)).
    { unfold fP, gP, b1, b2. rewrite G, B, T, S, !vm_magn, !va_angle. unfold Rdiv, Rminus. rewrite Rinv_mult. ring. }
    assert (E2 : fQ n b e = gQ l (v i1) (th i1) (v i2) (th i2)).
    { unfold fQ, gQ, b1, b2. rewrite G, B, T, S, Q, !vm_magn, !va_angle. unfold Rdiv, Rminus. rewrite Rinv_mult. ring. }
    unfold flow, volt, now. cbn [fst snd]. rewrite from_power, to_power. cbn [Re Im fst snd]. unfold Re, Im; cbn [fst snd].
    split; [auto | split; [auto | split; [| split]]].
    - unfold rP, hP, b1, b2. rewrite G, B, T, S, !vm_magn, !va_angle. unfold Rdiv, Rminus. rewrite Ropp_involutive. ring.
    - unfold rQ, hQ, b1, b2. rewrite G, B, T, S, Q, !vm_magn, !va_angle. unfold Rdiv, Rminus. rewrite Ropp_involutive. ring.
    - intro Hv. rewrite current_power by auto. rewrite E1, E2, vm_magn. reflexivity.
  Qed.

  Hypothesis Ne : i1 <> i2.
  Lemma flow_real : forall x, flow l i1 i2 PIJ x = gP l (snd x i1) (fst x i1) (snd x i2) (fst x i2) /\ flow l i1 i2 QIJ x = gQ l (snd x i1) (fst x i1) (snd x i2) (fst x i2) /\
    flow l i1 i2 PJI x = hP l (snd x i1) (fst x i1) (snd x i2) (fst x i2) /\ flow l i1 i2 QJI x = hQ l (snd x i1) (fst x i1) (snd x i2) (fst x i2) /\
    (ltap l = 0 -> lb l = 0 -> flow l i1 i2 IIJ x = mag l (snd x i1) (fst x i1) (snd x i2) (fst x i2)).
  Proof.
    intro x. unfold flow, volt. rewrite from_power, to_power. unfold Re, Im; cbn [fst snd]. repeat split; auto. intros; apply plain_current; auto.
  Qed.
  Ltac dd := auto_derive; auto; unfold Rminus, Rdiv; rewrite ?Rinv_mult, ?Ropp_involutive; ring.
  Lemma el_deriv : forall ty j i, In ty (PIJ :: QIJ :: PJI :: QJI :: IIJ :: nil) -> unknown n j i ->
    (ty = PIJ -> s_gs (sget n i1) = 0) -> (ty = PJI -> s_gs (sget n i2) = 0) ->
    (ty = IIJ -> ltap l = 0 /\ lb l = 0 /\ flow l i1 i2 IIJ (now n) <> 0) ->
    deriv n (flow l i1 i2 ty) (j, i) (coef (el_row n b ty e) (j, i)).
  Proof.
    intros ty j i Ht U Z1 Z2 Z3.
    destruct (loaded_vals Le) as (_ & G & B & T & S & Q & P). destruct (turns_val l) as [_ T0].
    unfold el_row, b1, b2. rewrite G, B, T, S, Q, !vm_magn, !va_angle.
    destruct Ht as [<- | [<- | [<- | [<- | [<- | []]]]]]; cbv zeta.
    - rewrite Z1 by auto. eapply deriv4; auto; [intro x; apply flow_real | | | |]; unfold gP; dd.
    - eapply deriv4; auto; [intro x; apply flow_real | | | |]; unfold gQ; dd.
    - rewrite Z2 by auto. eapply deriv4; auto; [intro x; apply flow_real | | | |]; unfold hP; dd.
    - eapply deriv4; auto; [intro x; apply flow_real | | | |]; unfold hQ; dd.
    - destruct (Z3 eq_refl) as (Z4 & Z5 & Z6). rewrite P. destruct (Req_EM_T (ltap l) 0) as [E |]; [| congruence]. replace (gl l / 1) with (gl l) by field. replace (bl l / 1) with (bl l) by field.
      assert (M : flow l i1 i2 IIJ (now n) = mag l (v i1) (th i1) (v i2) (th i2)) by (apply (flow_real (now n)); auto).
      rewrite M in Z6. unfold mag in Z6.
      assert (Pos : 0 < (gl l * gl l + bl l * bl l) * (v i1 * v i1 + v i2 * v i2 - 2 * v i1 * v i2 * cos (th i1 - th i2))).
      { apply Rnot_le_lt. intro N. apply Z6. apply sqrt_neg_0; auto. }
      eapply deriv4; auto; [intro x; apply (flow_real x); auto | | | |]; unfold mag; auto_derive.
      all: try exact Pos.
      all: unfold Rminus in *; set (X := sqrt _) in *; clearbody X; field; auto.
  Qed.
End Branch.

(** ** Residuals and rows of a branch *)
Lemma alone_iso : forall n k, ~ alone n k -> iso n k = false.
Proof. intros n k H. unfold alone in H. rewrite iso_el. destruct (p_iso (getb (el n) k)); congruence. Qed.
Lemma good_live : forall n b ls, good_branch n b ls -> live n b = true.
Proof. intros n b ls (_ & H1 & H2 & _). unfold live, b1, b2. rewrite !alone_iso; auto. Qed.

Definition value_of (n : snet) (b : sbr) (m : meas) (e : selem) : R :=
  match m_type m with PIJ => fP n b e | QIJ => fQ n b e | PJI => rP n b e | QJI => rQ n b e | _ => sqrt (fP n b e * fP n b e + fQ n b e * fQ n b e) / vm n (b1 b) end.
Lemma br_res_ok : forall n b ms r1 r2, (forall m, In m ms -> In (m_type m) (PIJ :: QIJ :: PJI :: QJI :: IIJ :: nil) /\ exists e, matching b m = e :: nil) ->
  Forall2 (fun m z => forall e, matching b m = e :: nil -> z = m_val m - value_of n b m e) ms (br_res n b ms r1 r2).
Proof.
  intros n b ms; induction ms as [| m ms IH]; intros r1 r2 H; cbn [br_res]; [constructor |].
  destruct (H m (or_introl eq_refl)) as (Ht & e & He). assert (H' := fun m' Hm => H m' (or_intror Hm)).
  unfold value_of. rewrite He. cbn [last_of fold_left].
  destruct (m_type m) eqn:E; cbn [In] in Ht; try (exfalso; intuition discriminate);
    (constructor; [intros e' He'; rewrite E; rewrite He in He'; injection He' as <-; reflexivity | apply IH; auto]).
Qed.
Lemma good_match : forall n b ls m l, good_branch n b ls -> In m (s_rmeas b) -> In l ls -> ltag l = m_ckt m -> exists e, matching b m = e :: nil /\ loaded_from e l.
Proof. intros n b ls m l (_ & _ & _ & _ & F & N & _) Hm Hl Ht. unfold matching. eapply one_match; eauto. Qed.
Lemma flow_value : forall n b e l m, loaded_from e l -> In (m_type m) (PIJ :: QIJ :: PJI :: QJI :: IIJ :: nil) ->
  (m_type m = IIJ -> 0 < magn (el n) (r_1 (s_br b))) -> value_of n b m e = flow l (r_1 (s_br b)) (r_2 (s_br b)) (m_type m) (now n).
Proof.
  intros n b e l m Le Ht Hv. destruct (@flows n b e l Le) as (F1 & F2 & F3 & F4 & F5). unfold value_of.
  destruct (m_type m) eqn:E; cbn [In] in Ht; try (exfalso; intuition discriminate); auto.
Qed.
Lemma br_resid_ok : forall n b ls, good_branch n b ls -> (forall m, In m (s_rmeas b) -> m_type m = IIJ -> 0 < magn (el n) (r_1 (s_br b))) ->
  Forall2 (fun m z => forall h, measures b ls m h -> z = m_val m - h (now n)) (s_rmeas b) (br_resid n b).
Proof.
  intros n b ls H Hv. unfold br_resid. rewrite (good_live H).
  assert (P : forall m, In m (s_rmeas b) -> In (m_type m) (PIJ :: QIJ :: PJI :: QJI :: IIJ :: nil) /\ exists e, matching b m = e :: nil).
  { intros m Hm. pose proof H as (_ & _ & _ & _ & _ & _ & G). destruct (G m Hm) as (Ht & l & Hl & Hc & _). split; auto.
    destruct (@good_match _ _ _ m _ H Hm Hl Hc) as (e & E & _). eauto. }
  pose proof (@br_res_ok n b (s_rmeas b) 0 0 P) as F.
  assert (K : forall ms rs, Forall2 (fun m z => forall e, matching b m = e :: nil -> z = m_val m - value_of n b m e) ms rs ->
    (forall m, In m ms -> In m (s_rmeas b)) -> Forall2 (fun m z => forall h, measures b ls m h -> z = m_val m - h (now n)) ms rs).
  { intros ms rs F0; induction F0 as [| m z ms rs Hz F0 IH]; intro Hin; constructor.
    - intros h (l & Hl & Hc & ->). assert (Hm : In m (s_rmeas b)) by (apply Hin; left; auto).
      destruct (@good_match _ _ _ m _ H Hm Hl Hc) as (e & E & Le). rewrite (Hz e E). rewrite (@flow_value n b e l m Le); [reflexivity | apply (P m Hm) | apply (Hv m Hm)].
    - apply IH. intros; apply Hin; right; auto. }
  apply K; auto.
Qed.
Lemma br_row_ok : forall n b ls m h j i, wf n -> good_branch n b ls -> In m (s_rmeas b) -> measures b ls m h -> row_ok n b ls m -> unknown n j i ->
  deriv n h (j, i) (coef (br_row n b m) (j, i)).
Proof.
  intros n b ls m h j i W H Hm (l & Hl & Hc & ->) (O1 & O2 & O3) U. unfold br_row.
  pose proof H as (Hb & _ & _ & A & _ & _ & G). rewrite A. destruct (@good_match _ _ _ m _ H Hm Hl Hc) as (e & E & Le). rewrite E. cbn [flat_map]. rewrite app_nil_r.
  apply el_deriv; auto.
  - apply (W b Hb).
  - apply (G m Hm).
Qed.

(** ** Sizes *)
Lemma cols2_len : forall n k x y, length (cols2 n k x y) = ncol n k.
Proof. intros. unfold cols2, ncol. destruct (rf n k); auto. Qed.
Lemma flat_len : forall A B (f : A -> list B) l, length (flat_map f l) = sumn (map (fun x => length (f x)) l).
Proof. induction l as [| x l IH]; cbn [flat_map map sumn fold_right]; auto. rewrite app_length, IH; auto. Qed.
Lemma concat_len : forall A B (f : A -> list B) l, length (concat (map f l)) = sumn (map (fun x => length (f x)) l).
Proof. intros. rewrite <- flat_len, flat_map_concat_map; auto. Qed.
Lemma sumn_ext : forall A (f g : A -> nat) l, (forall x, In x l -> f x = g x) -> sumn (map f l) = sumn (map g l).
Proof. intros A f g l H. f_equal. apply map_ext_in; auto. Qed.
Lemma inj_len : forall n k (F : sbr -> R * R) x y l, length (flat_map (fun b => cols2 n (other k b) (fst (F b)) (snd (F b))) l ++ cols2 n k x y)%list =
  (sumn (map (fun b => ncol n (other k b)) l) + ncol n k)%nat.
Proof. intros. rewrite app_length, cols2_len, flat_len. f_equal. apply sumn_ext. intros; apply cols2_len. Qed.
Lemma bus_count_ok : forall n k u, good_bus n k u -> length (concat (bus_rows n k)) = bus_count n k.
Proof.
  intros n k u (Hk & Hi & Ht & L). unfold bus_rows, bus_count.
  assert (E : sget n k = u) by (unfold sget; apply nth_error_nth; auto).
  unfold iso. rewrite E, Hi. rewrite concat_len. apply sumn_ext. intros m Hm. specialize (Ht m Hm). unfold bus_row.
  assert (FL : filter (live n) (near n k) = near n k) by (apply filter_live; auto).
  destruct (m_type m); try (exfalso; unfold bus_type in Ht; intuition discriminate); try apply cols2_len.
  - unfold pi_row. rewrite FL, app_length, cols2_len, flat_len. f_equal. apply sumn_ext. intros b _. destruct (vth n k b), (ymut k b). apply cols2_len.
  - unfold qi_row. rewrite FL, app_length, cols2_len, flat_len. f_equal. apply sumn_ext. intros b _. destruct (vth n k b), (ymut k b). apply cols2_len.
Qed.
Lemma br_count_ok : forall n b ls, good_branch n b ls -> length (concat (br_rows n b)) = br_count n b.
Proof.
  intros n b ls H. unfold br_rows, br_count. rewrite (good_live H), concat_len. apply sumn_ext. intros m Hm.
  pose proof H as (_ & _ & _ & A & _ & _ & G). destruct (G m Hm) as (Ht & _). unfold br_row. rewrite A, flat_len.
  destruct (m_type m); cbn [In] in Ht; try (exfalso; intuition discriminate); apply sumn_ext; intros e _; unfold el_row; rewrite app_length, !cols2_len; auto.
Qed.

(** ** Columns *)
Lemma cols2_in : forall n k x y q, In q (cols2 n k x y) -> fst (fst q) = k /\ (snd (fst q) < ncol n k)%nat.
Proof. intros n k x y q H. unfold cols2, ncol in *. destruct (rf n k); cbn in H; intuition (subst; cbn; auto; lia). Qed.
Lemma near_of : forall n k b, In b (srs n) -> touches k b -> In b (near n k).
Proof. intros n k b H T. unfold near. apply filter_In; split; auto. apply at_bus_spec; auto. Qed.
Lemma nonempty_in : forall A (x : A) l, In x l -> nonempty l = true.
Proof. intros A x [| y l] H; [destruct H | auto]. Qed.
Lemma num_cols_own : forall n k m, In m (s_bmeas (sget n k)) -> iso n k = false -> num_cols n k = ncol n k.
Proof. intros n k m H I. unfold num_cols. rewrite (nonempty_in m _ H), I. auto. Qed.
Lemma num_cols_branch : forall n k b m, In b (srs n) -> touches k b -> In m (s_rmeas b) -> iso n k = false -> num_cols n k = ncol n k.
Proof.
  intros n k b m Hb T H I. unfold num_cols. rewrite I. replace (existsb _ (near n k)) with true; [rewrite orb_true_r; auto |].
  symmetry. apply existsb_exists. exists b. split; [apply near_of; auto |]. rewrite (nonempty_in m _ H). apply orb_true_r.
Qed.
Lemma num_cols_nbr : forall n k j b m, In b (srs n) -> touches k b -> touches j b -> j <> k -> In m (s_bmeas (sget n k)) -> iso n j = false -> num_cols n j = ncol n j.
Proof.
  intros n k j b m Hb T1 T2 Ne H I. unfold num_cols. rewrite I. replace (existsb _ (near n j)) with true; [rewrite orb_true_r; auto |].
  symmetry. apply existsb_exists. exists b. split; [apply near_of; auto |].
  assert (E : other j b = k). { unfold other, b1, b2, touches in *. destruct (Nat.eqb_spec (r_1 (s_br b)) j); intuition congruence. }
  rewrite E, (nonempty_in m _ H). auto.
Qed.
Lemma bus_cols_ok : forall n k u q, wf n -> good_bus n k u -> In q (concat (bus_rows n k)) -> (snd (fst q) < num_cols n (fst (fst q)))%nat.
Proof.
  intros n k u q W (Hk & Hi & Ht & L) Hq.
  assert (E : sget n k = u) by (unfold sget; apply nth_error_nth; auto).
  assert (I : iso n k = false) by (unfold iso; rewrite E; auto).
  apply in_concat in Hq as (row & Hr & Hq). unfold bus_rows in Hr. rewrite I in Hr. apply in_map_iff in Hr as (m & <- & Hm).
  pose proof (@num_cols_own n k m Hm I) as NC.
  assert (OWN : forall x y, In q (cols2 n k x y) -> (snd (fst q) < num_cols n (fst (fst q)))%nat).
  { intros x y H. apply cols2_in in H as [-> H]. rewrite NC; auto. }
  assert (NB : forall b x y, In b (near n k) -> In q (cols2 n (other k b) x y) -> (snd (fst q) < num_cols n (fst (fst q)))%nat).
  { intros b x y Hb H. apply cols2_in in H as [-> H]. unfold near in Hb. apply filter_In in Hb as [Hb Ha]. apply at_bus_spec in Ha.
    destruct (W b Hb) as (Wb & _). destruct (L b Hb Ha) as [L1 L2].
    rewrite (@num_cols_nbr n k (other k b) b m); auto.
    - unfold other, touches, b1, b2. destruct (r_1 (s_br b) =? k)%nat; auto.
    - unfold other, b1, b2. destruct (Nat.eqb_spec (r_1 (s_br b)) k); intuition congruence.
    - unfold other, b1, b2. destruct (r_1 (s_br b) =? k)%nat; apply alone_iso; auto. }
  unfold bus_row in Hq. specialize (Ht m). rewrite <- E in Ht. specialize (Ht Hm).
  destruct (m_type m); try (exfalso; unfold bus_type in Ht; intuition discriminate); eauto.
  - unfold pi_row in Hq. apply in_app_or in Hq as [Hq | Hq]; eauto. apply in_flat_map in Hq as (b & Hb & Hq). apply filter_In in Hb as [Hb _].
    destruct (vth n k b), (ymut k b). eauto.
  - unfold qi_row in Hq. apply in_app_or in Hq as [Hq | Hq]; eauto. apply in_flat_map in Hq as (b & Hb & Hq). apply filter_In in Hb as [Hb _].
    destruct (vth n k b), (ymut k b). eauto.
Qed.
Lemma br_cols_ok : forall n b ls q, good_branch n b ls -> In q (concat (br_rows n b)) -> (snd (fst q) < num_cols n (fst (fst q)))%nat.
Proof.
  intros n b ls q H Hq. apply in_concat in Hq as (row & Hr & Hq). unfold br_rows in Hr. rewrite (good_live H) in Hr. apply in_map_iff in Hr as (m & <- & Hm).
  pose proof H as (Hb & L1 & L2 & A & _). unfold br_row in Hq. rewrite A in Hq. apply in_flat_map in Hq as (e & _ & Hq).
  assert (N1 : num_cols n (b1 b) = ncol n (b1 b)) by (apply (@num_cols_branch n (b1 b) b m); auto; [left; auto | apply alone_iso; auto]).
  assert (N2 : num_cols n (b2 b) = ncol n (b2 b)) by (apply (@num_cols_branch n (b2 b) b m); auto; [right; auto | apply alone_iso; auto]).
  unfold el_row in Hq. destruct (m_type m); cbn in Hq; try contradiction; apply in_app_or in Hq as [Hq | Hq]; apply cols2_in in Hq as [-> Hq]; rewrite ?N1, ?N2; auto.
Qed.

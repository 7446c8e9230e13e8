(** Proofs for PqProps.v. *)
From Verif Require Import Prelude PqModel PqSpec.
From Coq Require Import Reals Lra.
Open Scope R_scope.

(** ** Angles *)
Lemma pi4 : 4 * atan 1 = PI.
Proof. rewrite atan_1. field. Qed.
Lemma fmod_pos : forall x y, 0 <= x -> 0 < y -> 0 <= fmod x y < y /\ exists k, fmod x y = x + y * IZR k.
Proof.
  intros x y Hx Hy. assert (Q : 0 <= x / y) by (apply Rmult_le_pos; [auto | left; apply Rinv_0_lt_compat; auto]).
  unfold fmod, rtrunc. destruct (Rle_dec 0 (x / y)) as [_ | N]; [| lra].
  destruct (base_Int_part (x / y)) as [B1 B2]. set (k := IZR (Int_part (x / y))) in *.
  assert (X : x = y * (x / y)) by (field; lra).
  split; [split |].
  - assert (y * k <= y * (x / y)) by (apply Rmult_le_compat_l; lra). lra.
  - assert (y * (x / y - k) < y * 1) by (apply Rmult_lt_compat_l; lra). lra.
  - exists (- Int_part (x / y))%Z. rewrite opp_IZR. unfold k; ring.
Qed.
Lemma fmod_neg : forall x y, x < 0 -> 0 < y -> - y < fmod x y <= 0 /\ exists k, fmod x y = x + y * IZR k.
Proof.
  intros x y Hx Hy. assert (Q : x / y < 0) by (apply Rmult_lt_reg_r with y; [auto |]; unfold Rdiv; rewrite Rmult_assoc, Rinv_l by lra; lra).
  unfold fmod, rtrunc. destruct (Rle_dec 0 (x / y)) as [N | _]; [lra |].
  destruct (base_Int_part (- (x / y))) as [B1 B2]. set (k := IZR (Int_part (- (x / y)))) in *.
  assert (X : x = y * (x / y)) by (field; lra).
  split; [split |].
  - assert (y * (- (x / y) - k) < y * 1) by (apply Rmult_lt_compat_l; lra). lra.
  - assert (y * k <= y * (- (x / y))) by (apply Rmult_le_compat_l; lra). lra.
  - exists (Int_part (- (x / y)))%Z. unfold k; ring.
Qed.
Lemma wrap_ok : forall a, - PI <= wrap a <= PI /\ exists k, wrap a = a + 2 * PI * IZR k.
Proof.
  intro a. unfold wrap. rewrite pi4. pose proof PI_RGT_0 as P. destruct (Rle_dec 0 a) as [H | H].
  - destruct (@fmod_pos (a + PI) (2 * PI)) as [B (k & K)]; [lra | lra |]. split; [lra |]. exists k; rewrite K; ring.
  - destruct (@fmod_neg (a - PI) (2 * PI)) as [B (k & K)]; [lra | lra |]. split; [lra |]. exists k; rewrite K; ring.
Qed.
(** integers strictly between -1 and 1 *)
Lemma int_small : forall k, -1 < IZR k < 1 -> k = 0%Z.
Proof. intros k [H1 H2]. apply (lt_IZR (-1) k) in H1. apply (lt_IZR k 1) in H2. lia. Qed.
Lemma wrap_inside : forall a, - PI < a < PI -> wrap a = a.
Proof.
  intros a H. pose proof PI_RGT_0 as P. unfold wrap. rewrite pi4. destruct (Rle_dec 0 a) as [G | G].
  - destruct (@fmod_pos (a + PI) (2 * PI)) as [B (k & K)]; [lra | lra |].
    assert (Z0 : k = 0%Z).
    { apply int_small. rewrite K in B. split; apply Rmult_lt_reg_l with (2 * PI); lra. }
    rewrite K, Z0. ring.
  - destruct (@fmod_neg (a - PI) (2 * PI)) as [B (k & K)]; [lra | lra |].
    assert (Z0 : k = 0%Z).
    { apply int_small. rewrite K in B. split; apply Rmult_lt_reg_l with (2 * PI); lra. }
    rewrite K, Z0. ring.
Qed.

Definition cong (x y : R) : Prop := exists k, x = y + 2 * PI * IZR k.
Lemma cong_refl : forall x, cong x x. Proof. intro x; exists 0%Z; ring. Qed.
Lemma cong_trans : forall x y z, cong x y -> cong y z -> cong x z.
Proof. intros x y z (j & ->) (k & ->). exists (j + k)%Z. rewrite plus_IZR. ring. Qed.
Lemma cong_minus : forall x y z, cong x y -> cong (x - z) (y - z).
Proof. intros x y z (k & ->). exists k. ring. Qed.
Definition buf_ok (u : qbus) : Prop := match q_xc u with Some (a, _, _) => - PI <= a <= PI /\ cong a (q_a u) | None => True end.
(** the calls that do not touch the angle *)
Lemma obind_ok : forall A B (o : outcome A) (f : A -> outcome B) r, obind o f = Ok r -> exists a, o = Ok a /\ f a = Ok r.
Proof. intros A B [a | |] f r H; cbn in H; try discriminate. eauto. Qed.
Lemma set_pv_ang : forall xc p, match set_pv xc p, xc with Some (a, v, _), Some (a', v', _) => a = a' /\ v = v' | None, None => True | _, _ => False end.
Proof. intros [[[a v] q] |] p; cbn; auto. Qed.
Definition same_angle (u u' : qbus) : Prop :=
  q_a u' = q_a u /\ q_angle u' = q_angle u /\
  match q_xc u', q_xc u with Some (a, _, _), Some (a', _, _) => a = a' | None, None => True | _, _ => False end.
Lemma same_angle_refl : forall u, same_angle u u.
Proof. intro u; unfold same_angle. destruct (q_xc u) as [[[a v] p] |]; auto. Qed.
Ltac xcsplit u := let H := fresh in destruct (q_xc u) as [[[? ?] ?] |] eqn:H; cbn in *; rewrite ?H; auto.

Lemma step_angle : forall u o u', step u o = Ok u' ->
  match o with
  | OLoad d => q_a u' = b_ang d * PI / 180 /\ q_angle u' = q_a u' /\ buf_ok u'
  | OXCBuf => q_a u' = q_a u /\ q_angle u' = q_angle u /\ buf_ok u'
  | OSetValues x _ => q_a u' = q_a u - x /\ q_angle u' = q_angle u /\ buf_ok u'
  | OResetVoltage | OResetPower => q_a u' = q_angle u /\ q_angle u' = q_angle u /\ buf_ok u'
  | OGetVoltage => q_angle u' = q_angle u /\ match q_xc u with Some (a, _, _) => q_a u' = a /\ q_xc u' = q_xc u | None => False end
  | _ => same_angle u u'
  end.
Proof.
  assert (W : forall v a p, let '(x, _, _) := buf_of p v a in - PI <= x <= PI /\ cong x a) by (intros v a p; cbn; apply wrap_ok).
  intros u o u' H. destruct o; cbn [step] in H.
  - unfold load in H. apply obind_ok in H as (gs & _ & [= <-]). cbn. rewrite pi4. split; [reflexivity | split; [reflexivity |]].
    unfold buf_ok; cbn. destruct (q_xc u) as [[[a v] p] |]; cbn; auto. apply wrap_ok.
  - injection H as <-. split; [reflexivity | split; [reflexivity |]]. unfold buf_ok; cbn. apply wrap_ok.
  - unfold set_values in H. destruct (q_xc u) as [[[a v] p] |] eqn:E; [| discriminate]. injection H as <-.
    split; [reflexivity | split; [reflexivity |]]. unfold buf_ok; cbn. apply wrap_ok.
  - injection H as <-. split; [reflexivity | split; [reflexivity |]]. unfold buf_ok; cbn. destruct (q_xc u) as [[[a v] p] |]; cbn; auto. apply wrap_ok.
  - unfold get_voltage in H. destruct (q_xc u) as [[[a v] p] |] eqn:E; [| discriminate]. injection H as <-. cbn. auto.
  - unfold set_sbus in H. apply obind_ok in H as (gs & _ & [= <-]). unfold same_angle; cbn. xcsplit u.
  - injection H as <-. unfold same_angle; cbn. xcsplit u.
  - apply obind_ok in H as ([b w] & H & [= <-]). unfold chk_qlim in H. destruct (q_pv u).
    + apply obind_ok in H as (gs & _ & H). destruct (Rlt_dec _ _).
      * destruct (q_xc u) as [[[a v] p] |] eqn:E; [| discriminate]. injection H as <- <-. unfold same_angle; cbn. rewrite E; cbn; auto.
      * destruct (Rlt_dec _ _); injection H as <- <-; unfold same_angle; cbn; xcsplit u.
    + injection H as <- <-. unfold same_angle; cbn; xcsplit u.
  - unfold clear_qlim in H. destruct (q_save2 u); [| discriminate]. injection H as <-. unfold same_angle; cbn; xcsplit u.
  - unfold set_gen_status in H. apply obind_ok in H as (l & _ & [= <-]). unfold same_angle; cbn; xcsplit u.
  - unfold scale_generator in H. apply obind_ok in H as (l & _ & [= <-]). unfold same_angle; cbn; xcsplit u.
  - injection H as <-. unfold same_angle; cbn; xcsplit u.
  - injection H as <-. unfold same_angle; cbn; xcsplit u.
  - injection H as <-. unfold same_angle; cbn; xcsplit u.
  - injection H as <-. split; [reflexivity | split; [reflexivity |]]. unfold buf_ok; cbn. destruct (q_xc u) as [[[a v] p] |]; cbn; auto. apply wrap_ok.
  - injection H as <-. unfold same_angle; cbn; xcsplit u.
  - unfold reset_is_pv in H. destruct (q_save u); [| discriminate]. injection H as <-. unfold same_angle; cbn; xcsplit u.
  - unfold set_generator_status in H. apply obind_ok in H as (l & _ & H). destruct (existsb _ _); injection H as <-; [| apply same_angle_refl]. unfold same_angle; cbn; xcsplit u.
Qed.

Definition ang_inv (u : qbus) (s : R * R) : Prop := cong (q_a u) (fst s) /\ q_angle u = snd s /\ buf_ok u.
Lemma ang_step : forall u s o u', ang_inv u s -> step u o = Ok u' -> ang_inv u' (track s o).
Proof.
  intros u [a a0] o u' (I1 & I2 & I3) H. cbn [fst snd] in *. apply step_angle in H.
  assert (S : same_angle u u' -> ang_inv u' (a, a0)).
  { intros (E1 & E2 & E3). split; [| split]; cbn [fst snd]; try congruence. unfold buf_ok in *. rewrite E1.
    destruct (q_xc u') as [[[x y] p] |]; destruct (q_xc u) as [[[x' y'] p'] |]; try contradiction; auto. subst; auto. }
  destruct o; cbn [track] in *; auto.
  - destruct H as (H1 & H2 & H3). split; [| split]; cbn [fst snd]; auto; [rewrite H1; apply cong_refl | congruence].
  - destruct H as (H1 & H2 & H3). split; [| split]; cbn [fst snd]; auto; congruence.
  - destruct H as (H1 & H2 & H3). split; [| split]; cbn [fst snd]; auto; [rewrite H1; apply cong_minus; auto | congruence].
  - destruct H as (H1 & H2 & H3). split; [| split]; cbn [fst snd]; auto; [rewrite H1, I2; apply cong_refl | congruence].
  - destruct H as (H1 & H2). unfold ang_inv, buf_ok in *. destruct (q_xc u) as [[[x y] p] |]; [| contradiction]. destruct H2 as (H2 & H3). rewrite H2, H3.
    split; [| split]; cbn [fst snd]; [eapply cong_trans; [apply I3 | auto] | congruence | split; [apply I3 | apply cong_refl]].
  - destruct H as (H1 & H2 & H3). split; [| split]; cbn [fst snd]; auto; [rewrite H1, I2; apply cong_refl | congruence].
Qed.
Lemma ang_run : forall os u s u', ang_inv u s -> run u os = Ok u' -> ang_inv u' (fold_left track os s).
Proof.
  induction os as [| o os IH]; intros u s u' I H; cbn in *.
  - injection H as <-; auto.
  - apply obind_ok in H as (u1 & H1 & H2). eapply IH; [| eauto]. eapply ang_step; eauto.
Qed.

(** ** Sums *)
Lemma gsum_on : forall f l, gsum f l = total f (map snd (filter (fun p => (fst p =? 1)%Z) l)).
Proof.
  unfold gsum, total, sumR, on. induction l as [| p l IH]; cbn; auto. destruct (fst p =? 1)%Z; cbn; rewrite IH; ring.
Qed.
Lemma lsum_on : forall f l, lsum f l = total f (filter (fun x => (l_st x =? 1)%Z) l).
Proof.
  unfold lsum, total, sumR, on. induction l as [| p l IH]; cbn; auto. destruct (l_st p =? 1)%Z; cbn; rewrite IH; ring.
Qed.
Lemma paired_ok : forall u, consistent u -> paired u = Ok (combine (q_gst u) (q_gens u)).
Proof. intros u H. unfold paired. rewrite H, Nat.leb_refl. reflexivity. Qed.
Lemma aligned_ok : forall u, consistent u -> aligned u = Ok (combine (q_gst u) (q_gens u)).
Proof. intros u H. unfold aligned. rewrite H, Nat.eqb_refl. reflexivity. Qed.
Lemma specified_injection : forall u, consistent u -> specified u = Some (injection u).
Proof. intros u H. unfold specified, set_sbus. rewrite paired_ok by auto. cbn. rewrite !gsum_on, !lsum_on. reflexivity. Qed.

(** ** Conversion *)
Lemma conv_gens_on : forall u lim gs, gens_on (convert u lim gs) = [].
Proof.
  intros u lim gs. unfold gens_on, convert; cbn. generalize (map (fun g => set_qg g (lim g)) (firstn (length (q_gst u)) (q_gens u)) ++ skipn (length (q_gst u)) (q_gens u))%list.
  induction (q_gst u) as [| s l IH]; intros [| g r]; cbn; auto.
Qed.
Lemma conv_consistent : forall u lim gs, consistent u -> consistent (convert u lim gs).
Proof.
  unfold consistent, convert; cbn. intros u lim gs H. rewrite map_length, app_length, map_length, firstn_length, skipn_length. lia.
Qed.
Lemma conv_loads : forall u lim gs, loads_on (convert u lim gs) =
  map (fun l => set_ld l (lsum l_pl (q_lds u) - gsum g_pg gs) (lsum l_ql (q_lds u) - gsum lim gs)) (loads_on u).
Proof.
  intros u lim gs. unfold loads_on, convert; cbn. generalize (lsum l_pl (q_lds u) - gsum g_pg gs) (lsum l_ql (q_lds u) - gsum lim gs). intros x y.
  induction (q_lds u) as [| l r IH]; cbn; auto. unfold on in *. destruct (l_st l =? 1)%Z eqn:E; cbn; rewrite ?E; cbn; rewrite ?IH; auto.
Qed.

(** ** Generators through a history *)
Lemma upd_first_map : forall A B (g : A -> B) p f l, (forall x, g (f x) = g x) -> map g (upd_first p f l) = map g l.
Proof. induction l as [| x l IH]; intros H; cbn; auto. destruct (p x); cbn; [rewrite H; auto | rewrite IH; auto]. Qed.
Lemma upd_first_length : forall A p (f : A -> A) l, length (upd_first p f l) = length l.
Proof. induction l as [| x l IH]; cbn; auto. destruct (p x); cbn; auto. Qed.
Lemma combine_split_l : forall A B (l : list A) (m : list B), length l = length m -> map fst (combine l m) = l /\ map snd (combine l m) = m.
Proof. induction l as [| x l IH]; intros [| y m] H; cbn in *; try discriminate; auto. destruct (IH m) as [-> ->]; auto. Qed.
Lemma upd_first_nth : forall A p (f : A -> A) l i x, nth_error l i = Some x -> nth_error (upd_first p f l) i = Some x \/ nth_error (upd_first p f l) i = Some (f x).
Proof.
  induction l as [| y l IH]; intros [| i] x H; cbn in *; try discriminate.
  - injection H as ->. destruct (p x); cbn; auto.
  - destruct (p y); cbn; auto.
Qed.

(** what never changes of the generators and loads without a load *)
Definition fixed (g : gen) : string * R * R := (g_id g, g_pt g, g_pb g).
Definition same_fixed (u u' : qbus) : Prop :=
  map fixed (q_gens u') = map fixed (q_gens u) /\ length (q_lds u') = length (q_lds u) /\ map l_id (q_lds u') = map l_id (q_lds u) /\ map l_st (q_lds u') = map l_st (q_lds u) /\
  q_savePg u' = q_savePg u /\ q_saveL u' = q_saveL u /\ q_volt u' = q_volt u /\ q_angle u' = q_angle u /\ q_sb u' = q_sb u.
Lemma same_fixed_refl : forall u, same_fixed u u. Proof. intro; unfold same_fixed; auto 12. Qed.
Lemma same_fixed_trans : forall u v w, same_fixed u v -> same_fixed v w -> same_fixed u w.
Proof. unfold same_fixed. intros u v w (A1 & A2 & A3 & A4 & A5 & A6 & A7 & A8 & A9) (B1 & B2 & B3 & B4 & B5 & B6 & B7 & B8 & B9). repeat split; congruence. Qed.
Ltac fixtac := unfold same_fixed; cbn; auto 12.

Lemma reset_fixed : forall u, (length (q_gens u) <= length (q_savePg u))%nat -> (length (q_lds u) <= length (q_saveL u))%nat -> same_fixed u (reset_power u).
Proof.
  intros u H1 H2. unfold same_fixed, reset_power; cbn.
  split; [| split; [| split; [| split; [| auto 10]]]].
  - revert H1; generalize (q_savePg u). induction (q_gens u) as [| g l IH]; intros [| s r] H; cbn in *; try lia; auto. rewrite IH by lia. reflexivity.
  - rewrite map_length, combine_length. lia.
  - revert H2; generalize (q_saveL u). induction (q_lds u) as [| g l IH]; intros [| s r] H; cbn in *; try lia; auto. rewrite IH by lia. reflexivity.
  - revert H2; generalize (q_saveL u). induction (q_lds u) as [| g l IH]; intros [| s r] H; cbn in *; try lia; auto. rewrite IH by lia. reflexivity.
Qed.
Definition saved (u : qbus) : Prop := (length (q_gens u) <= length (q_savePg u))%nat /\ (length (q_lds u) <= length (q_saveL u))%nat.
Lemma saved_fixed : forall u u', saved u -> same_fixed u u' -> saved u'.
Proof.
  unfold saved. intros u u' (H1 & H2) (A1 & A2 & _ & _ & A5 & A6 & _). rewrite A5, A6, A2.
  assert (E : length (q_gens u') = length (q_gens u)) by (rewrite <- (map_length fixed), A1, map_length; auto). rewrite E; auto.
Qed.
Lemma step_fixed : forall u o u', saved u -> no_load o -> step u o = Ok u' -> same_fixed u u'.
Proof.
  intros u o u' Sv N H. destruct o; cbn [step no_load] in *; try contradiction.
  - injection H as <-. fixtac.
  - unfold set_values in H. destruct (q_xc u) as [[[a v] p] |] eqn:E; [| discriminate]. injection H as <-. fixtac.
  - injection H as <-. fixtac.
  - unfold get_voltage in H. destruct (q_xc u) as [[[a v] p] |] eqn:E; [| discriminate]. injection H as <-. fixtac.
  - unfold set_sbus in H. apply obind_ok in H as (gs & _ & [= <-]). fixtac.
  - injection H as <-. fixtac.
  - assert (CV : forall lim gs, same_fixed u (convert u lim gs)).
    { intros lim gs. unfold same_fixed, convert; cbn. split; [| split; [| split; [| split; [| auto 10]]]].
      - rewrite map_app, map_map. rewrite <- (firstn_skipn (length (q_gst u)) (q_gens u)) at 3. rewrite map_app. reflexivity.
      - apply map_length.
      - rewrite map_map. apply map_ext. intro l; destruct (on (l_st l)); reflexivity.
      - rewrite map_map. apply map_ext. intro l; destruct (on (l_st l)); reflexivity. }
    apply obind_ok in H as ([b w] & H & [= <-]). unfold chk_qlim in H. destruct (q_pv u).
    + apply obind_ok in H as (gs & _ & H). destruct (Rlt_dec _ _).
      * destruct (q_xc u) as [[[a v] p] |] eqn:E; [| discriminate]. injection H as <- <-. apply CV.
      * destruct (Rlt_dec _ _); injection H as <- <-; [apply CV | fixtac].
    + injection H as <- <-. fixtac.
  - unfold clear_qlim in H. destruct (q_save2 u); [| discriminate]. injection H as <-. fixtac.
  - unfold set_gen_status in H. apply obind_ok in H as (l & A & [= <-]). unfold aligned in A.
    destruct (length (q_gst u) =? length (q_gens u))%nat eqn:E; [| discriminate]. apply Nat.eqb_eq in E. injection A as <-.
    unfold same_fixed; cbn. split; [| auto 10]. rewrite map_map, upd_first_map by (intros [z g]; destruct s; reflexivity).
    rewrite <- map_map. destruct (combine_split_l _ _ E) as [_ ->]. auto.
  - unfold scale_generator in H. apply obind_ok in H as (l & A & [= <-]). unfold aligned in A.
    destruct (length (q_gst u) =? length (q_gens u))%nat eqn:E; [| discriminate]. apply Nat.eqb_eq in E. injection A as <-.
    unfold same_fixed; cbn. split; [| auto 10]. rewrite map_map, upd_first_map by (intros [z g]; cbn; unfold scale_gen; destruct (Rlt_dec 0 v); reflexivity).
    rewrite <- map_map. destruct (combine_split_l _ _ E) as [_ ->]. auto.
  - injection H as <-. unfold same_fixed; cbn. rewrite upd_first_length, !upd_first_map by auto. auto 12.
  - injection H as <-. unfold same_fixed; cbn. rewrite upd_first_map by auto. auto 12.
  - injection H as <-. unfold same_fixed; cbn. rewrite upd_first_length, !upd_first_map by auto. auto 12.
  - injection H as <-. apply reset_fixed; apply Sv.
  - injection H as <-. fixtac.
  - unfold reset_is_pv in H. destruct (q_save u); [| discriminate]. injection H as <-. fixtac.
  - unfold set_generator_status in H. apply obind_ok in H as (l & A & H). unfold aligned in A.
    destruct (length (q_gst u) =? length (q_gens u))%nat eqn:E; [| discriminate]. apply Nat.eqb_eq in E. injection A as <-.
    destruct (existsb _ _); injection H as <-; [| apply same_fixed_refl].
    unfold same_fixed; cbn. split; [| auto 10]. rewrite map_map, upd_first_map by (intros [z g]; cbn; destruct (st =? 0)%Z; reflexivity).
    rewrite <- map_map. destruct (combine_split_l _ _ E) as [_ ->]. auto.
Qed.
Lemma run_fixed : forall os u u', saved u -> Forall no_load os -> run u os = Ok u' -> same_fixed u u'.
Proof.
  induction os as [| o os IH]; intros u u' Sv F H; cbn in H.
  - injection H as <-. apply same_fixed_refl.
  - apply obind_ok in H as (u1 & H1 & H2). inversion_clear F as [| ? ? F1 F2].
    pose proof (@step_fixed _ _ _ Sv F1 H1) as S1. eapply same_fixed_trans; [exact S1 |]. eapply IH; eauto using saved_fixed.
Qed.

(** ** Limits through a history *)
Definition lim_inv (u : qbus) (i : nat) : Prop :=
  (forall g, nth_error (q_gens u) i = Some g -> within_limits g /\ forall s, nth_error (q_savePg u) i = Some s -> g_pb g <= s <= g_pt g).
Lemma scale_within : forall v g, -1 <= v <= 1 -> within_limits g -> within_limits (scale_gen v g).
Proof.
  unfold within_limits, scale_gen. intros v g Hv [H1 H2]. destruct (Rlt_dec 0 v); cbn.
  - assert (0 <= v * (g_pt g - g_pg g)) by (apply Rmult_le_pos; lra).
    assert (v * (g_pt g - g_pg g) <= 1 * (g_pt g - g_pg g)) by (apply Rmult_le_compat_r; lra). lra.
  - assert (0 <= - v * (g_pg g - g_pb g)) by (apply Rmult_le_pos; lra).
    assert (- v * (g_pg g - g_pb g) <= 1 * (g_pg g - g_pb g)) by (apply Rmult_le_compat_r; lra). lra.
Qed.
(** generator [i] after a step: only its power changes, and to a value that is scaled, reset or unchanged *)
Definition kept (u u' : qbus) (i : nat) : Prop :=
  forall g', nth_error (q_gens u') i = Some g' -> exists g, nth_error (q_gens u) i = Some g /\ g_pt g' = g_pt g /\ g_pb g' = g_pb g /\
    (g_pg g' = g_pg g \/ (exists v, -1 <= v <= 1 /\ g_pg g' = g_pg (scale_gen v g)) \/ nth_error (q_savePg u) i = Some (g_pg g')).
Lemma kept_same : forall u u' i, q_gens u' = q_gens u -> kept u u' i.
Proof. intros u u' i E g' H. rewrite E in H. eauto 8. Qed.
Lemma kept_pairs : forall u i p f, consistent u -> (forall q, g_pt (snd (f q)) = g_pt (snd q) /\ g_pb (snd (f q)) = g_pb (snd q) /\
    (g_pg (snd (f q)) = g_pg (snd q) \/ exists v, -1 <= v <= 1 /\ g_pg (snd (f q)) = g_pg (scale_gen v (snd q)))) ->
  kept u (unzip_gens u (upd_first p f (combine (q_gst u) (q_gens u)))) i.
Proof.
  intros u i p f C Hf g' H. cbn in H.
  destruct (combine_split_l _ _ C) as [_ E2].
  assert (L : (i < length (combine (q_gst u) (q_gens u)))%nat).
  { assert (i < length (map snd (upd_first p f (combine (q_gst u) (q_gens u)))))%nat by (apply nth_error_Some; congruence). rewrite map_length, upd_first_length in H0. auto. }
  destruct (nth_error (combine (q_gst u) (q_gens u)) i) as [[z g] |] eqn:N; [| apply nth_error_None in N; lia].
  assert (G : nth_error (q_gens u) i = Some g) by (rewrite <- E2; apply (map_nth_error snd _ _ N)).
  exists g; split; auto.
  destruct (@upd_first_nth _ p f _ _ _ N) as [U | U]; apply (map_nth_error snd) in U; rewrite U in H; injection H as <-; cbn [snd].
  - auto.
  - destruct (Hf (z, g)) as (F1 & F2 & [F3 | F3]); cbn [snd] in *; auto.
Qed.
Lemma step_kept : forall u o u' i, saved u -> only_scaling o -> step u o = Ok u' -> kept u u' i.
Proof.
  intros u o u' i Sv N H. destruct o; cbn [step only_scaling] in *; try contradiction.
  - injection H as <-. apply kept_same; reflexivity.
  - unfold set_values in H. destruct (q_xc u) as [[[a v] p] |] eqn:E; [| discriminate]. injection H as <-. apply kept_same; reflexivity.
  - injection H as <-. apply kept_same; reflexivity.
  - unfold get_voltage in H. destruct (q_xc u) as [[[a v] p] |] eqn:E; [| discriminate]. injection H as <-. apply kept_same; reflexivity.
  - unfold set_sbus in H. apply obind_ok in H as (gs & _ & [= <-]). apply kept_same; reflexivity.
  - injection H as <-. apply kept_same; reflexivity.
  - assert (CV : forall lim gs, kept u (convert u lim gs) i).
    { intros lim gs g' G. cbn in G. set (k := length (q_gst u)) in *.
      assert (E : exists f, (forall g, f g = g \/ f g = set_qg g (lim g)) /\ nth_error (map f (q_gens u)) i = Some g').
      { clear - G. revert i G. generalize (q_gens u). induction k as [| k IH]; intros l i G.
        - exists (fun g => g). split; auto. rewrite map_id. exact G.
        - destruct l as [| g l]; [exists (fun g => g); split; auto |]. cbn in G. destruct i as [| i].
          + exists (fun g => set_qg g (lim g)). split; auto.
          + cbn in G. destruct (IH l i G) as (f & F1 & F2). exists f; auto. }
      destruct E as (f & F1 & F2). rewrite nth_error_map in F2. destruct (nth_error (q_gens u) i) as [g |]; [| discriminate]. injection F2 as <-.
      exists g; split; auto. destruct (F1 g) as [-> | ->]; cbn; auto. }
    apply obind_ok in H as ([b w] & H & [= <-]). unfold chk_qlim in H. destruct (q_pv u).
    + apply obind_ok in H as (gs & _ & H). destruct (Rlt_dec _ _).
      * destruct (q_xc u) as [[[a v] p] |] eqn:E; [| discriminate]. injection H as <- <-. apply CV.
      * destruct (Rlt_dec _ _); injection H as <- <-; [apply CV | apply kept_same; reflexivity].
    + injection H as <- <-. apply kept_same; reflexivity.
  - unfold clear_qlim in H. destruct (q_save2 u); [| discriminate]. injection H as <-. apply kept_same; reflexivity.
  - unfold set_gen_status in H. apply obind_ok in H as (l & A & [= <-]). unfold aligned in A.
    destruct (length (q_gst u) =? length (q_gens u))%nat eqn:E; [| discriminate]. apply Nat.eqb_eq in E. injection A as <-.
    apply kept_pairs; auto. intros [z g]; destruct s; cbn; auto.
  - unfold scale_generator in H. apply obind_ok in H as (l & A & [= <-]). unfold aligned in A.
    destruct (length (q_gst u) =? length (q_gens u))%nat eqn:E; [| discriminate]. apply Nat.eqb_eq in E. injection A as <-.
    apply kept_pairs; auto. intros [z g]. cbn [snd]. split; [| split]; [unfold scale_gen; destruct (Rlt_dec 0 v); reflexivity .. |]. right; exists v; auto.
  - injection H as <-. apply kept_same; reflexivity.
  - injection H as <-. apply kept_same; reflexivity.
  - injection H as <-. intros g' G. cbn in G. rewrite nth_error_map in G.
    destruct (nth_error (combine (q_savePg u) (q_gens u)) i) as [[s g] |] eqn:C; [| discriminate]. injection G as <-.
    assert (CC : nth_error (q_savePg u) i = Some s /\ nth_error (q_gens u) i = Some g).
    { clear - C. revert i C. generalize (q_gens u). induction (q_savePg u) as [| x l IH]; intros [| y m] [| i] C; cbn in *; try discriminate; auto. injection C as -> ->; auto. }
    destruct CC as [C1 C2]. exists g; split; auto.
  - injection H as <-. apply kept_same; reflexivity.
  - unfold reset_is_pv in H. destruct (q_save u); [| discriminate]. injection H as <-. apply kept_same; reflexivity.
Qed.
Lemma scaling_no_load : forall o, only_scaling o -> no_load o.
Proof. destruct o; cbn; auto. Qed.
Lemma lim_step : forall u o u' i, saved u -> only_scaling o -> step u o = Ok u' -> lim_inv u i -> lim_inv u' i.
Proof.
  intros u o u' i Sv N H I g' G. destruct (@step_fixed _ _ _ Sv (@scaling_no_load _ N) H) as (_ & _ & _ & _ & E & _).
  destruct (@step_kept _ _ _ i Sv N H _ G) as (g & G1 & G2 & G3 & K). destruct (I g G1) as [I1 I2]. rewrite E, G2, G3. split; auto.
  unfold within_limits in *. rewrite G2, G3. destruct K as [K | [(v & V & K) | K]]; rewrite ?K; auto.
  pose proof (@scale_within _ _ V I1) as W. unfold within_limits in W. unfold scale_gen in *. destruct (Rlt_dec 0 v); cbn in *; auto.
Qed.
Lemma lim_run : forall os u u' i, saved u -> Forall only_scaling os -> run u os = Ok u' -> lim_inv u i -> lim_inv u' i.
Proof.
  induction os as [| o os IH]; intros u u' i Sv F H I; cbn in H.
  - injection H as <-. auto.
  - apply obind_ok in H as (u1 & H1 & H2). inversion_clear F as [| ? ? F1 F2].
    eapply (IH u1); eauto; [eapply saved_fixed; eauto; eapply step_fixed; eauto using scaling_no_load | eapply lim_step; eauto].
Qed.

(** ** Solution steps between conversion and clearing *)
Definition calm (u u' : qbus) : Prop := q_gst u' = q_gst u /\ q_gsave u' = q_gsave u /\ q_gens u' = q_gens u /\ q_lds u' = q_lds u /\ q_pv u' = q_pv u /\ q_save2 u' = q_save2 u /\ q_sb u' = q_sb u.
Lemma calm_step : forall u o u', q_pv u = false -> solving o -> step u o = Ok u' -> calm u u'.
Proof.
  intros u o u' P N H. destruct o; cbn [step solving] in *; try contradiction.
  - unfold set_values in H. destruct (q_xc u) as [[[a v] p] |] eqn:E; [| discriminate]. injection H as <-. unfold calm; cbn; auto 10.
  - injection H as <-. unfold calm; cbn; auto 10.
  - unfold get_voltage in H. destruct (q_xc u) as [[[a v] p] |] eqn:E; [| discriminate]. injection H as <-. unfold calm; cbn; auto 10.
  - unfold set_sbus in H. apply obind_ok in H as (gs & _ & [= <-]). unfold calm; cbn; auto 10.
  - injection H as <-. unfold calm; cbn; auto 10.
  - apply obind_ok in H as ([b w] & H & [= <-]). unfold chk_qlim in H. rewrite P in H. injection H as <- <-. unfold calm; cbn; auto 10.
Qed.
Lemma calm_run : forall os u u', q_pv u = false -> Forall solving os -> run u os = Ok u' -> calm u u'.
Proof.
  induction os as [| o os IH]; intros u u' P F H; cbn in H.
  - injection H as <-. unfold calm; auto 10.
  - apply obind_ok in H as (u1 & H1 & H2). inversion_clear F as [| ? ? F1 F2].
    pose proof (@calm_step _ _ _ P F1 H1) as C. assert (P1 : q_pv u1 = false) by (destruct C as (_ & _ & _ & _ & E & _); congruence).
    pose proof (IH u1 u' P1 F2 H2) as C'. unfold calm in *. intuition congruence.
Qed.

(** ** Participation *)
Definition cap_of (ds : list dgen) : R := total (fun g => d_pt g - d_pb g) (filter (fun g => (d_st g =? 1)%Z) ds).
Lemma cap_sum : forall ds, (forall g, In g ds -> d_st g = 0%Z \/ d_st g = 1%Z) -> sumR (map g_fac (map load_gen ds)) = cap_of ds.
Proof.
  induction ds as [| g ds IH]; intros H; cbn; auto. unfold sumR, cap_of in *. cbn. rewrite IH by (intros; apply H; cbn; auto).
  destruct (H g) as [-> | ->]; cbn; auto. unfold total; cbn. ring.
Qed.
Lemma on_map : forall ds (F : dgen -> gen), map snd (filter (fun p => (fst p =? 1)%Z) (combine (map d_st ds) (map F ds))) = map F (filter (fun g => (d_st g =? 1)%Z) ds).
Proof. induction ds as [| g ds IH]; intro F; cbn; auto. destruct (d_st g =? 1)%Z; cbn; rewrite IH; auto. Qed.
Lemma total_div : forall A (f : A -> R) c l, total (fun x => f x / c) l = total f l / c.
Proof. unfold total. induction l as [| x l IH]; cbn; [unfold Rdiv; ring | rewrite IH; unfold Rdiv; ring]. Qed.
Lemma norm_share : forall ds gs, (forall g, In g ds -> d_st g = 0%Z \/ d_st g = 1%Z) -> cap_of ds <> 0 -> norm_fac (map load_gen ds) = Ok gs ->
  gs = map (fun g => set_fac (load_gen g) (if (d_st g =? 1)%Z then (d_pt g - d_pb g) / cap_of ds else 0) (if (d_st g =? 1)%Z then (d_pt g - d_pb g) / cap_of ds else 0)) ds.
Proof.
  intros ds gs S C H. unfold norm_fac in H. rewrite cap_sum in H by auto. destruct (Req_EM_T (cap_of ds) 0) as [E | _]; [contradiction |].
  assert (P : forall g, In g ds -> g_fac (load_gen g) / cap_of ds = if (d_st g =? 1)%Z then (d_pt g - d_pb g) / cap_of ds else 0).
  { intros g G. cbn. destruct (S g G) as [-> | ->]; cbn; auto. unfold Rdiv; ring. }
  rewrite map_length in H. destruct (1 <? length ds)%nat eqn:L.
  - injection H as <-. rewrite map_map. apply map_ext_in. intros g G. rewrite (P g G). reflexivity.
  - destruct ds as [| g [| h ds]]; cbn in L; try discriminate. injection H as <-. cbn [map].
    assert (V : (if (d_st g =? 1)%Z then (d_pt g - d_pb g) / cap_of [g] else 0) = 1).
    { unfold cap_of, total in *. cbn in *. destruct (d_st g =? 1)%Z; cbn in *; [| exfalso; apply C; reflexivity]. field. intro Z0; apply C. lra. }
    rewrite V. reflexivity.
Qed.

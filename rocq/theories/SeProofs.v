(** Proofs for SeProps.v: measurements at buses. *)
From Verif Require Import Prelude PfModel PfSpec PfProofs YbModel YbSpec SeModel SeSpec.
From Coq Require Import Reals Lra Nsatz.
From Coquelicot Require Import Complex Derive AutoDerive Hierarchy.
Open Scope R_scope.

Lemma getb_el : forall n k, getb (el n) k = s_bus (sget n k).
Proof. intros n k. unfold getb, el, sget; cbn [pbs]. change bus0 with (s_bus sbus0). apply map_nth. Qed.
Lemma vm_magn : forall n k, vm n k = magn (el n) k.
Proof. intros; unfold vm, magn; rewrite getb_el; auto. Qed.
Lemma va_angle : forall n k, va n k = angle (el n) k.
Proof. intros; unfold va, angle; rewrite getb_el; auto. Qed.
Lemma rf_el : forall n k, rf n k = p_ref (getb (el n) k).
Proof. intros; unfold rf; rewrite getb_el; auto. Qed.
Lemma iso_el : forall n k, iso n k = p_iso (getb (el n) k).
Proof. intros; unfold iso; rewrite getb_el; auto. Qed.

(** ** Coefficients *)
Lemma sumR_app : forall a b, sumR (a ++ b)%list = sumR a + sumR b.
Proof. induction a as [| x a IH]; intro b; cbn [app]; rewrite ?sumR_cons, ?IH; [cbn; ring | ring]. Qed.
Lemma coef_app : forall a b c, coef (a ++ b)%list c = coef a c + coef b c.
Proof. intros; unfold coef; rewrite map_app, sumR_app; auto. Qed.
Lemma coef_flat : forall A (f : A -> list entry) l c, coef (flat_map f l) c = sumR (map (fun x => coef (f x) c) l).
Proof. induction l as [| x l IH]; intro c; cbn [flat_map map]; [reflexivity | rewrite coef_app, sumR_cons, IH; auto]. Qed.
Lemma coef_cols2 : forall n k dth dv j i, unknown n j i ->
  coef (cols2 n k dth dv) (j, i) = if (k =? j)%nat then if is_angle n (j, i) then dth else dv else 0.
Proof.
  intros n k dth dv j i (_ & _ & Hi). unfold cols2, is_angle. rewrite rf_el. cbn [fst snd].
  destruct (Nat.eqb_spec k j) as [-> | Ne].
  - destruct (p_ref (getb (el n) j)); unfold coef; cbn [map fst snd]; rewrite Nat.eqb_refl; cbn [andb negb]; rewrite ?sumR_cons.
    + destruct i as [| i]; [| lia]. cbn. ring.
    + destruct i as [| [| i]]; [| | lia]; cbn; ring.
  - destruct (p_ref (getb (el n) k)); unfold coef; cbn [map fst snd]; rewrite (proj2 (Nat.eqb_neq k j)) by auto; cbn; ring.
Qed.

(** ** Injections *)
(** derivative of the terms of a branch with respect to the magnitude of the bus itself *)
Definition uP (th v : nat -> R) (k : nat) (b : pbr) : R :=
  (if (r_1 b =? k)%nat then v (r_2 b) * (r_Gf b * cos (th k - th (r_2 b)) + r_Bf b * sin (th k - th (r_2 b))) else 0) +
  (if (r_2 b =? k)%nat then v (r_1 b) * (r_Gr b * cos (th k - th (r_1 b)) + r_Br b * sin (th k - th (r_1 b))) else 0).
Definition uQ (th v : nat -> R) (k : nat) (b : pbr) : R :=
  (if (r_1 b =? k)%nat then v (r_2 b) * (r_Gf b * sin (th k - th (r_2 b)) - r_Bf b * cos (th k - th (r_2 b))) else 0) +
  (if (r_2 b =? k)%nat then v (r_1 b) * (r_Gr b * sin (th k - th (r_1 b)) - r_Br b * cos (th k - th (r_1 b))) else 0).
Lemma own_u : forall th v k b, r_1 b <> r_2 b ->
  is_derive (fun x => tP th (bump v k x) k b) (v k) (uP th v k b) /\ is_derive (fun x => tQ th (bump v k x) k b) (v k) (uQ th v k b).
Proof.
  intros th v k b Hb. unfold tP, tQ, uP, uQ, bump. rewrite Nat.eqb_refl.
  destruct (Nat.eqb_spec (r_1 b) k); destruct (Nat.eqb_spec (r_2 b) k); try (exfalso; congruence); split; auto_derive; auto; unfold Rminus; ring.
Qed.

Definition dP (ang : bool) (th v : nat -> R) (k j : nat) (b : pbr) : R :=
  if (k =? j)%nat then if ang then - tQ th v k b else uP th v k b else oP (if ang then 0 else 1) th v k j b.
Definition dQ (ang : bool) (th v : nat -> R) (k j : nat) (b : pbr) : R :=
  if (k =? j)%nat then if ang then tP th v k b else uQ th v k b else oQ (if ang then 0 else 1) th v k j b.

Lemma pi_deriv : forall n k c, wf n ->
  deriv n (at_node n k PI_) c (sumR (map (dP (is_angle n c) (angle (el n)) (magn (el n)) k (fst c)) (prs (el n))) +
    (if (k =? fst c)%nat then if is_angle n c then 0 else 2 * magn (el n) k * p_G (getb (el n) k) else 0)) /\
  deriv n (at_node n k QI_) c (sumR (map (dQ (is_angle n c) (angle (el n)) (magn (el n)) k (fst c)) (prs (el n))) -
    (if (k =? fst c)%nat then if is_angle n c then 0 else 2 * magn (el n) k * p_B (getb (el n) k) else 0)).
Proof.
  intros n k c W.
  assert (Wb : forall b, In b (prs (el n)) -> r_1 b <> r_2 b).
  { intros b Hb. cbn in Hb. apply in_map_iff in Hb as (s & <- & Hs). apply (W s Hs). }
  assert (DP : forall (F : R -> R) (s : R -> R) x D E, is_derive F x D -> is_derive s x E -> is_derive (fun y => F y + s y) x (D + E)).
  { intros F s x D E H1 H2. apply (is_derive_plus (K := R_AbsRing) (V := R_NormedModule) F s); auto. }
  assert (DM : forall (F : R -> R) (s : R -> R) x D E, is_derive F x D -> is_derive s x E -> is_derive (fun y => F y - s y) x (D - E)).
  { intros F s x D E H1 H2. apply (is_derive_minus (K := R_AbsRing) (V := R_NormedModule) F s); auto. }
  destruct c as [j i]. cbn [fst].
  unfold deriv, at_node, moved, value. cbn [fst].
  destruct (is_angle n (j, i)); split; cbn [fst snd].
  - apply (is_derive_ext (fun y => sumR (map (tP (bump (angle (el n)) j y) (magn (el n)) k) (prs (el n))) + magn (el n) k * magn (el n) k * p_G (getb (el n) k))).
    { intro y. symmetry. apply (proj1 (power_split (el n) _ _ k)). }
    apply DP.
    + apply (is_derive_sum (prs (el n)) (fun b x => tP (bump (angle (el n)) j x) (magn (el n)) k b)). intros b Hb. unfold dP.
      destruct (Nat.eqb_spec k j) as [<- | Ne]; [apply own_theta; auto | apply off_theta; auto].
    + destruct (k =? j)%nat; apply (is_derive_const (K := R_AbsRing) (V := R_NormedModule)).
  - apply (is_derive_ext (fun y => sumR (map (tQ (bump (angle (el n)) j y) (magn (el n)) k) (prs (el n))) - magn (el n) k * magn (el n) k * p_B (getb (el n) k))).
    { intro y. symmetry. apply (proj2 (power_split (el n) _ _ k)). }
    apply DM.
    + apply (is_derive_sum (prs (el n)) (fun b x => tQ (bump (angle (el n)) j x) (magn (el n)) k b)). intros b Hb. unfold dQ.
      destruct (Nat.eqb_spec k j) as [<- | Ne]; [apply own_theta; auto | apply off_theta; auto].
    + destruct (k =? j)%nat; apply (is_derive_const (K := R_AbsRing) (V := R_NormedModule)).
  - apply (is_derive_ext (fun y => sumR (map (tP (angle (el n)) (bump (magn (el n)) j y) k) (prs (el n))) + bump (magn (el n)) j y k * bump (magn (el n)) j y k * p_G (getb (el n) k))).
    { intro y. symmetry. apply (proj1 (power_split (el n) _ _ k)). }
    apply DP.
    + apply (is_derive_sum (prs (el n)) (fun b x => tP (angle (el n)) (bump (magn (el n)) j x) k b)). intros b Hb. unfold dP.
      destruct (Nat.eqb_spec k j) as [<- | Ne]; [apply own_u; auto | apply off_v; auto].
    + unfold bump. destruct (Nat.eqb_spec k j) as [<- | Ne]; [auto_derive; auto; ring | apply (is_derive_const (K := R_AbsRing) (V := R_NormedModule))].
  - apply (is_derive_ext (fun y => sumR (map (tQ (angle (el n)) (bump (magn (el n)) j y) k) (prs (el n))) - bump (magn (el n)) j y k * bump (magn (el n)) j y k * p_B (getb (el n) k))).
    { intro y. symmetry. apply (proj2 (power_split (el n) _ _ k)). }
    apply DM.
    + apply (is_derive_sum (prs (el n)) (fun b x => tQ (angle (el n)) (bump (magn (el n)) j x) k b)). intros b Hb. unfold dQ.
      destruct (Nat.eqb_spec k j) as [<- | Ne]; [apply own_u; auto | apply off_v; auto].
    + unfold bump. destruct (Nat.eqb_spec k j) as [<- | Ne]; [auto_derive; auto; ring | apply (is_derive_const (K := R_AbsRing) (V := R_NormedModule))].
Qed.

(** sums over the neighbours and over all branches *)
Lemma near_sum : forall (f : sbr -> R) (g : pbr -> R) k l,
  (forall b, In b l -> at_bus k (s_br b) = true -> f b = g (s_br b)) -> (forall b, In b l -> at_bus k (s_br b) = false -> g (s_br b) = 0) ->
  sumR (map f (filter (fun b => at_bus k (s_br b)) l)) = sumR (map g (map s_br l)).
Proof.
  induction l as [| b l IH]; intros Hf Hg; cbn [filter map]; auto.
  rewrite sumR_cons, <- IH by (intros; (apply Hf || apply Hg); cbn; auto).
  destruct (at_bus k (s_br b)) eqn:E; cbn [map]; rewrite ?sumR_cons.
  - rewrite Hf by (cbn; auto). auto.
  - rewrite Hg by (cbn; auto). ring.
Qed.
Lemma at_bus_spec : forall k b, at_bus k b = true <-> r_1 b = k \/ r_2 b = k.
Proof. intros; unfold at_bus. rewrite orb_true_iff, !Nat.eqb_eq. intuition congruence. Qed.

(** at a branch of the bus, the variables of the program are those of the equations *)
Ltac pick b k := unfold vth, ymut, other, b1, b2 in *; destruct (Nat.eqb_spec (r_1 (s_br b)) k); destruct (Nat.eqb_spec (r_2 (s_br b)) k); try (exfalso; congruence).

Ltac fin b k := repeat match goal with H : r_1 (s_br b) = k |- _ => rewrite !H; clear H | H : r_2 (s_br b) = k |- _ => rewrite !H; clear H end; try ring.
Section Rows.
  Variables (n : snet) (k : nat).
  Hypothesis W : wf n.
  Hypothesis L : forall b, In b (srs n) -> touches k b -> ~ alone n (r_1 (s_br b)) /\ ~ alone n (r_2 (s_br b)).
  Lemma near_live : forall b, In b (near n k) -> live n b = true.
  Proof.
    intros b Hb. unfold near in Hb. apply filter_In in Hb as [Hb Ha]. apply at_bus_spec in Ha. destruct (L Hb Ha) as [A B].
    unfold live, b1, b2, alone in *. rewrite !iso_el. destruct (p_iso (getb (el n) (r_1 (s_br b)))); [congruence |]. destruct (p_iso (getb (el n) (r_2 (s_br b)))); [congruence | auto].
  Qed.
  Lemma filter_live : filter (live n) (near n k) = near n k.
  Proof. pose proof near_live as H. induction (near n k) as [| b l IH]; cbn; auto. rewrite H by (left; auto). rewrite IH; auto. intros; apply H; right; auto. Qed.

  Let th := angle (el n). Let v := magn (el n).

  Lemma pi_coef : forall j i, unknown n j i ->
    coef (pi_row n k) (j, i) = sumR (map (dP (is_angle n (j, i)) th v k j) (prs (el n))) +
      (if (k =? j)%nat then if is_angle n (j, i) then 0 else 2 * v k * p_G (getb (el n) k) else 0).
  Proof.
    intros j i U. unfold pi_row. rewrite filter_live, coef_app, coef_flat, coef_cols2 by auto.
    rewrite !vm_magn, <- getb_el. fold v.
    destruct (Nat.eqb_spec k j) as [E | Ne].
    - replace (sumR (map _ (near n k))) with 0.
      2: { symmetry. transitivity (sumR (map (fun _ : pbr => 0) (map s_br (srs n)))).
           - unfold near. apply near_sum; auto. intros b Hb Ha. apply at_bus_spec in Ha. destruct (W b Hb) as (Wb & _).
             destruct (vth n k b), (ymut k b). rewrite coef_cols2 by auto. rewrite (proj2 (Nat.eqb_neq _ _)); auto. subst j.
             unfold other, b1, b2. destruct (Nat.eqb_spec (r_1 (s_br b)) k); intuition congruence.
           - induction (map s_br (srs n)); cbn [map]; rewrite ?sumR_cons, ?IHl; auto; ring. }
      destruct (is_angle n (j, i)).
      + rewrite Rplus_0_l, Rplus_0_r. unfold near. apply near_sum.
        * intros b Hb Ha. apply at_bus_spec in Ha. destruct (W b Hb) as (Wb & _). unfold dP. rewrite (proj2 (Nat.eqb_eq k j)) by auto.
          unfold tQ. pick b k; rewrite ?vm_magn, ?va_angle; fold th v; try (exfalso; tauto); fin b k.
        * intros b Hb Ha. assert (N : ~ (r_1 (s_br b) = k \/ r_2 (s_br b) = k)) by (rewrite <- at_bus_spec; congruence).
          unfold dP. rewrite (proj2 (Nat.eqb_eq k j)) by auto. unfold tQ. pick b k; try (exfalso; tauto); ring.
      + rewrite Rplus_0_l. f_equal. unfold near. apply near_sum.
        * intros b Hb Ha. apply at_bus_spec in Ha. destruct (W b Hb) as (Wb & _). unfold dP. rewrite (proj2 (Nat.eqb_eq k j)) by auto.
          unfold uP. pick b k; rewrite ?vm_magn, ?va_angle; fold th v; try (exfalso; tauto); fin b k.
        * intros b Hb Ha. assert (N : ~ (r_1 (s_br b) = k \/ r_2 (s_br b) = k)) by (rewrite <- at_bus_spec; congruence).
          unfold dP. rewrite (proj2 (Nat.eqb_eq k j)) by auto. unfold uP. pick b k; try (exfalso; tauto); ring.
    - f_equal. unfold near. apply near_sum.
      + intros b Hb Ha. apply at_bus_spec in Ha. destruct (W b Hb) as (Wb & _). unfold dP. rewrite (proj2 (Nat.eqb_neq k j)) by auto.
        destruct (vth n k b) as [vo t] eqn:E1, (ymut k b) as [g y] eqn:E2. rewrite coef_cols2 by auto. unfold oP.
        pick b k; try (exfalso; tauto); inversion E1; inversion E2; subst vo t g y; rewrite ?vm_magn, ?va_angle; fold th v; cbn [andb];
        destruct (is_angle n (j, i)); cbn [Nat.eqb];
        match goal with |- context [(?a =? j)%nat] => destruct (Nat.eqb_spec a j) as [J | J]; [rewrite <- ?J |] end; fin b k.
      + intros b Hb Ha. assert (N : ~ (r_1 (s_br b) = k \/ r_2 (s_br b) = k)) by (rewrite <- at_bus_spec; congruence).
        unfold dP. rewrite (proj2 (Nat.eqb_neq k j)) by auto. unfold oP. pick b k; try (exfalso; tauto); cbn [andb]; ring.
  Qed.

  Lemma qi_coef : forall j i, unknown n j i ->
    coef (qi_row n k) (j, i) = sumR (map (dQ (is_angle n (j, i)) th v k j) (prs (el n))) -
      (if (k =? j)%nat then if is_angle n (j, i) then 0 else 2 * v k * p_B (getb (el n) k) else 0).
  Proof.
    intros j i U. unfold qi_row. rewrite filter_live, coef_app, coef_flat, coef_cols2 by auto.
    rewrite !vm_magn, <- getb_el. fold v.
    destruct (Nat.eqb_spec k j) as [E | Ne].
    - replace (sumR (map _ (near n k))) with 0.
      2: { symmetry. transitivity (sumR (map (fun _ : pbr => 0) (map s_br (srs n)))).
           - unfold near. apply near_sum; auto. intros b Hb Ha. apply at_bus_spec in Ha. destruct (W b Hb) as (Wb & _).
             destruct (vth n k b), (ymut k b). rewrite coef_cols2 by auto. rewrite (proj2 (Nat.eqb_neq _ _)); auto. subst j.
             unfold other, b1, b2. destruct (Nat.eqb_spec (r_1 (s_br b)) k); intuition congruence.
           - induction (map s_br (srs n)); cbn [map]; rewrite ?sumR_cons, ?IHl; auto; ring. }
      destruct (is_angle n (j, i)).
      + rewrite Rplus_0_l, Rminus_0_r. unfold near. apply near_sum.
        * intros b Hb Ha. apply at_bus_spec in Ha. destruct (W b Hb) as (Wb & _). unfold dQ. rewrite (proj2 (Nat.eqb_eq k j)) by auto.
          unfold tP. pick b k; rewrite ?vm_magn, ?va_angle; fold th v; try (exfalso; tauto); fin b k.
        * intros b Hb Ha. assert (N : ~ (r_1 (s_br b) = k \/ r_2 (s_br b) = k)) by (rewrite <- at_bus_spec; congruence).
          unfold dQ. rewrite (proj2 (Nat.eqb_eq k j)) by auto. unfold tP. pick b k; try (exfalso; tauto); ring.
      + rewrite Rplus_0_l. f_equal. unfold near. apply near_sum.
        * intros b Hb Ha. apply at_bus_spec in Ha. destruct (W b Hb) as (Wb & _). unfold dQ. rewrite (proj2 (Nat.eqb_eq k j)) by auto.
          unfold uQ. pick b k; rewrite ?vm_magn, ?va_angle; fold th v; try (exfalso; tauto); fin b k.
        * intros b Hb Ha. assert (N : ~ (r_1 (s_br b) = k \/ r_2 (s_br b) = k)) by (rewrite <- at_bus_spec; congruence).
          unfold dQ. rewrite (proj2 (Nat.eqb_eq k j)) by auto. unfold uQ. pick b k; try (exfalso; tauto); ring.
    - unfold Rminus. rewrite Ropp_0. f_equal. unfold near. apply near_sum.
      + intros b Hb Ha. apply at_bus_spec in Ha. destruct (W b Hb) as (Wb & _). unfold dQ. rewrite (proj2 (Nat.eqb_neq k j)) by auto.
        destruct (vth n k b) as [vo t] eqn:E1, (ymut k b) as [g y] eqn:E2. rewrite coef_cols2 by auto. unfold oQ.
        pick b k; try (exfalso; tauto); inversion E1; inversion E2; subst vo t g y; rewrite ?vm_magn, ?va_angle; fold th v; cbn [andb];
        destruct (is_angle n (j, i)); cbn [Nat.eqb];
        match goal with |- context [(?a =? j)%nat] => destruct (Nat.eqb_spec a j) as [J | J]; [rewrite <- ?J |] end; fin b k.
      + intros b Hb Ha. assert (N : ~ (r_1 (s_br b) = k \/ r_2 (s_br b) = k)) by (rewrite <- at_bus_spec; congruence).
        unfold dQ. rewrite (proj2 (Nat.eqb_neq k j)) by auto. unfold oQ. pick b k; try (exfalso; tauto); cbn [andb]; ring.
  Qed.

  (** the residual sums *)
  Lemma inj_sum_ok : forall q l st acc, (forall b, In b l -> live n b = true) -> exists st',
    inj_sum q n k l st acc = Ok (acc + sumR (map (fun b => let '(v, t) := vth n k b in let '(g, y) := ymut k b in
      if q : bool then v * (g * sin t - y * cos t) else v * (g * cos t + y * sin t)) l), st').
  Proof.
    intros q l; induction l as [| b l IH]; intros st acc H.
    - exists st. cbn. f_equal. f_equal. ring.
    - cbn [inj_sum map]. rewrite H by (left; auto). destruct (vth n k b) as [vo t], (ymut k b) as [g y]. rewrite sumR_cons.
      destruct (IH (Some (vo, t)) (acc + (if q then vo * (g * sin t - y * cos t) else vo * (g * cos t + y * sin t)))) as (st' & E); [intros; apply H; right; auto |].
      exists st'. rewrite E. f_equal. f_equal. ring.
  Qed.
  Lemma near_u : sumR (map (fun b => let '(v, t) := vth n k b in let '(g, y) := ymut k b in v * (g * cos t + y * sin t)) (near n k)) = sumR (map (uP th v k) (prs (el n))) /\
                 sumR (map (fun b => let '(v, t) := vth n k b in let '(g, y) := ymut k b in v * (g * sin t - y * cos t)) (near n k)) = sumR (map (uQ th v k) (prs (el n))).
  Proof.
    split; unfold near; apply near_sum.
    - intros b Hb Ha. apply at_bus_spec in Ha. destruct (W b Hb) as (Wb & _). unfold uP. pick b k; rewrite ?vm_magn, ?va_angle; fold th v; try (exfalso; tauto); fin b k.
    - intros b Hb Ha. assert (N : ~ (r_1 (s_br b) = k \/ r_2 (s_br b) = k)) by (rewrite <- at_bus_spec; congruence). unfold uP. pick b k; try (exfalso; tauto); ring.
    - intros b Hb Ha. apply at_bus_spec in Ha. destruct (W b Hb) as (Wb & _). unfold uQ. pick b k; rewrite ?vm_magn, ?va_angle; fold th v; try (exfalso; tauto); fin b k.
    - intros b Hb Ha. assert (N : ~ (r_1 (s_br b) = k \/ r_2 (s_br b) = k)) by (rewrite <- at_bus_spec; congruence). unfold uQ. pick b k; try (exfalso; tauto); ring.
  Qed.
  Lemma u_t : forall l, sumR (map (tP th v k) l) = v k * sumR (map (uP th v k) l) /\ sumR (map (tQ th v k) l) = v k * sumR (map (uQ th v k) l).
  Proof.
    induction l as [| b l [I1 I2]]; cbn [map]; rewrite ?sumR_cons; [cbn; split; ring |]. rewrite I1, I2. unfold tP, uP, tQ, uQ.
    split; destruct (r_1 b =? k)%nat; destruct (r_2 b =? k)%nat; ring.
  Qed.

  Lemma bus_res_ok : forall ms st, (forall m, In m ms -> bus_type (m_type m)) ->
    bus_res n k ms st = Ok (map (fun m => m_val m - at_node n k (m_type m) (now n)) ms).
  Proof.
    induction ms as [| m ms IH]; intros st H; auto.
    assert (Ht : bus_type (m_type m)) by (apply H; left; auto).
    assert (H' : forall m, In m ms -> bus_type (m_type m)) by (intros; apply H; right; auto).
    destruct (power_split (el n) (angle (el n)) (magn (el n)) k) as [PS1 PS2].
    destruct near_u as [N1 N2]. destruct (u_t (prs (el n))) as [U1 U2].
    cbn [bus_res map]. destruct (m_type m); try (exfalso; unfold bus_type in Ht; intuition discriminate); cbn [at_node now fst snd].
    - rewrite (IH st) by auto. cbn [obind]. rewrite vm_magn; auto.
    - rewrite (IH st) by auto. cbn [obind]. rewrite va_angle; auto.
    - destruct (@inj_sum_ok false (near n k) st 0 near_live) as (st' & E). rewrite E. cbn [obind snd fst]. rewrite (IH st') by auto. cbn [obind].
      rewrite PS1, N1. fold th v. rewrite U1, vm_magn, <- getb_el. fold v. f_equal. f_equal. ring.
    - destruct (@inj_sum_ok true (near n k) st 0 near_live) as (st' & E). rewrite E. cbn [obind snd fst]. rewrite (IH st') by auto. cbn [obind].
      rewrite PS2, N2. fold th v. rewrite U2, vm_magn, <- getb_el. fold v. f_equal. f_equal. ring.
  Qed.

  Lemma bus_row_ok : forall m j i, bus_type (m_type m) -> unknown n j i -> deriv n (at_node n k (m_type m)) (j, i) (coef (bus_row n k m) (j, i)).
  Proof.
    intros m j i Ht U. unfold bus_row. destruct (pi_deriv k (j, i) W) as [P1 P2]. cbn [fst] in *.
    destruct (m_type m); try (exfalso; unfold bus_type in Ht; intuition discriminate).
    - rewrite coef_cols2 by auto. unfold deriv, at_node, moved, value. cbn [fst]. destruct (is_angle n (j, i)); cbn [fst snd].
      + destruct (k =? j)%nat; apply (is_derive_const (K := R_AbsRing) (V := R_NormedModule)).
      + unfold bump. destruct (Nat.eqb_spec k j) as [<- | Ne]; [apply (is_derive_id (K := R_AbsRing)) | apply (is_derive_const (K := R_AbsRing) (V := R_NormedModule))].
    - rewrite coef_cols2 by auto. unfold deriv, at_node, moved, value. cbn [fst]. destruct (is_angle n (j, i)); cbn [fst snd].
      + unfold bump. destruct (Nat.eqb_spec k j) as [<- | Ne]; [apply (is_derive_id (K := R_AbsRing)) | apply (is_derive_const (K := R_AbsRing) (V := R_NormedModule))].
      + destruct (k =? j)%nat; apply (is_derive_const (K := R_AbsRing) (V := R_NormedModule)).
    - rewrite pi_coef by auto. exact P1.
    - rewrite qi_coef by auto. exact P2.
  Qed.
End Rows.

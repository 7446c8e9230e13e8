(** Proofs for PfProps.v. *)
From Verif Require Import Prelude PfModel PfSpec.
From Coq Require Import Reals Lra.
From Coquelicot Require Import Complex Derive AutoDerive Hierarchy.
Open Scope R_scope.

Lemma sumR_cons : forall x l, sumR (x :: l) = x + sumR l.
Proof. reflexivity. Qed.

(** ** The equations as sums over the branches *)
Definition tP (th v : nat -> R) (k : nat) (b : pbr) : R :=
  (if (r_1 b =? k)%nat then v k * v (r_2 b) * (r_Gf b * cos (th k - th (r_2 b)) + r_Bf b * sin (th k - th (r_2 b))) else 0) +
  (if (r_2 b =? k)%nat then v k * v (r_1 b) * (r_Gr b * cos (th k - th (r_1 b)) + r_Br b * sin (th k - th (r_1 b))) else 0).
Definition tQ (th v : nat -> R) (k : nat) (b : pbr) : R :=
  (if (r_1 b =? k)%nat then v k * v (r_2 b) * (r_Gf b * sin (th k - th (r_2 b)) - r_Bf b * cos (th k - th (r_2 b))) else 0) +
  (if (r_2 b =? k)%nat then v k * v (r_1 b) * (r_Gr b * sin (th k - th (r_1 b)) - r_Br b * cos (th k - th (r_1 b))) else 0).

Lemma power_split : forall n th v k,
  Re (power n th v k) = sumR (map (tP th v k) (prs n)) + v k * v k * p_G (getb n k) /\
  Im (power n th v k) = sumR (map (tQ th v k) (prs n)) - v k * v k * p_B (getb n k).
Proof.
  intros n th v k. unfold power, current.
  set (V := fun i => phasor (v i) (th i)). set (W := V k).
  set (f := fun b : pbr => Cplus (if (r_1 b =? k)%nat then Cmult (r_Gf b, r_Bf b) (V (r_2 b)) else RtoC 0) (if (r_2 b =? k)%nat then Cmult (r_Gr b, r_Br b) (V (r_1 b)) else RtoC 0)).
  assert (S : forall l, Re (Cmult W (Cconj (fold_right Cplus (RtoC 0) (map f l)))) = sumR (map (tP th v k) l) /\
                        Im (Cmult W (Cconj (fold_right Cplus (RtoC 0) (map f l)))) = sumR (map (tQ th v k) l)).
  { assert (F : forall b, Re (Cmult W (Cconj (f b))) = tP th v k b /\ Im (Cmult W (Cconj (f b))) = tQ th v k b).
    { intro b; unfold f, tP, tQ, W, V, phasor. rewrite !cos_minus, !sin_minus.
      destruct (r_1 b =? k)%nat; destruct (r_2 b =? k)%nat; unfold Re, Im; cbn; split; ring. }
    induction l as [| b l [IH1 IH2]]; cbn [map fold_right sumR].
    - unfold Re, Im; cbn; split; ring.
    - destruct (F b) as [F1 F2]. fold (sumR (map (tP th v k) l)). fold (sumR (map (tQ th v k) l)).
      rewrite <- F1, <- F2, <- IH1, <- IH2. unfold Re, Im; cbn. split; ring. }
  match goal with |- context [fold_right Cplus (RtoC 0) (map ?g (prs n))] => change g with f end.
  destruct (S (prs n)) as [S1 S2]. rewrite <- S1, <- S2.
  assert (Q1 : cos (th k) * cos (th k) + sin (th k) * sin (th k) = 1).
  { pose proof (sin2_cos2 (th k)); unfold Rsqr in *; lra. }
  clear S S1 S2. set (s := fold_right Cplus (RtoC 0) (map f (prs n))). clearbody s. unfold W, V, phasor. clear - Q1.
  unfold Re, Im; cbn. split.
  - transitivity (v k * v k * p_G (getb n k) * (cos (th k) * cos (th k) + sin (th k) * sin (th k)) + (v k * cos (th k) * fst s - v k * sin (th k) * - snd s)); [ring | rewrite Q1; ring].
  - transitivity (- (v k * v k * p_B (getb n k) * (cos (th k) * cos (th k) + sin (th k) * sin (th k))) + (v k * cos (th k) * - snd s + v k * sin (th k) * fst s)); [ring | rewrite Q1; ring].
Qed.

(** ** The evaluation of the right hand side *)
Definition injP (n : pnet) (k : nat) : R :=
  sumR (map (fun b => fst (getPQ n b k)) (filter (at_bus k) (prs n))) + p_v (getb n k) * p_v (getb n k) * p_G (getb n k).
Definition injQ (n : pnet) (k : nat) : R :=
  sumR (map (fun b => snd (getPQ n b k)) (filter (at_bus k) (prs n))) + p_v (getb n k) * p_v (getb n k) * (- p_B (getb n k)).

Lemma inj_terms : forall n k, (forall b, In b (prs n) -> r_1 b <> r_2 b) ->
  sumR (map (fun b => fst (getPQ n b k)) (filter (at_bus k) (prs n))) = sumR (map (tP (angle n) (magn n) k) (prs n)) /\
  sumR (map (fun b => snd (getPQ n b k)) (filter (at_bus k) (prs n))) = sumR (map (tQ (angle n) (magn n) k) (prs n)).
Proof.
  intros n k H. induction (prs n) as [| b l IH]; cbn [filter map]; auto.
  destruct (IH (fun c Hc => H c (or_intror Hc))) as [I1 I2]. specialize (H b (or_introl eq_refl)).
  assert (A : at_bus k b = (r_1 b =? k)%nat || (r_2 b =? k)%nat) by (unfold at_bus; rewrite (Nat.eqb_sym k (r_1 b)), (Nat.eqb_sym k (r_2 b)); auto).
  rewrite A, !sumR_cons.
  assert (T1 : tP (angle n) (magn n) k b = _) by (unfold tP; reflexivity). assert (T2 : tQ (angle n) (magn n) k b = _) by (unfold tQ; reflexivity).
  rewrite T1, T2; clear T1 T2.
  destruct (Nat.eqb_spec (r_1 b) k) as [K1 | K1]; destruct (Nat.eqb_spec (r_2 b) k) as [K2 | K2]; cbn [orb map]; rewrite ?sumR_cons.
  - congruence.
  - rewrite I1, I2. unfold getPQ, theta_now. rewrite (proj2 (Nat.eqb_eq k (r_1 b))) by auto. rewrite K1. cbn [fst snd]. unfold angle, magn. split; ring.
  - rewrite I1, I2. unfold getPQ, theta_now. rewrite (proj2 (Nat.eqb_neq k (r_1 b))) by auto. rewrite K2. cbn [fst snd]. unfold angle, magn.
    replace (- (p_a (getb n (r_1 b)) - p_a (getb n k))) with (p_a (getb n k) - p_a (getb n (r_1 b))) by ring. split; ring.
  - rewrite I1, I2. split; ring.
Qed.

Definition same_bus (u u' : pbus) : Prop :=
  p_iso u = p_iso u' /\ p_ref u = p_ref u' /\ p_pv u = p_pv u' /\ p_G u = p_G u' /\ p_B u = p_B u' /\ p_v u = p_v u' /\ p_a u = p_a u' /\ p_P0 u = p_P0 u' /\ p_Q0 u = p_Q0 u'.
Definition same (n n' : pnet) : Prop :=
  length (pbs n) = length (pbs n') /\ (forall k, same_bus (getb n k) (getb n' k)) /\ Forall2 (fun b b' => b' = set_th b (r_th b')) (prs n) (prs n').

Lemma set_th_id : forall b, b = set_th b (r_th b). Proof. destruct b; reflexivity. Qed.
Lemma same_refl : forall n, same n n.
Proof.
  intro n; split; [auto | split; [intro; unfold same_bus; tauto |]]. induction (prs n); constructor; auto using set_th_id.
Qed.
Lemma getPQ_same : forall n n' b b' k, same n n' -> b' = set_th b (r_th b') -> getPQ n' b' k = getPQ n b k.
Proof.
  intros n n' b b' k (_ & H & _) E. rewrite E. unfold getPQ, theta_now. cbn [r_1 r_2 r_Gf r_Bf r_Gr r_Br set_th].
  destruct (H (r_1 b)) as (_ & _ & _ & _ & _ & H1 & H2 & _). destruct (H (r_2 b)) as (_ & _ & _ & _ & _ & H3 & H4 & _).
  rewrite <- H1, <- H2, <- H3, <- H4. reflexivity.
Qed.
Lemma inj_same : forall n n' k, same n n' -> injP n' k = injP n k /\ injQ n' k = injQ n k.
Proof.
  intros n n' k H; pose proof H as H0; destruct H as (_ & Hb & HF). unfold injP, injQ.
  destruct (Hb k) as (_ & _ & _ & H1 & H2 & H3 & _). rewrite H1, H2, H3.
  assert (G : map (fun b => fst (getPQ n' b k)) (filter (at_bus k) (prs n')) = map (fun b => fst (getPQ n b k)) (filter (at_bus k) (prs n)) /\
              map (fun b => snd (getPQ n' b k)) (filter (at_bus k) (prs n')) = map (fun b => snd (getPQ n b k)) (filter (at_bus k) (prs n))).
  { induction HF as [| b b' l l' E HF IH]; cbn [filter map]; auto. destruct IH as [I1 I2].
    assert (A : at_bus k b' = at_bus k b) by (rewrite E; reflexivity). rewrite A.
    destruct (at_bus k b); cbn [map]; auto. rewrite I1, I2, (getPQ_same k H0 E). auto. }
  destruct G as [-> ->]; auto.
Qed.
Lemma solved_same : forall n n' k, same n n' -> solved n k -> solved n' k.
Proof. intros n n' k (H1 & H2 & _) (S1 & S2 & S3). destruct (H2 k) as (E1 & E2 & _). unfold solved. rewrite <- H1, <- E1, <- E2. auto. Qed.

Lemma nth_upd : forall A (l : list A) i j x d, (i < length l)%nat -> nth j (upd l i x) d = if (j =? i)%nat then x else nth j l d.
Proof.
  induction l as [| y l IH]; intros [| i] [| j] x d H; cbn in *; try lia; auto. apply IH; lia.
Qed.
Lemma same_trans : forall n m k, same n m -> same m k -> same n k.
Proof.
  intros n m k (A1 & A2 & A3) (B1 & B2 & B3). split; [congruence | split].
  - intro i. destruct (A2 i) as (? & ? & ? & ? & ? & ? & ? & ? & ?), (B2 i) as (? & ? & ? & ? & ? & ? & ? & ? & ?). unfold same_bus. intuition congruence.
  - clear - A3 B3. revert B3; generalize (prs k); induction A3 as [| b b' l l' E A3 IH]; intros l3 B3; inversion B3; subst; constructor; auto.
    rewrite H1 at 1. rewrite E. destruct b; reflexivity.
Qed.

Lemma th_map : forall n k l, Forall2 (fun b b' => b' = set_th b (r_th b')) l (map (fun b => if at_bus k b then set_th b (theta_now n b) else b) l).
Proof. induction l as [| b l IH]; cbn; constructor; auto. destruct (at_bus k b); [reflexivity | apply set_th_id]. Qed.
Lemma rhs_step : forall n k, same n (snd (rhs_bus n k)) /\
  (solved n k -> p_Pi (getb (snd (rhs_bus n k)) k) = injP n k /\ p_Qi (getb (snd (rhs_bus n k)) k) = injQ n k) /\
  (forall j, j <> k -> getb (snd (rhs_bus n k)) j = getb n j) /\
  (forall b, In b (prs (snd (rhs_bus n k))) -> exists b0, In b0 (prs n) /\ b = set_th b0 (r_th b) /\
     (r_th b = r_th b0 \/ r_th b = theta_now n b0) /\ (solved n k -> at_bus k b0 = true -> r_th b = theta_now n b0)).
Proof.
  intros n k.
  destruct (lt_dec k (length (pbs n))) as [L | L].
  2: { assert (U : forall x, upd (pbs n) k x = pbs n).
       { intro x. revert L. generalize k. induction (pbs n) as [| u l IH]; intros [| i] L; cbn in *; auto; try lia. rewrite IH; auto; lia. }
       split; [| split; [| split]].
       - unfold rhs_bus. destruct (p_iso (getb n k)); [apply same_refl |]. destruct (p_ref (getb n k)); [apply same_refl |]. cbn [snd].
         split; [cbn; rewrite upd_length; auto | split].
         + intro i. unfold getb; cbn [pbs]. rewrite U. unfold same_bus; tauto.
         + apply th_map.
       - intros (S & _); lia.
       - intros j Hj. unfold rhs_bus. destruct (p_iso (getb n k)); auto. destruct (p_ref (getb n k)); auto. unfold getb; cbn. rewrite U; auto.
       - intros b Hb. unfold rhs_bus in Hb. destruct (p_iso (getb n k)) eqn:E1; [| destruct (p_ref (getb n k)) eqn:E2].
         + exists b; split; [auto | split; [apply set_th_id | split; [auto | intros (S & _); lia]]].
         + exists b; split; [auto | split; [apply set_th_id | split; [auto | intros (S & _); lia]]].
         + cbn in Hb. apply in_map_iff in Hb as (b0 & <- & Hb0). exists b0. destruct (at_bus k b0); split; auto; (split; [reflexivity || apply set_th_id | split; [auto | intros (S & _); lia]]). }
  unfold rhs_bus. destruct (p_iso (getb n k)) eqn:E1; [| destruct (p_ref (getb n k)) eqn:E2]; cbn [snd].
  - split; [apply same_refl | split; [intros (_ & S & _); congruence | split; [auto |]]].
    intros b Hb; exists b; split; [auto | split; [apply set_th_id | split; [auto | intros (_ & S & _); congruence]]].
  - split; [apply same_refl | split; [intros (_ & _ & S); congruence | split; [auto |]]].
    intros b Hb; exists b; split; [auto | split; [apply set_th_id | split; [auto | intros (_ & _ & S); congruence]]].
  - split; [split; [| split] | split; [| split]].
    + cbn; rewrite upd_length; auto.
    + intro i. unfold getb at 2; cbn [pbs]. rewrite nth_upd by auto. destruct (Nat.eqb_spec i k) as [-> | Ne]; unfold same_bus; cbn; tauto.
    + apply th_map.
    + intros _. match goal with |- p_Pi (getb ?m k) = _ /\ _ => assert (G : getb m k = set_inj (getb n k) (injP n k) (injQ n k)) end.
      { unfold getb at 1; cbn [pbs]. rewrite nth_upd by auto. rewrite Nat.eqb_refl. reflexivity. }
      rewrite G. split; reflexivity.
    + intros j Hj. unfold getb at 1; cbn [pbs]. rewrite nth_upd by auto. rewrite (proj2 (Nat.eqb_neq j k)) by auto. reflexivity.
    + intros b Hb. cbn in Hb. apply in_map_iff in Hb as (b0 & <- & Hb0). exists b0. split; auto. destruct (at_bus k b0); cbn; split; auto using set_th_id.
      split; auto. discriminate.
Qed.

Definition Inv (n0 : pnet) (done : list nat) (n : pnet) : Prop :=
  same n0 n /\
  (forall k, In k done -> solved n0 k -> p_Pi (getb n k) = injP n0 k /\ p_Qi (getb n k) = injQ n0 k) /\
  (forall b, In b (prs n) -> forall k, In k done -> solved n0 k -> at_bus k b = true -> r_th b = theta_now n0 b).
Lemma theta_same : forall n n' b b', same n n' -> r_1 b' = r_1 b -> r_2 b' = r_2 b -> theta_now n' b' = theta_now n b.
Proof.
  intros n n' b b' (_ & H & _) E1 E2. unfold theta_now. rewrite E1, E2.
  destruct (H (r_1 b)) as (_ & _ & _ & _ & _ & _ & H1 & _), (H (r_2 b)) as (_ & _ & _ & _ & _ & _ & H2 & _). congruence.
Qed.
Lemma same_sym : forall n m, same n m -> same m n.
Proof.
  intros n m (A1 & A2 & A3). split; [auto | split].
  - intro i. destruct (A2 i) as (? & ? & ? & ? & ? & ? & ? & ? & ?). unfold same_bus. auto 12.
  - clear - A3. induction A3; constructor; auto. rewrite H. destruct x; reflexivity.
Qed.
Lemma inv_step : forall n0 done n k, Inv n0 done n -> Inv n0 (k :: done) (snd (rhs_bus n k)).
Proof.
  intros n0 done n k (I1 & I2 & I3). destruct (rhs_step n k) as (R1 & R2 & R3 & R4).
  split; [eapply same_trans; eauto | split].
  - intros j Hj Sj. pose proof (@solved_same n0 n j I1 Sj) as Sj'.
    destruct (Nat.eq_dec j k) as [-> | Ne].
    + destruct (R2 Sj') as [-> ->]. apply inj_same; auto.
    + rewrite (R3 j Ne). apply I2; auto. destruct Hj; congruence.
  - intros b Hb j Hj Sj Aj. destruct (R4 b Hb) as (b0 & B0 & B1 & B2 & B3).
    assert (E1 : r_1 b = r_1 b0) by (rewrite B1; reflexivity). assert (E2 : r_2 b = r_2 b0) by (rewrite B1; reflexivity).
    assert (Aj0 : at_bus j b0 = true) by (unfold at_bus in *; congruence).
    rewrite <- (@theta_same n0 n b b0 I1) by auto.
    destruct (Nat.eq_dec j k) as [-> | Ne].
    + apply B3; auto. eapply solved_same; eauto.
    + destruct B2 as [B2 | B2]; auto. rewrite B2.
      destruct Hj as [Hj | Hj]; [congruence |]. rewrite (I3 b0 B0 j Hj Sj Aj0).
      symmetry; apply theta_same; auto.
Qed.
Lemma inv_fold : forall ks n0 done n, Inv n0 done n -> exists d, (forall k, In k ks \/ In k done -> In k d) /\ Inv n0 d (fold_left (fun n k => snd (rhs_bus n k)) ks n).
Proof.
  induction ks as [| k ks IH]; intros n0 done n H; cbn [fold_left].
  - exists done; split; auto. intros j [[] | Hj]; auto.
  - destruct (IH n0 (k :: done) _ (inv_step k H)) as (d & D1 & D2). exists d; split; auto.
    intros j [[-> | Hj] | Hj]; apply D1; cbn; auto.
Qed.
Lemma rhs_all_inv : forall n, same n (rhs_all n) /\
  (forall k, solved n k -> p_Pi (getb (rhs_all n) k) = injP n k /\ p_Qi (getb (rhs_all n) k) = injQ n k) /\
  (forall b k, In b (prs (rhs_all n)) -> solved n k -> at_bus k b = true -> r_th b = theta_now n b).
Proof.
  intro n. assert (H0 : Inv n [] n) by (split; [apply same_refl | split; [intros k [] | intros b _ k []]]).
  destruct (inv_fold (Prelude.iota (length (pbs n))) H0) as (d & D1 & D2 & D3 & D4).
  assert (D : forall k, solved n k -> In k d) by (intros k (S & _); apply D1; left; apply in_iota; auto).
  split; auto. split; [intros; apply D3; auto | intros; eapply D4; eauto].
Qed.

(** ** Derivatives *)
Lemma is_derive_sum : forall (l : list pbr) (f : pbr -> R -> R) (d : pbr -> R) x,
  (forall b, In b l -> is_derive (f b) x (d b)) -> is_derive (fun y => sumR (map (fun b => f b y) l)) x (sumR (map d l)).
Proof.
  induction l as [| b l IH]; intros f d x H; cbn [map sumR fold_right].
  - apply (is_derive_const (K := R_AbsRing) (V := R_NormedModule) 0 x).
  - apply (is_derive_plus (K := R_AbsRing) (V := R_NormedModule) (f b) (fun y => sumR (map (fun b => f b y) l))); [apply H; left; auto | apply IH; intros; apply H; right; auto].
Qed.

(** The derivative of the terms of one branch with respect to the angle or magnitude of another bus *)
Definition oP (d : nat) (th v : nat -> R) (k m : nat) (b : pbr) : R :=
  (if (r_1 b =? k)%nat && (r_2 b =? m)%nat then
     if (d =? 0)%nat then (r_Gf b * sin (th k - th m) - r_Bf b * cos (th k - th m)) * (v k * v m) else (r_Gf b * cos (th k - th m) + r_Bf b * sin (th k - th m)) * v k else 0) +
  (if (r_2 b =? k)%nat && (r_1 b =? m)%nat then
     if (d =? 0)%nat then (r_Gr b * sin (th k - th m) - r_Br b * cos (th k - th m)) * (v k * v m) else (r_Gr b * cos (th k - th m) + r_Br b * sin (th k - th m)) * v k else 0).
Definition oQ (d : nat) (th v : nat -> R) (k m : nat) (b : pbr) : R :=
  (if (r_1 b =? k)%nat && (r_2 b =? m)%nat then
     if (d =? 0)%nat then (r_Gf b * cos (th k - th m) + r_Bf b * sin (th k - th m)) * - (v k * v m) else (r_Gf b * sin (th k - th m) - r_Bf b * cos (th k - th m)) * v k else 0) +
  (if (r_2 b =? k)%nat && (r_1 b =? m)%nat then
     if (d =? 0)%nat then (r_Gr b * cos (th k - th m) + r_Br b * sin (th k - th m)) * - (v k * v m) else (r_Gr b * sin (th k - th m) - r_Br b * cos (th k - th m)) * v k else 0).

Ltac eqbs := repeat match goal with |- context [(?a =? ?b)%nat] =>
  first [rewrite (Nat.eqb_refl a) | destruct (Nat.eqb_spec a b); [try (exfalso; congruence) | try (exfalso; congruence)]] end.
Ltac dtac := auto_derive; auto; unfold Rminus; try ring.
Lemma off_theta : forall th v k m b, r_1 b <> r_2 b -> k <> m ->
  is_derive (fun x => tP (bump th m x) v k b) (th m) (oP 0 th v k m b) /\ is_derive (fun x => tQ (bump th m x) v k b) (th m) (oQ 0 th v k m b).
Proof.
  intros th v k m b Hb Hk. unfold tP, tQ, oP, oQ, bump. cbn [Nat.eqb]. rewrite (proj2 (Nat.eqb_neq k m)) by auto.
  destruct (Nat.eqb_spec (r_1 b) k); destruct (Nat.eqb_spec (r_2 b) k); destruct (Nat.eqb_spec (r_1 b) m); destruct (Nat.eqb_spec (r_2 b) m);
    try (exfalso; congruence); subst; cbn [andb]; split; dtac.
Qed.
Lemma off_v : forall th v k m b, r_1 b <> r_2 b -> k <> m ->
  is_derive (fun x => tP th (bump v m x) k b) (v m) (oP 1 th v k m b) /\ is_derive (fun x => tQ th (bump v m x) k b) (v m) (oQ 1 th v k m b).
Proof.
  intros th v k m b Hb Hk. unfold tP, tQ, oP, oQ, bump. cbn [Nat.eqb]. rewrite (proj2 (Nat.eqb_neq k m)) by auto.
  destruct (Nat.eqb_spec (r_1 b) k); destruct (Nat.eqb_spec (r_2 b) k); destruct (Nat.eqb_spec (r_1 b) m); destruct (Nat.eqb_spec (r_2 b) m);
    try (exfalso; congruence); subst; cbn [andb]; split; dtac.
Qed.
Lemma own_theta : forall th v k b, r_1 b <> r_2 b ->
  is_derive (fun x => tP (bump th k x) v k b) (th k) (- tQ th v k b) /\ is_derive (fun x => tQ (bump th k x) v k b) (th k) (tP th v k b).
Proof.
  intros th v k b Hb. unfold tP, tQ, bump. rewrite Nat.eqb_refl.
  destruct (Nat.eqb_spec (r_1 b) k); destruct (Nat.eqb_spec (r_2 b) k); try (exfalso; congruence); split; dtac.
Qed.
Lemma own_v : forall th v k b, r_1 b <> r_2 b -> v k <> 0 ->
  is_derive (fun x => tP th (bump v k x) k b) (v k) (tP th v k b / v k) /\ is_derive (fun x => tQ th (bump v k x) k b) (v k) (tQ th v k b / v k).
Proof.
  intros th v k b Hb Hv. unfold tP, tQ, bump. rewrite Nat.eqb_refl.
  destruct (Nat.eqb_spec (r_1 b) k); destruct (Nat.eqb_spec (r_2 b) k); try (exfalso; congruence); split; auto_derive; auto; unfold Rminus; field; auto.
Qed.

(** ** The blocks *)
Definition off (c d : nat) (th v : nat -> R) (k m : nat) (b : pbr) : R := if (c =? 0)%nat then oP d th v k m b else oQ d th v k m b.
Lemma unknowns_same : forall n n' k, same n n' -> unknowns n' k = unknowns n k.
Proof. intros n n' k (_ & H & _). destruct (H k) as (_ & _ & E & _). unfold unknowns; rewrite E; auto. Qed.

Lemma block_off : forall n n' b b' k m c d, wf_net n -> inactive_zero n -> same n n' -> In b (prs n) -> b' = set_th b (r_th b') ->
  (at_bus k b = true -> r_th b' = theta_now n b) -> solved n k -> solved n m -> k <> m -> (c < unknowns n k)%nat -> (d < unknowns n m)%nat ->
  (if (r_1 b' =? k)%nat && (r_2 b' =? m)%nat then nth (d * unknowns n' k + c) (fwd_jac n' b') 0 else 0) +
  (if (r_2 b' =? k)%nat && (r_1 b' =? m)%nat then nth (d * unknowns n' k + c) (rev_jac n' b') 0 else 0) =
  off c d (angle n) (magn n) k m b.
Proof.
  intros n n' b b' k m c d W Z Sm Hb E Hth Sk Smm Hkm Hc Hd.
  rewrite (unknowns_same k Sm).
  destruct (W b Hb) as (Hne & L1 & L2).
  assert (E1 : r_1 b' = r_1 b) by (rewrite E; auto). assert (E2 : r_2 b' = r_2 b) by (rewrite E; auto).
  assert (E3 : r_act b' = r_act b) by (rewrite E; auto).
  assert (E4 : r_Gf b' = r_Gf b) by (rewrite E; auto). assert (E5 : r_Bf b' = r_Bf b) by (rewrite E; auto).
  assert (E6 : r_Gr b' = r_Gr b) by (rewrite E; auto). assert (E7 : r_Br b' = r_Br b) by (rewrite E; auto). clear E.
  destruct Sm as (_ & Sb & _).
  destruct Sk as (Lk & Ik & Rk), Smm as (Lm & Im_ & Rm).
  destruct (Sb k) as (Bk1 & Bk2 & Bk3 & _ & _ & Bk4 & Bk5 & _). destruct (Sb m) as (Bm1 & Bm2 & Bm3 & _ & _ & Bm4 & Bm5 & _).
  rewrite Ik in Bk1; rewrite Rk in Bk2; rewrite Im_ in Bm1; rewrite Rm in Bm2.
  specialize (Z b Hb).
  unfold off, oP, oQ, fwd_jac, rev_jac, br_ok. rewrite E1, E2, E3, E4, E5, E6, E7.
  unfold unknowns in *.
  destruct (Nat.eqb_spec (r_1 b) k) as [K1 | K1]; destruct (Nat.eqb_spec (r_2 b) k) as [K2 | K2];
  destruct (Nat.eqb_spec (r_1 b) m) as [M1 | M1]; destruct (Nat.eqb_spec (r_2 b) m) as [M2 | M2]; try (exfalso; congruence); cbn [andb];
  try (destruct (c =? 0)%nat; ring).
  - (* forward *)
    assert (T : r_th b' = angle n k - angle n m).
    { rewrite Hth by (unfold at_bus; rewrite K1, Nat.eqb_refl; auto). unfold theta_now, angle. congruence. }
    rewrite T, K1, M2. rewrite <- Bk1, <- Bk2, <- Bm1, <- Bm2, <- Bk3, <- Bm3, <- Bk4, <- Bm4. fold (magn n k) (magn n m). cbn [negb andb].
    destruct (r_act b).
    2: { destruct (Z eq_refl) as (-> & -> & _). destruct (d * _ + c)%nat; cbn [nth]; destruct (c =? 0)%nat; destruct (d =? 0)%nat; ring. }
    clear - Hc Hd.
    destruct (p_pv (getb n k)); destruct (p_pv (getb n m)); cbn [andb];
      (destruct c as [| [| c]]; try (exfalso; clear - Hc; lia));
      (destruct d as [| [| d]]; try (exfalso; clear - Hd; lia));
      cbn [nth Nat.eqb Nat.mul Nat.add]; ring.
  - (* reverse *)
    assert (T : - r_th b' = angle n k - angle n m).
    { rewrite Hth by (unfold at_bus; rewrite K2, Nat.eqb_refl; apply orb_true_r). unfold theta_now, angle. rewrite M1, K2. ring. }
    rewrite T, K2, M1. rewrite <- Bk1, <- Bk2, <- Bm1, <- Bm2, <- Bk3, <- Bm3, <- Bk4, <- Bm4. fold (magn n k) (magn n m). cbn [negb andb].
    destruct (r_act b).
    2: { destruct (Z eq_refl) as (_ & _ & -> & ->). destruct (d * _ + c)%nat; cbn [nth]; destruct (c =? 0)%nat; destruct (d =? 0)%nat; ring. }
    clear - Hc Hd.
    destruct (p_pv (getb n k)); destruct (p_pv (getb n m)); cbn [andb];
      (destruct c as [| [| c]]; try (exfalso; clear - Hc; lia));
      (destruct d as [| [| d]]; try (exfalso; clear - Hd; lia));
      cbn [nth Nat.eqb Nat.mul Nat.add]; ring.
Qed.

Lemma block_own : forall n n' b b' k c d, wf_net n -> same n n' -> In b (prs n) -> b' = set_th b (r_th b') ->
  (if (r_1 b' =? k)%nat && (r_2 b' =? k)%nat then nth (d * unknowns n' k + c) (fwd_jac n' b') 0 else 0) +
  (if (r_2 b' =? k)%nat && (r_1 b' =? k)%nat then nth (d * unknowns n' k + c) (rev_jac n' b') 0 else 0) = 0.
Proof.
  intros n n' b b' k c d W Sm Hb E. destruct (W b Hb) as (Hne & _).
  assert (E1 : r_1 b' = r_1 b) by (rewrite E; auto). assert (E2 : r_2 b' = r_2 b) by (rewrite E; auto). rewrite E1, E2.
  destruct (Nat.eqb_spec (r_1 b) k); destruct (Nat.eqb_spec (r_2 b) k); cbn [andb]; try congruence; ring.
Qed.

(** sums over the branches of the two networks *)
Lemma sum_same : forall l l' (f g : pbr -> R), Forall2 (fun b b' => b' = set_th b (r_th b')) l l' ->
  (forall b b', In b l -> In b' l' -> b' = set_th b (r_th b') -> f b' = g b) -> fold_right Rplus 0 (map f l') = sumR (map g l).
Proof.
  intros l l' f g H; induction H as [| b b' l l' E H IH]; intros Hf; cbn [map fold_right]; auto.
  rewrite sumR_cons, IH by (intros; apply Hf; cbn; auto). rewrite (Hf b b') by (cbn; auto). auto.
Qed.

Definition own (c d : nat) (n : pnet) (k : nat) : R :=
  let P := injP n k in let Q := injQ n k in let v := magn n k in let G := p_G (getb n k) in let B := p_B (getb n k) in
  match c, d with
  | O, O => - Q - B * v * v
  | S _, O => P - G * v * v
  | O, S _ => P / v + G * v
  | S _, S _ => Q / v - B * v
  end.

Lemma jac_value : forall n k m c d, wf_net n -> inactive_zero n -> solved n k -> solved n m -> (c < unknowns n k)%nat -> (d < unknowns n m)%nat ->
  jac (rhs_all n) k c m d = if (k =? m)%nat then own c d n k else sumR (map (off c d (angle n) (magn n) k m) (prs n)).
Proof.
  intros n k m c d W Z Sk Sm Hc Hd. destruct (rhs_all_inv n) as (S1 & S2 & S3). set (n' := rhs_all n) in *. unfold jac.
  destruct (Nat.eqb_spec k m) as [<- | Ne].
  - rewrite (@sum_same (prs n) (prs n') _ (fun _ => 0)).
    + assert (Z0 : sumR (map (fun _ : pbr => 0) (prs n)) = 0) by (clear; induction (prs n); cbn [map]; rewrite ?sumR_cons, ?IHl; auto; ring).
      rewrite Z0. destruct (S2 k Sk) as [P1 P2]. rewrite (unknowns_same k S1).
      unfold diag_jac, unknowns in *. destruct S1 as (_ & Sb & _).
      destruct (Sb k) as (B1 & B2 & B3 & B4 & B5 & B6 & _). destruct Sk as (_ & Ik & Rk).
      rewrite P1, P2, <- B1, <- B2, <- B3, <- B4, <- B5, <- B6, Ik, Rk. cbn [negb andb].
      unfold own, magn. destruct (p_pv (getb n k)); cbn [negb andb]; destruct c as [| [| c]]; try lia; destruct d as [| [| d]]; try lia; cbn [nth Nat.eqb Nat.mul Nat.add]; ring.
    + apply S1.
    + intros b b' Hb Hb' E. eapply block_own; eauto.
  - rewrite (@sum_same (prs n) (prs n') _ (off c d (angle n) (magn n) k m)); [ring | apply S1 |].
    intros b b' Hb Hb' E. apply block_off; auto.
    intro A. rewrite (S3 b' k Hb' Sk) by (rewrite E; exact A). rewrite E; reflexivity.
Qed.

Lemma mismatch_sum : forall n th v k c, mismatch n th v k c =
  if (c =? 0)%nat then sumR (map (tP th v k) (prs n)) + v k * v k * p_G (getb n k) - p_P0 (getb n k)
  else sumR (map (tQ th v k) (prs n)) - v k * v k * p_B (getb n k) - p_Q0 (getb n k).
Proof. intros n th v k c; unfold mismatch. destruct (power_split n th v k) as [-> ->]. reflexivity. Qed.

Lemma sum_opp : forall (f : pbr -> R) l, sumR (map (fun b => - f b) l) = - sumR (map f l).
Proof. induction l as [| b l IH]; cbn [map]; rewrite ?sumR_cons, ?IH; [cbn; ring | ring]. Qed.
Lemma sum_div : forall (f : pbr -> R) w l, sumR (map (fun b => f b / w) l) = sumR (map f l) / w.
Proof. induction l as [| b l IH]; cbn [map]; rewrite ?sumR_cons, ?IH; [unfold Rdiv; cbn; ring | unfold Rdiv; ring]. Qed.

Lemma derive_value : forall n k m c d, wf_net n -> (c < 2)%nat -> (d < 2)%nat -> (k = m -> d = 1%nat -> magn n k <> 0) ->
  is_derive (fun x => mismatch n (if (d =? 0)%nat then bump (angle n) m x else angle n) (if (d =? 0)%nat then magn n else bump (magn n) m x) k c)
    (if (d =? 0)%nat then angle n m else magn n m)
    (if (k =? m)%nat then own c d n k else sumR (map (off c d (angle n) (magn n) k m) (prs n))).
Proof.
  intros n k m c d W Hc Hd Hv.
  assert (Wb : forall b, In b (prs n) -> r_1 b <> r_2 b) by (intros b Hb; apply (W b Hb)).
  destruct (inj_terms n k Wb) as [I1 I2].
  apply (is_derive_ext (fun x => if (c =? 0)%nat then
      sumR (map (tP (if (d =? 0)%nat then bump (angle n) m x else angle n) (if (d =? 0)%nat then magn n else bump (magn n) m x) k) (prs n)) +
        (if (d =? 0)%nat then magn n else bump (magn n) m x) k * (if (d =? 0)%nat then magn n else bump (magn n) m x) k * p_G (getb n k) - p_P0 (getb n k)
    else sumR (map (tQ (if (d =? 0)%nat then bump (angle n) m x else angle n) (if (d =? 0)%nat then magn n else bump (magn n) m x) k) (prs n)) -
        (if (d =? 0)%nat then magn n else bump (magn n) m x) k * (if (d =? 0)%nat then magn n else bump (magn n) m x) k * p_B (getb n k) - p_Q0 (getb n k))).
  { intro x. symmetry. apply mismatch_sum. }
  assert (DP : forall (F : R -> R) (s : R -> R) x D E G0, is_derive F x D -> is_derive s x E -> is_derive (fun y => F y + s y - G0) x (D + E)).
  { intros F s x D E G0 H1 H2.
    replace (D + E) with (plus (plus D E) (opp 0)) by (cbn; unfold plus, opp; cbn; ring).
    apply (is_derive_minus (K := R_AbsRing) (V := R_NormedModule) (fun y => F y + s y) (fun _ => G0)).
    - apply (is_derive_plus (K := R_AbsRing) (V := R_NormedModule) F s); auto.
    - apply (is_derive_const (K := R_AbsRing) (V := R_NormedModule)). }
  assert (DM : forall (F : R -> R) (s : R -> R) x D E G0, is_derive F x D -> is_derive s x E -> is_derive (fun y => F y - s y - G0) x (D - E)).
  { intros F s x D E G0 H1 H2.
    replace (D - E) with (plus (minus D E) (opp 0)) by (cbn; unfold minus, plus, opp; cbn; ring).
    apply (is_derive_minus (K := R_AbsRing) (V := R_NormedModule) (fun y => F y - s y) (fun _ => G0)).
    - apply (is_derive_minus (K := R_AbsRing) (V := R_NormedModule) F s); auto.
    - apply (is_derive_const (K := R_AbsRing) (V := R_NormedModule)). }
  destruct d as [| [| d]]; [| | lia]; destruct c as [| [| c]]; try lia; cbn [Nat.eqb]; destruct (Nat.eqb_spec k m) as [<- | Ne].
  - replace (own 0 0 n k) with (sumR (map (fun b => - tQ (angle n) (magn n) k b) (prs n)) + 0).
    { apply DP; [apply (is_derive_sum (prs n) (fun b x => tP (bump (angle n) k x) (magn n) k b)); intros b Hb; apply own_theta; auto | apply (is_derive_const (K := R_AbsRing) (V := R_NormedModule))]. }
    rewrite sum_opp, <- I2. unfold own, injQ, magn. ring.
  - replace (sumR (map (off 0 0 (angle n) (magn n) k m) (prs n))) with (sumR (map (off 0 0 (angle n) (magn n) k m) (prs n)) + 0) by ring.
    apply DP; [apply (is_derive_sum (prs n) (fun b x => tP (bump (angle n) m x) (magn n) k b)); intros b Hb; apply off_theta; auto | apply (is_derive_const (K := R_AbsRing) (V := R_NormedModule))].
  - replace (own 1 0 n k) with (sumR (map (fun b => tP (angle n) (magn n) k b) (prs n)) - 0).
    { apply DM; [apply (is_derive_sum (prs n) (fun b x => tQ (bump (angle n) k x) (magn n) k b)); intros b Hb; apply own_theta; auto | apply (is_derive_const (K := R_AbsRing) (V := R_NormedModule))]. }
    change (map (fun b => tP (angle n) (magn n) k b) (prs n)) with (map (tP (angle n) (magn n) k) (prs n)).
    rewrite <- I1. unfold own, injP, magn. ring.
  - replace (sumR (map (off 1 0 (angle n) (magn n) k m) (prs n))) with (sumR (map (off 1 0 (angle n) (magn n) k m) (prs n)) - 0) by ring.
    apply DM; [apply (is_derive_sum (prs n) (fun b x => tQ (bump (angle n) m x) (magn n) k b)); intros b Hb; apply off_theta; auto | apply (is_derive_const (K := R_AbsRing) (V := R_NormedModule))].
  - specialize (Hv eq_refl eq_refl).
    replace (own 0 1 n k) with (sumR (map (fun b => tP (angle n) (magn n) k b / magn n k) (prs n)) + 2 * magn n k * p_G (getb n k)).
    { apply DP; [apply (is_derive_sum (prs n) (fun b x => tP (angle n) (bump (magn n) k x) k b)); intros b Hb; apply own_v; auto |].
      unfold bump; rewrite Nat.eqb_refl. auto_derive; auto; ring. }
    rewrite sum_div, <- I1. unfold own, injP. unfold magn in *. field; auto.
  - replace (sumR (map (off 0 1 (angle n) (magn n) k m) (prs n))) with (sumR (map (off 0 1 (angle n) (magn n) k m) (prs n)) + 0) by ring.
    apply DP; [apply (is_derive_sum (prs n) (fun b x => tP (angle n) (bump (magn n) m x) k b)); intros b Hb; apply off_v; auto |].
    unfold bump; rewrite (proj2 (Nat.eqb_neq k m)) by auto. apply (is_derive_const (K := R_AbsRing) (V := R_NormedModule)).
  - specialize (Hv eq_refl eq_refl).
    replace (own 1 1 n k) with (sumR (map (fun b => tQ (angle n) (magn n) k b / magn n k) (prs n)) - 2 * magn n k * p_B (getb n k)).
    { apply DM; [apply (is_derive_sum (prs n) (fun b x => tQ (angle n) (bump (magn n) k x) k b)); intros b Hb; apply own_v; auto |].
      unfold bump; rewrite Nat.eqb_refl. auto_derive; auto; ring. }
    rewrite sum_div, <- I2. unfold own, injQ. unfold magn in *. field; auto.
  - replace (sumR (map (off 1 1 (angle n) (magn n) k m) (prs n))) with (sumR (map (off 1 1 (angle n) (magn n) k m) (prs n)) - 0) by ring.
    apply DM; [apply (is_derive_sum (prs n) (fun b x => tQ (angle n) (bump (magn n) m x) k b)); intros b Hb; apply off_v; auto |].
    unfold bump; rewrite (proj2 (Nat.eqb_neq k m)) by auto. apply (is_derive_const (K := R_AbsRing) (V := R_NormedModule)).
Qed.

(** Proofs for C60: the relays by themselves. *)
From Verif Require Import Prelude RyModel RySpec.
From Coq Require Import Reals Lra.
From Coquelicot Require Import Complex.
Open Scope R_scope.

Lemma below_iff a b : below a b = true <-> a < b.
Proof. unfold below. destruct (Rlt_dec a b); split; intros; try easy; lra. Qed.
Lemma atmost_iff a b : atmost a b = true <-> a <= b.
Proof. unfold atmost. destruct (Rle_dec a b); split; intros; try easy; lra. Qed.
Lemma first_unique P m n : first P m -> first P n -> m = n.
Proof. intros [A B] [C D]. destruct (Nat.lt_trichotomy m n) as [L | [L | L]]; [destruct (D m L A) | exact L | destruct (B n L C)]. Qed.
Lemma first_ext (P Q : nat -> Prop) n : (forall k, P k <-> Q k) -> first P n -> first Q n.
Proof. intros H [A B]. split; [now apply H |]. intros m L F. apply (B m L). now apply H. Qed.

Section Timer.
Variables (X K : Type) (upd : K -> X -> K) (ready : K -> bool) (k0 : K) (done : nat -> bool).
(** The common form of the three relays *)
Definition gstep (x : X) (r : relay K) : relay K :=
  let c := if r_flag r then r_count r else upd (r_count r) x in
  if ready c then
    let b := S (r_brk r) in
    if done b then Relay k0 0 false true (r_trip r) (r_op r) else Relay c b true false (r_trip r) (r_op r)
  else Relay c (r_brk r) false (r_trip r) (r_trip r) (r_op r).
Variable x : nat -> X.
Fixpoint cnt (n : nat) : K := match n with O => k0 | S n => upd (cnt n) (x n) end.
Definition pick (p : nat) : Prop := ready (cnt (S p)) = true.
Definition opens (n : nat) : Prop := exists p, first pick p /\ first (fun q => (p <= q)%nat /\ done (S q - p) = true) n.
Lemma opens_unique m n : opens m -> opens n -> m = n.
Proof. intros (p & A & B) (q & C & D). assert (p = q) by (eapply first_unique; eauto). subst q. eapply first_unique; eauto. Qed.
Definition inv (n : nat) (r : relay K) : Prop :=
  ((forall p, (p < n)%nat -> ~ pick p) /\ r = Relay (cnt n) 0 false false false true) \/
  (exists p, first pick p /\ (p < n)%nat /\ (forall q, (p <= q < n)%nat -> done (S q - p) = false) /\ r = Relay (cnt (S p)) (n - p) true false false true) \/
  (exists m, (m < n)%nat /\ opens m /\ r_op r = false).
Lemma step_op y r : r_op (gstep y r) = r_op r.
Proof. unfold gstep. cbn zeta. destruct (ready _); [destruct (done _) |]; reflexivity. Qed.
Lemma step_inv n r : inv n r -> inv (S n) (fst (operate (gstep (x n)) r)) /\ (snd (operate (gstep (x n)) r) = true <-> opens n).
Proof.
  intros [(N & ->) | [(p & F & L & D & ->) | (m & L & O & E)]].
  - unfold operate, gstep. cbn [r_flag r_count r_brk r_trip r_prev r_op]. change (upd (cnt n) (x n)) with (cnt (S n)). destruct (ready (cnt (S n))) eqn:Rd.
    + assert (F : first pick n). { split; [exact Rd | exact N]. }
      destruct (done 1) eqn:D1; cbn.
      * assert (O : opens n). { exists n. split; [exact F |]. split; [split; [lia |]; now replace (S n - n)%nat with 1%nat by lia |]. intros m L [A _]. lia. }
        split; [right; right; exists n; split; [lia |]; split; [exact O | reflexivity] | tauto].
      * split; [right; left; exists n; split; [exact F |]; split; [lia |]; split; [intros q Q; replace q with n by lia; now replace (S n - n)%nat with 1%nat by lia |]; now replace (S n - n)%nat with 1%nat by lia |].
        split; [discriminate |]. intros (p & A & B). assert (p = n) by (eapply first_unique; eauto). subst p. destruct B as [[_ B] _]. replace (S n - n)%nat with 1%nat in B by lia. congruence.
    + cbn. split.
      * left. split; [| reflexivity]. intros p L. destruct (Nat.eq_dec p n) as [-> | Ne]; [unfold pick; congruence | apply N; lia].
      * split; [discriminate |]. intros (p & [A _] & [[B _] _]). exfalso. destruct (Nat.eq_dec p n) as [-> | Ne]; [unfold pick in A; congruence | apply (N p); [lia | exact A]].
  - unfold operate, gstep. cbn [r_flag r_count r_brk r_trip r_prev r_op]. destruct F as [Fp Fl]. rewrite Fp. replace (S (n - p)) with (S n - p)%nat by lia. destruct (done (S n - p)) eqn:Dn; cbn.
    + assert (O : opens n). { exists p. split; [split; [exact Fp | exact Fl] |]. split; [split; [lia | exact Dn] |]. intros m Lm [A B]. rewrite (D m) in B by lia. discriminate. }
      split; [right; right; exists n; split; [lia |]; split; [exact O | reflexivity] | tauto].
    + split; [right; left; exists p; split; [split; [exact Fp | exact Fl] |]; split; [lia |]; split; [| reflexivity]; intros q Q; destruct (Nat.eq_dec q n) as [-> | Ne]; [exact Dn | apply D; lia] |].
      split; [discriminate |]. intros (q & A & B). assert (q = p) by (eapply first_unique; [exact A | split; [exact Fp | exact Fl]]). subst q. destruct B as [[_ B] _]. congruence.
  - assert (E' := step_op (x n) r). rewrite E in E'. unfold operate. rewrite E', andb_false_r. cbn. split.
    + right. right. exists m. split; [lia |]. auto.
    + split; [discriminate |]. intros O2. exfalso. assert (m = n) by (eapply opens_unique; eauto). lia.
Qed.
Lemma after_inv n : inv n (relay_after gstep x n (fresh k0)).
Proof. induction n as [| n IH]; [left; split; [intros; lia | reflexivity] |]. cbn [relay_after]. now apply step_inv. Qed.
Lemma timer n : operated gstep x n (fresh k0) <-> opens n.
Proof. apply step_inv, after_inv. Qed.
End Timer.

Lemma operate_ext A (u w : relay A -> relay A) r : u r = w r -> operate u r = operate w r.
Proof. unfold operate. intros ->. reflexivity. Qed.
Lemma after_ext X A (u w : X -> relay A -> relay A) x n r : (forall y s, u y s = w y s) -> relay_after u x n r = relay_after w x n r.
Proof. intros H. induction n as [| n IH]; [reflexivity |]. cbn [relay_after]. rewrite IH. now rewrite (@operate_ext _ (u (x n)) (w (x n))). Qed.
Lemma operated_ext X A (u w : X -> relay A -> relay A) x n r : (forall y s, u y s = w y s) -> operated u x n r <-> operated w x n r.
Proof. intros H. unfold operated. rewrite (@after_ext _ _ u w) by exact H. now rewrite (@operate_ext _ (u (x n)) (w (x n))). Qed.

(** Counting in a row *)
Section Row.
Variables (X : Type) (t : X -> bool) (x : nat -> X).
Fixpoint row (n : nat) : nat := match n with O => 0%nat | S n => if t (x n) then S (row n) else 0%nat end.
Lemma row_le n : (row n <= n)%nat.
Proof. induction n as [| n IH]; [reflexivity |]. cbn. destruct (t (x n)); lia. Qed.
Lemma row_holds n i : (n <= i + row n)%nat -> (i < n)%nat -> t (x i) = true.
Proof.
  revert i. induction n as [| n IH]; intros i A B; [lia |]. cbn [row] in A. destruct (t (x n)) eqn:E; [| lia].
  destruct (Nat.eq_dec i n) as [-> | Ne]; [exact E | apply IH; lia].
Qed.
Lemma row_max P c p : (forall i, t (x i) = true <-> P i) -> in_a_row P c p -> (c <= row (S p))%nat.
Proof.
  intros H. revert c. induction p as [| p IH]; intros c [[C1 C2] C3].
  - cbn. assert (E : t (x 0%nat) = true) by (apply H, C3; lia). rewrite E. lia.
  - cbn [row]. assert (E : t (x (S p)) = true) by (apply H, C3; lia). rewrite E. destruct (Nat.eq_dec c 1) as [-> | Ne]; [lia |].
    assert (I : (c - 1 <= row (S p))%nat). { apply IH. split; [lia |]. intros i A B. apply C3; lia. } cbn [row] in I. lia.
Qed.
Lemma row_is P p : (forall i, t (x i) = true <-> P i) -> (0 < row (S p))%nat -> in_a_row P (row (S p)) p.
Proof. intros H L. split; [assert (Q := row_le (S p)); lia |]. intros i A B. apply H. apply (@row_holds (S p)); lia. Qed.
End Row.
Lemma long_le a b dt : 0 < dt -> (a <= b)%nat -> INR a * dt <= INR b * dt.
Proof. intros D L. apply Rmult_le_compat_r; [lra | now apply le_INR]. Qed.
Lemma row_time_le X t (x : nat -> X) P dt T p : (forall i, t (x i) = true <-> P i) -> 0 < dt -> 0 < T ->
  (T <= INR (row t x (S p)) * dt <-> exists c, in_a_row P c p /\ T <= INR c * dt).
Proof.
  intros H D HT. split.
  - intros L. exists (row t x (S p)). split; [| exact L]. apply row_is; [exact H |]. destruct (row t x (S p)); [cbn in L; lra | lia].
  - intros (c & A & B). assert (I := @row_max _ t x P c p H A). assert (J := @long_le _ _ dt D I). lra.
Qed.
Lemma row_time_lt X t (x : nat -> X) P dt T p : (forall i, t (x i) = true <-> P i) -> 0 < dt -> 0 <= T ->
  (T < INR (row t x (S p)) * dt <-> exists c, in_a_row P c p /\ T < INR c * dt).
Proof.
  intros H D HT. split.
  - intros L. exists (row t x (S p)). split; [| exact L]. apply row_is; [exact H |]. destruct (row t x (S p)); [cbn in L; lra | lia].
  - intros (c & A & B). assert (I := @row_max _ t x P c p H A). assert (J := @long_le _ _ dt D I). lra.
Qed.
Lemma opens_at X K (upd : K -> X -> K) ready k0 done x dt picked enough n :
  (forall p, pick upd ready k0 x p <-> picked p) -> (forall b, done b = true <-> enough (INR b * dt)) ->
  (opens upd ready k0 done x n <-> operates_at dt picked enough n).
Proof.
  intros A B. split; intros (p & F & G); exists p.
  - split; [eapply first_ext; [exact A | exact F] |]. eapply first_ext; [| exact G]. intros q. cbn beta. rewrite <- B. tauto.
  - split; [eapply first_ext; [| exact F]; intros; symmetry; apply A |]. eapply first_ext; [| exact G]. intros q. cbn beta. rewrite <- B. tauto.
Qed.

(** LVSHBL *)
Lemma lvshbl_eq p dt v n : 0 < dt -> 0 < lv_t1 p -> operated (lv_update p dt) v n (fresh 0%nat) <-> lvshbl_at p dt v n.
Proof.
  intros D T. set (upd := fun (c : nat) (y : C) => if below (Cmod y) (lv_v1 p) then S c else 0%nat).
  rewrite (@operated_ext _ _ _ (gstep upd (fun c => atmost (lv_t1 p) (INR c * dt)) 0%nat (fun b => atmost (lv_tb p) (INR b * dt)))) by reflexivity.
  rewrite timer. apply opens_at; [| intros; apply atmost_iff]. intros q.
  assert (E : forall m, cnt upd 0%nat v m = row (fun y => below (Cmod y) (lv_v1 p)) v m). { induction m as [| m IH]; [reflexivity |]. cbn [cnt row]. rewrite IH. reflexivity. }
  unfold pick. rewrite E, atmost_iff. apply row_time_le; auto. intros i. apply below_iff.
Qed.
(** FRQTPAT *)
Lemma frqtpat_eq p dt f n : 0 < dt -> 0 < fq_tp p -> operated (fq_update p dt) f n (fresh (0%nat, 0%nat)) <-> frqtpat_at p dt f n.
Proof.
  intros D T. set (upd := fun (c : nat * nat) (y : R) => (if below y (fq_low p) then S (fst c) else 0%nat, if below (fq_up p) y then S (snd c) else 0%nat)).
  rewrite (@operated_ext _ _ _ (gstep upd (fun c => atmost (fq_tp p) (INR (fst c) * dt) || atmost (fq_tp p) (INR (snd c) * dt)) (0%nat, 0%nat) (fun b => below (fq_tb p) (INR b * dt)))) by reflexivity.
  rewrite timer. apply opens_at; [| intros; apply below_iff]. intros q.
  assert (E : forall m, cnt upd (0%nat, 0%nat) f m = (row (fun y => below y (fq_low p)) f m, row (fun y => below (fq_up p) y) f m)). { induction m as [| m IH]; [reflexivity |]. cbn [cnt row]. rewrite IH. reflexivity. }
  unfold pick. rewrite E. cbn [fst snd]. rewrite orb_true_iff, !atmost_iff.
  rewrite (@row_time_le _ _ f (fun i => f i < fq_low p)) by (auto; intros; apply below_iff). rewrite (@row_time_le _ _ f (fun i => fq_up p < f i)) by (auto; intros; apply below_iff).
  split; [intros [(c & A & B) | (c & A & B)]; exists c; auto | intros (c & [A | A] & B); [left | right]; exists c; auto].
Qed.
(** DISTR1 *)
Lemma centre_eq z : centre z = middle z.
Proof. unfold centre, middle. replace (4 * atan 1) with PI by (rewrite atan_1; field). reflexivity. Qed.
Lemma in_zone_iff z (vi : nat -> C * C) i : in_zone z (fst (vi i)) (snd (vi i)) = true <-> sees z vi i.
Proof. unfold in_zone, sees. rewrite centre_eq. destruct (Ceq_dec _ _) as [E | E]; [split; [discriminate | tauto] |]. rewrite below_iff. tauto. Qed.
Lemma distr1_eq p dt vi n : 0 < dt -> 0 <= zn_time (ds_1 p) -> 0 <= zn_time (ds_2 p) ->
  (forall i, sees (ds_1 p) vi i -> sees (ds_2 p) vi i /\ sees (ds_2 p) vi (S i)) ->
  operated (ds_update p dt) vi n (fresh (0%nat, 0%nat)) <-> distr1_at p dt vi n.
Proof.
  intros D T1 T2 Hz. set (i1 := fun y : C * C => in_zone (ds_1 p) (fst y) (snd y)). set (i2 := fun y : C * C => in_zone (ds_2 p) (fst y) (snd y)).
  set (upd := fun (c : nat * nat) (y : C * C) => if i2 y then (if i1 y then S (fst c) else 0%nat, S (snd c)) else (fst c, 0%nat)).
  rewrite (@operated_ext _ _ _ (gstep upd (fun c => below (zn_time (ds_1 p) / 60) (INR (fst c) * dt) || below (zn_time (ds_2 p) / 60) (INR (snd c) * dt)) (0%nat, 0%nat) (fun b => below (ds_tb p / 60) (INR b * dt)))) by reflexivity.
  rewrite timer. apply opens_at; [| intros; apply below_iff]. intros q.
  assert (I1 : forall i, i1 (vi i) = true <-> sees (ds_1 p) vi i) by (intros; apply in_zone_iff). assert (I2 : forall i, i2 (vi i) = true <-> sees (ds_2 p) vi i) by (intros; apply in_zone_iff).
  assert (E : forall m, cnt upd (0%nat, 0%nat) vi m = (row i1 vi m, row i2 vi m)).
  { induction m as [| m IH]; [reflexivity |]. cbn [cnt row]. rewrite IH. unfold upd. cbn [fst snd]. destruct (i2 (vi m)) eqn:E2; [reflexivity |]. destruct (i1 (vi m)) eqn:E1.
    - apply I1 in E1. destruct (Hz m E1) as [Z _]. apply I2 in Z. congruence.
    - f_equal. destruct m as [| m]; [reflexivity |]. cbn [row]. destruct (i1 (vi m)) eqn:E3; [| reflexivity]. apply I1 in E3. destruct (Hz m E3) as [_ Z]. apply I2 in Z. congruence. }
  unfold pick. rewrite E. cbn [fst snd]. rewrite orb_true_iff, !below_iff.
  rewrite (@row_time_lt _ i1 vi (sees (ds_1 p) vi)) by (auto; lra). rewrite (@row_time_lt _ i2 vi (sees (ds_2 p) vi)) by (auto; lra).
  split; [intros [(c & A & B) | (c & A & B)]; exists c; auto | intros (c & [[A B] | [A B]]); [left | right]; exists c; auto].
Qed.
(** A relay operates at most once. *)
Lemma once X A (u : X -> relay A -> relay A) x r m n : (forall y s, r_op (u y s) = r_op s) -> operated u x m r -> operated u x n r -> m = n.
Proof.
  intros H. assert (S1 : forall k, operated u x k r -> forall j, (k < j)%nat -> r_op (relay_after u x j r) = false).
  { intros k O j L. induction j as [| j IH]; [lia |]. cbn [relay_after]. unfold operate. destruct (Nat.eq_dec k j) as [-> | Ne].
    - unfold operated, operate in O. destruct (r_trip _ && negb _ && r_op _) eqn:E; [reflexivity | discriminate].
    - assert (F := IH ltac:(lia)). rewrite H, F, andb_false_r. cbn. now rewrite H. }
  assert (S2 : forall k j, operated u x k r -> operated u x j r -> ~ (k < j)%nat).
  { intros k j O1 O2 L. assert (F := S1 k O1 j L). unfold operated, operate in O2. rewrite H, F, andb_false_r in O2. discriminate. }
  intros O1 O2. assert (A1 := S2 m n O1 O2). assert (A2 := S2 n m O2 O1). lia.
Qed.
Lemma lv_op p dt v r : r_op (lv_update p dt v r) = r_op r.
Proof. unfold lv_update. cbn zeta. destruct (atmost (lv_t1 p) _); [destruct (atmost (lv_tb p) _) |]; reflexivity. Qed.
Lemma fq_op p dt f r : r_op (fq_update p dt f r) = r_op r.
Proof. unfold fq_update. cbn zeta. destruct (_ || _); [destruct (below (fq_tb p) _) |]; reflexivity. Qed.
Lemma ds_op p dt v r : r_op (ds_update p dt v r) = r_op r.
Proof. unfold ds_update. cbn zeta. destruct (_ || _); [destruct (below (ds_tb p / 60) _) |]; reflexivity. Qed.

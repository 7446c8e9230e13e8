(** Proofs about the real library's rows and matrices used for complex values. *)
From Coq Require Import Reals Lra Sorted.
From Coquelicot Require Import Complex.
From Verif Require Import Prelude CxModel CxSpec.
Local Open Scope nat_scope.

(** * Rows *)
Definition sorted (r : rrow) : Prop := StronglySorted lt (map fst r).
Definition below (n : nat) (r : rrow) : Prop := Forall (fun e => fst e < n) r.
Definition hasb (j : nat) (r : rrow) : bool := match rfind j r with Some _ => true | None => false end.

Lemma sorted_cons_inv k v r : sorted ((k, v) :: r) -> sorted r /\ Forall (fun e => k < fst e) r.
Proof.
  unfold sorted; cbn [map fst]; intros H. inversion H; subst. split; auto.
  rewrite Forall_map in *. auto.
Qed.

Lemma sorted_cons k v r : sorted r -> Forall (fun e => k < fst e) r -> sorted ((k, v) :: r).
Proof. intros H1 H2. unfold sorted; cbn [map fst]. constructor; auto. rewrite Forall_map. auto. Qed.

Lemma rfind_lt j r : Forall (fun e => j < fst e) r -> rfind j r = None.
Proof.
  induction 1 as [|[k v] r H _ IH]; cbn; auto. cbn in H.
  destruct (j =? k) eqn:E; [apply Nat.eqb_eq in E; lia|auto].
Qed.

Lemma rfind_rput md j x r k : sorted r ->
  rfind k (rput md j x r) = if k =? j then Some (put_val md x (rfind j r)) else rfind k r.
Proof.
  induction r as [|[a v] r IH]; intros Hs; cbn [rput rfind].
  - destruct (k =? j); auto.
  - apply sorted_cons_inv in Hs. destruct Hs as [Hs Ha].
    destruct (j <? a) eqn:E1.
    + apply Nat.ltb_lt in E1. cbn [rfind].
      destruct (k =? j) eqn:E2; auto.
      destruct (j =? a) eqn:E3; [apply Nat.eqb_eq in E3; lia|].
      rewrite rfind_lt; auto. eapply Forall_impl; [|exact Ha]. cbn; intros; lia.
    + apply Nat.ltb_ge in E1. destruct (j =? a) eqn:E3.
      * apply Nat.eqb_eq in E3; subst a. cbn [rfind]. destruct (k =? j) eqn:E2; auto.
      * cbn [rfind]. rewrite IH by auto.
        destruct (k =? a) eqn:E4; auto.
        apply Nat.eqb_eq in E4; subst a. rewrite Nat.eqb_sym, E3. auto.
Qed.

Lemma rput_fst_gt md j x r a : Forall (fun e : nat * R => a < fst e) r -> a < j ->
  Forall (fun e : nat * R => a < fst e) (rput md j x r).
Proof.
  induction r as [|[k v] r IH]; intros H Hj; cbn [rput].
  - constructor; auto.
  - inversion H; subst. destruct (j <? k); [constructor; auto|].
    destruct (j =? k); constructor; auto.
Qed.

Lemma rput_sorted md j x r : sorted r -> sorted (rput md j x r).
Proof.
  induction r as [|[k v] r IH]; intros H; cbn [rput].
  - repeat constructor.
  - destruct (sorted_cons_inv H) as [H1 H2]. destruct (j <? k) eqn:E.
    + apply Nat.ltb_lt in E. apply sorted_cons; auto. constructor; auto.
      eapply Forall_impl; [|exact H2]. cbn; intros; lia.
    + apply Nat.ltb_ge in E. destruct (j =? k) eqn:E2.
      * apply sorted_cons; auto.
      * apply Nat.eqb_neq in E2. apply sorted_cons; auto. apply rput_fst_gt; auto. lia.
Qed.

Lemma rput_below md j x r n : below n r -> j < n -> below n (rput md j x r).
Proof.
  unfold below. induction r as [|[k v] r IH]; intros H Hj; cbn [rput].
  - constructor; auto.
  - inversion H; subst. destruct (j <? k); [constructor; auto|].
    destruct (j =? k); constructor; auto.
Qed.

Lemma rput_keys md j x r : sorted r -> hasb j r = true -> map fst (rput md j x r) = map fst r.
Proof.
  induction r as [|[k v] r IH]; intros Hs H; cbn [rput].
  - discriminate.
  - destruct (sorted_cons_inv Hs) as [H1 H2]. unfold hasb in *; cbn [rfind] in H.
    destruct (j =? k) eqn:E2.
    + apply Nat.eqb_eq in E2; subst. rewrite Nat.ltb_irrefl. auto.
    + destruct (j <? k) eqn:E.
      * apply Nat.ltb_lt in E. rewrite rfind_lt in H; [discriminate|].
        eapply Forall_impl; [|exact H2]. cbn; intros; lia.
      * cbn [map]. f_equal. apply IH; auto.
Qed.

Lemma hasb_rput md j x r k : sorted r -> hasb k (rput md j x r) = (k =? j) || hasb k r.
Proof. intros H. unfold hasb. rewrite rfind_rput by auto. destruct (k =? j); auto. Qed.

Lemma rfind_in j r v : rfind j r = Some v -> In (j, v) r.
Proof.
  induction r as [|[k w] r IH]; cbn; [discriminate|].
  destruct (j =? k) eqn:E; intros H.
  - apply Nat.eqb_eq in E. inversion H; subst; auto.
  - auto.
Qed.

Lemma hasb_lt n j r : below n r -> hasb j r = true -> j < n.
Proof.
  unfold hasb, below. intros H. destruct (rfind j r) as [v|] eqn:E; [|discriminate]. intros _.
  apply rfind_in in E. rewrite Forall_forall in H. apply H in E. auto.
Qed.

Lemma in_rfind j v r : sorted r -> In (j, v) r -> rfind j r = Some v.
Proof.
  induction r as [|[k w] r IH]; cbn; [tauto|]. intros Hs H.
  destruct (sorted_cons_inv Hs) as [H1 H2]. destruct H as [H|H].
  - inversion H; subst. rewrite Nat.eqb_refl. auto.
  - rewrite Forall_forall in H2. pose proof (H2 _ H) as Hk. cbn in Hk.
    destruct (j =? k) eqn:E; [apply Nat.eqb_eq in E; lia|auto].
Qed.

(** ** row_put_all *)
Lemma row_put_all_sorted md src dst : sorted dst -> sorted (row_put_all md src dst).
Proof.
  unfold row_put_all. revert dst; induction src as [|e src IH]; intros dst H; cbn; auto.
  apply IH. apply rput_sorted; auto.
Qed.

Lemma row_put_all_below md src dst n : below n dst -> below n src -> below n (row_put_all md src dst).
Proof.
  unfold row_put_all. revert dst; induction src as [|e src IH]; intros dst H Hs; cbn; auto.
  inversion Hs; subst. apply IH; auto. apply rput_below; auto.
Qed.

Lemma row_put_all_ins src dst k : sorted src -> sorted dst ->
  rfind k (row_put_all INS src dst) = match rfind k src with Some v => Some v | None => rfind k dst end.
Proof.
  unfold row_put_all. revert dst; induction src as [|[j v] src IH]; intros dst Hs Hd; cbn [fold_left rfind]; auto.
  destruct (sorted_cons_inv Hs) as [H1 H2]. cbn [fst snd].
  rewrite IH by (auto; apply rput_sorted; auto). rewrite rfind_rput by auto.
  destruct (k =? j) eqn:E; auto.
  apply Nat.eqb_eq in E; subst. rewrite rfind_lt by auto. auto.
Qed.

Lemma row_put_all_add src dst k : sorted dst ->
  oval (rfind k (row_put_all ADD src dst)) =
  (oval (rfind k dst) + rsum (map (fun e => if fst e =? k then snd e else 0%R) src))%R.
Proof.
  unfold row_put_all. revert dst; induction src as [|[j v] src IH]; intros dst Hd; cbn [fold_left map rsum fold_right].
  - lra.
  - cbn [fst snd]. rewrite IH by (apply rput_sorted; auto). rewrite rfind_rput by auto.
    rewrite (Nat.eqb_sym k j). unfold rsum. destruct (j =? k) eqn:E.
    + apply Nat.eqb_eq in E; subst. cbn [put_val oval]. lra.
    + lra.
Qed.

Lemma row_put_all_has src dst k : sorted dst ->
  hasb k (row_put_all ADD src dst) = hasb k dst || existsb (fun e => fst e =? k) src.
Proof.
  unfold row_put_all. revert dst; induction src as [|[j v] src IH]; intros dst Hd; cbn [fold_left existsb].
  - rewrite orb_false_r; auto.
  - cbn [fst snd]. rewrite IH by (apply rput_sorted; auto). rewrite hasb_rput by auto.
    rewrite (Nat.eqb_sym k j). destruct (j =? k), (hasb k dst); auto.
Qed.

Lemma hasb_exists k r : hasb k r = existsb (fun e => fst e =? k) r.
Proof.
  unfold hasb. induction r as [|[j v] r IH]; cbn; auto.
  rewrite (Nat.eqb_sym k j). destruct (j =? k); auto.
Qed.

Lemma single_sum k r : sorted r ->
  rsum (map (fun e => if fst e =? k then snd e else 0%R) r) = oval (rfind k r).
Proof.
  unfold rsum. induction r as [|[j v] r IH]; intros Hs; cbn [map fold_right rfind]; auto.
  destruct (sorted_cons_inv Hs) as [H1 H2]. cbn [fst snd]. rewrite IH by auto.
  rewrite (Nat.eqb_sym k j). destruct (j =? k) eqn:E.
  - apply Nat.eqb_eq in E; subst. rewrite (rfind_lt H2). cbn. lra.
  - lra.
Qed.

(** ** Sums *)
Lemma rsum_app l1 l2 : rsum (l1 ++ l2) = (rsum l1 + rsum l2)%R.
Proof. unfold rsum. induction l1; cbn; lra. Qed.

Lemma rsum_map_plus {A} (f g : A -> R) l : rsum (map (fun x => (f x + g x)%R) l) = (rsum (map f l) + rsum (map g l))%R.
Proof. unfold rsum. induction l; cbn; lra. Qed.

Lemma rsum_map_ext {A} (f g : A -> R) l : (forall x, In x l -> f x = g x) -> rsum (map f l) = rsum (map g l).
Proof.
  unfold rsum. induction l; cbn; intros H; auto. rewrite (H a) by auto. rewrite IHl by auto. auto.
Qed.

Lemma rsum_map_scal {A} (c : R) (f : A -> R) l : rsum (map (fun x => (c * f x)%R) l) = (c * rsum (map f l))%R.
Proof. unfold rsum. induction l; cbn; lra. Qed.

Lemma rsum_map_zero {A} (f : A -> R) l : (forall x, In x l -> f x = 0%R) -> rsum (map f l) = 0%R.
Proof. unfold rsum. induction l; cbn; intros H; auto. rewrite (H a) by auto. rewrite IHl by auto. lra. Qed.

Lemma rsum_iota_S n f : rsum (map f (iota (S n))) = (rsum (map f (iota n)) + f n)%R.
Proof. unfold iota. rewrite seq_S, map_app, rsum_app. cbn. lra. Qed.

Lemma rsum_pick n k g : k < n -> rsum (map (fun j => if j =? k then g j else 0%R) (iota n)) = g k.
Proof.
  induction n as [|n IH]; intros H; [lia|]. rewrite rsum_iota_S.
  destruct (n =? k) eqn:E.
  - apply Nat.eqb_eq in E; subst. rewrite rsum_map_zero; [lra|].
    intros x Hx. apply in_iota in Hx. destruct (x =? k) eqn:E2; auto. apply Nat.eqb_eq in E2; lia.
  - apply Nat.eqb_neq in E. rewrite IH by lia. lra.
Qed.

Lemma rsum_pairs n f : rsum (map f (iota (n * 2))) = rsum (map (fun k => (f (k * 2)%nat + f (k * 2 + 1)%nat)%R) (iota n)).
Proof.
  induction n as [|n IH]; auto. rewrite rsum_iota_S, <- IH.
  replace (S n * 2) with (S (S (n * 2))) by lia. rewrite !rsum_iota_S.
  replace (S (n * 2)) with (n * 2 + 1) by lia. lra.
Qed.

(** A sum over the stored entries of a row is the sum over all columns. *)
Lemma row_sum n r (g : nat -> R) : sorted r -> below n r ->
  rsum (map (fun e => (snd e * g (fst e))%R) r) = rsum (map (fun j => (oval (rfind j r) * g j)%R) (iota n)).
Proof.
  intros Hs Hb. induction r as [|[k v] r IH]; cbn [map].
  - rewrite rsum_map_zero; auto. intros; cbn; lra.
  - destruct (sorted_cons_inv Hs) as [H1 H2]. inversion Hb; subst. cbn [fst snd] in *.
    cbn [rsum fold_right]. fold (rsum (map (fun e => (snd e * g (fst e))%R) r)). rewrite IH by auto.
    assert (E : (v * g k)%R = rsum (map (fun j => if j =? k then (v * g j)%R else 0%R) (iota n))).
    { rewrite (rsum_pick (fun j => (v * g j)%R)); auto. }
    rewrite E, <- rsum_map_plus. apply rsum_map_ext. intros j _. cbn [rfind].
    destruct (j =? k) eqn:E2; [|lra].
    apply Nat.eqb_eq in E2; subst. rewrite (rfind_lt H2). cbn. lra.
Qed.

(** * Matrices of rows *)
Definition wf (rows : list rrow) (nr nc : nat) : Prop :=
  length rows = nr /\ forall i, i < nr -> sorted (row_of rows i) /\ below nc (row_of rows i).

Definition has (rows : list rrow) (i j : nat) : bool := hasb j (row_of rows i).

Lemma row_of_upd rows i r k : i < length rows -> row_of (upd rows i r) k = if k =? i then r else row_of rows k.
Proof.
  intros H. unfold row_of. destruct (k =? i) eqn:E.
  - apply Nat.eqb_eq in E; subst. apply nth_error_nth. apply nth_error_upd_same; auto.
  - apply Nat.eqb_neq in E. destruct (nth_error rows k) as [x|] eqn:E2.
    + rewrite (nth_error_nth _ _ _ E2). apply nth_error_nth. rewrite nth_error_upd_other; auto.
    + apply nth_error_None in E2. rewrite !nth_overflow; auto. rewrite upd_length; auto.
Qed.

Lemma row_of_map f n i : i < n -> row_of (map f (iota n)) i = f i.
Proof.
  intros H. unfold row_of, iota. rewrite nth_indep with (d' := f 0) by (rewrite map_length, seq_length; auto).
  rewrite map_nth. rewrite seq_nth; auto.
Qed.

Lemma mput_wf md rows nr nc i j x : wf rows nr nc -> i < nr -> j < nc -> wf (mput md rows (i, j, x)) nr nc.
Proof.
  intros [H1 H2] Hi Hj. cbn [mput]. split; [rewrite upd_length; auto|].
  intros k Hk. rewrite row_of_upd by lia. destruct (k =? i); [|auto].
  destruct (H2 i Hi). split; [apply rput_sorted|apply rput_below]; auto.
Qed.

Lemma mput_get md rows nr nc i j x a b : wf rows nr nc -> i < nr ->
  rget (mput md rows (i, j, x)) a b =
  if (a =? i) && (b =? j) then put_val md x (rfind j (row_of rows i)) else rget rows a b.
Proof.
  intros [H1 H2] Hi. unfold rget; cbn [mput]. rewrite row_of_upd by lia.
  destruct (a =? i) eqn:E; cbn [andb]; auto.
  rewrite rfind_rput by (apply H2; auto). destruct (b =? j); auto. apply Nat.eqb_eq in E; subst; auto.
Qed.

Lemma mput_has md rows nr nc i j x a b : wf rows nr nc -> i < nr ->
  has (mput md rows (i, j, x)) a b = ((a =? i) && (b =? j)) || has rows a b.
Proof.
  intros [H1 H2] Hi. unfold has; cbn [mput]. rewrite row_of_upd by lia.
  destruct (a =? i) eqn:E; cbn [andb orb]; auto.
  rewrite hasb_rput by (apply H2; auto). apply Nat.eqb_eq in E; subst; auto.
Qed.

Definition keys (rows : list rrow) : list (list nat) := map (map fst) rows.

Lemma map_upd {A B} (f : A -> B) l i x : map f (upd l i x) = upd (map f l) i (f x).
Proof. revert i; induction l; intros [|i]; cbn; auto. f_equal; auto. Qed.

Lemma upd_nth_self {A} (l : list A) i d : upd l i (nth i l d) = l.
Proof. revert i; induction l; intros [|i]; cbn; auto. f_equal; auto. Qed.

Lemma mput_keys md rows nr nc i j x : wf rows nr nc -> i < nr -> has rows i j = true ->
  keys (mput md rows (i, j, x)) = keys rows.
Proof.
  intros [H1 H2] Hi Hh. unfold keys; cbn [mput]. rewrite map_upd. rewrite rput_keys; auto; [|apply H2; auto].
  exact (eq_trans (f_equal _ (eq_sym (map_nth (map (@fst nat R)) rows [] i))) (@upd_nth_self _ _ i _)).
Qed.

Lemma same_pattern_keys A B : keys A = keys B -> same_pattern A B = true.
Proof.
  unfold same_pattern, keys. revert B. induction A as [|a A IH]; intros [|b B] H; try discriminate; auto.
  cbn [map] in H. inversion H. cbn [length Nat.eqb combine forallb fst snd].
  destruct (list_eq_dec Nat.eq_dec (map fst a) (map fst b)); [|contradiction]. cbn [andb].
  apply IH; auto.
Qed.

(** * Block matrices: real rows that hold a complex matrix *)
Definition closed (rows : list rrow) (m n : nat) : Prop :=
  forall i j, i < m -> j < n ->
    has rows (i * 2) (j * 2 + 1) = has rows (i * 2) (j * 2) /\
    has rows (i * 2 + 1) (j * 2) = has rows (i * 2) (j * 2) /\
    has rows (i * 2 + 1) (j * 2 + 1) = has rows (i * 2) (j * 2).

Definition vals (rows : list rrow) (m n : nat) (f : nat -> nat -> C) : Prop :=
  forall i j, i < m -> j < n ->
    rget rows (i * 2) (j * 2) = fst (f i j) /\
    rget rows (i * 2) (j * 2 + 1) = (- snd (f i j))%R /\
    rget rows (i * 2 + 1) (j * 2) = snd (f i j) /\
    rget rows (i * 2 + 1) (j * 2 + 1) = fst (f i j).

Definition rep (rows : list rrow) (m n : nat) (f : nat -> nat -> C) : Prop :=
  wf rows (m * 2) (n * 2) /\ closed rows m n /\ vals rows m n f.

Definition put4 (md : imode) (rows : list rrow) (i j : nat) (x : C) : list rrow :=
  mput md (mput md (mput md (mput md rows (i * 2, j * 2, fst x)) (i * 2, j * 2 + 1, (- snd x)%R))
                (i * 2 + 1, j * 2, snd x)) (i * 2 + 1, j * 2 + 1, fst x).

Lemma block_idx_eq i : block_idx i = [i * 2; i * 2 + 1].
Proof. unfold block_idx, elementSize. cbn. rewrite Nat.add_0_r. auto. Qed.

Lemma block_fold md rows i j x :
  fold_left (mput md) (combine (list_prod (block_idx i) (block_idx j)) (matrix_to_library [x])) rows
  = put4 md rows i j x.
Proof. rewrite !block_idx_eq. reflexivity. Qed.

(** Apply [md] at the complex level. *)
Definition cput (md : imode) (f : nat -> nat -> C) (e : nat * nat * C) : nat -> nat -> C :=
  match md with INS => aset f e | ADD => aadd f e end.

Ltac eqbs :=
  repeat match goal with
         | |- context [?a =? ?b] =>
             first [ replace (a =? b) with true by (symmetry; apply Nat.eqb_eq; lia)
                   | replace (a =? b) with false by (symmetry; apply Nat.eqb_neq; lia) ]
         end.

Lemma pair_even_l a i : (a * 2 =? i * 2) = (a =? i).
Proof. destruct (a =? i) eqn:E; [apply Nat.eqb_eq in E; apply Nat.eqb_eq|apply Nat.eqb_neq in E; apply Nat.eqb_neq]; lia. Qed.
Lemma pair_odd_l a i : (a * 2 + 1 =? i * 2 + 1) = (a =? i).
Proof. destruct (a =? i) eqn:E; [apply Nat.eqb_eq in E; apply Nat.eqb_eq|apply Nat.eqb_neq in E; apply Nat.eqb_neq]; lia. Qed.
Lemma pair_eo a i : (a * 2 =? i * 2 + 1) = false.
Proof. apply Nat.eqb_neq; lia. Qed.
Lemma pair_oe a i : (a * 2 + 1 =? i * 2) = false.
Proof. apply Nat.eqb_neq; lia. Qed.

Lemma put4_wf md rows m n i j x : wf rows (m * 2) (n * 2) -> i < m -> j < n ->
  wf (put4 md rows i j x) (m * 2) (n * 2).
Proof. intros H Hi Hj. unfold put4. repeat apply mput_wf; auto; lia. Qed.

Lemma put4_has md rows m n i j x a b : wf rows (m * 2) (n * 2) -> i < m -> j < n ->
  has (put4 md rows i j x) a b =
  ((a =? i * 2 + 1) && (b =? j * 2 + 1)) || (((a =? i * 2 + 1) && (b =? j * 2)) ||
  (((a =? i * 2) && (b =? j * 2 + 1)) || (((a =? i * 2) && (b =? j * 2)) || has rows a b))).
Proof.
  intros H Hi Hj. unfold put4.
  rewrite (@mput_has md _ (m * 2) (n * 2)); [|repeat apply mput_wf; auto; lia|lia].
  rewrite (@mput_has md _ (m * 2) (n * 2)); [|repeat apply mput_wf; auto; lia|lia].
  rewrite (@mput_has md _ (m * 2) (n * 2)); [|repeat apply mput_wf; auto; lia|lia].
  rewrite (@mput_has md _ (m * 2) (n * 2)); [|repeat apply mput_wf; auto; lia|lia].
  reflexivity.
Qed.

Lemma put4_closed md rows m n i j x : wf rows (m * 2) (n * 2) -> closed rows m n -> i < m -> j < n ->
  closed (put4 md rows i j x) m n.
Proof.
  intros Hw Hc Hi Hj a b Ha Hb. rewrite !(@put4_has md rows m n) by auto.
  rewrite ?pair_even_l, ?pair_odd_l, ?pair_eo, ?pair_oe.
  destruct (Hc a b Ha Hb) as (H1 & H2 & H3). rewrite H1, H2, H3.
  destruct (a =? i), (b =? j); cbn; auto.
Qed.

Lemma put4_get md rows m n i j x a b : wf rows (m * 2) (n * 2) -> i < m -> j < n ->
  rget (put4 md rows i j x) a b =
  if (a =? i * 2 + 1) && (b =? j * 2 + 1) then put_val md (fst x) (rfind b (row_of rows a)) else
  if (a =? i * 2 + 1) && (b =? j * 2) then put_val md (snd x) (rfind b (row_of rows a)) else
  if (a =? i * 2) && (b =? j * 2 + 1) then put_val md (- snd x)%R (rfind b (row_of rows a)) else
  if (a =? i * 2) && (b =? j * 2) then put_val md (fst x) (rfind b (row_of rows a)) else rget rows a b.
Proof.
  intros Hw Hi Hj. unfold put4.
  set (r1 := mput md rows (i * 2, j * 2, fst x)).
  set (r2 := mput md r1 (i * 2, j * 2 + 1, (- snd x)%R)).
  set (r3 := mput md r2 (i * 2 + 1, j * 2, snd x)).
  assert (W1 : wf r1 (m * 2) (n * 2)) by (apply mput_wf; auto; lia).
  assert (W2 : wf r2 (m * 2) (n * 2)) by (apply mput_wf; auto; lia).
  assert (W3 : wf r3 (m * 2) (n * 2)) by (apply mput_wf; auto; lia).
  assert (F : forall rows i0 j0 x0 a0 b0, wf rows (m * 2) (n * 2) -> i0 < m * 2 ->
             rfind b0 (row_of (mput md rows (i0, j0, x0)) a0) =
             if (a0 =? i0) && (b0 =? j0) then Some (put_val md x0 (rfind j0 (row_of rows i0)))
             else rfind b0 (row_of rows a0)).
  { intros rows0 i0 j0 x0 a0 b0 [L W] Hi0. cbn [mput]. rewrite row_of_upd by lia.
    destruct (a0 =? i0) eqn:E; cbn [andb]; auto. rewrite rfind_rput by (apply W; auto).
    destruct (b0 =? j0); auto. apply Nat.eqb_eq in E; subst; auto. }
  unfold rget. rewrite F by (auto; lia). unfold r3. rewrite F by (auto; lia).
  destruct ((a =? i * 2 + 1) && (b =? j * 2 + 1)) eqn:E1.
  - apply andb_true_iff in E1. destruct E1 as [E1 E1']. apply Nat.eqb_eq in E1, E1'. subst a b.
    rewrite Nat.eqb_refl. rewrite pair_oe. cbn [andb]. unfold r2. rewrite F by (auto; lia).
    rewrite pair_oe. cbn [andb]. unfold r1. rewrite F by (auto; lia). rewrite pair_oe. cbn [andb oval]. auto.
  - unfold r2. rewrite !F by (auto; lia). unfold r1. rewrite !F by (auto; lia).
    destruct ((a =? i * 2 + 1) && (b =? j * 2)) eqn:E2.
    + apply andb_true_iff in E2. destruct E2 as [E2 E2']. apply Nat.eqb_eq in E2, E2'. subst a b.
      rewrite pair_oe. cbn [andb oval]. auto.
    + destruct ((a =? i * 2) && (b =? j * 2 + 1)) eqn:E3.
      * apply andb_true_iff in E3. destruct E3 as [E3 E3']. apply Nat.eqb_eq in E3, E3'. subst a b.
        rewrite pair_oe. rewrite andb_false_r. cbn [oval]. auto.
      * destruct ((a =? i * 2) && (b =? j * 2)) eqn:E4; auto.
        apply andb_true_iff in E4. destruct E4 as [E4 E4']. apply Nat.eqb_eq in E4, E4'. subst a b. auto.
Qed.

Lemma C_eq (a b : C) : fst a = fst b -> snd a = snd b -> a = b.
Proof. destruct a, b; cbn; intros; subst; auto. Qed.

Lemma put4_vals md rows m n f i j x : wf rows (m * 2) (n * 2) -> vals rows m n f -> i < m -> j < n ->
  vals (put4 md rows i j x) m n (cput md f (i, j, x)).
Proof.
  intros Hw Hv Hi Hj a b Ha Hb. rewrite !(@put4_get md rows m n) by auto.
  rewrite ?pair_even_l, ?pair_odd_l, ?pair_eo, ?pair_oe. cbn [andb].
  destruct (Hv a b Ha Hb) as (H1 & H2 & H3 & H4).
  assert (E : forall k l y, put_val md y (rfind k (row_of rows l)) =
                            match md with INS => y | ADD => (rget rows l k + y)%R end).
  { intros. destruct md; auto. }
  rewrite !E. unfold cput. unfold aset, aadd. cbn [fst snd].
  destruct md, (a =? i) eqn:Ea, (b =? j) eqn:Eb; cbn [andb]; auto.
  rewrite H1, H2, H3, H4. unfold Cplus; cbn [fst snd].
  split; [|split; [|split]]; auto; lra.
Qed.

Lemma put4_rep md rows m n f i j x : rep rows m n f -> i < m -> j < n ->
  rep (put4 md rows i j x) m n (cput md f (i, j, x)).
Proof.
  intros (Hw & Hc & Hv) Hi Hj. split; [|split].
  - apply put4_wf; auto.
  - apply put4_closed; auto.
  - apply put4_vals; auto.
Qed.

Lemma put4_keys md rows m n i j x : wf rows (m * 2) (n * 2) -> closed rows m n -> i < m -> j < n ->
  has rows (i * 2) (j * 2) = true -> keys (put4 md rows i j x) = keys rows.
Proof.
  intros Hw Hc Hi Hj Hh. destruct (Hc i j Hi Hj) as (H1 & H2 & H3).
  unfold put4.
  assert (K : forall r i0 j0 x0, wf r (m * 2) (n * 2) -> i0 < m * 2 -> j0 < n * 2 -> has r i0 j0 = true ->
     keys (mput md r (i0, j0, x0)) = keys r /\ wf (mput md r (i0, j0, x0)) (m * 2) (n * 2) /\
     forall a b, has r a b = true -> has (mput md r (i0, j0, x0)) a b = true).
  { intros r i0 j0 x0 W Hi0 Hj0 Hh0. split; [eapply mput_keys; eauto|]. split; [apply mput_wf; auto|].
    intros a b Hab. rewrite (@mput_has md r (m * 2) (n * 2)) by auto. rewrite Hab. apply orb_true_r. }
  rewrite Hh in H1, H2, H3.
  destruct (K rows (i * 2) (j * 2) (fst x)) as (K1 & W1 & P1); auto; try lia.
  set (r1 := mput md rows (i * 2, j * 2, fst x)) in *.
  destruct (K r1 (i * 2) (j * 2 + 1) (- snd x)%R) as (K2 & W2 & P2); auto; try lia.
  set (r2 := mput md r1 (i * 2, j * 2 + 1, (- snd x)%R)) in *.
  destruct (K r2 (i * 2 + 1) (j * 2) (snd x)) as (K3 & W3 & P3); auto; try lia.
  set (r3 := mput md r2 (i * 2 + 1, j * 2, snd x)) in *.
  destruct (K r3 (i * 2 + 1) (j * 2 + 1) (fst x)) as (K4 & W4 & P4); auto; try lia.
  rewrite K4, K3, K2, K1. auto.
Qed.

(** * The API on one matrix *)

(** A matrix object in the given assembly state that holds [f]. *)
Definition repM (M : rmat) (m n : nat) (f : nat -> nat -> C) : Prop :=
  m_nr M = m * 2 /\ m_nc M = n * 2 /\ rep (m_rows M) m n f.

Definition good (M : rmat) (m n : nat) (f : nat -> nat -> C) : Prop :=
  repM M m n f /\ m_asm M = true /\ m_mode M = None.

Definition mode_ok (M : rmat) (md : imode) : Prop := m_mode M = None \/ m_mode M = Some md.

Lemma rep_ext rows m n f g : rep rows m n f -> (forall i j, i < m -> j < n -> f i j = g i j) -> rep rows m n g.
Proof.
  intros (Hw & Hc & Hv) H. split; [|split]; auto. intros i j Hi Hj. rewrite <- H by auto. auto.
Qed.
Lemma good_ext M m n f g : good M m n f -> (forall i j, i < m -> j < n -> f i j = g i j) -> good M m n g.
Proof. intros ((H1 & H2 & H3) & H4) H. split; auto. split; [|split]; auto. eapply rep_ext; eauto. Qed.

Lemma ltb_block m i : i < m -> forallb (fun k => k <? m * 2) (block_idx i) = true.
Proof.
  intros H. rewrite block_idx_eq. cbn. rewrite !andb_true_iff. repeat split; auto; apply Nat.ltb_lt; lia.
Qed.

Lemma mode_no_conflict M md : mode_ok M md ->
  match m_mode M with Some md' => negb (imode_eqb md md') | None => false end = false.
Proof. intros [H|H]; rewrite H; auto. destruct md; auto. Qed.

Lemma set_element_ok M m n f i j x md : repM M m n f -> mode_ok M md -> i < m -> j < n ->
  set_element M i j x md =
  Ok (mkMat (m_nr M) (m_nc M) (put4 md (m_rows M) i j x) false (Some md)).
Proof.
  intros (H1 & H2 & H3) Hm Hi Hj. unfold set_element, mat_set_values.
  rewrite mode_no_conflict by auto. rewrite H1, H2, !ltb_block by auto. cbn [andb].
  rewrite block_fold. auto.
Qed.

Lemma set_elements_ok M m n f l md : repM M m n f -> mode_ok M md -> in_range m n l = true ->
  exists M', set_elements M md l = Ok M' /\ repM M' m n (fold_left (cput md) l f) /\ mode_ok M' md /\
    m_nr M' = m_nr M /\ m_nc M' = m_nc M /\
    ((forall e, In e l -> has (m_rows M) (fst (fst e) * 2) (snd (fst e) * 2) = true) ->
     keys (m_rows M') = keys (m_rows M) /\ (forall a b, has (m_rows M) a b = true -> has (m_rows M') a b = true)).
Proof.
  revert M f. induction l as [|[[i j] x] l IH]; intros M f HR Hm Hr; cbn [in_range forallb fst snd] in Hr.
  - exists M. cbn. auto 10.
  - apply andb_true_iff in Hr. destruct Hr as [H1 H2]. apply andb_true_iff in H1. destruct H1 as [Hi Hj].
    apply Nat.ltb_lt in Hi, Hj. unfold set_elements. cbn [ofold].
    rewrite (@set_element_ok M m n f) by auto. cbn [obind].
    set (M1 := mkMat (m_nr M) (m_nc M) (put4 md (m_rows M) i j x) false (Some md)).
    destruct HR as (R1 & R2 & R3).
    assert (HR1 : repM M1 m n (cput md f (i, j, x))).
    { split; [|split]; auto. apply put4_rep; auto. }
    destruct (IH M1 (cput md f (i, j, x)) HR1) as (M' & E & HR' & Hm' & N1 & N2 & K); auto.
    { right; auto. }
    exists M'. split; [exact E|]. split; [exact HR'|]. split; [exact Hm'|].
    split; [auto|]. split; [auto|].
    intros Hall. pose proof (Hall _ (or_introl eq_refl)) as H0. cbn [fst snd] in H0.
    destruct R3 as (W & Cl & V).
    assert (P : forall a b, has (m_rows M) a b = true -> has (m_rows M1) a b = true).
    { intros a b Hab. cbn [M1 m_rows]. rewrite (@put4_has md (m_rows M) m n) by auto. rewrite Hab.
      rewrite !orb_true_r. auto. }
    destruct K as [K1 K2].
    { intros e He. apply P. apply Hall. right; auto. }
    split.
    + rewrite K1. cbn [M1 m_rows]. apply (@put4_keys md (m_rows M) m n); auto.
    + auto.
Qed.

Lemma get_element_ok M m n f i j : good M m n f -> i < m -> j < n -> get_element M i j = Ok (f i j).
Proof.
  intros ((H1 & H2 & (W & Cl & V)) & H3 & H4) Hi Hj. unfold get_element, mat_get_values.
  rewrite H3, H1, H2, !ltb_block by auto. cbn [andb obind]. rewrite !block_idx_eq.
  cbn [list_prod map app]. unfold matrix_from_library. cbn [nth fst snd].
  destruct (V i j Hi Hj) as (V1 & V2 & V3 & V4). rewrite V1, V2. f_equal. apply C_eq; cbn; lra.
Qed.

Lemma assemble_good M m n f : repM M m n f -> good (mat_assemble M) m n f.
Proof. intros (H1 & H2 & H3). split; [split; [|split]|]; auto. Qed.

(** New matrices. *)
Lemma row_of_repeat r n i : i < n -> row_of (repeat r n) i = r.
Proof. revert i; induction n; intros [|i] H; cbn; auto; try lia. apply IHn; lia. Qed.

Lemma mat_new_rep m n : repM (mat_new m n) m n zerof.
Proof.
  split; [|split]; auto. cbn [mat_new m_rows]. unfold elementSize. split; [|split].
  - split; [apply repeat_length|]. intros i Hi. rewrite row_of_repeat by auto. split; constructor.
  - intros i j Hi Hj. unfold has. rewrite !row_of_repeat by lia. auto.
  - intros i j Hi Hj. unfold rget. rewrite !row_of_repeat by lia. cbn. repeat split; auto; lra.
Qed.

Definition full_row (n : nat) : rrow := map (fun j => (j, 0%R)) (iota n).

Lemma rfind_map_pair (g : nat -> R) l j : rfind j (map (fun k => (k, g k)) l) = if existsb (Nat.eqb j) l then Some (g j) else None.
Proof.
  induction l as [|k l IH]; cbn; auto. destruct (j =? k) eqn:E; cbn; auto.
  apply Nat.eqb_eq in E; subst; auto.
Qed.

Lemma existsb_iota j n : existsb (Nat.eqb j) (iota n) = (j <? n).
Proof.
  destruct (j <? n) eqn:E.
  - apply existsb_exists. exists j. split; [|apply Nat.eqb_refl]. apply in_iota. apply Nat.ltb_lt; auto.
  - apply Nat.ltb_ge in E. destruct (existsb (Nat.eqb j) (iota n)) eqn:E2; auto.
    apply existsb_exists in E2. destruct E2 as (x & H1 & H2). apply in_iota in H1. apply Nat.eqb_eq in H2. lia.
Qed.

Lemma rfind_full n j : rfind j (full_row n) = if j <? n then Some 0%R else None.
Proof. unfold full_row. rewrite (rfind_map_pair (fun _ => 0%R)). rewrite existsb_iota. auto. Qed.

Lemma seq_sorted a n : StronglySorted lt (seq a n).
Proof.
  revert a; induction n; intros a; cbn; constructor; auto. apply Forall_forall. intros x Hx. apply in_seq in Hx. lia.
Qed.

Lemma full_row_sorted n : sorted (full_row n).
Proof. unfold sorted, full_row. rewrite map_map. cbn. rewrite map_id. apply seq_sorted. Qed.

Lemma full_row_below n : below n (full_row n).
Proof. unfold below, full_row. rewrite Forall_map. apply Forall_forall. intros x Hx. apply in_iota in Hx. auto. Qed.

Lemma mat_new_dense_rep m n : repM (mat_new_dense m n) m n zerof.
Proof.
  split; [|split]; auto. cbn [mat_new_dense m_rows]. unfold elementSize.
  fold (full_row (n * 2)). split; [|split].
  - split; [apply repeat_length|]. intros i Hi. rewrite row_of_repeat by auto.
    split; [apply full_row_sorted|apply full_row_below].
  - intros i j Hi Hj. unfold has, hasb. rewrite !row_of_repeat by lia. rewrite !rfind_full.
    replace (j * 2 <? n * 2) with true by (symmetry; apply Nat.ltb_lt; lia).
    replace (j * 2 + 1 <? n * 2) with true by (symmetry; apply Nat.ltb_lt; lia). auto.
  - intros i j Hi Hj. unfold rget. rewrite !row_of_repeat by lia. rewrite !rfind_full.
    replace (j * 2 <? n * 2) with true by (symmetry; apply Nat.ltb_lt; lia).
    replace (j * 2 + 1 <? n * 2) with true by (symmetry; apply Nat.ltb_lt; lia).
    cbn. repeat split; auto; lra.
Qed.

Lemma blank_rep m n d : repM (blank m n d) m n zerof /\ m_mode (blank m n d) = None /\ m_asm (blank m n d) = false.
Proof. destruct d; cbn [blank]; split; auto; [apply mat_new_dense_rep|apply mat_new_rep]. Qed.

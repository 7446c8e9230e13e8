(** Proofs about the matrix operations for complex values on a real library. *)
From Coq Require Import Reals Lra Sorted.
From Coquelicot Require Import Complex.
From Verif Require Import Prelude CxModel CxSpec CxProofs.
Local Open Scope nat_scope.

(** * Moving values *)
Lemma from_to_library l : from_library (to_library l) = Ok l.
Proof. induction l as [|[a b] l IH]; cbn; auto. fold (to_library l). rewrite IH. auto. Qed.

Lemma unary_to_library op l : unary_operation op (to_library l) = Ok (to_library (map op l)).
Proof. induction l as [|[a b] l IH]; cbn; auto. fold (to_library l). rewrite IH. auto. Qed.

Lemma to_library_app a b : to_library (a ++ b) = to_library a ++ to_library b.
Proof. unfold to_library. apply flat_map_app. Qed.

Lemma to_library_length l : length (to_library l) = length l * 2.
Proof. induction l; auto. cbn [to_library flat_map app length]. fold (to_library l). lia. Qed.

Lemma nth_to_library l i : nth (i * 2) (to_library l) 0%R = fst (ccat l i) /\
                           nth (i * 2 + 1) (to_library l) 0%R = snd (ccat l i).
Proof.
  unfold ccat. revert i; induction l as [|z l IH]; intros i.
  - cbn [to_library flat_map]. split; [destruct (i * 2)|destruct (i * 2 + 1)]; destruct i; auto.
  - destruct i as [|i]; auto. cbn [to_library flat_map]. fold (to_library l). cbn [app].
    replace (S i * 2) with (S (S (i * 2))) by lia. cbn. apply IH.
Qed.

(** * Fold over outcomes *)
Lemma ofold_app {A S} (f : S -> A -> outcome S) l1 l2 s :
  ofold f (l1 ++ l2) s = obind (ofold f l1 s) (ofold f l2).
Proof. revert s; induction l1; intros s; cbn; auto. destruct (f s a); cbn; auto. Qed.

Lemma map_iota_nth {A B} (g : A -> B) (l : list A) d :
  map (fun k => g (nth k l d)) (iota (length l)) = map g l.
Proof.
  unfold iota. induction l as [|a l IH]; cbn; auto. f_equal. rewrite <- IH.
  rewrite <- seq_shift, map_map. auto.
Qed.

Lemma map_ext_iota {B} n (f g : nat -> B) : (forall i, i < n -> f i = g i) -> map f (iota n) = map g (iota n).
Proof. intros H. apply map_ext_in. intros a Ha. apply H. apply in_iota; auto. Qed.

(** * Rows made of pairs *)
Definition unpair (p : nat * C) : rrow := [(fst p * 2, fst (snd p)); (fst p * 2 + 1, snd (snd p))].

Lemma parity k : (exists j, k = j * 2) \/ (exists j, k = j * 2 + 1).
Proof.
  induction k as [|k [[j H]|[j H]]].
  - left; exists 0; auto.
  - right; exists j; lia.
  - left; exists (S j); lia.
Qed.

Lemma paired r : sorted r -> (forall j, hasb (j * 2 + 1) r = hasb (j * 2) r) ->
  exists ps, r = flat_map unpair ps.
Proof.
  remember (length r) as n eqn:En. revert r En. induction n as [n IH] using lt_wf_ind. intros r En Hs Hh.
  destruct r as [|[k v] r]; [exists []; auto|].
  destruct (sorted_cons_inv Hs) as [H1 H2].
  destruct (parity k) as [[j Hk]|[j Hk]].
  - subst k. pose proof (Hh j) as Hj. unfold hasb at 2 in Hj. cbn [rfind] in Hj. rewrite Nat.eqb_refl in Hj.
    unfold hasb in Hj. cbn [rfind] in Hj. rewrite pair_oe in Hj.
    destruct r as [|[k2 w] r]; [discriminate|].
    destruct (sorted_cons_inv H1) as [H3 H4]. inversion H2; subst. cbn [fst] in *.
    cbn [rfind] in Hj. destruct (j * 2 + 1 =? k2) eqn:E.
    + apply Nat.eqb_eq in E; subst k2.
      destruct (IH (length r)) with (r := r) as (ps & Hps); auto.
      { cbn; lia. }
      { intros i. pose proof (Hh i) as Hi. unfold hasb in *. cbn [rfind] in Hi.
        rewrite pair_even_l, pair_odd_l, pair_eo, pair_oe in Hi.
        destruct (i =? j) eqn:Eij; [|exact Hi].
        apply Nat.eqb_eq in Eij; subst i.
        rewrite (rfind_lt H4). rewrite (@rfind_lt (j * 2) r); auto. }
      exists ((j, (v, w)) :: ps). cbn. rewrite <- Hps. auto.
    + rewrite rfind_lt in Hj; [discriminate|]. apply Nat.eqb_neq in E.
      eapply Forall_impl; [|exact H4]. cbn; intros; lia.
  - subst k. pose proof (Hh j) as Hj. unfold hasb in Hj. cbn [rfind] in Hj. rewrite Nat.eqb_refl, pair_eo in Hj.
    rewrite rfind_lt in Hj; [discriminate|]. eapply Forall_impl; [|exact H2]. cbn; intros; lia.
Qed.

Lemma rfind_unpair ps j :
  rfind (j * 2) (flat_map unpair ps) = option_map (@fst R R) (option_map snd (find (fun p => fst p =? j) ps)) /\
  rfind (j * 2 + 1) (flat_map unpair ps) = option_map (@snd R R) (option_map snd (find (fun p => fst p =? j) ps)).
Proof.
  induction ps as [|[k z] ps IH]; cbn [flat_map unpair app rfind find fst snd option_map]; auto.
  rewrite pair_even_l, pair_odd_l, pair_eo, pair_oe. rewrite (Nat.eqb_sym j k).
  destruct (k =? j); auto.
Qed.

Lemma unpair_fst ps k d : k < length ps -> nth (k * 2) (map fst (flat_map unpair ps)) 0 = fst (nth k ps d) * 2.
Proof.
  revert k; induction ps as [|p ps IH]; intros [|k] H; cbn [length] in H; try lia; auto.
  cbn [flat_map unpair app map]. replace (S k * 2) with (S (S (k * 2))) by lia. cbn [nth]. apply IH. lia.
Qed.

Lemma unpair_snd ps : map snd (flat_map unpair ps) = to_library (map snd ps).
Proof. induction ps as [|p ps IH]; cbn; auto. fold (to_library (map snd ps)). rewrite IH. auto. Qed.

(** * Closed block patterns *)
Lemma closed_row rows m n i k : wf rows (m * 2) (n * 2) -> closed rows m n -> i < m ->
  has rows (i * 2 + 1) k = has rows (i * 2) k.
Proof.
  intros [L W] Hc Hi. destruct (lt_dec k (n * 2)) as [Hk|Hk].
  - destruct (parity k) as [[j E]|[j E]]; subst k.
    + destruct (Hc i j) as (A1 & B1 & D1); [lia..|congruence].
    + destruct (Hc i j) as (A1 & B1 & D1); [lia..|]. congruence.
  - assert (Hb : forall a, a < m * 2 -> has rows a k = false).
    { intros a Ha. unfold has. destruct (hasb k (row_of rows a)) eqn:E; auto.
      apply (hasb_lt (n := n * 2)) in E; [lia|]. apply W; auto. }
    rewrite !Hb; auto; lia.
Qed.

Lemma closed_col rows m n a j : wf rows (m * 2) (n * 2) -> closed rows m n -> a < m * 2 ->
  has rows a (j * 2 + 1) = has rows a (j * 2).
Proof.
  intros [L W] Hc Ha. destruct (lt_dec j n) as [Hj|Hj].
  - destruct (parity a) as [[i E]|[i E]]; subst a.
    + destruct (Hc i j) as (A1 & B1 & D1); [lia..|congruence].
    + destruct (Hc i j) as (A1 & B1 & D1); [lia..|]. congruence.
  - assert (Hb : forall k, n * 2 <= k -> has rows a k = false).
    { intros k Hk. unfold has. destruct (hasb k (row_of rows a)) eqn:E; auto.
      apply (hasb_lt (n := n * 2)) in E; [lia|]. apply W; auto. }
    rewrite !Hb; auto; lia.
Qed.

Lemma closed_intro rows m n :
  (forall i k, i < m -> k < n * 2 -> has rows (i * 2 + 1) k = has rows (i * 2) k) ->
  (forall a j, a < m * 2 -> j < n -> has rows a (j * 2 + 1) = has rows a (j * 2)) -> closed rows m n.
Proof.
  intros H1 H2 i j Hi Hj. split; [|split].
  - apply H2; lia.
  - apply H1; lia.
  - rewrite H2 by lia. apply H1; lia.
Qed.

(** * p_applyOperation *)
Lemma fold_aset_same (g : nat -> C) (i : nat) ps (f : nat -> nat -> C) a b :
  fold_left aset (map (fun k => (i, k, g k)) ps) f a b =
  if (a =? i) && existsb (Nat.eqb b) ps then g b else f a b.
Proof.
  revert f; induction ps as [|k ps IH]; intros f; cbn [map fold_left existsb].
  - rewrite andb_false_r. auto.
  - rewrite IH. unfold aset; cbn [fst snd].
    destruct (a =? i), (b =? k) eqn:E, (existsb (Nat.eqb b) ps); cbn; auto.
    apply Nat.eqb_eq in E; subst; auto.
Qed.

Lemma find_existsb (ps : list (nat * C)) j :
  match find (fun p => fst p =? j) ps with Some _ => true | None => false end = existsb (Nat.eqb j) (map fst ps).
Proof.
  induction ps as [|p ps IH]; cbn; auto. rewrite (Nat.eqb_sym j). destruct (fst p =? j); auto.
Qed.

Definition applied (op : C -> C) (rows : list rrow) (f : nat -> nat -> C) (k : nat) : nat -> nat -> C :=
  fun a b => if (a <? k) && has rows (a * 2) (b * 2) then op (f a b) else f a b.

Lemma keys_has A B a b : keys A = keys B -> has A a b = has B a b.
Proof.
  intros H. unfold has. rewrite !hasb_exists.
  assert (E : map fst (row_of A a) = map fst (row_of B a)).
  { assert (E1 : forall X, map fst (row_of X a) = nth a (keys X) []).
    { intros X. exact (eq_sym (map_nth (map (@fst nat R)) X [] a)). }
    rewrite !E1, H. auto. }
  clear H. revert E. generalize (row_of A a) (row_of B a). intros r1.
  induction r1 as [|e r1 IH]; intros [|e2 r2] E; try discriminate; auto.
  cbn in *. inversion E. rewrite H0. f_equal. apply IH; auto.
Qed.

Lemma apply_row_ok op A m n f i T ft :
  repM A m n f -> repM T m n ft -> mode_ok T INS -> keys (m_rows T) = keys (m_rows A) -> i < m ->
  exists T', apply_row op A T (i * 2) = Ok T' /\ mode_ok T' INS /\ keys (m_rows T') = keys (m_rows A) /\
    m_nr T' = m_nr T /\ m_nc T' = m_nc T /\
    repM T' m n (fun a b => if (a =? i) && has (m_rows A) (a * 2) (b * 2) then op (f a b) else ft a b).
Proof.
  intros HA HT Hm HK Hi. destruct HA as (A1 & A2 & (W & Cl & V)).
  assert (Wr : sorted (row_of (m_rows A) (i * 2)) /\ below (n * 2) (row_of (m_rows A) (i * 2))).
  { apply W. lia. }
  destruct Wr as [Ws Wb].
  destruct (@paired (row_of (m_rows A) (i * 2))) as (ps & Hps); auto.
  { intros j. apply (@closed_col (m_rows A) m n); auto. lia. }
  unfold apply_row. rewrite Hps. rewrite unpair_snd, from_to_library. cbn [obind].
  set (es := map _ (iota _)).
  assert (He : es = map (fun j => (i, j, op (f i j))) (map fst ps)).
  { unfold es. rewrite !map_length. rewrite (map_map fst (fun j => (i, j, op (f i j)))).
    rewrite <- (map_iota_nth (fun p : nat * C => (i, fst p, op (f i (fst p)))) ps (0, RtoC 0)).
    apply map_ext_iota. intros k Hk. unfold elementSize.
    rewrite (unpair_fst ps (0, RtoC 0)) by auto. rewrite !Nat.div_mul by lia.
    f_equal. rewrite map_map.
    rewrite nth_indep with (d' := op (op_conj (snd (0, RtoC 0)))) by (rewrite !map_length; auto).
    rewrite (map_nth (fun x => op (op_conj x))). rewrite map_nth. f_equal.
    set (p := nth k ps (0, RtoC 0)).
    assert (Hin : In p ps) by (apply nth_In; auto).
    assert (Hrow : In (fst p * 2, fst (snd p)) (row_of (m_rows A) (i * 2)) /\
                   In (fst p * 2 + 1, snd (snd p)) (row_of (m_rows A) (i * 2))).
    { rewrite Hps. split; apply in_flat_map; exists p; split; auto; cbn; auto. }
    destruct Hrow as [R1 R2].
    assert (Hj : fst p < n).
    { unfold below in Wb. rewrite Forall_forall in Wb. apply Wb in R1. cbn in R1. lia. }
    apply in_rfind in R1; auto. apply in_rfind in R2; auto.
    destruct (V i (fst p) Hi Hj) as (V1 & V2 & _ & _). unfold rget in V1, V2.
    rewrite R1 in V1. rewrite R2 in V2. cbn [oval] in V1, V2. apply C_eq; cbn [op_conj fst snd]; lra. }
  rewrite He.
  assert (Hex : forall b, existsb (Nat.eqb b) (map fst ps) = has (m_rows A) (i * 2) (b * 2)).
  { intros b. rewrite <- find_existsb. unfold has, hasb. rewrite Hps.
    rewrite (proj1 (rfind_unpair ps b)). destruct (find _ ps); auto. }
  assert (Hin : forall j, In j (map fst ps) -> has (m_rows A) (i * 2) (j * 2) = true).
  { intros j Hj. rewrite <- Hex. apply existsb_exists. exists j. split; auto. apply Nat.eqb_refl. }
  destruct (@set_elements_ok T m n ft (map (fun j => (i, j, op (f i j))) (map fst ps)) INS)
    as (T' & E & HR & Hm' & N1 & N2 & K); auto.
  { unfold in_range. apply forallb_forall. intros e He'. apply in_map_iff in He'.
    destruct He' as (j & <- & Hj). cbn [fst snd]. rewrite andb_true_iff. split; apply Nat.ltb_lt; auto.
    apply Hin in Hj. unfold has in Hj. apply (hasb_lt (n := n * 2)) in Hj; auto. lia. }
  exists T'. split; [exact E|]. split; [exact Hm'|]. split.
  { destruct K as [K1 K2]; [|rewrite K1; auto].
    intros e He'. apply in_map_iff in He'. destruct He' as (j & <- & Hj). cbn [fst snd].
    rewrite (@keys_has _ _ _ _ HK). auto. }
  split; [auto|]. split; [auto|].
  destruct HR as (Q1 & Q2 & Q3). split; [auto|]. split; [auto|].
  eapply rep_ext; [exact Q3|]. intros a b Ha Hb. cbn [cput]. rewrite fold_aset_same. rewrite Hex.
  destruct (a =? i) eqn:E1; cbn [andb]; auto. apply Nat.eqb_eq in E1; subst. auto.
Qed.

Lemma apply_loop op A m n f k : repM A m n f -> mode_ok A INS -> k <= m ->
  exists T, ofold (apply_row op A) (map (fun k => k * 2) (iota k)) A = Ok T /\ mode_ok T INS /\
    keys (m_rows T) = keys (m_rows A) /\ m_nr T = m_nr A /\ m_nc T = m_nc A /\
    repM T m n (applied op (m_rows A) f k).
Proof.
  intros HA Hm. induction k as [|k IH]; intros Hk.
  - exists A. cbn. auto 10.
  - destruct IH as (T & E & M1 & K1 & N1 & N2 & R1); [lia|].
    unfold iota. rewrite seq_S, map_app, ofold_app. cbn [map Nat.add]. fold (iota k). rewrite E. cbn [obind ofold].
    destruct (@apply_row_ok op A m n f k T (applied op (m_rows A) f k)) as (T' & E' & M' & K' & N1' & N2' & R');
      auto; try lia.
    rewrite E'. cbn [obind]. exists T'. split; auto. split; auto. split; auto.
    split; [congruence|]. split; [congruence|].
    destruct R' as (Q1 & Q2 & Q3). split; [auto|]. split; [auto|].
    eapply rep_ext; [exact Q3|]. intros a b Ha Hb. unfold applied.
    destruct (a =? k) eqn:E1.
    + apply Nat.eqb_eq in E1; subst a. replace (k <? S k) with true by (symmetry; apply Nat.ltb_lt; lia).
      cbn [andb]. rewrite Nat.ltb_irrefl. auto.
    + apply Nat.eqb_neq in E1. cbn [andb]. destruct (a <? k) eqn:E2.
      * apply Nat.ltb_lt in E2. replace (a <? S k) with true by (symmetry; apply Nat.ltb_lt; lia). auto.
      * apply Nat.ltb_ge in E2. replace (a <? S k) with false by (symmetry; apply Nat.ltb_ge; lia). auto.
Qed.

Lemma apply_operation_ok op A m n f : good A m n f -> op (RtoC 0) = RtoC 0 ->
  exists B, apply_operation op A = Ok B /\ good B m n (fun i j => op (f i j)).
Proof.
  intros (HA & Has & Hmo) H0. unfold apply_operation. rewrite Has.
  pose proof HA as (N1 & N2 & (W & Cl & V)). rewrite N1. rewrite Nat.div_mul by lia.
  destruct (@apply_loop op A m n f m HA) as (T & E & M1 & K1 & T1 & T2 & R1); auto.
  { left; auto. }
  rewrite E. cbn [obind]. unfold mat_copy_same. cbn [mat_assemble m_asm m_rows]. rewrite Has. cbn [andb].
  rewrite same_pattern_keys by auto. eexists. split; [reflexivity|].
  split; [|split]; auto. split; [|split]; cbn; auto.
  destruct R1 as (_ & _ & R1). eapply rep_ext; [exact R1|].
  intros i j Hi Hj. unfold applied. replace (i <? m) with true by (symmetry; apply Nat.ltb_lt; auto).
  cbn [andb]. destruct (has (m_rows A) (i * 2) (j * 2)) eqn:Eh; auto.
  assert (f i j = RtoC 0).
  { destruct (V i j Hi Hj) as (V1 & V2 & V3 & V4). destruct (Cl i j Hi Hj) as (C1 & C2 & C3).
    rewrite Eh in C1. unfold rget in V1, V2. unfold has, hasb in Eh, C1.
    destruct (rfind (j * 2) (row_of (m_rows A) (i * 2))); [discriminate|].
    destruct (rfind (j * 2 + 1) (row_of (m_rows A) (i * 2))); [discriminate|]. cbn in V1, V2.
    apply C_eq; cbn; lra. }
  rewrite H, H0. auto.
Qed.

(** * zero, identity, shifts *)
Lemma rfind_zero j r : rfind j (zero_row r) = option_map (fun _ => 0%R) (rfind j r).
Proof. induction r as [|[k v] r IH]; cbn; auto. destruct (j =? k); auto. Qed.

Lemma zero_row_keys r : map fst (zero_row r) = map fst r.
Proof. unfold zero_row. rewrite map_map. cbn. auto. Qed.

Lemma zero_row_sorted r : sorted r -> sorted (zero_row r).
Proof. unfold sorted. rewrite zero_row_keys. auto. Qed.

Lemma zero_row_below n r : below n r -> below n (zero_row r).
Proof. unfold below, zero_row. rewrite Forall_map. cbn. auto. Qed.

Lemma row_of_zero rows i : row_of (map (map (fun e : nat * R => (fst e, 0%R))) rows) i = zero_row (row_of rows i).
Proof. unfold row_of, zero_row. exact (map_nth (map (fun e : nat * R => (fst e, 0%R))) rows [] i). Qed.

Lemma zero_ok A m n f : good A m n f -> exists B, m_zero A = Ok B /\ good B m n zerof.
Proof.
  intros ((N1 & N2 & (W & Cl & V)) & Has & Hmo). unfold m_zero, mat_zero_entries. rewrite Hmo.
  eexists. split; [reflexivity|]. split; [|split]; auto. split; [|split]; auto. cbn [m_rows].
  destruct W as [L W]. split; [|split].
  - split; [rewrite map_length; auto|]. intros i Hi. rewrite row_of_zero.
    destruct (W i Hi). split; [apply zero_row_sorted|apply zero_row_below]; auto.
  - intros i j Hi Hj. destruct (Cl i j Hi Hj) as (C1 & C2 & C3). unfold has, hasb in *.
    rewrite !row_of_zero, !rfind_zero.
    destruct (rfind (j * 2) (row_of (m_rows A) (i * 2))), (rfind (j * 2 + 1) (row_of (m_rows A) (i * 2))),
             (rfind (j * 2) (row_of (m_rows A) (i * 2 + 1))), (rfind (j * 2 + 1) (row_of (m_rows A) (i * 2 + 1)));
      cbn in *; auto; discriminate.
  - intros i j Hi Hj. unfold rget. rewrite !row_of_zero, !rfind_zero.
    assert (Z : forall o : option R, oval (option_map (fun _ => 0%R) o) = 0%R) by (intros [|]; auto).
    rewrite !Z. cbn. repeat split; auto; lra.
Qed.

Lemma fold_aadd_diag x k f a b :
  fold_left aadd (map (fun i => (i, i, x)) (iota k)) f a b =
  if (a =? b) && (a <? k) then Cplus (f a b) x else f a b.
Proof.
  induction k as [|k IH].
  - cbn. rewrite andb_false_r. auto.
  - unfold iota in *. rewrite seq_S, map_app, fold_left_app. cbn [map fold_left Nat.add]. unfold aadd at 1.
    cbn [fst snd]. rewrite IH. destruct (a =? k) eqn:E1; cbn [andb].
    + apply Nat.eqb_eq in E1; subst a. replace (k <? S k) with true by (symmetry; apply Nat.ltb_lt; lia).
      rewrite Nat.ltb_irrefl. rewrite (Nat.eqb_sym b k). destruct (k =? b); cbn; auto.
    + apply Nat.eqb_neq in E1. destruct (a <? k) eqn:E2.
      * apply Nat.ltb_lt in E2. replace (a <? S k) with true by (symmetry; apply Nat.ltb_lt; lia). auto.
      * apply Nat.ltb_ge in E2. replace (a <? S k) with false by (symmetry; apply Nat.ltb_ge; lia). auto.
Qed.

Lemma fold_aset_diag (g : nat -> C) k f a b :
  fold_left aset (map (fun i => (i, i, g i)) (iota k)) f a b =
  if (a =? b) && (a <? k) then g a else f a b.
Proof.
  induction k as [|k IH].
  - cbn. rewrite andb_false_r. auto.
  - unfold iota in *. rewrite seq_S, map_app, fold_left_app. cbn [map fold_left Nat.add]. unfold aset at 1.
    cbn [fst snd]. rewrite IH. destruct (a =? k) eqn:E1; cbn [andb].
    + apply Nat.eqb_eq in E1; subst a. replace (k <? S k) with true by (symmetry; apply Nat.ltb_lt; lia).
      rewrite Nat.ltb_irrefl. rewrite (Nat.eqb_sym b k). destruct (k =? b); cbn; auto.
    + apply Nat.eqb_neq in E1. destruct (a <? k) eqn:E2.
      * apply Nat.ltb_lt in E2. replace (a <? S k) with true by (symmetry; apply Nat.ltb_lt; lia). auto.
      * apply Nat.ltb_ge in E2. replace (a <? S k) with false by (symmetry; apply Nat.ltb_ge; lia). auto.
Qed.

Lemma diag_in_range k m n (g : nat -> C) : k <= m -> k <= n -> in_range m n (map (fun i => (i, i, g i)) (iota k)) = true.
Proof.
  intros H1 H2. unfold in_range. apply forallb_forall. intros e He. apply in_map_iff in He.
  destruct He as (i & <- & Hi). apply in_iota in Hi. cbn. rewrite andb_true_iff. split; apply Nat.ltb_lt; lia.
Qed.

Lemma mat_rows_ok M m n f : repM M m n f -> mat_rows M = m.
Proof. intros (H & _). unfold mat_rows, elementSize. rewrite H. apply Nat.div_mul; lia. Qed.
Lemma mat_cols_ok M m n f : repM M m n f -> mat_cols M = n.
Proof. intros (_ & H & _). unfold mat_cols, elementSize. rewrite H. apply Nat.div_mul; lia. Qed.

Lemma set_good M m n f l md : repM M m n f -> mode_ok M md -> in_range m n l = true ->
  exists M', ready (set_elements M md l) = Ok M' /\ good M' m n (fold_left (cput md) l f).
Proof.
  intros H1 H2 H3. destruct (@set_elements_ok M m n f l md) as (M' & E & HR & _); auto.
  exists (mat_assemble M'). split; [unfold ready; rewrite E; auto|]. apply assemble_good; auto.
Qed.

Lemma add_diagonal_ok A m n f x : good A m n f -> m <= n ->
  exists B, m_add_diagonal x A = Ok B /\ good B m n (fun i j => if i =? j then Cplus (f i j) x else f i j).
Proof.
  intros (HA & Has & Hmo) Hmn. unfold m_add_diagonal. rewrite (mat_rows_ok HA).
  destruct (@set_good A m n f (map (fun i => (i, i, x)) (iota m)) ADD) as (B & E & G); auto.
  { left; auto. } { apply (diag_in_range (fun _ => x)); auto. }
  exists B. split; [exact E|]. eapply good_ext; [exact G|]. intros i j Hi Hj. cbn [cput].
  rewrite fold_aadd_diag. replace (i <? m) with true by (symmetry; apply Nat.ltb_lt; auto).
  rewrite andb_true_r. auto.
Qed.

Lemma identity_new_ok n d :
  exists B, m_identity (blank n n d) = Ok B /\ good B n n (fun i j => if i =? j then RtoC 1 else RtoC 0).
Proof.
  destruct (blank_rep n n d) as (HA & Hmo & Has). unfold m_identity. rewrite Has. cbn [negb].
  rewrite (mat_rows_ok HA).
  destruct (@set_good (blank n n d) n n zerof (map (fun i => (i, i, RtoC 1)) (iota n)) INS) as (B & E & G); auto.
  { left; auto. } { apply (diag_in_range (fun _ => RtoC 1)); auto. }
  exists B. split; [exact E|]. eapply good_ext; [exact G|]. intros i j Hi Hj. cbn [cput].
  rewrite (fold_aset_diag (fun _ => RtoC 1)). replace (i <? n) with true by (symmetry; apply Nat.ltb_lt; auto).
  rewrite andb_true_r. auto.
Qed.

(** identity on an assembled matrix that stores every diagonal position. *)
Lemma shift_row_get rows nr i j a : (forall i, i < nr -> sorted (row_of rows i)) -> i < nr ->
  rget (map (fun i => rput ADD i a (row_of rows i)) (iota nr)) i j =
  if j =? i then (rget rows i i + a)%R else rget rows i j.
Proof.
  intros H Hi. unfold rget. rewrite row_of_map by auto. rewrite rfind_rput by auto.
  destruct (j =? i); auto.
Qed.

Lemma identity_ok A n f : good A n n f -> (forall i, i < n -> has (m_rows A) (i * 2) (i * 2) = true) ->
  exists B, m_identity A = Ok B /\ good B n n (fun i j => if i =? j then RtoC 1 else RtoC 0).
Proof.
  intros HA Hd. destruct (zero_ok HA) as (Z & EZ & GZ). pose proof HA as (_ & Has & _).
  unfold m_identity. rewrite Has. cbn [negb]. unfold m_zero in EZ. rewrite EZ. cbn [obind].
  assert (HdZ : forall a b, has (m_rows Z) a b = has (m_rows A) a b).
  { intros a b. unfold mat_zero_entries in EZ. destruct (m_mode A); [discriminate|]. inversion EZ; subst Z.
    cbn [m_rows]. unfold has, hasb. rewrite row_of_zero, rfind_zero.
    destruct (rfind b (row_of (m_rows A) a)); auto. }
  destruct GZ as ((N1 & N2 & (W & Cl & V)) & Zas & Zmo). unfold mat_shift. rewrite Zas, N1, N2.
  rewrite Nat.leb_refl. eexists. split; [reflexivity|]. split; [|split]; auto. split; [|split]; auto. cbn [m_rows].
  destruct W as [L W].
  assert (WS : forall i, i < n * 2 -> sorted (row_of (m_rows Z) i)) by (intros i Hi; apply W; auto).
  assert (Hcl : forall a b, a < n * 2 -> b < n * 2 ->
     has (map (fun i => rput ADD i 1%R (row_of (m_rows Z) i)) (iota (n * 2))) a b = has (m_rows Z) a b).
  { intros a b Ha Hb. unfold has at 1. rewrite row_of_map by auto. rewrite hasb_rput by auto.
    destruct (b =? a) eqn:E; cbn [orb]; auto. apply Nat.eqb_eq in E; subst b. symmetry. rewrite HdZ.
    destruct (parity a) as [[i Hi]|[i Hi]]; subst a.
    - apply Hd; lia.
    - destruct HA as ((_ & _ & (_ & ClA & _)) & _). destruct (ClA i i) as (_ & _ & D); try lia. rewrite D.
      apply Hd; lia. }
  split; [|split].
  - split; [rewrite map_length; unfold iota; apply seq_length|]. intros i Hi. rewrite row_of_map by auto.
    destruct (W i Hi). split; [apply rput_sorted|apply rput_below]; auto.
  - intros i j Hi Hj. rewrite !Hcl by lia. apply Cl; auto.
  - intros i j Hi Hj. rewrite !shift_row_get by (auto; lia).
    destruct (V i j Hi Hj) as (V1 & V2 & V3 & V4).
    rewrite !pair_even_l, !pair_odd_l, !pair_eo, !pair_oe. rewrite (Nat.eqb_sym j i).
    destruct (i =? j) eqn:E.
    + apply Nat.eqb_eq in E; subst j. rewrite V1, V2, V3, V4. cbn. repeat split; lra.
    + rewrite V1, V2, V3, V4. cbn. repeat split; lra.
Qed.

(** * equate and add *)
Lemma compatible_ok A B m n f m' n' g : good A m n f -> good B m' n' g -> m = m' -> n = n' -> compatible A B = true.
Proof.
  intros (HA & _) (HB & _) -> ->. unfold compatible.
  rewrite (mat_rows_ok HA), (mat_rows_ok HB), (mat_cols_ok HA), (mat_cols_ok HB). rewrite !Nat.eqb_refl. auto.
Qed.

Lemma iota_length n : length (iota n) = n.
Proof. apply seq_length. Qed.

Lemma equate_ok A B m n f g : good A m n f -> good B m n g ->
  exists A', m_equate A B = Ok A' /\ good A' m n g.
Proof.
  intros HA HB. unfold m_equate. rewrite (compatible_ok HA HB) by auto.
  destruct HA as ((A1 & A2 & ([LA WA] & ClA & VA)) & Aas & Amo).
  destruct HB as ((B1 & B2 & ([LB WB] & ClB & VB)) & Bas & Bmo).
  unfold mat_copy_diff. rewrite Bas, Amo, A1, B1, A2, B2, !Nat.eqb_refl. cbn [andb].
  eexists. split; [reflexivity|]. split; [|split]; auto. split; [|split]; auto. cbn [m_rows].
  assert (F : forall i j, i < m * 2 ->
     rfind j (row_of (map (fun i => row_put_all INS (row_of (m_rows B) i) (zero_row (row_of (m_rows A) i))) (iota (m * 2))) i)
     = match rfind j (row_of (m_rows B) i) with Some v => Some v
       | None => option_map (fun _ => 0%R) (rfind j (row_of (m_rows A) i)) end).
  { intros i j Hi. rewrite row_of_map by auto. rewrite row_put_all_ins; [|apply WB; auto|apply zero_row_sorted, WA; auto].
    rewrite rfind_zero. auto. }
  assert (Hh : forall i j, i < m * 2 ->
     has (map (fun i => row_put_all INS (row_of (m_rows B) i) (zero_row (row_of (m_rows A) i))) (iota (m * 2))) i j
     = has (m_rows B) i j || has (m_rows A) i j).
  { intros i j Hi. unfold has, hasb. rewrite F by auto.
    destruct (rfind j (row_of (m_rows B) i)), (rfind j (row_of (m_rows A) i)); auto. }
  split; [|split].
  - split; [rewrite map_length, iota_length; auto|]. intros i Hi. rewrite row_of_map by auto.
    destruct (WA i Hi), (WB i Hi).
    split; [apply row_put_all_sorted, zero_row_sorted|apply row_put_all_below; [apply zero_row_below|]]; auto.
  - intros i j Hi Hj. rewrite !Hh by lia. destruct (ClA i j Hi Hj) as (H1 & H2 & H3), (ClB i j Hi Hj) as (H4 & H5 & H6).
    rewrite H1, H2, H3, H4, H5, H6. auto.
  - assert (G : forall i j, i < m * 2 ->
     rget (map (fun i => row_put_all INS (row_of (m_rows B) i) (zero_row (row_of (m_rows A) i))) (iota (m * 2))) i j
     = rget (m_rows B) i j).
    { intros i j Hi. unfold rget. rewrite F by auto.
      destruct (rfind j (row_of (m_rows B) i)), (rfind j (row_of (m_rows A) i)); auto. }
    intros i j Hi Hj. rewrite !G by lia. apply VB; auto.
Qed.

Lemma add_ok A B m n f g : good A m n f -> good B m n g ->
  exists A', m_add A B = Ok A' /\ good A' m n (fun i j => Cplus (f i j) (g i j)).
Proof.
  intros HA HB. unfold m_add. rewrite (compatible_ok HA HB) by auto.
  destruct HA as ((A1 & A2 & ([LA WA] & ClA & VA)) & Aas & Amo).
  destruct HB as ((B1 & B2 & ([LB WB] & ClB & VB)) & Bas & Bmo).
  unfold mat_axpy1. rewrite Bas, Aas, A1, B1, A2, B2, !Nat.eqb_refl. cbn [andb].
  eexists. split; [reflexivity|]. split; [|split]; auto. split; [|split]; auto. cbn [m_rows].
  assert (Hh : forall i j, i < m * 2 ->
     has (map (fun i => row_put_all ADD (row_of (m_rows B) i) (row_of (m_rows A) i)) (iota (m * 2))) i j
     = has (m_rows A) i j || has (m_rows B) i j).
  { intros i j Hi. unfold has. rewrite row_of_map by auto. rewrite row_put_all_has by (apply WA; auto).
    rewrite <- hasb_exists. auto. }
  split; [|split].
  - split; [rewrite map_length, iota_length; auto|]. intros i Hi. rewrite row_of_map by auto.
    destruct (WA i Hi), (WB i Hi). split; [apply row_put_all_sorted|apply row_put_all_below]; auto.
  - intros i j Hi Hj. rewrite !Hh by lia. destruct (ClA i j Hi Hj) as (H1 & H2 & H3), (ClB i j Hi Hj) as (H4 & H5 & H6).
    rewrite H1, H2, H3, H4, H5, H6. auto.
  - assert (G : forall i j, i < m * 2 ->
     rget (map (fun i => row_put_all ADD (row_of (m_rows B) i) (row_of (m_rows A) i)) (iota (m * 2))) i j
     = (rget (m_rows A) i j + rget (m_rows B) i j)%R).
    { intros i j Hi. unfold rget. rewrite row_of_map by auto. rewrite row_put_all_add by (apply WA; auto).
      rewrite single_sum by (apply WB; auto). auto. }
    intros i j Hi Hj. rewrite !G by lia.
    destruct (VA i j Hi Hj) as (H1 & H2 & H3 & H4), (VB i j Hi Hj) as (H5 & H6 & H7 & H8).
    rewrite H1, H2, H3, H4, H5, H6, H7, H8. cbn. repeat split; lra.
Qed.

(** * transpose *)
Definition opt_row (h : nat -> option R) (l : list nat) : rrow :=
  flat_map (fun i => match h i with Some v => [(i, v)] | None => [] end) l.

Lemma opt_row_rfind h l i : rfind i (opt_row h l) = if existsb (Nat.eqb i) l then h i else None.
Proof.
  induction l as [|k l IH]; cbn [opt_row flat_map existsb]; auto. fold (opt_row h l).
  destruct (i =? k) eqn:E; cbn [orb].
  - apply Nat.eqb_eq in E; subst k. destruct (h i) as [v|] eqn:Eh; cbn [app rfind].
    + rewrite Nat.eqb_refl. auto.
    + rewrite IH. destruct (existsb (Nat.eqb i) l); auto.
  - destruct (h k); cbn [app rfind]; auto. rewrite E. auto.
Qed.

Lemma opt_row_in h l e : In e (opt_row h l) -> In (fst e) l.
Proof.
  unfold opt_row. rewrite in_flat_map. intros (x & Hx & He). destruct (h x); [|destruct He].
  destruct He as [<-|[]]. auto.
Qed.

Lemma opt_row_sorted h l : StronglySorted lt l -> sorted (opt_row h l).
Proof.
  induction 1 as [|k l Hs IH Hk]; cbn [opt_row flat_map]; [constructor|]. fold (opt_row h l).
  destruct (h k); cbn [app]; auto. apply sorted_cons; auto.
  apply Forall_forall. intros e He. apply opt_row_in in He. rewrite Forall_forall in Hk. auto.
Qed.

Lemma transpose_lib A m n f : good A m n f ->
  exists B, mat_transpose A = Ok B /\ good B n m (fun i j => op_conj (f j i)).
Proof.
  intros ((A1 & A2 & ([LA WA] & ClA & VA)) & Aas & Amo). unfold mat_transpose. rewrite Aas, A1, A2.
  eexists. split; [reflexivity|]. split; [|split]; auto. split; [|split]; auto. cbn [m_rows].
  assert (F : forall a b, a < n * 2 -> b < m * 2 ->
     rfind b (row_of (map (fun j => opt_row (fun i => rfind j (row_of (m_rows A) i)) (iota (m * 2))) (iota (n * 2))) a)
     = rfind a (row_of (m_rows A) b)).
  { intros a b Ha Hb. rewrite row_of_map by auto. rewrite opt_row_rfind, existsb_iota.
    replace (b <? m * 2) with true by (symmetry; apply Nat.ltb_lt; auto). auto. }
  change (rep (map (fun j => opt_row (fun i => rfind j (row_of (m_rows A) i)) (iota (m * 2))) (iota (n * 2)))
              n m (fun i j => op_conj (f j i))).
  split; [|split].
  - split; [rewrite map_length, iota_length; auto|]. intros a Ha. rewrite row_of_map by auto. split.
    + apply opt_row_sorted. apply seq_sorted.
    + unfold below. apply Forall_forall. intros e He. apply opt_row_in in He. apply in_iota in He. auto.
  - intros i j Hi Hj. unfold has, hasb. rewrite !F by lia.
    destruct (ClA j i Hj Hi) as (H1 & H2 & H3). unfold has, hasb in *. auto.
  - intros i j Hi Hj. unfold rget. rewrite !F by lia.
    destruct (VA j i Hj Hi) as (H1 & H2 & H3 & H4). unfold rget in *. rewrite H1, H2, H3, H4.
    cbn. repeat split; auto; lra.
Qed.

Lemma conj_conj z : op_conj (op_conj z) = z.
Proof. apply C_eq; cbn; lra. Qed.

Lemma conj_zero : op_conj (RtoC 0) = RtoC 0.
Proof. apply C_eq; cbn; lra. Qed.

Lemma transpose_ok A m n f : good A m n f ->
  exists B, m_transpose A = Ok B /\ good B n m (fun i j => f j i).
Proof.
  intros HA. destruct (transpose_lib HA) as (T & E & G). unfold m_transpose. rewrite E. cbn [obind].
  destruct (@apply_operation_ok op_conj T n m _ G conj_zero) as (B & EB & GB). exists B. split; auto.
  eapply good_ext; [exact GB|]. intros i j _ _. cbn. apply conj_conj.
Qed.

(** * Products *)
Lemma fst_csum n f : fst (csum n f) = rsum (map (fun k => fst (f k)) (iota n)).
Proof. induction n as [|n IH]; cbn [csum]; auto. rewrite rsum_iota_S. cbn. rewrite IH. auto. Qed.
Lemma snd_csum n f : snd (csum n f) = rsum (map (fun k => snd (f k)) (iota n)).
Proof. induction n as [|n IH]; cbn [csum]; auto. rewrite rsum_iota_S. cbn. rewrite IH. auto. Qed.

Lemma csum_ext n f g : (forall k, k < n -> f k = g k) -> csum n f = csum n g.
Proof. induction n as [|n IH]; intros H; cbn; auto. rewrite IH, H by auto. auto. Qed.

Lemma mm_fold_ok B nr nc ra acc : wf B nr nc -> Forall (fun e : nat * R => fst e < nr) ra -> sorted acc -> below nc acc ->
  let res := fold_left (fun acc e => row_put_all ADD (map (fun f => (fst f, (snd e * snd f)%R)) (row_of B (fst e))) acc) ra acc in
  sorted res /\ below nc res /\
  (forall j, oval (rfind j res) = (oval (rfind j acc) + rsum (map (fun e => (snd e * rget B (fst e) j)%R) ra))%R) /\
  (forall j, hasb j res = hasb j acc || existsb (fun e => has B (fst e) j) ra).
Proof.
  intros [L W] Hra. revert acc. induction Hra as [|e ra He Hra IH]; intros acc Hs Hb res.
  - unfold res; cbn. split; [auto|]. split; [auto|]. split; intros; [lra|]. rewrite orb_false_r; auto.
  - destruct (W (fst e) He) as [W1 W2].
    set (src := map (fun f : nat * R => (fst f, (snd e * snd f)%R)) (row_of B (fst e))) in *.
    assert (S1 : sorted (row_put_all ADD src acc)) by (apply row_put_all_sorted; auto).
    assert (B1 : below nc (row_put_all ADD src acc)).
    { apply row_put_all_below; auto. unfold below, src. rewrite Forall_map. cbn. auto. }
    destruct (IH (row_put_all ADD src acc) S1 B1) as (R1 & R2 & R3 & R4).
    unfold res. cbn [fold_left]. fold src. split; [auto|]. split; [auto|]. split.
    + intros j. rewrite R3. rewrite row_put_all_add by auto. cbn [map]. unfold rsum at 3. cbn [fold_right].
      fold (rsum (map (fun e0 => (snd e0 * rget B (fst e0) j)%R) ra)).
      assert (E : rsum (map (fun e0 => if fst e0 =? j then snd e0 else 0%R) src) = (snd e * rget B (fst e) j)%R).
      { unfold src. rewrite map_map. cbn [fst snd]. unfold rget. rewrite <- single_sum by auto.
        rewrite <- rsum_map_scal. apply rsum_map_ext. intros x _. destruct (fst x =? j); lra. }
      rewrite E. lra.
    + intros j. rewrite R4. rewrite row_put_all_has by auto. cbn [existsb].
      assert (E : existsb (fun e0 => fst e0 =? j) src = has B (fst e) j).
      { unfold has. rewrite hasb_exists. unfold src. clear. induction (row_of B (fst e)); cbn; auto.
        rewrite IHr. auto. }
      rewrite E. rewrite orb_assoc. auto.
Qed.

Lemma existsb_row n r (P : nat -> bool) : sorted r -> below n r ->
  existsb (fun e => P (fst e)) r = existsb (fun k => hasb k r && P k) (iota n).
Proof.
  intros Hs Hb. apply eq_true_iff_eq. rewrite !existsb_exists. split.
  - intros ([k v] & Hin & HP). exists k. cbn in HP. split.
    + apply in_iota. unfold below in Hb. rewrite Forall_forall in Hb. apply Hb in Hin. auto.
    + rewrite HP, andb_true_r. unfold hasb. rewrite (in_rfind _ _ Hs Hin). auto.
  - intros (k & _ & H). apply andb_true_iff in H. destruct H as [H1 H2]. unfold hasb in H1.
    destruct (rfind k r) as [v|] eqn:E; [|discriminate]. apply rfind_in in E. exists (k, v). auto.
Qed.

Lemma existsb_ext_in {A} (P Q : A -> bool) l : (forall x, In x l -> P x = Q x) -> existsb P l = existsb Q l.
Proof. induction l; cbn; intros H; auto. rewrite (H a) by auto. rewrite IHl by auto. auto. Qed.

Lemma mm_row_ok A B nr nm nc i : wf A nr nm -> wf B nm nc -> i < nr ->
  let res := mm_row (row_of A i) B in
  sorted res /\ below nc res /\
  (forall j, oval (rfind j res) = rsum (map (fun k => (rget A i k * rget B k j)%R) (iota nm))) /\
  (forall j, hasb j res = existsb (fun k => has A i k && has B k j) (iota nm)).
Proof.
  intros [LA WA] WB Hi res. destruct (WA i Hi) as [W1 W2].
  destruct (@mm_fold_ok B nm nc (row_of A i) []) as (R1 & R2 & R3 & R4); auto; [constructor|constructor|].
  unfold res, mm_row. split; [auto|]. split; [auto|]. split.
  - intros j. rewrite R3. cbn [rfind oval].
    rewrite (@row_sum nm (row_of A i) (fun k => rget B k j)) by auto. unfold rget at 2. lra.
  - intros j. rewrite R4. cbn [hasb rfind orb].
    rewrite (@existsb_row nm (row_of A i) (fun k => has B k j)) by auto. auto.
Qed.

Lemma multiply_ok A B m n k f g : good A m n f -> good B n k g ->
  exists D, m_multiply A B = Ok D /\ good D m k (fun i j => csum n (fun l => Cmult (f i l) (g l j))).
Proof.
  intros ((A1 & A2 & (WA & ClA & VA)) & Aas & Amo) ((B1 & B2 & (WB & ClB & VB)) & Bas & Bmo).
  unfold m_multiply, mat_mat_mult. rewrite Aas, Bas, A1, A2, B1, B2, Nat.eqb_refl. cbn [andb].
  eexists. split; [reflexivity|]. split; [|split]; auto. split; [|split]; auto. cbn [m_rows].
  set (rows := map _ _).
  assert (Rm : forall i, i < m * 2 -> row_of rows i = mm_row (row_of (m_rows A) i) (m_rows B)).
  { intros i Hi. unfold rows. rewrite (row_of_map (fun i => mm_row (row_of (m_rows A) i) (m_rows B))); auto. }
  assert (Gt : forall i j, i < m * 2 -> rget rows i j =
               rsum (map (fun l => (rget (m_rows A) i l * rget (m_rows B) l j)%R) (iota (n * 2)))).
  { intros i j Hi. unfold rget at 1. rewrite Rm by auto.
    destruct (mm_row_ok WA WB Hi) as (_ & _ & R & _). apply R. }
  assert (Hs : forall i j, i < m * 2 -> has rows i j =
               existsb (fun l => has (m_rows A) i l && has (m_rows B) l j) (iota (n * 2))).
  { intros i j Hi. unfold has at 1. rewrite Rm by auto.
    destruct (mm_row_ok WA WB Hi) as (_ & _ & _ & R). apply R. }
  split; [|split].
  - split; [unfold rows; rewrite map_length, iota_length; auto|]. intros i Hi. rewrite Rm by auto.
    destruct (mm_row_ok WA WB Hi) as (R1 & R2 & _). auto.
  - apply closed_intro.
    + intros i j Hi Hj. rewrite !Hs by lia. apply existsb_ext_in. intros l _.
      rewrite (@closed_row (m_rows A) m n) by auto. auto.
    + intros a j Ha Hj. rewrite !Hs by lia. apply existsb_ext_in. intros l Hl. apply in_iota in Hl.
      rewrite (@closed_col (m_rows B) n k) by auto. auto.
  - intros i j Hi Hj. rewrite !Gt by lia. rewrite !rsum_pairs, fst_csum, snd_csum.
    assert (Pt : forall l, l < n ->
      rget (m_rows A) (i * 2) (l * 2) = fst (f i l) /\ rget (m_rows A) (i * 2) (l * 2 + 1) = (- snd (f i l))%R /\
      rget (m_rows A) (i * 2 + 1) (l * 2) = snd (f i l) /\ rget (m_rows A) (i * 2 + 1) (l * 2 + 1) = fst (f i l) /\
      rget (m_rows B) (l * 2) (j * 2) = fst (g l j) /\ rget (m_rows B) (l * 2) (j * 2 + 1) = (- snd (g l j))%R /\
      rget (m_rows B) (l * 2 + 1) (j * 2) = snd (g l j) /\ rget (m_rows B) (l * 2 + 1) (j * 2 + 1) = fst (g l j)).
    { intros l Hl. destruct (VA i l Hi Hl) as (? & ? & ? & ?), (VB l j Hl Hj) as (? & ? & ? & ?). auto 10. }
    split; [|split; [|split]].
    + apply rsum_map_ext. intros l Hl. apply in_iota in Hl.
      destruct (Pt l Hl) as (P1 & P2 & P3 & P4 & P5 & P6 & P7 & P8). rewrite P1, P2, P5, P7. cbn. lra.
    + replace (- rsum (map (fun k0 => snd (Cmult (f i k0) (g k0 j))) (iota n)))%R
        with (-1 * rsum (map (fun k0 => snd (Cmult (f i k0) (g k0 j))) (iota n)))%R by lra.
      rewrite <- rsum_map_scal. apply rsum_map_ext. intros l Hl. apply in_iota in Hl.
      destruct (Pt l Hl) as (P1 & P2 & P3 & P4 & P5 & P6 & P7 & P8). rewrite P1, P2, P6, P8. cbn. lra.
    + apply rsum_map_ext. intros l Hl. apply in_iota in Hl.
      destruct (Pt l Hl) as (P1 & P2 & P3 & P4 & P5 & P6 & P7 & P8). rewrite P3, P4, P5, P7. cbn. lra.
    + apply rsum_map_ext. intros l Hl. apply in_iota in Hl.
      destruct (Pt l Hl) as (P1 & P2 & P3 & P4 & P5 & P6 & P7 & P8). rewrite P3, P4, P6, P8. cbn. lra.
Qed.

(** * getRowBlock *)
Lemma ins_key_perm e l : Permutation (ins_key e l) (e :: l).
Proof.
  induction l as [|f l IH]; cbn; auto. destruct (fst e <=? fst f); auto.
  rewrite IH. apply perm_swap.
Qed.
Lemma sort_keys_perm l : Permutation (sort_keys l) l.
Proof. induction l as [|e l IH]; cbn; auto. rewrite ins_key_perm. rewrite IH. auto. Qed.

Lemma index_of_ok i l : In i l -> index_of i l < length l /\ nth (index_of i l) l 0 = i.
Proof.
  induction l as [|x l IH]; intros H; [destruct H|]. cbn [index_of]. destruct (i =? x) eqn:E.
  - apply Nat.eqb_eq in E; subst. cbn. split; auto. lia.
  - destruct H as [H|H]; [subst; rewrite Nat.eqb_refl in E; discriminate|].
    destruct (IH H). cbn. split; auto. lia.
Qed.

Lemma combine_iota_in (l : list nat) a i : In (a, i) (combine l (iota (length l))) -> i < length l /\ a = nth i l 0.
Proof.
  unfold iota. assert (G : forall s, In (a, i) (combine l (seq s (length l))) -> s <= i < s + length l /\ a = nth (i - s) l 0).
  { induction l as [|x l IH]; intros s; cbn; [tauto|]. intros [H|H].
    - inversion H; subst. rewrite Nat.sub_diag. split; auto. lia.
    - apply IH in H. destruct H as [H1 H2]. split; [lia|]. replace (i - s) with (S (i - S s)) by lia. auto. }
  intros H. apply G in H. rewrite Nat.sub_0_r in H. split; [lia|tauto].
Qed.

Lemma sorted_position (ridx : list nat) i : i < length ridx ->
  let sk := sort_keys (combine ridx (iota (length ridx))) in
  nth (index_of i (map snd sk)) (map fst sk) 0 = nth i ridx 0 /\ index_of i (map snd sk) < length sk.
Proof.
  intros Hi sk.
  assert (P : Permutation sk (combine ridx (iota (length ridx)))) by apply sort_keys_perm.
  assert (Hin : In i (map snd sk)).
  { rewrite P. apply in_map_iff. exists (nth i ridx 0, i). split; auto.
    assert (E : nth i (combine ridx (iota (length ridx))) (0, 0) = (nth i ridx 0, i)).
    { rewrite combine_nth by (rewrite iota_length; auto). unfold iota. rewrite seq_nth; auto. }
    rewrite <- E. apply nth_In. rewrite combine_length, iota_length. lia. }
  destruct (index_of_ok _ _ Hin) as [H1 H2]. rewrite map_length in H1.
  set (k := index_of i (map snd sk)) in *. split; auto.
  assert (Hk : In (nth k sk (0, 0)) (combine ridx (iota (length ridx)))).
  { rewrite <- P. apply nth_In. auto. }
  change 0 with (snd (0, 0)) in H2 at 1. rewrite map_nth in H2.
  change 0 with (fst (0, 0)) at 1. rewrite map_nth.
  destruct (nth k sk (0, 0)) as [a b] eqn:E. cbn [fst snd] in *. subst b.
  apply combine_iota_in in Hk. tauto.
Qed.

Lemma iota_S_shift n : iota (S n) = 0 :: map S (iota n).
Proof. unfold iota. cbn. rewrite seq_shift. auto. Qed.

Lemma map_iota_pairs {B} n (f : nat -> B) : map f (iota (n * 2)) = flat_map (fun k => [f (k * 2); f (k * 2 + 1)]) (iota n).
Proof.
  revert f. induction n as [|n IH]; intros f; auto.
  replace (S n * 2) with (S (S (n * 2))) by lia. rewrite (iota_S_shift (S (n * 2))), (iota_S_shift (n * 2)).
  cbn [map]. rewrite map_map. rewrite (iota_S_shift n). cbn [flat_map Nat.mul Nat.add app]. f_equal. f_equal.
  rewrite map_map. rewrite (IH (fun x => f (S (S x)))). rewrite flat_map_concat_map, flat_map_concat_map, map_map. auto.
Qed.

Lemma omap_ok {A B} (f : A -> outcome B) (g : A -> B) l : (forall x, In x l -> f x = Ok (g x)) -> omap f l = Ok (map g l).
Proof. induction l; cbn; intros H; auto. rewrite (H a) by auto. cbn. rewrite IHl by auto. auto. Qed.

Lemma get_row_block_ok A m n f rows : good A m n f -> Forall (fun r => r < m) rows ->
  get_row_block A rows = Ok (flat_map (fun r => tabulate n (f r)) rows).
Proof.
  intros HA Hrows. pose proof HA as (HR & Has & Hmo). pose proof HR as (A1 & A2 & (W & Cl & V)).
  unfold get_row_block. rewrite Has. rewrite (mat_cols_ok HR). unfold elementSize.
  replace (forallb (fun r => r <? m_nr A) (map (fun r => r * 2) rows)) with true.
  2:{ symmetry. rewrite A1. apply forallb_forall. intros x Hx. apply in_map_iff in Hx. destruct Hx as (r & <- & Hr).
      rewrite Forall_forall in Hrows. apply Nat.ltb_lt. apply Hrows in Hr. lia. }
  set (ridx := map (fun r => r * 2) rows).
  set (sk := sort_keys (combine ridx (iota (length ridx)))).
  assert (Lr : length ridx = length rows) by (unfold ridx; apply map_length).
  rewrite (@omap_ok nat (list C) _ (fun i => tabulate n (f (nth i rows 0)))).
  - cbn [obind]. f_equal. rewrite flat_map_concat_map. f_equal.
    apply (map_iota_nth (fun r => tabulate n (f r)) rows 0).
  - intros i Hi. apply in_iota in Hi.
    destruct (@sorted_position ridx i) as [P1 P2]; [lia|]. fold sk in P1, P2.
    assert (Hr : nth i rows 0 < m).
    { rewrite Forall_forall in Hrows. apply Hrows. apply nth_In. auto. }
    assert (Erow : row_of (map (row_of (m_rows A)) (map fst sk)) (index_of i (map snd sk))
                   = row_of (m_rows A) (nth i rows 0 * 2)).
    { unfold row_of at 1. rewrite nth_indep with (d' := row_of (m_rows A) 0) by (rewrite !map_length; auto).
      rewrite map_nth. rewrite P1. f_equal. unfold ridx.
      exact (map_nth (fun r => r * 2) rows 0 i). }
    set (r := nth i rows 0) in *.
    assert (Ec : map (fun j => rget (map (row_of (m_rows A)) (map fst sk)) (index_of i (map snd sk)) j) (iota (n * 2))
                 = to_library (map op_conj (tabulate n (f r)))).
    { rewrite map_iota_pairs. unfold to_library, tabulate. rewrite (map_map (f r) op_conj).
      rewrite !flat_map_concat_map. rewrite (map_map (fun x => op_conj (f r x))). f_equal. apply map_ext_iota. intros j Hj. unfold rget. rewrite Erow.
      destruct (V r j Hr Hj) as (V1 & V2 & _ & _). unfold rget in V1, V2. rewrite V1, V2. auto. }
    rewrite Ec. rewrite unary_to_library. cbn [obind]. rewrite from_to_library. f_equal.
    rewrite map_map. rewrite <- (map_id (tabulate n (f r))) at 2. apply map_ext. intros z. apply conj_conj.
Qed.

(** * Matrix norm *)
Lemma ofold_acc {X} (f : X -> outcome C) (g : X -> C) l a :
  (forall x, In x l -> f x = Ok (g x)) ->
  ofold (fun acc x => obind (f x) (fun v => Ok (acc_l2 acc v))) l a
  = Ok (a + rsum (map (fun x => (Cmod (g x) * Cmod (g x))%R) l))%R.
Proof.
  revert a; induction l as [|x l IH]; intros a H; cbn [ofold].
  - cbn. f_equal; lra.
  - rewrite (H x) by (left; auto). cbn [obind]. rewrite IH by (intros; apply H; right; auto).
    f_equal. unfold acc_l2. cbn. unfold rsum. lra.
Qed.

Lemma list_prod_app {A B} (l1 l2 : list A) (k : list B) : list_prod (l1 ++ l2) k = list_prod l1 k ++ list_prod l2 k.
Proof. induction l1; cbn; auto. rewrite IHl1, app_assoc. auto. Qed.

Lemma firstn_sum_S owned p : p < length owned -> sumn (firstn (S p) owned) = sumn (firstn p owned) + nth p owned 0.
Proof.
  revert p; induction owned as [|x owned IH]; intros [|p] H; cbn [length] in H; try lia.
  - cbn. lia.
  - cbn [firstn sumn nth]. pose proof (IH p ltac:(lia)) as E. cbn [firstn] in E. cbn [sumn firstn] in *. lia.
Qed.

Lemma parts_sum {B} (h : nat * B -> R) (k : list B) owned p : p <= length owned ->
  rsum (map (fun q => rsum (map h (list_prod (seq (sumn (firstn q owned)) (nth q owned 0)) k))) (iota p))
  = rsum (map h (list_prod (iota (sumn (firstn p owned))) k)).
Proof.
  induction p as [|p IH]; intros Hp; auto.
  rewrite rsum_iota_S, IH by lia. rewrite firstn_sum_S by lia. unfold iota. rewrite seq_app, list_prod_app.
  cbn [Nat.add]. rewrite map_app, rsum_app. auto.
Qed.

Lemma m_norm2_ok A m n f owned : good A m n f -> sumn owned = m ->
  m_norm2 owned A = Ok (sqrt (total (map (fun ij => (Cmod (f (fst ij) (snd ij)) * Cmod (f (fst ij) (snd ij)))%R)
                                         (list_prod (iota m) (iota n))))).
Proof.
  intros HA Hs. pose proof HA as (HR & _). unfold m_norm2. rewrite (mat_cols_ok HR).
  set (h := fun ij : nat * nat => (Cmod (f (fst ij) (snd ij)) * Cmod (f (fst ij) (snd ij)))%R).
  rewrite (@omap_ok nat R _ (fun p => rsum (map h (list_prod (seq (sumn (firstn p owned)) (nth p owned 0)) (iota n))))).
  - cbn [obind]. f_equal. f_equal. rewrite (parts_sum h (iota n) owned (le_n _)).
    rewrite firstn_all, Hs. auto.
  - intros p Hp. apply in_iota in Hp.
    rewrite (ofold_acc (fun ij => get_element A (fst ij) (snd ij)) (fun ij => f (fst ij) (snd ij))).
    + f_equal. unfold h. lra.
    + intros [i j] Hij. apply in_prod_iff in Hij. destruct Hij as [Hi Hj]. cbn [fst snd].
      apply (get_element_ok HA); [|apply in_iota; auto].
      apply in_seq in Hi. pose proof (@firstn_sum_S owned p Hp) as E.
      assert (sumn (firstn (S p) owned) <= sumn owned).
      { rewrite <- (firstn_skipn (S p) owned) at 2. rewrite sumn_app. lia. }
      lia.
Qed.

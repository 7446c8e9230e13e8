(** Proofs about StatBlock. *)
From Verif Require Import Prelude GAModel GAProofs ParProofs2 NetProofs StatModel StatSpec.
From Coq Require Import Reals Lra.
Open Scope nat_scope.

Lemma grow_spec f n nb : n <= nb * 100 + f * 100 -> (nb = 0 \/ (nb - 1) * 100 < n) ->
  n <= grow f n nb * 100 /\ (grow f n nb = 0 \/ (grow f n nb - 1) * 100 < n).
Proof.
  revert nb; induction f as [|f IH]; intros nb H H'; cbn [grow]; [lia|].
  destruct (Nat.ltb_spec (BLOCKSIZE * nb) n) as [L|L]; unfold BLOCKSIZE in *; [apply IH; lia|lia].
Qed.
Lemma nblock_ceil n : nblock n = (n + 99) / 100.
Proof.
  unfold nblock. assert (D := Nat.div_mod n 100). assert (D' := Nat.mod_upper_bound n 100).
  destruct (@grow_spec n n (n / BLOCKSIZE)) as (A & B); unfold BLOCKSIZE in *; try lia.
Qed.

Lemma run_blocks_ok {B} n (stat : nat -> B) ord : Permutation ord (seq 0 (nblock n)) ->
  run_blocks n stat ord = Ok (map stat (seq 0 n)).
Proof.
  intros HP. rewrite nblock_ceil in HP. unfold run_blocks.
  set (NB := (n + 99) / 100) in *.
  assert (HN : n <= NB * 100 /\ (NB = 0 \/ (NB - 1) * 100 < n)).
  { unfold NB. assert (D := Nat.div_mod (n + 99) 100). assert (D' := Nat.mod_upper_bound (n + 99) 100). lia. }
  assert (HI : forall k, In k ord -> k < NB). { intros k Hk. rewrite HP in Hk. apply in_seq in Hk. lia. }
  assert (HL : forall k, In k ord -> block_len n k = Nat.min 100 (n - k * 100) /\ k * 100 < n).
  { intros k Hk. apply HI in Hk. unfold block_len, block_lo, BLOCKSIZE. destruct (Nat.leb_spec n ((k + 1) * 100 - 1)); lia. }
  destruct (@ga_puts_keyed B nat block_lo (fun k => map stat (seq (block_lo k) (block_len n k))) ord (ga_new B n)) as (g & E & L & S & _).
  - apply (Permutation_NoDup (Permutation_sym HP)), seq_NoDup.
  - intros k Hk. rewrite ga_new_length, map_length, seq_length. destruct (HL _ Hk) as (-> & ?). unfold block_lo, BLOCKSIZE. lia.
  - intros k k' Hk Hk' Hne. rewrite !map_length, !seq_length. destruct (HL _ Hk) as (-> & ?), (HL _ Hk') as (-> & ?).
    unfold block_lo, BLOCKSIZE. lia.
  - change (map (block_put n stat) ord) with (map (fun k => (block_lo k, map stat (seq (block_lo k) (block_len n k)))) ord).
    rewrite E. cbn [obind]. rewrite ga_new_length in L.
    replace n with (length (map stat (seq 0 n))) at 1 by now rewrite map_length, seq_length.
    apply ga_get_some; rewrite map_length, seq_length; [lia|]. intros i Hi. cbn [Nat.add].
    set (k := i / 100). assert (D := Nat.div_mod i 100). assert (D' := Nat.mod_upper_bound i 100). fold k in D.
    assert (Hk : In k ord). { rewrite HP. apply in_seq. lia. }
    destruct (HL _ Hk) as (EL & _).
    specialize (S k (i mod 100) Hk). rewrite map_length, seq_length in S.
    replace (block_lo k + i mod 100) with i in S by (unfold block_lo, BLOCKSIZE; lia). rewrite S by lia.
    rewrite !nth_error_map. f_equal.
    rewrite (nth_error_nth' _ 0) by (rewrite seq_length; lia). rewrite (nth_error_nth' (seq 0 n) 0) by (rewrite seq_length; lia).
    rewrite !seq_nth by lia. f_equal. f_equal. unfold block_lo, BLOCKSIZE. lia.
Qed.

Section Cols.
Variable V : Type.
Notation col := (column V).
Definition inr (n : nat) (x : Z * col) : bool := negb ((fst x <? 0)%Z || (Z.of_nat n <=? fst x)%Z).
Lemma add_columns_puts nrows calls : forall g : garray col,
  (forall x, In x calls -> inr (length g) x = true -> length (snd x) = nrows) ->
  add_columns nrows g calls = ga_scatter g (map (fun x => (Z.to_nat (fst x), snd x)) (filter (inr (length g)) calls)).
Proof.
  induction calls as [|[idx c] r IH]; intros g H; [reflexivity|]. cbn [add_columns filter]. unfold inr at 1. cbn [fst].
  destruct ((idx <? 0)%Z || (Z.of_nat (length g) <=? idx)%Z) eqn:E; cbn [negb].
  - apply IH. intros; apply H; auto. now right.
  - assert (Hc : length c = nrows). { apply (H (idx, c)); [now left|]. unfold inr. cbn [fst]. now rewrite E. }
    destruct (Nat.ltb_spec (length c) nrows); [lia|]. replace (firstn nrows c) with c by now rewrite <- Hc, firstn_all.
    unfold ga_scatter. cbn [map ga_puts fst snd].
    apply Bool.orb_false_elim in E as (E1 & E2). apply Z.ltb_ge in E1. apply Z.leb_gt in E2.
    destruct (@ga_put_ok col g (Z.to_nat idx) [c]) as (g1 & Ep & L & _). { cbn [length]. lia. }
    rewrite Ep.
    cbn [obind]. rewrite IH; [now rewrite L|]. intros x Hx. rewrite L. apply H. now right.
Qed.
End Cols.

Lemma filter_none {X} (f : X -> bool) l : (forall x, In x l -> f x = false) -> filter f l = [].
Proof. induction l as [|a l IH]; intros H; [reflexivity|]. cbn [filter]. rewrite (H a) by now left. apply IH. intros; apply H; now right. Qed.
Lemma filter_every {X} (f : X -> bool) l : (forall x, In x l -> f x = true) -> filter f l = l.
Proof. induction l as [|a l IH]; intros H; [reflexivity|]. cbn [filter]. rewrite (H a) by now left. f_equal. apply IH. intros; apply H; now right. Qed.
Lemma perm_filter' {X} (f : X -> bool) l l' : Permutation l l' -> Permutation (filter f l) (filter f l').
Proof. induction 1; cbn [filter]; auto. - destruct (f x); auto. - destruct (f x), (f y); auto. apply perm_swap. - eapply Permutation_trans; eauto. Qed.

Lemma with_table_ok {B} nrows cols calls (k : list (column R) -> outcome B) : adds_table nrows cols calls ->
  with_table nrows (length cols) calls k = k cols.
Proof.
  intros (HL & junk & HP & HJ). unfold with_table. set (n := length cols) in *.
  assert (HC : forall x, In x (combine (map Z.of_nat (seq 0 n)) cols) -> inr n x = true /\ length (snd x) = nrows).
  { intros [i c] Hx. split.
    - apply in_combine_l in Hx. apply in_map_iff in Hx as (j & <- & Hj). apply in_seq in Hj. unfold inr. cbn [fst].
      destruct (Z.ltb_spec (Z.of_nat j) 0); [lia|]. destruct (Z.leb_spec (Z.of_nat n) (Z.of_nat j)); [lia|]. reflexivity.
    - apply in_combine_r in Hx. rewrite Forall_forall in HL. now apply HL. }
  assert (HJ' : forall x, In x junk -> inr n x = false).
  { intros x Hx. rewrite Forall_forall in HJ. apply HJ in Hx. unfold inr.
    destruct (Z.ltb_spec (fst x) 0); [reflexivity|]. destruct (Z.leb_spec (Z.of_nat n) (fst x)); [reflexivity|lia]. }
  rewrite add_columns_puts; rewrite ga_new_length.
  2:{ intros x Hx Hi. apply (Permutation_in _ HP) in Hx. apply in_app_or in Hx as [Hx|Hx]; [exact (proj2 (HC _ Hx))|]. rewrite (HJ' _ Hx) in Hi. discriminate. }
  assert (PF := perm_filter' (@inr R n) HP). rewrite filter_app, (filter_none _ _ HJ'), app_nil_r, (filter_every _ (combine _ _) (fun x Hx => proj1 (HC x Hx))) in PF.
  set (ws := map (fun x : Z * column R => (Z.to_nat (fst x), snd x)) (filter (@inr R n) calls)).
  assert (PW : Permutation ws (combine (seq 0 n) cols)).
  { unfold ws. rewrite (Permutation_map (fun x : Z * column R => (Z.to_nat (fst x), snd x)) PF).
    replace (map _ (combine (map Z.of_nat (seq 0 n)) cols)) with (combine (seq 0 n) cols); [reflexivity|].
    generalize (seq 0 n). clear. intros l. revert cols. induction l as [|a l IH]; intros [|c cols]; cbn [map combine]; auto.
    rewrite <- IH. cbn [fst snd]. now rewrite Nat2Z.id. }
  assert (FS : map fst (combine (seq 0 n) cols) = seq 0 n).
  { clear -n. subst n. generalize 0. induction cols as [|c r IH]; intros b; cbn; [reflexivity|]. now rewrite IH. }
  destruct (@scatter_spec (column R) (fun x : nat => x) (ga_new (column R) n) ws) as (g & -> & L & S & _).
  - apply (Permutation_NoDup (l := seq 0 n)); [|apply seq_NoDup]. rewrite (Permutation_map fst PW), FS. reflexivity.
  - intros i v Hi. rewrite ga_new_length. rewrite PW in Hi. apply in_combine_l in Hi. apply in_seq in Hi. lia.
  - cbn [obind]. rewrite ga_new_length in L. unfold n at 1. rewrite ga_get_some; [reflexivity|fold n; lia|].
    intros i Hi. cbn [Nat.add]. rewrite nth_error_map. rewrite (nth_error_nth' cols [] Hi). cbn [option_map].
    apply S. rewrite PW. fold n in Hi.
    replace (i, nth i cols []) with (nth i (combine (seq 0 n) cols) (0, [])).
    + apply nth_In. rewrite combine_length, seq_length. fold n. lia.
    + rewrite combine_nth by (rewrite seq_length; reflexivity). now rewrite seq_nth.
Qed.

(** ** Per-row statistics over R *)
Open Scope R_scope.
Lemma fold_step mval base : forall row j a,
  fold_left (mean_step Rnums mval base) (combine (seq j (length row)) row) a =
  let l := counted mval row in let l' := match j with O => counted mval (tl row) | _ => l end in
  {| a_cnt := a_cnt a + length l; a_sum := a_sum a + rsum l; a_sum2 := a_sum2 a + rsum (map (fun x => x * x) l);
     a_diff2 := a_diff2 a + rsum (map (fun x => (x - base) * (x - base)) l') |}.
Proof.
  assert (G : forall row j a, (0 < j)%nat ->
    fold_left (mean_step Rnums mval base) (combine (seq j (length row)) row) a =
    let l := counted mval row in
    {| a_cnt := a_cnt a + length l; a_sum := a_sum a + rsum l; a_sum2 := a_sum2 a + rsum (map (fun x => x * x) l);
       a_diff2 := a_diff2 a + rsum (map (fun x => (x - base) * (x - base)) l) |}).
  { induction row as [|[v m] row IH]; intros j a Hj; cbn [length seq combine fold_left].
    - cbv zeta. unfold counted. cbn. destruct a as [c s s2 d]. cbn. rewrite Nat.add_0_r. f_equal; lra.
    - rewrite IH by lia. cbv zeta. unfold counted. cbn [filter map fst snd].
      unfold mean_step. destruct (mval <=? m)%Z; [|reflexivity].
      destruct (Nat.ltb_spec 0 j); [|lia]. cbn [a_cnt a_sum a_sum2 a_diff2 map length fst]. fold (counted mval row).
      cbn [n_add n_mul n_sub Rnums]. unfold rsum. cbn [fold_right]. f_equal; [lia|lra|lra|lra]. }
  intros row j a. destruct j as [|j]; [|apply G; lia]. destruct row as [|[v m] row].
  - cbn. destruct a as [c s s2 d]. cbn. rewrite Nat.add_0_r. f_equal; lra.
  - cbn [length seq combine fold_left tl]. rewrite G by lia. cbv zeta. unfold counted. cbn [filter map fst snd].
    unfold mean_step. destruct (mval <=? m)%Z; [|reflexivity].
    destruct (Nat.ltb_spec 0 0); [lia|]. cbn [a_cnt a_sum a_sum2 a_diff2 map length fst]. fold (counted mval row).
    cbn [n_add n_mul n_sub Rnums]. unfold rsum. cbn [fold_right]. f_equal; [lia|lra|lra].
Qed.
Lemma rsum_sq (l : list R) m : rsum (map (fun x => (x - m) ^ 2) l) = rsum (map (fun x => x * x) l) - 2 * m * rsum l + INR (length l) * (m * m).
Proof.
  induction l as [|x l IH]; [cbn; lra|]. cbn [map length]. rewrite S_INR. unfold rsum in *. cbn [fold_right]. rewrite IH. ring.
Qed.
Lemma rsum_nonneg (l : list R) : (forall x, In x l -> 0 <= x) -> 0 <= rsum l.
Proof. induction l as [|x l IH]; intros H; cbn; [lra|]. assert (0 <= x) by (apply H; now left). assert (0 <= rsum l) by (apply IH; intros; apply H; now right). unfold rsum in *. lra. Qed.
Lemma root_ok x : 0 <= x -> root_or_zero Rnums x = sqrt x.
Proof. intros H. unfold root_or_zero. cbn [n_ltb n_zero n_sqrt Rnums]. unfold Rltb. destruct (Rlt_dec 0 x); [reflexivity|]. replace x with 0 by lra. now rewrite sqrt_0. Qed.

Lemma mean_row_spec mval row : let l := counted mval row in
  mean_row Rnums mval row =
    (if (0 <? length l)%nat then mean l else 0,
     if (1 <? length l)%nat then deviation l else 0,
     if (1 <? length l)%nat then difference (fst (hd (0, 0%Z) row)) (counted mval (tl row)) (length l - 1) else 0).
Proof.
  cbv zeta. unfold mean_row, enum. rewrite fold_step. cbv zeta. cbn [a_cnt a_sum a_sum2 a_diff2 n_zero n_div n_mul n_sub n_nat Rnums].
  unfold base_of. cbn [n_zero Rnums]. set (l := counted mval row). set (l' := counted mval (tl row)). set (b := fst (hd (0, 0%Z) row)). cbn [Nat.add].
  assert (R0 : root_or_zero Rnums 0 = 0). { rewrite root_ok by lra. apply sqrt_0. }
  assert (Sq : forall m (q : list R), rsum (map (fun x => (x - m) * (x - m)) q) = rsum (map (fun x => (x - m) ^ 2) q)).
  { intros m q. f_equal. apply map_ext. intros; ring. }
  assert (NN : forall m (q : list R), 0 <= rsum (map (fun x => (x - m) ^ 2) q)).
  { intros m q. apply rsum_nonneg. intros x Hx. apply in_map_iff in Hx as (y & <- & _). apply pow2_ge_0. }
  destruct (Nat.ltb_spec 1 (length l)) as [H1|H1].
  - destruct (Nat.ltb_spec 0 (length l)); [|lia].
    assert (P1 : 0 < INR (length l)) by (apply lt_0_INR; lia). assert (P2 : 0 < INR (length l - 1)) by (apply lt_0_INR; lia).
    rewrite !Rplus_0_l. fold (mean l). rewrite !Sq.
    assert (E : rsum (map (fun x => x * x) l) - INR (length l) * mean l * mean l = rsum (map (fun x => (x - mean l) ^ 2) l)).
    { rewrite rsum_sq. replace (rsum l) with (INR (length l) * mean l); [ring|]. unfold mean. field. lra. }
    rewrite E. rewrite !root_ok.
    + reflexivity.
    + apply Rmult_le_pos; [apply NN|]. left. now apply Rinv_0_lt_compat.
    + apply Rmult_le_pos; [apply NN|]. left. now apply Rinv_0_lt_compat.
  - rewrite !R0. destruct (Nat.ltb_spec 0 (length l)); [|reflexivity]. now rewrite Rplus_0_l.
Qed.

Lemma Rltb_spec x y : reflect (x < y) (Rltb x y).
Proof. unfold Rltb. destruct (Rlt_dec x y); constructor; auto. Qed.

(** Minimum and maximum: invariants of the fold from a start value. *)
Lemma ext_fold mval row : forall pre j e, length pre = j ->
  (forall x, In x (counted mval pre) -> e_min e <= x <= e_max e) ->
  let e' := fold_left (ext_step Rnums mval) (combine (seq j (length row)) row) e in
  (forall x, In x (counted mval (pre ++ row)) -> e_min e' <= x <= e_max e') /\
  ((e_min e' = e_min e /\ e_jmin e' = e_jmin e) \/ (exists m, nth_error (pre ++ row) (e_jmin e') = Some (e_min e', m) /\ (mval <= m)%Z)) /\
  ((e_max e' = e_max e /\ e_jmax e' = e_jmax e) \/ (exists m, nth_error (pre ++ row) (e_jmax e') = Some (e_max e', m) /\ (mval <= m)%Z)) /\
  e_min e' <= e_min e /\ e_max e <= e_max e'.
Proof.
  induction row as [|[v m] row IH]; intros pre j e Hj HI; cbn [length seq combine fold_left].
  - cbv zeta. rewrite app_nil_r. split; [exact HI|]. split; [left; split; reflexivity|]. split; [left; split; reflexivity|]. split; lra.
  - cbv zeta. set (e1 := ext_step Rnums mval e (j, (v, m))).
    assert (H1 : (forall x, In x (counted mval (pre ++ [(v, m)])) -> e_min e1 <= x <= e_max e1) /\
      ((e_min e1 = e_min e /\ e_jmin e1 = e_jmin e) \/ (e_jmin e1 = j /\ e_min e1 = v /\ (mval <= m)%Z)) /\
      ((e_max e1 = e_max e /\ e_jmax e1 = e_jmax e) \/ (e_jmax e1 = j /\ e_max e1 = v /\ (mval <= m)%Z)) /\
      e_min e1 <= e_min e /\ e_max e <= e_max e1).
    { unfold e1, ext_step. unfold counted. rewrite filter_app, map_app. cbn [filter snd].
      destruct (Z.leb_spec mval m) as [Hm|Hm].
      - cbn [n_ltb Rnums map fst e_min e_max e_jmin e_jmax].
        destruct (Rltb_spec v (e_min e)); destruct (Rltb_spec (e_max e) v); (split; [intros x Hx; apply in_app_or in Hx as [Hx|[<-|[]]]; [apply HI in Hx|]; try lra|]);
        (split; [auto|]); (split; [auto|]); split; lra.
      - cbn [map]. rewrite app_nil_r. split; [exact HI|]. split; [left; split; reflexivity|]. split; [left; split; reflexivity|]. split; lra. }
    destruct H1 as (HA & HB & HC & HD & HE).
    destruct (IH (pre ++ [(v, m)])%list (S j) e1) as (QA & QB & QC & QD & QE); [rewrite app_length; cbn; lia|exact HA|].
    cbv zeta in QA, QB, QC, QD, QE. rewrite <- app_assoc in QA, QB, QC. cbn [app] in QA, QB, QC.
    assert (HN : nth_error (pre ++ (v, m) :: row) j = Some (v, m)).
    { rewrite nth_error_app2 by lia. rewrite Hj, Nat.sub_diag. reflexivity. }
    split; [exact QA|]. split; [|split; [|lra]].
    + destruct QB as [(E1 & E2)|?]; [|now right]. rewrite E1, E2. destruct HB as [HB|(-> & -> & ?)]; [now left|]. right. eauto.
    + destruct QC as [(E1 & E2)|?]; [|now right]. rewrite E1, E2. destruct HC as [HC|(-> & -> & ?)]; [now left|]. right. eauto.
Qed.

Lemma ext_row_spec mval v m row : let full := (v, m) :: row in let '(b, e) := ext_row Rnums mval full in
  b = v /\ (forall x, In x (counted mval full) -> e_min e <= x <= e_max e) /\ e_min e <= v <= e_max e /\
  ((e_min e = v /\ e_jmin e = O) \/ (exists m', nth_error full (e_jmin e) = Some (e_min e, m') /\ (mval <= m')%Z)) /\
  ((e_max e = v /\ e_jmax e = O) \/ (exists m', nth_error full (e_jmax e) = Some (e_max e, m') /\ (mval <= m')%Z)).
Proof.
  cbv zeta. unfold ext_row, enum, base_of. cbn [hd fst].
  destruct (@ext_fold mval ((v, m) :: row) [] O {| e_min := v; e_max := v; e_jmin := O; e_jmax := O |} eq_refl) as (A & B & C & D & E).
  { intros x []. }
  cbv zeta in *. cbn [app e_min e_max e_jmin e_jmax] in *. split; [reflexivity|]. split; [exact A|]. split; [lra|]. auto.
Qed.

Lemma count_row_spec {V} mval (row : list (V * Z)) : count_row mval row = length (filter (fun x => (snd x =? mval)%Z) row).
Proof.
  unfold count_row. enough (H : forall n, fold_left (fun n (x : V * Z) => if (snd x =? mval)%Z then S n else n) row n = (n + length (filter (fun x => (snd x =? mval)%Z) row))%nat) by now rewrite H.
  induction row as [|x row IH]; intros n; cbn [fold_left filter length]; [lia|]. rewrite IH. destruct (snd x =? mval)%Z; cbn [length]; lia.
Qed.
Lemma sum_fold mval (c : list (R * Z)) : forall s, fold_left (fun s (x : R * Z) => if (mval <=? snd x)%Z then s + fst x else s) c s = s + rsum (counted mval c).
Proof.
  induction c as [|x c IH]; intros s; [cbn; lra|]. cbn [fold_left]. rewrite IH. unfold counted. cbn [filter]. destruct (mval <=? snd x)%Z; [|lra].
  cbn [map]. unfold rsum. cbn [fold_right]. lra.
Qed.
Lemma sum_column_spec nrows mval c : sum_column Rnums nrows mval c =
  (rsum (counted mval c), if (0 <? nrows)%nat then rsum (counted mval c) / INR nrows else 0).
Proof.
  unfold sum_column. cbn [n_add n_zero n_div n_nat Rnums].
  rewrite sum_fold, Rplus_0_l. reflexivity.
Qed.

(** C29: the reports of StatBlock equal the sequential statistics whatever the work schedule. *)
From Verif Require Import Prelude StatModel StatSpec StatProofs.
From Coq Require Import Reals Lra.
Open Scope R_scope.

Lemma row_trow cols i : row_of Rnums cols i = trow cols i. Proof. reflexivity. Qed.

(** Mean and standard deviation of the counted entries of every row; the third number is the root mean square difference of the
    counted entries from the entry in the first column.  The order of the calls and of the blocks does not matter. *)
Theorem C29_mean_and_rms :
  forall nrows cols calls mval ord, adds_table nrows cols calls -> cols <> [] -> some_order nrows ord ->
    write_mean Rnums nrows (length cols) calls mval ord =
    Ok (map (fun i => let l := counted mval (trow cols i) in
                      (if (0 <? length l)%nat then mean l else 0,
                       if (1 <? length l)%nat then deviation l else 0,
                       if (1 <? length l)%nat
                       then difference (fst (hd (0, 0%Z) (trow cols i))) (counted mval (tl (trow cols i))) (length l - 1) else 0))
            (seq 0 nrows)).
Proof.
  intros nrows cols calls mval ord HA _ HO. unfold write_mean. rewrite with_table_ok by exact HA. rewrite run_blocks_ok by exact HO.
  f_equal. apply map_ext. intros i. rewrite row_trow. apply mean_row_spec.
Qed.
Print Assumptions C29_mean_and_rms.

(** Minimum and maximum of the counted entries, and columns where they are found, for rows whose first entry is counted. *)
Theorem C29_min_and_max_partial :
  forall nrows cols calls mval ord, adds_table nrows cols calls -> some_order nrows ord ->
    (forall i, (i < nrows)%nat -> exists v m, nth_error (trow cols i) 0 = Some (v, m) /\ (mval <= m)%Z) ->
    exists rep, write_min_max Rnums nrows (length cols) calls mval ord = Ok rep /\ length rep = nrows /\
      forall i b e, nth_error rep i = Some (b, e) ->
        b = fst (hd (0, 0%Z) (trow cols i)) /\
        (forall x, In x (counted mval (trow cols i)) -> e_min e <= x <= e_max e) /\
        (exists m, nth_error (trow cols i) (e_jmin e) = Some (e_min e, m) /\ (mval <= m)%Z) /\
        (exists m, nth_error (trow cols i) (e_jmax e) = Some (e_max e, m) /\ (mval <= m)%Z).
Proof.
  intros nrows cols calls mval ord HA HO HM. unfold write_min_max. rewrite with_table_ok by exact HA. rewrite run_blocks_ok by exact HO.
  eexists. split; [reflexivity|]. split; [now rewrite map_length, seq_length|]. intros i b e Hn.
  assert (Hi : (i < nrows)%nat). { assert (H : nth_error (map (fun i => ext_row Rnums mval (row_of Rnums cols i)) (seq 0 nrows)) i <> None) by (rewrite Hn; discriminate). apply nth_error_Some in H. now rewrite map_length, seq_length in H. }
  rewrite nth_error_map, (nth_error_nth' _ O) in Hn by now rewrite seq_length. rewrite seq_nth in Hn by auto. cbn [Nat.add option_map] in Hn.
  assert (Hn' : ext_row Rnums mval (row_of Rnums cols i) = (b, e)) by (apply (f_equal (fun o => match o with Some x => x | None => (b, e) end)) in Hn; exact Hn). clear Hn. rename Hn' into Hn. rewrite row_trow in Hn. destruct (HM i Hi) as (v & m & E & Hm).
  destruct (trow cols i) as [|[v' m'] r]; [discriminate|]. cbn [nth_error] in E. injection E as -> ->.
  assert (S := ext_row_spec mval v m r). cbv zeta in S. rewrite Hn in S. destruct S as (-> & SA & SB & SC & SD).
  split; [reflexivity|]. split; [exact SA|]. split.
  - destruct SC as [(-> & ->)|S]; [exists m; auto|exact S].
  - destruct SD as [(-> & ->)|S]; [exists m; auto|exact S].
Qed.
Print Assumptions C29_min_and_max_partial.

(** Number of entries of every row with the given mask. *)
Theorem C29_mask_counts :
  forall nrows cols calls mval ord, adds_table nrows cols calls -> some_order nrows ord ->
    write_mask_count Rnums nrows (length cols) calls mval ord =
    Ok (map (fun i => length (filter (fun x => (snd x =? mval)%Z) (trow cols i))) (seq 0 nrows)).
Proof.
  intros nrows cols calls mval ord HA HO. unfold write_mask_count. rewrite with_table_ok by exact HA. rewrite run_blocks_ok by exact HO.
  f_equal. apply map_ext. intros i. rewrite count_row_spec. reflexivity.
Qed.
Print Assumptions C29_mask_counts.

(** Sum of the counted entries of every column, and that sum divided by the number of all rows. *)
Theorem C29_column_sums :
  forall nrows cols calls mval ord, adds_table nrows cols calls -> some_order (length cols) ord -> (0 < nrows)%nat ->
    sum_columns Rnums nrows (length cols) calls mval ord =
    Ok (map (fun c => (rsum (counted mval c), rsum (counted mval c) / INR nrows)) cols).
Proof.
  intros nrows cols calls mval ord HA HO Hn. unfold sum_columns. rewrite with_table_ok by exact HA. rewrite run_blocks_ok by exact HO.
  f_equal. transitivity (map (fun c => (rsum (counted mval c), rsum (counted mval c) / INR nrows)) (map (fun j => nth j cols []) (seq 0 (length cols)))).
  - rewrite map_map. apply map_ext. intros j. rewrite sum_column_spec. destruct (Nat.ltb_spec 0 nrows); [reflexivity|lia].
  - f_equal. clear. apply GAProofs.nth_error_ext. intros i. rewrite nth_error_map. destruct (lt_dec i (length cols)) as [H|H].
    + rewrite (nth_error_nth' (seq 0 (length cols)) O) by now rewrite seq_length. rewrite seq_nth by auto. cbn [Nat.add option_map]. symmetry. now apply nth_error_nth'.
    + replace (nth_error (seq 0 (length cols)) i) with (@None nat); [|symmetry; apply nth_error_None; rewrite seq_length; lia].
      symmetry. apply nth_error_None. lia.
Qed.
Print Assumptions C29_column_sums.

(** Two processes add three columns of a table with 250 rows in some order, with a call outside the table; three blocks. *)
Definition ex_cols : list (list (R * Z)) := [repeat (1, 1%Z) 250; repeat (5, 0%Z) 250; repeat (3, 2%Z) 250].
Definition ex_calls : list (Z * list (R * Z)) := [(2%Z, nth 2 ex_cols []); (7%Z, []); (0%Z, nth 0 ex_cols []); (1%Z, nth 1 ex_cols [])].
Lemma ex_adds : adds_table 250 ex_cols ex_calls.
Proof.
  split; [repeat constructor; apply repeat_length|]. exists [(7%Z, [])]. split; [|repeat constructor; cbn; lia].
  unfold ex_calls, ex_cols. cbn [nth length seq map combine app].
  change (Z.of_nat 0) with 0%Z. change (Z.of_nat 1) with 1%Z. change (Z.of_nat 2) with 2%Z.
  set (a := (0%Z, repeat (1, 1%Z) 250)). set (b := (1%Z, repeat (5, 0%Z) 250)). set (c := (2%Z, repeat (3, 2%Z) 250)). set (d := (7%Z, [] : list (R * Z))).
  apply Permutation_sym. apply (Permutation_trans (l' := [a; b; d; c])).
  - do 2 constructor. apply perm_swap.
  - apply (Permutation_trans (l' := [c; a; b; d])). + apply Permutation_sym, (Permutation_cons_append [a; b; d] c).
    + constructor. apply Permutation_sym, (Permutation_cons_append [a; b] d).
Qed.
Lemma ex_order : some_order 250 [1; 2; 0]%nat.
Proof. unfold some_order. change (seq 0 (nblock 250)) with [0; 1; 2]%nat. apply Permutation_sym, (Permutation_cons_append [1; 2]%nat 0%nat). Qed.
Lemma ex_row i : (i < 250)%nat -> trow ex_cols i = [(1, 1%Z); (5, 0%Z); (3, 2%Z)].
Proof.
  intros H. unfold trow, ex_cols. cbn [map].
  assert (N : forall x : R * Z, nth i (repeat x 250) (0, 0%Z) = x).
  { intros x. assert (I : In (nth i (repeat x 250) (0, 0%Z)) (repeat x 250)) by (apply nth_In; now rewrite repeat_length). now apply repeat_spec in I. }
  now rewrite !N.
Qed.
(** The middle column is not counted: mean 2, deviation sqrt 2, difference 2. *)
Example C29_nonvacuous :
  adds_table 250 ex_cols ex_calls /\ ex_cols <> [] /\ some_order 250 [1; 2; 0]%nat /\
  write_mean Rnums 250 3 ex_calls 1 [1; 2; 0]%nat = Ok (repeat (2, sqrt 2, 2) 250) /\
  (forall i, (i < 250)%nat -> exists v m, nth_error (trow ex_cols i) 0 = Some (v, m) /\ (1 <= m)%Z).
Proof.
  split; [exact ex_adds|]. split; [discriminate|]. split; [exact ex_order|]. split.
  - change 3%nat with (length ex_cols). rewrite (@C29_mean_and_rms _ _ _ 1%Z _ ex_adds) by (discriminate || exact ex_order). f_equal.
    transitivity (map (fun _ : nat => (2, sqrt 2, 2)) (seq 0 250)).
    + apply map_ext_in. intros i Hi. apply in_seq in Hi. rewrite ex_row by lia. cbv zeta. unfold counted. cbn.
      assert (M : mean [1; 3] = 2) by (unfold mean, rsum; cbn; lra). f_equal; [f_equal|].
      * exact M.
      * unfold deviation. rewrite M. unfold rsum. cbn. f_equal. field.
      * unfold difference, rsum. cbn. replace (((3 - 1) * ((3 - 1) * 1) + 0) / 1) with (2 * 2) by field. apply sqrt_square. lra.
    + assert (G : forall n b, map (fun _ : nat => (2, sqrt 2, 2)) (seq b n) = repeat (2, sqrt 2, 2) n); [|apply G]. clear. induction n as [|n IH]; intros b; cbn [seq map repeat]; [reflexivity|]. now rewrite IH.
  - intros i Hi. rewrite ex_row by exact Hi. exists 1, 1%Z. split; [reflexivity|lia].
Qed.

(** ** Where masked entries do count *)
(** A masked entry in the first column takes part in the minimum and the maximum. *)
Theorem C29_masked_first_entry_min_max_refuted :
  forall v row mval, (forall x, In x (counted mval row) -> v < x) ->
    e_min (snd (ext_row Rnums mval ((v, (mval - 1)%Z) :: row))) = v /\ ~ In v (counted mval ((v, (mval - 1)%Z) :: row)).
Proof.
  intros v row mval H. assert (C : counted mval ((v, (mval - 1)%Z) :: row) = counted mval row).
  { unfold counted. cbn [filter snd]. destruct (Z.leb_spec mval (mval - 1)); [lia|reflexivity]. }
  assert (S := ext_row_spec mval v (mval - 1) row). cbv zeta in S. destruct (ext_row Rnums mval ((v, (mval - 1)%Z) :: row)) as [b e].
  destruct S as (-> & SA & SB & SC & _). rewrite C in *. cbn [snd]. split.
  - destruct SC as [(E & _)|(m' & E & Hm)]; [exact E|]. exfalso.
    assert (HI : In (e_min e) (counted mval ((v, (mval - 1)%Z) :: row))).
    { unfold counted. apply in_map_iff. exists (e_min e, m'). split; [reflexivity|]. apply filter_In. split; [eapply nth_error_In, E|]. cbn [snd]. lia. }
    rewrite C in HI. apply H in HI. lra.
  - intros HI. apply H in HI. lra.
Qed.
Print Assumptions C29_masked_first_entry_min_max_refuted.
Example C29_masked_first_nonvacuous : forall x, In x (counted 1 [(2, 1%Z); (3, 1%Z)]) -> 0 < x.
Proof. cbn. intros x [<-|[<-|[]]]; lra. Qed.
(** A masked entry in the first column is the base of the root mean square difference: two tables that differ only in a masked
    entry have different reports. *)
Theorem C29_masked_base_refuted :
  let row b := [(b, 0%Z); (0, 1%Z); (0, 1%Z)] in
  counted 1 (row 0) = counted 1 (row 1) /\ mean_row Rnums 1 (row 0) <> mean_row Rnums 1 (row 1).
Proof.
  cbv zeta. split; [reflexivity|]. rewrite !mean_row_spec. cbn. intros E. injection E as E. revert E.
  unfold difference, rsum. cbn. replace (((0 - 0) * ((0 - 0) * 1) + ((0 - 0) * ((0 - 0) * 1) + 0)) / 1) with 0 by field.
  replace (((0 - 1) * ((0 - 1) * 1) + ((0 - 1) * ((0 - 1) * 1) + 0)) / 1) with 2 by field. rewrite sqrt_0. intros E.
  assert (0 < sqrt 2) by (apply sqrt_lt_R0; lra). lra.
Qed.
Print Assumptions C29_masked_base_refuted.
(** The average of a column is not the average of its counted entries. *)
Theorem C29_column_average_refuted :
  snd (sum_column Rnums 2 1 [(4, 1%Z); (0, 0%Z)]) = 2 /\ mean (counted 1 [(4, 1%Z); (0, 0%Z)]) = 4.
Proof. rewrite sum_column_spec. unfold mean, counted, rsum. cbn. split; lra. Qed.
Print Assumptions C29_column_average_refuted.

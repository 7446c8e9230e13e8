(** Model of StatBlock (/repo/src/analysis/stat_block.cpp).  The numbers are a parameter ([nums]); they are instantiated with the
    real numbers in StatSpec.v, so rounding is not modelled.  The printed text is the list of per-row results, in order. *)
From Verif Require Import Prelude GAModel.

Record nums (V : Type) := {
  n_zero : V; n_add : V -> V -> V; n_sub : V -> V -> V; n_mul : V -> V -> V; n_div : V -> V -> V; n_sqrt : V -> V;
  n_nat : nat -> V;                      (* static_cast<double>(int) *)
  n_ltb : V -> V -> bool
}.

(** stat_block.cpp:28 *)
Definition BLOCKSIZE : nat := 100.
(** :286-289 (also :471-474, :677-680, :796-799 with columns): nblock = n/BLOCKSIZE, then while (n > nblock*BLOCKSIZE) nblock++.
    The fuel is the bound n on the number of rounds. *)
Fixpoint grow (fuel n nb : nat) : nat :=
  match fuel with O => nb | S f => if BLOCKSIZE * nb <? n then grow f n (S nb) else nb end.
Definition nblock (n : nat) : nat := grow n n (n / BLOCKSIZE).
(** :317-320 the rows of block [itask]: ilo and number of rows. *)
Definition block_lo (itask : nat) : nat := itask * BLOCKSIZE.
Definition block_len (n itask : nat) : nat :=
  let ihi := (itask + 1) * BLOCKSIZE - 1 in (if n <=? ihi then n - 1 else ihi) + 1 - block_lo itask.

(** A column as added by one process: values and mask of the rows.  p_data and p_mask are one array of columns. *)
Notation column V := (list (V * Z)).
Section Table.
Variables V : Type.
Variable N : nums V.
Notation add := (n_add N). Notation sub := (n_sub N). Notation mul := (n_mul N). Notation div := (n_div N).

(** :106-122 addColumnValues by the processes: [calls] are all calls in the order they take effect.  An index outside the table
    is only reported; vectors shorter than the table are read past their end. *)
Fixpoint add_columns (nrows : nat) (g : garray (column V)) (calls : list (Z * column V)) : outcome (garray (column V)) :=
  match calls with
  | [] => Ok g
  | (idx, c) :: r =>
      if (idx <? 0)%Z || (Z.of_nat (length g) <=? idx)%Z then add_columns nrows g r
      else if length c <? nrows then UB
      else obind (ga_put g (Z.to_nat idx) [firstn nrows c]) (fun g' => add_columns nrows g' r)
  end.
(** :321-328 the values and masks of row [i], as fetched with NGA_Get of whole rows. *)
Definition row_of (cols : list (column V)) (i : nat) : list (V * Z) := map (fun c => nth i c (n_zero N, 0%Z)) cols.

(** The task loop :303-399: block numbers are drawn from a counter with NGA_Read_inc, so every block below nblock is drawn by
    exactly one process; [ord] is the order in which the results of the blocks are put.  The columns of g_buf are one cell.
    After the sync the first process fetches everything and prints it. *)
Definition block_put {B} (n : nat) (stat : nat -> B) (itask : nat) : nat * list B :=
  (block_lo itask, map stat (seq (block_lo itask) (block_len n itask))).
Definition run_blocks {B} (n : nat) (stat : nat -> B) (ord : list nat) : outcome (list B) :=
  obind (ga_puts (ga_new B n) (map (block_put n stat) ord)) (fun g => ga_get g 0 n).

(** :341-352 of writeMeanAndRMS: the loop over the columns. *)
Record acc := { a_cnt : nat; a_sum : V; a_sum2 : V; a_diff2 : V }.
Definition mean_step (mval : Z) (base : V) (a : acc) (jx : nat * (V * Z)) : acc :=
  let '(j, (v, m)) := jx in
  if (mval <=? m)%Z then
    {| a_cnt := S (a_cnt a); a_sum := add (a_sum a) v; a_sum2 := add (a_sum2 a) (mul v v);
       a_diff2 := if 0 <? j then add (a_diff2 a) (mul (sub v base) (sub v base)) else a_diff2 a |}
  else a.
Definition enum {X} (l : list X) : list (nat * X) := combine (seq 0 (length l)) l.
Definition base_of (row : list (V * Z)) : V := fst (hd (n_zero N, 0%Z) row).
Definition root_or_zero (x : V) : V := if n_ltb N (n_zero N) x then n_sqrt N x else n_zero N.
(** :334-379 one row of writeMeanAndRMS: average, RMS deviation from the average, RMS difference from the first column. *)
Definition mean_row (mval : Z) (row : list (V * Z)) : V * V * V :=
  let base := base_of row in
  let a := fold_left (mean_step mval base) (enum row)
             {| a_cnt := 0; a_sum := n_zero N; a_sum2 := n_zero N; a_diff2 := n_zero N |} in
  let n := a_cnt a in
  let avg := if 0 <? n then div (a_sum a) (n_nat N n) else n_zero N in
  let avg2 := if 1 <? n then div (sub (a_sum2 a) (mul (mul (n_nat N n) avg) avg)) (n_nat N (n - 1)) else n_zero N in
  let diff2 := if 1 <? n then div (a_diff2 a) (n_nat N (n - 1)) else n_zero N in
  (avg, root_or_zero avg2, root_or_zero diff2).
(** :521-545 one row of writeMinAndMax: base, minimum, maximum and the columns they are found in. *)
Record ext := { e_min : V; e_max : V; e_jmin : nat; e_jmax : nat }.
Definition ext_step (mval : Z) (e : ext) (jx : nat * (V * Z)) : ext :=
  let '(j, (v, m)) := jx in
  if (mval <=? m)%Z then
    let lo := n_ltb N v (e_min e) in let hi := n_ltb N (e_max e) v in
    {| e_min := if lo then v else e_min e; e_jmin := if lo then j else e_jmin e;
       e_max := if hi then v else e_max e; e_jmax := if hi then j else e_jmax e |}
  else e.
Definition ext_row (mval : Z) (row : list (V * Z)) : V * ext :=
  let base := base_of row in
  (base, fold_left (ext_step mval) (enum row) {| e_min := base; e_max := base; e_jmin := 0; e_jmax := 0 |}).
(** :716-724 one row of writeMaskValueCount *)
Definition count_row (mval : Z) (row : list (V * Z)) : nat :=
  fold_left (fun n x => if (snd x =? mval)%Z then S n else n) row 0.
(** :838-846 and :870-871 one column of sumColumnValues: sum and average. *)
Definition sum_column (nrows : nat) (mval : Z) (c : column V) : V * V :=
  let s := fold_left (fun s x => if (mval <=? snd x)%Z then add s (fst x) else s) c (n_zero N) in
  (s, if 0 <? nrows then div s (n_nat N nrows) else n_zero N).

(** The four reports for the columns stored with [calls]; a table is read completely, so every column must have been added. *)
Definition with_table {B} (nrows ncols : nat) (calls : list (Z * column V)) (k : list (column V) -> outcome B) : outcome B :=
  obind (add_columns nrows (ga_new (column V) ncols) calls) (fun g => obind (ga_get g 0 ncols) k).
Definition write_mean (nrows ncols : nat) (calls : list (Z * column V)) (mval : Z) (ord : list nat) : outcome (list (V * V * V)) :=
  with_table nrows ncols calls (fun cols => run_blocks nrows (fun i => mean_row mval (row_of cols i)) ord).
Definition write_min_max (nrows ncols : nat) (calls : list (Z * column V)) (mval : Z) (ord : list nat) : outcome (list (V * ext)) :=
  with_table nrows ncols calls (fun cols => run_blocks nrows (fun i => ext_row mval (row_of cols i)) ord).
Definition write_mask_count (nrows ncols : nat) (calls : list (Z * column V)) (mval : Z) (ord : list nat) : outcome (list nat) :=
  with_table nrows ncols calls (fun cols => run_blocks nrows (fun i => count_row mval (row_of cols i)) ord).
Definition sum_columns (nrows ncols : nat) (calls : list (Z * column V)) (mval : Z) (ord : list nat) : outcome (list (V * V)) :=
  with_table nrows ncols calls (fun cols => run_blocks ncols (fun j => sum_column nrows mval (nth j cols [])) ord).
End Table.

(** Independent specification of the statistics of a table, over the real numbers. *)
From Verif Require Import Prelude StatModel.
From Coq Require Import Reals.
Open Scope R_scope.

Definition Rltb (x y : R) : bool := if Rlt_dec x y then true else false.
(** The numbers of the C++ code read as real numbers. *)
Definition Rnums : nums R :=
  {| n_zero := 0; n_add := Rplus; n_sub := Rminus; n_mul := Rmult; n_div := Rdiv; n_sqrt := sqrt; n_nat := INR; n_ltb := Rltb |}.

(** The table is given by its columns, each a list of (value, mask) pairs, one per row.  The processes may add the columns in any
    order; calls with a column number outside the table have no effect. *)
Definition adds_table (nrows : nat) (cols : list (list (R * Z))) (calls : list (Z * list (R * Z))) : Prop :=
  Forall (fun c => length c = nrows) cols /\
  exists junk, Permutation calls (combine (map Z.of_nat (seq 0 (length cols))) cols ++ junk)%list /\
    Forall (fun x => (fst x < 0)%Z \/ (Z.of_nat (length cols) <= fst x)%Z) junk.
(** Row [i] of the table. *)
Definition trow (cols : list (list (R * Z))) (i : nat) : list (R * Z) := map (fun c => nth i c (0, 0%Z)) cols.
(** The schedule: the processes draw the block numbers 0, 1, ... below the number of blocks the code computes, and finish them in some order. *)
Definition some_order (n : nat) (ord : list nat) : Prop := Permutation ord (seq 0 (nblock n)).

(** Entries with a mask of at least [mval]. *)
Definition counted (mval : Z) (l : list (R * Z)) : list R := map fst (filter (fun x => (mval <=? snd x)%Z) l).
Definition rsum (l : list R) : R := fold_right Rplus 0 l.
Definition mean (l : list R) : R := rsum l / INR (length l).
(** Sample standard deviation. *)
Definition deviation (l : list R) : R := sqrt (rsum (map (fun x => (x - mean l) ^ 2) l) / INR (length l - 1)).
(** Root mean square difference from a base value. *)
Definition difference (b : R) (l : list R) (n : nat) : R := sqrt (rsum (map (fun x => (x - b) ^ 2) l) / INR n).

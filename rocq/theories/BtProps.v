(** C61: tables of values for devices on buses. *)
From Verif Require Import Prelude StrModel StrSpec StreamModel GAModel HdModel HdProofs DCModel BtModel BtSpec BtProofs2 BtProofs3.
From Coq Require Import Ascii.
Open Scope nat_scope.

(** Reading a table that is written as specified, on any number of processes and whatever the object held before: every process receives for each of its buses, copies
    included, each row with the number of the bus exactly once.  The three lists of a process run in parallel: local index, tag, and for every column the value.
    Partial: comments at the start are covered on one process only, and comments between rows only as many as fit in the last slice of the buffer. *)
Theorem C61_table_partial : forall (D : Type) (atof : str -> D) (nval fuel : nat) (buses : list (list Z)) (ord : list nat) heads blocks (t0 : table D),
  table_ok nval heads blocks ->
  (length blocks mod 10 = 0 \/ length blocks mod 10 + length (flat_map b_notes blocks) <= 10) ->
  (length buses = 1 \/ heads = []) -> Permutation ord (iota (length buses)) -> (0 < Z.of_nat (length buses) < 2 ^ 31)%Z -> (Z.of_nat (length blocks) < 2 ^ 31)%Z ->
  (t_has t0 = true -> t_ga t0 <> None) -> length (file_of (table_lines heads blocks)) < fuel ->
  exists t, read_table atof fuel buses ord (Some (file_of (table_lines heads blocks))) t0 = Some (Ok (true, t)) /\
    t_nvals t = Z.of_nat nval /\ t_headers t = map snd heads /\ release t <> UB /\
    forall p local, nth_error buses p = Some local ->
      exists es, Permutation es (rows_for local (map b_row blocks)) /\
        local_indices t p = map fst es /\ tags t p = map (fun e => canonical (r_tag (snd e))) es /\
        forall k, k < nval -> get_values t p (Z.of_nat k) = Ok (map (fun e => atof (nth k (r_vals (snd e)) [])) es).
Proof.
  intros D atof nval fuel buses ord heads blocks t0 T HC HP PO HN HT H0 HF.
  destruct (@read_ok D atof nval fuel buses ord heads blocks t0 T HC HP PO HN HT H0 HF) as (loc & g & tail & R & F & G).
  eexists. split; [exact R|]. cbn [t_nvals t_headers]. split; [reflexivity|]. split; [reflexivity|]. split; [discriminate|].
  intros p local E. destruct (nth_forall2 F p E) as (e & El & xs & P & Ee & N).
  exists (map (fun x => (fst x, snd (snd x))) xs). split; [exact P|].
  unfold local_indices, tags, get_values. cbn [t_local t_ga t_nvals]. rewrite (nth_error_nth _ _ [] El), Ee, !map_map. cbn [fst snd].
  split; [reflexivity|]. split; [reflexivity|]. intros k K. cbv zeta. rewrite map_map. cbn [snd].
  assert (X : existsb (fun i => (i <? 0)%Z) (map (fun x : nat * (nat * row) => (Z.of_nat nval * Z.of_nat (fst (snd x)) + Z.of_nat k)%Z) xs) = false).
  { apply Bool.not_true_iff_false. intros X. apply existsb_exists in X as (z & I & Z). apply in_map_iff in I as (x & <- & _). lia. }
  rewrite X. cbv iota. rewrite map_map.
  rewrite (@gather_ok D (nat * (nat * row)) g _ (fun x => atof (nth k (r_vals (snd (snd x))) []))); [now rewrite map_map|].
  intros x I. replace (Z.to_nat (Z.of_nat nval * Z.of_nat (fst (snd x)) + Z.of_nat k)) with (nval * fst (snd x) + k) by lia.
  rewrite G. apply nth_cells; auto. destruct T as (_ & _ & FB & _).
  apply Forall_forall. intros r J. apply in_map_iff in J as (b & <- & J). rewrite Forall_forall in FB. now destruct (FB b J) as (_ & _ & Y).
Qed.
Print Assumptions C61_table_partial.

(** The files below give numbers as their texts. *)
Definition lines (ls : list string) : str := file_of (map s_ ls).
Definition run1 (buses : list (list Z)) (text : str) : option (outcome (bool * table str)) :=
  read_table (fun x => x) 200 buses (iota (length buses)) (Some text) (new_table (length buses)).

(** One process: a comment at the start, two rows for bus 7 and one for bus 9, a comment between, tabs, quotes and a carriage return. *)
Definition ex_heads : list (str * str) := [(s_ "#  load  shed ", s_ "load  shed")].
Definition ex_blocks : list block :=
  [Block [] (s_ " 7 1 0.5  1.25" ++ [cr])%list (Row 7 (s_ "1") [s_ "0.5"; s_ "1.25"]);
   Block [s_ "# again"] (s_ "9" ++ [tab] ++ s_ "'G2' 3 4 ")%list (Row 9 (s_ "G2") [s_ "3"; s_ "4"]);
   Block [] (s_ "7 2 5 6") (Row 7 (s_ "2") [s_ "5"; s_ "6"])].
Ltac piece := split; [discriminate|repeat constructor].
Ltac one_process :=
  change (iota (length [_])) with [0];
  match goal with |- context [read_table ?at_ ?fu [?lo] ?o (Some ?tx) ?t0] =>
    let x := eval vm_compute in (pass1 fu (Some tx)) in
    match x with Some (Scan true ?nv ?nl ?hs) =>
      let y := eval vm_compute in (fill at_ fu (Z.to_nat nv) nl tx) in
      match y with Some (Ok (?rs, ?g)) =>
        let e := eval vm_compute in (received (let l := flat_map (deliver Z.eqb lo) rs in (map fst l, map snd l))) in
        match e with Ok ?ee => rewrite (@read_one _ at_ fu lo tx t0 t0 nv nl hs rs g ee);
          [ | reflexivity | vm_compute; reflexivity | reflexivity | vm_compute; reflexivity | discriminate | vm_compute; reflexivity ] end
      end
    end
  end.
Example C61_nonvacuous : table_ok 2 ex_heads ex_blocks /\
  match run1 [[9; 7; 8]%Z] (file_of (table_lines ex_heads ex_blocks)) with
  | Some (Ok (true, t)) => t_headers t = [s_ "load  shed"] /\ local_indices t 0 = [1; 0; 1] /\ tags t 0 = [s_ "1 "; s_ "G2"; s_ "2 "] /\
                           get_values t 0 0 = Ok [s_ "0.5"; s_ "3"; s_ "5"] /\ get_values t 0 1 = Ok [s_ "1.25"; s_ "4"; s_ "6"]
  | _ => False
  end.
Proof.
  split.
  - split; [lia|]. split; [|split; [|reflexivity]].
    + repeat constructor. exists [sp; sp], [sp]. split; [reflexivity|]. split; [repeat constructor; discriminate|]. split; [repeat constructor; discriminate|].
      split; [intros I; cbn in I; intuition discriminate|]. split; [intros I; cbn in I; intuition discriminate|]. split; [intros I; cbn in I; intuition discriminate|].
      right. split; [eexists _, _; split; reflexivity|]. exists (s_ "load  she"), "d"%char. split; reflexivity.
    + repeat (apply Forall_cons); [| | |constructor].
      * split; [constructor|]. split; [|reflexivity]. split; [reflexivity|]. split; [split; [discriminate|repeat constructor; discriminate]|]. split; [cbn; lia|].
        exists (s_ "1"). split; [exact (@sp_plain (s_ "1") 0 0)|].
        apply (@line_more [sp] (s_ "7") [sp] [s_ "1"; s_ "0.5"; s_ "1.25"] (s_ "1 0.5  1.25" ++ [cr])%list); [piece|repeat constructor; discriminate|split; [discriminate|repeat constructor]| |eexists _, _; split; reflexivity].
        apply (@line_more [] (s_ "1") [sp] [s_ "0.5"; s_ "1.25"] (s_ "0.5  1.25" ++ [cr])%list); [piece|constructor|split; [discriminate|repeat constructor]| |eexists _, _; split; reflexivity].
        apply (@line_more [] (s_ "0.5") [sp; sp] [s_ "1.25"] (s_ "1.25" ++ [cr])%list); [piece|constructor|split; [discriminate|repeat constructor]| |eexists _, _; split; reflexivity].
        apply (@line_last [] (s_ "1.25") [cr]); [piece|constructor|repeat constructor; discriminate].
      * split; [repeat constructor; eexists; split; [reflexivity|intros I; cbn in I; intuition discriminate]|]. split; [|reflexivity]. split; [reflexivity|].
        split; [split; [discriminate|repeat constructor; discriminate]|]. split; [cbn; lia|].
        exists (s_ "'G2'"). split; [exact (@sp_quoted (s_ "G2") qt1 0 0 0 0 (or_introl eq_refl))|].
        apply (@line_more [] (s_ "9") [tab] [s_ "'G2'"; s_ "3"; s_ "4"] (s_ "'G2' 3 4 ")); [piece|constructor|split; [discriminate|apply Forall_cons; [right; left; reflexivity|apply Forall_nil]]| |eexists _, _; split; reflexivity].
        apply (@line_more [] (s_ "'G2'") [sp] [s_ "3"; s_ "4"] (s_ "3 4 ")); [piece|constructor|split; [discriminate|repeat constructor]| |eexists _, _; split; reflexivity].
        apply (@line_more [] (s_ "3") [sp] [s_ "4"] (s_ "4 ")); [piece|constructor|split; [discriminate|repeat constructor]| |eexists _, _; split; reflexivity].
        apply (@line_last [] (s_ "4") [sp]); [piece|constructor|repeat constructor; discriminate].
      * split; [constructor|]. split; [|reflexivity]. split; [reflexivity|]. split; [split; [discriminate|repeat constructor; discriminate]|]. split; [cbn; lia|].
        exists (s_ "2"). split; [exact (@sp_plain (s_ "2") 0 0)|].
        apply (@line_more [] (s_ "7") [sp] [s_ "2"; s_ "5"; s_ "6"] (s_ "2 5 6")); [piece|constructor|split; [discriminate|repeat constructor]| |eexists _, _; split; reflexivity].
        apply (@line_more [] (s_ "2") [sp] [s_ "5"; s_ "6"] (s_ "5 6")); [piece|constructor|split; [discriminate|repeat constructor]| |eexists _, _; split; reflexivity].
        apply (@line_more [] (s_ "5") [sp] [s_ "6"] (s_ "6")); [piece|constructor|split; [discriminate|repeat constructor]| |eexists _, _; split; reflexivity].
        apply (@line_last [] (s_ "6") []); [piece|constructor|constructor].
  - unfold run1. one_process. repeat split; vm_compute; reflexivity.
Qed.

(** Finding: the comments at the start of a table are sent to the other processes as characters without the terminating NUL and made into strings there: reading any table
    that starts with a comment on several processes is undefined. *)
Theorem C61_headers_refuted : forall (D : Type) (atof : str -> D) nval fuel buses ord heads blocks (t0 t1 : table D),
  table_ok nval heads blocks -> heads <> [] -> 1 < length buses -> release t0 = Ok t1 -> length (file_of (table_lines heads blocks)) < fuel ->
  read_table atof fuel buses ord (Some (file_of (table_lines heads blocks))) t0 = Some UB.
Proof. exact @headers_ub. Qed.
Print Assumptions C61_headers_refuted.

(** Finding: the last line counts only if a newline ends it: the second row is lost, and a file of one such line is reported as missing. *)
Theorem C61_last_line_refuted :
  (exists t, run1 [[7%Z]] (lines ["7 1 5"%string] ++ s_ "7 2 6")%list = Some (Ok (true, t)) /\ tags t 0 = [s_ "1 "]) /\
  run1 [[7%Z]] (s_ "7 1 5") = Some (Ok (false, new_table 1)).
Proof. split; [|vm_compute; reflexivity]. unfold run1. one_process. eexists. split; [reflexivity|vm_compute; reflexivity]. Qed.
Print Assumptions C61_last_line_refuted.

(** Finding: a blank line after the first row (for example at the end of the file), and a row with fewer values than the first, are read past the end of the list of pieces. *)
Theorem C61_blank_line_refuted :
  run1 [[7%Z]] (lines ["7 1 5"%string; EmptyString]) = Some UB /\ run1 [[7%Z]] (lines ["7 1 5 6"%string; "7 2 5"%string]) = Some UB.
Proof. split; vm_compute; reflexivity. Qed.
Print Assumptions C61_blank_line_refuted.

(** Finding: a comment at the end of the file is undefined behaviour when a newline ends it, and reading never ends when it is the second comment and no newline ends it. *)
Theorem C61_trailing_comment_refuted :
  run1 [[7%Z]] (lines ["7 1 5"%string; "# end"%string]) = Some UB /\
  forall fuel, read_table (fun x => x) fuel [[7%Z]] [0] (Some (lines ["7 1 5"%string; "# a"%string] ++ s_ "# b")%list) (new_table 1) = None.
Proof.
  split; [vm_compute; reflexivity|]. intros fuel.
  assert (P1 : forall k, pass1 (S (S (S (S k)))) (Some (lines ["7 1 5"%string; "# a"%string] ++ s_ "# b")%list) = Some (Scan true 1 2 [])) by (intros k; reflexivity).
  assert (F : forall k, fill (fun x : str => x) (S (S (S (S k)))) 1 2 (lines ["7 1 5"%string; "# a"%string] ++ s_ "# b")%list = None).
  { intros k. unfold fill.
    assert (A : forall x s, pass2 (fun x : str => x) (S (S (S k))) 1 (Build_fstate (lines ["# a"%string] ++ s_ "# b")%list false) x s = None).
    { intros x s.
      assert (B : skip_comments (S (S k)) (Build_fstate (s_ "# b") false) (s_ "# a") = None).
      { change (skip_comments (S k) (Build_fstate [] true) (s_ "# b") = None). apply skip_forever. reflexivity. }
      change (match skip_comments (S (S k)) (Build_fstate (s_ "# b") false) (s_ "# a") with
              | None => None
              | Some (l2, f2) => match obind (parse_row (fun x : str => x) 1 l2) (fun row => add_row 1 row s) with
                                 | Ok s' => pass2 (fun x : str => x) (S (S k)) 1 f2 l2 s' | Throw => Some Throw | UB => Some UB end
              end = None). rewrite B. reflexivity. }
    set (s0 := Load [] _ 0 _).
    assert (E : exists s, obind (parse_row (fun x : str => x) 1 (s_ "7 1 5")) (fun row => add_row 1 row s0) = Ok s) by (eexists; vm_compute; reflexivity).
    destruct E as (s & E).
    assert (G : pass2 (fun x : str => x) (S (S (S (S k)))) 1 (Build_fstate (lines ["7 1 5"%string; "# a"%string] ++ s_ "# b")%list false) [] s0 = None).
    { change (match obind (parse_row (fun x : str => x) 1 (s_ "7 1 5")) (fun row => add_row 1 row s0) with
              | Ok s' => pass2 (fun x : str => x) (S (S (S k))) 1 (Build_fstate (lines ["# a"%string] ++ s_ "# b")%list false) (s_ "7 1 5") s'
              | Throw => Some Throw | UB => Some UB end = None). rewrite E. apply A. }
    rewrite G. reflexivity. }
  destruct fuel as [|[|[|[|k]]]]; [vm_compute; reflexivity|vm_compute; reflexivity|vm_compute; reflexivity|vm_compute; reflexivity|].
  unfold read_table. cbn [release new_table t_has]. rewrite P1. cbn [sc_found sc_nval sc_nline sc_headers length Z.ltb Nat.ltb Nat.leb andb Z.compare].
  change (Z.to_nat 1) with 1. rewrite F. reflexivity.
Qed.
Print Assumptions C61_trailing_comment_refuted.

(** Finding: a tag in quotes with a blank in it, as files of power flow data have it, is cut at the blank: the closing quote becomes the first value and the values move by
    one column. *)
Theorem C61_quoted_tag_refuted : exists t, run1 [[7%Z]] (lines ["7 '1 ' 5 6"%string]) = Some (Ok (true, t)) /\
  tags t 0 = [s_ "1 "] /\ t_nvals t = 3%Z /\ get_values t 0 0 = Ok [s_ "'"] /\ get_values t 0 1 = Ok [s_ "5"].
Proof. unfold run1. one_process. eexists. split; [reflexivity|]. repeat split; vm_compute; reflexivity. Qed.
Print Assumptions C61_quoted_tag_refuted.

(** Finding: a first line that is a comment after a blank is a comment for the first pass and a row for the second: there is a row too many, and the values of the last row
    are not in the array. *)
Theorem C61_indented_comment_refuted : exists t, run1 [[7%Z]] (lines [" # load shed"%string; "7 1 5"%string]) = Some (Ok (true, t)) /\
  t_headers t = [s_ "load shed"] /\ local_indices t 0 = [0] /\ get_values t 0 0 = UB.
Proof. unfold run1. one_process. eexists. split; [reflexivity|]. repeat split; vm_compute; reflexivity. Qed.
Print Assumptions C61_indented_comment_refuted.

(** Finding: comments between rows are counted as rows, and the last transfer has the size of what was counted: with enough of them it reads past the end of the buffer. *)
Theorem C61_comments_between_refuted :
  run1 [[7%Z]] (lines ("7 1 5"%string :: repeat "# x"%string 10 ++ ["7 2 6"%string])%list) = Some UB /\
  exists t, run1 [[7%Z]] (lines ("7 1 5"%string :: repeat "# x"%string 8 ++ ["7 2 6"%string])%list) = Some (Ok (true, t)) /\ get_values t 0 0 = Ok [s_ "5"; s_ "6"].
Proof. split; [vm_compute; reflexivity|]. unfold run1. one_process. eexists. split; [reflexivity|]. vm_compute; reflexivity. Qed.
Print Assumptions C61_comments_between_refuted.

(** Finding: asked for a column that does not exist, getValues prints a message and reads all the same: the number is another row's. *)
Theorem C61_column_refuted : exists t, run1 [[7%Z]] (lines ["7 1 5 6"%string; "9 1 3 4"%string]) = Some (Ok (true, t)) /\ t_nvals t = 2%Z /\ get_values t 0 2 = Ok [s_ "3"].
Proof. unfold run1. one_process. eexists. split; [reflexivity|]. repeat split; vm_compute; reflexivity. Qed.
Print Assumptions C61_column_refuted.

(** Finding: when a second table cannot be read the call says so, but the values of the first are gone: indices and tags are still there, getValues and the destructor are
    undefined. *)
Theorem C61_failed_read_refuted : forall (D : Type) (atof : str -> D) fuel buses ord (t : table D) g,
  t_has t = true -> t_ga t = Some g ->
  exists t', read_table atof fuel buses ord None t = Some (Ok (false, t')) /\ t_local t' = t_local t /\ release t' = UB /\ forall p k, get_values t' p k = UB.
Proof.
  intros D atof fuel buses ord t g H G. unfold read_table, release. rewrite H, G. cbn [pass1 sc_found]. eexists. split; [reflexivity|]. repeat split.
Qed.
Print Assumptions C61_failed_read_refuted.

(** Finding: a file that holds only comments is reported as read; then getValues and the destructor are undefined. *)
Theorem C61_only_comments_refuted : exists t, run1 [[7%Z]] (lines ["# load shed"%string]) = Some (Ok (true, t)) /\ release t = UB /\ get_values t 0 0 = UB.
Proof. eexists. split; [vm_compute; reflexivity|]. split; vm_compute; reflexivity. Qed.
Print Assumptions C61_only_comments_refuted.

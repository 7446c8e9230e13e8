(** Properties of InputStream (C26). *)
From Verif Require Import Prelude StrModel StrSpec RecModel StreamModel.
From Coq Require Import Ascii.
Open Scope nat_scope.

(** A file whose lines all end with a newline. *)
Definition text_of (ls : list str) : str := flat_map (fun l => l ++ [lf])%list ls.

Lemma cut_line_app l r : lacks lf l -> cut_line (l ++ lf :: r) = Some (l, r).
Proof.
  induction l as [|c l IH]; intros H; cbn [app cut_line]; [reflexivity|].
  destruct (Ascii.eqb_spec c lf) as [->|N]; [exfalso; apply H; now left|]. rewrite IH; [reflexivity|]. intros X. apply H. now right.
Qed.
Lemma cut_line_none l : lacks lf l -> cut_line l = None.
Proof.
  induction l as [|c l IH]; intros H; cbn [cut_line]; [reflexivity|].
  destruct (Ascii.eqb_spec c lf) as [->|N]; [exfalso; apply H; now left|]. rewrite IH; [reflexivity|]. intros X. apply H. now right.
Qed.
Definition reading (v : bool) (vec : list str) (s : str) : istream := Build_istream true true v (Build_fstate s false) vec.
Lemma next_line_of v vec l r x : lacks lf l -> next (reading v vec (l ++ lf :: r)) x = Ok (true, l, reading v vec r).
Proof. intros H. unfold next, reading, getline. cbn [is_open is_file is_fs fs_eof fs_rest is_vec is_lines]. now rewrite cut_line_app. Qed.
Lemma next_last v vec t x : lacks lf t -> next (reading v vec t) x = Ok (false, t, Build_istream true true v (Build_fstate [] true) vec).
Proof. intros H. unfold next, reading, getline. cbn [is_open is_file is_fs fs_eof fs_rest is_vec is_lines]. now rewrite cut_line_none. Qed.
Lemma next_eof v vec x : next (Build_istream true true v (Build_fstate [] true) vec) x = Ok (false, x, Build_istream true true v (Build_fstate [] true) vec).
Proof. reflexivity. Qed.

Lemma text_cons l ls t : (text_of (l :: ls) ++ t)%list = (l ++ lf :: (text_of ls ++ t))%list.
Proof. unfold text_of. cbn [flat_map]. rewrite <- !app_assoc. reflexivity. Qed.
Lemma read_all_text v vec ls : forall t x fuel, Forall (lacks lf) ls -> lacks lf t -> length ls < fuel ->
  read_all fuel (reading v vec (text_of ls ++ t)) x = Some (Ok ls).
Proof.
  induction ls as [|l ls IH]; intros t x fuel F Ht Hf; (destruct fuel; [cbn in Hf; lia|]); cbn [read_all].
  - cbn [text_of flat_map app]. now rewrite next_last.
  - inversion F; subst. rewrite text_cons, next_line_of by assumption. rewrite IH by (auto; cbn in Hf; lia). reflexivity.
Qed.
Lemma lines_seen_text v vec ls : forall t x n, Forall (lacks lf) ls -> lacks lf t ->
  lines_seen (length ls + n) (reading v vec (text_of ls ++ t)) x = Ok (ls ++ repeat t n)%list.
Proof.
  induction ls as [|l ls IH]; intros t x n F Ht; cbn [length Nat.add].
  - cbn [text_of flat_map app]. destruct n as [|n]; [reflexivity|]. cbn [lines_seen]. rewrite next_last by exact Ht. cbn [obind].
    assert (forall k y, lines_seen k (Build_istream true true v (Build_fstate [] true) vec) y = Ok (repeat y k)) as X.
    { induction k as [|k IHk]; intros y; [reflexivity|]. cbn [lines_seen]. rewrite next_eof. cbn [obind]. rewrite IHk. reflexivity. }
    rewrite X. reflexivity.
  - inversion F; subst. cbn [lines_seen]. rewrite text_cons, next_line_of by assumption. cbn [obind]. rewrite IH by assumption. reflexivity.
Qed.

(** Opening a file whose lines all end with a newline on a closed stream, whatever happened to it before, and reading
    until false gives every line once, in order. *)
Theorem C26_file_lines_partial :
  forall files name ls st x fuel, is_file st = false -> files name = Some (text_of ls) -> Forall (lacks lf) ls -> length ls < fuel ->
    fst (open_file files st name) = true /\ read_all fuel (snd (open_file files st name)) x = Some (Ok ls).
Proof.
  intros files name ls st x fuel Hc Hf F Hl. unfold open_file. rewrite Hc, Hf. cbn [fst snd]. split; [reflexivity|].
  rewrite <- (app_nil_r (text_of ls)). apply read_all_text; auto. intros [].
Qed.
Print Assumptions C26_file_lines_partial.
(** close() always makes the stream ready for the next file. *)
Theorem C26_close_then_open :
  forall st, (is_file st = true -> is_open st = true) -> is_file (close st) = false /\ is_open (close st) = false.
Proof. intros st H. unfold close. destruct (is_open st) eqn:E; destruct (is_file st) eqn:F; destruct (is_vec st); cbn; auto; try (discriminate (H eq_refl)). Qed.
Print Assumptions C26_close_then_open.
(** A stream that is closed, or whose opening failed, delivers nothing and leaves the string alone; opening fails exactly for files that are not there and for empty
    string vectors. *)
Theorem C26_nothing_without_source :
  (forall st x, is_open st = false -> next st x = Ok (false, x, st)) /\
  (forall files name, (fst (open_file files is_new name) = true <-> files name <> None) /\ (files name = None -> is_open (snd (open_file files is_new name)) = false)) /\
  (forall st v, (fst (open_vector st v) = true <-> v <> []) /\ (v = [] -> snd (open_vector st v) = st)).
Proof.
  split; [|split].
  - intros st x H. unfold next. now rewrite H.
  - intros files name. unfold open_file. cbn [is_file is_new]. destruct (files name); cbn; repeat split; intros; try discriminate; try reflexivity; congruence.
  - intros st [|a v]; cbn; repeat split; intros; try discriminate; try reflexivity; congruence.
Qed.
Print Assumptions C26_nothing_without_source.
Example C26_nonvacuous :
  Forall (lacks lf) [s_ "1, 2"; []; s_ "Q"] /\ is_file (close (snd (open_file (fun _ => Some (s_ "x")) is_new "f"))) = false /\
  read_all 4 (snd (open_file (fun _ => Some (text_of [s_ "1, 2"; []; s_ "Q"])) is_new "f")) [] = Some (Ok [s_ "1, 2"; []; s_ "Q"]).
Proof.
  split; [|split; reflexivity].
  repeat constructor; intros H; repeat (destruct H as [H|H]; [discriminate|]); exact H.
Qed.
(** If the last line does not end with a newline, reading until false misses it, for every file. *)
Theorem C26_last_line_refuted :
  forall files name ls t st x fuel, is_file st = false -> files name = Some (text_of ls ++ t)%list -> Forall (lacks lf) ls ->
    lacks lf t -> t <> [] -> length ls < fuel ->
    read_all fuel (snd (open_file files st name)) x = Some (Ok ls).
Proof.
  intros files name ls t st x fuel Hc Hf F Ht _ Hl. unfold open_file. rewrite Hc, Hf. cbn [snd]. now apply read_all_text.
Qed.
Print Assumptions C26_last_line_refuted.
(** Reading a stream opened on a vector of strings is undefined: the iterator is never set. *)
Theorem C26_string_vector_refuted :
  forall st v x, is_file st = false -> v <> [] ->
    fst (open_vector st v) = true /\ forall fuel, read_all (S fuel) (snd (open_vector st v)) x = Some UB.
Proof.
  intros st [|l v] x Hc Hv; [congruence|]. cbn [open_vector fst snd]. split; [reflexivity|]. intros fuel. cbn [read_all next is_open is_file].
  now rewrite Hc.
Qed.
Print Assumptions C26_string_vector_refuted.

(** What the block parsers see (they ignore the answer of nextLine): the line source of RecModel, for files whose lines
    all end with a newline; otherwise the last line comes again and again. *)
Fixpoint taken (n : nat) (st : list str) : list str :=
  match n with O => [] | S k => fst (next_line st) :: taken k (snd (next_line st)) end.
Theorem C26_parser_lines_partial :
  forall files name ls st n, is_file st = false -> files name = Some (text_of ls) -> Forall (lacks lf) ls ->
    lines_seen (length ls + n) (snd (open_file files st name)) [] = Ok (taken (length ls + n) ls).
Proof.
  intros files name ls st n Hc Hf F. unfold open_file. rewrite Hc, Hf. cbn [snd]. rewrite <- (app_nil_r (text_of ls)).
  change (Build_istream true true (is_vec st) (Build_fstate (text_of ls ++ []) false) (is_lines st))
    with (reading (is_vec st) (is_lines st) (text_of ls ++ [])).
  rewrite lines_seen_text by (auto; intros []). f_equal. clear. induction ls as [|l ls IH]; cbn [length Nat.add app taken next_line fst snd].
  - induction n as [|n IH]; cbn [repeat taken next_line fst snd]; [reflexivity|]. now rewrite IH.
  - now rewrite IH.
Qed.
Print Assumptions C26_parser_lines_partial.
(** A parser that reads on without asking for the end sees the unfinished last line again and again. *)
Theorem C26_last_line_repeats_refuted :
  forall files name ls t st x n, is_file st = false -> files name = Some (text_of ls ++ t)%list -> Forall (lacks lf) ls -> lacks lf t ->
    lines_seen (length ls + n) (snd (open_file files st name)) x = Ok (ls ++ repeat t n)%list.
Proof.
  intros files name ls t st x n Hc Hf F Ht. unfold open_file. rewrite Hc, Hf. cbn [snd]. now apply lines_seen_text.
Qed.
Print Assumptions C26_last_line_repeats_refuted.

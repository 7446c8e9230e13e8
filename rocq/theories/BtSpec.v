(** Specification for C61: what a table of bus values says, and how it is written. *)
From Verif Require Import Prelude StrModel StrSpec DCModel.
From Coq Require Import Ascii.
Open Scope nat_scope.

(** A row: the number of the bus, the tag of the device, the texts of the values. *)
Record row := Row { r_bus : Z; r_tag : str; r_vals : list str }.

Definition white (c : ascii) : Prop := isspace c = true /\ c <> "010"%char.
(** A piece of a row: not empty, no white space. *)
Definition piece_of (t : str) : Prop := t <> [] /\ Forall (fun c => isspace c = false) t.
(** Between two pieces: at least one blank, tab or carriage return. *)
Definition between (g : str) : Prop := g <> [] /\ Forall (fun c => c = " "%char \/ c = "009"%char \/ c = "013"%char) g.
(** A line written from pieces, with white space before the first and after the last. *)
Inductive line_of : list str -> str -> Prop :=
| line_last a t b : piece_of t -> Forall white a -> Forall white b -> line_of [t] (a ++ t ++ b)
| line_more a t g ts l : piece_of t -> Forall white a -> between g -> line_of ts l -> (exists c r, l = c :: r /\ isspace c = false) ->
    line_of (t :: ts) (a ++ t ++ g ++ l).
(** The line of a row: number in decimal, tag (two characters at most; plain or in quotes without white space), values. *)
Definition row_line (r : row) (l : str) : Prop :=
  is_int (r_bus r) = true /\ ident (r_tag r) /\ length (r_tag r) <= 2 /\
  exists tag, spelling (r_tag r) tag /\ line_of (s_ (dec (r_bus r)) :: tag :: r_vals r) l.
(** A comment: a line that begins with #. *)
Definition comment (l : str) : Prop := exists r, l = "#"%char :: r /\ lacks "010"%char r.
(** The text of a comment: what follows the # without the white space around it. *)
Definition comment_text (l h : str) : Prop :=
  exists a b, l = ("#"%char :: a ++ h ++ b)%list /\ Forall white a /\ Forall white b /\ lacks "010"%char h /\ lacks "009"%char h /\ lacks "013"%char h /\
    (h = [] \/ (exists c u, h = c :: u /\ isspace c = false) /\ (exists u c, h = (u ++ [c])%list /\ isspace c = false)).
(** Lines, each ended by a newline. *)
Definition file_of (ls : list str) : str := flat_map (fun l => l ++ ["010"%char])%list ls.

(** A table: the comments at its start with their texts, and its rows, each with the comments between it and the row before. *)
Record block := Block { b_notes : list str; b_line : str; b_row : row }.
Definition table_lines (heads : list (str * str)) (blocks : list block) : list str :=
  (map fst heads ++ flat_map (fun b => b_notes b ++ [b_line b]) blocks)%list.
(** [n] values in every row; comments directly before the first row belong to the start. *)
Definition table_ok (n : nat) (heads : list (str * str)) (blocks : list block) : Prop :=
  0 < n /\ Forall (fun h => comment_text (fst h) (snd h)) heads /\
  Forall (fun b => Forall comment (b_notes b) /\ row_line (b_row b) (b_line b) /\ length (r_vals (b_row b)) = n) blocks /\
  match blocks with b :: _ => b_notes b = [] | [] => False end.
(** What a process with these buses has to receive: for each of its buses the rows with the number of the bus. *)
Definition rows_for (buses : list Z) (rows : list row) : list (nat * row) :=
  flat_map (fun jb => map (fun r => (fst jb, r)) (filter (fun r => (r_bus r =? snd jb)%Z) rows)) (combine (iota (length buses)) buses).

(** What lines of text are made of, stated without reference to positions or searches. *)
From Verif Require Import Prelude StrModel.
From Coq Require Import Ascii.

Definition lacks (c : ascii) (s : str) : Prop := ~ In c s.
Definition all_of (P : ascii -> Prop) (s : str) : Prop := Forall P s.
(** Separators: blanks and tabs. *)
Definition gap (s : str) : Prop := all_of (fun c => c = sp \/ c = tab) s.

(** A field: a word, or text between two equal quotes. *)
Definition word (t : str) : Prop :=
  lacks sp t /\ lacks tab t /\ (exists c r, t = c :: r /\ c <> qt1 /\ c <> qt2) /\ (exists c, In c t /\ c <> cr).
Definition quoted (q : ascii) (t : str) : Prop :=
  (q = qt1 \/ q = qt2) /\ exists body, t = (q :: body ++ [q])%list /\ lacks q body /\ lacks tab body.
Definition field (t : str) : Prop := word t \/ exists q, quoted q t.

(** A text written from fields: every field is preceded by a gap, which is not empty except before the first. *)
Definition write (fs : list (str * str)) (trail : str) : str :=
  (flat_map (fun f => fst f ++ snd f) fs ++ trail)%list.
Definition well_written (fs : list (str * str)) (trail : str) : Prop :=
  Forall (fun f => gap (fst f) /\ field (snd f)) fs /\ Forall (fun f => fst f <> []) (tl fs) /\ gap trail.

(** A line: pieces separated by commas; a piece is nothing but blanks, or a text written from fields. *)
Inductive piece := Empty (n : nat) | Fields (fs : list (str * str)) (trail : str).
Definition piece_text (p : piece) : str :=
  match p with Empty n => repeat sp n | Fields fs trail => write fs trail end.
Definition piece_ok (p : piece) : Prop :=
  match p with
  | Empty _ => True
  | Fields fs trail => fs <> [] /\ well_written fs trail /\ lacks ","%char (write fs trail)
  end.
Definition piece_tokens (p : piece) : list str :=
  match p with Empty _ => [s_ "0"] | Fields fs _ => map snd fs end.
Fixpoint join (sep : ascii) (ps : list str) : str :=
  match ps with [] => [] | [p] => p | p :: r => (p ++ sep :: join sep r)%list end.

(** Quote state after reading a text: the open quote, if any. *)
Fixpoint open_quote (o : option ascii) (s : str) : option ascii :=
  match s with
  | [] => o
  | c :: r => open_quote (match o with
                          | None => if Ascii.eqb c qt1 || Ascii.eqb c qt2 then Some c else None
                          | Some q => if Ascii.eqb c q then None else Some q
                          end) r
  end.

(** Identifiers, their canonical form, and the ways of writing them. *)
Definition ident (t : str) : Prop :=
  t <> [] /\ all_of (fun c => c <> sp /\ c <> qt1 /\ c <> qt2 /\ c <> cr) t.
Definition canonical (t : str) : str := match t with [a] => [a; sp] | _ => t end.
Inductive spelling (t : str) : str -> Prop :=
| sp_plain n m : spelling t (repeat sp n ++ t ++ repeat sp m)
| sp_quoted q n a b m : q = qt1 \/ q = qt2 ->
    spelling t (repeat sp n ++ q :: repeat sp a ++ t ++ repeat sp b ++ q :: repeat sp m)
| sp_line_end n c : t = [c] -> spelling t (repeat sp n ++ [c; cr]).

(** Reading of dynamic model (.dyr) records: the shape of the 32 classes in /repo/src/parser/parser_classes, each with
    parse (tokens to data collection), store (tokens to struct) and extract (struct to data collection).  Every body is a
    sequence of steps of one of two kinds; the steps of each class are listed in DrTables.v.  Simplified: text contains
    no NUL character; std::atof is a parameter giving the bit pattern of the double. *)
From Verif Require Import Prelude DCModel StrModel.
From Coq Require Import Ascii.
Open Scope string_scope.

(** What a step writes, in terms of the tokens of the record: atof(split_line[i].c_str()), atoi of it, atof assigned to
    an int field, trimQuotes and toUpper, clean2Char, the constant true. *)
Inductive src := D (i : nat) | I (i : nat) | Tr (i : nat) | Up (i : nat) | Tag (i : nat) | Yes.

(** toUpper, string_utils.hpp:75-78 boost::to_upper, C locale. *)
Definition upper_c (c : ascii) : ascii :=
  let n := nat_of_ascii c in if (97 <=? n)%nat && (n <=? 122)%nat then ascii_of_nat (n - 32) else c.

(** One step of parse or extract (e.g. parser_classes/genrou.hpp:276-282): under [if (nstr > n)], a getValue of one key
    with a variable of some type, then addValue if it failed and setValue if not.  The keys and values in the two
    branches are separate because the code spells them separately. *)
Record row (S : Type) := Row {
  guard : option nat;
  look : string; look_type : dtype;
  add_to : string; add_src : S;
  set_to : string; set_src : S }.
Arguments Row {S}.

(** The usual step: all three the same. *)
Definition d_ (i : nat) (k : string) : row src := Row (Some i) k TDouble k (D i) k (D i).
Definition i_ (i : nat) (k : string) : row src := Row (Some i) k TInt k (I i) k (I i).
Definition t_ (i : nat) (k : string) : row src := Row (Some i) k TString k (Tag i) k (Tag i).
Definition u_ (i : nat) (k : string) : row src := Row None k TString k (Up i) k (Up i).
Definition b_ (k : string) : row src := Row None k TBool k Yes k Yes.
Definition w_ (i : nat) (k : string) : row src := Row None k TString k (Tag i) k (Tag i).

(** Steps of extract: the value is a field of the struct, or the constant true. *)
Inductive fsrc := Fld (f : string) | FYes.
Definition xd (f k : string) : row fsrc := Row None k TDouble k (Fld f) k (Fld f).
Definition xi (f k : string) : row fsrc := Row None k TInt k (Fld f) k (Fld f).
Definition xs (f k : string) : row fsrc := Row None k TString k (Fld f) k (Fld f).
Definition xb (k : string) : row fsrc := Row None k TBool k FYes k FYes.

(** One step of store (e.g. genrou.hpp:376-379): [if (nstr > n) data.f = ...] or strcpy. *)
Record srow := SRow { s_guard : option nat; s_field : string; s_src : src }.
Definition sd (i : nat) (f : string) : srow := SRow (Some i) f (D i).
Definition si (i : nat) (f : string) : srow := SRow (Some i) f (I i).

Section Read.
Variable atof : str -> Z.
(** Conversion of a double to int. *)
Variable trunc : Z -> outcome Z.

Definition text (s : str) : string := string_of_list_ascii s.
(** split_line[i]; past the end undefined. *)
Definition token (toks : list str) (i : nat) : outcome str :=
  match nth_error toks i with Some s => Ok s | None => UB end.
Definition eval (toks : list str) (x : src) : outcome value :=
  match x with
  | D i => obind (token toks i) (fun s => Ok (VDouble (atof s)))
  | I i => obind (token toks i) (fun s => obind (atoi s) (fun z => Ok (VInt z)))
  | Tr i => obind (token toks i) (fun s => obind (trunc (atof s)) (fun z => Ok (VInt z)))
  | Up i => obind (token toks i) (fun s => obind (trim_quotes s) (fun t => Ok (VString (text (map upper_c t)))))
  | Tag i => obind (token toks i) (fun s => obind (clean2char s) (fun t => Ok (VString (text t))))
  | Yes => Ok (VBool true)
  end.

Definition passes (g : option nat) (n : nat) : bool := match g with Some k => (k <? n)%nat | None => true end.

(** A step on the data collection, for the entry [idx]. *)
Definition run_row {S} (ev : S -> outcome value) (n : nat) (idx : Z) (d : dc) (r : row S) : outcome dc :=
  if passes (guard r) n then
    obind (key_of (Indexed (look r) idx)) (fun k =>
      match find_key d (look_type r) k with
      | None => obind (ev (add_src r)) (fun v => obind (run_call d (CAdd (Indexed (add_to r) idx) v)) (fun p => Ok (fst p)))
      | Some _ => obind (ev (set_src r)) (fun v => obind (run_call d (CSet (Indexed (set_to r) idx) v)) (fun p => Ok (fst p)))
      end)
  else Ok d.
Fixpoint run_rows {S} (ev : S -> outcome value) (n : nat) (idx : Z) (d : dc) (rs : list (row S)) : outcome dc :=
  match rs with [] => Ok d | r :: t => obind (run_row ev n idx d r) (fun d' => run_rows ev n idx d' t) end.

(** parse(split_line, data, g_id). *)
Definition parse (rs : list (row src)) (toks : list str) (idx : Z) (d : dc) : outcome dc :=
  run_rows (eval toks) (length toks) idx d rs.

(** The structs gen_params, bus_relay_params, branch_relay_params, load_params (base_pti_parser.hpp:398-1008): fields
    that have been assigned, latest first. *)
Definition struct := list (string * value).
Definition fget (s : struct) (f : string) : option value := m_find s f.
(** The char arrays hold [cap] characters (model) or 2 (the others) besides the NUL; strcpy of more is undefined. *)
Definition fits (cap : nat) (f : string) (v : value) : bool :=
  match v with VString t => (String.length t <=? (if String.eqb f "model" then cap else 2))%nat | _ => true end.
Definition put_field (cap : nat) (s : struct) (f : string) (v : value) : outcome struct :=
  if fits cap f v then Ok ((f, v) :: s) else UB.
(** store(split_line, data). *)
Fixpoint store (cap : nat) (rs : list srow) (toks : list str) (s : struct) : outcome struct :=
  match rs with
  | [] => Ok s
  | r :: t =>
      obind (if passes (s_guard r) (length toks)
             then obind (eval toks (s_src r)) (fun v => put_field cap s (s_field r) v) else Ok s)
            (store cap t toks)
  end.
(** extract(data_struct, data, g_id); a field never assigned holds an indeterminate value. *)
Definition feval (s : struct) (x : fsrc) : outcome value :=
  match x with FYes => Ok (VBool true) | Fld f => match fget s f with Some v => Ok v | None => UB end end.
Definition extract (rs : list (row fsrc)) (s : struct) (idx : Z) (d : dc) : outcome dc :=
  run_rows (feval s) 0 idx d rs.

(** The relay classes first count the relays of the bus or branch (lvshbl.hpp:48-55, frqtpat.hpp, distr1.hpp): the new
    relay's index is the old count.  A count of 2^31-1 would overflow. *)
Definition next_relay (d : dc) : outcome (Z * dc) :=
  match find_key d TInt "RELAY_NUMBER" with
  | Some (VInt n) => if is_int (n + 1) then Ok (n, fst (set_key d "RELAY_NUMBER" (VInt (n + 1)))) else UB
  | _ => Ok (0%Z, add_key d "RELAY_NUMBER" (VInt 1))
  end.
Definition parse_relay (rs : list (row src)) (toks : list str) (d : dc) : outcome dc :=
  obind (next_relay d) (fun p => parse rs toks (fst p) (snd p)).
Definition extract_relay (rs : list (row fsrc)) (s : struct) (d : dc) : outcome dc :=
  obind (next_relay d) (fun p => extract rs s (fst p) (snd p)).
End Read.

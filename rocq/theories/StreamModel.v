(** Model of gridpack::stream::InputStream (/repo/src/stream/input_stream.cpp).  The file system is a map from names to
    contents.  A state of the ifstream is what is left to read and whether the end was met; std::getline on a stream
    that met the end leaves the string alone (the sentry fails). *)
From Verif Require Import Prelude StrModel.
From Coq Require Import Ascii.
Open Scope nat_scope.

(** std::getline: up to the next newline, which is removed; at the end of the data what is left. *)
Fixpoint cut_line (s : str) : option (str * str) :=
  match s with
  | [] => None
  | c :: r => if Ascii.eqb c lf then Some ([], r)
              else match cut_line r with Some (l, t) => Some (c :: l, t) | None => None end
  end.
(** Rest of the data and eofbit. *)
Record fstate := { fs_rest : str; fs_eof : bool }.
(** (good(), new value of the string, new state) *)
Definition getline (f : fstate) (line : str) : bool * str * fstate :=
  if fs_eof f then (false, line, f)
  else match cut_line (fs_rest f) with
       | Some (l, r) => (true, l, Build_fstate r false)
       | None => (false, fs_rest f, Build_fstate [] true)
       end.

(** The object (input_stream.hpp:66-76): p_fileVector; p_fileIterator is assigned nowhere, so it has no value. *)
Record istream := { is_open : bool; is_file : bool; is_vec : bool; is_fs : fstate; is_lines : list str }.
(** input_stream.cpp:13-19 constructor. *)
Definition is_new : istream := Build_istream false false false (Build_fstate [] true) [].
(** :35-45 openFile; an ifstream that is open already fails to open again and keeps is_open(). *)
Definition open_file (files : string -> option str) (st : istream) (name : string) : bool * istream :=
  if is_file st then (true, Build_istream true true (is_vec st) (is_fs st) (is_lines st))
  else match files name with
       | Some c => (true, Build_istream true true (is_vec st) (Build_fstate c false) (is_lines st))
       | None => (false, st)
       end.
(** :51-58 openStringVector *)
Definition open_vector (st : istream) (v : list str) : bool * istream :=
  match v with
  | [] => (false, st)
  | _ => (true, Build_istream true (is_file st) true (is_fs st) v)
  end.
(** :60-74 close *)
Definition close (st : istream) : istream :=
  if is_open st then
    if is_file st then Build_istream false false (is_vec st) (Build_fstate [] true) (is_lines st)
    else if is_vec st then Build_istream false false false (is_fs st) []
    else Build_istream false false (is_vec st) (is_fs st) (is_lines st)
  else st.
(** :81-100 nextLine; comparing the unset iterator is undefined. *)
Definition next (st : istream) (line : str) : outcome (bool * str * istream) :=
  if is_open st then
    if is_file st then
      let '(ok, l, f) := getline (is_fs st) line in
      Ok (ok, l, Build_istream true true (is_vec st) f (is_lines st))
    else UB
  else Ok (false, line, st).

(** while (stream.nextLine(line)) use(line); the lines used, in order.  None: not finished after [fuel] calls. *)
Fixpoint read_all (fuel : nat) (st : istream) (line : str) : option (outcome (list str)) :=
  match fuel with
  | O => None
  | S f =>
    match next st line with
    | Ok (true, l, st') => option_map (fun r => obind r (fun ls => Ok (l :: ls))) (read_all f st' l)
    | Ok (false, _, _) => Some (Ok [])
    | Throw => Some Throw
    | UB => Some UB
    end
  end.
(** The block parsers ignore the answer: stream.nextLine(line); use(line) ([n] times). *)
Fixpoint lines_seen (n : nat) (st : istream) (line : str) : outcome (list str) :=
  match n with
  | O => Ok []
  | S k => obind (next st line) (fun '(_, l, st') => obind (lines_seen k st' l) (fun ls => Ok (l :: ls)))
  end.

(** Model of BusTable (/repo/src/parser/bus_table.hpp): a text file with values for devices on buses is read by process 0 and spread over the processes.  The text is a list of
    characters without NUL (the character after the last one is NUL, :97, :208); [atof] is any function from texts to numbers.  Sizes are natural numbers: overflow of
    nline*nval is not modelled.  A result None means: not finished after [fuel] rounds of some loop. *)
From Verif Require Import Prelude StrModel StreamModel GAModel HdModel.
From Coq Require Import Ascii.
Open Scope nat_scope.

(** :26 NUM_SLICES *)
Definition num_slices : nat := 10.
Definition hash : ascii := "#"%char.
(** line[0] == '#' *)
Definition is_hash (l : str) : bool := match l with c :: _ => Ascii.eqb c hash | [] => false end.
(** boost::split with is_any_of(" ") and token_compress_on: a run of blanks is one separator; always at least one piece. *)
Fixpoint csplit (s : str) : list str :=
  match s with
  | [] => [[]]
  | c :: r => if Ascii.eqb c sp
              then match r with d :: _ => if Ascii.eqb d sp then csplit r else [] :: csplit r | [] => [[]; []] end
              else match csplit r with h :: t => (c :: h) :: t | [] => [[c]] end
  end.

(** ** The first pass, :84-123 *)
(** :97-104 the lines of comment at the start: the headers, [found], the line after them and the stream.  At the end of the file getline leaves [line] alone, that is the
    header just stored. *)
Fixpoint headers1 (fuel : nat) (f : fstate) (line : str) (found : bool) : option (list str * bool * str * fstate) :=
  if is_hash line then
    match fuel with
    | O => None
    | S k => let h := trim (sp :: tl line) in
             let '(ok, l, f') := getline f h in
             match headers1 k f' l ok with
             | Some (hs, b, l', f2) => Some (h :: hs, b, l', f2)
             | None => None
             end
    end
  else Some ([], found, line, f).
(** :113-115 the rest of the lines *)
Fixpoint count_lines (fuel : nat) (f : fstate) (line : str) : option nat :=
  match fuel with
  | O => None
  | S k => let '(ok, l, f') := getline f line in
           if ok then option_map S (count_lines k f' l) else Some 0
  end.
(** ifound, nval, nline, p_headers of process 0 *)
Record scan := Scan { sc_found : bool; sc_nval : Z; sc_nline : nat; sc_headers : list str }.
Definition pass1 (fuel : nat) (file : option str) : option scan :=
  match file with
  | None => Some (Scan false 0 0 [])                                    (* :88-90 *)
  | Some text =>
      let '(ok, l, f) := getline (Build_fstate text false) [] in
      if ok then                                                        (* :94 *)
        match headers1 fuel f (trim l) true with
        | None => None
        | Some (hs, found, l', f') =>
            if (found : bool) then                                      (* :106-119 *)
              let nval := (Z.of_nat (length (csplit (trim l'))) - 2)%Z in
              if (0 <? nval)%Z then option_map (fun n => Scan true nval (S n) hs) (count_lines fuel f' l')
              else Some (Scan false nval 0 hs)
            else Some (Scan true 0 0 hs)
        end
      else Some (Scan false 0 0 [])                                     (* :120-122 *)
  end.

Section Table.
Context {D : Type}.
Variable atof : str -> D.

(** ** The second pass, :195-246 *)
(** :208-212 comments are skipped; at the end of the file getline leaves [line] alone. *)
Fixpoint skip_comments (fuel : nat) (f : fstate) (line : str) : option (str * fstate) :=
  if is_hash line then
    match fuel with
    | O => None
    | S k => let '(_, l, f') := getline f line in skip_comments k f' l
    end
  else Some (line, f).
(** :213-226 one line: bus number, tag of at most two characters, values.  Reading a piece that is not there is undefined. *)
Definition parse_row (nval : nat) (line : str) : outcome (Z * str * list D) :=
  let toks := csplit (trim line) in
  match toks with
  | id :: tag :: vals =>
      obind (clean2char tag) (fun t =>
      obind (atoi id) (fun z =>
      if nval <=? length vals then Ok (z, firstn 2 t, map atof (firstn nval vals)) else UB))
  | _ => UB
  end.
(** NGA_Put of cells, some of which may never have been written. *)
Definition put_cells (g : garray D) (lo : nat) (xs : list (option D)) : outcome (garray D) :=
  if lo + length xs <=? length g then Ok (firstn lo g ++ xs ++ skipn (lo + length xs) g)%list else UB.
(** bus_id and order; the buffer, one list for every slice of nval numbers; ncnt; the global array.  [ptr] is at the slice ncnt mod NUM_SLICES and [lo] is
    nval * (ncnt - ncnt mod NUM_SLICES) (:232-233). *)
Record load := Load { ld_rows : list (Z * (nat * str)); ld_buf : list (list (option D)); ld_n : nat; ld_ga : garray D }.
Definition add_row (nval : nat) (row : Z * str * list D) (s : load) : outcome load :=
  let '(id, tag, vals) := row in
  let n := ld_n s in
  let rows := (ld_rows s ++ [(id, (n, tag))])%list in
  let buf := upd (ld_buf s) (n mod num_slices) (map Some vals) in
  if S n mod num_slices =? 0                                            (* :229-234 *)
  then obind (put_cells (ld_ga s) ((n - n mod num_slices) * nval) (concat buf)) (fun g => Ok (Load rows buf (S n) g))
  else Ok (Load rows buf (S n) (ld_ga s)).
(** :207-235 *)
Fixpoint pass2 (fuel nval : nat) (f : fstate) (line : str) (s : load) : option (outcome load) :=
  match fuel with
  | O => None
  | S k =>
      let '(ok, l, f1) := getline f line in
      if ok then
        match skip_comments k f1 l with
        | None => None
        | Some (l2, f2) =>
            match obind (parse_row nval l2) (fun row => add_row nval row s) with
            | Ok s' => pass2 k nval f2 l2 s'
            | Throw => Some Throw
            | UB => Some UB
            end
        end
      else Some (Ok s)
  end.
(** :239-242 the last put: nline - lo/nval slices of the buffer, which has NUM_SLICES; an empty range is an error. *)
Definition last_put (nval nline : nat) (s : load) : outcome (garray D) :=
  let r := ld_n s mod num_slices in
  if r =? 0 then Ok (ld_ga s)
  else if (nline <=? ld_n s - r) || (num_slices <? nline - (ld_n s - r)) then UB
  else put_cells (ld_ga s) ((ld_n s - r) * nval) (concat (firstn (nline - (ld_n s - r)) (ld_buf s))).
Definition fill (fuel nval nline : nat) (text : str) : option (outcome (list (Z * (nat * str)) * garray D)) :=
  match pass2 fuel nval (Build_fstate text false) [] (Load [] (repeat (repeat None nval) num_slices) 0 (ga_new D (nline * nval))) with
  | None => None
  | Some o => Some (obind o (fun s => obind (last_put nval nline s) (fun g => Ok (ld_rows s, g))))
  end.

(** ** The object on all processes *)
(** p_has_data; p_GA_data when it names an existing array; p_nvals; for each process p_local_idx, p_tags and p_order, zipped; p_headers of process 0. *)
Record table := Table { t_has : bool; t_ga : option (garray D); t_nvals : Z; t_local : list (list (nat * str * nat)); t_headers : list str }.
(** :57-63; [n] processes; p_nvals has no value yet. *)
Definition new_table (n : nat) : table := Table false None 0 (repeat [] n) [].
(** :66-69 and :74; destroying an array that does not exist is undefined. *)
Definition release (t : table) : outcome table :=
  if t_has t then match t_ga t with
                  | Some _ => Ok (Table true None (t_nvals t) (t_local t) (t_headers t))
                  | None => UB
                  end
  else Ok t.
(** :258-265 on one process *)
Definition received (x : list nat * list (nat * str)) : outcome (list (nat * str * nat)) :=
  oall (map (fun e => obind (clean2char (snd (snd e))) (fun tag => Ok (fst e, tag, fst (snd e)))) (combine (fst x) (snd x))).
(** :72-269 readTable; [buses]: the original numbers of the buses of each process; [ord]: the order of the puts of the distribution.  :170-185: the other processes make
    strings of arrays of characters that are not terminated. *)
Definition read_table (fuel : nat) (buses : list (list Z)) (ord : list nat) (file : option str) (t0 : table) : option (outcome (bool * table)) :=
  match release t0 with
  | Throw => Some Throw
  | UB => Some UB
  | Ok t =>
      match pass1 fuel file with
      | None => None
      | Some sc =>
          if sc_found sc then
            if (0 <? sc_nval sc)%Z && (0 <? sc_nline sc) then
              if (1 <? length buses) && (0 <? length (sc_headers sc)) then Some UB
              else
              let nval := Z.to_nat (sc_nval sc) in
              match fill fuel nval (sc_nline sc) (match file with Some text => text | None => [] end) with
              | None => None
              | Some o =>
                  Some (obind o (fun rg =>
                  obind (distribute_buses Z.eqb ord
                           (map (fun p => if fst p =? 0 then HProc (snd p) (map fst (fst rg)) (map snd (fst rg)) [] else HProc (snd p) [] [] [])
                                (combine (iota (length buses)) buses))) (fun outs =>
                  obind (oall (map received outs)) (fun loc =>
                  Ok (true, Table true (Some (snd rg)) (sc_nval sc) loc (sc_headers sc))))))
              end
            else Some (Ok (true, Table true (t_ga t) (sc_nval sc) (t_local t) (sc_headers sc)))
          else Some (Ok (false, Table (t_has t) (t_ga t) (t_nvals t) (t_local t) (sc_headers sc)))
      end
  end.
(** :275-297 getLocalIndices and getTags on process [p] *)
Definition local_indices (t : table) (p : nat) : list nat := map (fun e => fst (fst e)) (nth p (t_local t) []).
Definition tags (t : table) (p : nat) : list str := map (fun e => snd (fst e)) (nth p (t_local t) []).
(** :304-327 getValues on process [p]; a column that does not exist is reported and read all the same. *)
Definition get_values (t : table) (p : nat) (idx : Z) : outcome (list D) :=
  match t_ga t with
  | None => UB
  | Some g =>
      let cells := map (fun e => (t_nvals t * Z.of_nat (snd e) + idx)%Z) (nth p (t_local t) []) in
      if existsb (fun i => i <? 0)%Z cells then UB else ga_gather g (map Z.to_nat cells)
  end.
End Table.
Arguments table D : clear implicits.
Arguments load D : clear implicits.

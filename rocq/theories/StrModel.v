(** Model of gridpack::utility::StringUtils (/repo/src/utilities/string_utils.hpp) and of the text functions of
    BaseBlockParser (/repo/src/parser/block_parsers/base_block_parser.cpp).  A std::string is the list of its
    characters.  Positions are ints as in the code; std::string::npos stored in an int is -1.  Simplified: lines are
    shorter than 2^31 characters. *)
From Verif Require Import Prelude.
From Coq Require Import Ascii.

Notation str := (list ascii).
Definition s_ (x : string) : str := list_ascii_of_string x.
Definition sp : ascii := " "%char.
Definition qt1 : ascii := "'"%char.
Definition qt2 : ascii := """"%char.
Definition tab : ascii := "009"%char.
Definition lf : ascii := "010"%char.
Definition cr : ascii := "013"%char.

(** ** std::string *)
Definition slen (s : str) : Z := Z.of_nat (length s).
(** First position from [i] on whose character satisfies [p]. *)
Fixpoint findn (p : ascii -> bool) (s : str) : option nat :=
  match s with [] => None | c :: r => if p c then Some 0 else option_map S (findn p r) end.
(** find(c,i), find_first_not_of(c,i): a negative int becomes a huge size_t, nothing is found. *)
Definition find_if (p : ascii -> bool) (s : str) (i : Z) : Z :=
  if (i <? 0)%Z then (-1)%Z
  else match findn p (skipn (Z.to_nat i) s) with Some k => (i + Z.of_nat k)%Z | None => (-1)%Z end.
Definition find_c (c : ascii) : str -> Z -> Z := find_if (fun x => Ascii.eqb x c).
Definition find_not (c : ascii) : str -> Z -> Z := find_if (fun x => negb (Ascii.eqb x c)).
(** substr(pos,n): throws std::out_of_range if pos > size(); a negative count is a huge one. *)
Definition substr (s : str) (pos n : Z) : outcome str :=
  if ((pos <? 0) || (slen s <? pos))%Z then Throw
  else Ok (if (n <? 0)%Z then skipn (Z.to_nat pos) s else firstn (Z.to_nat n) (skipn (Z.to_nat pos) s)).
(** operator[]: the character after the last is NUL; other positions outside are undefined. *)
Definition at_ (s : str) (i : Z) : outcome ascii :=
  if (i <? 0)%Z then UB
  else match nth_error s (Z.to_nat i) with
       | Some c => Ok c
       | None => if (i =? slen s)%Z then Ok "000"%char else UB
       end.

(** ** StringUtils *)
(** std::isspace in the C locale, used by boost::trim. *)
Definition isspace (c : ascii) : bool :=
  let n := nat_of_ascii c in (n =? 32) || ((9 <=? n) && (n <=? 13)).
Fixpoint drop_while (p : ascii -> bool) (s : str) : str :=
  match s with [] => [] | c :: r => if p c then drop_while p r else s end.
(** string_utils.hpp:47-70 trim. *)
Definition trim (s : str) : str :=
  let blank c := if Ascii.eqb c lf || Ascii.eqb c tab || Ascii.eqb c cr then sp else c in
  rev (drop_while isspace (rev (drop_while isspace (map blank s)))).

(** string_utils.hpp:85-88 boost::to_lower, C locale. *)
Definition lower_c (c : ascii) : ascii :=
  let n := nat_of_ascii c in if (65 <=? n) && (n <=? 90) then ascii_of_nat (n + 32) else c.
Definition str_eqb (a b : str) : bool := if list_eq_dec ascii_dec a b then true else false.
(** string_utils.hpp:279-305 getBool. *)
Definition get_bool (s : str) : bool :=
  existsb (str_eqb (map lower_c (trim s))) [s_ "true"; s_ "yes"; s_ "t"; s_ "y"; s_ "1"].

(** The text between the quotes, common to clean2Char (:99-126) and trimQuotes (:152-179).  [sngl_qt] stays true when
    there is no quote at all, so the branches for unquoted text (:119-120, :172-173) are never taken. *)
Definition unquote (tag : str) : outcome str :=
  let q := find_c qt1 tag 0 in
  let dbl := ((q =? -1) && negb (find_c qt2 tag 0 =? -1))%Z in
  let start := if (q =? -1)%Z then if dbl then find_c qt2 tag 0 else find_not sp tag 0 else q in
  let c := if dbl then qt2 else qt1 in
  let ntok1 := find_not c tag start in
  let e := find_c c tag ntok1 in
  let ntok2 := if (e =? -1)%Z then slen tag else e in
  substr tag ntok1 (ntok2 - ntok1).

(** string_utils.hpp:97-143 clean2Char. *)
Definition clean2char (tag : str) : outcome str :=
  obind (unquote tag) (fun ct =>
  let ntok1 := find_not sp ct 0 in
  let e := find_c sp ct ntok1 in
  let ntok2 := if (e =? -1)%Z then slen ct else e in
  obind (substr ct ntok1 (ntok2 - ntok1)) (fun t =>
  let ct2 := if length t =? 1 then (t ++ [sp])%list else t in
  Ok (match ct2 with
      | [a; b] => if Ascii.eqb b cr then [a; sp] else ct2
      | _ => ct2
      end))).

(** string_utils.hpp:150-183 trimQuotes. *)
Definition trim_quotes (s : str) : outcome str := obind (unquote s) (fun ct => Ok (trim ct)).

(** string_utils.hpp:191-246 blankTokenizer.  End of the token starting at [n1] (:203-211 and :219-236): [first] is the
    code before the loop, which increments the position of a missing closing quote to 0. *)
Definition tok_end (first : bool) (s : str) (n1 : Z) (c : ascii) : Z :=
  if Ascii.eqb c qt1 || Ascii.eqb c qt2 then
    let n2 := find_c c s (n1 + 1) in
    if first then (n2 + 1)%Z else if (n2 =? -1)%Z then slen s else (n2 + 1)%Z
  else let n2 := find_c sp s n1 in if (n2 =? -1)%Z then slen s else n2.
(** :216-244, the loop; the state is ntok1, ntok2.  None: not finished after [fuel] iterations. *)
Fixpoint tok_loop (fuel : nat) (s : str) (n1 n2 : Z) : option (outcome (list str)) :=
  if ((n2 <? slen s - 1) && negb (n1 =? -1))%Z then
    match fuel with
    | O => None
    | S f =>
        let m1 := find_not sp s n2 in
        if (m1 =? -1)%Z then tok_loop f s m1 n2
        else match at_ s m1 with
             | Ok c =>
                 let m2 := tok_end false s m1 c in
                 match substr s m1 (m2 - m1) with
                 | Ok field =>
                     let keep := negb (find_not sp field 0 =? -1)%Z && negb (find_not cr field 0 =? -1)%Z in
                     option_map (fun r => obind r (fun l => Ok (if keep then field :: l else l))) (tok_loop f s m1 m2)
                 | Throw => Some Throw
                 | UB => Some UB
                 end
             | Throw => Some Throw
             | UB => Some UB
             end
    end
  else Some (Ok []).
Definition blank_tokenizer (fuel : nat) (str0 : str) : option (outcome (list str)) :=
  let s := map (fun c => if Ascii.eqb c tab then sp else c) str0 in
  let n1 := find_not sp s 0 in
  match at_ s n1 with
  | Ok c =>
      if (n1 =? -1)%Z then Some (Ok [])
      else let n2 := tok_end true s n1 c in
           match substr s n1 (n2 - n1) with
           | Ok t => option_map (fun r => obind r (fun l => Ok (t :: l))) (tok_loop fuel s n1 n2)
           | Throw => Some Throw
           | UB => Some UB
           end
  | Throw => Some Throw
  | UB => Some UB
  end.

(** string_utils.hpp:255-271 charTokenizer (only the first character of [sep] is used). *)
Fixpoint char_loop (fuel : nat) (sep : ascii) (s : str) (n1 n2 : Z) : option (outcome (list str)) :=
  if ((n2 <? slen s - 1) && negb (n1 =? -1))%Z then
    match fuel with
    | O => None
    | S f =>
        let m1 := find_not sep s n2 in
        let e := find_c sep s m1 in
        let m2 := if (e =? -1)%Z then slen s else e in
        if (m1 <=? m2)%Z then
          match substr s m1 (m2 - m1) with
          | Ok t => option_map (fun r => obind r (fun l => Ok (t :: l))) (char_loop f sep s m1 m2)
          | Throw => Some Throw
          | UB => Some UB
          end
        else char_loop f sep s m1 m2
    end
  else Some (Ok []).
Definition char_tokenizer (fuel : nat) (sep : ascii) (s : str) : option (outcome (list str)) :=
  let n1 := find_not sep s 0 in
  let e := find_c sep s n1 in
  let n2 := if (e =? -1)%Z then slen s else e in
  if (n1 <=? n2)%Z then
    match substr s n1 (n2 - n1) with
    | Ok t => option_map (fun r => obind r (fun l => Ok (t :: l))) (char_loop fuel sep s n1 n2)
    | Throw => Some Throw
    | UB => Some UB
    end
  else char_loop fuel sep s n1 n2.

(** ** BaseBlockParser *)
Definition term_char : ascii := "0"%char.
Definition bslash : ascii := "\"%char.
Definition slash : ascii := "/"%char.
(** base_block_parser.cpp:41-52 check_comment; [ntok+1] is at most size(), where operator[] gives NUL. *)
Definition check_comment (s : str) : bool :=
  match drop_while (Ascii.eqb sp) s with
  | a :: b :: _ => (Ascii.eqb a slash && Ascii.eqb b slash) || (Ascii.eqb a "@"%char && Ascii.eqb b "!"%char)
  | _ => false
  end.
(** base_block_parser.cpp:71-95 test_end: true means the section goes on. *)
Definition test_end (s : str) : bool :=
  match s with
  | c :: _ =>
      if Ascii.eqb c term_char then false
      else match drop_while (Ascii.eqb sp) s with
           | [] => true
           | d :: r => if negb (Ascii.eqb d term_char) then true
                       else match r with
                            | [] => false
                            | e :: _ => negb (Ascii.eqb e sp || Ascii.eqb e bslash)
                            end
           end
  | [] => true
  end.
(** base_block_parser.cpp:58-64 remove_blanks: for a string without a non-blank character the search for the last
    non-blank runs below position 0. *)
Fixpoint last_nonblank (n : nat) (s : str) : outcome Z :=
  match n with
  | O => UB
  | S k => match nth_error s k with
           | Some c => if Ascii.eqb c sp then last_nonblank k s else Ok (Z.of_nat k)
           | None => UB
           end
  end.
Definition remove_blanks (s : str) : outcome str :=
  let n1 := find_not sp s 0 in
  obind (last_nonblank (length s) s) (fun n2 => substr s n1 (n2 - n1 + 1)).
(** base_block_parser.cpp:103-127 check_string: the flag and the new text.  Line :112 compares unsigned numbers:
    [length - 1 - ntok1] wraps around when the quote is the last character. *)
Definition check_string (s : str) : outcome (bool * str) :=
  let n1 := find_not sp s 0 in
  let quoted := if (n1 =? -1)%Z then Ok false else obind (at_ s n1) (fun c => Ok (Ascii.eqb c qt1)) in
  obind quoted (fun q =>
  if q then
    let n1 := (n1 + 1)%Z in
    let n2 := find_c qt1 s n1 in
    obind (if ((n2 - n1 >? 1) && negb (n2 =? -1))%Z then substr s n1 (n2 - 1 - n1 + 1)
           else if ((n2 =? -1) && ((slen s - 1 - n1 >? 1) || (slen s - 1 - n1 <? 0)))%Z
                then substr s n1 (slen s - 1 - n1 + 1)
                else Ok []) (fun t =>
    obind (match t with [] => Ok [] | _ => remove_blanks t end) (fun t' => Ok (true, t')))
  else obind (remove_blanks s) (fun t => Ok (false, t))).
(** base_block_parser.cpp:164-189 cleanComment. *)
Definition clean_comment (s : str) : str :=
  let idx := find_c slash s 0 in
  if (idx =? -1)%Z then s
  else
    let a := find_c qt1 s 0 in
    let squote := (negb (a =? -1) || (find_c qt2 s 0 =? -1))%Z in
    let d1 := if (a =? -1)%Z then find_c qt2 s 0 else a in
    let d2 := if (d1 =? -1)%Z then d1
              else if (slen s >? d1 + 1)%Z then find_c (if squote then qt1 else qt2) s (d1 + 1) else d1 in
    if (negb (d1 =? -1) && negb (d2 =? -1) && (d1 <? idx) && (idx <? d2))%Z then s
    else firstn (Z.to_nat idx) s.
(** base_block_parser.cpp:230-235 isBlank. *)
Definition is_blank (s : str) : bool := (find_not sp s 0 =? -1)%Z.
(** boost::algorithm::split with is_any_of and token_compress_off: always at least one piece. *)
Fixpoint split_on (sep : ascii) (s : str) : list str :=
  match s with
  | [] => [[]]
  | c :: r => if Ascii.eqb c sep then [] :: split_on sep r
              else match split_on sep r with h :: t => (c :: h) :: t | [] => [[c]] end
  end.
(** base_block_parser.cpp:197-223 splitPSSELine. *)
Definition split_line (fuel : nat) (line : str) : option (outcome (list str)) :=
  fold_right (fun piece acc =>
    match (if is_blank piece then Some (Ok [s_ "0"]) else blank_tokenizer fuel piece), acc with
    | Some a, Some b => Some (obind a (fun x => obind b (fun y => Ok (x ++ y)%list)))
    | _, _ => None
    end) (Some (Ok [])) (split_on ","%char line).

(** std::atoi: optional white space and sign, then digits; digits that overflow int are undefined (C standard). *)
Fixpoint digits_val (acc : Z) (s : str) : Z :=
  match s with
  | c :: r => let n := nat_of_ascii c in
              if (48 <=? n) && (n <=? 57) then digits_val (acc * 10 + Z.of_nat (n - 48)) r else acc
  | [] => acc
  end.
Definition atoi (s : str) : outcome Z :=
  let t := drop_while isspace s in
  let v := match t with
           | c :: r => if Ascii.eqb c "-"%char then (- digits_val 0 r)%Z
                       else if Ascii.eqb c "+"%char then digits_val 0 r else digits_val 0 t
           | [] => 0%Z
           end in
  if ((-2147483648 <=? v) && (v <=? 2147483647))%Z then Ok v else UB.
(** Position of three consecutive blanks. *)
Fixpoint find3 (s : str) : option nat :=
  match s with
  | a :: r => if Ascii.eqb a sp && match r with b :: c :: _ => Ascii.eqb b sp && Ascii.eqb c sp | _ => false end
              then Some 0 else option_map S (find3 r)
  | [] => None
  end.
(** base_block_parser.cpp:138-156 parseBusName, the name (the voltage is not used by getBusIndex). *)
Definition bus_name (s : str) : str :=
  if 12 <? length s then match find3 s with Some k => firstn k s | None => s end else s.
(** base_block_parser.cpp:242-258 getBusIndex; [names] is p_nameMap. *)
Definition get_bus_index (names : str -> option Z) (s : str) : outcome Z :=
  obind (check_string s) (fun bt =>
  if fst bt then Ok (match names (bus_name (snd bt)) with Some i => i | None => (-1)%Z end)
  else obind (atoi (snd bt)) (fun v => if (v =? -2147483648)%Z then UB else Ok (Z.abs v))).

(** C23 (lines of a RAW file), C24 (two character tags), C43 (references to buses). *)
From Verif Require Import Prelude StrModel StrSpec StrProofs StrProofs2 StrProofs3.
From Verif Require DCModel.
From Coq Require Import Ascii.

(** ** C23 *)
(** Fields separated by gaps are read back, whatever the fields and the gaps; quoted text is one field. *)
Theorem C23_fields_read_back :
  forall fs trail fuel, fs <> [] -> well_written fs trail -> length (write fs trail) < fuel ->
    blank_tokenizer fuel (write fs trail) = Some (Ok (map snd fs)).
Proof.
  intros fs trail fuel Hne Hw Hf. apply blank_tokenizer_fields; auto. pose proof (write_fields_le Hw). lia.
Qed.
Print Assumptions C23_fields_read_back.

(** With commas: the fields of every piece in order, "0" for a piece of blanks. *)
Theorem C23_line_split :
  forall ps fuel, ps <> [] -> Forall piece_ok ps -> length (join ","%char (map piece_text ps)) < fuel ->
    split_line fuel (join ","%char (map piece_text ps)) = Some (Ok (flat_map piece_tokens ps)).
Proof. intros ps fuel H1 H2 H3. apply split_line_pieces; auto. lia. Qed.
Print Assumptions C23_line_split.

(** The tokenizer ends on every text. *)
Theorem C23_tokenizer_ends : forall s fuel, length s < fuel -> blank_tokenizer fuel s <> None.
Proof. exact blank_tokenizer_ends. Qed.
Print Assumptions C23_tokenizer_ends.

Example C23_split_nonvacuous :
  let ps := [Fields [([], s_ "101"); ([sp; tab], s_ "'BUS / A'")] [sp]; Empty 2; Fields [([sp], s_ "1.5")] []] in
  Forall piece_ok ps /\
  split_line 60 (join ","%char (map piece_text ps)) = Some (Ok [s_ "101"; s_ "'BUS / A'"; s_ "0"; s_ "1.5"]).
Proof.
  cbn zeta. split; [|vm_compute; reflexivity].
  assert (forall t c r, t = c :: r -> c <> qt1 -> c <> qt2 -> c <> cr -> lacks sp t -> lacks tab t -> field t) as W.
  { intros t c r -> H1 H2 H3 H4 H5. left. repeat split; auto; [exists c, r | exists c]; auto. split; [now left|auto]. }
  assert (field (s_ "'BUS / A'")) as Q.
  { right. exists qt1. split; [now left|]. exists (s_ "BUS / A"). split; [reflexivity|].
    split; intros X; cbn in X; intuition discriminate. }
  assert (field (s_ "101") /\ field (s_ "1.5")) as [F1 F2].
  { split; (eapply W; [reflexivity|discriminate|discriminate|discriminate|..]); intros X; cbn in X; intuition discriminate. }
  constructor; [|constructor; [exact I|constructor; [|constructor]]];
    (split; [discriminate|split; [|intros X; cbn in X; intuition discriminate]]);
    (split; [|split; [|]]); unfold gap, all_of; cbn [tl]; repeat (constructor; cbn [fst snd]; auto); discriminate.
Qed.

(** A comma between quotes splits the text all the same, and the opening quote left alone adds an empty field. *)
Theorem C23_comma_in_quotes_refuted :
  split_line 20 (s_ "1,'A,B',2") = Some (Ok [s_ "1"; []; s_ "'A"; s_ "B'"; s_ "2"]).
Proof. vm_compute. reflexivity. Qed.
Print Assumptions C23_comma_in_quotes_refuted.
(** A field written directly after a quoted one is lost when it is the last character of the line. *)
Theorem C23_last_character_lost_refuted :
  blank_tokenizer 20 (s_ "'AB'1") = Some (Ok [s_ "'AB'"]) /\ blank_tokenizer 20 (s_ "'AB'12") = Some (Ok [s_ "'AB'"; s_ "12"]).
Proof. split; vm_compute; reflexivity. Qed.
Print Assumptions C23_last_character_lost_refuted.
(** A piece of tabs is not blank for the splitter, and the tokenizer then reads outside the string; so does every
    direct call of the tokenizer on a text without fields. *)
Theorem C23_only_tabs_refuted :
  (forall s fuel, gap s -> blank_tokenizer fuel s = Some UB) /\
  split_line 20 (("1"%char :: ","%char :: tab :: nil)) = Some UB.
Proof.
  split; [|vm_compute; reflexivity]. intros s fuel H. unfold blank_tokenizer. fold (detab s). rewrite (detab_gap H).
  now rewrite (@find_not_none sp [] (repeat sp (length s))) by (auto using all_repeat).
Qed.
Print Assumptions C23_only_tabs_refuted.

(** charTokenizer: the fields, if at most one separator follows the last ... *)
Theorem C23_separator_fields :
  forall sep g t fs trail fuel,
    all_of (eq sep) g -> t <> [] -> lacks sep t ->
    Forall (fun f => fst f <> [] /\ all_of (eq sep) (fst f) /\ snd f <> [] /\ lacks sep (snd f)) fs ->
    all_of (eq sep) trail -> length trail <= 1 -> length fs < fuel ->
    char_tokenizer fuel sep (write ((g, t) :: fs) trail) = Some (Ok (t :: map snd fs)).
Proof. intros. apply char_tokenizer_fields; auto. lia. Qed.
Print Assumptions C23_separator_fields.
Example C23_separator_nonvacuous :
  char_tokenizer 9 ";"%char (s_ ";a;;bc;") = Some (Ok [s_ "a"; s_ "bc"]) /\
  write [([";"%char], s_ "a"); (s_ ";;", s_ "bc")] [";"%char] = s_ ";a;;bc;".
Proof. split; vm_compute; reflexivity. Qed.
(** ... and an exception for two separators at the end, or for a text without fields. *)
Theorem C23_separator_trailing_refuted :
  char_tokenizer 9 ";"%char (s_ "a;;") = Some Throw /\ char_tokenizer 9 ";"%char [] = Some Throw.
Proof. split; vm_compute; reflexivity. Qed.
Print Assumptions C23_separator_trailing_refuted.

(** Which lines end a section. *)
Theorem C23_section_end :
  forall s, test_end s = false <->
    (exists r, s = "0"%char :: r) \/
    (exists n r, s = (repeat sp (S n) ++ "0"%char :: r)%list /\ (r = [] \/ exists r', r = sp :: r' \/ r = "\"%char :: r')).
Proof. exact test_end_spec. Qed.
Print Assumptions C23_section_end.
(** So a line starting with a 0 that belongs to a number ends the section, and a 0 followed by a comment or by a
    carriage return does not when blanks precede it. *)
Theorem C23_section_end_refuted :
  test_end (s_ "0123, 'X'") = false /\ test_end (s_ " 0/ END OF DATA") = true /\ test_end (" "%char :: "0"%char :: cr :: nil) = true.
Proof. repeat split; vm_compute; reflexivity. Qed.
Print Assumptions C23_section_end_refuted.

(** A line is skipped as a comment exactly when, after blanks, it begins with two slashes or with @!. *)
Theorem C23_comment_line :
  forall s, check_comment s = true <->
    exists n r, s = (repeat " "%char n ++ "/"%char :: "/"%char :: r)%list \/ s = (repeat " "%char n ++ "@"%char :: "!"%char :: r)%list.
Proof. exact check_comment_spec. Qed.
Print Assumptions C23_comment_line.
Example C23_comment_line_nonvacuous : check_comment (s_ "  @! header") = true /\ check_comment (s_ "1, '/ /'") = false.
Proof. split; vm_compute; reflexivity. Qed.

(** Comments: nothing before the cut is changed. *)
Theorem C23_comment_keeps_prefix : forall s, exists n, clean_comment s = firstn n s.
Proof. exact clean_comment_prefix. Qed.
Print Assumptions C23_comment_keeps_prefix.
(** A line with quotes of one kind, whose first '/' is outside quotes, is cut there; a line without '/' is kept. *)
Theorem C23_comment_removed_partial :
  (forall a r q, lacks "/"%char a -> (q = "'"%char \/ q = """"%char) ->
     (forall d, (d = "'"%char \/ d = """"%char) -> d <> q -> lacks d (a ++ "/"%char :: r)) ->
     open_quote None a = None -> clean_comment (a ++ "/"%char :: r) = a) /\
  (forall s, lacks "/"%char s -> clean_comment s = s) /\
  (forall q a b c r, (q = "'"%char \/ q = """"%char) -> lacks "'"%char a -> lacks """"%char a -> lacks "/"%char a ->
     lacks q (b ++ c) -> lacks "/"%char b -> (q = """"%char -> lacks "'"%char (b ++ c ++ r)) ->
     clean_comment (a ++ q :: b ++ "/"%char :: c ++ q :: r) = (a ++ q :: b ++ "/"%char :: c ++ q :: r)%list).
Proof. repeat split; [exact clean_comment_at | exact clean_comment_none | exact clean_comment_quoted]. Qed.
Print Assumptions C23_comment_removed_partial.
Example C23_comment_nonvacuous :
  clean_comment (s_ "1,'A B',2 / note") = s_ "1,'A B',2 " /\ open_quote None (s_ "1,'A B',2 ") = None /\
  clean_comment (s_ "1,'A/B',2") = s_ "1,'A/B',2".
Proof. repeat split; vm_compute; reflexivity. Qed.
(** Missing for the full claim, and false: a '/' between the first quotes hides a later comment; a '/' between other
    quotes is taken for a comment. *)
Theorem C23_comment_refuted :
  clean_comment (s_ "1,'A/B',2 / note") = s_ "1,'A/B',2 / note" /\
  clean_comment (s_ "1,'A','B/C',2") = s_ "1,'A','B".
Proof. split; vm_compute; reflexivity. Qed.
Print Assumptions C23_comment_refuted.

(** ** C24 *)
(** All spellings of an identifier have the same tag: the identifier, with a blank if it has one character. *)
Theorem C24_tag_of_spelling : forall t s, ident t -> spelling t s -> clean2char s = Ok (canonical t).
Proof. exact clean2char_spelling. Qed.
Print Assumptions C24_tag_of_spelling.
Theorem C24_same_tag : forall t s1 s2, ident t -> spelling t s1 -> spelling t s2 -> clean2char s1 = clean2char s2.
Proof. intros t s1 s2 Ht H1 H2. now rewrite (clean2char_spelling Ht H1), (clean2char_spelling Ht H2). Qed.
Print Assumptions C24_same_tag.
(** Different identifiers have different tags. *)
Theorem C24_tags_distinct :
  forall t1 t2 s1 s2, ident t1 -> ident t2 -> spelling t1 s1 -> spelling t2 s2 -> clean2char s1 = clean2char s2 -> t1 = t2.
Proof.
  intros t1 t2 s1 s2 I1 I2 H1 H2 E. rewrite (clean2char_spelling I1 H1), (clean2char_spelling I2 H2) in E.
  inversion E as [C]. destruct t1 as [|a [|b t1]], t2 as [|c [|d t2]]; cbn [canonical] in C;
    try (destruct I1; contradiction); try (destruct I2; contradiction); try congruence.
  - inversion C; subst. exfalso. apply (ident_lacks (d := sp) I2); [auto | right; now left].
  - inversion C; subst. exfalso. apply (ident_lacks (d := sp) I1); [auto | right; now left].
Qed.
Print Assumptions C24_tags_distinct.
Theorem C24_idempotent : forall t s, ident t -> spelling t s ->
  exists c, clean2char s = Ok c /\ clean2char c = Ok c /\ (length t <= 2 -> length c = 2).
Proof.
  intros t s Ht Hs. exists (canonical t). split; [exact (clean2char_spelling Ht Hs)|].
  split; [exact (clean2char_spelling Ht (canonical_again Ht))|].
  destruct t as [|a [|b [|c t]]]; cbn; intros; auto; try lia. destruct Ht; contradiction.
Qed.
Print Assumptions C24_idempotent.
Example C24_nonvacuous :
  ident (s_ "1") /\ spelling (s_ "1") (s_ " ' 1 ' ") /\ clean2char (s_ " ' 1 ' ") = Ok (s_ "1 ") /\
  clean2char (s_ "1") = Ok (s_ "1 ") /\ clean2char (s_ """G2""") = Ok (s_ "G2").
Proof.
  split; [split; [discriminate|repeat constructor; discriminate]|].
  split; [exact (@sp_quoted (s_ "1") qt1 1 1 1 1 (or_introl eq_refl))|]. repeat split; vm_compute; reflexivity.
Qed.
(** Outside these spellings cleaning twice can change the tag, and a blank identifier is an exception. *)
Theorem C24_other_text_refuted :
  clean2char (s_ "'""a""'") = Ok (s_ """a""") /\ clean2char (s_ """a""") = Ok (s_ "a ") /\
  (forall n, clean2char (repeat sp n) = Throw) /\
  (forall q n a m, q = qt1 \/ q = qt2 -> clean2char (repeat sp n ++ q :: repeat sp (S a) ++ q :: repeat sp m) = Throw).
Proof.
  split; [vm_compute; reflexivity|]. split; [vm_compute; reflexivity|].
  split; [exact clean2char_blank_plain | exact clean2char_blank_quoted].
Qed.
Print Assumptions C24_other_text_refuted.

(** ** C43 *)
(** The decimal number of a bus, with sign and blanks, names the bus with the absolute value. *)
Theorem C43_by_number :
  forall names z a b, DCModel.is_int z = true -> z <> (-2147483648)%Z ->
    get_bus_index names (repeat sp a ++ s_ (DCModel.dec z) ++ repeat sp b) = Ok (Z.abs z).
Proof. exact bus_index_number. Qed.
Print Assumptions C43_by_number.
(** A quoted name finds the entry stored under the text between the quotes without surrounding blanks; -1 if none. *)
Theorem C43_by_name_partial :
  forall names n a t b rest,
    (exists c r, t = c :: r /\ c <> sp) -> (exists u d, t = (u ++ [d])%list /\ d <> sp) ->
    lacks qt1 t -> length t <= 12 -> 2 <= a + length t + b ->
    get_bus_index names (repeat sp n ++ qt1 :: repeat sp a ++ t ++ repeat sp b ++ qt1 :: rest)
    = Ok (match names t with Some i => i | None => (-1)%Z end).
Proof. intros. apply bus_index_name; [split; assumption | assumption..]. Qed.
Print Assumptions C43_by_name_partial.
Example C43_nonvacuous :
  get_bus_index (fun t => if str_eqb t (s_ "BUS 7") then Some 7%Z else None) (s_ " 'BUS 7   ' ") = Ok 7%Z /\
  get_bus_index (fun _ => None) (s_ " -12 ") = Ok 12%Z /\ s_ (DCModel.dec (-12)) = s_ "-12".
Proof. repeat split; vm_compute; reflexivity. Qed.
(** A quoted name of one character is read as the empty name, and a quoted name of blanks reads outside the string. *)
Theorem C43_short_name_refuted :
  (forall names c, c <> qt1 -> get_bus_index names [qt1; c; qt1] = get_bus_index names [qt1; qt1]) /\
  (forall names n, get_bus_index names (qt1 :: repeat sp (S (S n)) ++ [qt1]) = UB).
Proof.
  split.
  - intros names c Hc. unfold get_bus_index, check_string.
    assert (find_not sp [qt1; c; qt1] 0 = 0)%Z as -> by (apply (@find_not_zero sp [] qt1); [constructor|discriminate]).
    assert (find_c qt1 [qt1; c; qt1] (0 + 1) = 2)%Z as E.
    { change [qt1; c; qt1] with ([qt1] ++ [c] ++ qt1 :: [])%list. rewrite find_c_from; [reflexivity|reflexivity|].
      intros [X|[]]; now apply Hc. }
    change (0 =? -1)%Z with false. cbv iota. cbn [at_ Z.ltb Z.compare Z.to_nat nth_error obind].
    change (Ascii.eqb qt1 qt1) with true. cbv iota zeta. rewrite E. cbn. reflexivity.
  - intros names n. unfold get_bus_index, check_string. set (u := repeat sp (S (S n))).
    assert (find_not sp (qt1 :: u ++ [qt1]) 0 = 0)%Z as -> by (apply (@find_not_zero sp [] qt1); [constructor|discriminate]).
    assert (find_c qt1 (qt1 :: u ++ [qt1]) (0 + 1) = 1 + Z.of_nat (length u))%Z as E.
    { change (qt1 :: u ++ [qt1])%list with ([qt1] ++ u ++ qt1 :: [])%list. rewrite find_c_from; [reflexivity|reflexivity|].
      apply lacks_repeat. discriminate. }
    change (0 =? -1)%Z with false. cbv iota. cbn [at_ Z.ltb Z.compare Z.to_nat nth_error obind].
    change (Ascii.eqb qt1 qt1) with true. cbv iota zeta. rewrite E.
    assert (length u = S (S n)) as Lu by apply repeat_length.
    assert (1 + Z.of_nat (length u) - (0 + 1) >? 1 = true)%Z as -> by (apply Z.gtb_lt; lia).
    destruct (Z.eqb_spec (1 + Z.of_nat (length u)) (-1)); [lia|]. cbn [negb andb].
    change (qt1 :: u ++ [qt1])%list with ([qt1] ++ u ++ [qt1])%list.
    rewrite (@substr_mid [qt1] u [qt1]) by (cbn [length]; lia). cbn [obind].
    assert (last_nonblank (length u) u = UB) as L.
    { subst u. generalize (S (S n)). intros k. rewrite repeat_length.
      assert (forall j, j <= k -> last_nonblank j (repeat sp k) = UB) as G; [|now apply G].
      induction j as [|j IH]; intros Hj; [reflexivity|]. cbn [last_nonblank].
      rewrite (nth_error_nth' _ sp) by (rewrite repeat_length; lia). rewrite nth_repeat. cbn [Ascii.eqb]. apply IH. lia. }
    assert (match u with [] => Ok [] | _ => remove_blanks u end = UB) as ->.
    { transitivity (remove_blanks u); [reflexivity|]. unfold remove_blanks. now rewrite L. }
    reflexivity.
Qed.
Print Assumptions C43_short_name_refuted.

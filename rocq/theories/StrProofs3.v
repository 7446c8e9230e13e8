(** Proofs about the text functions: separators, tags, bus names and numbers. *)
From Verif Require Import Prelude DCModel DCProofs StrModel StrSpec StrProofs StrProofs2.
From Coq Require Import Ascii.
Open Scope nat_scope.

Lemma find_not_hit d p a c r i : i = Z.of_nat (length p) -> all_of (eq d) a -> c <> d ->
  find_not d (p ++ a ++ c :: r)%list i = (i + Z.of_nat (length a))%Z.
Proof.
  intros. apply find_if_hit; [assumption | now apply eqb_all_forall|].
  destruct (Ascii.eqb_spec c d); [contradiction|reflexivity].
Qed.
Lemma find_not_zero d a c r : all_of (eq d) a -> c <> d -> find_not d (a ++ c :: r)%list 0 = Z.of_nat (length a).
Proof. intros. now apply (@find_not_hit d [] a c r 0%Z). Qed.
Lemma find_not_none d p a i : i = Z.of_nat (length p) -> all_of (eq d) a -> find_not d (p ++ a)%list i = (-1)%Z.
Proof. intros. apply find_if_miss; [assumption | now apply eqb_all_forall]. Qed.

(** ** charTokenizer *)
Lemma char_loop_fields sep fs : forall pre trail n1 fuel,
  Forall (fun f => fst f <> [] /\ all_of (eq sep) (fst f) /\ snd f <> [] /\ lacks sep (snd f)) fs ->
  all_of (eq sep) trail -> length trail <= 1 -> (0 <= n1)%Z -> length fs + 1 <= fuel ->
  char_loop fuel sep (pre ++ write fs trail)%list n1 (Z.of_nat (length pre)) = Some (Ok (map snd fs)).
Proof.
  induction fs as [|[g t] fs IH]; intros pre trail n1 fuel H Ht Hl Hn Hf.
  - unfold write. cbn [flat_map app map]. destruct fuel as [|fuel]; [cbn in Hf; lia|]. cbn [char_loop].
    destruct (Z.ltb_spec (Z.of_nat (length pre)) (slen (pre ++ trail) - 1)) as [L|L]; [|reflexivity].
    unfold slen in L. rewrite app_length in L. lia.
  - inversion H as [|? ? (Hg0 & Hg & Ht0 & Htl) H']; subst. cbn [fst snd] in *.
    destruct fuel as [|fuel]; [lia|]. cbn [char_loop].
    destruct (Z.eqb_spec n1 (-1)); [lia|]. rewrite andb_true_r.
    assert (pre ++ write ((g, t) :: fs) trail = pre ++ g ++ t ++ write fs trail)%list as W
      by (unfold write; cbn [flat_map fst snd]; now rewrite <- !app_assoc).
    rewrite W. set (rest := write fs trail).
    assert (0 < length g) by (destruct g; [contradiction | cbn; lia]).
    destruct t as [|c t']; [contradiction|]. set (t := c :: t') in *.
    assert (c <> sep) as Nc by (intros ->; apply Htl; now left).
    destruct (Z.ltb_spec (Z.of_nat (length pre)) (slen (pre ++ g ++ t ++ rest) - 1)) as [L|L];
      [|unfold slen in L; rewrite !app_length in L; subst t; cbn [length] in L; lia].
    assert (find_not sep (pre ++ g ++ t ++ rest)%list (Z.of_nat (length pre)) = Z.of_nat (length (pre ++ g))) as F.
    { subst t. cbn [app]. rewrite find_not_hit; auto. rewrite app_length. lia. }
    rewrite F. rewrite app_assoc.
    assert ((let e := find_c sep ((pre ++ g) ++ t ++ rest)%list (Z.of_nat (length (pre ++ g))) in
             if (e =? -1)%Z then slen ((pre ++ g) ++ t ++ rest)%list else e) = Z.of_nat (length (pre ++ g) + length t)) as E.
    { assert ((exists r', rest = sep :: r') \/ rest = []) as [(r' & ->)| ->].
      { subst rest. destruct fs as [|[g2 t2] fs].
        - cbn. destruct trail as [|x trail]; [now right|]. left. inversion Ht; subst. eexists; reflexivity.
        - left. inversion H' as [|? ? (G0 & G1 & _) _]; subst. cbn [fst] in *. destruct g2 as [|x g2]; [contradiction|].
          inversion G1; subst. eexists. reflexivity. }
      - cbv zeta. rewrite find_c_from by auto. destruct (Z.eqb_spec (Z.of_nat (length (pre ++ g)) + Z.of_nat (length t)) (-1)); lia.
      - cbv zeta. rewrite app_nil_r, find_c_from_none by auto. change (-1 =? -1)%Z with true. cbv iota. unfold slen. now rewrite (app_length (pre ++ g)). }
    cbv zeta in E. rewrite E.
    destruct (Z.leb_spec (Z.of_nat (length (pre ++ g))) (Z.of_nat (length (pre ++ g) + length t))); [|lia].
    rewrite (@substr_mid (pre ++ g)%list t rest) by lia.
    replace (Z.of_nat (length (pre ++ g) + length t)) with (Z.of_nat (length ((pre ++ g) ++ t)))
      by (rewrite (app_length (pre ++ g)); reflexivity).
    rewrite app_assoc. subst rest. rewrite IH; auto; try lia. cbn in Hf. lia.
Qed.
Lemma char_tokenizer_fields sep g t fs trail fuel : 
  all_of (eq sep) g -> t <> [] -> lacks sep t ->
  Forall (fun f => fst f <> [] /\ all_of (eq sep) (fst f) /\ snd f <> [] /\ lacks sep (snd f)) fs ->
  all_of (eq sep) trail -> length trail <= 1 -> length fs + 1 <= fuel ->
  char_tokenizer fuel sep (write ((g, t) :: fs) trail) = Some (Ok (t :: map snd fs)).
Proof.
  intros Hg Ht0 Htl H Htr Hl Hf. unfold char_tokenizer.
  assert (write ((g, t) :: fs) trail = g ++ t ++ write fs trail)%list as ->
    by (unfold write; cbn [flat_map fst snd]; now rewrite <- !app_assoc).
  set (rest := write fs trail).
  destruct t as [|c t']; [contradiction|]. set (t := c :: t') in *.
  assert (c <> sep) as Nc by (intros ->; apply Htl; now left).
  assert (find_not sep (g ++ t ++ rest)%list 0 = Z.of_nat (length g)) as F.
  { subst t. cbn [app]. now apply find_not_zero. }
  rewrite F.
  assert ((let e := find_c sep (g ++ t ++ rest)%list (Z.of_nat (length g)) in
           if (e =? -1)%Z then slen (g ++ t ++ rest)%list else e) = Z.of_nat (length g + length t)) as E.
  { assert ((exists r', rest = sep :: r') \/ rest = []) as [(r' & ->)| ->].
    { subst rest. destruct fs as [|[g2 t2] fs].
      - cbn. destruct trail as [|x trail]; [now right|]. left. inversion Htr; subst. eexists; reflexivity.
      - left. inversion H as [|? ? (G0 & G1 & _) _]; subst. cbn [fst] in *. destruct g2 as [|x g2]; [contradiction|].
        inversion G1; subst. eexists. reflexivity. }
    - cbv zeta. rewrite find_c_from by auto. destruct (Z.eqb_spec (Z.of_nat (length g) + Z.of_nat (length t)) (-1)); lia.
    - cbv zeta. rewrite app_nil_r, find_c_from_none by auto. change (-1 =? -1)%Z with true. cbv iota. unfold slen. now rewrite app_length. }
  cbv zeta in E. rewrite E.
  destruct (Z.leb_spec (Z.of_nat (length g)) (Z.of_nat (length g + length t))); [|lia].
  rewrite (@substr_mid g t rest) by lia.
  replace (Z.of_nat (length g + length t)) with (Z.of_nat (length (g ++ t))) by (rewrite app_length; reflexivity).
  rewrite app_assoc. subst rest. rewrite char_loop_fields; auto. lia.
Qed.

(** ** Tags *)
Lemma ident_head t : ident t -> exists c r, t = c :: r /\ c <> sp /\ c <> qt1 /\ c <> qt2 /\ c <> cr.
Proof. intros (N & H). destruct t as [|c r]; [contradiction|]. inversion H; subst. eauto 8. Qed.
Lemma ident_lacks t d : ident t -> d = sp \/ d = qt1 \/ d = qt2 \/ d = cr -> lacks d t.
Proof. intros (_ & H) Hd X. apply (proj1 (Forall_forall _ _) H) in X. intuition congruence. Qed.

Lemma strip_ident a t b : ident t -> 
  (let ct := (repeat sp a ++ t ++ repeat sp b)%list in
   let ntok1 := find_not sp ct 0 in
   let e := find_c sp ct ntok1 in
   let ntok2 := if (e =? -1)%Z then slen ct else e in
   substr ct ntok1 (ntok2 - ntok1)) = Ok t.
Proof.
  intros Ht. destruct (ident_head Ht) as (c & r & E & Hc). cbv zeta.
  assert (find_not sp (repeat sp a ++ t ++ repeat sp b)%list 0 = Z.of_nat (length (repeat sp a))) as F.
  { rewrite E. cbn [app]. apply find_not_zero; [apply all_repeat | tauto]. }
  rewrite F.
  assert (lacks sp t) as L by (apply (ident_lacks Ht); auto).
  destruct b as [|b].
  - cbn [repeat]. rewrite find_c_from_none; [|reflexivity|rewrite app_nil_r; exact L]. change (-1 =? -1)%Z with true. cbv iota.
    apply substr_mid; [reflexivity|]. unfold slen. rewrite !app_length. cbn [length]. lia.
  - cbn [repeat]. rewrite find_c_from by auto.
    destruct (Z.eqb_spec (Z.of_nat (length (repeat sp a)) + Z.of_nat (length t)) (-1)); [lia|].
    apply substr_mid; [reflexivity|lia].
Qed.
Lemma pad_ident t : ident t ->
  (let ct2 := if length t =? 1 then (t ++ [sp])%list else t in
   match ct2 with [a; b] => if Ascii.eqb b cr then [a; sp] else ct2 | _ => ct2 end) = canonical t.
Proof.
  intros Ht. destruct t as [|a [|b [|c t]]]; cbn [length Nat.eqb app canonical]; try reflexivity.
  destruct (Ascii.eqb_spec b cr) as [->|]; [|reflexivity].
  exfalso. apply (ident_lacks (d := cr) Ht); [auto | right; now left].
Qed.
Lemma clean2char_of_unquote s a t b : ident t -> unquote s = Ok (repeat sp a ++ t ++ repeat sp b)%list ->
  clean2char s = Ok (canonical t).
Proof.
  intros Ht Hu. unfold clean2char. rewrite Hu. cbn [obind].
  pose proof (strip_ident a b Ht) as P. cbv zeta in P. rewrite P. cbn [obind].
  pose proof (pad_ident Ht) as Q. cbv zeta in Q. now rewrite Q.
Qed.
Lemma unquote_plain n u : u <> [] -> (exists c r, u = c :: r /\ c <> sp) -> lacks qt1 u -> lacks qt2 u ->
  unquote (repeat sp n ++ u) = Ok u.
Proof.
  intros Hne (c & r & E & Nc) L1 L2. unfold unquote.
  assert (forall d, d <> sp -> lacks d u -> lacks d (repeat sp n ++ u)) as G
    by (intros d Hd Hl; apply lacks_app; auto using lacks_repeat).
  rewrite (find_c_none (G qt1 ltac:(discriminate) L1)), (find_c_none (G qt2 ltac:(discriminate) L2)).
  change (-1 =? -1)%Z with true. cbn [andb negb].
  assert (find_not sp (repeat sp n ++ u)%list 0 = Z.of_nat (length (repeat sp n))) as F.
  { rewrite E. apply find_not_zero; auto using all_repeat. }
  rewrite F.
  assert (find_not qt1 (repeat sp n ++ u)%list (Z.of_nat (length (repeat sp n))) = Z.of_nat (length (repeat sp n))) as F2.
  { rewrite E. rewrite (@find_not_hit qt1 (repeat sp n) [] c r); auto; [cbn; lia | constructor|].
    intros ->. apply L1. rewrite E. now left. }
  rewrite F2. rewrite find_c_from_none by auto. change (-1 =? -1)%Z with true. cbv iota.
  rewrite <- (app_nil_r u) at 1. apply substr_mid; [reflexivity|]. unfold slen. rewrite !app_length. cbn [length]. lia.
Qed.
Lemma unquote_quoted q n u m : (q = qt1 \/ q = qt2) -> u <> [] -> lacks qt1 u -> lacks qt2 u ->
  unquote (repeat sp n ++ q :: u ++ q :: repeat sp m) = Ok u.
Proof.
  intros Hq Hne L1 L2. unfold unquote. set (s := (repeat sp n ++ q :: u ++ q :: repeat sp m)%list).
  assert (lacks q u) as Lq by (destruct Hq as [->| ->]; assumption).
  assert (q <> sp) as Nq by (destruct Hq as [->| ->]; discriminate).
  assert (find_c q s 0 = Z.of_nat (length (repeat sp n))) as F by (apply find_c_hit; now apply lacks_repeat).
  assert ((if ((find_c qt1 s 0 =? -1) && negb (find_c qt2 s 0 =? -1))%Z then qt2 else qt1) = q /\
          (if (find_c qt1 s 0 =? -1)%Z
           then if ((find_c qt1 s 0 =? -1) && negb (find_c qt2 s 0 =? -1))%Z then find_c qt2 s 0 else find_not sp s 0
           else find_c qt1 s 0) = Z.of_nat (length (repeat sp n))) as [X1 X2].
  { destruct Hq as [->| ->].
    - rewrite F. destruct (Z.eqb_spec (Z.of_nat (length (repeat sp n))) (-1)); [lia|]. auto.
    - assert (lacks qt1 s) as Ls.
      { subst s. rewrite lacks_app, lacks_cons, lacks_app, lacks_cons.
        repeat split; auto; try discriminate; apply lacks_repeat; discriminate. }
      rewrite (find_c_none Ls), F. destruct (Z.eqb_spec (Z.of_nat (length (repeat sp n))) (-1)); [lia|]. auto. }
  cbv zeta. rewrite X1, X2.
  assert (find_not q s (Z.of_nat (length (repeat sp n))) = Z.of_nat (length (repeat sp n ++ [q]))) as F2.
  { destruct u as [|c u]; [contradiction|]. subst s.
    replace (repeat sp n ++ q :: (c :: u) ++ q :: repeat sp m)%list with (repeat sp n ++ [q] ++ c :: u ++ q :: repeat sp m)%list
      by reflexivity.
    rewrite find_not_hit; [rewrite app_length; cbn; lia | reflexivity | repeat constructor |].
    intros ->. apply Lq. now left. }
  rewrite F2.
  assert (s = (repeat sp n ++ [q]) ++ u ++ q :: repeat sp m)%list as -> by (subst s; rewrite <- app_assoc; reflexivity).
  rewrite find_c_from by auto.
  destruct (Z.eqb_spec (Z.of_nat (length (repeat sp n ++ [q])) + Z.of_nat (length u)) (-1)); [lia|].
  apply substr_mid; lia.
Qed.

Lemma clean2char_spelling t s : ident t -> spelling t s -> clean2char s = Ok (canonical t).
Proof.
  intros Ht Hs. assert (lacks qt1 t /\ lacks qt2 t) as [L1 L2] by (split; apply (ident_lacks Ht); auto).
  destruct (ident_head Ht) as (c & r & E & Nc & _).
  destruct Hs as [n m|q n a b m Hq|n c0 E0].
  - apply (@clean2char_of_unquote _ 0 t m Ht). cbn [repeat app]. apply unquote_plain.
    + rewrite E; discriminate.
    + exists c, (r ++ repeat sp m)%list. rewrite E. auto.
    + apply lacks_app. split; [exact L1 | apply lacks_repeat; discriminate].
    + apply lacks_app. split; [exact L2 | apply lacks_repeat; discriminate].
  - apply (@clean2char_of_unquote _ a t b Ht).
    replace (repeat sp n ++ q :: repeat sp a ++ t ++ repeat sp b ++ q :: repeat sp m)%list
      with (repeat sp n ++ q :: (repeat sp a ++ t ++ repeat sp b) ++ q :: repeat sp m)%list
      by (rewrite <- !app_assoc; reflexivity).
    apply unquote_quoted; auto.
    + rewrite E. intros X. apply app_eq_nil in X. destruct X as [_ X]. discriminate.
    + rewrite !lacks_app. repeat split; auto; apply lacks_repeat; discriminate.
    + rewrite !lacks_app. repeat split; auto; apply lacks_repeat; discriminate.
  - subst t. assert (c0 <> sp /\ c0 <> qt1 /\ c0 <> qt2) as (N1 & N2 & N3).
    { destruct Ht as (_ & H). inversion H; subst. tauto. }
    unfold clean2char. rewrite unquote_plain.
    + cbn [obind].
      assert (find_not sp [c0; cr] 0 = 0)%Z as F1 by (apply (@find_not_zero sp [] c0 [cr]); auto; constructor).
      rewrite F1. assert (find_c sp [c0; cr] 0 = -1)%Z as ->.
      { apply find_c_none. intros [X|[X|[]]]; [now apply N1 | discriminate]. }
      change (-1 =? -1)%Z with true. cbv iota. rewrite (@substr_mid [] [c0; cr] []) by reflexivity. reflexivity.
    + discriminate.
    + eauto.
    + intros [X|[X|[]]]; [now apply N2 | discriminate].
    + intros [X|[X|[]]]; [now apply N3 | discriminate].
Qed.
Lemma canonical_again t : ident t -> spelling t (canonical t).
Proof.
  intros Ht. destruct t as [|a [|b t]].
  - destruct Ht; contradiction.
  - apply (sp_plain [a] 0 1).
  - rewrite <- (app_nil_r (b :: t)) at 2. apply (sp_plain (a :: b :: t) 0 0).
Qed.
Lemma clean2char_blank_plain n : clean2char (repeat sp n) = Throw.
Proof.
  unfold clean2char, unquote.
  rewrite (find_c_none (@lacks_repeat qt1 n ltac:(discriminate))), (find_c_none (@lacks_repeat qt2 n ltac:(discriminate))).
  change (-1 =? -1)%Z with true. cbn [andb negb].
  rewrite (@find_not_none sp [] (repeat sp n)) by (auto using all_repeat). reflexivity.
Qed.
Lemma clean2char_blank_quoted q n a m : (q = qt1 \/ q = qt2) ->
  clean2char (repeat sp n ++ q :: repeat sp (S a) ++ q :: repeat sp m) = Throw.
Proof.
  intros Hq. unfold clean2char. rewrite unquote_quoted; auto; [|discriminate| |].
  - cbn [obind]. now rewrite (@find_not_none sp [] (repeat sp (S a))) by (auto using all_repeat).
  - apply lacks_repeat. discriminate.
  - apply lacks_repeat. discriminate.
Qed.

(** ** Names and numbers *)
Definition trimmed (t : str) : Prop :=
  (exists c r, t = c :: r /\ c <> sp) /\ (exists u d, t = (u ++ [d])%list /\ d <> sp).
Lemma last_nonblank_spec u d b : d <> sp -> forall n, n <= b ->
  last_nonblank (length u + 1 + n) (u ++ d :: repeat sp b)%list = Ok (Z.of_nat (length u)).
Proof.
  intros Hd. induction n as [|n IH]; intros Hn.
  - replace (length u + 1 + 0) with (S (length u)) by lia. cbn [last_nonblank].
    rewrite nth_error_app2, Nat.sub_diag by lia. cbn [nth_error].
    destruct (Ascii.eqb_spec d sp); [contradiction|reflexivity].
  - replace (length u + 1 + S n) with (S (length u + 1 + n)) by lia. cbn [last_nonblank].
    rewrite nth_error_app2 by lia. replace (length u + 1 + n - length u) with (S n) by lia. cbn [nth_error].
    rewrite (nth_error_nth' _ sp) by (rewrite repeat_length; lia). rewrite nth_repeat, Ascii.eqb_refl. apply IH. lia.
Qed.
Lemma remove_blanks_spec a t b : trimmed t -> remove_blanks (repeat sp a ++ t ++ repeat sp b) = Ok t.
Proof.
  intros ((c & r & E & Nc) & (u & d & E2 & Nd)). unfold remove_blanks.
  assert (find_not sp (repeat sp a ++ t ++ repeat sp b)%list 0 = Z.of_nat (length (repeat sp a))) as F.
  { rewrite E. cbn [app]. apply find_not_zero; auto using all_repeat. }
  rewrite F.
  assert (last_nonblank (length (repeat sp a ++ t ++ repeat sp b)) (repeat sp a ++ t ++ repeat sp b)%list
          = Ok (Z.of_nat (length (repeat sp a ++ u)))) as ->.
  { rewrite E2.
    replace (repeat sp a ++ (u ++ [d]) ++ repeat sp b)%list with ((repeat sp a ++ u) ++ d :: repeat sp b)%list
      by (rewrite <- !app_assoc; reflexivity).
    assert (length ((repeat sp a ++ u) ++ d :: repeat sp b)%list = length (repeat sp a ++ u)%list + 1 + b) as ->.
    { rewrite app_length. cbn [length]. rewrite (repeat_length sp b). lia. }
    now apply last_nonblank_spec. }
  cbn [obind]. apply substr_mid; [reflexivity|]. rewrite E2, !app_length. cbn [length]. lia.
Qed.
Lemma check_string_plain a t b : trimmed t -> hd sp t <> qt1 ->
  check_string (repeat sp a ++ t ++ repeat sp b) = Ok (false, t).
Proof.
  intros Ht Hq. unfold check_string. destruct Ht as ((c & r & E & Nc) & H2).
  assert (find_not sp (repeat sp a ++ t ++ repeat sp b)%list 0 = Z.of_nat (length (repeat sp a))) as F.
  { rewrite E. cbn [app]. apply find_not_zero; auto using all_repeat. }
  rewrite F. destruct (Z.eqb_spec (Z.of_nat (length (repeat sp a))) (-1)); [lia|].
  assert (at_ (repeat sp a ++ t ++ repeat sp b)%list (Z.of_nat (length (repeat sp a))) = Ok c) as ->
    by (rewrite E; cbn [app]; now apply at_mid).
  cbn [obind]. rewrite E in Hq. cbn in Hq. destruct (Ascii.eqb_spec c qt1); [contradiction|]. 
  rewrite remove_blanks_spec by (split; eauto). reflexivity.
Qed.
Lemma check_string_quoted n a t b rest : trimmed t -> lacks qt1 t -> 2 <= a + length t + b ->
  check_string (repeat sp n ++ qt1 :: repeat sp a ++ t ++ repeat sp b ++ qt1 :: rest) = Ok (true, t).
Proof.
  intros Ht Lq Hl. unfold check_string. set (s := (repeat sp n ++ qt1 :: repeat sp a ++ t ++ repeat sp b ++ qt1 :: rest)%list).
  assert (find_not sp s 0 = Z.of_nat (length (repeat sp n))) as F.
  { subst s. apply find_not_zero; [apply all_repeat | discriminate]. }
  rewrite F. destruct (Z.eqb_spec (Z.of_nat (length (repeat sp n))) (-1)); [lia|].
  assert (at_ s (Z.of_nat (length (repeat sp n))) = Ok qt1) as -> by (now apply at_mid).
  cbn [obind]. change (Ascii.eqb qt1 qt1) with true. cbv iota zeta.
  set (u := (repeat sp a ++ t ++ repeat sp b)%list).
  assert (s = (repeat sp n ++ [qt1]) ++ u ++ qt1 :: rest)%list as -> by (subst s u; rewrite <- !app_assoc; reflexivity).
  assert (Z.of_nat (length (repeat sp n)) + 1 = Z.of_nat (length (repeat sp n ++ [qt1])))%Z as ->
    by (rewrite app_length; cbn; lia).
  assert (lacks qt1 u) as Lu by (subst u; rewrite !lacks_app; repeat split; auto; apply lacks_repeat; discriminate).
  rewrite find_c_from by auto.
  assert (length u = a + length t + b) as Hu by (subst u; rewrite !app_length, !repeat_length; lia).
  set (p := Z.of_nat (length (repeat sp n ++ [qt1]))).
  assert (0 <= p)%Z by (subst p; lia).
  assert ((p + Z.of_nat (length u) - p >? 1)%Z = true) as -> by (apply Z.gtb_lt; lia).
  destruct (Z.eqb_spec (p + Z.of_nat (length u)) (-1)); [lia|]. cbn [negb andb].
  rewrite (@substr_mid (repeat sp n ++ [qt1])%list u) by (subst p; lia). cbn [obind].
  assert (match u with [] => Ok [] | _ => remove_blanks u end = Ok t) as ->.
  { transitivity (remove_blanks u); [destruct u; [cbn in Hu; lia | reflexivity] | now apply remove_blanks_spec]. }
  reflexivity.
Qed.

(** Decimal text. *)
Lemma digit_char (n : N) : (n < 10)%N -> nat_of_ascii (digit n) = 48 + N.to_nat n.
Proof. intros H. unfold nat_of_ascii. rewrite N_of_digit by assumption. lia. Qed.
Lemma digits_val_undigits s : forall acc : N, alldigits s ->
  digits_val (Z.of_N acc) (list_ascii_of_string s) = Z.of_N (undigits s acc).
Proof.
  induction s as [|c s IH]; intros acc H; [reflexivity|]. cbn [list_ascii_of_string digits_val undigits].
  cbn [alldigits] in H. destruct H as [(n & Hn & ->) Hs]. rewrite digit_char, N_of_digit by assumption.
  destruct (Nat.leb_spec 48 (48 + N.to_nat n)); [|lia].
  destruct (Nat.leb_spec (48 + N.to_nat n) 57); [|lia]. cbn [andb].
  rewrite <- IH by assumption. f_equal. lia.
Qed.
Lemma digit_not n d : (n < 10)%N -> nat_of_ascii d < 48 \/ 57 < nat_of_ascii d -> digit n <> d.
Proof. intros H Hd E. rewrite <- E, digit_char in Hd by assumption. lia. Qed.
Lemma alldigits_in s c : alldigits s -> In c (list_ascii_of_string s) -> exists n, (n < 10)%N /\ c = digit n.
Proof. induction s as [|x s IH]; cbn; [tauto|]. intros [H1 H2] [<-|H]; auto. Qed.
Lemma alldigits_trimmed s : alldigits s -> s <> EmptyString -> trimmed (s_ s).
Proof.
  intros H Hne. unfold s_.
  assert (forall c, In c (list_ascii_of_string s) -> c <> sp) as G.
  { intros c Hc. destruct (alldigits_in _ _ H Hc) as (n & Hn & ->). apply digit_not; [assumption|left; cbn; lia]. }
  destruct s as [|c s]; [contradiction|]. split.
  - exists c, (list_ascii_of_string s). split; [reflexivity|]. apply G. now left.
  - destruct (@exists_last _ (list_ascii_of_string (String c s))) as (u & d & E); [discriminate|].
    exists u, d. split; [exact E|]. apply G. rewrite E. apply in_or_app. right. now left.
Qed.
Lemma drop_while_head p c r : p c = false -> drop_while p (c :: r) = c :: r.
Proof. intros H. cbn. now rewrite H. Qed.
Lemma isspace_digit n : (n < 10)%N -> isspace (digit n) = false.
Proof.
  intros H. unfold isspace. rewrite digit_char by assumption.
  destruct (Nat.eqb_spec (48 + N.to_nat n) 32); [lia|].
  destruct (Nat.leb_spec (48 + N.to_nat n) 13); [lia|]. now rewrite andb_false_r.
Qed.
Lemma dec_text z : is_int z = true -> 
  trimmed (s_ (dec z)) /\ hd sp (s_ (dec z)) <> qt1 /\ atoi (s_ (dec z)) = Ok z.
Proof.
  intros Hz. pose proof (is_int_bounds _ Hz) as B. unfold dec.
  assert (forall (m : N), (m < 10000000000)%N -> let s := digits 10 m EmptyString in
    digits_val 0 (list_ascii_of_string s) = Z.of_N m /\ alldigits s /\ s <> EmptyString) as D.
  { intros m Hm. destruct (digits_nil_spec Hm) as (U & A & N). cbv zeta. split; [|auto].
    change 0%Z with (Z.of_N 0). rewrite digits_val_undigits by assumption. now rewrite U. }
  assert (((-2147483648 <=? z) && (z <=? 2147483647))%Z = true) as R by exact Hz.
  destruct (Z.ltb_spec z 0).
  - destruct (D (Z.to_N (- z))) as (V & A & N); [lia|]. set (s := digits 10 (Z.to_N (- z)) EmptyString) in *.
    destruct (@alldigits_trimmed s A N) as (_ & (u & d & E & Nd)). unfold s_ in *. cbn [list_ascii_of_string].
    split; [|split; [discriminate|]].
    + split; [exists "-"%char, (list_ascii_of_string s); split; [reflexivity|discriminate]|].
      exists ("-"%char :: u), d. rewrite E. auto.
    + unfold atoi. change (drop_while isspace ("-"%char :: list_ascii_of_string s)) with ("-"%char :: list_ascii_of_string s).
      cbv iota. change (Ascii.eqb "-" "-") with true. cbv iota. rewrite V.
      replace (- Z.of_N (Z.to_N (- z)))%Z with z by lia. now rewrite R.
  - destruct (D (Z.to_N z)) as (V & A & N); [lia|]. set (s := digits 10 (Z.to_N z) EmptyString) in *.
    split; [now apply alldigits_trimmed|]. unfold s_. destruct s as [|c s']; [contradiction|].
    cbn [alldigits] in A. destruct A as [(n & Hn & ->) As]. cbn [list_ascii_of_string hd] in *.
    split; [apply digit_not; [assumption | left; cbn; lia]|]. unfold atoi.
    rewrite drop_while_head by now apply isspace_digit.
    destruct (Ascii.eqb_spec (digit n) "-"%char) as [X|_]; [exfalso; revert X; apply digit_not; [assumption | left; cbn; lia]|].
    destruct (Ascii.eqb_spec (digit n) "+"%char) as [X|_]; [exfalso; revert X; apply digit_not; [assumption | left; cbn; lia]|].
    rewrite V. replace (Z.of_N (Z.to_N z)) with z by lia. now rewrite R.
Qed.
Lemma bus_index_number names z a b : is_int z = true -> z <> (-2147483648)%Z ->
  get_bus_index names (repeat sp a ++ s_ (dec z) ++ repeat sp b) = Ok (Z.abs z).
Proof.
  intros Hz Hn. destruct (dec_text _ Hz) as (T & Q & A). unfold get_bus_index.
  rewrite check_string_plain by assumption. cbn [obind fst snd]. rewrite A. cbn [obind].
  destruct (Z.eqb_spec z (-2147483648)); [contradiction|reflexivity].
Qed.
Lemma bus_index_name names n a t b rest : trimmed t -> lacks qt1 t -> length t <= 12 -> 2 <= a + length t + b ->
  get_bus_index names (repeat sp n ++ qt1 :: repeat sp a ++ t ++ repeat sp b ++ qt1 :: rest)
  = Ok (match names t with Some i => i | None => (-1)%Z end).
Proof.
  intros. unfold get_bus_index. rewrite check_string_quoted by assumption. cbn [obind fst snd].
  unfold bus_name. destruct (Nat.ltb_spec 12 (length t)); [lia|reflexivity].
Qed.
(** An extended name: the name, at least three blanks, the voltage. *)
Lemma find3_spec t k r : (forall a b, t <> (a ++ sp :: b)%list) -> find3 (t ++ sp :: sp :: repeat sp (S k) ++ r) = Some (length t).
Proof.
  induction t as [|c t IH]; intros H; [reflexivity|]. cbn [app find3].
  assert (c <> sp) as N by (intros ->; apply (H [] t); reflexivity).
  destruct (Ascii.eqb_spec c sp); [contradiction|]. cbn [andb].
  change (sp :: sp :: repeat sp (S k) ++ r)%list with (sp :: sp :: repeat sp (S k) ++ r)%list in *.
  rewrite IH; [reflexivity|]. intros a b E. apply (H (c :: a) b). now rewrite E.
Qed.

(** ** trim *)
Lemma drop_while_all p a s : forallb p a = true -> drop_while p (a ++ s)%list = drop_while p s.
Proof. induction a as [|c a IH]; cbn [app drop_while forallb]; intros H; [reflexivity|]. apply andb_true_iff in H. destruct H as [-> H]. auto. Qed.
Lemma forallb_rev {A} (p : A -> bool) l : forallb p (rev l) = forallb p l.
Proof.
  induction l; [reflexivity|]. cbn [rev forallb]. rewrite forallb_app, IHl. cbn. rewrite andb_true_r. apply andb_comm.
Qed.
Definition blank_ws (c : ascii) : ascii := if Ascii.eqb c lf || Ascii.eqb c tab || Ascii.eqb c cr then sp else c.
Lemma isspace_blank c : isspace c = true -> isspace (blank_ws c) = true.
Proof. intros H. unfold blank_ws. destruct (_ || _ || _); [reflexivity|exact H]. Qed.
Lemma trim_spec a t b : forallb isspace a = true -> forallb isspace b = true ->
  lacks lf t -> lacks tab t -> lacks cr t ->
  (exists c r, t = c :: r /\ isspace c = false) -> (exists u d, t = (u ++ [d])%list /\ isspace d = false) ->
  trim (a ++ t ++ b) = t.
Proof.
  intros Ha Hb L1 L2 L3 (c & r & E & Hc) (u & d & E2 & Hd). unfold trim. fold blank_ws.
  rewrite !map_app.
  assert (map blank_ws t = t) as ->.
  { rewrite <- (map_id t) at 2. apply map_ext_in. intros x Hx. unfold blank_ws.
    destruct (Ascii.eqb_spec x lf); [subst; contradiction|]. destruct (Ascii.eqb_spec x tab); [subst; contradiction|].
    destruct (Ascii.eqb_spec x cr); [subst; contradiction|]. reflexivity. }
  assert (forall s, forallb isspace s = true -> forallb isspace (map blank_ws s) = true) as G.
  { intros s Hs. rewrite forallb_forall in *. intros x Hx. apply in_map_iff in Hx. destruct Hx as (y & <- & Hy).
    apply isspace_blank. auto. }
  rewrite drop_while_all by auto. rewrite E at 1. cbn [app]. rewrite drop_while_head by assumption.
  change (c :: r ++ map blank_ws b)%list with ((c :: r) ++ map blank_ws b)%list. rewrite <- E.
  rewrite rev_app_distr, drop_while_all by (rewrite forallb_rev; auto).
  rewrite E2 at 1. rewrite rev_app_distr. cbn [rev app]. rewrite drop_while_head by assumption.
  cbn [rev]. rewrite rev_involutive. auto.
Qed.

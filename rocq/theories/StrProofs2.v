(** Proofs about the text functions: termination, commas, tags, comments, bus names. *)
From Verif Require Import Prelude StrModel StrSpec StrProofs.
From Coq Require Import Ascii.

Lemma at_found p s i c : (0 <= i)%Z -> (find_if p s i <> -1)%Z -> at_ s (find_if p s i) = Ok c -> p c = true.
Proof.
  intros Hi Hn. destruct (find_if_at p s Hi Hn) as (d & Hd & Hp).
  destruct (find_if_cases p s Hi) as [E|E]; [contradiction|].
  unfold at_. destruct (Z.ltb_spec (find_if p s i) 0); [lia|]. rewrite Hd. intros X; now inversion X; subst.
Qed.
Lemma tok_end_progress s m1 c : (0 <= m1 < slen s)%Z -> nth_error s (Z.to_nat m1) = Some c -> c <> sp ->
  (m1 < tok_end false s m1 c)%Z.
Proof.
  intros Hm Hc Hs. unfold tok_end. destruct (Ascii.eqb c qt1 || Ascii.eqb c qt2).
  - destruct (find_if_cases (fun x => Ascii.eqb x c) s (i := m1 + 1)) as [E|E]; [lia| |]; unfold find_c in *.
    + rewrite E. cbn. lia.
    + destruct (Z.eqb_spec (find_if (fun x => Ascii.eqb x c) s (m1 + 1)) (-1)); lia.
  - unfold find_c. destruct (Z.eqb_spec (find_if (fun x => Ascii.eqb x sp) s m1) (-1)) as [E|E]; [lia|].
    destruct (find_if_cases (fun x => Ascii.eqb x sp) s (i := m1)) as [X|X]; [lia|contradiction|].
    destruct (find_if_at (fun x => Ascii.eqb x sp) s (i := m1)) as (d & Hd & Hp); [lia|assumption|].
    destruct (Z.eq_dec (find_if (fun x => Ascii.eqb x sp) s m1) m1) as [Y|]; [|lia].
    rewrite Y, Hc in Hd. inversion Hd; subst. apply Ascii.eqb_eq in Hp. contradiction.
Qed.
Lemma tok_loop_ends fuel : forall s n1 n2, (0 <= n2)%Z -> (slen s - n2 < Z.of_nat fuel)%Z -> tok_loop fuel s n1 n2 <> None.
Proof.
  induction fuel as [|fuel IH]; intros s n1 n2 H0 Hf.
  - cbn [tok_loop]. destruct (Z.ltb_spec n2 (slen s - 1)); [lia|]. discriminate.
  - cbn [tok_loop]. destruct ((n2 <? slen s - 1) && negb (n1 =? -1))%Z; [|discriminate].
    destruct (Z.eqb_spec (find_not sp s n2) (-1)) as [E|E].
    + rewrite E. destruct fuel; cbn [tok_loop]; change (-1 =? -1)%Z with true; cbn [negb]; rewrite andb_false_r; discriminate.
    + unfold find_not in *. set (m1 := find_if _ s n2) in *.
      destruct (find_if_cases (fun x => negb (Ascii.eqb x sp)) s H0) as [X|X]; [contradiction|]. fold m1 in X.
      destruct (find_if_at _ s H0 E) as (c & Hc & Hp). fold m1 in Hc.
      unfold at_. destruct (Z.ltb_spec m1 0); [lia|]. rewrite Hc.
      assert (c <> sp) as Hs by (intros ->; now rewrite Ascii.eqb_refl in Hp).
      assert (0 <= m1 < slen s)%Z as Hm by lia.
      pose proof (@tok_end_progress s m1 c Hm Hc Hs) as P.
      set (m2 := tok_end false s m1 c) in *.
      destruct (substr s m1 (m2 - m1)); try discriminate.
      assert (tok_loop fuel s m1 m2 <> None) as Q by (apply IH; lia).
      destruct (tok_loop fuel s m1 m2); [discriminate|contradiction].
Qed.
Lemma blank_tokenizer_ends s fuel : length s < fuel -> blank_tokenizer fuel s <> None.
Proof.
  intros Hf. unfold blank_tokenizer. set (s' := map _ s).
  assert (length s' = length s) as L by apply map_length.
  destruct (at_ s' (find_not sp s' 0)) as [c| |] eqn:A; try discriminate.
  destruct (Z.eqb_spec (find_not sp s' 0) (-1)); [discriminate|].
  set (n1 := find_not sp s' 0) in *.
  assert (0 <= n1)%Z by (destruct (@find_if_cases (fun x => negb (Ascii.eqb x sp)) s' 0%Z); [lia|contradiction|unfold n1, find_not; lia]).
  destruct (substr s' n1 (tok_end true s' n1 c - n1)); try discriminate.
  assert (0 <= tok_end true s' n1 c)%Z.
  { unfold tok_end, find_c. destruct (Ascii.eqb c qt1 || Ascii.eqb c qt2).
    - destruct (@find_if_cases (fun x => Ascii.eqb x c) s' (n1 + 1)%Z); lia.
    - destruct (Z.eqb_spec (find_if (fun x => Ascii.eqb x sp) s' n1) (-1)); [unfold slen; lia|].
      destruct (@find_if_cases (fun x => Ascii.eqb x sp) s' n1); lia. }
  assert (tok_loop fuel s' n1 (tok_end true s' n1 c) <> None) as Q by (apply tok_loop_ends; unfold slen; lia).
  destruct (tok_loop fuel s' n1 (tok_end true s' n1 c)); [discriminate|contradiction].
Qed.

(** ** Commas *)
Lemma split_on_none sep s : lacks sep s -> split_on sep s = [s].
Proof.
  induction s as [|c s IH]; intros H; [reflexivity|]. cbn [split_on].
  destruct (Ascii.eqb_spec c sep); [subst; exfalso; apply H; now left|].
  rewrite IH; [reflexivity|]. intros X. apply H. now right.
Qed.
Lemma split_on_app sep a r : lacks sep a -> split_on sep (a ++ sep :: r) = a :: split_on sep r.
Proof.
  induction a as [|c a IH]; intros H.
  - cbn [app split_on]. now rewrite Ascii.eqb_refl.
  - cbn [app split_on]. destruct (Ascii.eqb_spec c sep); [subst; exfalso; apply H; now left|].
    rewrite IH; [reflexivity|]. intros X. apply H. now right.
Qed.
Lemma split_join sep ps : ps <> [] -> Forall (lacks sep) ps -> split_on sep (join sep ps) = ps.
Proof.
  induction ps as [|p ps IH]; intros Hne H; [contradiction|]. inversion H; subst.
  destruct ps as [|q ps]; [now apply split_on_none|].
  change (join sep (p :: q :: ps)) with (p ++ sep :: join sep (q :: ps))%list.
  rewrite split_on_app, IH; auto. discriminate.
Qed.
Lemma is_blank_repeat n : is_blank (repeat sp n) = true.
Proof.
  unfold is_blank, find_not. rewrite (@find_if_miss _ [] (repeat sp n)); auto.
  apply eqb_all_forall, all_repeat.
Qed.
Lemma is_blank_false c s : In c s -> c <> sp -> is_blank s = false.
Proof.
  intros Hc N. unfold is_blank, find_not, find_if. cbn [Z.ltb Z.compare]. change (Z.to_nat 0) with 0. cbn [skipn].
  destruct (findn _ s) as [k|] eqn:E; [apply Z.eqb_neq; lia|].
  apply findn_none_inv in E. rewrite forallb_forall in E. specialize (E c Hc).
  destruct (Ascii.eqb_spec c sp); [contradiction|discriminate].
Qed.
Lemma lacks_repeat c n : c <> sp -> lacks c (repeat sp n).
Proof. intros N H. apply repeat_spec in H. contradiction. Qed.
Lemma write_not_blank fs trail : fs <> [] -> well_written fs trail -> is_blank (write fs trail) = false.
Proof.
  intros Hne (H & _). destruct fs as [|[g t] fs]; [contradiction|]. inversion H as [|? ? (_ & Hf) _]; subst.
  destruct (field_head Hf) as (c & r & E & N). apply (@is_blank_false c); [|exact N].
  unfold write. cbn [flat_map fst snd] in *. rewrite E. rewrite !in_app_iff. left. left. right. now left.
Qed.
Lemma write_fields_le fs trail : well_written fs trail -> length fs <= length (write fs trail).
Proof.
  intros (H & _). unfold write. rewrite app_length.
  enough (length fs <= length (flat_map (fun f => (fst f ++ snd f)%list) fs)) by lia.
  induction H as [|[g t] fs (_ & Hf) _ IH]; [cbn; lia|]. cbn [flat_map fst snd] in *.
  destruct (field_head Hf) as (c & r & -> & _). rewrite !app_length. cbn [length]. lia.
Qed.
Lemma join_length_in sep ps p : In p ps -> length p <= length (join sep ps).
Proof.
  induction ps as [|q ps IH]; intros H; [destruct H|]. destruct ps as [|r ps].
  - destruct H as [->|[]]. cbn. lia.
  - change (join sep (q :: r :: ps)) with (q ++ sep :: join sep (r :: ps))%list. rewrite app_length. cbn [length].
    destruct H as [->|H]; [lia|]. specialize (IH H). lia.
Qed.

Lemma split_line_pieces ps fuel : ps <> [] -> Forall piece_ok ps ->
  length (join ","%char (map piece_text ps)) + 1 <= fuel ->
  split_line fuel (join ","%char (map piece_text ps)) = Some (Ok (flat_map piece_tokens ps)).
Proof.
  intros Hne H Hf. unfold split_line. rewrite split_join; [| |].
  - assert (Forall (fun p => length (piece_text p) + 1 <= fuel) ps) as L.
    { apply Forall_forall. intros p Hp.
      pose proof (join_length_in ","%char _ _ (in_map piece_text _ _ Hp)). lia. }
    clear Hf Hne. induction H as [|p ps Hp _ IH]; [reflexivity|]. inversion L; subst. cbn [map fold_right flat_map].
    rewrite IH by assumption. destruct p as [n|fs trail].
    + cbn [piece_text piece_tokens]. now rewrite is_blank_repeat.
    + cbn [piece_text piece_tokens]. destruct Hp as (Hfs & Hw & _).
      rewrite write_not_blank, blank_tokenizer_fields; auto.
      pose proof (write_fields_le Hw). cbn [piece_text] in *. lia.
  - destruct ps; [contradiction|discriminate].
  - apply Forall_map. rewrite Forall_forall in *. intros p Hp. specialize (H p Hp). destruct p as [n|fs trail].
    + apply lacks_repeat. discriminate.
    + apply H.
Qed.

(** ** Section ends *)
Lemma drop_while_sp n s : match s with c :: _ => c <> sp | [] => True end ->
  drop_while (Ascii.eqb sp) (repeat sp n ++ s) = s.
Proof.
  induction n; cbn [repeat app drop_while]; intros H.
  - destruct s as [|c s]; [reflexivity|]. cbn [drop_while]. destruct (Ascii.eqb_spec sp c); [subst; contradiction|reflexivity].
  - now rewrite Ascii.eqb_refl, IHn.
Qed.
Lemma leading_blanks (s : str) : exists n r, s = (repeat sp n ++ r)%list /\ match r with c :: _ => c <> sp | [] => True end.
Proof.
  induction s as [|c s (n & r & -> & H)]; [now exists 0, []|].
  destruct (ascii_dec c sp) as [->|N].
  - exists (S n), r. auto.
  - exists 0, (c :: repeat sp n ++ r)%list. auto.
Qed.
Lemma test_end_spec s : test_end s = false <->
  (exists r, s = term_char :: r) \/
  (exists n r, s = (repeat sp (S n) ++ term_char :: r)%list /\ (r = [] \/ exists r', r = sp :: r' \/ r = bslash :: r')).
Proof.
  split.
  - intros H. destruct s as [|c s]; [discriminate|]. cbn [test_end] in H.
    destruct (Ascii.eqb_spec c term_char) as [->|N]; [left; eauto|]. right.
    destruct (leading_blanks (c :: s)) as (n & r & E & Hr). rewrite E, drop_while_sp in H by assumption.
    destruct r as [|d r]; [discriminate|]. destruct (Ascii.eqb_spec d term_char) as [->|]; [|discriminate].
    cbn [negb] in H. destruct n; [cbn in E; inversion E; contradiction|].
    exists n, r. split; [assumption|]. destruct r as [|e r]; [now left|]. right. exists r.
    apply negb_false_iff, orb_true_iff in H. destruct H as [H|H]; apply Ascii.eqb_eq in H; subst; auto.
  - intros [(r & ->)|(n & r & -> & Hr)]; [reflexivity|].
    cbn [repeat app]. unfold test_end. replace (Ascii.eqb sp term_char) with false by reflexivity.
    change (sp :: repeat sp n ++ term_char :: r)%list with (repeat sp (S n) ++ term_char :: r)%list.
    rewrite drop_while_sp by discriminate. cbn [Ascii.eqb negb].
    destruct Hr as [->|(r' & [->| ->])]; reflexivity.
Qed.

(** ** Comments *)
Lemma check_comment_spec s : check_comment s = true <->
  exists n r, s = (repeat sp n ++ slash :: slash :: r)%list \/ s = (repeat sp n ++ "@"%char :: "!"%char :: r)%list.
Proof.
  split.
  - intros H. destruct (leading_blanks s) as (n & r & E & Hr). unfold check_comment in H. rewrite E, drop_while_sp in H by assumption.
    destruct r as [|a [|b r]]; try discriminate. exists n, r.
    apply orb_true_iff in H. destruct H as [H|H]; apply andb_true_iff in H; destruct H as [A B];
      apply Ascii.eqb_eq in A; apply Ascii.eqb_eq in B; subst; auto.
  - intros (n & r & [->| ->]); unfold check_comment; rewrite drop_while_sp by discriminate; reflexivity.
Qed.
Lemma clean_comment_prefix s : exists n, clean_comment s = firstn n s.
Proof.
  unfold clean_comment. destruct (find_c slash s 0 =? -1)%Z; [exists (length s); now rewrite firstn_all|].
  match goal with |- exists n, (if ?b then _ else _) = _ => destruct b end;
  [exists (length s); now rewrite firstn_all | eauto].
Qed.
Lemma find_zero p a c r : forallb (fun x => negb (p x)) a = true -> p c = true ->
  find_if p (a ++ c :: r)%list 0 = Z.of_nat (length a).
Proof. intros. rewrite (@find_if_hit p [] a c r); auto. Qed.
Lemma find_zero_none p a : forallb (fun x => negb (p x)) a = true -> find_if p a 0 = (-1)%Z.
Proof. intros. now apply (@find_if_miss p [] a). Qed.
Lemma findn_split (p : ascii -> bool) s : (exists a c r, s = (a ++ c :: r)%list /\ p c = true /\ forallb (fun x => negb (p x)) a = true)
  \/ forallb (fun x => negb (p x)) s = true.
Proof.
  destruct (findn p s) as [k|] eqn:E; [left|right; now apply findn_none_inv].
  apply findn_some in E. destruct E as (a & c & r & -> & _ & Hc & Ha). eauto 6.
Qed.
Lemma split_char c s : (exists a r, s = (a ++ c :: r)%list /\ lacks c a) \/ lacks c s.
Proof.
  destruct (findn_split (fun x => Ascii.eqb x c) s) as [(a & d & r & -> & Hd & Ha)|H].
  - left. apply Ascii.eqb_eq in Hd. subst. exists a, r. split; [reflexivity|].
    intros X. rewrite forallb_forall in Ha. specialize (Ha c X). now rewrite Ascii.eqb_refl in Ha.
  - right. intros X. rewrite forallb_forall in H. specialize (H c X). now rewrite Ascii.eqb_refl in H.
Qed.
Lemma find_c_hit c a r : lacks c a -> find_c c (a ++ c :: r)%list 0 = Z.of_nat (length a).
Proof. intros. apply find_zero; [now apply eqb_neq_forall | apply Ascii.eqb_refl]. Qed.
Lemma find_c_none c a : lacks c a -> find_c c a 0 = (-1)%Z.
Proof. intros. apply find_zero_none. now apply eqb_neq_forall. Qed.
Lemma find_c_from c p a r i : i = Z.of_nat (length p) -> lacks c a ->
  find_c c (p ++ a ++ c :: r)%list i = (i + Z.of_nat (length a))%Z.
Proof. intros. apply find_if_hit; [assumption | now apply eqb_neq_forall | apply Ascii.eqb_refl]. Qed.
Lemma find_c_from_none c p a i : i = Z.of_nat (length p) -> lacks c a -> find_c c (p ++ a)%list i = (-1)%Z.
Proof. intros. apply find_if_miss; [assumption | now apply eqb_neq_forall]. Qed.

Lemma clean_comment_none s : lacks slash s -> clean_comment s = s.
Proof. intros H. unfold clean_comment. rewrite (find_c_none H). reflexivity. Qed.

(** Text with quotes of one kind [q] only, in which the first '/' is outside quotes. *)
Lemma open_quote_free q o s : (q = qt1 \/ q = qt2) -> lacks q s -> (forall d, (d = qt1 \/ d = qt2) -> d <> q -> lacks d s) ->
  (o = None \/ o = Some q) -> open_quote o s = o.
Proof.
  intros Hq Hl Hd Ho. induction s as [|c s IH]; [reflexivity|]. cbn [open_quote].
  assert (c <> q) as N by (intros ->; apply Hl; now left).
  assert (Ascii.eqb c qt1 || Ascii.eqb c qt2 = false) as E.
  { destruct (Ascii.eqb_spec c qt1) as [->|]; [|destruct (Ascii.eqb_spec c qt2) as [->|]; [|reflexivity]].
    - exfalso. apply (Hd qt1); auto. now left.
    - exfalso. apply (Hd qt2); auto. now left. }
  assert (match o with
          | None => if Ascii.eqb c qt1 || Ascii.eqb c qt2 then Some c else None
          | Some q0 => if Ascii.eqb c q0 then None else Some q0
          end = o) as ->.
  { destruct Ho as [->| ->]; [now rewrite E|]. destruct (Ascii.eqb_spec c q); [contradiction|reflexivity]. }
  apply IH; [intros X; apply Hl; now right | intros d D1 D2 X; apply (Hd d); auto; now right].
Qed.
Lemma open_quote_app o a b : open_quote o (a ++ b) = open_quote (open_quote o a) b.
Proof. revert o. induction a; intros o; [reflexivity|]. cbn. apply IHa. Qed.

Lemma lacks_app c a b : lacks c (a ++ b) <-> lacks c a /\ lacks c b.
Proof. unfold lacks. rewrite in_app_iff. tauto. Qed.
Lemma lacks_cons c d b : lacks c (d :: b) <-> d <> c /\ lacks c b.
Proof. unfold lacks. cbn. split; [intros H; split; intros X; apply H; auto | intros [A B] [X|X]; auto]. Qed.

Lemma clean_comment_at a r q : lacks slash a -> (q = qt1 \/ q = qt2) ->
  (forall d, (d = qt1 \/ d = qt2) -> d <> q -> lacks d (a ++ slash :: r)) ->
  open_quote None a = None -> clean_comment (a ++ slash :: r) = a.
Proof.
  intros Hs Hq Hd Ho. unfold clean_comment. rewrite (find_c_hit _ Hs).
  destruct (Z.eqb_spec (Z.of_nat (length a)) (-1)); [lia|].
  assert (firstn (Z.to_nat (Z.of_nat (length a))) (a ++ slash :: r) = a)%list as F
    by (rewrite Nat2Z.id; apply firstn_app_len).
  set (s := (a ++ slash :: r)%list) in *.
  (* the quote that counts *)
  assert ((if (find_c qt1 s 0 =? -1)%Z then find_c qt2 s 0 else find_c qt1 s 0) = find_c q s 0 /\
          ((find_c q s 0 <> -1)%Z -> (if (negb (find_c qt1 s 0 =? -1) || (find_c qt2 s 0 =? -1))%Z then qt1 else qt2) = q)) as [E1 E2].
  { destruct Hq as [->| ->].
    - assert (lacks qt2 s) as L2 by (apply Hd; [now right|discriminate]). rewrite (find_c_none L2).
      split; [destruct (Z.eqb_spec (find_c qt1 s 0) (-1)); congruence|]. intros _. now rewrite orb_true_r.
    - assert (lacks qt1 s) as L1 by (apply Hd; [now left|discriminate]). rewrite (find_c_none L1).
      split; [reflexivity|]. intros N. change (-1 =? -1)%Z with true. cbn [negb orb]. destruct (Z.eqb_spec (find_c qt2 s 0) (-1)); [contradiction|reflexivity]. }
  rewrite E1. destruct (Z.eqb_spec (find_c q s 0) (-1)) as [D|D]; [cbn; exact F|]. rewrite (E2 D).
  (* position of the first quote *)
  destruct (split_char q a) as [(a1 & a2 & Ea & L1)|L1].
  - assert (find_c q s 0 = Z.of_nat (length a1)) as D1.
    { subst s. rewrite Ea, <- app_assoc. cbn [app]. now apply find_c_hit. }
    (* the quote is closed before the slash *)
    destruct (split_char q a2) as [(b1 & b2 & Eb & L2)|L2].
    + assert (find_c q s (find_c q s 0 + 1) = Z.of_nat (length a1 + 1 + length b1)) as D2.
      { rewrite D1. subst s. rewrite Ea, Eb.
        replace ((a1 ++ q :: b1 ++ q :: b2) ++ slash :: r)%list with ((a1 ++ [q]) ++ b1 ++ q :: b2 ++ slash :: r)%list
          by (rewrite <- !app_assoc; cbn; rewrite <- app_assoc; reflexivity).
        rewrite find_c_from; [lia | rewrite app_length; cbn; lia | assumption]. }
      rewrite D1 in *. rewrite D2.
      assert (length a = length a1 + 1 + length b1 + 1 + length b2) as La
        by (rewrite Ea, Eb, app_length; cbn [length]; rewrite app_length; cbn [length]; lia).
      assert (Z.of_nat (length a) <? (if (slen s >? Z.of_nat (length a1) + 1)%Z then Z.of_nat (length a1 + 1 + length b1)
                                      else Z.of_nat (length a1)) = false)%Z as ->.
      { apply Z.ltb_ge. destruct (slen s >? Z.of_nat (length a1) + 1)%Z; lia. }
      now rewrite andb_false_r, F.
    + exfalso. rewrite Ea, open_quote_app in Ho.
      assert (forall d, (d = qt1 \/ d = qt2) -> d <> q -> lacks d a1 /\ lacks d a2) as Hd2.
      { intros d D3 D4. specialize (Hd d D3 D4). subst s. rewrite Ea in Hd. rewrite !lacks_app, lacks_cons in Hd. tauto. }
      rewrite (@open_quote_free q None a1) in Ho; auto; [|intros; now apply Hd2].
      cbn [open_quote] in Ho.
      replace (Ascii.eqb q qt1 || Ascii.eqb q qt2) with true in Ho by (destruct Hq as [->| ->]; reflexivity).
      rewrite (@open_quote_free q (Some q) a2) in Ho; auto; [discriminate|]. intros; now apply Hd2.
  - assert (Z.of_nat (length a) <= find_c q s 0)%Z as G.
    { subst s. destruct (split_char q (slash :: r)) as [(b1 & b2 & Eb & L2)|L2].
      - rewrite Eb, app_assoc. rewrite find_c_hit; [rewrite app_length; lia|]. apply lacks_app. auto.
      - exfalso. apply D. apply find_c_none. apply lacks_app. auto. }
    assert (find_c q s 0 <? Z.of_nat (length a) = false)%Z as -> by (apply Z.ltb_ge; lia).
    now rewrite andb_false_r, F.
Qed.
(** A '/' between the first two quotes: the line is left alone. *)
Lemma clean_comment_quoted q a b c r : (q = qt1 \/ q = qt2) ->
  lacks qt1 a -> lacks qt2 a -> lacks slash a -> lacks q (b ++ c) -> lacks slash b ->
  (q = qt2 -> lacks qt1 (b ++ c ++ r)) ->
  clean_comment (a ++ q :: b ++ slash :: c ++ q :: r) = (a ++ q :: b ++ slash :: c ++ q :: r)%list.
Proof.
  intros Hq A1 A2 As Lq Ls H2. unfold clean_comment. set (s := (a ++ q :: b ++ slash :: c ++ q :: r)%list).
  assert (q <> slash) as Nq by (destruct Hq as [->| ->]; discriminate).
  assert (find_c slash s 0 = Z.of_nat (length a + 1 + length b)) as Es.
  { subst s. replace (a ++ q :: b ++ slash :: c ++ q :: r)%list with ((a ++ q :: b) ++ slash :: c ++ q :: r)%list
      by (rewrite <- app_assoc; reflexivity).
    rewrite find_c_hit; [rewrite app_length; cbn; lia|]. rewrite lacks_app, lacks_cons. auto. }
  assert (find_c q s 0 = Z.of_nat (length a)) as Eq.
  { subst s. apply find_c_hit. destruct Hq as [->| ->]; assumption. }
  rewrite Es. destruct (Z.eqb_spec (Z.of_nat (length a + 1 + length b)) (-1)); [reflexivity|].
  apply lacks_app in Lq. destruct Lq as [Lb Lc].
  assert (find_c q s (Z.of_nat (length a) + 1) = Z.of_nat (length a + 1 + length b + 1 + length c)) as E2.
  { subst s. replace (a ++ q :: b ++ slash :: c ++ q :: r)%list with ((a ++ [q]) ++ (b ++ slash :: c) ++ q :: r)%list
      by (rewrite <- !app_assoc; reflexivity).
    rewrite find_c_from; rewrite ?app_length; cbn [length]; try lia.
    rewrite lacks_app, lacks_cons. auto. }
  assert ((if (find_c qt1 s 0 =? -1)%Z then find_c qt2 s 0 else find_c qt1 s 0) = find_c q s 0 /\
          (if (negb (find_c qt1 s 0 =? -1) || (find_c qt2 s 0 =? -1))%Z then qt1 else qt2) = q) as [X1 X2].
  { destruct Hq as [->| ->].
    - rewrite Eq. destruct (Z.eqb_spec (Z.of_nat (length a)) (-1)); [lia|]. auto.
    - assert (lacks qt1 s) as L1.
      { subst s. specialize (H2 eq_refl). rewrite !lacks_app in H2. rewrite lacks_app, lacks_cons, lacks_app, lacks_cons, lacks_app, lacks_cons.
        repeat split; try tauto; discriminate. }
      rewrite (find_c_none L1), Eq. change (-1 =? -1)%Z with true. cbn [negb orb]. destruct (Z.eqb_spec (Z.of_nat (length a)) (-1)); [lia|]. auto. }
  rewrite X1, X2, Eq, E2. destruct (Z.eqb_spec (Z.of_nat (length a)) (-1)); [lia|].
  assert (slen s >? Z.of_nat (length a) + 1 = true)%Z as ->.
  { unfold slen. subst s. rewrite !app_length. cbn [length]. rewrite !app_length. cbn [length].
    rewrite app_length. cbn [length]. apply Z.gtb_lt. lia. }
  destruct (Z.eqb_spec (Z.of_nat (length a + 1 + length b + 1 + length c)) (-1)); [lia|].
  destruct (Z.ltb_spec (Z.of_nat (length a)) (Z.of_nat (length a + 1 + length b))); [|lia].
  destruct (Z.ltb_spec (Z.of_nat (length a + 1 + length b)) (Z.of_nat (length a + 1 + length b + 1 + length c))); [|lia].
  reflexivity.
Qed.

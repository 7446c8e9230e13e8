From Verif Require Import Prelude GAModel GAProofs StrModel StrSpec StrProofs StrProofs2 StrProofs3 DCModel DCSpec DCProofs RecModel RecSpec
  RecProofs RecProofs2 XpModel XpSpec XpProofs XpProofs2.
From Coq Require Import Ascii Nnat.
Open Scope nat_scope.

(** ** Tokens *)
Definition tok_ok (t : str) : Prop := field t /\ lacks ","%char t /\ lacks "/"%char t.
Lemma plain_lacks t c : plain_text t -> ~ plain_char c -> lacks c t.
Proof. intros [_ F] N X. apply N. rewrite Forall_forall in F. now apply F. Qed.
Ltac notplain := unfold plain_char; intuition congruence.
Lemma plain_tok t : plain_text t -> tok_ok t.
Proof.
  intros H. assert (forall c, ~ plain_char c -> lacks c t) as L by (intros c; now apply plain_lacks).
  split; [|split; apply L; notplain]. left. split; [apply L; notplain|]. split; [apply L; notplain|].
  destruct H as [Hne F]. destruct t as [|c r]; [contradiction|]. inversion F as [|? ? P _]; subst. unfold plain_char in P. split.
  - exists c, r. intuition.
  - exists c. split; [now left|intuition].
Qed.
Definition plain_charb (c : ascii) : bool :=
  forallb (fun d => negb (Ascii.eqb c d)) [sp; tab; ","%char; "/"%char; qt1; qt2; cr; lf].
Lemma plain_textb t : t <> [] -> forallb plain_charb t = true -> plain_text t.
Proof.
  intros H F. split; [exact H|]. rewrite forallb_forall in F. apply Forall_forall. intros c Hc. specialize (F c Hc).
  unfold plain_charb in F. rewrite forallb_forall in F.
  assert (forall d, In d [sp; tab; ","%char; "/"%char; qt1; qt2; cr; lf] -> c <> d) as X.
  { intros d Hd E. specialize (F d Hd). subst. rewrite Ascii.eqb_refl in F. discriminate. }
  unfold plain_char. repeat split; apply X; cbn; tauto.
Qed.
Lemma digit_plain n : (n < 10)%N -> plain_char (digit n).
Proof. intros H. unfold plain_char. repeat split; apply digit_not; auto; left; cbn; lia. Qed.
Lemma digits_plain f : forall n acc, Forall plain_char (s_ acc) -> Forall plain_char (s_ (digits f n acc)).
Proof.
  induction f as [|f IH]; intros n acc H; [exact H|]. cbn [digits].
  assert (Forall plain_char (s_ (String (digit (n mod 10)) acc))) as G.
  { cbn. constructor; [apply digit_plain; apply N.mod_lt; discriminate|exact H]. }
  destruct (n <? 10)%N; [exact G|now apply IH].
Qed.
Lemma digits_some f : forall n acc, acc <> EmptyString -> digits f n acc <> EmptyString.
Proof. induction f as [|f IH]; intros n acc H; [exact H|]. cbn [digits]. destruct (n <? 10)%N; [discriminate|apply IH; discriminate]. Qed.
Lemma digits_some' f n acc : digits (S f) n acc <> EmptyString.
Proof. cbn [digits]. destruct (n <? 10)%N; [discriminate|apply digits_some; discriminate]. Qed.
Lemma dec_plain z : plain_text (s_ (dec z)).
Proof.
  assert (forall m, plain_text (s_ (digits 10 m EmptyString))) as D.
  { intros m. split; [|apply digits_plain; constructor]. intros E. pose proof (digits_some' 9 m EmptyString) as N.
    destruct (digits 10 m EmptyString); [now apply N|discriminate]. }
  unfold dec. destruct (z <? 0)%Z; [|apply D]. destruct (D (Z.to_N (- z))) as [_ F]. split; [discriminate|]. cbn. constructor; [|exact F].
  unfold plain_char. repeat split; discriminate.
Qed.
Lemma digits_head f : forall n acc, (0 < n < 10 ^ N.of_nat f)%N -> exists k r, (0 < k < 10)%N /\ digits f n acc = String (digit k) r.
Proof.
  induction f as [|f IH]; intros n acc H; [cbn in H; lia|]. cbn [digits]. destruct (N.ltb_spec n 10).
  - exists n, acc. split; [lia|]. now rewrite N.mod_small by assumption.
  - apply IH. assert (n / 10 < 10 ^ N.of_nat f)%N.
    { apply N.div_lt_upper_bound; [lia|]. rewrite Nnat.Nat2N.inj_succ, N.pow_succ_r' in H. lia. }
    assert (0 < n / 10)%N by (apply N.div_str_pos; lia). lia.
Qed.
Lemma dec_head z : (1 <= z <= 2147483647)%Z -> exists k r, (0 < k < 10)%N /\ s_ (dec z) = digit k :: r.
Proof.
  intros H. unfold dec. destruct (Z.ltb_spec z 0); [lia|].
  destruct (@digits_head 10 (Z.to_N z) EmptyString) as (k & r & Hk & E).
  { change (10 ^ N.of_nat 10)%N with 10000000000%N. lia. }
  exists k, (s_ r). split; [exact Hk|]. rewrite E. reflexivity.
Qed.
Lemma pos_is_int z : (1 <= z <= 2147483647)%Z -> is_int z = true.
Proof. intros H. unfold is_int. apply andb_true_iff. split; apply Z.leb_le; lia. Qed.
Lemma plain_ident i : plain_text i -> ident i.
Proof. intros [H F]. split; [exact H|]. eapply Forall_impl; [|exact F]. intros c P. unfold plain_char in P. intuition. Qed.
Lemma canonical_pad i : plain_text i -> exists b, canonical i = (i ++ repeat sp b)%list.
Proof.
  intros [H _]. destruct i as [|a [|b r]]; [contradiction|exists 1; reflexivity|exists 0; cbn; now rewrite app_nil_r].
Qed.
Lemma tag_tok i : plain_text i -> tok_ok (quote (canonical i)) /\ clean2char (quote (canonical i)) = Ok (canonical i).
Proof.
  intros H. destruct (canonical_pad H) as (b & E). split.
  - assert (forall c, ~ plain_char c -> c <> sp -> lacks c (canonical i)) as L.
    { intros c Nc Ns. rewrite E. apply lacks_app. split; [now apply plain_lacks|]. apply lacks_repeat. congruence. }
    unfold tok_ok, quote. split.
    + right. exists qt1. split; [now left|]. exists (canonical i). split; [reflexivity|]. split; apply L; try notplain; discriminate.
    + split; intros [X|X]; try discriminate; apply in_app_iff in X as [X|[X|[]]]; try discriminate; revert X; apply L; try notplain; discriminate.
  - apply (clean2char_spelling (plain_ident H)). unfold quote. rewrite E, <- app_assoc.
    exact (@sp_quoted i qt1 0 0 b 0 (or_introl eq_refl)).
Qed.

(** ** Lines *)
Definition render (bt : nat * str) : str := (blanks (fst bt) ++ snd bt)%list.
Lemma commas_join ps : commas ps = join ","%char ps.
Proof. induction ps as [|p [|q r] IH]; [reflexivity|reflexivity|]. cbn [commas join] in *. now rewrite IH. Qed.
Lemma gap_blanks n : gap (blanks n).
Proof. unfold gap, all_of, blanks. induction n; cbn; constructor; auto. Qed.
Lemma split_render toks : toks <> [] -> Forall (fun bt => field (snd bt) /\ lacks ","%char (snd bt)) toks ->
  split_of (commas (map render toks)) = Ok (map snd toks).
Proof.
  intros Hne F. set (ps := map (fun bt => Fields [(blanks (fst bt), snd bt)] []) toks).
  assert (map render toks = map piece_text ps) as E.
  { unfold ps. rewrite map_map. apply map_ext. intros (b, t). cbn. unfold render. cbn. now rewrite !app_nil_r. }
  assert (flat_map piece_tokens ps = map snd toks) as E2.
  { unfold ps. clear. induction toks as [|t r IH]; [reflexivity|]. cbn. now rewrite IH. }
  rewrite commas_join, E. unfold split_of. rewrite split_line_pieces; [now rewrite E2| | |lia].
  - unfold ps. destruct toks; [contradiction|discriminate].
  - unfold ps. apply Forall_forall. intros p Hp. apply in_map_iff in Hp as ((b, t) & <- & Ht).
    apply (proj1 (Forall_forall _ _) F) in Ht. cbn in *. destruct Ht as [Hf Hl]. split; [discriminate|]. split.
    + split; [constructor; [split; [apply gap_blanks|exact Hf]|constructor]|]. split; [constructor|constructor].
    + cbn. rewrite !app_nil_r. apply lacks_app. split; [|exact Hl]. apply lacks_repeat. discriminate.
Qed.
Lemma lacks_commas c ps : c <> ","%char -> Forall (lacks c) ps -> lacks c (commas ps).
Proof.
  intros Hc F. induction F as [|p [|q r] Hp _ IH]; cbn [commas]; [intros []|exact Hp|].
  apply lacks_app. split; [exact Hp|]. intros [X|X]; [congruence|]. exact (IH X).
Qed.
(** A line whose first field is a positive number. *)
Lemma line_start z r toks : (1 <= z <= 2147483647)%Z ->
  let l := commas (map render ((0, s_ (dec z)) :: r :: toks)) in test_end l = true /\ check_comment l = false.
Proof.
  intros Hz l. destruct (dec_head Hz) as (k & u & Hk & E). assert (exists w, l = digit k :: w) as (w & El).
  { unfold l. cbn [map]. change (render (0, s_ (dec z))) with (s_ (dec z)). rewrite E. cbn [commas app]. eexists. reflexivity. }
  rewrite El. assert (forall c, nat_of_ascii c < 49 \/ 57 < nat_of_ascii c -> Ascii.eqb (digit k) c = false) as N.
  { intros c Hc. apply Ascii.eqb_neq. intros X. rewrite <- X, digit_char in Hc by lia. lia. }
  split.
  - unfold test_end. rewrite (N term_char) by (left; cbn; lia).
    assert (drop_while (Ascii.eqb sp) (digit k :: w) = digit k :: w) as ->.
    { cbn [drop_while]. rewrite Ascii.eqb_sym, (N sp) by (left; cbn; lia). reflexivity. }
    rewrite (N term_char) by (left; cbn; lia). reflexivity.
  - unfold check_comment. assert (drop_while (Ascii.eqb sp) (digit k :: w) = digit k :: w) as ->.
    { cbn [drop_while]. rewrite Ascii.eqb_sym, (N sp) by (left; cbn; lia). reflexivity. }
    destruct w as [|y w]; [reflexivity|]. rewrite (N slash) by (left; cbn; lia). rewrite (N "@"%char) by (right; cbn; lia). reflexivity.
Qed.
Lemma record_of_tokens z r toks : (1 <= z <= 2147483647)%Z -> Forall (fun bt => tok_ok (snd bt)) (r :: toks) ->
  record_line (commas (map render ((0, s_ (dec z)) :: r :: toks))) (s_ (dec z) :: snd r :: map snd toks).
Proof.
  intros Hz F. destruct (line_start (z := z) r toks Hz) as [T C]. split; [exact T|]. split; [exact C|].
  assert (Forall (fun bt => tok_ok (snd bt)) ((0, s_ (dec z)) :: r :: toks)) as G.
  { constructor; [|exact F]. apply plain_tok, dec_plain. }
  rewrite clean_comment_none.
  - rewrite split_render; [reflexivity|discriminate|]. eapply Forall_impl; [|exact G]. cbn beta. intros bt (H1 & H2 & _). auto.
  - apply lacks_commas; [discriminate|]. apply Forall_forall. intros p Hp. apply in_map_iff in Hp as (bt & <- & Hb).
    apply (proj1 (Forall_forall _ _) G) in Hb. destruct Hb as (_ & _ & Hs). unfold render. apply lacks_app. split; [|exact Hs].
    apply lacks_repeat. discriminate.
Qed.
Lemma tok_nonblank t : tok_ok t -> exists c, In c t /\ c <> sp.
Proof.
  intros ([W|(q & Q)] & _).
  - destruct W as (L & _ & (c & r & E & _) & _). exists c. subst. split; [now left|]. intros ->. apply L. now left.
  - destruct Q as (Hq & b & -> & _). exists q. split; [now left|]. destruct Hq as [-> | ->]; discriminate.
Qed.

(** ** Reading entries *)
Lemma look_type d t s v : look d t s = Some v -> type_of v = t.
Proof.
  unfold look, get_value. destruct (key_of s); cbn [obind]; try discriminate.
  destruct t; cbn [find_key];
    repeat match goal with |- context [option_map _ ?m] => destruct m; cbn [option_map] end; intros H; inversion H; reflexivity.
Qed.
Lemma key_good r j : slot_good (slot_of r j) = true -> forall d t, ask d t r j = Ok (look d t (slot_of r j)).
Proof.
  intros G d t. unfold ask, look, get_value. rewrite slot_good_key by exact G. cbn [obind].
  now destruct (find_key d t (slot_key (slot_of r j))).
Qed.
Lemma good_at name j : (0 <= j <= 9999999)%Z -> no_colon name = true -> slot_good (slot_of (At name) j) = true.
Proof.
  intros H N. unfold slot_good. cbn. rewrite N, andb_true_r. apply andb_true_iff. split; apply Z.leb_le; lia.
Qed.
Lemma good_of name j : no_colon name = true -> slot_good (slot_of (Of name) j) = true.
Proof. intros N. unfold slot_good. cbn. exact N. Qed.

Section P.
Variable atof : str -> Z.
Variable fmt : Z -> str.
Hypothesis fmt_plain : forall x, plain_text (fmt x).
Variables (d : dc) (orig j : Z).
Notation print := (print fmt d orig j).

Lemma print_int b r rs df z : slot_good (slot_of r j) = true -> look d TInt (slot_of r j) = Some (VInt z) ->
  print (XInt b (r :: rs) df) = Ok [render (b, s_ (dec z))].
Proof. intros G L. cbn [XpModel.print ask_first]. rewrite key_good by exact G. cbn [obind]. rewrite L. reflexivity. Qed.
Lemma print_tag name df s : slot_good (Indexed name j) = true -> look d TString (Indexed name j) = Some (VString s) ->
  print (XTag name df) = Ok [render (1, quote (s_ s))].
Proof. intros G L. cbn [XpModel.print]. rewrite (@key_good (At name)) by exact G. cbn [obind slot_of]. rewrite L. reflexivity. Qed.
Lemma print_dbl r rs df x : slot_good (slot_of r j) = true -> look d TDouble (slot_of r j) = Some (VDouble x) ->
  print (XDbl (r :: rs) df) = Ok [render (1, fmt x)].
Proof. intros G L. cbn [XpModel.print ask_first]. rewrite key_good by exact G. cbn [obind]. rewrite L. reflexivity. Qed.
Lemma print_dbl2 r1 r2 df x : slot_good (slot_of r1 j) = true -> slot_good (slot_of r2 j) = true ->
  look d TDouble (slot_of r1 j) = None -> look d TDouble (slot_of r2 j) = Some (VDouble x) ->
  print (XDbl [r1; r2] df) = Ok [render (1, fmt x)].
Proof.
  intros G1 G2 L1 L2. cbn [XpModel.print ask_first]. rewrite key_good by exact G1. cbn [obind]. rewrite L1.
  rewrite key_good by exact G2. cbn [obind]. rewrite L2. reflexivity.
Qed.
Lemma print_any r s : slot_good (slot_of r j) = true -> plain_text s -> exists t, plain_text t /\ print (XDbl [r] (Some s)) = Ok [render (1, t)].
Proof.
  intros G P. cbn [XpModel.print ask_first]. rewrite key_good by exact G. cbn [obind].
  destruct (look d TDouble (slot_of r j)) as [v|] eqn:E.
  - pose proof (look_type _ _ _ E) as T. destruct v; try discriminate. eexists. split; [apply fmt_plain|reflexivity].
  - exists s. split; [exact P|reflexivity].
Qed.
Lemma print_int_any b r1 r2 z : slot_good (slot_of r1 j) = true -> slot_good (slot_of r2 j) = true ->
  exists t, plain_text t /\ print (XInt b [r1; r2] (Const z)) = Ok [render (b, t)].
Proof.
  intros G1 G2. cbn [XpModel.print ask_first]. rewrite (key_good _ _ G1). cbn [obind].
  destruct (look d TInt (slot_of r1 j)) as [v|] eqn:E1.
  - pose proof (look_type _ _ _ E1) as T. destruct v; try discriminate. eexists. split; [apply dec_plain|reflexivity].
  - rewrite (key_good _ _ G2). cbn [obind]. destruct (look d TInt (slot_of r2 j)) as [v|] eqn:E2.
    + pose proof (look_type _ _ _ E2) as T. destruct v; try discriminate. eexists. split; [apply dec_plain|reflexivity].
    + eexists. split; [apply dec_plain|reflexivity].
Qed.
Lemma print_over name over df x : slot_good (Indexed name j) = true -> slot_good (Indexed over j) = true ->
  look d TDouble (Indexed name j) = Some (VDouble x) ->
  exists y, print (XOver name over df) = Ok [render (1, fmt y)] /\
    Some (VDouble y) = match look d TDouble (Indexed over j) with Some v => Some v | None => look d TDouble (Indexed name j) end.
Proof.
  intros G1 G2 L. cbn [XpModel.print]. rewrite (@key_good (At name)) by exact G1. cbn [obind slot_of]. rewrite L.
  rewrite (@key_good (At over)) by exact G2. cbn [obind slot_of]. destruct (look d TDouble (Indexed over j)) as [v|] eqn:E.
  - pose proof (look_type _ _ _ E) as T. destruct v; try discriminate. eexists. split; reflexivity.
  - eexists. split; reflexivity.
Qed.
Lemma print_cpx name re im x y : slot_good (Indexed name j) = true -> look d TComplex (Indexed name j) = Some (VComplex x y) ->
  print (XCpx name re im) = Ok [render (1, fmt x); render (1, fmt y)].
Proof. intros G L. cbn [XpModel.print]. rewrite (@key_good (At name)) by exact G. cbn [obind slot_of]. rewrite L. reflexivity. Qed.
Lemma print_lit t : print (XLit t) = Ok [t].
Proof. reflexivity. Qed.
Lemma print_own name fname : slot_good (Indexed name j) = true -> slot_good (Indexed fname j) = true ->
  look d TDouble (Indexed fname j) = None -> print (XOwn name fname) = Ok [].
Proof.
  intros G1 G2 L. cbn [XpModel.print]. rewrite (@key_good (At name)) by exact G1. cbn [obind slot_of].
  destruct (look d TInt (Indexed name j)) as [[]|]; try reflexivity.
  rewrite (@key_good (At fname)) by exact G2. cbn [obind slot_of]. now rewrite L.
Qed.
Lemma pieces_nil : pieces fmt d orig j [] = Ok [].
Proof. reflexivity. Qed.
Lemma pieces_cons x xs a b : print x = Ok a -> pieces fmt d orig j xs = Ok b -> pieces fmt d orig j (x :: xs) = Ok (a ++ b)%list.
Proof.
  unfold pieces. cbn [map oall]. intros -> H. cbn [obind]. destruct (oall (map print xs)); cbn [obind] in *; inversion H. reflexivity.
Qed.

(** ** Entries as text *)
Lemma int_entry s : (exists v, look d TInt s = Some v /\ writable v) ->
  exists z, look d TInt s = Some (VInt z) /\ atoi (s_ (dec z)) = Ok z.
Proof.
  intros (v & L & W). pose proof (look_type _ _ _ L) as T. destruct v as [z| | | | | |]; try discriminate. exists z. split; [exact L|].
  now apply (dec_text z W).
Qed.
Lemma dbl_entry s : (exists v, look d TDouble s = Some v /\ writable v) -> exists x, look d TDouble s = Some (VDouble x).
Proof. intros (v & L & W). pose proof (look_type _ _ _ L) as T. destruct v; try discriminate. eauto. Qed.
Lemma cpx_entry s : (exists v, look d TComplex s = Some v /\ writable v) -> exists x y, look d TComplex s = Some (VComplex x y).
Proof. intros (v & L & W). pose proof (look_type _ _ _ L) as T. destruct v; try discriminate. eauto. Qed.
Lemma tag_entry s : (exists v, look d TString s = Some v /\ writable v) ->
  exists g, look d TString s = Some (VString g) /\ tok_ok (quote (s_ g)) /\ clean2char (quote (s_ g)) = Ok (s_ g).
Proof.
  intros (v & L & W). pose proof (look_type _ _ _ L) as T. destruct v as [| | |g| | |]; try discriminate. exists g. split; [exact L|].
  destruct W as (i & P & E). rewrite E. now apply tag_tok.
Qed.
End P.

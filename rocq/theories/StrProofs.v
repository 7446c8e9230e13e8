(** Proofs about the text functions. *)
From Verif Require Import Prelude StrModel StrSpec.
From Coq Require Import Ascii.

(** ** Searching *)
Lemma findn_app p a c r : forallb (fun x => negb (p x)) a = true -> p c = true -> findn p (a ++ c :: r) = Some (length a).
Proof.
  induction a as [|x a IH]; cbn [app forallb findn length]; intros H Hc; [now rewrite Hc|].
  apply andb_true_iff in H. destruct H as [H1 H2]. apply negb_true_iff in H1. rewrite H1, IH; auto.
Qed.
Lemma findn_none p a : forallb (fun x => negb (p x)) a = true -> findn p a = None.
Proof.
  induction a as [|x a IH]; cbn [forallb findn]; intros H; [reflexivity|].
  apply andb_true_iff in H. destruct H as [H1 H2]. apply negb_true_iff in H1. rewrite H1, IH; auto.
Qed.
Lemma findn_some p s k : findn p s = Some k ->
  exists a c r, s = (a ++ c :: r)%list /\ length a = k /\ p c = true /\ forallb (fun x => negb (p x)) a = true.
Proof.
  revert k. induction s as [|x s IH]; cbn [findn]; intros k H; [discriminate|].
  destruct (p x) eqn:E.
  - inversion H. now exists [], x, s.
  - destruct (findn p s) as [j|] eqn:F; cbn in H; [|discriminate]. inversion H; subst.
    destruct (IH j eq_refl) as (a & c & r & -> & <- & Hc & Ha). exists (x :: a), c, r.
    cbn. rewrite E, Ha. auto.
Qed.
Lemma findn_none_inv p s : findn p s = None -> forallb (fun x => negb (p x)) s = true.
Proof.
  induction s as [|x s IH]; cbn [findn forallb]; intros H; [reflexivity|].
  destruct (p x); [discriminate|]. destruct (findn p s); [discriminate|]. cbn. auto.
Qed.

Lemma skipn_app_len {A} (a b : list A) : skipn (length a) (a ++ b)%list = b.
Proof. induction a; cbn; auto. Qed.
Lemma firstn_app_len {A} (a b : list A) : firstn (length a) (a ++ b)%list = a.
Proof. induction a; cbn; [now destruct b | now rewrite IHa]. Qed.

Lemma find_if_hit p pre a c r i : i = Z.of_nat (length pre) ->
  forallb (fun x => negb (p x)) a = true -> p c = true ->
  find_if p (pre ++ a ++ c :: r)%list i = (i + Z.of_nat (length a))%Z.
Proof.
  intros -> H Hc. unfold find_if. destruct (Z.ltb_spec (Z.of_nat (length pre)) 0); [lia|].
  rewrite Nat2Z.id, skipn_app_len, findn_app; auto.
Qed.
Lemma find_if_miss p pre a i : i = Z.of_nat (length pre) ->
  forallb (fun x => negb (p x)) a = true -> find_if p (pre ++ a)%list i = (-1)%Z.
Proof.
  intros -> H. unfold find_if. destruct (Z.ltb_spec (Z.of_nat (length pre)) 0); [lia|].
  rewrite Nat2Z.id, skipn_app_len, findn_none; auto.
Qed.
Lemma find_if_cases p s i : (0 <= i)%Z ->
  (find_if p s i = -1 \/ (i <= find_if p s i < slen s))%Z.
Proof.
  intros Hi. unfold find_if. destruct (Z.ltb_spec i 0); [lia|].
  destruct (findn p (skipn (Z.to_nat i) s)) as [k|] eqn:E; [right|now left].
  apply findn_some in E. destruct E as (a & c & r & E & <- & _).
  assert (length (skipn (Z.to_nat i) s) = length a + S (length r)) as L by (rewrite E, app_length; reflexivity).
  rewrite skipn_length in L. unfold slen. lia.
Qed.
(** The character at a position found. *)
Lemma find_if_at p s i : (0 <= i)%Z -> (find_if p s i <> -1)%Z ->
  exists c, nth_error s (Z.to_nat (find_if p s i)) = Some c /\ p c = true.
Proof.
  intros Hi. unfold find_if. destruct (Z.ltb_spec i 0); [lia|].
  destruct (findn p (skipn (Z.to_nat i) s)) as [k|] eqn:E; [intros _ | lia].
  apply findn_some in E. destruct E as (a & c & r & E & <- & Hc & _).
  exists c. split; [|exact Hc].
  replace (Z.to_nat (i + Z.of_nat (length a))) with (Z.to_nat i + length a) by lia.
  rewrite <- (firstn_skipn (Z.to_nat i) s), E.
  assert (length (skipn (Z.to_nat i) s) = length a + S (length r)) as L by (rewrite E, app_length; reflexivity).
  rewrite skipn_length in L.
  rewrite nth_error_app2; rewrite firstn_length; [|lia].
  replace (Z.to_nat i + length a - Nat.min (Z.to_nat i) (length s)) with (length a) by lia.
  rewrite nth_error_app2 by lia. now rewrite Nat.sub_diag.
Qed.

Lemma substr_mid pre t post pos n : pos = Z.of_nat (length pre) -> n = Z.of_nat (length t) ->
  substr (pre ++ t ++ post)%list pos n = Ok t.
Proof.
  intros -> ->. unfold substr, slen. rewrite !app_length.
  destruct (Z.ltb_spec (Z.of_nat (length pre)) 0); [lia|].
  destruct (Z.ltb_spec (Z.of_nat (length pre + (length t + length post))) (Z.of_nat (length pre))); [lia|].
  destruct (Z.ltb_spec (Z.of_nat (length t)) 0); [lia|]. cbn [orb].
  now rewrite !Nat2Z.id, skipn_app_len, firstn_app_len.
Qed.
Lemma at_mid pre c r i : i = Z.of_nat (length pre) -> at_ (pre ++ c :: r)%list i = Ok c.
Proof.
  intros ->. unfold at_. destruct (Z.ltb_spec (Z.of_nat (length pre)) 0); [lia|].
  now rewrite Nat2Z.id, nth_error_app2, Nat.sub_diag by lia.
Qed.

Lemma eqb_neq_forall c s : lacks c s -> forallb (fun x => negb (Ascii.eqb x c)) s = true.
Proof.
  intros H. apply forallb_forall. intros x Hx. destruct (Ascii.eqb_spec x c) as [->|]; [contradiction|reflexivity].
Qed.
Lemma eqb_all_forall c s : all_of (eq c) s -> forallb (fun x => negb (negb (Ascii.eqb x c))) s = true.
Proof.
  intros H. apply forallb_forall. intros x Hx. rewrite (proj1 (Forall_forall _ _) H x Hx).
  now rewrite Ascii.eqb_refl.
Qed.
Lemma all_repeat c n : all_of (eq c) (repeat c n).
Proof. apply Forall_forall. intros x H. now apply repeat_spec in H. Qed.

(** ** Tokens *)
Definition detab (s : str) : str := map (fun c => if Ascii.eqb c tab then sp else c) s.
Lemma detab_app a b : detab (a ++ b) = (detab a ++ detab b)%list.
Proof. apply map_app. Qed.
Lemma detab_gap s : gap s -> detab s = repeat sp (length s).
Proof.
  induction 1 as [|c s Hc _ IH]; [reflexivity|]. cbn [detab map length repeat]. unfold detab in IH. rewrite IH.
  f_equal. destruct Hc as [->| ->]; reflexivity.
Qed.
Lemma detab_id s : lacks tab s -> detab s = s.
Proof.
  intros H. unfold detab. rewrite <- (map_id s) at 2. apply map_ext_in. intros c Hc.
  destruct (Ascii.eqb_spec c tab); [subst; contradiction|reflexivity].
Qed.
Lemma field_no_tab t : field t -> lacks tab t.
Proof.
  intros [(_ & H & _)|(q & Hq & b & -> & _ & H)]; [exact H|].
  intros [E|E]; [|apply in_app_or in E; destruct E as [E|[E|[]]]]; try contradiction;
  destruct Hq as [->| ->]; discriminate.
Qed.
Lemma field_head t : field t -> exists c r, t = c :: r /\ c <> sp.
Proof.
  intros [(H & _ & (c & r & -> & _) & _)|(q & Hq & b & -> & _)].
  - exists c, r. split; [reflexivity|]. intros ->. apply H. now left.
  - exists q, (b ++ [q])%list. split; [reflexivity|]. destruct Hq as [->| ->]; discriminate.
Qed.
Lemma detab_write fs trail : well_written fs trail ->
  detab (write fs trail) = write (map (fun f => (repeat sp (length (fst f)), snd f)) fs) (repeat sp (length trail)).
Proof.
  intros (H & _ & Ht). unfold write. rewrite detab_app, (detab_gap Ht). f_equal.
  induction H as [|f fs [Hg Hf] _ IH]; [reflexivity|]. cbn [flat_map map fst snd].

  now rewrite !detab_app, IH, (detab_gap Hg), (detab_id (field_no_tab Hf)).
Qed.

Lemma tok_end_field pre t r first : field t -> (exists r', r = sp :: r') \/ r = [] ->
  exists c t', t = c :: t' /\
  tok_end first (pre ++ t ++ r)%list (Z.of_nat (length pre)) c = Z.of_nat (length pre + length t).
Proof.
  intros Hf Hr. destruct Hf as [(Hs & _ & (c & t' & -> & N1 & N2) & _)|(q & Hq & b & -> & Hb & _)].
  - exists c, t'. split; [reflexivity|]. unfold tok_end.
    destruct (Ascii.eqb_spec c qt1); [contradiction|]. destruct (Ascii.eqb_spec c qt2); [contradiction|]. cbn [orb].
    destruct Hr as [(r' & ->)| ->].
    + unfold find_c. rewrite (@find_if_hit _ pre (c :: t') sp r') by (auto using eqb_neq_forall).
      destruct (Z.eqb_spec (Z.of_nat (length pre) + Z.of_nat (length (c :: t'))) (-1)); lia.
    + unfold find_c. rewrite app_nil_r, (@find_if_miss _ pre (c :: t')) by (auto using eqb_neq_forall).
      cbn [Z.eqb]. unfold slen. rewrite app_length. reflexivity.
  - exists q, (b ++ [q])%list. split; [reflexivity|]. unfold tok_end.
    assert (Ascii.eqb q qt1 || Ascii.eqb q qt2 = true) as -> by (destruct Hq as [->| ->]; reflexivity).
    assert (find_c q (pre ++ (q :: b ++ [q]) ++ r)%list (Z.of_nat (length pre) + 1)%Z
            = (Z.of_nat (length pre) + 1 + Z.of_nat (length b))%Z) as E.
    { unfold find_c. replace (pre ++ (q :: b ++ [q]) ++ r)%list with ((pre ++ [q]) ++ b ++ q :: r)%list
        by (rewrite <- !app_assoc; cbn; rewrite <- app_assoc; reflexivity).
      apply find_if_hit; [rewrite app_length; cbn; lia | now apply eqb_neq_forall | apply Ascii.eqb_refl]. }
    rewrite E. cbn [length]. rewrite app_length. cbn [length].
    destruct first; [lia|]. destruct (Z.eqb_spec (Z.of_nat (length pre) + 1 + Z.of_nat (length b)) (-1)); lia.
Qed.

Lemma field_kept t : field t -> negb (find_not sp t 0 =? -1)%Z && negb (find_not cr t 0 =? -1)%Z = true.
Proof.
  intros Hf.
  assert (forall d, (exists c, In c t /\ c <> d) -> negb (find_not d t 0 =? -1)%Z = true) as G.
  { intros d (c & Hc & N). unfold find_not, find_if. cbn [Z.ltb Z.compare]. change (Z.to_nat 0) with 0. cbn [skipn].
    destruct (findn _ t) as [k|] eqn:E; [apply negb_true_iff, Z.eqb_neq; lia|].
    apply findn_none_inv in E. rewrite forallb_forall in E. specialize (E c Hc).
    destruct (Ascii.eqb_spec c d); [contradiction|discriminate]. }
  rewrite !G; [reflexivity| |].
  - destruct Hf as [(_ & _ & _ & H)|(q & Hq & b & -> & _)]; [exact H|].
    exists q. split; [now left|]. destruct Hq as [->| ->]; discriminate.
  - destruct (field_head Hf) as (c & r & -> & N). exists c. split; [now left|exact N].
Qed.

Lemma tok_loop_fields fs : forall pre trail n1 fuel,
  Forall (fun f => fst f <> [] /\ all_of (eq sp) (fst f) /\ field (snd f)) fs -> all_of (eq sp) trail ->
  (0 <= n1)%Z -> length fs + 2 <= fuel ->
  tok_loop fuel (pre ++ write fs trail)%list n1 (Z.of_nat (length pre)) = Some (Ok (map snd fs)).
Proof.
  induction fs as [|[g t] fs IH]; intros pre trail n1 fuel H Ht Hn Hf.
  - unfold write. cbn [flat_map app map]. destruct fuel as [|[|fuel]]; [cbn in Hf; lia..|]. cbn [tok_loop].
    destruct (Z.eqb_spec n1 (-1)); [lia|]. rewrite andb_true_r.
    destruct (Z.ltb_spec (Z.of_nat (length pre)) (slen (pre ++ trail) - 1)); [|reflexivity].
    unfold find_not. rewrite (@find_if_miss _ pre trail) by (auto using eqb_all_forall). cbn [Z.eqb].
    cbn [tok_loop]. change (-1 =? -1)%Z with true. cbn [negb]. now rewrite andb_false_r.
  - inversion H as [|? ? (Hg0 & Hg & Hft) H']; subst. cbn [fst snd] in *.
    destruct fuel as [|fuel]; [lia|]. cbn [tok_loop].
    destruct (Z.eqb_spec n1 (-1)); [lia|]. rewrite andb_true_r.
    destruct (field_head Hft) as (c & t' & Et & Nc).
    assert (pre ++ write ((g, t) :: fs) trail = pre ++ g ++ t ++ write fs trail)%list as W
      by (unfold write; cbn [flat_map fst snd]; now rewrite <- !app_assoc).
    rewrite W. set (rest := write fs trail).
    assert (0 < length g) by (destruct g; [contradiction | cbn; lia]).
    destruct (Z.ltb_spec (Z.of_nat (length pre)) (slen (pre ++ g ++ t ++ rest) - 1)) as [L|L];
      [|unfold slen in L; rewrite !app_length, Et in L; cbn [length] in L; lia].
    assert (find_not sp (pre ++ g ++ t ++ rest)%list (Z.of_nat (length pre)) = Z.of_nat (length (pre ++ g))) as F.
    { unfold find_not. rewrite Et. cbn [app]. rewrite (@find_if_hit _ pre g c (t' ++ rest)%list); auto using eqb_all_forall.
      - rewrite app_length. lia.
      - destruct (Ascii.eqb_spec c sp); [contradiction|reflexivity]. }
    rewrite F. destruct (Z.eqb_spec (Z.of_nat (length (pre ++ g))) (-1)); [lia|].
    rewrite app_assoc.
    assert ((exists r', rest = sp :: r') \/ rest = []) as Hr.
    { subst rest. destruct fs as [|[g2 t2] fs].
      - cbn. destruct trail as [|x trail]; [now right|]. left. inversion Ht; subst. eexists; reflexivity.
      - left. inversion H' as [|? ? (G0 & G1 & _) _]; subst. cbn [fst] in *. destruct g2 as [|x g2]; [contradiction|].
        inversion G1; subst. eexists. reflexivity. }
    destruct (@tok_end_field (pre ++ g)%list t rest false Hft Hr) as (c0 & t0 & Et0 & TE).
    rewrite Et in Et0. inversion Et0; subst c0 t0. clear Et0.
    assert (at_ ((pre ++ g) ++ t ++ rest)%list (Z.of_nat (length (pre ++ g))) = Ok c) as ->
      by (rewrite Et; cbn [app]; now apply at_mid).
    rewrite TE.
    rewrite (@substr_mid (pre ++ g)%list t rest) by lia.
    rewrite (field_kept Hft).
    replace (Z.of_nat (length (pre ++ g) + length t)) with (Z.of_nat (length ((pre ++ g) ++ t)))
      by (rewrite (app_length (pre ++ g)); reflexivity).
    rewrite app_assoc. subst rest. rewrite IH; auto; try lia. cbn in Hf. lia.
Qed.

Lemma blank_tokenizer_fields fs trail fuel : fs <> [] -> well_written fs trail -> length fs + 1 <= fuel ->
  blank_tokenizer fuel (write fs trail) = Some (Ok (map snd fs)).
Proof.
  intros Hne Hw Hf. unfold blank_tokenizer. fold (detab (write fs trail)). rewrite (detab_write Hw).
  destruct Hw as (H & Hg & Ht). destruct fs as [|[g t] fs]; [contradiction|]. clear Hne.
  inversion H as [|? ? (Hgap & Hft) H']; subst. cbn [map fst snd tl] in *.
  set (fs' := map (fun f => (repeat sp (length (fst f)), snd f)) fs).
  set (tr := repeat sp (length trail)).
  assert (write ((repeat sp (length g), t) :: fs') tr = repeat sp (length g) ++ t ++ write fs' tr)%list as ->
    by (unfold write; cbn [flat_map fst snd]; now rewrite <- !app_assoc).
  set (pre := repeat sp (length g)). set (rest := write fs' tr).
  destruct (field_head Hft) as (c & t' & Et & Nc).
  assert (find_not sp (pre ++ t ++ rest)%list 0 = Z.of_nat (length pre)) as F.
  { unfold find_not. rewrite Et. cbn [app]. rewrite (@find_if_hit _ [] pre c (t' ++ rest)%list); auto.
    - apply eqb_all_forall, all_repeat.
    - destruct (Ascii.eqb_spec c sp); [contradiction|reflexivity]. }
  rewrite F.
  assert (at_ (pre ++ t ++ rest)%list (Z.of_nat (length pre)) = Ok c) as -> by (rewrite Et; cbn [app]; now apply at_mid).
  destruct (Z.eqb_spec (Z.of_nat (length pre)) (-1)); [lia|].
  assert (Forall (fun f => fst f <> [] /\ all_of (eq sp) (fst f) /\ field (snd f)) fs') as Hfs'.
  { subst fs'. apply Forall_map. rewrite Forall_forall in *. intros f Hi. cbn [fst snd].
    split; [|split; [apply all_repeat | now apply H']].
    specialize (Hg f Hi). destruct (fst f); [contradiction | discriminate]. }
  assert ((exists r', rest = sp :: r') \/ rest = []) as Hr.
  { subst rest. destruct fs' as [|[g2 t2] fs2].
    - subst tr. cbn. destruct trail; [now right | left; eexists; reflexivity].
    - left. inversion Hfs' as [|? ? (G0 & G1 & _) _]; subst. cbn [fst] in *. destruct g2 as [|x g2]; [contradiction|].
      inversion G1; subst. eexists. reflexivity. }
  destruct (@tok_end_field pre t rest true Hft Hr) as (c0 & t0 & Et0 & TE).
  rewrite Et in Et0. inversion Et0; subst c0 t0. clear Et0.
  rewrite TE. rewrite (@substr_mid pre t rest) by lia.
  replace (Z.of_nat (length pre + length t)) with (Z.of_nat (length (pre ++ t))) by (rewrite app_length; reflexivity).
  rewrite app_assoc. subst rest.
  rewrite tok_loop_fields; auto; try lia.
  - cbn [option_map obind]. subst fs'. rewrite map_map. cbn [snd]. reflexivity.
  - apply all_repeat.
  - subst fs'. rewrite map_length. cbn [length] in Hf. lia.
Qed.

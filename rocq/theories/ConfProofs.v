From Verif Require Import Prelude StrModel ConfModel ConfSpec.
From Coq Require Import Ascii.
Open Scope nat_scope.

Lemma str_eqb_spec a b : reflect (a = b) (str_eqb a b).
Proof. unfold str_eqb. destruct (list_eq_dec ascii_dec a b); constructor; auto. Qed.

(** ** Paths *)
Lemma fragments_dotfree acc k : ~ In dot k -> fragments_from acc k = match (acc ++ k)%list with [] => [] | x => [x] end.
Proof.
  revert acc; induction k as [|c k IH]; intros acc H.
  - rewrite app_nil_r. destruct acc; reflexivity.
  - cbn [fragments_from]. destruct (Ascii.eqb_spec c dot) as [->|]; [exfalso; apply H; now left|].
    rewrite IH by (intros X; apply H; now right). rewrite <- app_assoc. reflexivity.
Qed.
Lemma fragments_dot acc k r : ~ In dot k -> fragments_from acc (k ++ dot :: r)%list = (acc ++ k)%list :: fragments_from [] r.
Proof.
  revert acc; induction k as [|c k IH]; intros acc H.
  - cbn [app fragments_from]. rewrite Ascii.eqb_refl, app_nil_r. reflexivity.
  - cbn [app fragments_from]. destruct (Ascii.eqb_spec c dot) as [->|]; [exfalso; apply H; now left|].
    rewrite IH by (intros X; apply H; now right). now rewrite <- app_assoc.
Qed.
Lemma fragments_dotted ks : Forall element ks -> fragments (dotted ks) = ks.
Proof.
  unfold fragments. induction 1 as [|k ks [Hk Hd] _ IH]; [reflexivity|]. destruct ks as [|k2 ks].
  - cbn [dotted]. rewrite fragments_dotfree by auto. cbn [app]. destruct k; [congruence|reflexivity].
  - change (dotted (k :: k2 :: ks)) with (k ++ dot :: dotted (k2 :: ks))%list. rewrite fragments_dot by auto. cbn [app]. now rewrite IH.
Qed.
Lemma fragments_app q c k acc : c <> dot ->
  fragments_from acc ((q ++ [c]) ++ dot :: k)%list = (fragments_from acc (q ++ [c]) ++ fragments_from [] k)%list.
Proof.
  intros Hc. revert acc; induction q as [|x q IH]; intros acc.
  - cbn [app fragments_from]. destruct (Ascii.eqb_spec c dot) as [|_]; [congruence|]. rewrite Ascii.eqb_refl.
    destruct acc; reflexivity.
  - cbn [app fragments_from]. destruct (Ascii.eqb x dot).
    + cbn [app]. rewrite IH. reflexivity.
    + apply IH.
Qed.
Lemma walk_app p q t : walk (p ++ q) t = match walk p t with Some c => walk q c | None => None end.
Proof. revert t; induction p as [|k p IH]; intros t; [reflexivity|]. cbn [app walk]. destruct (find_kid k (kids_of t)); auto. Qed.
Lemma walk_path p k t : prefix_path p ->
  walk (fragments (p ++ dot :: k)) t = match walk (fragments p) t with Some c => walk (fragments k) c | None => None end.
Proof. intros (q & c & -> & Hc). unfold fragments. rewrite fragments_app by auto. apply walk_app. Qed.

(** ** Lookup *)
Lemma find_kid_first before k c after : ~ In k (map fst before) -> find_kid k (before ++ (k, c) :: after) = Some c.
Proof.
  induction before as [|[n t] b IH]; cbn; intros H.
  - destruct (str_eqb_spec k k); congruence.
  - destruct (str_eqb_spec n k); [subst; exfalso; apply H; now left|]. apply IH. intros X; apply H; now right.
Qed.
Lemma find_kid_split k l c : find_kid k l = Some c -> exists before after, l = (before ++ (k, c) :: after)%list /\ ~ In k (map fst before).
Proof.
  induction l as [|[n t] l IH]; cbn; [discriminate|]. destruct (str_eqb_spec n k) as [->|Hn].
  - intros H; injection H as ->. exists [], l. split; [reflexivity|intros []].
  - intros H. destruct (IH H) as (b & a & -> & Hb). exists ((n, t) :: b), a. split; [reflexivity|]. cbn. intros [X|X]; congruence.
Qed.
Lemma walk_reaches p t n : walk p t = Some n <-> reaches t p n.
Proof.
  split.
  - revert t; induction p as [|k p IH]; intros t; cbn [walk].
    + intros H; injection H as ->. constructor.
    + destruct (find_kid k (kids_of t)) as [c|] eqn:E; [|discriminate]. intros H. apply find_kid_split in E as (b & a & E & Hb).
      destruct t as [s l]. cbn in E. subst l. constructor; auto.
  - induction 1; cbn [walk kids_of]; [reflexivity|]. now rewrite find_kid_first.
Qed.

(** ** Blanks *)
Lemma drop_blanks n s : drop_while (fun c => Ascii.eqb c sp) (repeat sp n ++ s) = drop_while (fun c => Ascii.eqb c sp) s.
Proof. induction n as [|n IH]; [reflexivity|]. cbn [repeat app drop_while]. rewrite Ascii.eqb_refl. exact IH. Qed.
Lemma drop_tight s : (forall c r, s = c :: r -> c <> sp) -> drop_while (fun c => Ascii.eqb c sp) s = s.
Proof. destruct s as [|c r]; [reflexivity|]. intros H. cbn [drop_while]. destruct (Ascii.eqb_spec c sp); [now destruct (H c r)|reflexivity]. Qed.
Lemma rev_repeat (n : nat) (c : ascii) : rev (repeat c n) = repeat c n.
Proof.
  induction n as [|n IH]; [reflexivity|]. cbn [repeat rev]. rewrite IH. clear. induction n; [reflexivity|]. cbn. now f_equal.
Qed.
Lemma strip_padded n m s : tight s -> strip (padded n m s) = s.
Proof.
  intros [H1 H2]. unfold strip, padded. rewrite drop_blanks. destruct s as [|c s].
  - cbn [app]. replace (repeat sp m) with (repeat sp m ++ [])%list by apply app_nil_r. rewrite drop_blanks. reflexivity.
  - cbn [app]. rewrite (@drop_tight (c :: s ++ repeat sp m)) by (intros c' r E; injection E as <- _; now apply (H1 c s)).
    change (c :: s ++ repeat sp m)%list with ((c :: s) ++ repeat sp m)%list. rewrite rev_app_distr, rev_repeat, drop_blanks.
    rewrite drop_tight; [apply rev_involutive|]. intros c' r E. apply (H2 c' (rev r)). rewrite <- (rev_involutive (c :: s)), E. reflexivity.
Qed.
Lemma strip_tight s : tight (strip s) /\ exists n m, s = padded n m (strip s).
Proof.
  assert (D : forall s, exists n, s = (repeat sp n ++ drop_while (fun c => Ascii.eqb c sp) s)%list /\
                         forall c r, drop_while (fun c => Ascii.eqb c sp) s = c :: r -> c <> sp).
  { clear. induction s as [|c s (n & E & H)]; [exists 0; split; [reflexivity|discriminate]|]. cbn [drop_while].
    destruct (Ascii.eqb_spec c sp) as [->|Hc].
    - exists (S n). split; [cbn; now f_equal|exact H].
    - exists 0. split; [reflexivity|]. intros c' r X; injection X as <- _; exact Hc. }
  unfold strip. destruct (D s) as (n & E & H). set (a := drop_while _ s) in *. destruct (D (rev a)) as (m & E2 & H2). set (b := drop_while _ (rev a)) in *.
  assert (Ea : a = (rev b ++ repeat sp m)%list) by (rewrite <- (rev_involutive a), E2, rev_app_distr, rev_repeat; reflexivity).
  split.
  - split.
    + intros c r Er. apply (H c (r ++ repeat sp m)%list). rewrite Ea, Er. reflexivity.
    + intros c r Er. apply (H2 c (rev r)). rewrite <- (rev_involutive b), Er, rev_app_distr. reflexivity.
  - exists n, m. unfold padded. rewrite <- Ea. exact E.
Qed.

(** ** Merging *)
Lemma find_kid_app k l1 l2 : find_kid k (l1 ++ l2) = match find_kid k l1 with Some c => Some c | None => find_kid k l2 end.
Proof. induction l1 as [|[n t] l IH]; cbn; [reflexivity|]. destruct (str_eqb n k); auto. Qed.
Lemma find_on_kid k f l k' : find_kid k' (on_kid k f l) =
  if str_eqb k k' then Some (f (match find_kid k l with Some c => c | None => Node [] [] end)) else find_kid k' l.
Proof.
  induction l as [|[n t] l IH]; cbn.
  - destruct (str_eqb k k'); reflexivity.
  - destruct (str_eqb_spec n k) as [->|Hn]; cbn.
    + destruct (str_eqb_spec k k'); reflexivity.
    + rewrite IH. destruct (str_eqb_spec n k') as [->|Hn'].
      * destruct (str_eqb_spec k k'); [congruence|reflexivity].
      * reflexivity.
Qed.
(** Adding keeps what was reached, up to further children below it. *)
Lemma add_child_walk p c : forall t q n, walk q t = Some n -> q <> [] -> exists n', walk q (add_child p c t) = Some n' /\ text_of n' = text_of n.
Proof.
  induction p as [|k p IH]; intros t q n Hq Hne; [exists n; auto|].
  destruct q as [|a q]; [congruence|]. cbn [walk] in Hq. destruct (find_kid a (kids_of t)) as [x|] eqn:E; [|discriminate].
  destruct p as [|k2 p].
  - cbn [add_child walk kids_of]. rewrite find_kid_app, E. exists n; auto.
  - change (add_child (k :: k2 :: p) c t) with (Node (text_of t) (on_kid k (add_child (k2 :: p) c) (kids_of t))).
    cbn [walk kids_of]. rewrite find_on_kid. destruct (str_eqb_spec k a) as [->|Hn].
    + rewrite E. destruct q as [|b q].
      * cbn [walk] in *. injection Hq as ->. eexists. split; [reflexivity|]. destruct p; reflexivity.
      * apply IH; [exact Hq|discriminate].
    + rewrite E. exists n; auto.
Qed.
Lemma add_child_text p c t : text_of (add_child p c t) = text_of t.
Proof. destruct p as [|k [|k2 p]]; reflexivity. Qed.
Lemma merge_walk l : forall t t' q n, merge t l = Ok t' -> walk q t = Some n -> exists n', walk q t' = Some n' /\ text_of n' = text_of n.
Proof.
  induction l as [|[k c] l IH]; intros t t' q n; cbn [merge].
  - intros H W; injection H as <-; eauto.
  - destruct (good_name k); [|discriminate]. intros H W.
    assert (X : exists n1, walk q (add_child (fragments k) c t) = Some n1 /\ text_of n1 = text_of n).
    { destruct q as [|a q]; [cbn in W; injection W as ->; eexists; split; [reflexivity|apply add_child_text]|].
      apply add_child_walk; [exact W|discriminate]. }
    destruct X as (n1 & W1 & T1). destruct (IH _ _ _ _ H W1) as (n2 & W2 & T2). exists n2. split; [auto|congruence].
Qed.
(** When no element name of the new file has a dot, everything under the first elements stays exactly as it was. *)
Lemma merge_shadow l : forall t t' k x, Forall (fun e => element (fst e)) l -> merge t l = Ok t' -> find_kid k (kids_of t) = Some x ->
  find_kid k (kids_of t') = Some x.
Proof.
  induction l as [|[n c] l IH]; intros t t' k x HF; cbn [merge].
  - intros H; injection H as <-; auto.
  - inversion HF as [|? ? [Hn Hd] HF']; subst. cbn [fst] in *. destruct (good_name n); [|discriminate]. intros H W. apply (IH _ _ _ _ HF' H).
    unfold fragments. rewrite fragments_dotfree by auto. destruct n as [|c0 n]; [congruence|]. cbn [app add_child kids_of]. now rewrite find_kid_app, W.
Qed.
Lemma good_element n : element n -> good_name n = true.
Proof.
  intros [H1 H2]. unfold good_name. destruct (rev n) as [|c r] eqn:E.
  - apply (f_equal (@rev ascii)) in E. rewrite rev_involutive in E. cbn in E. congruence.
  - destruct (Ascii.eqb_spec c dot) as [->|]; [|reflexivity]. exfalso. apply H2. apply in_rev. rewrite E. now left.
Qed.
Lemma merge_elements l : Forall (fun e => element (fst e)) l -> forall t, merge t l = Ok (Node (text_of t) (kids_of t ++ l)%list).
Proof.
  induction 1 as [|[n c] l H _ IH]; intros t; cbn [merge].
  - rewrite app_nil_r. destruct t; reflexivity.
  - cbn [fst] in H. rewrite good_element by exact H. rewrite IH. destruct H as [Hn Hd].
    unfold fragments. rewrite fragments_dotfree by auto. destruct n as [|c0 n]; [congruence|]. cbn [app add_child kids_of text_of]. now rewrite <- app_assoc.
Qed.

(** Lemmas about global arrays and the reserve/put exchange. *)
From Verif Require Import Prelude GAModel.

Definition seg {A} (lo n : nat) (g : garray A) := firstn n (skipn lo g).

Section GA.
Context {A : Type}.
Implicit Types (g : garray A) (xs : list A).

Lemma seg_app lo a b g : seg lo (a + b) g = (seg lo a g ++ seg (lo + a) b g)%list.
Proof.
  unfold seg. revert lo g; intros lo g.
  replace (skipn (lo + a) g) with (skipn a (skipn lo g)).
  2:{ revert g; induction lo as [|k IHk]; intros [|y g]; simpl; auto; now rewrite skipn_nil. }
  generalize (skipn lo g) as l. induction a as [|a IH]; intros [|x l]; simpl; auto.
  - now rewrite firstn_nil.
  - now rewrite IH.
Qed.

Lemma seg_length lo n g : lo + n <= length g -> length (seg lo n g) = n.
Proof. intros H. unfold seg. rewrite firstn_length, skipn_length. lia. Qed.


Lemma nth_error_firstn' {B} n (l : list B) i : i < n -> nth_error (firstn n l) i = nth_error l i.
Proof. revert n i; induction l as [|x l IH]; intros [|n] [|i] H; simpl; auto; try lia. apply IH; lia. Qed.

Lemma nth_error_skipn' {B} n (l : list B) i : nth_error (skipn n l) i = nth_error l (n + i).
Proof. revert n; induction l as [|x l IH]; intros [|n]; simpl; auto. now destruct i. Qed.

Lemma nth_error_ext {B} (l l' : list B) : (forall i, nth_error l i = nth_error l' i) -> l = l'.
Proof.
  revert l'; induction l as [|x l IH]; intros [|y l'] H; auto.
  - specialize (H 0); discriminate.
  - specialize (H 0); discriminate.
  - f_equal; [specialize (H 0); simpl in H; congruence | apply IH; intros i; apply (H (S i))].
Qed.

Lemma nth_error_seg lo n g i : i < n -> nth_error (seg lo n g) i = nth_error g (lo + i).
Proof. intros H. unfold seg. rewrite nth_error_firstn' by lia. apply nth_error_skipn'. Qed.

Lemma nth_error_firstn_ge {B} n (l : list B) i : n <= i -> nth_error (firstn n l) i = None.
Proof. intros H. apply nth_error_None. rewrite firstn_length. lia. Qed.

Lemma seg_ext lo n g g' : (forall i, lo <= i < lo + n -> nth_error g i = nth_error g' i) -> seg lo n g = seg lo n g'.
Proof.
  intros H. apply nth_error_ext. intros i. destruct (le_lt_dec n i) as [Hi|Hi].
  - unfold seg. now rewrite !nth_error_firstn_ge.
  - rewrite !nth_error_seg by lia. apply H. lia.
Qed.

Lemma ga_put_ok g lo xs : lo + length xs <= length g ->
  exists g', ga_put g lo xs = Ok g' /\ length g' = length g /\
    (forall i, i < length xs -> nth_error g' (lo + i) = nth_error (map Some xs) i) /\
    (forall i, i < lo \/ lo + length xs <= i -> nth_error g' i = nth_error g i).
Proof.
  intros H. unfold ga_put. destruct (Nat.leb_spec (lo + length xs) (length g)) as [_|]; [|lia].
  eexists; split; [reflexivity|]. split; [|split].
  - rewrite !app_length, firstn_length, map_length, skipn_length. lia.
  - intros i Hi. rewrite nth_error_app2; rewrite firstn_length; [|lia].
    replace (lo + i - Nat.min lo (length g)) with i by lia.
    rewrite nth_error_app1; auto. rewrite map_length; lia.
  - intros i [Hi|Hi].
    + rewrite nth_error_app1; [|rewrite firstn_length; lia]. apply nth_error_firstn'; lia.
    + rewrite nth_error_app2; rewrite firstn_length; [|lia].
      rewrite nth_error_app2; rewrite map_length; [|lia]. rewrite nth_error_skipn'. f_equal. lia.
Qed.

Lemma ga_puts_keyed {K : Type} (lo : K -> nat) (bin : K -> list A) ks g :
  NoDup ks ->
  (forall k, In k ks -> lo k + length (bin k) <= length g) ->
  (forall k k', In k ks -> In k' ks -> k <> k' ->
     lo k + length (bin k) <= lo k' \/ lo k' + length (bin k') <= lo k) ->
  exists g', ga_puts g (map (fun k => (lo k, bin k)) ks) = Ok g' /\ length g' = length g /\
   (forall k i, In k ks -> i < length (bin k) -> nth_error g' (lo k + i) = nth_error (map Some (bin k)) i) /\
   (forall i, (forall k, In k ks -> i < lo k \/ lo k + length (bin k) <= i) -> nth_error g' i = nth_error g i).
Proof.
  revert g; induction ks as [|k ks IH]; intros g Hnd Hb Hd.
  - exists g. simpl. repeat split; auto. intros k i [].
  - inversion Hnd as [|? ? Hn Hnd']; subst.
    destruct (@ga_put_ok g (lo k) (bin k)) as (g1 & E1 & L1 & S1 & O1); [apply Hb; now left|].
    destruct (IH g1) as (g2 & E2 & L2 & S2 & O2); auto.
    { intros k' Hk'. rewrite L1. apply Hb. now right. }
    { intros k1 k2 H1 H2. apply Hd; now right. }
    exists g2. cbn [map ga_puts]. rewrite E1. cbn [obind]. split; [exact E2|]. split; [lia|]. split.
    + intros k' i [->|Hk'] Hi; [|now apply S2].
      rewrite O2.
      * now apply S1.
      * intros k1 Hk1. assert (k' <> k1) by (intros ->; contradiction).
        destruct (Hd k' k1); [now left|now right|auto|lia|lia].
    + intros i Hi. rewrite O2; [|intros k1 Hk1; apply Hi; now right].
      apply O1. apply Hi. now left.
Qed.

Lemma all_written_map xs : all_written (map Some xs) = Ok xs.
Proof. induction xs as [|x xs IH]; simpl; auto. now rewrite IH. Qed.

Lemma ga_get_some g lo xs : lo + length xs <= length g ->
  (forall i, i < length xs -> nth_error g (lo + i) = nth_error (map Some xs) i) ->
  ga_get g lo (length xs) = Ok xs.
Proof.
  intros H Hn. unfold ga_get. destruct (Nat.leb_spec (lo + length xs) (length g)) as [_|]; [|lia].
  rewrite <- (all_written_map xs). f_equal. apply nth_error_ext. intros i.
  destruct (le_lt_dec (length xs) i) as [Hi|Hi].
  - rewrite nth_error_firstn_ge by lia. symmetry. apply nth_error_None. rewrite map_length. lia.
  - change (nth_error (seg lo (length xs) g) i = nth_error (map Some xs) i).
    rewrite nth_error_seg by lia. now apply Hn.
Qed.

Lemma ga_new_length n : length (ga_new A n) = n.
Proof. apply repeat_length. Qed.

End GA.

Lemma oall_map_ok {A B} (f : A -> outcome B) (h : A -> B) l :
  (forall x, In x l -> f x = Ok (h x)) -> oall (map f l) = Ok (map h l).
Proof.
  induction l as [|x l IH]; intros H; simpl; auto.
  rewrite H by now left. simpl. rewrite IH; auto. intros y Hy. apply H. now right.
Qed.

Lemma offset_S sizes p : p < length sizes -> offset sizes (S p) = offset sizes p + nth p sizes 0.
Proof.
  unfold offset. revert p; induction sizes as [|x l IH]; intros [|p] H; simpl in *; try lia.
  rewrite <- Nat.add_assoc, <- IH by lia. reflexivity.
Qed.

Lemma offset_le sizes p q : p <= q -> offset sizes p <= offset sizes q.
Proof.
  unfold offset. revert p q; induction sizes as [|x l IH]; intros [|p] [|q] H; simpl; try lia.
  specialize (IH p q). lia.
Qed.

Lemma offset_end sizes p : p < length sizes -> offset sizes p + nth p sizes 0 <= sumn sizes.
Proof.
  intros H. rewrite <- offset_S by auto. unfold offset.
  rewrite <- (firstn_skipn (S p) sizes) at 2. rewrite sumn_app. lia.
Qed.

Lemma offset_disjoint sizes p q : p < q -> p < length sizes -> offset sizes p + nth p sizes 0 <= offset sizes q.
Proof. intros H Hp. rewrite <- offset_S by auto. apply offset_le. lia. Qed.

Lemma all_pairs_spec P s d : In (s, d) (all_pairs P) <-> s < P /\ d < P.
Proof.
  unfold all_pairs. rewrite in_flat_map. split.
  - intros (x & Hx & Hi). apply in_map_iff in Hi as (y & E & Hy). inversion E; subst.
    apply in_iota in Hx, Hy. lia.
  - intros [Hs Hd]. exists s. split; [now apply in_iota|]. apply in_map. now apply in_iota.
Qed.

Lemma NoDup_flat_map {B C} (f : B -> list C) l :
  NoDup l -> (forall x, In x l -> NoDup (f x)) ->
  (forall x y z, In x l -> In y l -> x <> y -> In z (f x) -> ~ In z (f y)) -> NoDup (flat_map f l).
Proof.
  induction l as [|x l IH]; intros Hn H1 H2; simpl; [constructor|].
  inversion Hn as [|? ? Hx Hn']; subst.
  assert (Happ : forall (a b : list C), NoDup a -> NoDup b -> (forall z, In z a -> ~ In z b) -> NoDup (a ++ b)%list).
  { clear. induction a as [|z a IHa]; intros b Ha Hb Hd; simpl; auto. inversion Ha; subst. constructor.
    - rewrite in_app_iff. intros [?|?]; [contradiction|]. apply (Hd z); simpl; auto.
    - apply IHa; auto. intros w Hw. apply Hd. now right. }
  apply Happ.
  - apply H1. now left.
  - apply IH; auto. intros y Hy; apply H1; now right. intros y z w Hy Hz. apply H2; now right.
  - intros z Hz Hin. apply in_flat_map in Hin as (y & Hy & Hzy).
    apply (H2 x y z); auto; [now left|now right|intros ->; contradiction].
Qed.

Lemma all_pairs_NoDup P : NoDup (all_pairs P).
Proof.
  apply NoDup_flat_map.
  - apply seq_NoDup.
  - intros x _. apply FinFun.Injective_map_NoDup; [|apply seq_NoDup]. intros a b E. congruence.
  - intros x y z _ _ Hxy Hz Hz'. apply in_map_iff in Hz as (a & <- & _). apply in_map_iff in Hz' as (b & E & _).
    congruence.
Qed.

(** Sources in the order in which they obtained room on destination [d]. *)
Definition order (d : nat) (ev : list (nat * nat)) : list nat :=
  map fst (filter (fun sd => snd sd =? d) ev).

Lemma order_perm P ev d : Permutation ev (all_pairs P) -> d < P -> Permutation (order d ev) (iota P).
Proof.
  intros H Hd. unfold order.
  assert (Hnd : NoDup (map fst (filter (fun sd => snd sd =? d) ev))).
  { assert (Hev : NoDup ev) by (eapply Permutation_NoDup; [symmetry; exact H|apply all_pairs_NoDup]).
    revert Hev. clear. induction ev as [|[s e] ev IH]; intros Hev; simpl; [constructor|].
    inversion Hev as [|? ? Hn Hev']; subst. destruct (Nat.eqb_spec e d) as [->|]; auto.
    simpl. constructor; auto. intros Hin. apply in_map_iff in Hin as ([s' d'] & E & Hf).
    apply filter_In in Hf as [Hf Ed]. simpl in *. apply Nat.eqb_eq in Ed. subst. contradiction. }
  apply NoDup_Permutation; auto; [apply seq_NoDup|].
  intros s. rewrite in_iota. rewrite in_map_iff. split.
  - intros ([s' d'] & E & Hf). apply filter_In in Hf as [Hf _]. simpl in E; subst.
    apply (Permutation_in _ H) in Hf. now apply all_pairs_spec in Hf.
  - intros Hs. exists (s, d). split; auto. apply filter_In. simpl. rewrite Nat.eqb_refl. split; auto.
    apply (Permutation_in _ (Permutation_sym H)). now apply all_pairs_spec.
Qed.

Lemma nodup_split_eq {B} (l1 o1 l2 o2 : list B) s :
  NoDup (l1 ++ s :: l2)%list -> (l1 ++ s :: l2 = o1 ++ s :: o2)%list -> o1 = l1.
Proof.
  revert o1; induction l1 as [|x l IH]; intros [|y o1] HN E; simpl in *; auto.
  - injection E as E1 E2. subst. inversion HN as [|? ? Hn]; subst. exfalso. apply Hn. apply in_or_app; right; now left.
  - injection E as E1 E2. subst. inversion HN as [|? ? Hn]; subst. exfalso. apply Hn. apply in_or_app; right; now left.
  - injection E as E1 E2. subst. inversion HN; subst. f_equal. now apply IH.
Qed.

  Lemma nth_upd_same (l : list nat) i x : i < length l -> nth i (upd l i x) 0 = x.
  Proof. intros H. apply nth_error_nth. now apply nth_error_upd_same. Qed.
  Lemma nth_upd_other (l : list nat) i j x : i <> j -> nth j (upd l i x) 0 = nth j l 0.
  Proof.
    intros H. revert i j H; induction l as [|y l IH]; intros [|i] [|j] H; simpl; auto; try lia.
  Qed.

Section ExchangeProofs.
  Variable A : Type.
  Variable P : nat.
  Variable bins : nat -> nat -> list A.

  Let len s d := length (bins s d).
  Let tot d os := sumn (map (fun s => len s d) os).

  Lemma reserve_length cnt ev : length (snd (reserve bins cnt ev)) = length cnt.
  Proof.
    revert cnt; induction ev as [|[s d] ev IH]; intros cnt; simpl; auto.
    destruct (Nat.eqb_spec (length (bins s d)) 0); auto.
    specialize (IH (upd cnt d (nth d cnt 0 + length (bins s d)))).
    destruct (reserve bins _ ev) as [l c]. simpl in *. now rewrite IH, upd_length.
  Qed.

  Lemma reserve_num cnt ev d :
    (forall s e, In (s, e) ev -> e < length cnt) -> d < length cnt ->
    nth d (snd (reserve bins cnt ev)) 0 = nth d cnt 0 + tot d (order d ev).
  Proof.
    revert cnt; induction ev as [|[s e] ev IH]; intros cnt Hev Hd; [simpl; unfold tot; simpl; lia|].
    assert (He : e < length cnt) by (apply (Hev s); now left).
    cbn [reserve]. unfold order, tot. simpl filter. fold (order d ev).
    destruct (Nat.eqb_spec (length (bins s e)) 0) as [E0|E0].
    - rewrite IH by (auto; intros s' e' H'; apply (Hev s'); now right).
      destruct (Nat.eqb_spec e d) as [->|]; simpl; unfold tot, order, len; lia.
    - specialize (IH (upd cnt e (nth e cnt 0 + length (bins s e)))).
      destruct (reserve bins _ ev) as [l c]. cbn [snd] in *.
      rewrite IH; rewrite ?upd_length; auto; [|intros s' e' H'; apply (Hev s'); now right].
      destruct (Nat.eqb_spec e d) as [->|Hne]; simpl.
      + rewrite nth_upd_same by auto. unfold tot, order, len. lia.
      + rewrite nth_upd_other by auto. unfold tot, order, len. lia.
  Qed.

  Lemma reserve_off cnt ev1 s d ev2 :
    (forall s' e, In (s', e) (ev1 ++ (s, d) :: ev2)%list -> e < length cnt) ->
    ~ In (s, d) ev1 -> len s d <> 0 ->
    assoc_off (fst (reserve bins cnt (ev1 ++ (s, d) :: ev2)%list)) s d = nth d cnt 0 + tot d (order d ev1).
  Proof.
    revert cnt; induction ev1 as [|[s' e] ev1 IH]; intros cnt Hev Hn Hl.
    - cbn [app reserve]. unfold len in Hl. destruct (Nat.eqb_spec (length (bins s d)) 0); [contradiction|].
      destruct (reserve bins _ ev2) as [l c]. cbn [fst assoc_off]. rewrite !Nat.eqb_refl. cbn.
      unfold tot; simpl; lia.
    - assert (He : e < length cnt) by (apply (Hev s'); now left).
      assert (Hne : ~ (s = s' /\ d = e)) by (intros [-> ->]; apply Hn; now left).
      cbn [app reserve]. unfold order, tot. simpl filter. 
      destruct (Nat.eqb_spec (length (bins s' e)) 0) as [E0|E0].
      + rewrite IH; auto.
        * destruct (Nat.eqb_spec e d) as [->|]; simpl; unfold tot, order, len; lia.
        * intros a b H'; apply (Hev a); now right.
        * intros H'; apply Hn; now right.
      + specialize (IH (upd cnt e (nth e cnt 0 + length (bins s' e)))).
        destruct (reserve bins _ (ev1 ++ (s, d) :: ev2)) as [l c]. cbn [fst assoc_off] in *.
        destruct ((s =? s') && (d =? e)) eqn:E; [exfalso; apply Hne; lia|].
        rewrite IH; rewrite ?upd_length; auto.
        * destruct (Nat.eqb_spec e d) as [->|Hd]; simpl.
          -- rewrite nth_upd_same by auto. unfold tot, order, len. lia.
          -- rewrite nth_upd_other by auto. unfold tot, order, len. lia.
        * intros a b H'; apply (Hev a); now right.
        * intros H'; apply Hn; now right.
  Qed.

  Lemma tot_app d a b : tot d (a ++ b)%list = tot d a + tot d b.
  Proof. unfold tot. now rewrite map_app, sumn_app. Qed.
  Lemma order_app d a b : order d (a ++ b)%list = (order d a ++ order d b)%list.
  Proof. unfold order. now rewrite filter_app, map_app. Qed.
  Lemma order_cons_same s d b : order d ((s, d) :: b) = s :: order d b.
  Proof. unfold order. simpl. now rewrite Nat.eqb_refl. Qed.

  Definition received (ev : list (nat * nat)) (d : nat) : list A :=
    concat (map (fun s => bins s d) (order d ev)).

  Lemma received_length ev d : length (received ev d) = tot d (order d ev).
  Proof.
    unfold received, tot. induction (order d ev) as [|s l IH]; simpl; auto.
    rewrite app_length, IH. reflexivity.
  Qed.

  (** Reading back a block that consists of consecutive chunks. *)
  Lemma chunks_read (g : garray A) d os base :
    (forall o1 s o2 i, os = (o1 ++ s :: o2)%list -> i < len s d ->
       nth_error g (base + tot d o1 + i) = nth_error (map Some (bins s d)) i) ->
    forall i, i < tot d os ->
      nth_error g (base + i) = nth_error (map Some (concat (map (fun s => bins s d) os))) i.
  Proof.
    revert base; induction os as [|s os IH]; intros base H i Hi; [unfold tot in Hi; simpl in Hi; lia|].
    simpl. rewrite map_app. unfold tot in Hi; simpl in Hi; fold (tot d os) in Hi.
    destruct (le_lt_dec (len s d) i) as [Hge|Hlt].
    - rewrite nth_error_app2; rewrite map_length; fold (len s d); [|lia].
      rewrite <- (IH (base + len s d)).
      + f_equal. lia.
      + intros o1 s' o2 j E Hj. rewrite <- (H (s :: o1) s' o2 j); [|simpl; congruence|auto].
        f_equal. unfold tot. simpl. lia.
      + lia.
    - rewrite nth_error_app1 by (rewrite map_length; exact Hlt).
      rewrite <- (H [] s os i eq_refl Hlt). f_equal. unfold tot; simpl; lia.
  Qed.

  Theorem exchange_spec ev pw :
    Permutation ev (all_pairs P) -> Permutation pw (all_pairs P) ->
    exchange P bins ev pw =
      if forallb (fun sd => len (fst sd) (snd sd) =? 0) (all_pairs P) then Ok None
      else Ok (Some (map (received ev) (iota P))).
  Proof.
    intros Hev Hpw. unfold exchange.
    pose proof (reserve_length (repeat 0 P) ev) as Hlen. rewrite repeat_length in Hlen.
    assert (Hrange : forall s e, In (s, e) ev -> e < length (repeat 0 P)).
    { intros s e H. rewrite repeat_length. apply (Permutation_in _ Hev) in H. now apply all_pairs_spec in H. }
    assert (Hnth0 : forall d, nth d (repeat 0 P) 0 = 0).
    { intros d. clear. revert d; induction P; intros [|d]; simpl; auto. }
    assert (Hnum : forall d, d < P -> nth d (snd (reserve bins (repeat 0 P) ev)) 0 = tot d (order d ev)).
    { intros d Hd. rewrite reserve_num; auto. now rewrite Hnth0. now rewrite repeat_length. }
    assert (HevN : NoDup ev) by (eapply Permutation_NoDup; [symmetry; exact Hev|apply all_pairs_NoDup]).
    assert (HpwN : NoDup pw) by (eapply Permutation_NoDup; [symmetry; exact Hpw|apply all_pairs_NoDup]).
    assert (Hoff : forall ev1 s d ev2, ev = (ev1 ++ (s, d) :: ev2)%list -> len s d <> 0 ->
       assoc_off (fst (reserve bins (repeat 0 P) ev)) s d = tot d (order d ev1)).
    { intros ev1 s d ev2 E Hl. subst ev. rewrite (@reserve_off (repeat 0 P) ev1 s d ev2).
      - now rewrite Hnth0.
      - intros s0 e H0. apply (Hrange s0 e H0).
      - intros H0. apply NoDup_remove_2 in HevN. apply HevN. apply in_or_app; now left.
      - auto. }
    destruct (reserve bins (repeat 0 P) ev) as [offs num] eqn:ER. cbn [fst snd] in *.
    destruct (forallb _ (all_pairs P)) eqn:EF.
    - (* nothing to send *)
      rewrite forallb_forall in EF.
      assert (Hz : forall n, In n num -> n = 0).
      { intros n Hn. apply In_nth with (d := 0) in Hn as (d & Hd & <-). rewrite Hnum by lia.
        assert (Hos : forall s, In s (order d ev) -> len s d = 0).
        { intros s Hs. pose proof (Permutation_in _ (order_perm Hev (d := d) ltac:(lia)) Hs) as Hs'.
          apply in_iota in Hs'. specialize (EF (s, d)). simpl in EF.
          apply Nat.eqb_eq, EF, all_pairs_spec. lia. }
        unfold tot. revert Hos. induction (order d ev) as [|s l IH]; intros Hos; simpl; auto.
        rewrite (Hos s) by now left. apply IH. intros s' Hs'. apply Hos. now right. }
      assert (Hs0 : sumn num = 0).
      { revert Hz. clear. induction num as [|n l IH]; intros H; simpl; auto.
        rewrite (H n) by now left. apply IH. intros m Hm. apply H. now right. }
      rewrite Hs0. reflexivity.
    - assert (Hpos : sumn num <> 0).
      { intros H0. apply Bool.not_true_iff_false in EF. apply EF. apply forallb_forall.
        intros [s d] Hsd. apply all_pairs_spec in Hsd. simpl. apply Nat.eqb_eq.
        assert (nth d num 0 = 0).
        { pose proof (@offset_end num d). lia. }
        rewrite Hnum in H by lia.
        assert (Hin : In s (order d ev)).
        { apply (Permutation_in _ (Permutation_sym (order_perm Hev (d := d) ltac:(lia)))). apply in_iota; lia. }
        revert H Hin. unfold tot. clear. induction (order d ev) as [|x l IH]; simpl; [tauto|].
        intros H [->|Hin]; [lia|]. apply IH; auto. lia. }
      destruct (Nat.eqb_spec (sumn num) 0) as [|_]; [contradiction|].
      set (lo := fun sd : nat * nat => offset num (snd sd) + assoc_off offs (fst sd) (snd sd)).
      set (bn := fun sd : nat * nat => bins (fst sd) (snd sd)).
      set (ks := filter (fun sd => negb (length (bins (fst sd) (snd sd)) =? 0)) pw).
      assert (Hks : forall s d, In (s, d) ks <-> s < P /\ d < P /\ len s d <> 0).
      { intros s d. unfold ks. rewrite filter_In. simpl. rewrite Bool.negb_true_iff, Nat.eqb_neq.
        split.
        - intros [H1 H2]. apply (Permutation_in _ Hpw), all_pairs_spec in H1. unfold len. tauto.
        - intros (H1 & H2 & H3). split; auto. apply (Permutation_in _ (Permutation_sym Hpw)).
          now apply all_pairs_spec. }
      assert (Hfit : forall s d, s < P -> d < P -> len s d <> 0 ->
                exists ev1 ev2, ev = (ev1 ++ (s, d) :: ev2)%list /\ assoc_off offs s d = tot d (order d ev1)
                  /\ tot d (order d ev1) + len s d <= nth d num 0).
      { intros s d Hs Hd Hl.
        assert (Hin : In (s, d) ev).
        { apply (Permutation_in _ (Permutation_sym Hev)). now apply all_pairs_spec. }
        apply in_split in Hin as (ev1 & ev2 & E). exists ev1, ev2. split; auto. split; [now apply (Hoff ev1 s d ev2)|].
        rewrite Hnum by auto. subst ev. rewrite order_app, order_cons_same, tot_app. unfold tot at 3. simpl. lia. }
      destruct (@ga_puts_keyed A _ lo bn ks (ga_new A (S (sumn num)))) as (g & Eg & Lg & Sg & Og).
      { apply NoDup_filter. exact HpwN. }
      { intros [s d] Hk. apply Hks in Hk as (Hs & Hd & Hl). rewrite ga_new_length. unfold lo, bn. simpl.
        destruct (Hfit s d Hs Hd Hl) as (ev1 & ev2 & E & Ha & Hle). rewrite Ha.
        pose proof (@offset_end num d). unfold len in Hle. lia. }
      { intros [s d] [s' d'] Hk Hk' Hne. apply Hks in Hk as (Hs & Hd & Hl). apply Hks in Hk' as (Hs' & Hd' & Hl').
        unfold lo, bn; simpl.
        destruct (Hfit s d Hs Hd Hl) as (ev1 & ev2 & E & Ha & Hle).
        destruct (Hfit s' d' Hs' Hd' Hl') as (ev1' & ev2' & E' & Ha' & Hle').
        rewrite Ha, Ha'. unfold len in Hle, Hle', Hl, Hl'.
        destruct (lt_eq_lt_dec d d') as [[Hlt| ->]|Hlt].
        - pose proof (@offset_disjoint num d d'). lia.
        - (* same destination: compare positions in ev *)
          assert (Hss : s <> s') by congruence.
          assert (Hpre : (exists m, ev1' = (ev1 ++ (s, d') :: m)%list) \/ (exists m, ev1 = (ev1' ++ (s', d') :: m)%list)).
          { rewrite E in E'. clear -E' Hss. revert ev1' E'; induction ev1 as [|x l IH]; intros [|y l'] E'; simpl in *.
            - inversion E'; congruence.
            - inversion E'; subst. left. exists l'. reflexivity.
            - inversion E'; subst. right. exists l. reflexivity.
            - inversion E'; subst. destruct (IH l' H1) as [[m ->]|[m ->]]; [left|right]; exists m; reflexivity. }
          destruct Hpre as [[m Em]|[m Em]]; subst; rewrite order_app, order_cons_same, tot_app;
            unfold tot, len; simpl; lia.
        - pose proof (@offset_disjoint num d' d). lia. }
      unfold put_list. fold ks. change (map _ ks) with (map (fun k => (lo k, bn k)) ks).
      rewrite Eg. cbn [obind].
      rewrite (oall_map_ok _ (received ev)); [reflexivity|].
      intros d Hd. apply in_iota in Hd. pose proof (received_length ev d) as HL. rewrite <- (Hnum d Hd) in HL.
      destruct (Nat.eqb_spec (nth d num 0) 0) as [E0|E0].
      { rewrite E0 in HL. destruct (received ev d); auto; discriminate. }
      rewrite <- HL. apply ga_get_some.
      + rewrite Lg, ga_new_length, HL. pose proof (@offset_end num d). lia.
      + intros i Hi. rewrite received_length in Hi. unfold received.
        apply chunks_read with (os := order d ev); auto.
        intros o1 s o2 j Eo Hj.
        assert (Hs : s < P).
        { apply in_iota. apply (Permutation_in _ (order_perm Hev Hd)). rewrite Eo. apply in_or_app; right; now left. }
        assert (Hl : len s d <> 0) by lia.
        destruct (Hfit s d Hs Hd Hl) as (ev1 & ev2 & E & Ha & _).
        assert (Ho1 : order d ev1 = o1).
        { rewrite E, order_app, order_cons_same in Eo.
          assert (HN : NoDup (order d ev)) by (eapply Permutation_NoDup;
             [symmetry; apply (order_perm Hev Hd)|apply seq_NoDup]).
          rewrite E, order_app, order_cons_same in HN.
          symmetry. exact (@nodup_split_eq _ _ _ _ _ _ HN Eo). }
        specialize (Sg (s, d) j). unfold lo, bn in Sg. simpl in Sg. rewrite <- Sg; auto.
        * f_equal. rewrite Ha, Ho1. lia.
        * apply Hks. auto.
  Qed.

  Lemma received_perm ev d : Permutation ev (all_pairs P) -> d < P ->
    Permutation (received ev d) (concat (map (fun s => bins s d) (iota P))).
  Proof.
    intros H Hd. unfold received. rewrite <- !flat_map_concat_map. apply Permutation_flat_map. now apply order_perm.
  Qed.
End ExchangeProofs.

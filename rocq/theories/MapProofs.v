From Verif Require Import Prelude GAModel GAProofs ParProofs ParProofs2 NetProofs NetProofs3 IdxProofs IdxProofs2 MapModel MapSpec.

(** * Writes that agree with a function *)
Section Agree.
  Variable f : nat -> nat.
  Lemma puts_agree ws : forall g : garray nat,
    (forall lo xs, In (lo, xs) ws -> lo + length xs <= length g /\ xs = map f (seq lo (length xs))) ->
    exists g', ga_puts g ws = Ok g' /\ length g' = length g /\
      forall i, i < length g -> nth_error g' i = if existsb (fun w => (fst w <=? i) && (i <? fst w + length (snd w))) ws
                                                 then Some (Some (f i)) else nth_error g i.
  Proof.
    induction ws as [|[lo xs] ws IH]; intros g H; simpl.
    - exists g. auto.
    - destruct (H lo xs (or_introl eq_refl)) as [Hl Hx].
      destruct (@ga_put_ok _ g lo xs Hl) as (g1 & E & L & V1 & V2). rewrite E. cbn [obind].
      destruct (IH g1) as (g' & E' & L' & V').
      { intros lo' xs' Hi. rewrite L. apply H. now right. }
      exists g'. split; auto. split; [lia|]. intros i Hi. rewrite V' by lia.
      destruct (existsb _ ws); [now rewrite orb_true_r|]. rewrite orb_false_r.
      destruct (Nat.leb_spec lo i); destruct (Nat.ltb_spec i (lo + length xs)); simpl; try (apply V2; lia).
      replace i with (lo + (i - lo)) at 1 by lia. rewrite V1 by lia. rewrite Hx, map_map, nth_error_map.
      rewrite (@nth_error_nth' _ (seq lo (length xs)) (i - lo) 0) by (rewrite seq_length; lia). rewrite seq_nth by lia. simpl. do 3 f_equal. lia.
  Qed.

  Lemma scatter_agree ws (g : garray nat) :
    (forall k s, In (k, s) ws -> k < length g /\ s = f k) ->
    exists g', ga_scatter g ws = Ok g' /\ length g' = length g /\
      forall i, i < length g -> nth_error g' i = if existsb (Nat.eqb i) (map fst ws) then Some (Some (f i)) else nth_error g i.
  Proof.
    intros H. unfold ga_scatter. destruct (@puts_agree (map (fun w => (fst w, [snd w])) ws) g) as (g' & E & L & V).
    - intros lo xs Hi. apply in_map_iff in Hi as ([k s] & E & Hi). injection E as <- <-. apply H in Hi as [H1 ->]. simpl. split; [lia|auto].
    - exists g'. split; auto. split; auto. intros i Hi. rewrite (V i Hi).
      match goal with |- (if ?a then _ else _) = (if ?b then _ else _) => assert (Eab : a = b); [|now rewrite Eab] end.
      clear. induction ws as [|[k s] ws IH]; simpl; auto. rewrite IH. f_equal.
      destruct (Nat.eqb_spec i k); destruct (Nat.leb_spec k i); destruct (Nat.ltb_spec i (k + 1)); simpl; lia || auto.
  Qed.
End Agree.

Lemma full_of_nth (f : nat -> nat) n (g : garray nat) : length g = n -> (forall i, i < n -> nth_error g i = Some (Some (f i))) ->
  g = map Some (map f (iota n)).
Proof.
  intros L H. apply nth_error_ext. intros i. destruct (le_lt_dec n i) as [Hi|Hi].
  - rewrite (proj2 (nth_error_None g i)) by lia. symmetry. apply nth_error_None. unfold iota. rewrite !map_length, seq_length. auto.
  - rewrite H by auto. rewrite map_map, nth_error_map. rewrite (@nth_error_nth' _ (iota n) i 0) by (unfold iota; rewrite seq_length; auto).
    unfold iota. now rewrite seq_nth.
Qed.

Lemma repeat_nth {A} (x : A) n i : i < n -> nth_error (repeat x n) i = Some x.
Proof. revert i; induction n as [|n IH]; intros [|i] H; simpl; try lia; auto. apply IH. lia. Qed.

Lemma get_map (f : nat -> nat) N lo n : lo + n <= N -> ga_get (map Some (map f (iota N))) lo n = Ok (map f (seq lo n)).
Proof.
  intros H. replace n with (length (map f (seq lo n))) at 1 by now rewrite map_length, seq_length.
  apply ga_get_some.
  - unfold iota. rewrite !map_length, !seq_length. lia.
  - intros i Hi. rewrite map_length, seq_length in Hi. rewrite !nth_error_map.
    rewrite (@nth_error_nth' _ (iota N) _ 0) by (unfold iota; rewrite seq_length; lia).
    rewrite (@nth_error_nth' _ (seq lo n) _ 0) by (rewrite seq_length; lia). unfold iota. rewrite !seq_nth by lia. reflexivity.
Qed.

(** * Offsets *)
Lemma start_S sz k : start sz (S k) = start sz k + sz k.
Proof. unfold start, iota. rewrite seq_S, map_app, sumn_app. simpl. lia. Qed.
Lemma start_le sz k l : k <= l -> start sz k <= start sz l.
Proof. induction 1; auto. rewrite start_S. lia. Qed.
Lemma start_add sz k n : start sz (k + n) = start sz k + sumn (map sz (seq k n)).
Proof. unfold start, iota. rewrite seq_app, map_app, sumn_app. reflexivity. Qed.
Lemma start_inj sz k l a b : a < sz k -> b < sz l -> start sz k + a = start sz l + b -> k = l /\ a = b.
Proof.
  intros Ha Hb E. destruct (lt_eq_lt_dec k l) as [[H|H]|H].
  - pose proof (start_le sz H). rewrite start_S in H0. lia.
  - subst. lia.
  - pose proof (start_le sz H). rewrite start_S in H0. lia.
Qed.
Lemma start_covers sz n i : i < start sz n -> exists k a, k < n /\ a < sz k /\ i = start sz k + a.
Proof.
  induction n as [|n IH]; intros H.
  - unfold start, iota in H. simpl in H. lia.
  - rewrite start_S in H. destruct (le_lt_dec (start sz n) i) as [Hi|Hi].
    + exists n, (i - start sz n). lia.
    + destruct (IH Hi) as (k & a & ? & ? & ?). exists k, a. lia.
Qed.

Lemma offsets_from_spec sz s n : offsets_from (start sz s) (map sz (seq s n)) = map (start sz) (seq s n).
Proof.
  unfold offsets_from. rewrite map_length, seq_length.
  assert (E : map (start sz) (seq s n) = map (fun i => start sz (s + i)) (iota n)).
  { unfold iota. clear. revert s. induction n as [|n IH]; intros s; simpl; auto. f_equal; [f_equal; lia|].
    rewrite IH, <- seq_shift, map_map. apply map_ext. intros; f_equal; lia. }
  rewrite E. apply map_ext_in. intros i Hi. apply in_iota in Hi. rewrite start_add. f_equal. f_equal. rewrite firstn_map. f_equal.
  clear - Hi. revert s n Hi. induction i as [|i IH]; intros s n Hi; simpl; auto. destruct n; [lia|]. simpl. f_equal. apply IH. lia.
Qed.

Lemma fold_max_in l x m : In x l \/ x <= m -> x <= fold_left Nat.max l m.
Proof.
  revert m; induction l as [|y l IH]; intros m H; simpl; [destruct H as [[]|]; auto|].
  apply IH. destruct H as [[->|H]|H]; auto; right; lia.
Qed.

Lemma flat_map_seq_part {X} (f : X -> list nat) w : forall s n, flat_map f w = seq s n ->
  forall q d, q < length w -> f (nth q w d) = seq (s + length (flat_map f (firstn q w))) (length (f (nth q w d))).
Proof.
  induction w as [|x w IH]; intros s n E q d Hq; simpl in *; [lia|].
  assert (Hl : length (f x) <= n).
  { apply (f_equal (@length nat)) in E. rewrite app_length, seq_length in E. lia. }
  replace n with (length (f x) + (n - length (f x))) in E by lia. rewrite seq_app in E.
  assert (E1 : f x = seq s (length (f x)) /\ flat_map f w = seq (s + length (f x)) (n - length (f x))).
  { apply (f_equal (firstn (length (f x)))) in E as E1. apply (f_equal (skipn (length (f x)))) in E as E2.
    rewrite firstn_app, firstn_all, Nat.sub_diag in E1. rewrite firstn_app, seq_length, Nat.sub_diag in E1. simpl in E1.
    rewrite skipn_app, skipn_all, Nat.sub_diag in E2. rewrite skipn_app, seq_length, Nat.sub_diag in E2. simpl in E2.
    rewrite !app_nil_r in E1. rewrite firstn_all2 in E1 by now rewrite seq_length. rewrite skipn_all2 in E2 by now rewrite seq_length.
    simpl in E2. auto. }
  destruct E1 as [E1 E2]. destruct q as [|q]; simpl.
  - now rewrite Nat.add_0_r.
  - rewrite app_length. rewrite (IH _ _ E2 q d) at 1 by lia. f_equal. lia.
Qed.

(** * Permutations of flat_map *)
Lemma flat_map_app_perm {X Y} (f g : X -> list Y) l :
  Permutation (flat_map (fun x => (f x ++ g x)%list) l) (flat_map f l ++ flat_map g l)%list.
Proof.
  induction l as [|x l IH]; simpl; auto. rewrite IH. rewrite <- !app_assoc. apply Permutation_app_head.
  rewrite !app_assoc. apply Permutation_app_tail. apply Permutation_app_comm.
Qed.
Lemma flat_map_filter_if {X Y} (c : X -> bool) (f : X -> list Y) l :
  flat_map f (filter c l) = flat_map (fun x => if c x then f x else []) l.
Proof. induction l as [|x l IH]; simpl; auto. destruct (c x); simpl; now rewrite IH. Qed.
Lemma flat_map_one {X Y} (c : X -> bool) (ys : list Y) l x0 : NoDup l -> In x0 l -> (forall x, In x l -> c x = true <-> x = x0) ->
  flat_map (fun x => if c x then ys else []) l = ys.
Proof.
  induction l as [|x l IH]; intros ND Hi H; simpl; [destruct Hi|]. inversion ND; subst.
  destruct (c x) eqn:E.
  - apply (H x (or_introl eq_refl)) in E. subst. replace (flat_map _ l) with (@nil Y); [apply app_nil_r|]. symmetry.
    clear - H H2. assert (G : forall x, In x l -> c x = false).
    { intros x Hx. destruct (c x) eqn:E; auto. apply H in E; [subst; contradiction|now right]. }
    clear - G. induction l as [|x l IH]; simpl; auto. rewrite G by now left. apply IH. intros; apply G; now right.
  - simpl. destruct Hi as [->|Hi].
    + exfalso. assert (c x0 = true) by (apply H; [now left|reflexivity]). congruence.
    + apply IH; auto. intros y Hy. apply H. now right.
Qed.
Lemma flat_map_perm {X Y} (f : X -> list Y) a b : Permutation a b -> Permutation (flat_map f a) (flat_map f b).
Proof.
  induction 1; simpl; auto.
  - now apply Permutation_app_head.
  - rewrite !app_assoc. apply Permutation_app_tail, Permutation_app_comm.
  - etransitivity; eauto.
Qed.

Lemma NoDup_map_inj_in {X Y} (f : X -> Y) l : (forall a b, In a l -> In b l -> f a = f b -> a = b) -> NoDup l -> NoDup (map f l).
Proof.
  induction l as [|x l IH]; intros H ND; simpl; constructor; inversion ND; subst.
  - intros Hi. apply in_map_iff in Hi as (y & E & Hy). apply H in E; [subst; contradiction|now right|now left].
  - apply IH; auto. intros a b Ha Hb. apply H; now right.
Qed.

(** * Insertions at distinct places *)
Section Insert.
  Context {V : Type} (f : V -> V -> V).
  Definition at_pos (ij : nat * nat) (x : (nat * nat) * V) : bool := (fst (fst x) =? fst ij) && (snd (fst x) =? snd ij).
  Lemma at_pos_spec ij x : at_pos ij x = true <-> fst x = ij.
  Proof. unfold at_pos. destruct x as [[a b] v], ij as [c d]. simpl. rewrite andb_true_iff, !Nat.eqb_eq. split; [intros [-> ->]; auto|intros E; injection E; auto]. Qed.

  Lemma insert_spec rows cols es : forall m,
    Forall (fun x => fst (fst x) < rows /\ snd (fst x) < cols) es -> NoDup (map fst es) ->
    exists m', insert_elems f rows cols m es = Ok m' /\
      forall ij, m' ij = match find (at_pos ij) es with Some x => f (m ij) (snd x) | None => m ij end.
  Proof.
    induction es as [|[[i j] v] es IH]; intros m HF ND; simpl.
    - exists m. auto.
    - inversion HF as [|? ? [H1 H2] HF']; subst. inversion ND as [|? ? Hn ND']; subst. simpl in *.
      apply Nat.ltb_lt in H1. apply Nat.ltb_lt in H2. rewrite H1, H2. simpl.
      destruct (IH (fun ij => if (fst ij =? i) && (snd ij =? j) then f (m ij) v else m ij) HF' ND') as (m' & E & Hm).
      exists m'. split; auto. intros ij. rewrite Hm. unfold at_pos at 2. simpl. rewrite (Nat.eqb_sym i), (Nat.eqb_sym j).
      destruct ((fst ij =? i) && (snd ij =? j)) eqn:Eij; auto.
      replace (find (at_pos ij) es) with (@None ((nat * nat) * V)); auto. symmetry.
      destruct (find (at_pos ij) es) as [x|] eqn:Ef; auto. exfalso. apply find_some in Ef as [Hx Ep]. apply at_pos_spec in Ep.
      apply Hn. apply in_map_iff. exists x. split; auto. rewrite Ep. destruct ij as [a b]. simpl in *.
      apply andb_true_iff in Eij as [A B]. apply Nat.eqb_eq in A, B. now subst.
  Qed.

  Lemma find_pos_in (es : list ((nat * nat) * V)) ij v : NoDup (map fst es) -> In (ij, v) es -> find (at_pos ij) es = Some (ij, v).
  Proof.
    induction es as [|x es IH]; intros ND Hi; simpl; [destruct Hi|]. inversion ND; subst. destruct Hi as [->|Hi].
    - rewrite (proj2 (at_pos_spec ij (ij, v))); auto.
    - destruct (at_pos ij x) eqn:E; auto. apply at_pos_spec in E. exfalso. apply H1. rewrite E. apply in_map_iff. now exists (ij, v).
  Qed.
  Lemma find_pos_none (es : list ((nat * nat) * V)) ij : ~ In ij (map fst es) -> find (at_pos ij) es = None.
  Proof.
    intros H. destruct (find (at_pos ij) es) as [x|] eqn:E; auto. exfalso. apply find_some in E as [Hx E]. apply at_pos_spec in E.
    apply H. apply in_map_iff. now exists x.
  Qed.
End Insert.

(** * Elements of blocks *)
Section Blocks.
  Context {V : Type} (v0 : V).
  Variables rs cs : nat -> nat.
  Definition elems_at (x : (nat * nat) * list V) : list ((nat * nat) * V) :=
    block_elems v0 (start rs (fst (fst x))) (start cs (snd (fst x))) (rs (fst (fst x)), cs (snd (fst x))) (snd x).

  Lemma in_elems_at x e : In e (elems_at x) <->
    exists a b, a < rs (fst (fst x)) /\ b < cs (snd (fst x)) /\
      e = ((start rs (fst (fst x)) + a, start cs (snd (fst x)) + b), nth (b * rs (fst (fst x)) + a) (snd x) v0).
  Proof.
    unfold elems_at, block_elems. simpl. rewrite in_flat_map. split.
    - intros (b & Hb & He). apply in_map_iff in He as (a & <- & Ha). apply in_iota in Ha, Hb. exists a, b. auto.
    - intros (a & b & Ha & Hb & ->). exists b. split; [now apply in_iota|]. apply in_map_iff. exists a. split; auto. now apply in_iota.
  Qed.

  Lemma elems_at_nodup x : NoDup (map fst (elems_at x)).
  Proof.
    unfold elems_at, block_elems. simpl. rewrite flat_map_concat_map, concat_map, !map_map.
    rewrite <- flat_map_concat_map. apply NoDup_flat_map.
    - unfold iota. apply seq_NoDup.
    - intros k Hk. rewrite map_map. simpl. apply NoDup_map_inj_in.
      + intros a b _ _ E. injection E. lia.
      + unfold iota. apply seq_NoDup.
    - intros k k' y Hk Hk' Hne H1 H2. rewrite map_map in H1, H2. apply in_map_iff in H1 as (a & <- & _). apply in_map_iff in H2 as (b & E & _).
      simpl in E. injection E. lia.
  Qed.

  Lemma blocks_nodup bl : NoDup (map fst bl) -> NoDup (map fst (flat_map elems_at bl)).
  Proof.
    intros ND. rewrite flat_map_concat_map, concat_map, map_map, <- flat_map_concat_map. apply NoDup_flat_map.
    - now apply NoDup_map_inv in ND.
    - intros x _. apply elems_at_nodup.
    - intros x y e Hx Hy Hne H1 H2. apply in_map_iff in H1 as (e1 & <- & H1). apply in_map_iff in H2 as (e2 & E & H2).
      apply in_elems_at in H1 as (a & b & Ha & Hb & ->). apply in_elems_at in H2 as (a' & b' & Ha' & Hb' & ->). simpl in E. injection E as E1 E2.
      apply start_inj in E1; auto. apply start_inj in E2; auto. destruct E1 as [E1 _], E2 as [E2 _].
      assert (Ef : fst x = fst y) by (destruct x as [[? ?] ?], y as [[? ?] ?]; simpl in *; congruence).
      apply Hne. exact (@nodup_map_inj _ _ fst bl x y ND Hx Hy Ef).
  Qed.
End Blocks.

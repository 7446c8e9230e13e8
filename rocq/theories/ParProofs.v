(** Proofs for the distributed containers. *)
From Verif Require Import Prelude GAModel GAProofs ParModel ParSpec.

Lemma sumn_map_zero {X} (f : X -> nat) l x : sumn (map f l) = 0 -> In x l -> f x = 0.
Proof. induction l as [|y l IH]; simpl; intros E H; [tauto|]. destruct H as [->|H]; [lia|]. apply IH; auto; lia. Qed.

(** * Shuffler *)
Section ShufflerP.
Context {T : Type}.
Implicit Types (items : list (T * Z)) (w : list (list T * list Z)).

Definition pick (p : nat) items : list T := map fst (filter (fun td => snd td =? Z.of_nat p)%Z items).

Lemma route_ok P me items loc ts :
  length ts = P -> forallb (fun td => (0 <=? snd td) && (snd td <? Z.of_nat P))%Z items = true ->
  exists ts', route P me items loc ts = Ok ((loc ++ pick me items)%list, ts') /\ length ts' = P /\
    forall q, q < P -> nth q ts' [] = (nth q ts [] ++ if q =? me then [] else pick q items)%list.
Proof.
  revert loc ts; induction items as [|[t d] r IH]; intros loc ts Hl Hf.
  - exists ts. simpl. unfold pick; simpl. rewrite app_nil_r. split; auto. split; auto.
    intros q _. destruct (q =? me); now rewrite app_nil_r.
  - simpl in Hf. apply andb_true_iff in Hf as [Hd Hf]. apply andb_true_iff in Hd as [Hd1 Hd2].
    simpl route. destruct (Z.eqb_spec d (Z.of_nat me)) as [->|Hne].
    + destruct (IH (loc ++ [t])%list ts Hl Hf) as (ts' & E & L & H). exists ts'. rewrite E. split; [|split; auto].
      * unfold pick at 2. simpl. rewrite Z.eqb_refl. simpl. now rewrite <- app_assoc.
      * intros q Hq. rewrite H by auto. f_equal. destruct (Nat.eqb_spec q me) as [|Hqm]; auto.
        unfold pick. simpl. destruct (Z.eqb_spec (Z.of_nat me) (Z.of_nat q)); auto. lia.
    + rewrite Hd1, Hd2. simpl.
      destruct (IH loc (upd ts (Z.to_nat d) (nth (Z.to_nat d) ts [] ++ [t])%list)) as (ts' & E & L & H);
        [rewrite upd_length; auto|auto|].
      exists ts'. rewrite E. split; [|split; auto].
      * unfold pick at 2. simpl. destruct (Z.eqb_spec d (Z.of_nat me)); [contradiction|reflexivity].
      * intros q Hq. rewrite H by auto.
        destruct (Nat.eq_dec q (Z.to_nat d)) as [->|Hqd].
        -- erewrite nth_error_nth; [|apply nth_error_upd_same; lia].
           destruct (Nat.eqb_spec (Z.to_nat d) me) as [|]; [lia|].
           unfold pick. simpl. rewrite Z2Nat.id by lia. rewrite Z.eqb_refl. simpl. now rewrite <- app_assoc.
        -- assert (E2 : nth q (upd ts (Z.to_nat d) (nth (Z.to_nat d) ts [] ++ [t])%list) [] = nth q ts []).
           { clear -Hqd. revert q Hqd. generalize (Z.to_nat d) as k.
             generalize (nth (Z.to_nat d) ts [] ++ [t])%list as x.
             induction ts as [|y l IHl]; intros x [|k] [|q] H; simpl; auto; try lia. }
           rewrite E2. f_equal. destruct (q =? me); auto.
           unfold pick. simpl. destruct (Z.eqb_spec d (Z.of_nat q)); auto. lia.
Qed.

Lemma route_bad P me items loc ts :
  existsb (fun td => negb ((0 <=? snd td) && (snd td <? Z.of_nat P)))%Z items = true -> me < P ->
  route P me items loc ts = UB.
Proof.
  intros H Hme. revert loc ts; induction items as [|[t d] r IH]; intros loc ts; simpl in *; [discriminate|].
  apply orb_true_iff in H as [H|H].
  - apply negb_true_iff in H. destruct (Z.eqb_spec d (Z.of_nat me)) as [->|]; [lia|]. now rewrite H.
  - destruct (Z.eqb_spec d (Z.of_nat me)); [now apply IH|].
    destruct ((0 <=? d) && (d <? Z.of_nat P))%Z; [|reflexivity]. now apply IH.
Qed.

Lemma routable_nth w p : routable w = true -> p < length w ->
  let x := nth p w ([], []) in length (fst x) = length (snd x) /\
  forallb (fun td => (0 <=? snd td) && (snd td <? Z.of_nat (length w)))%Z (combine (fst x) (snd x)) = true.
Proof.
  intros H Hp x. unfold routable in H. rewrite forallb_forall in H.
  specialize (H x (nth_In w ([], []) Hp)). apply andb_true_iff in H as [H1 H2]. split; [lia|].
  rewrite forallb_forall in *. intros [t d] Hin. simpl. apply H2. eapply in_combine_r; eauto.
Qed.

Lemma shuffle_correct w : routable w = true -> shuffle w = Ok (map (delivered w) (iota (length w))).
Proof.
  intros H. unfold shuffle.
  assert (Hsz : forallb (fun x : list T * list Z => length (fst x) =? length (snd x)) w = true).
  { unfold routable in H. rewrite forallb_forall in *. intros x Hx. specialize (H x Hx). lia. }
  rewrite Hsz. cbn [negb].
  destruct (Nat.leb_spec (length w) 1) as [Hle|Hgt].
  - destruct w as [|[ts ds] [|]]; simpl in Hle; try lia; [reflexivity|].
    cbn -[delivered]. unfold delivered, items_for. simpl.
    unfold routable in H. simpl in H. rewrite andb_true_r in H. apply andb_true_iff in H as [H1 H2].
    rewrite app_nil_r. do 2 f_equal.
    apply Nat.eqb_eq in H1. clear Hsz Hle. revert ds H1 H2. induction ts as [|t ts IH]; intros [|d ds] H1 H2; simpl in *; auto; try lia.
    apply andb_true_iff in H2 as [H2 H3]. destruct (Z.eqb_spec d 0) as [->|]; [|lia].
    simpl. f_equal. apply IH; auto.
  - destruct (Nat.eqb_spec (sumn (map (fun x : list T * list Z => length (fst x)) w)) 0) as [E0|E0].
    + f_equal.
      assert (Hemp : forall p, fst (nth p w ([], [])) = []).
      { intros p. destruct (le_lt_dec (length w) p); [now rewrite nth_overflow|].
        assert (Hin := nth_In w ([], []) l). apply (sumn_map_zero _ _ _ E0) in Hin. now apply length_zero_iff_nil. }
      transitivity (map (fun _ : nat => @nil T) (iota (length w))).
      * apply nth_error_ext. intros i. rewrite !nth_error_map.
        destruct (nth_error w i) as [x|] eqn:Ex.
        -- assert (i < length w) by (apply nth_error_Some; congruence).
           unfold iota. rewrite nth_error_nth' with (d := 0) by (rewrite seq_length; auto).
           simpl. specialize (Hemp i). erewrite nth_error_nth in Hemp by exact Ex. now rewrite Hemp.
        -- apply nth_error_None in Ex. assert (E : nth_error (iota (length w)) i = None).
           { apply nth_error_None. unfold iota. now rewrite seq_length. }
           now rewrite E.
      * apply map_ext. intros p. unfold delivered, items_for. rewrite Hemp. simpl.
        induction (iota (length w)) as [|s l IH]; simpl; auto.
        rewrite <- IH. destruct (s =? p); auto. now rewrite Hemp.
    + set (P := length w) in *.
      set (R := fun p => match route P p (combine (fst (nth p w ([], []))) (snd (nth p w ([], [])))) [] (repeat [] P)
                         with Ok r => r | _ => ([], []) end).
      assert (HR : forall p, p < P ->
        route P p (combine (fst (nth p w ([], []))) (snd (nth p w ([], [])))) [] (repeat [] P) = Ok (R p) /\
        fst (R p) = items_for p (nth p w ([], [])) /\
        forall q, q < P -> nth q (snd (R p)) [] = if q =? p then [] else items_for q (nth p w ([], []))).
      { intros p Hp. destruct (routable_nth w H Hp) as [_ Hf].
        destruct (@route_ok P p _ [] (repeat [] P) (repeat_length _ _) Hf) as (ts & E & L & Hq).
        unfold R. rewrite E. split; [reflexivity|]. split; [reflexivity|].
        intros q Hq'. simpl. rewrite Hq by auto.
        assert (E1 : nth q (repeat (@nil T) P) [] = []).
        { clear. revert q; induction P; intros [|q]; simpl; auto. }
        rewrite E1. reflexivity. }
      rewrite (oall_map_ok _ R) by (intros p Hp; apply in_iota in Hp; now apply HR).
      cbn [obind]. f_equal. apply map_ext_in. intros p Hp. apply in_iota in Hp.
      assert (Hn : forall q, q < P -> nth q (map R (iota P)) ([], []) = R q).
      { intros q Hq. rewrite nth_indep with (d' := R 0) by (rewrite map_length; unfold iota; now rewrite seq_length).
        rewrite map_nth. unfold iota. now rewrite seq_nth. }
      unfold delivered. rewrite Hn by auto. destruct (HR p Hp) as (_ & -> & _). f_equal. f_equal.
      apply map_ext_in. intros s Hs. apply in_iota in Hs. rewrite Hn by auto.
      destruct (HR s Hs) as (_ & _ & Hq). rewrite (Hq p Hp). rewrite Nat.eqb_sym. reflexivity.
Qed.

Lemma oall_UB {A B} (f : A -> outcome B) l x : In x l -> f x = UB ->
  (forall y, In y l -> f y <> Throw) -> oall (map f l) = UB.
Proof.
  induction l as [|y l IH]; intros Hin Hx Ht; [destruct Hin|destruct Hin as [->|Hin]]; simpl.
  - now rewrite Hx.
  - specialize (Ht y (or_introl eq_refl)) as Hy. destruct (f y); simpl; auto; [|contradiction].
    rewrite IH; auto. intros z Hz. apply Ht. now right.
Qed.

Lemma route_not_throw P me items loc ts : route P me items loc ts <> Throw.
Proof.
  revert loc ts; induction items as [|[t d] r IH]; intros loc ts; simpl; [discriminate|].
  destruct (d =? Z.of_nat me)%Z; auto. destruct (_ && _); auto. discriminate.
Qed.

Lemma shuffle_bad_destination w p d : 2 <= length w ->
  forallb (fun x => length (fst x) =? length (snd x)) w = true ->
  p < length w -> In d (snd (nth p w ([], []))) -> ~ (0 <= d < Z.of_nat (length w))%Z -> shuffle w = UB.
Proof.
  intros H2 Hsz Hp Hin Hd. unfold shuffle. rewrite Hsz. cbn [negb].
  destruct (Nat.leb_spec (length w) 1); [lia|].
  rewrite forallb_forall in Hsz. specialize (Hsz _ (nth_In w ([], []) Hp)). apply Nat.eqb_eq in Hsz.
  destruct (Nat.eqb_spec (sumn (map (fun x : list T * list Z => length (fst x)) w)) 0) as [E|E].
  - exfalso. assert (length (fst (nth p w ([], []))) = 0).
    { assert (Hx := nth_In w ([], []) Hp). now apply (sumn_map_zero _ _ _ E) in Hx. }
    rewrite Hsz in H0. destruct (snd (nth p w ([], []))); simpl in *; [tauto|lia].
  - erewrite oall_UB with (x := p); [reflexivity|now apply in_iota| |intros y _; apply route_not_throw].
    apply route_bad; auto. apply existsb_exists.
    apply In_nth with (d := 0%Z) in Hin as (i & Hi & Ei).
    assert (Hi' : i < length (fst (nth p w ([], [])))) by lia.
    destruct (fst (nth p w ([], []))) as [|t0 tl] eqn:Ef; [simpl in *; lia|].
    exists (nth i (combine (t0 :: tl) (snd (nth p w ([], [])))) (t0, 0%Z)). split.
    + apply nth_In. rewrite combine_length. lia.
    + rewrite combine_nth by auto. simpl. rewrite Ei. lia.
Qed.

(** Conservation. *)
Lemma partition_perm {X} (f : X -> nat) P (l : list X) :
  (forall x, In x l -> f x < P) ->
  Permutation (flat_map (fun p => filter (fun x => f x =? p) l) (iota P)) l.
Proof.
  intros H. induction l as [|x l IH].
  - simpl. induction (iota P); simpl; auto.
  - assert (Hx : f x < P) by (apply H; now left).
    transitivity (x :: flat_map (fun p => filter (fun x => f x =? p) l) (iota P)).
    + assert (HN : NoDup (iota P)) by apply seq_NoDup. apply in_iota in Hx. revert Hx HN. clear.
      induction (iota P) as [|p ps IH]; intros Hin HN; [destruct Hin|]. simpl.
      inversion HN as [|? ? Hp HN']; subst.
      destruct (Nat.eqb_spec (f x) p) as [E|E].
      * assert (Hnx : forall p', In p' ps -> (f x =? p') = false).
        { intros p' Hp'. apply Nat.eqb_neq. intros E'. subst. congruence. }
        simpl. apply perm_skip. apply Permutation_app_head.
        replace (flat_map _ ps) with (flat_map (fun p => filter (fun x => f x =? p) l) ps); [auto|].
        revert Hnx. clear. induction ps as [|q ps IH]; intros H; simpl; auto.
        rewrite (H q) by now left. f_equal. apply IH. intros p' Hp'. apply H. now right.
      * destruct Hin as [->|Hin]; [congruence|].
        rewrite (IH Hin HN'). symmetry. apply Permutation_middle.
    + apply perm_skip. apply IH. intros y Hy. apply H. now right.
Qed.

Lemma concat_perm_pointwise {X Y} (f g : X -> list Y) l :
  (forall x, In x l -> Permutation (f x) (g x)) -> Permutation (flat_map f l) (flat_map g l).
Proof.
  induction l as [|x l IH]; intros H; simpl; auto.
  apply Permutation_app; [apply H; now left|apply IH; intros y Hy; apply H; now right].
Qed.

Lemma flat_map_swap {X Y Z} (f : X -> Y -> list Z) xs ys :
  Permutation (flat_map (fun x => flat_map (f x) ys) xs) (flat_map (fun y => flat_map (fun x => f x y) xs) ys).
Proof.
  induction xs as [|x xs IH]; simpl.
  - induction ys; simpl; auto.
  - rewrite IH. clear. induction ys as [|y ys IH]; simpl; auto.
    rewrite <- IH. rewrite <- !app_assoc. apply Permutation_app_head.
    rewrite !app_assoc. apply Permutation_app_tail. apply Permutation_app_comm.
Qed.

Lemma own_first_perm {X Y} (eqb : X -> X -> bool) (f : X -> list Y) p l :
  (forall a b, reflect (a = b) (eqb a b)) -> In p l -> NoDup l ->
  Permutation (f p ++ flat_map (fun s => if eqb s p then [] else f s) l) (flat_map f l).
Proof.
  intros Hr. induction l as [|s l IH]; intros Hin HN; [destruct Hin|]. simpl.
  inversion HN as [|? ? Hs HN']; subst. destruct (Hr s p) as [->|Hne].
  - simpl. apply Permutation_app_head.
    replace (flat_map (fun s => if eqb s p then [] else f s) l) with (flat_map f l); auto.
    clear -Hr Hs. induction l as [|s l IH]; simpl; auto.
    destruct (Hr s p) as [->|]; [exfalso; apply Hs; now left|]. f_equal. apply IH. intros H; apply Hs; now right.
  - destruct Hin as [->|Hin]; [congruence|].
    rewrite <- (IH Hin HN'). rewrite !app_assoc. apply Permutation_app_tail. apply Permutation_app_comm.
Qed.

Lemma delivered_conserves w : routable w = true ->
  Permutation (concat (map (delivered w) (iota (length w)))) (concat (map fst w)).
Proof.
  intros H. set (P := length w).
  rewrite <- flat_map_concat_map.
  transitivity (flat_map (fun p => flat_map (fun s => items_for p (nth s w ([], []))) (iota P)) (iota P)).
  { apply concat_perm_pointwise. intros p Hp. unfold delivered. rewrite <- flat_map_concat_map.
    apply (own_first_perm Nat.eqb (fun s => items_for p (nth s w ([], [])))); auto.
    - intros a b. apply Nat.eqb_spec.
    - apply seq_NoDup. }
  rewrite flat_map_swap.
  transitivity (flat_map (fun s => fst (nth s w ([], []))) (iota P)).
  - apply concat_perm_pointwise. intros s Hs. apply in_iota in Hs.
    destruct (routable_nth w H Hs) as [Hl Hf]. set (x := nth s w ([], [])) in *.
    assert (E : fst x = map fst (combine (fst x) (snd x))).
    { clear -Hl. destruct x as [a b]; simpl in *. revert b Hl; induction a as [|y a IH]; intros [|z b] H; simpl in *; auto; try lia.
      f_equal. apply IH; lia. }
    rewrite E at 1.
    transitivity (map fst (flat_map (fun p => filter (fun td => Z.to_nat (snd td) =? p) (combine (fst x) (snd x))) (iota P))).
    + rewrite !flat_map_concat_map, concat_map, map_map.
      match goal with |- Permutation ?a ?b => replace a with b; auto end. f_equal.
      apply map_ext_in. intros p Hp. unfold items_for. f_equal.
      apply filter_ext_in. intros [t d] Hin. rewrite forallb_forall in Hf. specialize (Hf _ Hin). simpl in *. lia.
    + apply Permutation_map. apply partition_perm. intros [t d] Hin. rewrite forallb_forall in Hf.
      specialize (Hf _ Hin). simpl in *. fold P in Hf. lia.
  - match goal with |- Permutation ?a ?b => replace a with b; auto end.
    rewrite flat_map_concat_map. f_equal. unfold P, iota. clear.
    apply nth_error_ext. intros i. rewrite !nth_error_map.
    destruct (le_lt_dec (length w) i) as [Hi|Hi].
    + rewrite (proj2 (nth_error_None w i)) by auto.
      rewrite (proj2 (nth_error_None (seq 0 (length w)) i)) by (now rewrite seq_length). reflexivity.
    + rewrite (nth_error_nth' w ([], []) Hi). rewrite (nth_error_nth' (seq 0 (length w)) 0) by now rewrite seq_length.
      rewrite seq_nth by auto. reflexivity.
Qed.
End ShufflerP.

From Verif Require Import Prelude GAModel GAProofs ParModel ParSpec ParProofs ParProofs2 ParProofs3 NetModel NetSpec.

(** * Scatter of a full array *)
Lemma full_scatter {A} (xs ord : list (Z * A)) N :
  Permutation (map fst xs) (map Z.of_nat (iota N)) -> Permutation ord xs ->
  exists arr, zscatter (ga_new A N) ord = Ok (map Some arr) /\ length arr = N /\
    (forall i v, In (i, v) xs -> nth_error arr (Z.to_nat i) = Some v) /\
    (forall k, k < N -> exists v, In (Z.of_nat k, v) xs).
Proof.
  intros HP HO.
  assert (Hnn : forall i v, In (i, v) xs -> (0 <= i < Z.of_nat N)%Z).
  { intros i v Hi. apply in_map with (f := fst) in Hi. rewrite HP in Hi. apply in_map_iff in Hi as (k & E & Hk).
    simpl in E. apply in_iota in Hk. lia. }
  assert (Hk : forall k, k < N -> exists v, In (Z.of_nat k, v) xs).
  { intros k Hk. assert (H : In (Z.of_nat k) (map fst xs)).
    { rewrite HP. apply in_map. now apply in_iota. }
    apply in_map_iff in H as ((i & v) & E & H). simpl in E. subst. now exists v. }
  unfold zscatter.
  destruct (existsb _ ord) eqn:Ex.
  { apply existsb_exists in Ex as ((i & v) & Hi & Hlt). rewrite HO in Hi. apply Hnn in Hi. simpl in Hlt. lia. }
  assert (HNx : NoDup (map fst xs)).
  { eapply Permutation_NoDup; [symmetry; exact HP|]. apply FinFun.Injective_map_NoDup; [intros a b; lia|apply seq_NoDup]. }
  set (ws := map (fun w => (Z.to_nat (fst w), snd w)) ord).
  destruct (@scatter_spec A (fun i => i) (ga_new A N) ws) as (g & E & L & S & O).
  - unfold ws. rewrite map_map. simpl.
    assert (HNo : NoDup (map fst ord)) by (eapply Permutation_NoDup; [apply Permutation_map; symmetry; exact HO|exact HNx]).
    assert (Hno : forall i v, In (i, v) ord -> (0 <= i)%Z) by (intros i v Hi; rewrite HO in Hi; apply Hnn in Hi; lia).
    clear -HNo Hno. induction ord as [|[i v] ord IH]; simpl in *; [constructor|]. inversion HNo as [|? ? Hi HN]; subst.
    constructor.
    + intros H. apply in_map_iff in H as ((j & u) & Ej & Hj). simpl in Ej. apply Hi.
      assert (0 <= i)%Z by (apply (Hno i v); now left). assert (0 <= j)%Z by (apply (Hno j u); now right).
      replace i with j by lia. now apply in_map with (f := fst) in Hj.
    + apply IH; auto. intros j u Hj. apply (Hno j u). now right.
  - intros i v Hi. apply in_map_iff in Hi as ((j & u) & Ej & Hj). injection Ej as <- <-. simpl.
    rewrite HO in Hj. apply Hnn in Hj. rewrite ga_new_length. lia.
  - rewrite ga_new_length in L.
    assert (Hall : forall k, k < N -> exists v, nth_error g k = Some (Some v) /\ In (Z.of_nat k, v) xs).
    { intros k Hlt. destruct (Hk k Hlt) as (v & Hv). exists v. split; auto. apply S. unfold ws.
      apply in_map_iff. exists (Z.of_nat k, v). split; [simpl; f_equal; lia|]. now rewrite HO. }
    assert (Harr : exists arr, g = map Some arr).
    { assert (forall m, m <= N -> exists arr, firstn m g = map Some arr).
      { induction m as [|m IH]; intros Hm; [now exists []|].
        destruct IH as (a & Ha); [lia|]. destruct (Hall m) as (v & Hv & _); [lia|]. exists (a ++ [v])%list.
        rewrite map_app, <- Ha. simpl. clear -Hv. revert m Hv. induction g as [|x g' IH]; intros [|m] Hv; simpl in *; try discriminate.
        - congruence.
        - f_equal. now apply IH. }
      destruct (H N (le_n N)) as (a & Ha). exists a. rewrite <- Ha. rewrite <- L. symmetry. apply firstn_all. }
    destruct Harr as (arr & ->). exists arr. rewrite map_length in L. split; [exact E|]. split; [exact L|]. split; [|exact Hk].
    intros i v Hi. assert (Hb := Hnn i v Hi). assert (nth_error (map Some arr) (Z.to_nat i) = Some (Some v)).
    { apply S. unfold ws. apply in_map_iff. exists (i, v). split; auto. now rewrite HO. }
    rewrite nth_error_map in H. destruct (nth_error arr (Z.to_nat i)); simpl in H; congruence.
Qed.

Lemma ga_get_full {A} (arr : list A) : ga_get (map Some arr) 0 (length arr) = Ok arr.
Proof.
  apply ga_get_some.
  - now rewrite map_length.
  - intros i Hi. reflexivity.
Qed.

Lemma ga_gather_full {A} (arr : list A) (d : A) idx : (forall i, In i idx -> i < length arr) ->
  ga_gather (map Some arr) idx = Ok (map (fun i => nth i arr d) idx).
Proof.
  intros H. apply (@gather_all A (fun i => i)). intros i Hi. rewrite nth_error_map. 
  rewrite (nth_error_nth' arr d) by auto. reflexivity.
Qed.

(** * Finding the global index of an end *)
Lemma blk_find_sound o pos blk i : blk_find o pos blk = Some i -> pos <= i /\ nth_error blk (i - pos) = Some o.
Proof.
  revert pos; induction blk as [|x blk IH]; intros pos H; simpl in H; [discriminate|].
  destruct (Z.eqb_spec x o) as [->|].
  - injection H as <-. split; [lia|]. now rewrite Nat.sub_diag.
  - apply IH in H as [Hl Hn]. split; [lia|]. replace (i - pos) with (S (i - S pos)) by lia. exact Hn.
Qed.
Lemma blk_find_complete o pos blk : In o blk -> exists i, blk_find o pos blk = Some i.
Proof.
  revert pos; induction blk as [|x blk IH]; intros pos H; simpl; [destruct H|].
  destruct (Z.eqb_spec x o) as [->|]; [now eexists|]. destruct H as [->|H]; [congruence|]. now apply IH.
Qed.
Lemma cut_length sizes pos l : length (cut sizes pos l) = length sizes.
Proof. revert pos l; induction sizes as [|s r IH]; intros pos l; simpl; auto. Qed.
Lemma cut_sound sizes pos l s blk : In (s, blk) (cut sizes pos l) ->
  pos <= s /\ forall j v, nth_error blk j = Some v -> nth_error l (s - pos + j) = Some v.
Proof.
  revert pos l; induction sizes as [|n r IH]; intros pos l H; simpl in H; [destruct H|].
  destruct H as [H|H].
  - injection H as <- <-. split; [lia|]. intros j v Hj. rewrite Nat.sub_diag. simpl.
    destruct (le_lt_dec n j); [rewrite nth_error_firstn_ge in Hj by lia; discriminate|].
    now rewrite nth_error_firstn' in Hj.
  - apply IH in H as [Hl Hn]. split; [lia|]. intros j v Hj. apply Hn in Hj. rewrite nth_error_skipn' in Hj.
    replace (s - pos + j) with (n + (s - (pos + n) + j)) by lia. exact Hj.
Qed.
Lemma cut_complete sizes pos l k o : nth_error l k = Some o -> length l <= sumn sizes ->
  exists q s blk, nth_error (cut sizes pos l) q = Some (s, blk) /\ In o blk.
Proof.
  revert pos l k; induction sizes as [|n r IH]; intros pos l k Hk Hl; simpl in *.
  - destruct l; [destruct k; discriminate|simpl in Hl; lia].
  - destruct (le_lt_dec n k) as [Hnk|Hnk].
    + destruct (IH (pos + n) (skipn n l) (k - n)) as (q & s & blk & Hq & Hi).
      * rewrite nth_error_skipn'. replace (n + (k - n)) with k by lia. exact Hk.
      * rewrite skipn_length. lia.
      * exists (S q), s, blk. now split.
    + exists 0, pos, (firstn n l). split; [reflexivity|]. apply nth_error_In with (n := k).
      now rewrite nth_error_firstn'.
Qed.

Lemma edge_end_correct arr dist me o k :
  (forall i, nth_error arr i = Some o -> i = k) -> nth_error arr k = Some o ->
  length arr <= sumn dist -> me < length dist ->
  edge_end (cut dist 0 arr) me o = k.
Proof.
  intros HU Hk HL Hme. unfold edge_end. rewrite cut_length. set (P := length dist) in *.
  set (f := fun p => blk_find o (fst (nth ((me + p) mod P) (cut dist 0 arr) (0, [])))
                       (snd (nth ((me + p) mod P) (cut dist 0 arr) (0, [])))).
  change (fold_left (fun acc p => match f p with Some i => i | None => acc end) (iota P) 0 = k).
  assert (Hf : forall p i, f p = Some i -> i = k).
  { intros p i Hi. unfold f in Hi. apply blk_find_sound in Hi as [Hl Hn].
    set (x := nth ((me + p) mod P) (cut dist 0 arr) (0, [])) in *.
    destruct (in_dec (fun a b : nat * list Z => ltac:(decide equality; [apply list_eq_dec, Z.eq_dec|apply Nat.eq_dec])) x (cut dist 0 arr)) as [Hx|Hx].
    - destruct x as [s blk]. simpl in *. apply cut_sound in Hx as [_ Hs]. apply HU. apply Hs in Hn.
      replace (s - 0 + (i - s)) with i in Hn by lia. exact Hn.
    - destruct (le_lt_dec (length (cut dist 0 arr)) ((me + p) mod P)) as [Hge|Hlt].
      + unfold x in Hn. rewrite (nth_overflow _ _ Hge) in Hn. simpl in Hn. destruct (i - 0); discriminate.
      + exfalso. apply Hx. unfold x. now apply nth_In. }
  assert (Hex : exists p, In p (iota P) /\ exists i, f p = Some i).
  { destruct (@cut_complete dist 0 arr k o Hk HL) as (q & s & blk & Hq & Hi).
    assert (HqP : q < P). { unfold P. rewrite <- (cut_length dist 0 arr). apply nth_error_Some. congruence. }
    exists ((q + P - me) mod P). split; [apply in_iota; apply Nat.mod_upper_bound; lia|].
    unfold f. replace ((me + (q + P - me) mod P) mod P) with q.
    - erewrite nth_error_nth by exact Hq. simpl. now apply blk_find_complete.
    - rewrite Nat.add_mod_idemp_r by lia. replace (me + (q + P - me)) with (q + 1 * P) by lia.
      rewrite Nat.mod_add by lia. now rewrite Nat.mod_small. }
  clearbody f. clear -Hf Hex. generalize 0 as acc. generalize dependent (iota P). intros l.
  assert (Hkeep : forall l', fold_left (fun acc p => match f p with Some i => i | None => acc end) l' k = k).
  { induction l' as [|p l' IH]; simpl; auto. destruct (f p) as [i|] eqn:E; auto. apply Hf in E. now subst. }
  induction l as [|p l IH]; intros (q & Hq & i & Hi) acc; [destruct Hq|]. simpl.
  destruct (f p) as [j|] eqn:E.
  - apply Hf in E. subst. apply Hkeep.
  - destruct Hq as [->|Hq]; [congruence|]. apply IH. now exists q; split; [|exists i].
Qed.

(** * sort + unique without erase *)
Lemma In_insert x y l : In x (insert y l) <-> x = y \/ In x l.
Proof.
  induction l as [|z l IH]; simpl; [intuition|]. destruct (y <=? z)%Z; simpl; [intuition|]. rewrite IH. intuition.
Qed.
Lemma In_isort x l : In x (isort l) <-> In x l.
Proof. induction l as [|y l IH]; simpl; [tauto|]. rewrite In_insert, IH. intuition. Qed.
Lemma In_unique x l : In x (unique l) <-> In x l.
Proof.
  induction l as [|y l IH]; [simpl; tauto|]. simpl. destruct l as [|z l]; [simpl; tauto|].
  destruct (Z.eqb_spec y z) as [->|].
  - rewrite IH. simpl. tauto.
  - simpl in *. rewrite IH. tauto.
Qed.
Lemma In_skipn_sub {A} (x : A) n l : In x (skipn n l) -> In x l.
Proof. revert n; induction l as [|y l IH]; intros [|n]; simpl; auto. intros H. right. now apply (IH n). Qed.
Lemma In_sort_unique x l : In x (sort_unique_noerase l) <-> In x l.
Proof.
  unfold sort_unique_noerase. rewrite in_app_iff, In_unique, In_isort. split; [|tauto].
  intros [H|H]; auto. apply In_skipn_sub in H. now rewrite In_isort in H.
Qed.

(** * The table of ghost destinations *)
Definition gh (g : nat) (es : list (nat * nat * (Z * Z))) : list Z :=
  flat_map (fun e => if (fst (snd e) =? snd (snd e))%Z then []
                     else ((if fst (fst e) =? g then [snd (snd e)] else []) ++
                           (if snd (fst e) =? g then [fst (snd e)] else []))%list) es.

Lemma row_put_ok cap nid d rows : nid < length rows -> length (nth nid rows []) < cap ->
  exists rows', row_put cap nid d rows = Ok rows' /\ length rows' = length rows /\
    forall g, nth g rows' [] = (nth g rows [] ++ (if nid =? g then [d] else []))%list.
Proof.
  intros Hn Hc. unfold row_put. rewrite (nth_error_nth' rows [] Hn). 
  destruct (Nat.ltb_spec (length (nth nid rows [])) cap); [|lia].
  eexists. split; [reflexivity|]. split; [apply upd_length|]. intros g.
  destruct (Nat.eqb_spec nid g) as [->|].
  - now rewrite nth_upd_same_gen.
  - rewrite nth_upd_other_gen by auto. now rewrite app_nil_r.
Qed.

Lemma ghost_fill_ok cap es rows :
  (forall g, g < length rows -> length (nth g rows []) + length (gh g es) <= cap) ->
  (forall e, In e es -> fst (fst e) < length rows /\ snd (fst e) < length rows) ->
  exists rows', ghost_fill cap es rows = Ok rows' /\ length rows' = length rows /\
    forall g, nth g rows' [] = (nth g rows [] ++ gh g es)%list.
Proof.
  revert rows; induction es as [|[[lo hi] [dlo dhi]] es IH]; intros rows Hc Hb.
  - exists rows. split; [reflexivity|]. split; auto. intros g. simpl. now rewrite app_nil_r.
  - cbn [ghost_fill]. destruct (Hb (lo, hi, (dlo, dhi)) (or_introl eq_refl)) as [Hlo Hhi]. simpl in Hlo, Hhi.
    assert (Hg : forall g, gh g ((lo, hi, (dlo, dhi)) :: es) =
      ((if (dlo =? dhi)%Z then [] else ((if lo =? g then [dhi] else []) ++ (if hi =? g then [dlo] else []))%list) ++ gh g es)%list) by reflexivity.
    destruct (Z.eqb_spec dlo dhi) as [Heq|Hne].
    + destruct (IH rows) as (rows' & E & L & S).
      * intros g Hgl. specialize (Hc g Hgl). rewrite Hg in Hc. exact Hc.
      * intros e He. apply Hb. now right.
      * exists rows'. split; [exact E|]. split; auto. intros g. rewrite S, Hg. reflexivity.
    + destruct (@row_put_ok cap lo dhi rows Hlo) as (r1 & E1 & L1 & S1).
      { specialize (Hc lo Hlo). rewrite Hg, Nat.eqb_refl, !app_length in Hc. simpl in Hc. lia. }
      rewrite E1. cbn [obind].
      destruct (@row_put_ok cap hi dlo r1) as (r2 & E2 & L2 & S2).
      { lia. }
      { specialize (Hc hi Hhi). rewrite Hg, Nat.eqb_refl, !app_length in Hc. rewrite S1, app_length. simpl in *. lia. }
      rewrite E2. cbn [obind]. destruct (IH r2) as (r3 & E3 & L3 & S3).
      * intros g Hgl. assert (Hgl' : g < length rows) by lia. specialize (Hc g Hgl'). rewrite Hg, !app_length in Hc.
        rewrite S2, S1, !app_length. lia.
      * intros e He. rewrite L2, L1. apply Hb. now right.
      * exists r3. split; [exact E3|]. split; [lia|]. intros g. rewrite S3, S2, S1, Hg, <- !app_assoc. reflexivity.
Qed.

Lemma gh_In g es d : In d (gh g es) <->
  exists lo hi dlo dhi, In (lo, hi, (dlo, dhi)) es /\ dlo <> dhi /\ ((lo = g /\ d = dhi) \/ (hi = g /\ d = dlo)).
Proof.
  unfold gh. rewrite in_flat_map. split.
  - intros ([[lo hi] [dlo dhi]] & He & Hd). simpl in Hd. destruct (Z.eqb_spec dlo dhi); [destruct Hd|].
    exists lo, hi, dlo, dhi. repeat split; auto. apply in_app_or in Hd.
    destruct (Nat.eqb_spec lo g), (Nat.eqb_spec hi g); simpl in Hd; intuition.
  - intros (lo & hi & dlo & dhi & He & Hne & H). exists (lo, hi, (dlo, dhi)). split; auto. simpl.
    destruct (Z.eqb_spec dlo dhi); [congruence|]. apply in_or_app.
    destruct H as [[-> ->]|[-> ->]]; rewrite Nat.eqb_refl; [left|right]; now left.
Qed.

Lemma fold_natmax_ge l m : m <= fold_left Nat.max l m /\ forall x, In x l -> x <= fold_left Nat.max l m.
Proof.
  revert m; induction l as [|y l IH]; intros m; simpl; [split; [lia|tauto]|].
  destruct (IH (Nat.max m y)) as [H1 H2]. split; [lia|]. intros x [->|H]; [lia|]. now apply H2.
Qed.

Lemma gh_le_conn g (ends : list (nat * nat)) ds :
  length (gh g (combine (map (fun e : nat * nat => (Nat.min (fst e) (snd e), Nat.max (fst e) (snd e))) ends) ds)) <=
  conn (flat_map (fun e : nat * nat => [fst e; snd e]) ends) g.
Proof.
  revert ds; induction ends as [|[a b] ends IH]; intros [|[d1 d2] ds]; try (simpl; lia).
  assert (E : gh g (combine (map (fun e : nat * nat => (Nat.min (fst e) (snd e), Nat.max (fst e) (snd e))) ((a, b) :: ends)) ((d1, d2) :: ds))
     = ((if (d1 =? d2)%Z then [] else ((if Nat.min a b =? g then [d2] else []) ++ (if Nat.max a b =? g then [d1] else []))%list) ++
       gh g (combine (map (fun e : nat * nat => (Nat.min (fst e) (snd e), Nat.max (fst e) (snd e))) ends) ds))%list) by reflexivity.
  rewrite E, app_length. specialize (IH ds).
  assert (Ec : conn (flat_map (fun e : nat * nat => [fst e; snd e]) ((a, b) :: ends)) g =
    (if g =? a then 1 else 0) + (if g =? b then 1 else 0) + conn (flat_map (fun e : nat * nat => [fst e; snd e]) ends) g).
  { unfold conn. simpl. destruct (g =? a), (g =? b); simpl; lia. }
  rewrite Ec.
  assert (length (if (d1 =? d2)%Z then [] else ((if Nat.min a b =? g then [d2] else []) ++ (if Nat.max a b =? g then [d1] else []))%list)
    <= (if g =? a then 1 else 0) + (if g =? b then 1 else 0)).
  { destruct (Z.eqb_spec d1 d2); simpl; [lia|]. 
    destruct (Nat.eqb_spec (Nat.min a b) g), (Nat.eqb_spec (Nat.max a b) g), (Nat.eqb_spec g a), (Nat.eqb_spec g b); simpl; lia. }
  lia.
Qed.

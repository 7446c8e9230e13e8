(** Proofs for GlobalStore and GlobalVector. *)
From Verif Require Import Prelude GAModel GAProofs ParModel ParSpec ParProofs.

Lemma added_In {A} (xs : list (Z * A)) i v : NoDup (map fst xs) -> (added i xs = Some v <-> In (i, v) xs).
Proof.
  induction xs as [|[j u] xs IH]; intros HN; simpl; [split; [discriminate|tauto]|].
  simpl in HN. inversion HN as [|? ? Hj HN']; subst. destruct (Z.eqb_spec j i) as [->|Hne].
  - split; [intros E; inversion E; now left|]. intros [E|Hin]; [congruence|].
    exfalso. apply Hj. now apply in_map with (f := fst) in Hin.
  - rewrite (IH HN'). split; [tauto|]. intros [E|?]; [congruence|auto].
Qed.

Lemma added_None {A} (xs : list (Z * A)) i : added i xs = None <-> ~ In i (map fst xs).
Proof.
  induction xs as [|[j u] xs IH]; simpl; [tauto|]. destruct (Z.eqb_spec j i) as [->|Hne].
  - split; [discriminate|]. intros H; exfalso; apply H; now left.
  - rewrite IH. tauto.
Qed.

Lemma fold_max_ge l m : (m <= fold_left Z.max l m)%Z /\ forall x, In x l -> (x <= fold_left Z.max l m)%Z.
Proof.
  revert m; induction l as [|y l IH]; intros m; simpl; [split; [lia|tauto]|].
  destruct (IH (Z.max m y)) as [H1 H2]. split; [lia|]. intros x [->|Hx]; [lia|auto].
Qed.

Lemma fold_max_mem l m : fold_left Z.max l m = m \/ In (fold_left Z.max l m) l.
Proof.
  revert m; induction l as [|y l IH]; intros m; simpl; [now left|].
  destruct (IH (Z.max m y)) as [E|Hin]; [|right; now right].
  rewrite E. destruct (Z.max_spec m y) as [[_ ->]|[_ ->]]; auto.
Qed.

Lemma nth_map_iota {B} (f : nat -> B) n i d : i < n -> nth i (map f (iota n)) d = f i.
Proof.
  intros H. rewrite nth_indep with (d' := f 0) by (rewrite map_length; unfold iota; now rewrite seq_length).
  rewrite map_nth. unfold iota. now rewrite seq_nth.
Qed.

Lemma filter_idx_le1 {A} (xs : list (Z * A)) i : NoDup (map fst xs) ->
  length (filter (fun x => fst x =? i)%Z xs) <= 1.
Proof.
  induction xs as [|[j v] xs IH]; intros HN; simpl; [lia|]. inversion HN as [|? ? Hj HN']; subst.
  destruct (Z.eqb_spec j i) as [->|]; [|now apply IH]. simpl.
  assert (E : filter (fun x : Z * A => (fst x =? i)%Z) xs = []).
  { clear -Hj. induction xs as [|[k v] xs IH]; simpl; auto. destruct (Z.eqb_spec k i) as [->|].
    - exfalso; apply Hj; now left.
    - apply IH. intros H; apply Hj; now right. }
  rewrite E. simpl. lia.
Qed.

Lemma filter_idx_dup {A} (xs : list (Z * A)) : ~ NoDup (map fst xs) ->
  exists i, In i (map fst xs) /\ 2 <= length (filter (fun x => fst x =? i)%Z xs).
Proof.
  induction xs as [|[j v] xs IH]; intros H; [exfalso; apply H; constructor|].
  destruct (in_dec Z.eq_dec j (map fst xs)) as [Hin|Hn].
  - exists j. split; [now left|]. simpl. rewrite Z.eqb_refl. simpl.
    apply in_map_iff in Hin as ([k u] & E & Hin). simpl in E; subst.
    assert (In (j, u) (filter (fun x => fst x =? j)%Z xs)) by (apply filter_In; simpl; rewrite Z.eqb_refl; auto).
    destruct (filter _ xs); simpl in *; [tauto|lia].
  - destruct IH as (i & Hi & Hl).
    { intros HN. apply H. simpl. constructor; auto. }
    exists i. split; [now right|]. simpl. destruct (j =? i)%Z; simpl; lia.
Qed.

Section GS.
Context {A : Type}.
Implicit Types (w : list (list (Z * list A))).

Lemma gs_len_in (all : list (Z * list A)) i v : NoDup (map fst all) -> In (Z.of_nat i, v) all -> gs_len all i = length v.
Proof.
  intros HN. unfold gs_len. induction all as [|[j u] all IH]; intros Hin; [destruct Hin|].
  simpl in HN. inversion HN as [|? ? Hj HN']; subst. simpl.
  destruct Hin as [E|Hin].
  - inversion E; subst. rewrite Z.eqb_refl.
    assert (E0 : sumn (map (fun x : Z * list A => if (fst x =? Z.of_nat i)%Z then length (snd x) else 0) all) = 0).
    { clear -Hj. induction all as [|[k u] all IH]; simpl; auto. destruct (Z.eqb_spec k (Z.of_nat i)) as [->|].
      - exfalso; apply Hj; now left.
      - apply IH. intros H; apply Hj; now right. }
    lia.
  - destruct (Z.eqb_spec j (Z.of_nat i)) as [->|].
    + exfalso. apply Hj. now apply in_map with (f := fst) in Hin.
    + rewrite IH; auto.
Qed.

Lemma gs_len_out (all : list (Z * list A)) i : ~ In (Z.of_nat i) (map fst all) -> gs_len all i = 0.
Proof.
  unfold gs_len. induction all as [|[k u] all IH]; simpl; auto. intros H. destruct (Z.eqb_spec k (Z.of_nat i)) as [->|].
  - exfalso; apply H; now left.
  - apply IH. tauto.
Qed.

Lemma NoDup_map_fst {X Y} (l : list (X * Y)) : NoDup (map fst l) -> NoDup l.
Proof. apply NoDup_map_inv. Qed.

Theorem gs_correct w pw :
  let all := concat w in
  Forall (fun x => 0 <= fst x)%Z all -> NoDup (map fst all) ->
  Forall (fun x => snd x <> []) all -> all <> [] -> Permutation pw all ->
  exists s, gs_upload w pw = Ok s /\
    (forall i v, In (i, v) all -> gs_getVector s i = Ok v) /\
    (forall i, (i < 0)%Z \/ (forall j, In j (map fst all) -> (j < i)%Z) -> gs_getVector s i = Throw) /\
    (forall i j, (0 <= i)%Z -> In j (map fst all) -> (i < j)%Z -> ~ In i (map fst all) -> gs_getVector s i = UB).
Proof.
  intros all H0 HN Hne Hall Hpw. unfold gs_upload. fold all. clearbody all.
  assert (E1 : existsb (fun x : Z * list A => (fst x <? 0)%Z) all = false).
  { apply not_true_is_false. intros E. apply existsb_exists in E as (x & Hx & Hlt).
    rewrite Forall_forall in H0. specialize (H0 x Hx). lia. }
  rewrite E1. set (m := gs_max (map fst all)).
  destruct (fold_max_ge (map fst all) 0) as [Hm0 Hm]. fold (gs_max (map fst all)) in Hm0, Hm. fold m in Hm0, Hm.
  assert (Hex : exists j v, In (j, v) all) by (clear -Hall; destruct all as [|[j v] r]; [congruence|]; exists j, v; now left).
  set (n := S (Z.to_nat m)).
  destruct (existsb (fun i => 1 <? length (filter (fun x : Z * list A => (fst x =? Z.of_nat i)%Z) all)) (iota n)) eqn:E2.
  { exfalso. apply existsb_exists in E2 as (i & Hi & Hlt). pose proof (filter_idx_le1 all (Z.of_nat i) HN). lia. }
  set (sizes := map (gs_len all) (iota n)).
  assert (Hlen : length sizes = n) by (unfold sizes, iota; now rewrite map_length, seq_length).
  assert (Hsz : forall i, i < n -> nth i sizes 0 = gs_len all i) by (intros i Hi; now apply nth_map_iota).
  assert (Hin : forall i v, In (i, v) all -> (0 <= i)%Z /\ Z.to_nat i < n /\ nth (Z.to_nat i) sizes 0 = length v /\ v <> []).
  { intros i v Hi. rewrite Forall_forall in H0, Hne. pose proof (H0 _ Hi) as Hi0. simpl in Hi0.
    assert (i <= m)%Z by (apply Hm; now apply in_map with (f := fst) in Hi).
    assert (Z.to_nat i < n) by (unfold n; lia). repeat split; auto.
    - rewrite Hsz by auto. apply gs_len_in; auto. now rewrite Z2Nat.id.
    - apply (Hne _ Hi). }
  assert (Hpos : 1 <= sumn sizes).
  { destruct Hex as (i & v & Hiv). destruct (Hin i v Hiv) as (_ & Hlt & Hs & Hv).
    pose proof (@offset_end sizes (Z.to_nat i)). destruct v; [congruence|]. cbn [length] in Hs. lia. }
  destruct (Nat.ltb_spec (sumn sizes) 1); [lia|].
  destruct (existsb (fun x : Z * list A => length (snd x) =? 0) all) eqn:E3.
  { exfalso. apply existsb_exists in E3 as ([i v] & Hi & E). destruct (Hin i v Hi) as (_ & _ & _ & Hv).
    simpl in E. destruct v; [congruence|discriminate]. }
  destruct (@ga_puts_keyed A _ (fun x : Z * list A => offset sizes (Z.to_nat (fst x))) snd pw (ga_new A (sumn sizes)))
    as (g & Eg & Lg & Sg & Og).
  - eapply Permutation_NoDup; [symmetry; exact Hpw|]. now apply NoDup_map_fst.
  - intros [i v] Hi. apply (Permutation_in _ Hpw) in Hi. destruct (Hin i v Hi) as (_ & Hlt & Hs & Hv).
    rewrite ga_new_length. simpl. rewrite <- Hs. apply offset_end. lia.
  - intros [i v] [j u] Hi Hj Hne'. apply (Permutation_in _ Hpw) in Hi, Hj.
    destruct (Hin i v Hi) as (Hi0 & Hlt & Hs & Hv). destruct (Hin j u Hj) as (Hj0 & Hlt' & Hs' & Hu).
    assert (i <> j).
    { intros <-. apply Hne'. f_equal. apply (added_In all i v HN) in Hi. apply (added_In all i u HN) in Hj. congruence. }
    simpl. rewrite <- Hs, <- Hs'.
    destruct (lt_eq_lt_dec (Z.to_nat i) (Z.to_nat j)) as [[Hl|Hl]|Hl].
    + left. apply offset_disjoint; lia.
    + exfalso. lia.
    + right. apply offset_disjoint; lia.
  - rewrite Eg. cbn [obind]. eexists. split; [reflexivity|]. unfold gs_getVector; cbn [gs_num gs_ga gs_size gs_begin].
    split; [|split].
    + intros i v Hi. destruct (Hin i v Hi) as (Hi0 & Hlt & Hs & Hv).
      destruct ((i <? 0) || (Z.of_nat n <=? i))%Z eqn:E; [lia|]. rewrite Hs.
      destruct (Nat.eqb_spec (length v) 0) as [E0|_]; [destruct v; [congruence|discriminate]|].
      apply ga_get_some.
      * rewrite Lg, ga_new_length, <- Hs. apply offset_end. lia.
      * intros k Hk. apply (Sg (i, v) k); auto. apply (Permutation_in _ (Permutation_sym Hpw)); auto.
    + intros i Hi. destruct ((i <? 0) || (Z.of_nat n <=? i))%Z eqn:E; auto. exfalso.
      destruct Hi as [Hi|Hi]; [lia|].
      assert (m < i)%Z; [|unfold n in E; lia].
      unfold m, gs_max. destruct (fold_max_mem (map fst all) 0) as [E0|Hmem]; [|now apply Hi].
      destruct Hex as (j & v & Hjv). destruct (Hin j v Hjv) as (Hj0 & _). apply in_map with (f := fst) in Hjv.
      specialize (Hi j Hjv). lia.
    + intros i j Hi0 Hj Hij Hnin. apply Hm in Hj.
      destruct ((i <? 0) || (Z.of_nat n <=? i))%Z eqn:E; [unfold n in E; lia|].
      rewrite Hsz by (unfold n; lia). rewrite gs_len_out; [reflexivity|]. now rewrite Z2Nat.id.
Qed.

Theorem gs_rejects w pw :
  (Exists (fun x => fst x < 0)%Z (concat w) \/ ~ NoDup (map fst (concat w))) -> gs_upload w pw = Throw.
Proof.
  intros H. unfold gs_upload. destruct (existsb (fun x : Z * list A => (fst x <? 0)%Z) (concat w)) eqn:E1; auto.
  assert (H0 : forall x, In x (concat w) -> (0 <= fst x)%Z).
  { intros x Hx. destruct (Z.ltb_spec (fst x) 0); [|auto]. exfalso. apply not_true_iff_false in E1. apply E1.
    apply existsb_exists. exists x. split; auto. lia. }
  destruct H as [H|H].
  { exfalso. apply Exists_exists in H as (x & Hx & Hlt). specialize (H0 x Hx). lia. }
  apply filter_idx_dup in H as (i & Hi & Hl).
  match goal with |- (if ?b then _ else _) = _ => assert (E : b = true) end.
  { apply existsb_exists. exists (Z.to_nat i). 
    assert (0 <= i)%Z by (apply in_map_iff in Hi as (x & <- & Hx); auto).
    split.
    - apply in_iota. pose proof (proj2 (fold_max_ge (map fst (concat w)) 0) i Hi). unfold gs_max. lia.
    - rewrite Z2Nat.id by auto. lia. }
  now rewrite E.
Qed.
End GS.

Section GV.
Context {A : Type}.
Variable zero : A.
Variable own : nat -> nat.
Implicit Types (w : list (list (nat * A))).

Lemma nth_error_gv_zero n p (g : garray A) i : i < n -> 
  nth_error (gv_zero zero own n p g) i = Some (if own i =? p then Some zero else nth i g None).
Proof.
  intros H. unfold gv_zero. rewrite nth_error_map. unfold iota. rewrite nth_error_nth' with (d := 0) by (now rewrite seq_length).
  rewrite seq_nth by auto. reflexivity.
Qed.
Lemma gv_zero_length n p (g : garray A) : length (gv_zero zero own n p g) = n.
Proof. unfold gv_zero, iota. now rewrite map_length, seq_length. Qed.

Lemma nth_None_of {B} (l : list (option B)) i : nth_error l i = None -> nth i l None = None.
Proof. intros H. apply nth_error_None in H. now apply nth_overflow. Qed.

(** The clearing phase. *)
Lemma fill_zeros w n a g r : length g = n -> forallb (fun x => negb (fst x)) a = true ->
  exists g', gv_fill zero own w n (a ++ r) g = gv_fill zero own w n r g' /\ length g' = n /\
    forall i, i < n -> nth_error g' i = Some (if existsb (fun x => own i =? snd x) a then Some zero else nth i g None).
Proof.
  revert g; induction a as [|[b p] a IH]; intros g Hg Hf.
  - exists g. simpl. split; auto. split; auto. intros i Hi. now apply nth_error_nth'; lia.
  - simpl in Hf. destruct b; [discriminate|]. simpl in Hf. cbn [app gv_fill].
    destruct (IH (gv_zero zero own n p g)) as (g' & E & L & H); auto; [apply gv_zero_length|].
    exists g'. rewrite E. split; auto. split; auto. intros i Hi. rewrite H by auto. f_equal. simpl.
    rewrite (nth_error_nth _ _ None (nth_error_gv_zero p g Hi)).
    destruct (existsb _ a); [now rewrite orb_true_r|]. rewrite orb_false_r. reflexivity.
Qed.

Lemma ga_puts_app {B} (g : garray B) x y : ga_puts g (x ++ y)%list = obind (ga_puts g x) (fun g' => ga_puts g' y).
Proof.
  revert g; induction x as [|[lo xs] x IH]; intros g; simpl; auto. destruct (ga_put g lo xs); simpl; auto.
Qed.

(** The writing phase is one sequence of puts. *)
Lemma fill_writes w n b g : forallb fst b = true ->
  gv_fill zero own w n b g = ga_scatter g (flat_map (fun x : bool * nat => nth (snd x) w []) b).
Proof.
  revert g; induction b as [|[f p] b IH]; intros g Hf; [reflexivity|].
  simpl in Hf. destruct f; [|discriminate]. cbn [gv_fill flat_map snd]. unfold ga_scatter.
  rewrite map_app, ga_puts_app. fold (ga_scatter g (nth p w [])). destruct (ga_scatter g (nth p w [])) as [g'| |] eqn:E; cbn [obind]; auto.
  rewrite (IH g' Hf). reflexivity.
Qed.

Lemma scatter_spec (g : garray A) ws : NoDup (map fst ws) -> (forall i v, In (i, v) ws -> i < length g) ->
  exists g', ga_scatter g ws = Ok g' /\ length g' = length g /\
    (forall i v, In (i, v) ws -> nth_error g' i = Some (Some v)) /\
    (forall i, ~ In i (map fst ws) -> nth_error g' i = nth_error g i).
Proof.
  intros HN Hb. unfold ga_scatter.
  destruct (@ga_puts_keyed A _ (fun x : nat * A => fst x) (fun x => [snd x]) ws g) as (g' & E & L & S & O).
  - now apply NoDup_map_fst.
  - intros [i v] Hi. simpl. specialize (Hb i v Hi). lia.
  - intros [i v] [j u] Hi Hj Hne. simpl. assert (i <> j); [|lia].
    intros <-. apply Hne. f_equal. 
    clear -HN Hi Hj. induction ws as [|[k x] ws IH]; [destruct Hi|]. simpl in HN. inversion HN as [|? ? Hk HN']; subst.
    destruct Hi as [Hi|Hi], Hj as [Hj|Hj]; try congruence; auto.
    + inversion Hi; subst. exfalso; apply Hk. now apply in_map with (f := fst) in Hj.
    + inversion Hj; subst. exfalso; apply Hk. now apply in_map with (f := fst) in Hi.
  - exists g'. split; [exact E|]. split; auto. split.
    + intros i v Hi. specialize (S (i, v) 0 Hi). simpl in S. rewrite Nat.add_0_r in S. apply S. lia.
    + intros i Hi. apply O. intros [j u] Hj. simpl. 
      assert (i <> j); [|lia]. intros <-. apply Hi. now apply in_map with (f := fst) in Hj.
Qed.

(** Counters. *)
Definition bump (c : list nat) (x : nat * A) := upd c (fst x) (S (nth (fst x) c 0)).
Lemma bump_fold xs c i : (forall j v, In (j, v) xs -> j < length c) ->
  length (fold_left bump xs c) = length c /\
  nth i (fold_left bump xs c) 0 = nth i c 0 + length (filter (fun x => fst x =? i) xs).
Proof.
  revert c; induction xs as [|[j v] xs IH]; intros c Hb; [simpl; split; auto|].
  cbn [fold_left]. assert (Hj : j < length c) by (apply (Hb j v); now left).
  destruct (IH (bump c (j, v))) as [L E].
  { intros k u Hk. unfold bump. rewrite upd_length. apply (Hb k u); now right. }
  split; [rewrite L; unfold bump; apply upd_length|]. rewrite E. unfold bump. simpl.
  destruct (Nat.eqb_spec j i) as [->|Hne].
  - rewrite nth_upd_same by auto. simpl. lia.
  - rewrite nth_upd_other by auto. reflexivity.
Qed.

Lemma check_accs w n a r c : (forall p j v, In (j, v) (nth p w []) -> j < length c) ->
  forallb (fun x => negb (fst x)) a = true ->
  exists c', gv_check own w n (a ++ r) c = gv_check own w n r c' /\ length c' = length c /\
    forall i, nth i c' 0 = nth i c 0 +
       length (filter (fun x => fst x =? i) (flat_map (fun x : bool * nat => nth (snd x) w []) a)).
Proof.
  revert c; induction a as [|[b p] a IH]; intros c Hb Hf.
  - exists c. simpl. repeat split; auto.
  - simpl in Hf. destruct b; [discriminate|]. simpl in Hf. cbn [app gv_check].
    change (fold_left _ (nth p w []) c) with (fold_left bump (nth p w []) c).
    assert (Hbp : forall j v, In (j, v) (nth p w []) -> j < length c) by (intros j v; apply Hb).
    destruct (bump_fold _ c 0 Hbp) as [L _].
    destruct (IH (fold_left bump (nth p w []) c)) as (c' & E & L' & H); auto.
    { intros q j v Hq. rewrite L. now apply (Hb q j v). }
    exists c'. rewrite E. split; auto. split; [lia|]. intros i. rewrite H. destruct (bump_fold _ c i Hbp) as [_ ->].
    cbn [flat_map snd]. rewrite filter_app, app_length. lia.
Qed.

Lemma check_checks w n b c : forallb fst b = true ->
  gv_check own w n b c = negb (existsb (fun x => existsb (fun i => (own i =? snd x) && (1 <? nth i c 0)) (iota n)) b).
Proof.
  induction b as [|[f p] b IH]; intros H; simpl; auto. simpl in H. destruct f; [|discriminate].
  rewrite IH by auto. simpl. destruct (existsb _ (iota n)); auto.
Qed.

Lemma sched_perm_parts P a b : Permutation (a ++ b)%list (sched_ops P) ->
  forallb (fun x => negb (fst x)) a = true -> forallb fst b = true ->
  Permutation (map snd a) (iota P) /\ Permutation (map snd b) (iota P).
Proof.
  intros H Ha Hb.
  assert (Hfilter : forall f, Permutation (filter f (a ++ b)%list) (filter f (sched_ops P))).
  { intros f. revert H. generalize (a ++ b)%list (sched_ops P). clear. intros l l' H.
    induction H as [|x l l' H IH|x y l|l1 l2 l3 H1 IH1 H2 IH2]; simpl; auto.
    - destruct (f x); auto.
    - destruct (f x), (f y); auto. apply perm_swap.
    - etransitivity; eauto. }
  assert (FT : forall l : list (bool * nat), forallb fst l = true -> filter fst l = l /\ filter (fun x => negb (fst x)) l = []).
  { clear. induction l as [|[c p] l IH]; simpl; auto. destruct c; [|discriminate]. intros H. destruct (IH H) as [-> ->]; auto. }
  assert (FF : forall l : list (bool * nat), forallb (fun x => negb (fst x)) l = true -> filter fst l = [] /\ filter (fun x => negb (fst x)) l = l).
  { clear. induction l as [|[c p] l IH]; simpl; auto. destruct c; [discriminate|]. simpl. intros H. destruct (IH H) as [-> ->]; auto. }
  assert (S1 : forallb (fun x : bool * nat => negb (fst x)) (map (pair false) (iota P)) = true).
  { apply forallb_forall. intros x Hx. apply in_map_iff in Hx as (p & <- & _). reflexivity. }
  assert (S2 : forallb (fun x : bool * nat => fst x) (map (pair true) (iota P)) = true).
  { apply forallb_forall. intros x Hx. apply in_map_iff in Hx as (p & <- & _). reflexivity. }
  assert (Hm : forall c, map (@snd bool nat) (map (pair c) (iota P)) = iota P).
  { intros c. rewrite map_map. simpl. apply map_id. }
  split.
  - specialize (Hfilter (fun x => negb (fst x))). unfold sched_ops in Hfilter. rewrite !filter_app in Hfilter.
    destruct (FF a Ha) as [_ Ea]. destruct (FT b Hb) as [_ Eb]. destruct (FF _ S1) as [_ E1]. destruct (FT _ S2) as [_ E2].
    rewrite Ea, Eb, E1, E2, !app_nil_r in Hfilter. apply (Permutation_map snd) in Hfilter. now rewrite Hm in Hfilter.
  - specialize (Hfilter fst). unfold sched_ops in Hfilter. rewrite !filter_app in Hfilter.
    destruct (FF a Ha) as [Ea _]. destruct (FT b Hb) as [Eb _]. destruct (FF _ S1) as [E1 _]. destruct (FT _ S2) as [E2 _].
    rewrite Ea, Eb, E1, E2 in Hfilter. simpl in Hfilter. apply (Permutation_map snd) in Hfilter. now rewrite Hm in Hfilter.
Qed.

Lemma writes_perm {X} (w : list (list X)) l : Permutation l (iota (length w)) ->
  Permutation (flat_map (fun p => nth p w []) l) (concat w).
Proof.
  intros H. rewrite (Permutation_flat_map _ H).
  assert (E : map (fun p => nth p w []) (iota (length w)) = w).
  { clear. apply nth_error_ext. intros i. rewrite nth_error_map. destruct (le_lt_dec (length w) i) as [Hi|Hi].
    - rewrite (proj2 (nth_error_None w i)) by auto.
      rewrite (proj2 (nth_error_None (iota (length w)) i)) by (unfold iota; now rewrite seq_length). reflexivity.
    - unfold iota. rewrite (nth_error_nth' (seq 0 (length w)) 0) by now rewrite seq_length.
      rewrite seq_nth by auto. simpl. symmetry. now apply nth_error_nth'. }
  rewrite flat_map_concat_map, E. auto.
Qed.

Lemma flat_map_snd {X Y Z} (f : Y -> list Z) (l : list (X * Y)) :
  flat_map (fun x => f (snd x)) l = flat_map f (map snd l).
Proof. induction l as [|x l IH]; simpl; auto. now rewrite IH. Qed.

Lemma map_fst_nat (xs : list (Z * A)) : Forall (fun x => 0 <= fst x)%Z xs ->
  NoDup (map fst xs) -> NoDup (map fst (map (fun x => (Z.to_nat (fst x), snd x)) xs)).
Proof.
  intros H0 HN. rewrite map_map. simpl. induction xs as [|[i v] xs IH]; simpl; [constructor|].
  simpl in HN. inversion HN as [|? ? Hi HN']; subst. inversion H0 as [|? ? Hi0 H0']; subst. simpl in *. constructor; [|auto].
  intros Hin. apply in_map_iff in Hin as ([j u] & E & Hj). simpl in E. apply Hi. apply in_map_iff. exists (j, u). split; auto.
  simpl. rewrite Forall_forall in H0'. specialize (H0' _ Hj). simpl in H0'. lia.
Qed.

Lemma concat_map_map {X Y} (f : X -> Y) (l : list (list X)) : concat (map (map f) l) = map f (concat l).
Proof. induction l as [|x l IH]; simpl; auto. now rewrite map_app, IH. Qed.

Definition natw (w : list (list (Z * A))) := map (map (fun x => (Z.to_nat (fst x), snd x))) w.

Lemma extent_bound (all : list (Z * A)) : Forall (fun x => 0 <= fst x)%Z all -> forall i v, In (i, v) all -> Z.to_nat i < extent all.
Proof.
  intros H0 i v Hi. unfold extent. rewrite Forall_forall in H0. specialize (H0 _ Hi). simpl in H0.
  pose proof (proj2 (fold_max_ge (map fst all) (-1)) i). apply in_map with (f := fst) in Hi. specialize (H Hi). lia.
Qed.

Lemma natw_bound (w : list (list (Z * A))) : Forall (fun x => 0 <= fst x)%Z (concat w) ->
  forall p j v, In (j, v) (nth p (natw w) []) -> j < extent (concat w).
Proof.
  intros H0 p j v Hin.
  assert (Hc : In (j, v) (concat (natw w))).
  { destruct (le_lt_dec (length (natw w)) p) as [Hp|Hp]; [rewrite nth_overflow in Hin by auto; destruct Hin|].
    apply in_concat. exists (nth p (natw w) []). split; auto. now apply nth_In. }
  unfold natw in Hc. rewrite concat_map_map in Hc. apply in_map_iff in Hc as ([i u] & E & Hi). inversion E; subst.
  eapply extent_bound; eauto.
Qed.

(** The duplicate check under a barrier: it accepts exactly when no index was used twice. *)
Lemma check_barrier (w : list (list (Z * A))) s : Forall (fun x => 0 <= fst x)%Z (concat w) ->
  (forall i, i < extent (concat w) -> own i < length w) ->
  Permutation s (sched_ops (length w)) -> barrier s ->
  gv_check own (natw w) (extent (concat w)) s (repeat 0 (extent (concat w))) = true <-> NoDup (map fst (concat w)).
Proof.
  intros H0 Hown HP (a & b & -> & Ha & Hb). set (n := extent (concat w)) in *.
  destruct (@check_accs (natw w) n a b (repeat 0 n)) as (c & E & L & Hc); auto.
  { intros p j v Hj. rewrite repeat_length. eapply natw_bound; eauto. }
  rewrite E, check_checks by auto. destruct (sched_perm_parts _ a b HP Ha Hb) as [Pa Pb].
  assert (HW : Permutation (flat_map (fun x : bool * nat => nth (snd x) (natw w) []) a) (concat (natw w))).
  { rewrite (flat_map_snd (fun p => nth p (natw w) [])). apply writes_perm. unfold natw. now rewrite map_length. }
  assert (Hcnt : forall i, nth i c 0 = length (filter (fun x => fst x =? Z.of_nat i)%Z (concat w))).
  { intros i. rewrite Hc. assert (E0 : nth i (repeat 0 n) 0 = 0) by (clear; revert i; induction n; intros [|i]; simpl; auto).
    rewrite E0. simpl. 
    assert (Hlen : forall f, length (filter f (flat_map (fun x : bool * nat => nth (snd x) (natw w) []) a)) =
                   length (filter f (concat (natw w)))).
    { intros f. revert HW. generalize (concat (natw w)). generalize (flat_map (fun x : bool * nat => nth (snd x) (natw w) []) a).
      clear. intros l l' H. induction H as [|x l l' H IH|x y l|l1 l2 l3 H1 IH1 H2 IH2]; simpl; auto.
      - destruct (f x); simpl; auto.
      - destruct (f x), (f y); simpl; auto.
      - congruence. }
    rewrite Hlen. unfold natw. rewrite concat_map_map. clear -H0. induction (concat w) as [|[j v] l IH]; simpl; auto.
    inversion H0 as [|? ? Hj H0']; subst. simpl in Hj.
    destruct (Nat.eqb_spec (Z.to_nat j) i), (Z.eqb_spec j (Z.of_nat i)); simpl; try lia; rewrite IH; auto. }
  rewrite negb_true_iff. split.
  - intros Hex. destruct (ListDec.NoDup_dec Z.eq_dec (map fst (concat w))) as [|Hnd]; auto. exfalso.
    apply filter_idx_dup in Hnd as (i & Hi & Hl).
    assert (Hin : exists v, In (i, v) (concat w)).
    { apply in_map_iff in Hi as ([j v] & <- & Hj). exists v. auto. }
    destruct Hin as [v Hv]. pose proof (extent_bound H0 _ _ Hv) as Hlt. fold n in Hlt.
    assert (Hi0 : (0 <= i)%Z) by (rewrite Forall_forall in H0; apply (H0 _ Hv)).
    assert (Hinb : In (own (Z.to_nat i)) (map snd b)).
    { apply (Permutation_in _ (Permutation_sym Pb)). apply in_iota. auto. }
    apply in_map_iff in Hinb as ([f p] & Ep & Hb'). simpl in Ep.
    apply not_true_iff_false in Hex. apply Hex. apply existsb_exists. exists (f, p). split; auto.
    apply existsb_exists. exists (Z.to_nat i). split; [now apply in_iota|]. simpl. rewrite Hcnt, Z2Nat.id by auto. lia.
  - intros HN. apply not_true_is_false. intros Hex. apply existsb_exists in Hex as (x & _ & Hex).
    apply existsb_exists in Hex as (i & _ & Hi). rewrite Hcnt in Hi. pose proof (filter_idx_le1 (concat w) (Z.of_nat i) HN). lia.
Qed.

Notation gv_lookup := (value_at zero).

Lemma gather_all (g : garray A) (f : nat -> A) idx :
  (forall i, In i idx -> nth_error g i = Some (Some (f i))) -> ga_gather g idx = Ok (map f idx).
Proof.
  induction idx as [|i r IH]; intros H; simpl; auto.
  assert (E : ga_get g i (length [f i]) = Ok [f i]).
  { apply ga_get_some.
    - simpl. assert (i < length g); [|lia]. apply nth_error_Some. rewrite H by now left. discriminate.
    - intros [|k] Hk; simpl in *; [|lia]. rewrite Nat.add_0_r. apply H. now left. }
  simpl in E. rewrite E. simpl. rewrite IH by (intros j Hj; apply H; now right). reflexivity.
Qed.

Theorem gv_correct (w : list (list (Z * A))) s1 s2 :
  let all := concat w in
  Forall (fun x => 0 <= fst x)%Z all -> NoDup (map fst all) -> all <> [] ->
  (forall i, i < extent all -> own i < length w) ->
  Permutation s1 (sched_ops (length w)) -> barrier s1 ->
  Permutation s2 (sched_ops (length w)) -> barrier s2 ->
  exists g, gv_upload zero own w s1 s2 = Ok g /\ length g = extent all /\
    (forall idx, Forall (fun i => 0 <= i < Z.of_nat (extent all))%Z idx ->
       gv_getData g idx = Ok (map (gv_lookup all) idx)) /\
    gv_getAllData g = Ok (map (fun i => gv_lookup all (Z.of_nat i)) (iota (extent all))).
Proof.
  intros all H0 HN Hne Hown P1 B1 P2 B2. subst all. unfold gv_upload.
  assert (E1 : existsb (fun x : Z * A => (fst x <? 0)%Z) (concat w) = false).
  { apply not_true_is_false. intros E. apply existsb_exists in E as (x & Hx & Hlt).
    rewrite Forall_forall in H0. specialize (H0 x Hx). lia. }
  rewrite E1.
  assert (Hfold : forall (X : Type) (a b : X), match (concat w) with [] => a | _ => b end = b).
  { intros X x y. clear -Hne. destruct (concat w); congruence. }
  rewrite Hfold. clear Hfold. cbv zeta. fold (extent (concat w)). fold (natw w).
  rewrite (proj2 (check_barrier w H0 Hown P1 B1) HN).
  destruct B2 as (a & b & -> & Ha & Hb). destruct (sched_perm_parts _ a b P2 Ha Hb) as [Pa Pb].
  set (n := extent (concat w)) in *.
  destruct (@fill_zeros (natw w) n a (ga_new A n) b (ga_new_length n) Ha) as (g0 & Ez & Lz & Hz).
  rewrite Ez, fill_writes by auto.
  assert (HW : Permutation (flat_map (fun x : bool * nat => nth (snd x) (natw w) []) b) (map (fun x => (Z.to_nat (fst x), snd x)) (concat w))).
  { rewrite (flat_map_snd (fun p => nth p (natw w) [])). rewrite <- concat_map_map. apply writes_perm.
    unfold natw. now rewrite map_length. }
  destruct (@scatter_spec g0 (flat_map (fun x : bool * nat => nth (snd x) (natw w) []) b)) as (g & Eg & Lg & Sg & Og).
  { eapply Permutation_NoDup; [apply Permutation_map; symmetry; exact HW|]. now apply map_fst_nat. }
  { intros i v Hi. apply (Permutation_in _ HW) in Hi. apply in_map_iff in Hi as ([j u] & E & Hj). inversion E; subst.
    rewrite Lz. eapply extent_bound; eauto. }
  assert (Hval : forall i, i < n -> nth_error g i = Some (Some (gv_lookup (concat w) (Z.of_nat i)))).
  { intros i Hi. unfold gv_lookup. destruct (added (Z.of_nat i) (concat w)) as [v|] eqn:Ea.
    - apply Sg. apply (Permutation_in _ (Permutation_sym HW)). apply added_In in Ea; auto.
      apply in_map_iff. exists (Z.of_nat i, v). split; auto. simpl. now rewrite Nat2Z.id.
    - apply added_None in Ea. rewrite Og.
      + rewrite Hz by auto.
        assert (E : existsb (fun x : bool * nat => own i =? snd x) a = true); [|now rewrite E].
        apply existsb_exists. assert (Hin : In (own i) (map snd a)).
        { apply (Permutation_in _ (Permutation_sym Pa)). apply in_iota. auto. }
        apply in_map_iff in Hin as (x & Ex & Hx). exists x. split; auto. rewrite Ex. apply Nat.eqb_refl.
      + intros Hin. apply (Permutation_in _ (Permutation_map fst HW)) in Hin. rewrite map_map in Hin.
        apply in_map_iff in Hin as ([j u] & E & Hj). simpl in E. apply Ea. apply in_map_iff. exists (j, u). split; auto.
        simpl. rewrite Forall_forall in H0. specialize (H0 _ Hj). simpl in H0. lia. }
  exists g. split; [exact Eg|]. split; [lia|]. split.
  - intros idx Hidx. unfold gv_getData.
    assert (E : existsb (fun i => (i <? 0) || (Z.of_nat (length g) <=? i))%Z idx = false).
    { apply not_true_is_false. intros E. apply existsb_exists in E as (i & Hi & Hlt).
      rewrite Forall_forall in Hidx. specialize (Hidx i Hi). lia. }
    rewrite E. rewrite (gather_all _ (fun i => gv_lookup (concat w) (Z.of_nat i))).
    + rewrite map_map. f_equal. apply map_ext_in. intros i Hi. rewrite Forall_forall in Hidx. specialize (Hidx i Hi).
      rewrite Z2Nat.id by lia. reflexivity.
    + intros i Hi. apply in_map_iff in Hi as (z & <- & Hz'). rewrite Forall_forall in Hidx. specialize (Hidx z Hz').
      apply Hval. lia.
  - unfold gv_getAllData. assert (EL : length g = length (map (fun i => gv_lookup (concat w) (Z.of_nat i)) (iota n))).
    { rewrite map_length. unfold iota. rewrite seq_length. lia. }
    rewrite EL. apply ga_get_some.
    + cbn [Nat.add]. lia.
    + intros i Hi. rewrite <- EL, Lg, Lz in Hi. change (0 + i) with i. rewrite Hval by auto. rewrite map_map, nth_error_map.
      unfold iota. rewrite (nth_error_nth' (seq 0 n) 0) by now rewrite seq_length. rewrite seq_nth by auto. reflexivity.
Qed.

Theorem gv_duplicates_throw (w : list (list (Z * A))) s1 s2 :
  ~ NoDup (map fst (concat w)) \/ Exists (fun x => fst x < 0)%Z (concat w) \/ concat w = [] ->
  (forall i, i < extent (concat w) -> own i < length w) ->
  Permutation s1 (sched_ops (length w)) -> barrier s1 -> gv_upload zero own w s1 s2 = Throw.
Proof.
  intros H Hown P1 B1. unfold gv_upload.
  destruct (existsb (fun x : Z * A => (fst x <? 0)%Z) (concat w)) eqn:E1; auto.
  assert (H0 : Forall (fun x => 0 <= fst x)%Z (concat w)).
  { apply Forall_forall. intros x Hx. destruct (Z.ltb_spec (fst x) 0); [|auto]. exfalso. apply not_true_iff_false in E1. apply E1.
    apply existsb_exists. exists x. split; auto. lia. }
  destruct H as [H|[H|H]].
  - destruct (concat w) eqn:Ec; [reflexivity|]. rewrite <- Ec in *. cbv zeta. fold (extent (concat w)). fold (natw w).
    destruct (gv_check _ _ _ _ _) eqn:E; auto. apply (check_barrier w H0 Hown P1 B1) in E. contradiction.
  - exfalso. apply Exists_exists in H as (x & Hx & Hlt). rewrite Forall_forall in H0. specialize (H0 x Hx). lia.
  - now rewrite H.
Qed.

(** reload *)
Theorem gv_reload_correct (g : garray A) (xs order : list (Z * A)) :
  Forall (fun x => 0 <= fst x)%Z xs -> NoDup (map fst xs) ->
  Permutation order (gv_reset_keep (length g) xs) ->
  exists g', gv_reload g order = Ok g' /\ length g' = length g /\
    (forall i v, In (i, v) xs -> (i < Z.of_nat (length g))%Z -> gv_getData g' [i] = Ok [v]) /\
    (forall i, ~ In i (map fst xs) -> gv_getData g' [i] = gv_getData g [i]).
Proof.
  intros H0 HN HP. unfold gv_reload.
  assert (Hsub : forall i v, In (i, v) order <-> In (i, v) xs /\ (i < Z.of_nat (length g))%Z).
  { intros i v. split.
    - intros H. apply (Permutation_in _ HP) in H. apply filter_In in H. destruct H as [H1 H2]. simpl in H2. split; [auto|lia].
    - intros [H1 H2]. apply (Permutation_in _ (Permutation_sym HP)). apply filter_In. simpl. split; auto. lia. }
  assert (E1 : existsb (fun x : Z * A => (fst x <? 0)%Z) order = false).
  { apply not_true_is_false. intros E. apply existsb_exists in E as ([i v] & Hx & Hlt). apply Hsub in Hx as [Hx _].
    rewrite Forall_forall in H0. specialize (H0 _ Hx). simpl in *. lia. }
  rewrite E1.
  assert (H0' : Forall (fun x : Z * A => (0 <= fst x)%Z) order).
  { apply Forall_forall. intros [i v] Hx. apply Hsub in Hx as [Hx _]. rewrite Forall_forall in H0. apply (H0 _ Hx). }
  assert (HN' : NoDup (map fst order)).
  { eapply Permutation_NoDup; [apply Permutation_map; symmetry; exact HP|]. unfold gv_reset_keep.
    clear -HN. induction xs as [|[i v] xs IH]; simpl; [constructor|]. simpl in HN. inversion HN as [|? ? Hi HN']; subst.
    destruct (i <? Z.of_nat (length g))%Z; auto. simpl. constructor; auto. intros Hin. apply Hi.
    apply in_map_iff in Hin as (x & <- & Hx). apply filter_In in Hx as [Hx _]. now apply in_map. }
  destruct (@scatter_spec g (map (fun x => (Z.to_nat (fst x), snd x)) order)) as (g' & Eg & Lg & Sg & Og).
  { now apply map_fst_nat. }
  { intros i v Hi. apply in_map_iff in Hi as ([j u] & E & Hj). inversion E; subst. 
    pose proof Hj as Hj'. apply Hsub in Hj as [_ Hj]. rewrite Forall_forall in H0'. specialize (H0' _ Hj'). simpl in *. lia. }
  exists g'. split; auto. split; auto. split.
  - intros i v Hi Hlt. unfold gv_getData. rewrite Lg. simpl.
    assert (Hi0 : (0 <= i)%Z) by (rewrite Forall_forall in H0; apply (H0 _ Hi)).
    destruct ((i <? 0) || (Z.of_nat (length g) <=? i) || false)%Z eqn:E; [lia|].
    change (ga_gather g' [Z.to_nat i] = Ok (map (fun _ => v) [Z.to_nat i])). apply gather_all.
    intros k [<-|[]]. apply Sg. apply in_map_iff. exists (i, v). split; auto. apply Hsub. auto.
  - intros i Hi. unfold gv_getData. rewrite Lg. simpl.
    destruct ((i <? 0) || (Z.of_nat (length g) <=? i) || false)%Z eqn:E; auto.
    assert (E2 : ga_get g' (Z.to_nat i) 1 = ga_get g (Z.to_nat i) 1); [|now rewrite E2].
    unfold ga_get. rewrite Lg. destruct (_ <=? _); auto. f_equal. change (seg (Z.to_nat i) 1 g' = seg (Z.to_nat i) 1 g).
    apply seg_ext. intros k Hk. apply Og. intros Hin. apply in_map_iff in Hin as ([k' u] & Ek & Hin).
    apply in_map_iff in Hin as ([j x] & Ej & Hj). inversion Ej; subst. simpl in *.
    rewrite Forall_forall in H0'. pose proof (H0' _ Hj) as Hj0. simpl in Hj0. apply Hsub in Hj as [Hj _].
    assert (j = i) by lia. subst. apply Hi. now apply in_map with (f := fst) in Hj.
Qed.
End GV.

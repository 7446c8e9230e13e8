(** Proofs for GlobalIndexHashMap. *)
From Verif Require Import Prelude GAModel GAProofs ParModel ParSpec ParProofs ParProofs2.

Lemma nth_upd_same_gen {X} (l : list X) i x d : i < length l -> nth i (upd l i x) d = x.
Proof. intros H. apply nth_error_nth. now apply nth_error_upd_same. Qed.
Lemma nth_upd_other_gen {X} (l : list X) i j x d : i <> j -> nth j (upd l i x) d = nth j l d.
Proof. revert i j; induction l as [|y l IH]; intros [|i] [|j] H; simpl; auto; lia. Qed.

Lemma nth_repeat_nil {X} n i : nth i (repeat (@nil X) n) [] = [].
Proof. revert i; induction n; intros [|i]; simpl; auto. Qed.

Lemma to_bins_ok {X} (h : X -> outcome nat) (hv : X -> nat) xs bins :
  (forall x, In x xs -> h x = Ok (hv x) /\ hv x < length bins) ->
  exists bs, to_bins h xs bins = Ok bs /\ length bs = length bins /\
    forall d, nth d bs [] = (rev (filter (fun x => hv x =? d) xs) ++ nth d bins [])%list.
Proof.
  revert bins; induction xs as [|x xs IH]; intros bins H.
  - exists bins. repeat split; auto.
  - destruct (H x (or_introl eq_refl)) as [Eh Hlt]. cbn [to_bins]. rewrite Eh. cbn [obind].
    destruct (Nat.ltb_spec (hv x) (length bins)); [|lia].
    destruct (IH (upd bins (hv x) (x :: nth (hv x) bins []))) as (bs & E & L & Hn).
    { intros y Hy. rewrite upd_length. apply H. now right. }
    exists bs. rewrite upd_length in L. split; auto. split; auto. intros d. rewrite Hn. cbn [filter].
    destruct (Nat.eqb_spec (hv x) d) as [<-|Hne].
    + rewrite nth_upd_same_gen by auto. simpl. now rewrite <- app_assoc.
    + now rewrite nth_upd_other_gen.
Qed.

Lemma perm_filter {X} (f : X -> bool) l l' : Permutation l l' -> Permutation (filter f l) (filter f l').
Proof.
  intros H. induction H as [|x l l' H IH|x y l|l1 l2 l3 H1 IH1 H2 IH2]; simpl; auto.
  - destruct (f x); auto.
  - destruct (f x), (f y); auto. apply perm_swap.
  - etransitivity; eauto.
Qed.

Lemma filter_filter {X} (f g : X -> bool) l : filter f (filter g l) = filter (fun x => g x && f x) l.
Proof.
  induction l as [|x l IH]; simpl; auto. destruct (g x); simpl; [|apply IH].
  destruct (f x); now rewrite IH.
Qed.

Lemma filter_concat {X} (f : X -> bool) (ls : list (list X)) : filter f (concat ls) = concat (map (filter f) ls).
Proof. induction ls as [|l ls IH]; simpl; auto. now rewrite filter_app, IH. Qed.

Lemma flat_map_filter_key {X Y} (f : X -> bool) (g : Y -> bool) (r : X -> list Y) l :
  (forall x y, In y (r x) -> g y = f x) -> filter g (flat_map r l) = flat_map r (filter f l).
Proof.
  intros H. induction l as [|x l IH]; simpl; auto. rewrite filter_app, IH. destruct (f x) eqn:E; simpl.
  - f_equal. assert (Hx : forall y, In y (r x) -> g y = true) by (intros y Hy; rewrite (H x y Hy); auto).
    clear -Hx. induction (r x) as [|y l IH]; simpl; auto. rewrite (Hx y) by now left. f_equal. apply IH.
    intros z Hz. apply Hx. now right.
  - assert (Hx : forall y, In y (r x) -> g y = false) by (intros y Hy; rewrite (H x y Hy); auto).
    assert (E0 : filter g (r x) = []); [|now rewrite E0].
    clear -Hx. induction (r x) as [|y l IH]; simpl; auto. rewrite (Hx y) by now left. apply IH.
    intros z Hz. apply Hx. now right.
Qed.

Lemma flat_map_flat_map {X Y Z} (f : X -> list Y) (g : Y -> list Z) l :
  flat_map g (flat_map f l) = flat_map (fun x => flat_map g (f x)) l.
Proof. induction l as [|x l IH]; simpl; auto. now rewrite flat_map_app, IH. Qed.

Lemma flat_map_single {Y} (f : nat -> list Y) p n : p < n -> (forall s, s < n -> s <> p -> f s = []) ->
  flat_map f (iota n) = f p.
Proof.
  intros Hp H. unfold iota.
  assert (G : forall k a, (forall s, a <= s < a + k -> s <> p -> f s = []) ->
     flat_map f (seq a k) = if (a <=? p) && (p <? a + k) then f p else []).
  { induction k as [|k IH]; intros a Ha; cbn [seq flat_map].
    - destruct ((a <=? p) && (p <? a + 0)) eqn:E; [lia|reflexivity].
    - rewrite IH by (intros s Hs; apply Ha; lia).
      destruct (Nat.eq_dec a p) as [->|Hne].
      + destruct ((S p <=? p) && (p <? S p + k)) eqn:E; [lia|].
        destruct ((p <=? p) && (p <? p + S k)) eqn:E'; [apply app_nil_r|lia].
      + rewrite (Ha a) by lia. cbn [app].
        destruct ((S a <=? p) && (p <? S a + k)) eqn:E, ((a <=? p) && (p <? a + S k)) eqn:E'; auto; lia. }
  rewrite G by (intros s Hs; apply H; lia).
  destruct (Nat.leb_spec 0 p), (Nat.ltb_spec p (0 + n)); simpl; auto; lia.
Qed.

Section IH.
Context {K V : Type}.
Variable keq : K -> K -> bool.
Variable keq_spec : forall a b, reflect (a = b) (keq a b).
Variable hash : nat -> K -> outcome nat.
Variable hv : nat -> K -> nat.          (* value of the hash where it is defined *)

Definition hashable (P : nat) (k : K) : Prop := hash P k = Ok (hv P k) /\ hv P k < P.

Lemma hashable_fun P a b : keq a b = true -> hv P a = hv P b.
Proof. intros H. destruct (keq_spec a b); [now subst|discriminate]. Qed.

(** Tables after addPairs: rank d holds a permutation of the pairs that hash to d. *)
Theorem add_pairs_spec old (w : list (list (K * V))) ev pw :
  let P := length w in
  Forall (fun kv => hashable P (fst kv)) (concat w) ->
  Permutation ev (all_pairs P) -> Permutation pw (all_pairs P) -> 
  exists tabs, add_pairs hash old w ev pw = Ok tabs /\
    (concat w = [] -> tabs = old) /\
    (concat w <> [] -> forall d, d < P ->
       Permutation (nth d tabs []) (filter (fun kv => hv P (fst kv) =? d) (concat w))).
Proof.
  intros P HH Hev Hpw. unfold add_pairs. fold P.
  set (bs := fun xs : list (K * V) => match to_bins (fun kv : K * V => hash P (fst kv)) xs (repeat [] P) with Ok b => b | _ => [] end).
  assert (Hbs : forall xs, In xs w -> to_bins (fun kv : K * V => hash P (fst kv)) xs (repeat [] P) = Ok (bs xs) /\
            forall d, nth d (bs xs) [] = rev (filter (fun kv => hv P (fst kv) =? d) xs)).
  { intros xs Hxs. destruct (@to_bins_ok (K * V) (fun kv : K * V => hash P (fst kv)) (fun kv => hv P (fst kv)) xs (repeat [] P)) as (b & E & L & Hn).
    - intros kv Hkv. rewrite repeat_length. rewrite Forall_forall in HH. apply HH. apply in_concat. eauto.
    - unfold bs. rewrite E. split; auto. intros d. rewrite Hn, nth_repeat_nil, app_nil_r. reflexivity. }
  rewrite (oall_map_ok _ bs) by (intros xs Hxs; now apply Hbs). cbn [obind].
  rewrite exchange_spec by auto.
  assert (Hbin : forall s d, s < P -> bin_of (map bs w) s d = rev (filter (fun kv => hv P (fst kv) =? d) (nth s w []))).
  { intros s d Hs. unfold bin_of. 
    rewrite nth_indep with (d' := bs []) by (now rewrite map_length). rewrite map_nth. apply Hbs. now apply nth_In. }
  assert (Hperm : forall d, d < P -> Permutation (received (bin_of (map bs w)) ev d) (filter (fun kv => hv P (fst kv) =? d) (concat w))).
  { intros d Hd. rewrite (received_perm _ Hev Hd). rewrite filter_concat. rewrite <- flat_map_concat_map.
    transitivity (flat_map (fun s => filter (fun kv => hv P (fst kv) =? d) (nth s w [])) (iota P)).
    - apply concat_perm_pointwise. intros s Hs. apply in_iota in Hs. rewrite Hbin by auto. symmetry. apply Permutation_rev.
    - rewrite <- flat_map_concat_map with (f := filter _). 
      rewrite flat_map_concat_map, (flat_map_concat_map _ w).
      match goal with |- Permutation (concat ?a) (concat ?b) => replace a with b; auto end.
      apply nth_error_ext. intros i. rewrite !nth_error_map. destruct (le_lt_dec P i) as [Hi|Hi].
      + rewrite (proj2 (nth_error_None w i)) by auto.
        rewrite (proj2 (nth_error_None (iota P) i)) by (unfold iota; now rewrite seq_length). reflexivity.
      + rewrite (nth_error_nth' w [] Hi). unfold iota. rewrite (nth_error_nth' (seq 0 P) 0) by now rewrite seq_length.
        rewrite seq_nth by auto. reflexivity. }
  destruct (forallb _ (all_pairs P)) eqn:EF; cbn [obind].
  - assert (Hnil : concat w = []).
    { rewrite forallb_forall in EF. destruct (concat w) as [|kv r] eqn:Ec; auto. exfalso.
      assert (Hin : In kv (concat w)) by (rewrite Ec; now left).
      assert (Hk : hashable P (fst kv)) by (rewrite Forall_forall in HH; apply HH; rewrite <- Ec; auto).
      apply in_concat in Hin as (xs & Hxs & Hkv). apply In_nth with (d := []) in Hxs as (s & Hs & <-).
      specialize (EF (s, hv P (fst kv))). simpl in EF. rewrite Hbin in EF by auto.
      assert (Hz : length (rev (filter (fun kv0 => hv P (fst kv0) =? hv P (fst kv)) (nth s w []))) = 0).
      { apply Nat.eqb_eq, EF, all_pairs_spec. split; auto. apply Hk. }
      rewrite rev_length in Hz. apply length_zero_iff_nil in Hz.
      assert (In kv []); [|auto]. rewrite <- Hz. apply filter_In. split; auto. apply Nat.eqb_refl. }
    exists old. repeat split; auto. intros Hne. contradiction.
  - exists (map (received (bin_of (map bs w)) ev) (iota P)). split; auto. split.
    + intros Hnil. exfalso. apply not_true_iff_false in EF. apply EF. apply forallb_forall. intros [s d] Hsd.
      apply all_pairs_spec in Hsd as [Hs Hd]. cbn [fst snd]. rewrite Hbin by auto.
      assert (Hw : nth s w [] = []).
      { destruct (nth s w []) as [|x l] eqn:E; auto. exfalso. assert (In x (concat w)); [|rewrite Hnil in *; auto].
        apply in_concat. exists (nth s w []). split; [now apply nth_In|rewrite E; now left]. }
      rewrite Hw. reflexivity.
    + intros _ d Hd. rewrite nth_map_iota by auto. now apply Hperm.
Qed.

(** Answers to queries. *)
Theorem get_values_spec (stored : list (K * V)) (tabs : list (table (K := K) (V := V))) (qs : list (list K)) vs ev1 pw1 ev2 pw2 :
  let P := length qs in
  (forall d, d < P -> Permutation (nth d tabs []) (filter (fun kv => hv P (fst kv) =? d) stored)) ->
  Forall (hashable P) (concat qs) -> concat qs <> [] ->
  Permutation ev1 (all_pairs P) -> Permutation pw1 (all_pairs P) ->
  Permutation ev2 (all_pairs P) -> Permutation pw2 (all_pairs P) ->
  exists res, get_values keq hash tabs qs vs ev1 pw1 ev2 pw2 = Ok res /\ length res = P /\
    forall p, p < P -> exists l, nth p res ([], []) = (map fst l, map snd l) /\
       Permutation l (answers keq stored (nth p qs [])).
Proof.
  intros P HT HH Hne Hev1 Hpw1 Hev2 Hpw2. unfold get_values. fold P.
  set (tag := fun p => map (fun k => (k, p)) (nth p qs [])).
  assert (Hkey : forall p q, p < P -> In q (tag p) -> hashable P (fst q) /\ snd q = p).
  { intros p q Hp Hq. apply in_map_iff in Hq as (k & <- & Hk). split; auto. rewrite Forall_forall in HH. apply HH.
    apply in_concat. exists (nth p qs []). split; auto. now apply nth_In. }
  set (B := fun p => match to_bins (fun q : K * nat => hash P (fst q)) (tag p) (repeat [] P) with Ok b => b | _ => [] end).
  assert (HB : forall p, p < P -> to_bins (fun q : K * nat => hash P (fst q)) (tag p) (repeat [] P) = Ok (B p) /\
            forall d, nth d (B p) [] = rev (filter (fun q => hv P (fst q) =? d) (tag p))).
  { intros p Hp. destruct (@to_bins_ok (K * nat) (fun q : K * nat => hash P (fst q)) (fun q => hv P (fst q)) (tag p) (repeat [] P)) as (b & E & L & Hn).
    - intros q Hq. rewrite repeat_length. apply (Hkey p q Hp Hq).
    - unfold B. rewrite E. split; auto. intros d. rewrite Hn, nth_repeat_nil, app_nil_r. reflexivity. }
  rewrite (oall_map_ok _ B) by (intros p Hp; apply in_iota in Hp; now apply HB). cbn [obind].
  rewrite exchange_spec by auto.
  assert (Hbin : forall s d, s < P -> bin_of (map B (iota P)) s d = rev (filter (fun q => hv P (fst q) =? d) (tag s))).
  { intros s d Hs. unfold bin_of. rewrite nth_map_iota by auto. now apply HB. }
  destruct (forallb _ (all_pairs P)) eqn:EF; cbn [obind].
  { exfalso. rewrite forallb_forall in EF. apply Hne. destruct (concat qs) as [|k r] eqn:Ec; auto. exfalso.
    assert (Hin : In k (concat qs)) by (rewrite Ec; now left).
    apply in_concat in Hin as (xs & Hxs & Hk). apply In_nth with (d := []) in Hxs as (s & Hs & <-).
    assert (Hq : In (k, s) (tag s)) by (apply in_map_iff; eauto).
    destruct (Hkey s _ Hs Hq) as [[_ Hlt] _]. simpl in Hlt.
    specialize (EF (s, hv P k)). cbn [fst snd] in EF. rewrite Hbin in EF by auto.
    assert (Hz : length (rev (filter (fun q => hv P (fst q) =? hv P k) (tag s))) = 0)
      by (apply Nat.eqb_eq, EF, all_pairs_spec; split; auto).
    rewrite rev_length in Hz. apply length_zero_iff_nil in Hz.
    assert (In (k, s) []); [|auto]. rewrite <- Hz. apply filter_In. split; auto. apply Nat.eqb_refl. }
  clear EF. set (rq := received (bin_of (map B (iota P))) ev1).
  assert (Hrq : forall d, d < P -> Permutation (rq d) (flat_map (fun s => filter (fun q => hv P (fst q) =? d) (tag s)) (iota P))).
  { intros d Hd. unfold rq. rewrite (received_perm _ Hev1 Hd). rewrite <- flat_map_concat_map.
    apply concat_perm_pointwise. intros s Hs. apply in_iota in Hs. rewrite Hbin by auto. symmetry. apply Permutation_rev. }
  set (replies := fun p => flat_map (answer keq (nth p tabs [])) (rq p)).
  set (B2 := fun p => match to_bins (fun a : K * nat * V => Ok (snd (fst a))) (replies p) (repeat [] P) with Ok b => b | _ => [] end).
  assert (HB2 : forall p, p < P -> to_bins (fun a : K * nat * V => Ok (snd (fst a)))
              (flat_map (answer keq (nth p tabs [])) (nth p (map rq (iota P)) [])) (repeat [] P) = Ok (B2 p) /\
            forall d, nth d (B2 p) [] = rev (filter (fun a => snd (fst a) =? d) (replies p))).
  { intros p Hp. rewrite nth_map_iota by auto. fold (replies p).
    destruct (@to_bins_ok (K * nat * V) (fun a : K * nat * V => Ok (snd (fst a))) (fun a => snd (fst a)) (replies p) (repeat [] P)) as (b & E & L & Hn).
    - intros a Ha. rewrite repeat_length. split; auto. unfold replies in Ha. apply in_flat_map in Ha as (q & Hq & Ha).
      apply (Permutation_in _ (Hrq p Hp)) in Hq. apply in_flat_map in Hq as (s & Hs & Hq). apply in_iota in Hs.
      apply filter_In in Hq as [Hq _]. destruct (Hkey s q Hs Hq) as [_ Es]. unfold answer in Ha.
      apply in_map_iff in Ha as (kv & <- & _). simpl. now rewrite Es.
    - unfold B2. rewrite E. split; auto. intros d. rewrite Hn, nth_repeat_nil, app_nil_r. reflexivity. }
  rewrite (oall_map_ok _ B2) by (intros p Hp; apply in_iota in Hp; now apply HB2). cbn [obind].
  rewrite exchange_spec by auto.
  assert (Hbin2 : forall s d, s < P -> bin_of (map B2 (iota P)) s d = rev (filter (fun a => snd (fst a) =? d) (replies s))).
  { intros s d Hs. unfold bin_of. rewrite nth_map_iota by auto. now apply HB2. }
  set (rc := received (bin_of (map B2 (iota P))) ev2).
  set (key3 := fun a : K * nat * V => (fst (fst a), snd a)).
  assert (Hrc : forall p, p < P -> Permutation (map key3 (rc p)) (answers keq stored (nth p qs []))).
  { intros p Hp. unfold rc. rewrite (received_perm _ Hev2 Hp). rewrite <- flat_map_concat_map.
    transitivity (map key3 (flat_map (fun s => flat_map (answer keq (nth s tabs [])) (filter (fun q => hv P (fst q) =? s) (tag p))) (iota P))).
    - apply Permutation_map. apply concat_perm_pointwise. intros s Hs. apply in_iota in Hs. rewrite Hbin2 by auto.
      rewrite <- Permutation_rev. unfold replies.
      rewrite (flat_map_filter_key (fun q : K * nat => snd q =? p)).
      2:{ intros q a Ha. apply in_map_iff in Ha as (kv & <- & _). reflexivity. }
      apply Permutation_flat_map. rewrite (perm_filter _ (Hrq s Hs)).
      rewrite flat_map_concat_map, filter_concat, map_map, <- flat_map_concat_map.
      rewrite (flat_map_single _ Hp).
      + rewrite filter_filter. match goal with |- Permutation ?a ?b => replace a with b; auto end.
        apply filter_ext_in. intros q Hq. destruct (Hkey p q Hp Hq) as [_ ->]. rewrite Nat.eqb_refl. now rewrite andb_true_r.
      + intros s' Hs' Hne'. rewrite filter_filter.
        assert (G : forall l, (forall q, In q l -> snd q = s') -> filter (fun x : K * nat => (hv P (fst x) =? s) && (snd x =? p)) l = []).
        { clear -Hne'. induction l as [|q l IH]; intros H; simpl; auto. rewrite (H q) by now left.
          destruct (Nat.eqb_spec s' p); [contradiction|]. rewrite andb_false_r. apply IH. intros q' Hq'. apply H. now right. }
        apply G. intros q Hq. now apply (Hkey s' q Hs' Hq).
    - (* every query is answered from the table of its hash value *)
      transitivity (map key3 (flat_map (fun s => flat_map (fun q => answer keq stored q) (filter (fun q => hv P (fst q) =? s) (tag p))) (iota P))).
      + apply Permutation_map. apply concat_perm_pointwise. intros s Hs. apply in_iota in Hs.
        apply concat_perm_pointwise. intros q Hq. apply filter_In in Hq as [Hq Eq]. apply Nat.eqb_eq in Eq.
        unfold answer. apply Permutation_map. rewrite (perm_filter _ (HT s Hs)). rewrite filter_filter.
        match goal with |- Permutation ?a ?b => replace a with b; auto end.
        apply filter_ext. intros kv. destruct (keq (fst kv) (fst q)) eqn:Ek; [|now rewrite andb_false_r].
        rewrite (hashable_fun P Ek), Eq, Nat.eqb_refl. reflexivity.
      + rewrite <- flat_map_flat_map.
        transitivity (map key3 (flat_map (answer keq stored) (tag p))).
        * apply Permutation_map, Permutation_flat_map. apply partition_perm. intros q Hq. apply (Hkey p q Hp Hq).
        * match goal with |- Permutation ?a ?b => replace a with b; auto end.
          unfold answers, tag. rewrite !flat_map_concat_map, !concat_map, !map_map. f_equal. apply map_ext. intros k.
          unfold answer, key3. rewrite map_map. reflexivity. }
  destruct (forallb _ (all_pairs P)) eqn:EF2; cbn [obind].
  - eexists. split; [reflexivity|]. split; [unfold iota; now rewrite map_length, seq_length|].
    intros p Hp. exists []. split; [rewrite nth_map_iota by auto; reflexivity|].
    assert (E0 : rc p = []).
    { unfold rc, received. rewrite forallb_forall in EF2.
      assert (Hord : forall s, In s (order p ev2) -> s < P).
      { intros s Hs. apply in_iota. now apply (Permutation_in _ (order_perm Hev2 Hp)). }
      induction (order p ev2) as [|s l IH]; simpl; auto. rewrite IH by (intros x Hx; apply Hord; now right).
      assert (Hz : length (bin_of (map B2 (iota P)) s p) = 0).
      { apply Nat.eqb_eq. apply (EF2 (s, p)). apply all_pairs_spec. split; auto. apply Hord. now left. }
      apply length_zero_iff_nil in Hz. now rewrite Hz. }
    rewrite <- (Hrc p Hp), E0. constructor.
  - eexists. split; [reflexivity|]. split; [unfold iota; now rewrite map_length, seq_length|].
    intros p Hp. exists (map key3 (rc p)). split; [|now apply Hrc].
    rewrite nth_map_iota by auto. cbn zeta. rewrite nth_map_iota by auto. fold rc. rewrite !map_map. reflexivity.
Qed.

Theorem get_values_no_query tabs (qs : list (list K)) (vs : list (list V)) ev1 pw1 ev2 pw2 :
  let P := length qs in
  concat qs = [] -> Permutation ev1 (all_pairs P) -> Permutation pw1 (all_pairs P) ->
  get_values keq hash tabs qs vs ev1 pw1 ev2 pw2 = Ok (map (fun p => ([], nth p vs [])) (iota P)).
Proof.
  intros P Hnil Hev Hpw. unfold get_values. fold P.
  assert (Hq : forall p, nth p qs [] = []).
  { intros p. destruct (le_lt_dec (length qs) p); [now apply nth_overflow|].
    destruct (nth p qs []) as [|k r] eqn:E; auto. exfalso. assert (In k (concat qs)); [|rewrite Hnil in *; auto].
    apply in_concat. exists (nth p qs []). split; [now apply nth_In|rewrite E; now left]. }
  rewrite (oall_map_ok _ (fun _ => repeat [] P)) by (intros p Hp; rewrite Hq; reflexivity). cbn [obind].
  rewrite exchange_spec by auto.
  match goal with |- context [forallb ?f ?l] => assert (EF : forallb f l = true) end.
  { apply forallb_forall. intros [s d] Hsd. apply all_pairs_spec in Hsd as [Hs Hd]. unfold bin_of. cbn [fst snd].
    rewrite nth_map_iota by auto. rewrite nth_repeat_nil. reflexivity. }
  rewrite EF. cbn [obind]. f_equal. apply map_ext. intros p. now rewrite Hq.
Qed.
End IH.

Lemma hash_int_hashable P k : 0 < P -> (0 <= k)%Z -> hashable hash_int (fun P k => Z.to_nat (k mod Z.of_nat P)) P k.
Proof.
  intros HP Hk. unfold hashable, hash_int. rewrite Z.rem_mod_nonneg by lia.
  pose proof (Z.mod_pos_bound k (Z.of_nat P)). destruct (Z.ltb_spec (k mod Z.of_nat P) 0); [lia|]. split; auto. lia.
Qed.

Lemma hash_pair_hashable P k : 0 < P -> pair_key_ok k ->
  hashable hash_pair (fun P k => Z.to_nat ((snd k * 1009 + fst k) mod Z.of_nat P)) P k.
Proof.
  intros HP [H1 H2]. unfold hashable, hash_pair, in_int. rewrite Z.rem_mod_nonneg by lia.
  pose proof (Z.mod_pos_bound (snd k * 1009 + fst k) (Z.of_nat P)).
  destruct ((- 2147483648 <=? snd k * 1009) && (snd k * 1009 <=? 2147483647) &&
      ((- 2147483648 <=? snd k * 1009 + fst k) && (snd k * 1009 + fst k <=? 2147483647)))%Z eqn:E; [|lia].
  destruct (Z.ltb_spec ((snd k * 1009 + fst k) mod Z.of_nat P) 0); [lia|]. split; auto. lia.
Qed.

Lemma pair_eqb_spec a b : reflect (a = b) (pair_eqb a b).
Proof.
  destruct a as [a1 a2], b as [b1 b2]. unfold pair_eqb. simpl.
  destruct (Z.eqb_spec a1 b1), (Z.eqb_spec a2 b2); constructor; congruence.
Qed.

Section Complete.
Context {K V : Type}.
Variable keq : K -> K -> bool.
Variable keq_spec : forall a b, reflect (a = b) (keq a b).
Variable hash : nat -> K -> outcome nat.
Variable hv : nat -> K -> nat.

Lemma lookup_complete old (w : list (list (K * V))) (qs : list (list K)) vs ev pw ev1 pw1 ev2 pw2 :
  let P := length w in
  length qs = P ->
  Forall (fun kv => hashable hash hv P (fst kv)) (concat w) -> concat w <> [] ->
  Forall (hashable hash hv P) (concat qs) -> concat qs <> [] ->
  Permutation ev (all_pairs P) -> Permutation pw (all_pairs P) ->
  Permutation ev1 (all_pairs P) -> Permutation pw1 (all_pairs P) ->
  Permutation ev2 (all_pairs P) -> Permutation pw2 (all_pairs P) ->
  exists tabs res, add_pairs hash old w ev pw = Ok tabs /\
    get_values keq hash tabs qs vs ev1 pw1 ev2 pw2 = Ok res /\
    forall p, p < P -> exists l, nth p res ([], []) = (map fst l, map snd l) /\
       Permutation l (answers keq (concat w) (nth p qs [])).
Proof.
  intros P HL HW HWne HQ HQne E1 E2 E3 E4 E5 E6.
  destruct (@add_pairs_spec _ _ hash hv old w ev pw HW E1 E2) as (tabs & Et & _ & Ht).
  assert (HT : forall d, d < length qs -> Permutation (nth d tabs []) (filter (fun kv => hv (length qs) (fst kv) =? d) (concat w))).
  { rewrite HL. now apply Ht. }
  rewrite <- HL in *.
  destruct (@get_values_spec _ _ keq keq_spec hash hv (concat w) tabs qs vs ev1 pw1 ev2 pw2 HT HQ HQne E3 E4 E5 E6) as (res & Er & _ & Hr).
  exists tabs, res. auto.
Qed.

Lemma add_pairs_empty old (w : list (list (K * V))) ev pw :
  concat w = [] -> Permutation ev (all_pairs (length w)) -> Permutation pw (all_pairs (length w)) ->
  add_pairs hash old w ev pw = Ok old.
Proof.
  intros H E1 E2. destruct (@add_pairs_spec _ _ hash hv old w ev pw) as (tabs & Et & Ho & _); auto.
  - rewrite H. constructor.
  - rewrite Et. f_equal. auto.
Qed.
End Complete.

Lemma negative_key_UB {V} old (w : list (list (Z * V))) p k v ev pw :
  In (k, v) (nth p w []) -> (Z.rem k (Z.of_nat (length w)) < 0)%Z -> p < length w ->
  add_pairs hash_int old w ev pw = UB.
Proof.
  intros Hin Hk Hp. unfold add_pairs.
  assert (G : forall xs bins, In (k, v) xs -> to_bins (fun kv : Z * V => hash_int (length w) (fst kv)) xs bins = UB).
  { induction xs as [|[k' v'] xs IH]; intros bins H; [destruct H|]. cbn [to_bins fst]. unfold hash_int at 1.
    destruct H as [E|H].
    - inversion E; subst. destruct (Z.ltb_spec (Z.rem k (Z.of_nat (length w))) 0); [reflexivity|lia].
    - destruct (_ <? 0)%Z; [reflexivity|]. cbn [obind]. destruct (_ <? _); [|reflexivity]. now apply IH. }
  rewrite oall_UB with (x := nth p w []); [reflexivity|apply nth_In; exact Hp|now apply G|].
  intros xs _. generalize (repeat (@nil (Z * V)) (length w)). induction xs as [|[k' v'] xs IH]; intros bins; cbn [to_bins fst]; [discriminate|].
  unfold hash_int at 1. destruct (_ <? 0)%Z; [discriminate|]. cbn [obind]. destruct (_ <? _); [apply IH|discriminate].
Qed.

Lemma int_keys : forall (V : Type) old (w : list (list (Z * V))) (qs : list (list Z)) vs ev pw ev1 pw1 ev2 pw2,
  let P := length w in
  0 < P -> length qs = P ->
  Forall (fun kv => 0 <= fst kv)%Z (concat w) -> concat w <> [] ->
  Forall (fun k => 0 <= k)%Z (concat qs) -> concat qs <> [] ->
  Permutation ev (all_pairs P) -> Permutation pw (all_pairs P) ->
  Permutation ev1 (all_pairs P) -> Permutation pw1 (all_pairs P) ->
  Permutation ev2 (all_pairs P) -> Permutation pw2 (all_pairs P) ->
  exists tabs res, add_pairs hash_int old w ev pw = Ok tabs /\
    get_values Z.eqb hash_int tabs qs vs ev1 pw1 ev2 pw2 = Ok res /\
    forall p, p < P -> exists l, nth p res ([], []) = (map fst l, map snd l) /\
       Permutation l (answers Z.eqb (concat w) (nth p qs [])).
Proof.
  intros V old w qs vs ev pw ev1 pw1 ev2 pw2 P HP HL HW HWne HQ HQne.
  apply (@lookup_complete Z V Z.eqb Z.eqb_spec hash_int (fun P k => Z.to_nat (k mod Z.of_nat P))); auto.
  - eapply Forall_impl; [|exact HW]. intros kv Hk. now apply hash_int_hashable.
  - eapply Forall_impl; [|exact HQ]. intros k Hk. now apply hash_int_hashable.
Qed.

Lemma pair_keys : forall (V : Type) old (w : list (list (Z * Z * V))) (qs : list (list (Z * Z))) vs ev pw ev1 pw1 ev2 pw2,
  let P := length w in
  0 < P -> length qs = P ->
  Forall (fun kv => pair_key_ok (fst kv)) (concat w) -> concat w <> [] ->
  Forall pair_key_ok (concat qs) -> concat qs <> [] ->
  Permutation ev (all_pairs P) -> Permutation pw (all_pairs P) ->
  Permutation ev1 (all_pairs P) -> Permutation pw1 (all_pairs P) ->
  Permutation ev2 (all_pairs P) -> Permutation pw2 (all_pairs P) ->
  exists tabs res, add_pairs hash_pair old w ev pw = Ok tabs /\
    get_values pair_eqb hash_pair tabs qs vs ev1 pw1 ev2 pw2 = Ok res /\
    forall p, p < P -> exists l, nth p res ([], []) = (map fst l, map snd l) /\
       Permutation l (answers pair_eqb (concat w) (nth p qs [])).
Proof.
  intros V old w qs vs ev pw ev1 pw1 ev2 pw2 P HP HL HW HWne HQ HQne.
  apply (@lookup_complete (Z * Z) V pair_eqb pair_eqb_spec hash_pair (fun P k => Z.to_nat ((snd k * 1009 + fst k) mod Z.of_nat P))); auto.
  - eapply Forall_impl; [|exact HW]. intros kv Hk. now apply hash_pair_hashable.
  - eapply Forall_impl; [|exact HQ]. intros k Hk. now apply hash_pair_hashable.
Qed.

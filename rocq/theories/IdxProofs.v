From Verif Require Import Prelude GAModel GAProofs ParModel ParSpec ParProofs ParProofs2 ParProofs3 NetModel NetSpec NetProofs NetProofs2 NetProofs3 NetProofs4 IdxModel IdxSpec.

Lemma tile_seq sizes b :
  flat_map (fun p => seq (b + offset sizes p) (nth p sizes 0)) (iota (length sizes)) = seq b (sumn sizes).
Proof.
  unfold iota. revert b; induction sizes as [|s r IH]; intros b; simpl; auto. rewrite seq_app. f_equal.
  - unfold offset. simpl. now rewrite Nat.add_0_r.
  - rewrite <- seq_shift. rewrite flat_map_concat_map, map_map, <- flat_map_concat_map. rewrite <- (IH (b + s)).
    rewrite !flat_map_concat_map. f_equal. apply map_ext. intros p. f_equal. unfold offset. simpl. lia.
Qed.
Lemma concat_map_nth {X} (w : list (list X)) : concat (map (fun p => nth p w []) (iota (length w))) = concat w.
Proof. rewrite concat_map_flat. rewrite (iota_flat_nth (fun x => x) w []). now rewrite flat_map_concat_map, map_id. Qed.
Lemma filter_flat_map {X Y} (f : Y -> bool) (g : X -> list Y) l : filter f (flat_map g l) = flat_map (fun x => filter f (g x)) l.
Proof. induction l; simpl; auto. now rewrite filter_app, IHl. Qed.
Lemma filter_concat' {Y} (f : Y -> bool) (l : list (list Y)) : filter f (concat l) = concat (map (filter f) l).
Proof. induction l; simpl; auto. now rewrite filter_app, IHl. Qed.
Lemma sumn_length_concat {X} (l : list (list X)) : sumn (map (@length X) l) = length (concat l).
Proof. induction l; simpl; auto. now rewrite app_length, IHl. Qed.
Lemma flat_map_ext_in {X Y} (f g : X -> list Y) l : (forall x, In x l -> f x = g x) -> flat_map f l = flat_map g l.
Proof. intros H. rewrite !flat_map_concat_map. f_equal. now apply map_ext_in. Qed.

Section Reset.
  Context {X K : Type}.
  Variables (act : X -> bool) (key : X -> K) (glob : X -> Z) (setg : X -> Z -> X).
  Variables (keq : K -> K -> bool) (hash : nat -> K -> outcome nat) (hv : nat -> K -> nat).
  Hypothesis keq_spec : forall a b, reflect (a = b) (keq a b).
  Hypothesis gs : forall x g, glob (setg x g) = g.
  Hypothesis as_ : forall x g, act (setg x g) = act x.
  Hypothesis ks : forall x g, key (setg x g) = key x.
  Hypothesis ss : forall x a b, setg (setg x a) b = setg x b.
  Notation bare x := (setg x 0%Z).

  Lemma number_bare n xs : map (fun x => bare x) (number act setg n xs) = map (fun x => bare x) xs.
  Proof. revert n; induction xs as [|x xs IH]; intros n; simpl; auto. destruct (act x); simpl; rewrite IH; auto. now rewrite ss. Qed.
  Lemma number_glob n xs : map glob (filter act (number act setg (Z.of_nat n) xs)) = map Z.of_nat (seq n (active_count act xs)).
  Proof.
    unfold active_count. revert n; induction xs as [|x xs IH]; intros n; simpl; auto. destruct (act x) eqn:E; simpl.
    - rewrite as_, E. simpl. rewrite gs. f_equal. rewrite <- IH. do 3 f_equal. lia.
    - rewrite E. apply IH.
  Qed.
  Lemma bare_filter (f : X -> bool) l l' : (forall x g, f (setg x g) = f x) ->
    map (fun x => bare x) l = map (fun x => bare x) l' -> map (fun x => bare x) (filter f l) = map (fun x => bare x) (filter f l').
  Proof.
    intros Hf H. assert (E : forall l, map (fun x => bare x) (filter f l) = filter f (map (fun x => bare x) l)).
    { clear -Hf. induction l; simpl; auto. rewrite Hf. destruct (f a); simpl; now rewrite IHl. }
    now rewrite !E, H.
  Qed.
  Lemma bare_key l l' : map (fun x => bare x) l = map (fun x => bare x) l' -> map key l = map key l'.
  Proof.
    intros H. assert (E : forall l, map key l = map key (map (fun x => bare x) l)) by (intros m; rewrite map_map; apply map_ext; intros; now rewrite ks).
    now rewrite (E l), (E l'), H.
  Qed.
  Lemma lmap_find_some kv k v : In (k, v) kv -> exists v', lmap_find keq kv k = Some v' /\ In (k, v') kv.
  Proof.
    induction kv as [|[a b] kv IH]; intros H; [destruct H|]. simpl. destruct (keq_spec a k) as [->|Hne].
    - exists b. split; auto.
    - destruct H as [H|H]; [congruence|]. destruct (IH H) as (v' & -> & Hv). exists v'. auto.
  Qed.
  Lemma lmap_find_in kv k v : lmap_find keq kv k = Some v -> In (k, v) kv.
  Proof.
    induction kv as [|[a b] kv IH]; intros H; [discriminate|]. simpl in H. destruct (keq_spec a k) as [->|Hne].
    - injection H as ->. now left.
    - right. auto.
  Qed.

  Lemma reset_spec flag (w : list (list X)) o :
    orders_ok (length w) o ->
    (forall x, In x (concat w) -> hashable hash hv (length w) (key x)) ->
    NoDup (map key (filter act (concat w))) ->
    (forall x, In x (concat w) -> In (key x) (map key (filter act (concat w)))) ->
    exists w', reset act key glob setg keq hash flag w o = Ok w' /\ length w' = length w /\
      (forall p, map (fun x => bare x) (nth p w' []) = map (fun x => bare x) (nth p w [])) /\
      (flag = true -> map glob (filter act (concat w')) = map Z.of_nat (iota (length (filter act (concat w))))) /\
      (flag = false -> filter act (concat w') = filter act (concat w)) /\
      (forall x a, In x (concat w') -> In a (filter act (concat w')) -> key x = key a -> glob x = glob a).
  Proof.
    intros (O1 & O2 & O3 & O4 & O5 & O6) HH HND Hown. unfold reset. set (P := length w) in *.
    set (w1 := if flag then map (fun p => number act setg (Z.of_nat (offset (map (active_count act) w) p)) (nth p w [])) (iota P) else w).
    assert (L1 : length w1 = P) by (unfold w1, iota; destruct flag; [now rewrite map_length, seq_length|reflexivity]).
    assert (B1 : forall p, map (fun x => bare x) (nth p w1 []) = map (fun x => bare x) (nth p w [])).
    { intros p. unfold w1. destruct flag; auto. destruct (le_lt_dec P p) as [L|L].
      - rewrite !nth_overflow; auto. unfold iota. now rewrite map_length, seq_length.
      - rewrite nth_map_iota by auto. apply number_bare. }
    assert (BC : map (fun x => bare x) (concat w1) = map (fun x => bare x) (concat w)).
    { rewrite <- (concat_map_nth w1), <- (concat_map_nth w). rewrite L1. fold P. rewrite !concat_map, !map_map. f_equal.
      apply map_ext. intros p. apply B1. }
    assert (G1 : flag = true -> map glob (filter act (concat w1)) = map Z.of_nat (iota (length (filter act (concat w))))).
    { intros ->. unfold w1. rewrite concat_map_flat, filter_flat_map, map_flat_map.
      rewrite (flat_map_ext_in _ (fun p => map Z.of_nat (seq (0 + offset (map (active_count act) w) p) (nth p (map (active_count act) w) 0)))).
      - rewrite <- map_flat_map. f_equal. replace P with (length (map (active_count act) w)) by (now rewrite map_length).
        rewrite tile_seq. unfold iota. f_equal. rewrite filter_concat', <- sumn_length_concat, map_map. reflexivity.
      - intros p Hp. apply in_iota in Hp. rewrite number_glob. simpl. do 2 f_equal. now rewrite (nth_map_in _ _ []). }
    assert (K1 : map key (filter act (concat w1)) = map key (filter act (concat w))).
    { apply bare_key. apply bare_filter; auto. }
    assert (InK : forall x, In x (concat w1) -> exists x0, In x0 (concat w) /\ key x0 = key x /\ act x0 = act x).
    { intros x Hx. assert (Hb : In (bare x) (map (fun x => bare x) (concat w))) by (rewrite <- BC; now apply (in_map (fun x => bare x))).
      apply in_map_iff in Hb as (x0 & E & Hx0). exists x0. split; auto. split.
      - rewrite <- (ks x0 0), E, ks. reflexivity. - rewrite <- (as_ x0 0), E, as_. reflexivity. }
    set (stored := map (fun xs => map (fun x => (key x, glob x)) (filter act xs)) w1).
    set (qs := map (fun xs => map key (filter (fun x => negb (act x)) xs)) w1).
    assert (Cst : concat stored = map (fun x => (key x, glob x)) (filter act (concat w1))).
    { unfold stored. now rewrite filter_concat', concat_map, map_map. }
    assert (Lst : length stored = P) by (unfold stored; now rewrite map_length).
    assert (Lqs : length qs = P) by (unfold qs; now rewrite map_length).
    assert (HS : Forall (fun kv => hashable hash hv (length stored) (fst kv)) (concat stored)).
    { rewrite Lst, Cst. apply Forall_forall. intros kv Hkv. apply in_map_iff in Hkv as (x & <- & Hx). apply filter_In in Hx as [Hx _].
      simpl. destruct (InK x Hx) as (x0 & Hx0 & <- & _). now apply HH. }
    assert (HQ : forall p k, In k (nth p qs []) -> exists x, In x (nth p w1 []) /\ act x = false /\ key x = k).
    { intros p k Hk. unfold qs in Hk. destruct (le_lt_dec (length w1) p) as [L|L].
      - rewrite nth_overflow in Hk; [destruct Hk|now rewrite map_length].
      - rewrite (nth_map_in _ _ []) in Hk by auto. apply in_map_iff in Hk as (x & E & Hx). apply filter_In in Hx as [Hx Ha].
        exists x. repeat split; auto. now destruct (act x). }
    assert (w1_in : forall p x, In x (nth p w1 []) -> In x (concat w1)).
    { intros p x Hx. apply in_concat. exists (nth p w1 []). split; auto. destruct (le_lt_dec (length w1) p) as [L|L].
      - rewrite nth_overflow in Hx by auto. destruct Hx. - now apply nth_In. }
    destruct (@add_pairs_spec K Z hash hv (repeat [] P) stored (xo_ev o) (xo_pw o)) as (tabs & Et & _ & Ht); auto; try (now rewrite Lst).
    fold stored. rewrite Et. cbn [obind]. fold qs.
    assert (HR : exists res, get_values keq hash tabs qs (repeat [] P) (xo_ev1 o) (xo_pw1 o) (xo_ev2 o) (xo_pw2 o) = Ok res /\
       forall p, p < P -> exists l, nth p res ([], []) = (map fst l, map snd l) /\ Permutation l (answers keq (concat stored) (nth p qs []))).
    { destruct (concat qs) as [|k0 rest] eqn:Eq.
      - eexists. split; [apply get_values_no_query; rewrite ?Lqs; auto|]. intros p Hp. rewrite nth_map_iota by (now rewrite Lqs).
        exists []. rewrite nth_repeat_nil. split; auto. 
        assert (E : nth p qs [] = []).
        { destruct (nth p qs []) as [|k l] eqn:E; auto. exfalso. assert (In k (concat qs)); [|rewrite Eq in *; auto].
          apply in_concat. exists (nth p qs []). split; [apply nth_In; now rewrite Lqs|rewrite E; now left]. }
        now rewrite E.
      - assert (Hne : concat qs <> []) by (rewrite Eq; discriminate).
        assert (Hk0 : exists p, p < P /\ In k0 (nth p qs [])).
        { assert (H : In k0 (concat qs)) by (rewrite Eq; now left). apply in_concat in H as (l & Hl & Hk). 
          apply (In_nth _ _ []) in Hl as (p & Hp & <-). exists p. split; auto. now rewrite <- Lqs. }
        destruct Hk0 as (p0 & Hp0 & Hk0). destruct (HQ _ _ Hk0) as (x & Hx & _ & _).
        assert (Hsne : concat stored <> []).
        { apply w1_in in Hx. destruct (InK x Hx) as (x0 & Hx0 & _ & _). apply Hown in Hx0. rewrite <- K1 in Hx0.
          rewrite Cst. destruct (filter act (concat w1)); [destruct Hx0|discriminate]. }
        destruct (@get_values_spec K Z keq keq_spec hash hv (concat stored) tabs qs (repeat [] P) (xo_ev1 o) (xo_pw1 o) (xo_ev2 o) (xo_pw2 o)) as (res & E & _ & H);
          rewrite ?Lqs in *; auto.
        + rewrite <- Lst. apply Ht. exact Hsne.
        + apply Forall_forall. intros k Hk. apply in_concat in Hk as (l & Hl & Hk). apply (In_nth _ _ []) in Hl as (p & Hp & <-).
          destruct (HQ _ _ Hk) as (y & Hy & _ & <-). apply w1_in in Hy. destruct (InK y Hy) as (y0 & Hy0 & <- & _). now apply HH.
        + exists res. split; auto. }
    destruct HR as (res & Er & Hr). rewrite Er. cbn [obind].
    eexists. split; [reflexivity|].
    set (gh := fun p => set_ghosts act key setg keq (combine (fst (nth p res ([], []))) (snd (nth p res ([], [])))) (nth p w1 [])).
    assert (Hgh : forall p, map (fun x => bare x) (gh p) = map (fun x => bare x) (nth p w1 []) /\ filter act (gh p) = filter act (nth p w1 [])).
    { intros p. unfold gh, set_ghosts. generalize (combine (fst (nth p res ([], []))) (snd (nth p res ([], [])))) as kv. intros kv. split.
      - rewrite map_map. apply map_ext. intros x. destruct (act x); auto. destruct (lmap_find keq kv (key x)); auto.
      - induction (nth p w1 []) as [|x l IH]; simpl; auto. destruct (act x) eqn:E.
        + rewrite E, IH. reflexivity.
        + destruct (lmap_find keq kv (key x)); rewrite ?as_, E; exact IH. }
    assert (FC : filter act (concat (map gh (iota P))) = filter act (concat w1)).
    { rewrite <- (concat_map_nth w1) at 1. rewrite L1, !filter_concat', !map_map. f_equal. apply map_ext. intros p. apply Hgh. }
    split; [unfold iota; now rewrite map_length, seq_length|]. split; [|split; [|split]].
    - intros p. destruct (le_lt_dec P p) as [L|L].
      + rewrite !nth_overflow; auto. unfold iota. now rewrite map_length, seq_length.
      + rewrite nth_map_iota by auto. rewrite <- B1. apply Hgh.
    - intros Hf. rewrite FC. auto.
    - intros Hf. rewrite FC. unfold w1. now rewrite Hf.
    - intros x a Hx Ha Ek. rewrite FC in Ha.
      rewrite concat_map_flat in Hx. apply in_flat_map in Hx as (p & Hp & Hx). apply in_iota in Hp.
      assert (Uniq : forall a', In a' (filter act (concat w1)) -> key a' = key a -> a' = a).
      { intros a' Ha' E. apply (nodup_map_inj key (filter act (concat w1))); auto. now rewrite K1. }
      unfold gh, set_ghosts in Hx. apply in_map_iff in Hx as (x1 & E & Hx1). destruct (act x1) eqn:Ea.
      + subst x1. f_equal. apply Uniq; auto. apply filter_In. split; auto. eapply w1_in; eauto.
      + assert (Hkx : key x1 = key a).
        { rewrite <- Ek, <- E. destruct (lmap_find keq _ (key x1)); now rewrite ?ks. }
        destruct (Hr p Hp) as (l & El & HPl).
        rewrite El in E. simpl in E. rewrite combine_fst_snd in E.
        assert (Hin : In (key x1, glob a) l).
        { apply (Permutation_in _ (Permutation_sym HPl)). unfold answers. apply in_flat_map. exists (key x1). split.
          - unfold qs. rewrite (nth_map_in _ _ []) by lia. apply in_map. apply filter_In. split; auto. now rewrite Ea.
          - apply in_map_iff. exists (key a, glob a). split; auto. apply filter_In. split.
            + rewrite Cst. apply in_map_iff. exists a. split; auto.
            + simpl. destruct (keq_spec (key a) (key x1)); auto; congruence. }
        destruct (lmap_find_some _ _ _ Hin) as (v & Ev & Hv). rewrite Ev in E. rewrite <- E, gs.
        apply (Permutation_in _ HPl) in Hv. unfold answers in Hv. apply in_flat_map in Hv as (k & _ & Hv).
        apply in_map_iff in Hv as ([k' v'] & E2 & Hv). simpl in E2. injection E2 as -> ->. apply filter_In in Hv as [Hv Hk'].
        simpl in Hk'. destruct (keq_spec k' (key x1)) as [->|]; [|discriminate]. rewrite Cst in Hv.
        apply in_map_iff in Hv as (a' & E3 & Ha'). injection E3 as E4 <-. f_equal. apply Uniq; auto. congruence.
  Qed.
End Reset.

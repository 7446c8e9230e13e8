From Verif Require Import Prelude GAModel GAProofs ParModel ParSpec ParProofs ParProofs2 ParProofs3 NetModel NetSpec NetProofs NetProofs2.

Lemma map_nth_iota {X Y} (f : X -> Y) (l : list X) d : map (fun p => f (nth p l d)) (iota (length l)) = map f l.
Proof.
  apply nth_error_ext. intros i. rewrite !nth_error_map. unfold iota.
  destruct (le_lt_dec (length l) i) as [H|H].
  - rewrite (proj2 (nth_error_None _ _)) by (rewrite seq_length; lia). rewrite (proj2 (nth_error_None l i)) by lia. reflexivity.
  - rewrite (nth_error_nth' _ 0) by (rewrite seq_length; lia). rewrite seq_nth by lia. simpl.
    now rewrite (nth_error_nth' l d).
Qed.
Lemma nth_map_in {X Y} (f : X -> Y) (l : list X) p d d' : p < length l -> nth p (map f l) d' = f (nth p l d).
Proof. intros H. rewrite (nth_indep _ d' (f d)) by (rewrite map_length; auto). apply map_nth. Qed.
Lemma oall_map_Ok {X Y} (f : X -> outcome Y) g l : (forall x, In x l -> f x = Ok (g x)) -> oall (map f l) = Ok (map g l).
Proof.
  induction l as [|x l IH]; intros H; [reflexivity|]. cbn [map oall]. rewrite (H x) by now left. 
  rewrite IH by (intros; apply H; now right). reflexivity.
Qed.
Lemma concat_map_flat {X Y} (f : X -> list Y) l : concat (map f l) = flat_map f l.
Proof. symmetry. apply flat_map_concat_map. Qed.
Lemma map_flat_map {X Y W} (g : Y -> W) (f : X -> list Y) l : map g (flat_map f l) = flat_map (fun x => map g (f x)) l.
Proof. induction l; simpl; auto. now rewrite map_app, IHl. Qed.
Lemma combine_map_same {X Y W} (f : X -> Y) (g : X -> W) l : combine (map f l) (map g l) = map (fun x => (f x, g x)) l.
Proof. induction l; simpl; auto. now rewrite IHl. Qed.
Lemma combine_self_map {X W} (g : X -> W) l : combine l (map g l) = map (fun x => (x, g x)) l.
Proof. induction l; simpl; auto. now rewrite IHl. Qed.
Lemma nodup_map_inj {X Y} (f : X -> Y) l a b : NoDup (map f l) -> In a l -> In b l -> f a = f b -> a = b.
Proof.
  induction l as [|x l IH]; simpl; intros HN Ha Hb E; [tauto|]. inversion HN; subst.
  destruct Ha as [->|Ha], Hb as [->|Hb]; auto.
  - exfalso. apply H1. rewrite E. now apply in_map.
  - exfalso. apply H1. rewrite <- E. now apply in_map.
Qed.
Lemma filter_or_perm {X} (f g : X -> bool) l : (forall x, In x l -> f x && g x = false) ->
  Permutation (filter f l ++ filter g l)%list (filter (fun x => f x || g x) l).
Proof.
  induction l as [|x l IH]; intros H; simpl; auto. assert (Hx := H x (or_introl eq_refl)).
  assert (IH' := IH (fun y Hy => H y (or_intror Hy))).
  destruct (f x), (g x); simpl in *; try discriminate; auto.
  rewrite <- Permutation_middle. auto.
Qed.
Lemma in_combine_nodup_fst {X Y} (l : list X) (m : list Y) x y y' : NoDup l ->
  In (x, y) (combine l m) -> In (x, y') (combine l m) -> y = y'.
Proof.
  revert m; induction l as [|a l IH]; intros [|b m] HN H H'; simpl in *; try tauto. inversion HN; subst.
  destruct H as [H|H], H' as [H'|H'].
  - congruence.
  - injection H as -> ->. exfalso. apply H2. eapply in_combine_l; eauto.
  - injection H' as -> ->. exfalso. apply H2. eapply in_combine_l; eauto.
  - eauto.
Qed.
Lemma map_fst_combine' {X Y} (a : list X) (b : list Y) : length a = length b -> map fst (combine a b) = a.
Proof. revert b; induction a as [|x a IH]; intros [|y b] H; simpl in *; try discriminate; auto. f_equal. apply IH. lia. Qed.
Lemma map_snd_combine' {X Y} (a : list X) (b : list Y) : length a = length b -> map snd (combine a b) = b.
Proof. revert b; induction a as [|x a IH]; intros [|y b] H; simpl in *; try discriminate; auto. f_equal. apply IH. lia. Qed.
Lemma nth_error_combine' {X Y} (a : list X) (b : list Y) i x y :
  nth_error a i = Some x -> nth_error b i = Some y -> nth_error (combine a b) i = Some (x, y).
Proof. revert b i; induction a as [|u a IH]; intros [|v b] [|i] H H'; simpl in *; try discriminate; [congruence|auto]. Qed.
Lemma in_combine_map_l {X X' Y} (f : X -> X') (a : list X) (b : list Y) x y :
  In (x, y) (combine a b) -> In (f x, y) (combine (map f a) b).
Proof. revert b; induction a as [|u a IH]; intros [|v b] H; simpl in *; try tauto. destruct H as [H|H]; [left; congruence|right; auto]. Qed.
Lemma combine_app_eq {X Y} (a b : list X) (c d : list Y) : length a = length c ->
  combine (a ++ b)%list (c ++ d)%list = (combine a c ++ combine b d)%list.
Proof. revert c; induction a as [|x a IH]; intros [|y c] H; simpl in *; try discriminate; auto. f_equal. apply IH. lia. Qed.

Section Main.
  Context {B R : Type}.
  Notation bus := (bus B). Notation branch := (branch R). Notation net := (net B R).
  Variables (nets : list net) (dist : list nat) (ord1 ord2 : list (Z * Z)) (part : list (list Z)).
  Hypothesis Hfresh : fresh nets.
  Hypothesis Hans : answer_ok nets part.
  Let AB := all_buses nets.
  Let AR := all_branches nets.
  Let P := length nets.
  Let N := length AB.
  Notation gof := (global_index nets).
  Notation own := (owner nets part).

  Lemma part_combine : combine AB (concat part) =
    flat_map (fun p => combine (n_buses (at_rank nets p)) (nth p part [])) (iota P).
  Proof.
    destruct Hans as (Hl & Hn & _). unfold AB, all_buses, P, iota.
    assert (H : forall (ns : list net) (pt : list (list Z)) pre, length pt = length ns ->
      (forall p, length (nth p pt []) = length (n_buses (at_rank ns p))) ->
      combine (flat_map (@n_buses B R) ns) (concat pt) =
      flat_map (fun p => combine (n_buses (at_rank ns (p - pre))) (nth (p - pre) pt [])) (seq pre (length ns))).
    { induction ns as [|n ns IH]; intros [|x pt] pre L E; simpl in L; try discriminate; [reflexivity|].
      cbn [flat_map concat length seq]. rewrite combine_app_eq by (symmetry; apply (E 0)). f_equal.
      - rewrite Nat.sub_diag. reflexivity.
      - rewrite (IH pt (S pre)); [|lia|intros p; exact (E (S p))].
        rewrite !flat_map_concat_map. f_equal. apply map_ext_in. intros p Hp. apply in_seq in Hp.
        replace (p - pre) with (S (p - S pre)) by lia. reflexivity. }
    rewrite (H nets part 0 Hl Hn). rewrite !flat_map_concat_map. f_equal. apply map_ext. intros p. now rewrite Nat.sub_0_r.
  Qed.
  Lemma part_len : length (concat part) = N.
  Proof.
    destruct Hans as (Hl & Hn & _). unfold N, AB, all_buses. clear -Hl Hn.
    revert nets part Hl Hn. induction nets as [|n ns IH]; intros [|x pt] L E; simpl in L; try discriminate; [reflexivity|].
    cbn [concat flat_map]. rewrite !app_length. rewrite (IH pt); [|lia|intros p; exact (E (S p))]. f_equal. exact (E 0).
  Qed.

  Lemma gof_bus b : In b AB -> gof (b_orig b) = b_glob b.
  Proof.
    intros Hb. unfold global_index. destruct (find _ _) as [b'|] eqn:E.
    - apply find_some in E as [Hb' E]. apply Z.eqb_eq in E. f_equal.
      destruct Hfresh as (_ & _ & HN & _). eapply nodup_map_inj; eauto.
    - exfalso. apply find_none with (x := b) in E; auto. simpl in E. rewrite Z.eqb_refl in E. discriminate.
  Qed.
  Lemma glob_nodup : NoDup (map (@b_glob B) AB).
  Proof.
    destruct Hfresh as (_ & _ & _ & HP & _). eapply Permutation_NoDup; [symmetry; exact HP|].
    apply FinFun.Injective_map_NoDup; [|apply seq_NoDup]. intros a b. lia.
  Qed.
  Lemma glob_inj b b' : In b AB -> In b' AB -> b_glob b = b_glob b' -> b = b'.
  Proof. intros. eapply nodup_map_inj; eauto. apply glob_nodup. Qed.
  Lemma glob_range b : In b AB -> (0 <= b_glob b < Z.of_nat N)%Z.
  Proof.
    intros H. destruct Hfresh as (_ & _ & _ & HP & _). apply in_map with (f := @b_glob B) in H. unfold AB in H. rewrite HP in H.
    apply in_map_iff in H as (k & <- & Hk). apply in_iota in Hk. fold AB in Hk. fold N in Hk. lia.
  Qed.
  Lemma own_bus b d : In (b, d) (combine AB (concat part)) -> own (b_orig b) = d.
  Proof.
    intros Hb. unfold owner. fold AB. destruct (find _ _) as [[b' d']|] eqn:E.
    - apply find_some in E as [Hb' E]. apply Z.eqb_eq in E. simpl in E. simpl.
      assert (b' = b) as ->.
      { destruct Hfresh as (_ & _ & HN & _). eapply (nodup_map_inj (@b_orig B) AB); eauto.
        - eapply in_combine_l; eauto. - eapply in_combine_l; eauto. }
      eapply in_combine_nodup_fst; eauto. apply NoDup_map_inv with (f := @b_glob B), glob_nodup.
    - exfalso. apply find_none with (x := (b, d)) in E; auto. simpl in E. rewrite Z.eqb_refl in E. discriminate.
  Qed.
  Lemma bus_dest b : In b AB -> In (b, own (b_orig b)) (combine AB (concat part)).
  Proof.
    intros H. apply In_nth_error in H as (i & Hi).
    assert (L : i < N) by (apply nth_error_Some; congruence).
    destruct (nth_error (concat part) i) as [d|] eqn:E.
    2:{ apply nth_error_None in E. rewrite part_len in E. lia. }
    assert (H : In (b, d) (combine AB (concat part))).
    { apply nth_error_In with i. now apply nth_error_combine'. }
    now rewrite (own_bus _ _ H).
  Qed.
  Lemma own_range b : In b AB -> (0 <= own (b_orig b) < Z.of_nat P)%Z.
  Proof.
    intros H. apply bus_dest in H. apply in_combine_r in H. destruct Hans as (_ & _ & F).
    rewrite Forall_forall in F. now apply F.
  Qed.
  Lemma ends_bus r : In r AR -> (exists b, In b AB /\ b_orig b = r_o1 r) /\ (exists b, In b AB /\ b_orig b = r_o2 r).
  Proof.
    intros H. destruct Hfresh as (_ & _ & _ & _ & F). rewrite Forall_forall in F. destruct (F r H) as [H1 H2].
    apply in_map_iff in H1 as (b1 & E1 & H1), H2 as (b2 & E2 & H2). split; [exists b1|exists b2]; auto.
  Qed.

  Definition hi_end (r : branch) : Z := if (gof (r_o1 r) <=? gof (r_o2 r))%Z then r_o2 r else r_o1 r.
  Notation lo_end := (low_end nets).
  Definition G (o : Z) : nat := Z.to_nat (gof o).
  Definition es : list (nat * nat * (Z * Z)) :=
    map (fun r => (G (lo_end r), G (hi_end r), (own (lo_end r), own (hi_end r)))) AR.

  Hypothesis Hsome : AR <> [].
  Hypothesis Hdist1 : length dist = P.
  Hypothesis Hdist2 : sumn dist = N.
  Hypothesis Hord1 : Permutation ord1 (map (fun b => (b_glob b, b_orig b)) AB).
  Hypothesis Hord2 : Permutation ord2 (combine (map (@b_glob B) AB) (concat part)).

  Lemma Nsum : sumn (map (fun n => length (n_buses n)) nets) = N.
  Proof. unfold N, AB, all_buses. clear. induction nets as [|n ns IH]; simpl; auto. now rewrite app_length, IH. Qed.

  Lemma net_branch_in p r : In r (n_branches (nth_net nets p)) -> In r AR.
  Proof.
    intros H. unfold AR, all_branches. apply in_flat_map. exists (nth_net nets p). split; auto.
    unfold nth_net in *. destruct (le_lt_dec (length nets) p) as [Hl|Hl]; [rewrite nth_overflow in H by auto; destruct H|].
    now apply nth_In.
  Qed.

  Lemma G_lohi r : (G (lo_end r) = Nat.min (G (r_o1 r)) (G (r_o2 r)) /\ G (hi_end r) = Nat.max (G (r_o1 r)) (G (r_o2 r))).
  Proof. unfold G, low_end, hi_end. destruct (Z.leb_spec (gof (r_o1 r)) (gof (r_o2 r))); lia. Qed.
  Lemma lohi r : (lo_end r = r_o1 r /\ hi_end r = r_o2 r) \/ (lo_end r = r_o2 r /\ hi_end r = r_o1 r).
  Proof. unfold low_end, hi_end. destruct (Z.leb_spec (gof (r_o1 r)) (gof (r_o2 r))); auto. Qed.
  Lemma lohi_bus r : In r AR -> (exists b, In b AB /\ b_orig b = lo_end r) /\ (exists b, In b AB /\ b_orig b = hi_end r).
  Proof. intros H. destruct (ends_bus _ H). destruct (lohi r) as [[-> ->]|[-> ->]]; auto. Qed.
  Lemma G_bus b : In b AB -> G (b_orig b) = Z.to_nat (b_glob b).
  Proof. intros H. unfold G. now rewrite gof_bus. Qed.

  Definition the_plan : plan :=
    Plan (map (fun n => map (fun r => (G (r_o1 r), G (r_o2 r))) (n_branches n)) nets)
         (map (fun n => map (fun r => own (lo_end r)) (n_branches n)) nets)
         (map (fun n => map (fun r => own (hi_end r)) (n_branches n)) nets)
         (map (fun n => map (fun b => sort_unique_noerase (gh (Z.to_nat (b_glob b)) es)) (n_buses n)) nets).

  Lemma partitioner_ok : partitioner nets dist ord1 ord2 part = Ok the_plan.
  Proof.
    destruct Hfresh as (_ & _ & HNo & HPg & _).
    unfold partitioner. rewrite Nsum.
    destruct (@full_scatter Z (map (fun b => (b_glob b, b_orig b)) AB) ord1 N) as (arr & E1 & La & Ha & Hk).
    { rewrite map_map. exact HPg. } { exact Hord1. }
    rewrite E1. cbn [obind]. rewrite <- La at 1. rewrite ga_get_full. cbn [obind].
    assert (EE : forall p b, p < P -> In b AB -> edge_end (cut dist 0 arr) p (b_orig b) = G (b_orig b)).
    { intros p b Hp Hb. rewrite G_bus by auto. apply edge_end_correct; [ | | lia|lia].
      - intros i Hi. assert (Li : i < N) by (rewrite <- La; apply nth_error_Some; congruence).
        destruct (Hk i Li) as (v & Hv). apply Ha in Hv as Hv'. rewrite Nat2Z.id in Hv'.
        apply in_map_iff in Hv as (b' & E & Hb'). injection E as Eg Eo.
        assert (b' = b) as -> by (eapply nodup_map_inj; eauto; congruence). lia.
      - apply Ha. apply in_map_iff. now exists b. }
    set (ends := map (fun p => map (fun r => (edge_end (cut dist 0 arr) p (r_o1 r), edge_end (cut dist 0 arr) p (r_o2 r)))
                                  (n_branches (nth_net nets p))) (iota (length nets))).
    assert (Eends : ends = map (fun n => map (fun r => (G (r_o1 r), G (r_o2 r))) (n_branches n)) nets).
    { unfold ends. rewrite <- (map_nth_iota (fun n => map (fun r => (G (r_o1 r), G (r_o2 r))) (n_branches n)) nets empty_net).
      apply map_ext_in. intros p Hp. apply in_iota in Hp. apply map_ext_in. intros r Hr. apply net_branch_in in Hr.
      destruct (ends_bus _ Hr) as [(b1 & H1 & <-) (b2 & H2 & <-)]. now rewrite !EE. }
    clearbody ends. subst ends. 
    assert (Ec : concat (map (fun n => map (fun r => (G (r_o1 r), G (r_o2 r))) (n_branches n)) nets) =
                 map (fun r => (G (r_o1 r), G (r_o2 r))) AR).
    { rewrite concat_map_flat. unfold AR, all_branches. now rewrite map_flat_map. }
    rewrite Ec.
    assert (LAR : length (map (fun r => (G (r_o1 r), G (r_o2 r))) AR) <> 0).
    { rewrite map_length. destruct AR; [tauto|simpl; lia]. }
    assert (N0 : N <> 0).
    { destruct AR as [|r l] eqn:EA; [tauto|]. assert (Hr : In r AR) by (rewrite EA; now left).
      destruct (ends_bus _ Hr) as [(b & Hb & _) _]. unfold N. destruct AB; [destruct Hb|simpl; lia]. }
    destruct (Nat.eqb_spec N 0); [tauto|]. destruct (Nat.eqb_spec (length (map (fun r => (G (r_o1 r), G (r_o2 r))) AR)) 0); [tauto|].
    cbn [orb].
    assert (Lc : length (map (@b_glob B) AB) = length (concat part)) by (rewrite map_length, part_len; reflexivity).
    destruct (@full_scatter Z (combine (map (@b_glob B) AB) (concat part)) ord2 N) as (darr & E2 & Ld & Hd & _).
    { rewrite map_fst_combine' by auto. exact HPg. } { exact Hord2. }
    rewrite E2. cbn [obind].
    assert (ED : forall b, In b AB -> nth (G (b_orig b)) darr 0%Z = own (b_orig b)).
    { intros b Hb. rewrite G_bus by auto. apply nth_error_nth. apply Hd. apply bus_dest in Hb.
      now apply in_combine_map_l. }
    assert (Gr : forall b, In b AB -> G (b_orig b) < length darr).
    { intros b Hb. rewrite G_bus by auto. apply glob_range in Hb. lia. }
    rewrite (oall_map_ok (fun es0 => ga_gather (map Some darr) (map (fun e => Nat.min (fst e) (snd e)) es0))
               (fun es0 => map (fun e => nth (Nat.min (fst e) (snd e)) darr 0%Z) es0)).
    2:{ intros x Hx. apply in_map_iff in Hx as (n' & <- & Hn'). rewrite (ga_gather_full darr 0%Z).
        - now rewrite map_map.
        - intros i Hi. rewrite map_map in Hi. apply in_map_iff in Hi as (r & <- & Hr). simpl.
          assert (Hr' : In r AR) by (apply in_flat_map; now exists n').
          destruct (ends_bus _ Hr') as [(b1 & H1 & <-) (b2 & H2 & <-)]. apply Gr in H1, H2. lia. }
    cbn [obind].
    rewrite (oall_map_ok (fun es0 => ga_gather (map Some darr) (map (fun e => Nat.max (fst e) (snd e)) es0))
               (fun es0 => map (fun e => nth (Nat.max (fst e) (snd e)) darr 0%Z) es0)).
    2:{ intros x Hx. apply in_map_iff in Hx as (n' & <- & Hn'). rewrite (ga_gather_full darr 0%Z).
        - now rewrite map_map.
        - intros i Hi. rewrite map_map in Hi. apply in_map_iff in Hi as (r & <- & Hr). simpl.
          assert (Hr' : In r AR) by (apply in_flat_map; now exists n').
          destruct (ends_bus _ Hr') as [(b1 & H1 & <-) (b2 & H2 & <-)]. apply Gr in H1, H2. lia. }
    cbn [obind]. rewrite !map_map.
    assert (M1 : map (fun n => map (fun e => nth (Nat.min (fst e) (snd e)) darr 0%Z)
                       (map (fun r => (G (r_o1 r), G (r_o2 r))) (n_branches n))) nets =
                 map (fun n => map (fun r => own (lo_end r)) (n_branches n)) nets).
    { apply map_ext_in. intros n' Hn'. rewrite map_map. apply map_ext_in. intros r Hr. cbn [fst snd].
      assert (Hr' : In r AR) by (apply in_flat_map; now exists n').
      rewrite <- (proj1 (G_lohi r)). destruct (lohi_bus _ Hr') as [(b1 & H1 & <-) _]. now apply ED. }
    assert (M2 : map (fun n => map (fun e => nth (Nat.max (fst e) (snd e)) darr 0%Z)
                       (map (fun r => (G (r_o1 r), G (r_o2 r))) (n_branches n))) nets =
                 map (fun n => map (fun r => own (hi_end r)) (n_branches n)) nets).
    { apply map_ext_in. intros n' Hn'. rewrite map_map. apply map_ext_in. intros r Hr. cbn [fst snd].
      assert (Hr' : In r AR) by (apply in_flat_map; now exists n').
      rewrite <- (proj2 (G_lohi r)). destruct (lohi_bus _ Hr') as [_ (b1 & H1 & <-)]. now apply ED. }
    rewrite M1, M2.
    match goal with |- obind (ghost_fill ?c ?e _) _ = _ => set (cap := c); set (ee := e) end.
    assert (Ee : ee = es).
    { unfold ee, es. rewrite !concat_map_flat. rewrite <- !map_flat_map. fold (all_branches nets). fold AR.
      rewrite !combine_map_same. apply map_ext. intros r. cbn [fst snd]. destruct (G_lohi r) as [-> ->]. reflexivity. }
    assert (LB : forall e, In e es -> fst (fst e) < N /\ snd (fst e) < N).
    { intros e He. apply in_map_iff in He as (r & <- & Hr). simpl.
      destruct (lohi_bus _ Hr) as [(b1 & H1 & <-) (b2 & H2 & <-)]. apply Gr in H1, H2. lia. }
    assert (CB : forall g, g < N -> length (gh g es) <= cap).
    { intros g Hg. rewrite <- Ee. unfold ee. 
      rewrite <- (map_map (fun r : branch => (G (r_o1 r), G (r_o2 r))) (fun e : nat * nat => (Nat.min (fst e) (snd e), Nat.max (fst e) (snd e)))) at 1.
      etransitivity; [apply gh_le_conn|].
      unfold cap. apply fold_natmax_ge. apply in_flat_map.
      assert (Hin : In (Z.of_nat g) (map (@b_glob B) AB)).
      { unfold AB. rewrite HPg. apply in_map. apply in_iota. exact Hg. }
      apply in_map_iff in Hin as (b & Eg & Hb). unfold AB, all_buses in Hb. apply in_flat_map in Hb as (n' & Hn' & Hb).
      exists n'. split; auto. apply in_map_iff. exists b. split; auto. rewrite Eg, Nat2Z.id. reflexivity. }
    destruct (@ghost_fill_ok cap es (repeat [] N)) as (rows & Er & Lr & Hr).
    { intros g Hg. rewrite repeat_length in Hg. rewrite nth_repeat_nil. simpl. now apply CB. }
    { rewrite repeat_length. exact LB. }
    rewrite Ee, Er. cbn [obind]. unfold the_plan. do 2 f_equal.
    apply map_ext. intros n'. apply map_ext. intros b. f_equal. rewrite Hr. now rewrite nth_repeat_nil.
  Qed.

  (** ** The four shuffles *)
  Definition sg (r : branch) : branch := set_rg r (Z.of_nat (G (r_o1 r))) (Z.of_nat (G (r_o2 r))).
  Definition gdest (b : bus) : list Z := sort_unique_noerase (gh (Z.to_nat (b_glob b)) es).
  Definition ghostbuses (n : net) : list (bus * Z) := flat_map (fun b => map (fun d => (b, d)) (gdest b)) (n_buses n).
  Definition ghostbranches (n : net) : list (branch * Z) :=
    map (fun r => (set_ractive (sg r) false, own (hi_end r)))
        (filter (fun r => negb (own (lo_end r) =? own (hi_end r))%Z) (n_branches n)).

  Lemma nth_plan {X} (f : net -> list X) p : f empty_net = [] -> nth p (map f nets) [] = f (nth_net nets p).
  Proof.
    intros H. unfold nth_net. destruct (le_lt_dec (length nets) p) as [L|L].
    - rewrite !nth_overflow by (try rewrite map_length; auto). now rewrite H.
    - now apply nth_map_in.
  Qed.
  Lemma plan_branches p : map (fun re => set_rg (fst re) (Z.of_nat (fst (snd re))) (Z.of_nat (snd (snd re))))
      (combine (n_branches (nth_net nets p)) (nth p (pl_ends the_plan) [])) = map sg (n_branches (nth_net nets p)).
  Proof.
    unfold the_plan. cbn [pl_ends].
    rewrite (nth_plan (fun n => map (fun r => (G (r_o1 r), G (r_o2 r))) (n_branches n))) by reflexivity.
    rewrite combine_self_map, map_map. reflexivity.
  Qed.
  Lemma plan_ghostbuses p : flat_map (fun bd => map (fun d => (fst bd, d)) (snd bd))
      (combine (n_buses (nth_net nets p)) (nth p (pl_gnode the_plan) [])) = ghostbuses (nth_net nets p).
  Proof.
    unfold the_plan. cbn [pl_gnode].
    rewrite (nth_plan (fun n => map (fun b => sort_unique_noerase (gh (Z.to_nat (b_glob b)) es)) (n_buses n))) by reflexivity.
    rewrite combine_self_map. unfold ghostbuses. rewrite !flat_map_concat_map, map_map. reflexivity.
  Qed.
  Lemma filter_map_comm {X Y} (f : X -> Y) g l : filter g (map f l) = map f (filter (fun x => g (f x)) l).
  Proof. induction l as [|x l IH]; simpl; auto. rewrite IH. now destruct (g (f x)). Qed.
  Lemma plan_ghostbranches p : map (fun x => (set_ractive (fst x) false, snd (snd x)))
      (filter (fun x => negb (fst (snd x) =? snd (snd x))%Z)
         (combine (map sg (n_branches (nth_net nets p))) (combine (nth p (pl_edge the_plan) []) (nth p (pl_gedge the_plan) [])))) =
     ghostbranches (nth_net nets p).
  Proof.
    unfold the_plan. cbn [pl_edge pl_gedge].
    rewrite (nth_plan (fun n => map (fun r => own (lo_end r)) (n_branches n))) by reflexivity.
    rewrite (nth_plan (fun n => map (fun r => own (hi_end r)) (n_branches n))) by reflexivity.
    rewrite combine_map_same, combine_map_same. rewrite filter_map_comm, map_map. reflexivity.
  Qed.

  Lemma flat_nets {X} (f : net -> list X) : flat_map (fun p => f (nth_net nets p)) (iota P) = flat_map f nets.
  Proof. apply iota_flat_nth. Qed.

  Lemma in_gdest b d : In b AB -> (In d (gdest b) <->
     own (b_orig b) <> d /\ exists r, In r AR /\ ((r_o1 r = b_orig b /\ own (r_o2 r) = d) \/ (r_o2 r = b_orig b /\ own (r_o1 r) = d))).
  Proof.
    intros Hb. unfold gdest. rewrite In_sort_unique, gh_In.
    assert (GI : forall o, (exists b', In b' AB /\ b_orig b' = o) -> G o = Z.to_nat (b_glob b) -> o = b_orig b).
    { intros o (b' & Hb' & <-) E. rewrite G_bus in E by auto. f_equal. apply glob_inj; auto.
      apply glob_range in Hb, Hb'. lia. }
    split.
    - intros (lo & hi & dlo & dhi & He & Hne & H). apply in_map_iff in He as (r & E & Hr). injection E as E1 E2 E3 E4.
      destruct (lohi_bus _ Hr) as [Hlo Hhi]. subst.
      destruct H as [[H ->]|[H ->]]; apply GI in H; auto; rewrite <- H; (split; [congruence|]); exists r; split; auto;
      destruct (lohi r) as [[E1 E2]|[E1 E2]]; rewrite ?E1, ?E2 in *; auto.
    - intros (Hne & r & Hr & H). exists (G (lo_end r)), (G (hi_end r)), (own (lo_end r)), (own (hi_end r)).
      split; [apply in_map_iff; now exists r|].
      destruct H as [[H Ho]|[H Ho]], (lohi r) as [[E1 E2]|[E1 E2]]; rewrite E1, E2, <- (G_bus _ Hb), <- H in *;
       (split; [congruence|auto]).
  Qed.

  Lemma bus_shuffle : exists bs,
    shuffle (map (fun p => (n_buses (nth_net nets p), nth p part [])) (iota P)) = Ok bs /\
    forall p, p < P -> Permutation (nth p bs []) (filter (fun b => own (b_orig b) =? Z.of_nat p)%Z AB).
  Proof.
    destruct Hans as (_ & Hn & HF).
    destruct (@shuffle_pairs bus (fun p => combine (n_buses (nth_net nets p)) (nth p part [])) P) as (r & E & _ & H).
    { intros p x Hp Hx. rewrite Forall_forall in HF. apply HF.
      destruct x as [b d]. apply in_combine_r in Hx. apply in_concat. exists (nth p part []). split; auto.
      destruct (le_lt_dec (length part) p) as [L|L]; [rewrite nth_overflow in Hx by auto; destruct Hx|]. now apply nth_In. }
    exists r. split.
    - rewrite <- E. f_equal. apply map_ext. intros p. specialize (Hn p). 
      rewrite map_fst_combine', map_snd_combine' by (symmetry; exact Hn). reflexivity.
    - intros p Hp. rewrite (H p Hp).
      change (flat_map (fun p0 => combine (n_buses (nth_net nets p0)) (nth p0 part [])) (iota P)) with
             (flat_map (fun p0 => combine (n_buses (at_rank nets p0)) (nth p0 part [])) (iota P)).
      rewrite <- part_combine. apply Permutation_refl'.
      assert (Ho : forall x, In x (combine AB (concat part)) -> own (b_orig (fst x)) = snd x).
      { intros [b d] Hx. now apply own_bus. }
      assert (L : length AB = length (concat part)) by (symmetry; apply part_len).
      clear -Ho L. revert Ho L. generalize (concat part) as m. generalize AB as l.
      induction l as [|b l IH]; intros [|d m] Ho L; simpl in L; try discriminate; auto.
      cbn [combine filter snd]. assert (Hb := Ho (b, d) (or_introl eq_refl)). simpl in Hb. rewrite Hb.
      rewrite <- (IH m); [|intros x Hx; apply Ho; now right|lia]. now destruct (d =? Z.of_nat p)%Z.
  Qed.
  Lemma branch_shuffle : exists rs,
    shuffle (map (fun p => (map sg (n_branches (nth_net nets p)), nth p (pl_edge the_plan) [])) (iota P)) = Ok rs /\
    forall p, p < P -> Permutation (nth p rs []) (map sg (filter (fun r => own (lo_end r) =? Z.of_nat p)%Z AR)).
  Proof.
    destruct (@shuffle_pairs branch (fun p => map (fun r => (sg r, own (lo_end r))) (n_branches (nth_net nets p))) P) as (r & E & _ & H).
    { intros p x Hp Hx. apply in_map_iff in Hx as (r & <- & Hr). apply net_branch_in in Hr. simpl.
      destruct (lohi_bus _ Hr) as [(b & Hb & <-) _]. now apply own_range. }
    exists r. split.
    - rewrite <- E. f_equal. apply map_ext. intros p. rewrite !map_map. simpl. f_equal.
      unfold the_plan. cbn [pl_edge]. now rewrite (nth_plan (fun n => map (fun r => own (lo_end r)) (n_branches n))).
    - intros p Hp. rewrite (H p Hp). rewrite (flat_nets (fun n => map (fun r => (sg r, own (lo_end r))) (n_branches n))).
      rewrite <- map_flat_map. rewrite filter_map_comm, map_map. simpl. reflexivity.
  Qed.
  Lemma gbus_shuffle : exists gbs,
    shuffle (map (fun p => (map fst (ghostbuses (nth_net nets p)), map snd (ghostbuses (nth_net nets p)))) (iota P)) = Ok gbs /\
    forall p, p < P -> forall b, In b (nth p gbs []) <-> In b AB /\ In (Z.of_nat p) (gdest b).
  Proof.
    destruct (@shuffle_pairs bus (fun p => ghostbuses (nth_net nets p)) P) as (r & E & _ & H).
    { intros p [b d] Hp Hx. unfold ghostbuses in Hx. apply in_flat_map in Hx as (b' & Hb & Hd).
      apply in_map_iff in Hd as (d' & Ed & Hd). injection Ed as -> ->. simpl.
      assert (Hb' : In b AB).
      { unfold AB, all_buses. apply in_flat_map. exists (nth_net nets p). split; auto. now apply nth_In. }
      apply in_gdest in Hd; auto. destruct Hd as (_ & r & Hr & Hor). destruct (ends_bus _ Hr) as [(b1 & H1 & E1) (b2 & H2 & E2)].
      destruct Hor as [[_ <-]|[_ <-]]; [rewrite <- E2|rewrite <- E1]; now apply own_range. }
    exists r. split; [exact E|]. intros p Hp b. 
    assert (HP := H p Hp). rewrite (flat_nets ghostbuses) in HP. split.
    - intros Hb. apply (Permutation_in _ HP) in Hb. apply in_map_iff in Hb as ([b' d] & <- & Hb). simpl.
      apply filter_In in Hb as [Hb Hd]. apply Z.eqb_eq in Hd. simpl in Hd. subst d.
      apply in_flat_map in Hb as (n & Hn & Hb). unfold ghostbuses in Hb. apply in_flat_map in Hb as (b'' & Hb & Hd).
      apply in_map_iff in Hd as (d' & Ed & Hd). injection Ed as -> ->. split; auto.
      apply in_flat_map. now exists n.
    - intros [Hb Hd]. apply (Permutation_in _ (Permutation_sym HP)). apply in_map_iff. exists (b, Z.of_nat p). split; auto.
      apply filter_In. split; [|now apply Z.eqb_eq]. unfold AB, all_buses in Hb. apply in_flat_map in Hb as (n & Hn & Hb).
      apply in_flat_map. exists n. split; auto. unfold ghostbuses. apply in_flat_map. exists b. split; auto.
      now apply in_map.
  Qed.
  Lemma gbranch_shuffle : exists grs,
    shuffle (map (fun p => (map fst (ghostbranches (nth_net nets p)), map snd (ghostbranches (nth_net nets p)))) (iota P)) = Ok grs /\
    forall p, p < P -> Permutation (nth p grs []) (map (fun r => set_ractive (sg r) false)
      (filter (fun r => negb (own (lo_end r) =? own (hi_end r)) && (own (hi_end r) =? Z.of_nat p))%Z AR)).
  Proof.
    destruct (@shuffle_pairs branch (fun p => ghostbranches (nth_net nets p)) P) as (r & E & _ & H).
    { intros p x Hp Hx. unfold ghostbranches in Hx. apply in_map_iff in Hx as (r & <- & Hr).
      apply filter_In in Hr as [Hr _]. apply net_branch_in in Hr. simpl.
      destruct (lohi_bus _ Hr) as [_ (b & Hb & <-)]. now apply own_range. }
    exists r. split; [exact E|]. intros p Hp. rewrite (H p Hp). rewrite (flat_nets ghostbranches).
    apply Permutation_refl'. unfold AR, all_branches.
    assert (Hall : forall ns, map fst (filter (fun x => snd x =? Z.of_nat p)%Z (flat_map ghostbranches ns)) =
      map (fun r => set_ractive (sg r) false)
        (filter (fun r => negb (own (lo_end r) =? own (hi_end r)) && (own (hi_end r) =? Z.of_nat p))%Z (flat_map (@n_branches B R) ns))).
    { induction ns as [|n ns IH]; [reflexivity|]. cbn [flat_map]. rewrite !filter_app, !map_app, IH. f_equal.
      unfold ghostbranches. rewrite filter_map_comm, map_map, filter_filter. reflexivity. }
    apply Hall.
  Qed.

  (** ** What one rank ends up with *)
  Section Rank.
    Variables (p : nat) (bs gbs : list bus) (rs grs : list branch).
    Variables (rf : Z) (bm : list (Z * nat)) (rm : list (Z * Z * nat)).
    Hypothesis HB : Permutation bs (filter (fun b => own (b_orig b) =? Z.of_nat p)%Z AB).
    Hypothesis HR : Permutation rs (map sg (filter (fun r => own (lo_end r) =? Z.of_nat p)%Z AR)).
    Hypothesis HGB : forall b, In b gbs <-> In b AB /\ In (Z.of_nat p) (gdest b).
    Hypothesis HGR : Permutation grs (map (fun r => set_ractive (sg r) false)
      (filter (fun r => negb (own (lo_end r) =? own (hi_end r)) && (own (hi_end r) =? Z.of_nat p))%Z AR)).
    Let BS := (bs ++ map (fun b => set_bactive b false) gbs)%list.
    Let RS := (rs ++ grs)%list.
    Let BS0 := map (@bare B) BS.
    Notation mine o := (own o =? Z.of_nat p)%Z.

    Lemma BS_in x : In x BS -> exists b, In b AB /\ bus_core x = bus_core b /\
      (b_active x = true <-> mine (b_orig b) = true).
    Proof.
      intros H. unfold BS in H. apply in_app_or in H as [H|H].
      - rewrite HB in H. apply filter_In in H as [H Ho]. exists x. repeat split; auto. intros _.
        destruct Hfresh as (F & _). rewrite Forall_forall in F. now apply F.
      - apply in_map_iff in H as (b & <- & Hb). apply HGB in Hb as [Hb Hd]. exists b. split; auto. split; [reflexivity|].
        simpl. split; [discriminate|]. apply in_gdest in Hd as [Hd _]; auto. intros E. apply Z.eqb_eq in E. tauto.
    Qed.
    Lemma end_present r o o' : In r AR -> ((o = r_o1 r /\ o' = r_o2 r) \/ (o = r_o2 r /\ o' = r_o1 r)) ->
      mine (r_o1 r) || mine (r_o2 r) = true -> In (Z.of_nat (G o)) (map (@b_glob B) BS0).
    Proof.
      intros Hr Ho Hm. destruct (ends_bus _ Hr) as [(b1 & H1 & E1) (b2 & H2 & E2)].
      assert (HH : forall b b', In b AB -> In b' AB -> mine (b_orig b) || mine (b_orig b') = true ->
         ((r_o1 r = b_orig b /\ r_o2 r = b_orig b') \/ (r_o2 r = b_orig b /\ r_o1 r = b_orig b')) ->
         In (Z.of_nat (G (b_orig b))) (map (@b_glob B) BS0)).
      { intros b b' Hb Hb' Hor Hrr. rewrite G_bus by auto. rewrite Z2Nat.id by (apply glob_range in Hb; lia).
        unfold BS0. rewrite map_map. simpl. unfold BS. rewrite map_app, map_map. simpl.
        destruct (mine (b_orig b)) eqn:Em.
        - apply in_or_app. left. apply in_map. rewrite HB. apply filter_In. now split.
        - apply in_or_app. right. apply in_map_iff. exists b. split; auto. apply HGB. split; auto.
          apply in_gdest; auto. apply Z.eqb_neq in Em. split; auto. exists r. split; auto. simpl in Hor. apply Z.eqb_eq in Hor.
          destruct Hrr as [[-> ->]|[-> ->]]; auto. }
      destruct Ho as [[-> ->]|[-> ->]].
      - rewrite <- E1. apply (HH b1 b2); auto. now rewrite E1, E2.
      - rewrite <- E2. apply (HH b2 b1); auto. rewrite E1, E2. now rewrite orb_comm.
    Qed.
    Lemma RS_in r' : In r' RS -> exists r, In r AR /\ branch_core r' = branch_core r /\
      mine (r_o1 r) || mine (r_o2 r) = true /\ r_g1 r' = Z.of_nat (G (r_o1 r)) /\ r_g2 r' = Z.of_nat (G (r_o2 r)).
    Proof.
      intros H. unfold RS in H. apply in_app_or in H as [H|H].
      - rewrite HR in H. apply in_map_iff in H as (r & <- & H). apply filter_In in H as [H Ho].
        exists r. repeat split; auto. destruct (lohi r) as [[E1 E2]|[E1 E2]]; rewrite E1 in Ho; rewrite Ho; auto. now rewrite orb_true_r.
      - rewrite HGR in H. apply in_map_iff in H as (r & <- & H). apply filter_In in H as [H Ho].
        apply andb_true_iff in Ho as [_ Ho].
        exists r. repeat split; auto. destruct (lohi r) as [[E1 E2]|[E1 E2]]; rewrite E2 in Ho; rewrite Ho; auto. now rewrite orb_true_r.
    Qed.
    Lemma core_bare (x y : bus) : bare x = bare y -> bus_core x = bus_core y /\ b_active x = b_active y /\ b_glob x = b_glob y /\ b_orig x = b_orig y.
    Proof. destruct x, y. unfold bare, bus_core. simpl. intros H. injection H as -> -> -> -> ->. auto. Qed.

    Lemma rank_holds : exists n', setup (Net BS RS rf bm rm) = Ok n' /\ holds nets part p n'.
    Proof.
      unfold setup. cbn [n_branches n_buses n_ref n_busmap n_branchmap].
      change (map (fun b => set_nbr b []) BS) with BS0.
      destruct (@link_ok B R RS 0 BS0 BS0 eq_refl) as (bs' & E & HS & HN).
      { intros r' Hr'. destruct (RS_in _ Hr') as (r & Hr & _ & Hm & -> & ->). 
        split; [apply (@end_present r (r_o1 r) (r_o2 r))|apply (@end_present r (r_o2 r) (r_o1 r))]; auto. }
      rewrite E. cbn [obind fst snd]. eexists. split; [reflexivity|].
      set (lk := fun r : branch => set_rl r (Z.of_nat (busindex BS0 (r_g1 r))) (Z.of_nat (busindex BS0 (r_g2 r)))) in *.
      unfold set_map. unfold holds. cbn [n_buses n_branches n_ref n_busmap n_branchmap].
      assert (SB : map (@bare B) bs' = map (@bare B) BS).
      { unfold same_but_nbr in HS. rewrite HS. unfold BS0. rewrite map_map. now apply map_ext. }
      assert (BI : forall i b, nth_error bs' i = Some b -> exists x, nth_error BS i = Some x /\ bare b = bare x).
      { intros i b Hb. assert (Hx : nth_error (map (@bare B) BS) i = Some (bare b)) by (rewrite <- SB, nth_error_map, Hb; auto).
        rewrite nth_error_map in Hx. destruct (nth_error BS i) as [x|]; [|discriminate]. exists x. split; auto.
        unfold option_map in Hx. assert (bare x = bare b) by congruence. auto. }
      assert (FB : forall f : bool, map bus_core (filter (fun b => Bool.eqb (b_active b) f) bs') = map bus_core (filter (fun b => Bool.eqb (b_active b) f) BS)).
      { intros f.
        assert (H : forall l : list bus, map bus_core (filter (fun b => Bool.eqb (b_active b) f) l) = map bus_core (filter (fun b => Bool.eqb (b_active b) f) (map (@bare B) l))).
        { intros l. rewrite filter_map_comm, map_map. reflexivity. }
        rewrite (H bs'), (H BS), SB. reflexivity. }
      assert (Act : forall b, In b bs -> b_active b = true).
      { intros b Hb. rewrite HB in Hb. apply filter_In in Hb as [Hb _]. destruct Hfresh as (F & _). rewrite Forall_forall in F. now apply F. }
      assert (FA : filter (fun b => Bool.eqb (b_active b) true) BS = bs).
      { unfold BS. rewrite filter_app, filter_map_comm. simpl. 
        replace (filter (fun _ : bus => false) gbs) with (@nil bus) by (clear; induction gbs; auto).
        simpl. rewrite app_nil_r. clear -Act. induction bs as [|b l IH]; simpl; auto.
        rewrite (Act b) by now left. simpl. rewrite IH; auto. intros; apply Act; now right. }
      assert (FI : filter (fun b => Bool.eqb (b_active b) false) BS = map (fun b => set_bactive b false) gbs).
      { unfold BS. rewrite filter_app, filter_map_comm. simpl. 
        replace (filter (fun _ : bus => true) gbs) with gbs by (clear; induction gbs; simpl; congruence).
        clear -Act. induction bs as [|b l IH]; simpl; auto. rewrite (Act b) by now left. simpl. apply IH.
        intros; apply Act; now right. }
      assert (C5 : forall r, In r (map lk RS) ->
         exists b1 b2, zget bs' (r_l1 r) = Some b1 /\ b_orig b1 = r_o1 r /\ r_g1 r = b_glob b1 /\
                       zget bs' (r_l2 r) = Some b2 /\ b_orig b2 = r_o2 r /\ r_g2 r = b_glob b2).
      { intros r'' Hr''. apply in_map_iff in Hr'' as (r' & <- & Hr'). destruct (RS_in _ Hr') as (r & Hr & Ec & Hm & E1 & E2).
        unfold branch_core in Ec. injection Ec as _ Eo1 Eo2 _.
        assert (HH : forall o o', ((o = r_o1 r /\ o' = r_o2 r) \/ (o = r_o2 r /\ o' = r_o1 r)) ->
           exists b, zget bs' (Z.of_nat (busindex BS0 (Z.of_nat (G o)))) = Some b /\ b_orig b = o /\ Z.of_nat (G o) = b_glob b).
        { intros o o' Ho. destruct (busindex_spec BS0 (Z.of_nat (G o))) as (x & Hx & Eg).
          { eapply end_present; eauto. }
          remember (busindex BS0 (Z.of_nat (G o))) as k eqn:Ek. clear Ek.
          unfold zget. destruct (Z.ltb_spec (Z.of_nat k) 0); [lia|]. rewrite Nat2Z.id.
          destruct (nth_error bs' k) as [b|] eqn:Eb.
          2:{ apply nth_error_None in Eb. apply (f_equal (@length _)) in SB. rewrite !map_length in SB.
              assert (k < length BS0) by (apply nth_error_Some; congruence).
              unfold BS0 in *. rewrite map_length in *. lia. }
          exists b. split; auto. destruct (BI _ _ Eb) as (y & Hy & Ey). apply core_bare in Ey as (Ec & _ & Egl & Eor).
          unfold BS0 in Hx. rewrite nth_error_map, Hy in Hx. simpl in Hx. injection Hx as <-. simpl in Eg.
          apply nth_error_In in Hy. destruct (BS_in _ Hy) as (z & Hz & Ez & _). unfold bus_core in Ez. injection Ez as Ez1 Ez2 _ _.
          split; [|congruence]. rewrite Eor, Ez1. symmetry. 
          destruct (ends_bus _ Hr) as [(b1 & Hb1 & Eb1) (b2 & Hb2 & Eb2)].
          assert (exists w, In w AB /\ b_orig w = o) as (w & Hw & <-) by (destruct Ho as [[-> _]|[-> _]]; eauto).
          f_equal. apply glob_inj; auto. rewrite G_bus in Eg by auto. apply glob_range in Hw. lia. }
        destruct (HH (r_o1 r) (r_o2 r)) as (b1 & Z1 & O1 & G1); auto. destruct (HH (r_o2 r) (r_o1 r)) as (b2 & Z2 & O2 & G2); auto.
        exists b1, b2. unfold lk. simpl. rewrite E1, E2, Eo1, Eo2. auto 10. }
      split; [|split; [|split; [|split; [|split; [|split]]]]].
      - transitivity (map bus_core (filter (fun b => Bool.eqb (b_active b) true) bs')).
        + apply Permutation_refl'. f_equal. apply filter_ext. intros b. now destruct (b_active b).
        + rewrite FB, FA. apply Permutation_map. exact HB.
      - rewrite map_map. transitivity (map branch_core RS); [reflexivity|]. unfold RS. rewrite map_app.
        rewrite (Permutation_map branch_core HR), (Permutation_map branch_core HGR). rewrite !map_map.
        change (fun x => branch_core (sg x)) with (@branch_core R).
        change (fun x => branch_core (set_ractive (sg x) false)) with (@branch_core R).
        rewrite <- map_app. apply Permutation_map. fold AR. rewrite filter_or_perm.
        + apply Permutation_refl'. apply filter_ext. intros r.
          destruct (lohi r) as [[-> ->]|[-> ->]]; destruct (Z.eqb_spec (own (r_o1 r)) (Z.of_nat p)), (Z.eqb_spec (own (r_o2 r)) (Z.of_nat p)); simpl;
          rewrite ?andb_false_r; auto; rewrite ?andb_true_r; match goal with |- negb (?a =? ?b)%Z = _ => destruct (Z.eqb_spec a b); simpl; auto; congruence end.
        + intros r _. destruct (Z.eqb_spec (own (lo_end r)) (Z.of_nat p)); simpl; auto. rewrite e.
          destruct (Z.eqb_spec (Z.of_nat p) (own (hi_end r))); simpl; auto. apply Z.eqb_neq. congruence.
      - rewrite filter_map_comm. simpl. rewrite map_map.
        transitivity (map branch_core rs).
        + apply Permutation_refl'. unfold RS. rewrite filter_app.
          assert (A1 : filter (fun x : branch => r_active x) rs = rs).
          { assert (A : forall r, In r rs -> r_active r = true).
            { intros r' Hr'. rewrite HR in Hr'. apply in_map_iff in Hr' as (r & <- & Hr). apply filter_In in Hr as [Hr _].
              destruct Hfresh as (_ & F & _). rewrite Forall_forall in F. exact (F r Hr). }
            clear -A. induction rs as [|r l IH]; simpl; auto. rewrite (A r) by now left. rewrite IH; auto.
            intros; apply A; now right. }
          assert (A2 : filter (fun x : branch => r_active x) grs = []).
          { assert (A : forall r, In r grs -> r_active r = false).
            { intros r' Hr'. rewrite HGR in Hr'. apply in_map_iff in Hr' as (r & <- & Hr). reflexivity. }
            clear -A. induction grs as [|r l IH]; simpl; auto. rewrite (A r) by now left. apply IH.
            intros; apply A; now right. }
          rewrite A1, A2, app_nil_r. reflexivity.
        + rewrite (Permutation_map branch_core HR). rewrite map_map. apply Permutation_refl.
      - intros c. 
        assert (EF : map bus_core (filter (fun b => negb (b_active b)) bs') = map bus_core gbs).
        { transitivity (map bus_core (filter (fun b => Bool.eqb (b_active b) false) bs')).
          - reflexivity.
          - rewrite FB, FI, map_map. reflexivity. }
        rewrite EF. rewrite in_map_iff. split.
        + intros (b & <- & Hb). apply HGB in Hb as [Hb Hd]. apply in_gdest in Hd as (Hne & r & Hr & Ho); auto.
          exists b. repeat split; auto; [now apply Z.eqb_neq|]. exists r. split; auto. 
          destruct Ho as [[? ?]|[? ?]]; [left|right]; split; auto; now apply Z.eqb_eq.
        + intros (b & Hb & <- & Hm & r & Hr & Ho). exists b. split; auto. apply HGB. split; auto. apply in_gdest; auto.
          split; [now apply Z.eqb_neq|]. exists r. split; auto.
          destruct Ho as [[? ?]|[? ?]]; [left|right]; split; auto; now apply Z.eqb_eq.
      - exact C5.
      - intros i b Hb. destruct (HN _ _ Hb) as (x & Hx & ->). unfold BS0 in Hx. rewrite nth_error_map in Hx.
        destruct (nth_error BS i) as [y|]; [|discriminate]. injection Hx as <-. simpl b_nbr. rewrite app_nil_l.
        rewrite map_length. unfold iota. fold lk. generalize 0 as s. generalize RS as L. induction L as [|r l IH]; intros s; [reflexivity|].
        cbn [length seq map combine flat_map]. rewrite <- IH. f_equal. unfold ends_at. simpl.
        f_equal.
        + destruct (Nat.eqb_spec (busindex BS0 (r_g1 r)) i), (Z.eqb_spec (Z.of_nat (busindex BS0 (r_g1 r))) (Z.of_nat i)); auto; lia.
        + destruct (Nat.eqb_spec (busindex BS0 (r_g2 r)) i), (Z.eqb_spec (Z.of_nat (busindex BS0 (r_g2 r))) (Z.of_nat i)); auto; lia.
      - intros i b j r Hi Ha Hj. apply nth_error_In in Hj. destruct (C5 r Hj) as (b1 & b2 & Z1 & O1 & G1 & Z2 & O2 & G2).
        assert (U : forall l b', zget bs' l = Some b' -> (l = Z.of_nat i <-> b_orig b' = b_orig b)).
        { intros l b' Hl. unfold zget in Hl. destruct (Z.ltb_spec l 0); [discriminate|]. split.
          - intros ->. rewrite Nat2Z.id in Hl. congruence.
          - intros Eo. destruct (BI _ _ Hi) as (x & Hx & Ex), (BI _ _ Hl) as (x' & Hx' & Ex').
            apply core_bare in Ex as (_ & Eact & _ & Eor), Ex' as (_ & _ & _ & Eor').
            assert (Hpos : forall k y, nth_error BS k = Some y -> b_orig y = b_orig b -> k < length bs /\ nth_error (map (@b_orig B) bs) k = Some (b_orig b)).
            { intros k y Hy Ey. destruct (le_lt_dec (length bs) k) as [L|L].
              - exfalso. destruct (BS_in _ (nth_error_In _ _ Hx)) as (z & Hz & Ez & Hza).
                assert (Hm : mine (b_orig z) = true) by (apply Hza; congruence).
                unfold BS in Hy. rewrite nth_error_app2 in Hy by auto. rewrite nth_error_map in Hy.
                destruct (nth_error gbs (k - length bs)) as [w|] eqn:Ew; [|discriminate]. injection Hy as <-. simpl in Ey.
                apply nth_error_In in Ew. apply HGB in Ew as [Hw Hd]. apply in_gdest in Hd as [Hd _]; auto.
                unfold bus_core in Ez. injection Ez as Ez _ _ _. apply Hd. apply Z.eqb_eq in Hm. congruence.
              - split; auto. unfold BS in Hy. rewrite nth_error_app1 in Hy by auto. rewrite nth_error_map, Hy. simpl. congruence. }
            destruct (Hpos i x Hx) as [Li Ni]; [congruence|]. destruct (Hpos (Z.to_nat l) x' Hx') as [Ll Nl]; [congruence|].
            assert (ND : NoDup (map (@b_orig B) bs)).
            { eapply Permutation_NoDup; [symmetry; apply (Permutation_map (@b_orig B) HB)|].
              destruct Hfresh as (_ & _ & ND & _). fold AB in ND. clear -ND.
              induction AB as [|y l IH]; simpl; [constructor|]. inversion ND; subst. destruct (_ =? _)%Z; simpl; auto. constructor; auto.
              intros H. apply H1. apply in_map_iff in H as (z & Ez & Hz). apply filter_In in Hz as [Hz _]. rewrite <- Ez. now apply in_map. }
            assert (i = Z.to_nat l).
            { apply (proj1 (NoDup_nth_error _) ND); [now rewrite map_length|congruence]. }
            lia. }
        rewrite (U _ _ Z1), (U _ _ Z2), O1, O2. tauto.
    Qed.
  End Rank.

  Theorem partition_holds : exists nets', partition nets dist ord1 ord2 part = Ok nets' /\ length nets' = P /\
    forall p, p < P -> holds nets part p (at_rank nets' p).
  Proof.
    unfold partition. rewrite partitioner_ok. cbn [obind]. fold P.
    destruct bus_shuffle as (bs & Eb & Hb), branch_shuffle as (rs & Er & Hr), gbus_shuffle as (gbs & Egb & Hgb), gbranch_shuffle as (grs & Egr & Hgr).
    rewrite Eb. cbn [obind].
    rewrite (map_ext _ (fun p => (map sg (n_branches (nth_net nets p)), nth p (pl_edge the_plan) []))) by (intros p; now rewrite plan_branches).
    rewrite Er. cbn [obind].
    rewrite (map_ext _ (fun p => (map fst (ghostbuses (nth_net nets p)), map snd (ghostbuses (nth_net nets p))))) by (intros p; now rewrite plan_ghostbuses).
    rewrite Egb. cbn [obind].
    rewrite (map_ext _ (fun p => (map fst (ghostbranches (nth_net nets p)), map snd (ghostbranches (nth_net nets p))))) by
      (intros p; now rewrite plan_branches, plan_ghostbranches).
    rewrite Egr. cbn [obind].
    set (f := fun p => setup _).
    assert (HF : forall p, p < P -> exists n', f p = Ok n' /\ holds nets part p n').
    { intros p Hp. unfold f. apply rank_holds; auto. }
    set (g := fun p => match f p with Ok n => n | _ => empty_net end).
    rewrite (oall_map_ok f g).
    - eexists. split; [reflexivity|]. split; [unfold iota; now rewrite map_length, seq_length|].
      intros p Hp. unfold at_rank. rewrite nth_map_iota by auto. unfold g. destruct (HF p Hp) as (n' & -> & Hn'). exact Hn'.
    - intros p Hp. apply in_iota in Hp. unfold g. destruct (HF p Hp) as (n' & -> & _). reflexivity.
  Qed.
End Main.

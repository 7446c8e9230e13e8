From Verif Require Import Prelude GAModel GAProofs ParModel ParProofs ParProofs2 ParProofs3 NetModel NetSpec NetProofs NetProofs2 NetProofs3 IdxModel IdxSpec IdxProofs IdxProofs2 MapModel MapSpec MapProofs MapProofs2 MapProofs3 GenModel GenSpec.

Lemma nodup_app_inv {X} (a b : list X) : NoDup (a ++ b) -> NoDup a /\ NoDup b /\ forall x, In x a -> ~ In x b.
Proof.
  induction a as [|y a IH]; simpl; intros H; [repeat split; auto; constructor|]. inversion H; subst. destruct (IH H3) as (A & B & C). rewrite in_app_iff in H2.
  split; [constructor; tauto|]. split; auto. intros x [<-|Hx]; [tauto|auto].
Qed.
Lemma sumn_perm' a b : Permutation a b -> sumn a = sumn b.
Proof. induction 1; simpl; lia. Qed.

(** * One process *)
Section Rank.
  Context {B R : Type}.
  Notation bus := (bus B). Notation branch := (branch R). Notation net := (net B R).
  Variables (bsz : B -> nat) (rsz : R -> nat).
  Variable n : net.
  Hypothesis Hw : wired n.

  Let brs := n_branches n.
  Let sz (j : nat) : nat := match nth_error brs j with Some r => rsz (r_obj r) | None => 0 end.
  Definition local_br (r : branch) : bool :=
    match zget (n_buses n) (r_l1 r), zget (n_buses n) (r_l2 r) with Some b1, Some b2 => b_active b1 && b_active b2 | _, _ => false end.
  Definition cond (i j : nat) : bool :=
    match nth_error brs j with Some r => if local_br r then (r_l1 r =? Z.of_nat i)%Z else r_active r | None => false end.

  Lemma is_local_ok j r : nth_error brs j = Some r -> is_local n j = Ok (local_br r).
  Proof.
    intros E. unfold is_local. fold brs. rewrite E. assert (Hr : In r brs) by (eapply nth_error_In; eauto).
    destruct Hw as [H _]. destruct (H r Hr) as (_ & b1 & b2 & E1 & E2 & _). unfold local_br. rewrite E1, E2. now destruct (b_active b1).
  Qed.

  Lemma visit_branches_ok i js : forall ro c, Forall (fun j => j < length brs) js -> NoDup (filter (cond i) js) -> length ro = length brs ->
    exists ro', visit_branches rsz n i js (ro, c) = Ok (ro', c + sumn (map sz (filter (cond i) js))) /\ length ro' = length brs /\
      (forall j, ~ In j (filter (cond i) js) -> nth j ro' 0 = nth j ro 0) /\
      flat_map (fun j => seq (nth j ro' 0) (sz j)) (filter (cond i) js) = seq c (sumn (map sz (filter (cond i) js))).
  Proof.
    induction js as [|j js IH]; intros ro c HF ND L; simpl.
    { exists ro. rewrite Nat.add_0_r. auto. }
    inversion HF; subst. destruct (nth_error brs j) as [r|] eqn:E; [|apply nth_error_None in E; lia].
    unfold visit_branch. rewrite (is_local_ok _ E). cbn [obind]. fold brs. rewrite E.
    assert (Ec : cond i j = if local_br r then (r_l1 r =? Z.of_nat i)%Z else r_active r) by (unfold cond; now rewrite E).
    simpl in ND. rewrite <- Ec. destruct (cond i j) eqn:Ec'; cbn [obind fst snd].
    - inversion ND; subst. destruct (IH (upd ro j c) (c + rsz (r_obj r)) H2 H4) as (ro' & E' & L' & A & Bq); [now rewrite upd_length|].
      exists ro'. rewrite E'. split; [|split; [|split]]; auto.
      + f_equal. f_equal. simpl. unfold sz at 2. rewrite E. lia.
      + intros k Hk. rewrite A by (intros Hi; apply Hk; now right). rewrite nth_upd_other_gen; auto. intros ->. apply Hk. now left.
      + simpl. rewrite A by auto. rewrite nth_upd_same_gen by (rewrite L; auto). unfold sz at 1 3. rewrite E. rewrite seq_app. f_equal. exact Bq.
    - destruct (IH ro c H2 ND L) as (ro' & E' & L' & A & Bq). exists ro'. auto.
  Qed.

  Fixpoint vlist (i : nat) (bs : list bus) : list nat :=
    match bs with [] => [] | b :: r => ((if b_active b then filter (cond i) (b_nbr b) else []) ++ vlist (S i) r)%list end.

  Definition oact (x : bus * nat) : bool := b_active (fst x).
  Lemma visit_buses_ok bs : forall i ro c, Forall (fun b => Forall (fun j => j < length brs) (b_nbr b)) bs -> NoDup (vlist i bs) -> length ro = length brs ->
    let tot := sumn (map (fun b => bsz (b_obj b)) (filter (@b_active B) bs)) + sumn (map sz (vlist i bs)) in
    exists bo ro', visit_buses bsz rsz n i bs (ro, c) = Ok (bo, (ro', c + tot)) /\ length bo = length bs /\ length ro' = length brs /\
      (forall j, ~ In j (vlist i bs) -> nth j ro' 0 = nth j ro 0) /\
      Permutation (flat_map (fun x => seq (snd x) (bsz (b_obj (fst x)))) (filter oact (combine bs bo)) ++ flat_map (fun j => seq (nth j ro' 0) (sz j)) (vlist i bs))%list
                  (seq c tot).
  Proof.
    induction bs as [|b bs IH]; intros i ro c HF ND L tot; simpl.
    { exists [], ro. rewrite Nat.add_0_r. simpl. auto. }
    inversion HF; subst. simpl in ND, tot. destruct (b_active b) eqn:Ea.
    - destruct (nodup_app_inv _ _ ND) as (ND1 & ND2 & DJ).
      cbn [fst snd]. destruct (@visit_branches_ok i (b_nbr b) ro (c + bsz (b_obj b)) H1 ND1 L) as (ro1 & E1 & L1 & A1 & B1).
      rewrite E1. cbn [obind]. destruct (IH (S i) ro1 (c + bsz (b_obj b) + sumn (map sz (filter (cond i) (b_nbr b)))) H2 ND2 L1) as (bo & ro' & E2 & L2 & L3 & A2 & B2).
      rewrite E2. cbn [obind fst snd]. exists (c :: bo), ro'. split; [|split; [|split; [|split]]]; auto.
      + unfold tot. simpl. rewrite map_app, sumn_app. do 3 f_equal. lia.
      + simpl. congruence.
      + intros j Hj. rewrite in_app_iff in Hj. rewrite A2 by tauto. apply A1. tauto.
      + cbn [combine filter]. unfold oact at 1. cbn [fst]. rewrite Ea. cbn [flat_map fst snd]. rewrite flat_map_app.
        rewrite (flat_map_ext_in (fun j => seq (nth j ro' 0) (sz j)) (fun j => seq (nth j ro1 0) (sz j)) (filter (cond i) (b_nbr b))).
        2:{ intros j Hj. rewrite A2; auto. }
        rewrite B1. unfold tot. simpl sumn. rewrite (map_app sz), sumn_app.
        replace (bsz (b_obj b) + _ + _) with (bsz (b_obj b) + (sumn (map sz (filter (cond i) (b_nbr b))) +
            (sumn (map (fun b0 => bsz (b_obj b0)) (filter (@b_active B) bs)) + sumn (map sz (vlist (S i) bs))))) by lia.
        rewrite !seq_app. rewrite <- app_assoc. apply Permutation_app_head.
        etransitivity; [apply Permutation_app_swap_app|]. apply Permutation_app_head. rewrite <- seq_app. exact B2.
    - cbn [app] in *. destruct (IH (S i) ro c H2 ND L) as (bo & ro' & E2 & L2 & L3 & A2 & B2).
      rewrite E2. cbn [obind fst snd]. exists (0 :: bo), ro'. split; [|split; [|split; [|split]]]; auto.
      + simpl. congruence.
      + cbn [combine filter]. unfold oact at 1. cbn [fst]. rewrite Ea. exact B2.
  Qed.

  (** ** The branches visited are the active ones, each once *)
  Lemma in_enum i (j : nat) : In j (flat_map (fun jr : nat * branch => ((if r_l1 (snd jr) =? Z.of_nat i then [fst jr] else []) ++
                    (if r_l2 (snd jr) =? Z.of_nat i then [fst jr] else []))%Z%list) (combine (iota (length brs)) brs)) <->
    exists r, nth_error brs j = Some r /\ (r_l1 r = Z.of_nat i \/ r_l2 r = Z.of_nat i).
  Proof.
    rewrite in_flat_map. split.
    - intros ((k & r) & Hk & Hj). simpl in Hj. assert (Hkr : nth_error brs k = Some r).
      { apply In_nth_error in Hk as (x & Hx). assert (Hx' := Hx). apply map_nth_error with (f := fst) in Hx. apply map_nth_error with (f := snd) in Hx'.
        rewrite map_fst_combine' in Hx by (unfold iota; now rewrite seq_length). rewrite map_snd_combine' in Hx' by (unfold iota; now rewrite seq_length). simpl in *.
        assert (x < length brs) by (apply nth_error_Some; congruence). unfold iota in Hx. rewrite (nth_error_nth' _ 0) in Hx by now rewrite seq_length. rewrite seq_nth in Hx by auto.
        simpl in Hx. congruence. }
      apply in_app_iff in Hj as [Hj|Hj].
      + destruct (Z.eqb_spec (r_l1 r) (Z.of_nat i)); [|destruct Hj]. destruct Hj as [<-|[]]. eauto.
      + destruct (Z.eqb_spec (r_l2 r) (Z.of_nat i)); [|destruct Hj]. destruct Hj as [<-|[]]. eauto.
    - intros (r & E & H). exists (j, r). split.
      + apply nth_error_In with j. assert (j < length brs) by (apply nth_error_Some; congruence).
        rewrite (nth_error_nth' _ (j, r)) by (rewrite combine_length; unfold iota; rewrite seq_length; lia).
        rewrite combine_nth by (unfold iota; now rewrite seq_length). unfold iota. rewrite seq_nth by auto. simpl. do 2 f_equal.
        now apply nth_error_nth.
      + simpl. apply in_app_iff. destruct H as [H|H]; rewrite H, Z.eqb_refl; [left|right]; now left.
  Qed.

  Lemma nodup_enum i : NoDup (flat_map (fun jr : nat * branch => ((if r_l1 (snd jr) =? Z.of_nat i then [fst jr] else []) ++
                    (if r_l2 (snd jr) =? Z.of_nat i then [fst jr] else []))%Z%list) (combine (iota (length brs)) brs)).
  Proof.
    destruct Hw as [H _]. fold brs in H.
    assert (G : forall l s, (forall r, In r l -> r_l1 r <> r_l2 r) -> 
      let f := flat_map (fun jr : nat * branch => ((if r_l1 (snd jr) =? Z.of_nat i then [fst jr] else []) ++
                    (if r_l2 (snd jr) =? Z.of_nat i then [fst jr] else []))%Z%list) (combine (seq s (length l)) l) in
      NoDup f /\ Forall (fun j => s <= j) f).
    { induction l as [|r l IH]; intros s Hl; simpl; [split; constructor|]. destruct (IH (S s)) as [N1 F1]; [intros; apply Hl; now right|].
      assert (Hr := Hl r (or_introl eq_refl)).
      assert (F2 : Forall (fun j => s <= j) (flat_map (fun jr : nat * branch => ((if r_l1 (snd jr) =? Z.of_nat i then [fst jr] else []) ++
                    (if r_l2 (snd jr) =? Z.of_nat i then [fst jr] else []))%Z%list) (combine (seq (S s) (length l)) l))).
      { eapply Forall_impl; [|exact F1]. intros; simpl in *; lia. }
      assert (Hn : ~ In s (flat_map (fun jr : nat * branch => ((if r_l1 (snd jr) =? Z.of_nat i then [fst jr] else []) ++
                    (if r_l2 (snd jr) =? Z.of_nat i then [fst jr] else []))%Z%list) (combine (seq (S s) (length l)) l))).
      { intros Hi. rewrite Forall_forall in F1. apply F1 in Hi. lia. }
      destruct (Z.eqb_spec (r_l1 r) (Z.of_nat i)), (Z.eqb_spec (r_l2 r) (Z.of_nat i)); try congruence; simpl.
      - split; constructor; auto.
      - split; constructor; auto.
      - auto. }
    apply (G brs 0). intros r Hr. now apply (H r Hr).
  Qed.

  Lemma in_vlist bs : forall i j, In j (vlist i bs) <-> exists k b, nth_error bs k = Some b /\ b_active b = true /\ In j (filter (cond (i + k)) (b_nbr b)).
  Proof.
    induction bs as [|b bs IH]; intros i j; simpl.
    - split; [tauto|]. intros (k & b & E & _). destruct k; discriminate.
    - rewrite in_app_iff, IH. split.
      + intros [H|(k & b' & E & Ha & Hj)].
        * destruct (b_active b) eqn:Ea; [|destruct H]. exists 0, b. rewrite Nat.add_0_r. auto.
        * exists (S k), b'. rewrite <- Nat.add_succ_comm. auto.
      + intros (k & b' & E & Ha & Hj). destruct k as [|k]; simpl in E.
        * injection E as <-. rewrite Ha, Nat.add_0_r in *. now left.
        * right. exists k, b'. rewrite <- Nat.add_succ_comm in Hj. auto.
  Qed.
  Lemma nodup_vlist bs : forall i,
    (forall k b, nth_error bs k = Some b -> NoDup (b_nbr b)) ->
    (forall k k' b b' j, nth_error bs k = Some b -> nth_error bs k' = Some b' -> b_active b = true -> b_active b' = true ->
       In j (filter (cond (i + k)) (b_nbr b)) -> In j (filter (cond (i + k')) (b_nbr b')) -> k = k') -> NoDup (vlist i bs).
  Proof.
    induction bs as [|b bs IH]; intros i H1 H2; simpl; [constructor|].
    assert (NB : NoDup (vlist (S i) bs)).
    { apply IH.
      - intros k b' E. apply (H1 (S k) b' E).
      - intros k k' x x' j E E' A A' J J'. assert (S k = S k'); [|lia]. rewrite Nat.add_succ_comm in J, J'. eapply (H2 (S k) (S k') x x'); eauto. }
    destruct (b_active b) eqn:Ea; auto. assert (NA : NoDup (filter (cond i) (b_nbr b))) by (apply NoDup_filter; apply (H1 0 b eq_refl)).
    assert (DJ : forall j, In j (filter (cond i) (b_nbr b)) -> ~ In j (vlist (S i) bs)).
    { intros j Hj Hj'. apply in_vlist in Hj' as (k & b' & E & A' & J'). assert (0 = S k); [|lia].
      eapply (H2 0 (S k) b b' j); eauto; [now rewrite Nat.add_0_r|now rewrite <- Nat.add_succ_comm]. }
    revert NA DJ. generalize (filter (cond i) (b_nbr b)) as l. induction l as [|x l IHl]; intros; simpl; auto. inversion NA; subst. constructor.
    - rewrite in_app_iff. intros [Hx|Hx]; auto. apply (DJ x); auto. now left.
    - apply IHl; auto. intros j Hj. apply DJ. now right.
  Qed.

  Lemma zget_nth {X} (l : list X) i x : zget l i = Some x -> (i = Z.of_nat (Z.to_nat i) /\ nth_error l (Z.to_nat i) = Some x)%Z.
  Proof. unfold zget. destruct (Z.ltb_spec i 0); [discriminate|]. intros H1. split; [lia|auto]. Qed.

  Lemma visited_perm : NoDup (vlist 0 (n_buses n)) /\
    Permutation (vlist 0 (n_buses n)) (filter (fun j => match nth_error brs j with Some r => r_active r | None => false end) (iota (length brs))).
  Proof.
    destruct Hw as [H1 H2]. fold brs in H1, H2.
    assert (HN : forall k b j, nth_error (n_buses n) k = Some b -> In j (b_nbr b) -> exists r, nth_error brs j = Some r /\ In r brs /\ (r_l1 r = Z.of_nat k \/ r_l2 r = Z.of_nat k)).
    { intros k b j E Hj. rewrite (H2 k b E) in Hj. apply in_enum in Hj as (r & Er & Hr). exists r. split; auto. split; auto. eapply nth_error_In; eauto. }
    assert (LC : forall r, In r brs -> exists b1 b2 k1 k2, r_l1 r = Z.of_nat k1 /\ r_l2 r = Z.of_nat k2 /\ k1 <> k2 /\ nth_error (n_buses n) k1 = Some b1 /\ nth_error (n_buses n) k2 = Some b2 /\
       local_br r = b_active b1 && b_active b2 /\ (r_active r = true -> b_active b1 || b_active b2 = true) /\ (b_active b1 && b_active b2 = true -> r_active r = true)).
    { intros r Hr. destruct (H1 r Hr) as (Hne & b1 & b2 & E1 & E2 & Ha & Hb). exists b1, b2, (Z.to_nat (r_l1 r)), (Z.to_nat (r_l2 r)).
      unfold local_br. rewrite E1, E2. apply zget_nth in E1 as [? ?], E2 as [? ?]. repeat split; auto. lia. }
    assert (ND : NoDup (vlist 0 (n_buses n))).
    { apply nodup_vlist.
      - intros k b E. rewrite (H2 k b E). apply nodup_enum.
      - intros k k' b b' j E E' A A' J J'. simpl in J, J'. apply filter_In in J as [J C], J' as [J' C'].
        destruct (HN _ _ _ E J) as (r & Er & Hr & Hk). destruct (HN _ _ _ E' J') as (r' & Er' & _ & Hk'). rewrite Er in Er'. injection Er' as <-.
        unfold cond in C, C'. rewrite Er in C, C'. destruct (local_br r) eqn:El.
        + apply Z.eqb_eq in C, C'. lia.
        + destruct (LC r Hr) as (b1 & b2 & k1 & k2 & L1 & L2 & Hne & N1 & N2 & LL & _).
          destruct (Nat.eq_dec k k') as [|Hkk]; auto. exfalso.
          assert ((k = k1 /\ k' = k2) \/ (k = k2 /\ k' = k1)) as [[-> ->]|[-> ->]] by lia; rewrite El in LL; rewrite N1 in *; rewrite N2 in *;
            injection E as <-; injection E' as <-; rewrite A, A' in LL; discriminate. }
    split; auto. apply NoDup_Permutation; auto; [apply NoDup_filter; unfold iota; apply seq_NoDup|].
    intros j. rewrite in_vlist, filter_In, in_iota. simpl. split.
    - intros (k & b & E & A & J). apply filter_In in J as [J C]. destruct (HN _ _ _ E J) as (r & Er & Hr & Hk). split; [apply nth_error_Some; congruence|].
      rewrite Er. unfold cond in C. rewrite Er in C. destruct (local_br r) eqn:El; auto.
      destruct (LC r Hr) as (b1 & b2 & k1 & k2 & L1 & L2 & Hne & N1 & N2 & LL & _ & Hb). apply Hb. congruence.
    - intros [Hj C]. destruct (nth_error brs j) as [r|] eqn:Er; [|discriminate]. assert (Hr : In r brs) by (eapply nth_error_In; eauto).
      destruct (LC r Hr) as (b1 & b2 & k1 & k2 & L1 & L2 & Hne & N1 & N2 & LL & Ha & _). specialize (Ha C).
      assert (G : forall k b, nth_error (n_buses n) k = Some b -> b_active b = true -> (r_l1 r = Z.of_nat k \/ r_l2 r = Z.of_nat k) -> (local_br r = true -> r_l1 r = Z.of_nat k) ->
        exists k b, nth_error (n_buses n) k = Some b /\ b_active b = true /\ In j (filter (cond k) (b_nbr b))).
      { intros k b E A Hk Hl. exists k, b. split; auto. split; auto. apply filter_In. split.
        - rewrite (H2 k b E). apply in_enum. eauto.
        - unfold cond. rewrite Er. destruct (local_br r) eqn:El; auto. apply Z.eqb_eq. auto. }
      destruct (b_active b1) eqn:A1.
      + apply (G k1 b1 N1 A1); auto.
      + apply (G k2 b2 N2); auto. rewrite LL. discriminate.
  Qed.

  Lemma filter_map_nth {Y} (P : branch -> bool) (f : nat -> list Y) (g : branch -> nat -> list Y) : (forall j r, nth_error brs j = Some r -> f j = g r j) ->
    flat_map f (filter (fun j => match nth_error brs j with Some r => P r | None => false end) (iota (length brs))) =
    flat_map (fun x => g (fst x) (snd x)) (filter (fun x => P (fst x)) (combine brs (iota (length brs)))).
  Proof.
    intros Hfg. unfold iota.
    assert (G : forall l pre, (pre ++ l)%list = brs ->
       flat_map f (filter (fun j => match nth_error brs j with Some r => P r | None => false end) (seq (length pre) (length l))) =
       flat_map (fun x => g (fst x) (snd x)) (filter (fun x => P (fst x)) (combine l (seq (length pre) (length l))))).
    { induction l as [|r l IH]; intros pre E; simpl; auto.
      assert (Er : nth_error brs (length pre) = Some r) by (rewrite <- E, nth_error_app2, Nat.sub_diag by lia; reflexivity). rewrite Er.
      specialize (IH (pre ++ [r])%list). rewrite app_length in IH. simpl in IH. rewrite Nat.add_1_r in IH.
      destruct (P r) eqn:Ep; simpl; rewrite IH by (now rewrite <- app_assoc); auto. now rewrite (Hfg _ _ Er). }
    apply (G brs []). reflexivity.
  Qed.

  Lemma rank_offsets_ok : exists bo ro, rank_offsets bsz rsz n = Ok (bo, ro) /\ length bo = length (n_buses n) /\ length ro = length brs /\
      Permutation (flat_map (fun x => seq (snd x) (bsz (b_obj (fst x)))) (filter (fun x => b_active (fst x)) (combine (n_buses n) bo)) ++
                   flat_map (fun x => seq (snd x) (rsz (r_obj (fst x)))) (filter (fun x => r_active (fst x)) (combine brs ro)))%list
                  (seq 0 (gen_size bsz rsz n)).
  Proof.
    destruct visited_perm as [ND HP]. destruct Hw as [H1 H2].
    destruct (@visit_buses_ok (n_buses n) 0 (repeat 0 (length brs)) 0) as (bo & ro & E & Lb & Lr & _ & Hs); auto.
    { apply Forall_forall. intros b Hb. apply In_nth_error in Hb as (i & Hi). apply Forall_forall. intros j Hj. rewrite (H2 i b Hi) in Hj. apply in_enum in Hj as (r & Er & _).
      apply nth_error_Some. congruence. }
    { now rewrite repeat_length. }
    exists bo, ro. unfold rank_offsets. fold brs. rewrite E. cbn [obind fst snd]. split; auto. split; auto. split; auto.
    assert (Hsum : sumn (map sz (vlist 0 (n_buses n))) = sumn (map (fun r => rsz (r_obj r)) (filter (@r_active R) brs))).
    { rewrite (sumn_perm' (Permutation_map sz HP)).
      assert (Gs : forall l pre, (pre ++ l)%list = brs ->
       sumn (map sz (filter (fun j => match nth_error brs j with Some r => r_active r | None => false end) (seq (length pre) (length l)))) =
       sumn (map (fun r => rsz (r_obj r)) (filter (@r_active R) l))).
      { induction l as [|r l IH]; intros pre E0; simpl; auto.
        assert (Er : nth_error brs (length pre) = Some r) by (rewrite <- E0, nth_error_app2, Nat.sub_diag by lia; reflexivity). rewrite Er.
        specialize (IH (pre ++ [r])%list). rewrite app_length in IH. simpl in IH. rewrite Nat.add_1_r in IH.
        destruct (r_active r) eqn:Ep; simpl; rewrite IH by (now rewrite <- app_assoc); auto. unfold sz. now rewrite Er. }
      apply (Gs brs []). reflexivity. }
    rewrite Hsum in Hs. unfold gen_size. fold brs. etransitivity; [|exact Hs]. apply Permutation_app_head.
    rewrite (flat_map_perm _ HP).
    rewrite (@filter_map_nth _ (@r_active R) (fun j => seq (nth j ro 0) (sz j)) (fun r j => seq (nth j ro 0) (rsz (r_obj r)))).
    2:{ intros j r Er. unfold sz. now rewrite Er. }
    assert (Ec : combine brs ro = map (fun x => (fst x, nth (snd x) ro 0)) (combine brs (iota (length brs)))).
    { assert (Ero : ro = map (fun j => nth j ro 0) (iota (length brs))) by (rewrite <- Lr; rewrite (map_nth_iota (fun v : nat => v) ro 0); now rewrite map_id).
      rewrite Ero at 1. clear. generalize (iota (length brs)) as l. induction brs as [|r b IH]; intros [|x l]; simpl; auto. now rewrite IH. }
    rewrite Ec. clear. induction (combine brs (iota (length brs))) as [|x l IH]; simpl; auto. destruct (r_active (fst x)); simpl; auto. now apply Permutation_app_head.
  Qed.
End Rank.

(** Proofs about the components of a network. *)
From Verif Require Import Prelude GAModel ParModel NetModel ClnModel ClnProofs CmpModel CmpSpec.

Lemma setb_same c f s : sb (setb c f s) c = f (sb s c).
Proof. cbn. now rewrite Nat.eqb_refl. Qed.
Lemma setb_other c f s x : x <> c -> sb (setb c f s) x = sb s x.
Proof. intros H. cbn. apply Nat.eqb_neq in H. now rewrite H. Qed.
Lemma setr_same c f s : sr (setr c f s) c = f (sr s c).
Proof. cbn. now rewrite Nat.eqb_refl. Qed.
Lemma setr_other c f s x : x <> c -> sr (setr c f s) x = sr s x.
Proof. intros H. cbn. apply Nat.eqb_neq in H. now rewrite H. Qed.

Lemma nodup_nth (ids : list nat) i j x : NoDup ids -> nth_error ids i = Some x -> nth_error ids j = Some x -> i = j.
Proof.
  intros N Hi Hj. apply (proj1 (NoDup_nth_error ids) N); [apply nth_error_Some; congruence|congruence].
Qed.

(** A loop over the buses in which step i changes component i *)
Lemma loop_b (body : comps -> nat -> outcome comps) (ids : list nat) (F : nat -> cbus -> cbus) : NoDup ids ->
  (forall s i id, nth_error ids i = Some id -> body s i = Ok (setb id (F i) s)) ->
  forall m k s, k + m = length ids -> exists s', each body (seq k m) s = Ok s' /\ sr s' = sr s /\
    (forall i id, k <= i -> nth_error ids i = Some id -> sb s' id = F i (sb s id)) /\
    (forall i id, i < k -> nth_error ids i = Some id -> sb s' id = sb s id).
Proof.
  intros N Hb. induction m as [|m IH]; intros k s Hk; cbn [seq each].
  - exists s. split; [reflexivity|]. split; [reflexivity|]. split; [|auto]. intros i id Hi Hn. assert (i < length ids) by (apply nth_error_Some; congruence). lia.
  - destruct (nth_error ids k) as [c|] eqn:Ec; [|apply nth_error_None in Ec; lia]. rewrite (Hb s k c Ec). cbn [obind].
    destruct (IH (S k) (setb c (F k) s) ltac:(lia)) as (s' & E & R & H1 & H2). exists s'. split; [exact E|]. split; [exact R|]. split.
    + intros i id Hi Hn. destruct (Nat.eq_dec i k) as [Eq|D].
      * subst i. rewrite Ec in Hn. injection Hn as <-. rewrite (H2 k c ltac:(lia) Ec). apply setb_same.
      * rewrite (H1 i id ltac:(lia) Hn). rewrite setb_other; [reflexivity|]. intros Eq. subst id. apply D. eapply nodup_nth; eassumption.
    + intros i id Hi Hn. rewrite (H2 i id ltac:(lia) Hn). apply setb_other. intros Eq. subst id. assert (i = k) by (eapply nodup_nth; eassumption). lia.
Qed.
(** A loop over the branches; step i may look at the buses and at its own component *)
Lemma loop_r (body : comps -> nat -> outcome comps) (ids : list nat) (F : nat -> cbranch -> cbranch) (B : nat -> cbus) (Pre : nat -> cbranch -> Prop) : NoDup ids ->
  (forall s i id, sb s = B -> Pre i (sr s id) -> nth_error ids i = Some id -> body s i = Ok (setr id (F i) s)) ->
  forall m k s, k + m = length ids -> sb s = B -> (forall i id, k <= i -> nth_error ids i = Some id -> Pre i (sr s id)) ->
    exists s', each body (seq k m) s = Ok s' /\ sb s' = B /\
    (forall i id, k <= i -> nth_error ids i = Some id -> sr s' id = F i (sr s id)) /\
    (forall i id, i < k -> nth_error ids i = Some id -> sr s' id = sr s id).
Proof.
  intros N Hb. induction m as [|m IH]; intros k s Hk HB HP; cbn [seq each].
  - exists s. split; [reflexivity|]. split; [exact HB|]. split; [|auto]. intros i id Hi Hn. assert (i < length ids) by (apply nth_error_Some; congruence). lia.
  - destruct (nth_error ids k) as [c|] eqn:Ec; [|apply nth_error_None in Ec; lia]. rewrite (Hb s k c HB (HP k c (le_n k) Ec) Ec). cbn [obind].
    destruct (IH (S k) (setr c (F k) s) ltac:(lia) HB) as (s' & E & R & H1 & H2).
    { intros i id Hi Hn. rewrite setr_other; [apply HP; [lia|exact Hn]|]. intros Eq. subst id. assert (i = k) by (eapply nodup_nth; eassumption). lia. }
    exists s'. split; [exact E|]. split; [exact R|]. split.
    + intros i id Hi Hn. destruct (Nat.eq_dec i k) as [Eq|D].
      * subst i. rewrite Ec in Hn. injection Hn as <-. rewrite (H2 k c ltac:(lia) Ec). apply setr_same.
      * rewrite (H1 i id ltac:(lia) Hn). rewrite setr_other; [reflexivity|]. intros Eq. subst id. apply D. eapply nodup_nth; eassumption.
    + intros i id Hi Hn. rewrite (H2 i id ltac:(lia) Hn). apply setr_other. intros Eq. subst id. assert (i = k) by (eapply nodup_nth; eassumption). lia.
Qed.

Lemma oall_f {A C} (f : A -> outcome C) (P : A -> C -> Prop) l : (forall x, In x l -> exists y, f x = Ok y /\ P x y) ->
  exists ys, oall (map f l) = Ok ys /\ Forall2 P l ys.
Proof.
  induction l as [|x l IH]; intros H; cbn.
  - exists []. auto.
  - destruct (H x (or_introl eq_refl)) as (y & Ey & Py). rewrite Ey. cbn. destruct IH as (ys & Ei & F); [intros; apply H; now right|]. rewrite Ei. cbn. eauto.
Qed.
Lemma in_rng n i : (0 <= i < Z.of_nat (length (n_buses n)))%Z -> exists b : bus nat, zget (n_buses (n : cnet)) i = Some b /\ is_bus n i b.
Proof.
  intros H. unfold is_bus, zget. destruct (Z.ltb_spec i 0); [lia|]. destruct (nth_error (n_buses n) (Z.to_nat i)) as [b|] eqn:E; [eauto|]. apply nth_error_None in E. lia.
Qed.
Lemma is_bus_zget (n : cnet) i b : zget (n_buses n) i = Some b <-> is_bus n i b.
Proof. unfold zget, is_bus. destruct (Z.ltb_spec i 0); split; intros H'; try tauto; try discriminate; lia. Qed.

Section Set_up.
  Variables (n : cnet) (mv : list Z).
  Hypothesis RD : ready n.
  Hypothesis LM : length mv = length (n_buses n).
  Let bids := map (@b_obj nat) (n_buses n).
  Let rids := map (@r_obj nat) (n_branches n).

  Lemma bid i c : nth_error bids i = Some c -> exists b, nth_error (n_buses n) i = Some b /\ b_obj b = c.
  Proof. unfold bids. rewrite nth_error_map. destruct (nth_error (n_buses n) i); [|discriminate]. intros H. injection H as <-. eauto. Qed.
  Lemma rid i c : nth_error rids i = Some c -> exists r, nth_error (n_branches n) i = Some r /\ r_obj r = c.
  Proof. unfold rids. rewrite nth_error_map. destruct (nth_error (n_branches n) i); [|discriminate]. intros H. injection H as <-. eauto. Qed.

  Definition obj_at (i : Z) : nat := match zget (n_buses n) i with Some b => b_obj b | None => 0 end.
  Definition br (i : nat) : branch nat := nth i (n_branches n) (Branch true 0 0 0 0 0 0 0 0).
  Definition bs (i : nat) : bus nat := nth i (n_buses n) (Bus true 0 0 [] 0 false).
  Lemma br_nth i r : nth_error (n_branches n) i = Some r -> br i = r.
  Proof. intros H. unfold br. now apply nth_error_nth. Qed.
  Lemma bs_nth i b : nth_error (n_buses n) i = Some b -> bs i = b.
  Proof. intros H. unfold bs. now apply nth_error_nth. Qed.

  Definition F1 (i : nat) (r : cbranch) : cbranch := CBranch (Some (obj_at (r_l1 (br i)))) (Some (obj_at (r_l2 (br i)))) (cr_glob r) (cr_o1 r) (cr_o2 r) (cr_g1 r) (cr_g2 r) (cr_mv1 r) (cr_mv2 r).
  Lemma set_ends_ok s i c : nth_error rids i = Some c -> set_ends n s i = Ok (setr c (F1 i) s).
  Proof.
    intros H. apply rid in H as (r & Hr & Hc). unfold set_ends, branch_at. rewrite zget_of_nat, Hr. cbn [obind fst snd].
    destruct (rd_ends RD r (nth_error_In _ _ Hr)) as [H1 H2]. destruct (in_rng n H1) as (b1 & E1 & _). destruct (in_rng n H2) as (b2 & E2 & _).
    unfold bus_at. rewrite E1, E2. cbn [obind]. unfold F1, obj_at. rewrite (br_nth _ Hr), E1, E2. now rewrite Hc.
  Qed.

  Definition nbr_buses (i : nat) : list nat := map (fun j => obj_at (if (r_l1 (br j) =? Z.of_nat i)%Z then r_l2 (br j) else r_l1 (br j))) (b_nbr (bs i)).
  Definition nbr_branches (i : nat) : list nat := map (fun j => r_obj (br j)) (b_nbr (bs i)).
  Definition F2 (i : nat) (b : cbus) : cbus := CBus (nbr_buses i) (nbr_branches i) (cb_ref b) (cb_orig b) (cb_glob b) (cb_mv b).
  Lemma oall_ok {A C} (f : A -> outcome C) (g : A -> C) l : (forall x, In x l -> f x = Ok (g x)) -> oall (map f l) = Ok (map g l).
  Proof. induction l as [|x l IH]; intros H; cbn; [reflexivity|]. rewrite (H x (or_introl eq_refl)). cbn. rewrite IH by (intros; apply H; now right). reflexivity. Qed.
  Lemma set_nbrs_ok s i c : nth_error bids i = Some c -> set_nbrs n s i = Ok (setb c (F2 i) s).
  Proof.
    intros H. apply bid in H as (b & Hb & Hc). unfold set_nbrs, bus_at at 1. rewrite zget_of_nat, Hb. cbn [obind].
    assert (J : forall j, In j (b_nbr b) -> exists r, nth_error (n_branches n) j = Some r).
    { intros j Hj. destruct (nth_error (n_branches n) j) eqn:E; [eauto|]. apply nth_error_None in E. pose proof (rd_nbr RD b j (nth_error_In _ _ Hb) Hj). lia. }
    unfold get_connected_buses. rewrite zget_of_nat, Hb.
    rewrite (@oall_ok _ _ _ (fun j => if (r_l1 (br j) =? Z.of_nat i)%Z then r_l2 (br j) else r_l1 (br j))).
    2:{ intros j Hj. destruct (J j Hj) as (r & Hr). rewrite Hr, (br_nth _ Hr). reflexivity. }
    cbn [obind]. rewrite (@oall_ok _ _ _ obj_at).
    2:{ intros k Hk. apply in_map_iff in Hk as (j & <- & Hj). destruct (J j Hj) as (r & Hr). rewrite (br_nth _ Hr).
        destruct (rd_ends RD r (nth_error_In _ _ Hr)) as [H1 H2]. destruct (in_rng n H1) as (b1 & E1 & _). destruct (in_rng n H2) as (b2 & E2 & _).
        unfold bus_at, obj_at. destruct (r_l1 r =? Z.of_nat i)%Z; [rewrite E2|rewrite E1]; reflexivity. }
    cbn [obind]. unfold get_connected_branches. rewrite zget_of_nat, Hb. cbn [obind].
    rewrite (@oall_ok _ _ _ (fun j => r_obj (br j))).
    2:{ intros j Hj. destruct (J j Hj) as (r & Hr). unfold branch_at. now rewrite zget_of_nat, Hr, (br_nth _ Hr). }
    cbn [obind]. unfold F2, nbr_buses, nbr_branches. rewrite (bs_nth _ Hb), Hc, map_map. reflexivity.
  Qed.
  Definition F4 (i : nat) (b : cbus) : cbus := CBus (cb_buses b) (cb_branches b) (cb_ref b) (b_orig (bs i)) (b_glob (bs i)) (cb_mv b).
  Lemma set_indices_ok s i c : nth_error bids i = Some c -> set_indices n s i = Ok (setb c (F4 i) s).
  Proof. intros H. apply bid in H as (b & Hb & Hc). unfold set_indices, bus_at. rewrite zget_of_nat, Hb. cbn [obind fst snd]. unfold F4. now rewrite (bs_nth _ Hb), Hc. Qed.
  Definition F6 (i : nat) (b : cbus) : cbus := CBus (cb_buses b) (cb_branches b) (cb_ref b) (cb_orig b) (cb_glob b) (nth i mv 0%Z).
  Lemma set_mv_ok s i c : nth_error bids i = Some c -> set_mv n mv s i = Ok (setb c (F6 i) s).
  Proof.
    intros H. apply bid in H as (b & Hb & Hc). unfold set_mv, bus_at. rewrite zget_of_nat, Hb. cbn [obind].
    assert (i < length mv) by (rewrite LM; apply nth_error_Some; congruence). rewrite (nth_error_nth' mv 0%Z) by assumption. unfold F6. now rewrite Hc.
  Qed.
  Definition has_ends (i : nat) (r : cbranch) : Prop := cr_b1 r = Some (obj_at (r_l1 (br i))) /\ cr_b2 r = Some (obj_at (r_l2 (br i))).
  Definition F5 (B : nat -> cbus) (i : nat) (r : cbranch) : cbranch :=
    let b1 := obj_at (r_l1 (br i)) in let b2 := obj_at (r_l2 (br i)) in
    CBranch (cr_b1 r) (cr_b2 r) (r_glob (br i)) (cb_orig (B b1)) (cb_orig (B b2)) (cb_glob (B b1)) (cb_glob (B b2)) (cr_mv1 r) (cr_mv2 r).
  Lemma set_bi_ok B s i c : sb s = B -> has_ends i (sr s c) -> nth_error rids i = Some c -> set_branch_indices n s i = Ok (setr c (F5 B i) s).
  Proof.
    intros <- [H1 H2] H. apply rid in H as (r & Hr & Hc). unfold set_branch_indices, branch_at. rewrite zget_of_nat, Hr. cbn [obind fst snd]. rewrite Hc, H1, H2.
    cbn [deref obind]. unfold F5. now rewrite (br_nth _ Hr).
  Qed.
  Definition F7 (B : nat -> cbus) (i : nat) (r : cbranch) : cbranch :=
    CBranch (cr_b1 r) (cr_b2 r) (cr_glob r) (cr_o1 r) (cr_o2 r) (cr_g1 r) (cr_g2 r) (cb_mv (B (obj_at (r_l1 (br i))))) (cb_mv (B (obj_at (r_l2 (br i))))).
  Lemma set_bm_ok B s i c : sb s = B -> has_ends i (sr s c) -> nth_error rids i = Some c -> set_branch_mv n s i = Ok (setr c (F7 B i) s).
  Proof.
    intros <- [H1 H2] H. apply rid in H as (r & Hr & Hc). unfold set_branch_mv, branch_at. rewrite zget_of_nat, Hr. cbn [obind fst snd]. rewrite Hc, H1, H2.
    cbn [deref obind]. reflexivity.
  Qed.

  Lemma Lb : 0 + f_nb (make_factory n) = length bids. Proof. reflexivity. Qed.
  Lemma Lr : 0 + f_nr (make_factory n) = length rids. Proof. reflexivity. Qed.

  Theorem set_comps_ok s0 : exists s, set_comps (make_factory n) n mv s0 = Ok s /\ wired n mv s0 s.
  Proof.
    unfold set_comps, iota.
    destruct (@loop_r (set_ends n) rids F1 (sb s0) (fun _ _ => True) (rd_branches RD) (fun s i id _ _ H => set_ends_ok s i H) _ 0 s0 Lr eq_refl (fun _ _ _ _ => Logic.I)) as (s1 & E1 & B1 & R1 & _).
    rewrite E1. cbn [obind].
    destruct (@loop_b (set_nbrs n) bids F2 (rd_buses RD) (fun s i id H => set_nbrs_ok s i H) _ 0 s1 Lb) as (s2 & E2 & R2 & B2 & _).
    rewrite E2. cbn [obind].
    assert (X : exists s3, set_ref n s2 = Ok s3 /\ sr s3 = sr s2 /\ forall i c, nth_error bids i = Some c ->
      sb s3 c = CBus (cb_buses (sb s2 c)) (cb_branches (sb s2 c)) ((n_ref n =? Z.of_nat i)%Z || cb_ref (sb s2 c)) (cb_orig (sb s2 c)) (cb_glob (sb s2 c)) (cb_mv (sb s2 c))).
    { unfold set_ref. destruct (Z.eqb_spec (n_ref n) (-1)) as [Er|Er].
      - exists s2. split; [reflexivity|]. split; [reflexivity|]. intros i c Hc. destruct (Z.eqb_spec (n_ref n) (Z.of_nat i)); [lia|]. now destruct (sb s2 c).
      - destruct (rd_ref RD) as [?|Hr]; [contradiction|]. destruct (in_rng n Hr) as (b & Eb & [_ Hb]). unfold bus_at. rewrite Eb. cbn [obind].
        eexists. split; [reflexivity|]. split; [reflexivity|]. intros i c Hc. destruct (Z.eqb_spec (n_ref n) (Z.of_nat i)) as [Ei|Ei].
        + rewrite Ei, Nat2Z.id in Hb. apply bid in Hc as (b' & Hb' & <-). rewrite Hb in Hb'. injection Hb' as <-. apply setb_same.
        + rewrite setb_other; [now destruct (sb s2 c)|]. intros Eq. subst c. apply Ei.
          assert (Hb2 : nth_error bids (Z.to_nat (n_ref n)) = Some (b_obj b)) by (unfold bids; now rewrite nth_error_map, Hb).
          pose proof (nodup_nth _ _ (rd_buses RD) Hc Hb2). lia. }
    destruct X as (s3 & E3 & R3 & B3). rewrite E3. cbn [obind].
    destruct (@loop_b (set_indices n) bids F4 (rd_buses RD) (fun s i id H => set_indices_ok s i H) _ 0 s3 Lb) as (s4 & E4 & R4 & B4 & _).
    rewrite E4. cbn [obind].
    assert (Hends : forall i c, nth_error rids i = Some c -> has_ends i (sr s4 c)).
    { intros i c Hc. rewrite R4, R3, R2. rewrite (R1 i c (Nat.le_0_l i) Hc). split; reflexivity. }
    destruct (@loop_r (set_branch_indices n) rids (F5 (sb s4)) (sb s4) has_ends (rd_branches RD) (fun s i id HB HP H => @set_bi_ok (sb s4) s i id HB HP H) _ 0 s4 Lr eq_refl (fun i id _ H => Hends i id H)) as (s5 & E5 & B5 & R5 & _).
    rewrite E5. cbn [obind].
    destruct (@loop_b (set_mv n mv) bids F6 (rd_buses RD) (fun s i id H => set_mv_ok s i H) _ 0 s5 Lb) as (s6 & E6 & R6 & B6 & _).
    rewrite E6. cbn [obind].
    assert (Hends6 : forall i c, nth_error rids i = Some c -> has_ends i (sr s6 c)).
    { intros i c Hc. rewrite R6, (R5 i c (Nat.le_0_l i) Hc). exact (Hends i c Hc). }
    destruct (@loop_r (set_branch_mv n) rids (F7 (sb s6)) (sb s6) has_ends (rd_branches RD) (fun s i id HB HP H => @set_bm_ok (sb s6) s i id HB HP H) _ 0 s6 Lr eq_refl (fun i id _ H => Hends6 i id H)) as (s7 & E7 & B7 & R7 & _).
    exists s7. split; [exact E7|].
    assert (Bus : forall i b, nth_error (n_buses n) i = Some b -> sb s7 (b_obj b) =
      CBus (nbr_buses i) (nbr_branches i) ((n_ref n =? Z.of_nat i)%Z || cb_ref (sb s0 (b_obj b))) (b_orig b) (b_glob b) (nth i mv 0%Z)).
    { intros i b Hb. assert (Hc : nth_error bids i = Some (b_obj b)) by (unfold bids; now rewrite nth_error_map, Hb).
      rewrite B7, (B6 i _ (Nat.le_0_l i) Hc), B5, (B4 i _ (Nat.le_0_l i) Hc), (B3 i _ Hc), (B2 i _ (Nat.le_0_l i) Hc), B1.
      unfold F6, F4, F2. cbn [cb_buses cb_branches cb_ref cb_orig cb_glob cb_mv]. now rewrite (bs_nth _ Hb). }
    assert (Bus4 : forall i b, nth_error (n_buses n) i = Some b -> cb_orig (sb s4 (b_obj b)) = b_orig b /\ cb_glob (sb s4 (b_obj b)) = b_glob b).
    { intros i b Hb. assert (Hc : nth_error bids i = Some (b_obj b)) by (unfold bids; now rewrite nth_error_map, Hb).
      rewrite (B4 i _ (Nat.le_0_l i) Hc). unfold F4. cbn. now rewrite (bs_nth _ Hb). }
    split.
    - intros i b Hb. rewrite (Bus i b Hb). assert (Hi : i < length (n_buses n)) by (apply nth_error_Some; congruence).
      assert (J : forall j, In j (b_nbr b) -> exists r, nth_error (n_branches n) j = Some r).
      { intros j Hj. destruct (nth_error (n_branches n) j) eqn:E; [eauto|]. apply nth_error_None in E. pose proof (rd_nbr RD b j (nth_error_In _ _ Hb) Hj). lia. }
      constructor; cbn [cb_buses cb_branches cb_ref cb_orig cb_glob cb_mv]; auto.
      + apply nth_error_nth'. lia.
      + unfold nbr_branches. rewrite (bs_nth _ Hb). clear - J. induction (b_nbr b) as [|j l IH]; cbn; constructor.
        * destruct (J j (or_introl eq_refl)) as (r & Hr). exists r. split; [exact Hr|]. now rewrite (br_nth _ Hr).
        * apply IH. intros; apply J; now right.
      + unfold nbr_buses. rewrite (bs_nth _ Hb). clear - J RD. induction (b_nbr b) as [|j l IH]; cbn; constructor.
        * destruct (J j (or_introl eq_refl)) as (r & Hr). rewrite (br_nth _ Hr). destruct (rd_ends RD r (nth_error_In _ _ Hr)) as [H1 H2].
          destruct (in_rng n H1) as (b1 & E1 & I1). destruct (in_rng n H2) as (b2 & E2 & I2). unfold obj_at.
          destruct (Z.eqb_spec (r_l1 r) (Z.of_nat i)) as [E|E]; [exists r, b2|exists r, b1]; (split; [exact Hr|]); rewrite ?E1, ?E2; auto.
        * apply IH. intros; apply J; now right.
    - intros j r Hr. assert (Hc : nth_error rids j = Some (r_obj r)) by (unfold rids; now rewrite nth_error_map, Hr).
      rewrite (R7 j _ (Nat.le_0_l j) Hc), R6, (R5 j _ (Nat.le_0_l j) Hc). destruct (Hends j _ Hc) as [H1 H2].
      destruct (rd_ends RD r (nth_error_In _ _ Hr)) as [K1 K2]. rewrite (br_nth _ Hr) in *.
      destruct (in_rng n K1) as (b1 & Z1 & I1). destruct (in_rng n K2) as (b2 & Z2 & I2).
      assert (O1 : obj_at (r_l1 r) = b_obj b1) by (unfold obj_at; now rewrite Z1). assert (O2 : obj_at (r_l2 r) = b_obj b2) by (unfold obj_at; now rewrite Z2).
      unfold F7, F5. rewrite !(br_nth _ Hr), O1, O2 in *. destruct (Bus4 _ _ (proj2 I1)) as [P1 P2]. destruct (Bus4 _ _ (proj2 I2)) as [Q1 Q2].
      constructor; cbn [cr_glob cr_b1 cr_b2 cr_o1 cr_o2 cr_g1 cr_g2 cr_mv1 cr_mv2]; [reflexivity| |].
      + exists b1. rewrite B7. auto.
      + exists b2. rewrite B7. auto.
  Qed.
End Set_up.

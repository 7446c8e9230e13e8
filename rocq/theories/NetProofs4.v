From Verif Require Import Prelude GAModel GAProofs ParModel ParSpec ParProofs ParProofs2 ParProofs3 NetModel NetSpec NetProofs NetProofs2 NetProofs3.

(** * clean *)
Lemma firstn_upd {A} (l : list A) k x : k < length l -> firstn (S k) (upd l k x) = (firstn k l ++ [x])%list.
Proof.
  revert k; induction l as [|y l IH]; intros [|k] H; simpl in *; try lia; auto. f_equal. rewrite <- IH by lia. reflexivity.
Qed.
Lemma skipn_upd {A} (l : list A) k i x : k < i -> skipn i (upd l k x) = skipn i l.
Proof. revert k i; induction l as [|y l IH]; intros [|k] [|i] H; simpl; auto; try lia. apply IH. lia. Qed.
Lemma firstn_S_nth {A} (l : list A) i x : nth_error l i = Some x -> firstn (S i) l = (firstn i l ++ [x])%list.
Proof. revert i; induction l as [|y l IH]; intros [|i] H; simpl in *; try discriminate; [congruence|]. f_equal. now apply IH. Qed.
Lemma skipn_nth_error {A} (l : list A) i : nth_error l i = hd_error (skipn i l).
Proof. revert i; induction l as [|y l IH]; intros [|i]; simpl; auto. Qed.
Lemma skipn_S_eq {A} (l l' : list A) i : skipn i l = skipn i l' -> skipn (S i) l = skipn (S i) l'.
Proof.
  assert (E : forall l : list A, skipn (S i) l = tl (skipn i l)).
  { clear. intros l. revert i; induction l as [|y l IH]; intros [|i]; simpl; auto. apply IH. }
  intros H. now rewrite !E, H.
Qed.

Lemma compact_filter_gen {A} (act : A -> bool) (l0 : list A) steps i new l :
  length l = length l0 -> i + steps = length l0 -> new <= i ->
  firstn new l = filter act (firstn i l0) -> skipn i l = skipn i l0 -> compact act steps i new l = filter act l0.
Proof.
  revert i new l; induction steps as [|k IH]; intros i new l L Hi Hn HF HS; simpl.
  - rewrite HF. rewrite firstn_all2 by lia. reflexivity.
  - assert (E : nth_error l i = nth_error l0 i) by (rewrite !skipn_nth_error; now rewrite HS).
    destruct (nth_error l0 i) as [x|] eqn:Ex; [|apply nth_error_None in Ex; lia]. rewrite E.
    assert (Li : i < length l0) by (apply nth_error_Some; congruence).
    destruct (act x) eqn:Ea; apply IH; try lia.
    + now rewrite upd_length.
    + rewrite firstn_upd by lia. rewrite (firstn_S_nth l0 i Ex), filter_app, HF. simpl. now rewrite Ea.
    + rewrite skipn_upd by lia. now apply skipn_S_eq.
    + rewrite (firstn_S_nth l0 i Ex), filter_app, HF. simpl. now rewrite Ea, app_nil_r.
    + now apply skipn_S_eq.
Qed.
Lemma compact_filter {A} (act : A -> bool) (l : list A) : compact act (length l) 0 0 l = filter act l.
Proof. apply compact_filter_gen; auto. Qed.

Lemma mfind_keep {A} (act : A -> bool) (l : list A) s new i :
  mfind (keep_map act l s new) i =
  if i <? s then None else match new_pos act l (i - s) with Some k => Some (new + k) | None => None end.
Proof.
  revert s new; induction l as [|x l IH]; intros s new; simpl.
  - destruct (i <? s); auto. unfold new_pos. now destruct (i - s).
  - assert (HT : forall new', mfind (keep_map act l (S s) new') i = if i <? s then None else if i =? s then None else
               match new_pos act l (i - S s) with Some k => Some (new' + k) | None => None end).
    { intros new'. rewrite IH. destruct (Nat.ltb_spec i (S s)), (Nat.ltb_spec i s), (Nat.eqb_spec i s); auto; lia. }
    assert (HP : s < i -> new_pos act (x :: l) (i - s) = match new_pos act l (i - S s) with
                   | Some k => Some ((if act x then 1 else 0) + k) | None => None end).
    { intros Hlt. replace (i - s) with (S (i - S s)) by lia. unfold new_pos. simpl nth_error.
      destruct (nth_error l (i - S s)) as [y|]; auto. destruct (act y); auto. simpl. now destruct (act x). }
    destruct (act x) eqn:Ea; simpl.
    + rewrite HT. destruct (Nat.eqb_spec s i) as [->|Hne].
      * rewrite Nat.ltb_irrefl, Nat.sub_diag. unfold new_pos. simpl. rewrite Ea. simpl. f_equal. lia.
      * destruct (Nat.ltb_spec i s); auto. destruct (Nat.eqb_spec i s); [lia|]. rewrite HP by lia.
        destruct (new_pos act l (i - S s)); auto. f_equal. lia.
    + rewrite HT. destruct (Nat.ltb_spec i s); auto. destruct (Nat.eqb_spec i s) as [->|].
      * rewrite Nat.sub_diag. unfold new_pos. simpl. now rewrite Ea.
      * rewrite HP by lia. destruct (new_pos act l (i - S s)); auto.
Qed.
Lemma mfind_keep0 {A} (act : A -> bool) (l : list A) i : mfind (keep_map act l 0 0) i = new_pos act l i.
Proof. rewrite mfind_keep. simpl. rewrite Nat.sub_0_r. now destruct (new_pos act l i). Qed.

Lemma new_pos_points {A} (act : A -> bool) (l : list A) i k : new_pos act l i = Some k ->
  exists x, nth_error l i = Some x /\ act x = true /\ nth_error (filter act l) k = Some x.
Proof.
  unfold new_pos. destruct (nth_error l i) as [x|] eqn:E; [|discriminate]. destruct (act x) eqn:Ea; [|discriminate].
  intros H. injection H as <-. exists x. repeat split; auto.
  revert i E; induction l as [|y l IH]; intros [|i] E; simpl in *; try discriminate.
  - injection E as ->. now rewrite Ea.
  - destruct (act y); simpl; auto.
Qed.
Lemma new_pos_some {A} (act : A -> bool) (l : list A) i x : nth_error l i = Some x -> act x = true -> exists k, new_pos act l i = Some k.
Proof. intros E Ea. unfold new_pos. rewrite E, Ea. eauto. Qed.

Section Clean.
  Context {B R : Type}.
  Notation bus := (bus B). Notation branch := (branch R). Notation net := (net B R).

  Lemma clean_spec (n : net) :
    n_buses (clean n) = map (renumbered_bus n) (filter (@b_active B) (n_buses n)) /\
    n_branches (clean n) = map (renumbered_branch n) (filter (@r_active R) (n_branches n)).
  Proof.
    unfold clean. cbn [n_buses n_branches]. rewrite !compact_filter. split.
    - apply map_ext. intros b. unfold renumbered_bus, set_nbr. f_equal. rewrite !flat_map_concat_map. f_equal.
      apply map_ext. intros j. now rewrite mfind_keep0.
    - apply map_ext. intros r. unfold renumbered_branch, set_rl. f_equal; unfold mfindz, new_pos_z; now rewrite mfind_keep0.
  Qed.

  (** References to kept buses keep pointing to the same bus. *)
  Lemma clean_bus_ref (n : net) i b : zget (n_buses n) i = Some b -> b_active b = true ->
    zget (n_buses (clean n)) (new_pos_z (@b_active B) (n_buses n) i) = Some (renumbered_bus n b).
  Proof.
    unfold zget, new_pos_z. destruct (Z.ltb_spec i 0); [discriminate|]. intros E Ea.
    destruct (new_pos_some (@b_active B) _ _ E Ea) as (k & Hk). rewrite Hk.
    destruct (Z.ltb_spec (Z.of_nat k) 0); [lia|]. rewrite Nat2Z.id. apply new_pos_points in Hk as (x & Ex & _ & Hx).
    rewrite (proj1 (clean_spec n)), nth_error_map, Hx. simpl. congruence.
  Qed.
  Lemma clean_branch_ref (n : net) j k : new_pos (@r_active R) (n_branches n) j = Some k ->
    exists r, nth_error (n_branches n) j = Some r /\ r_active r = true /\
      nth_error (n_branches (clean n)) k = Some (renumbered_branch n r).
  Proof.
    intros H. apply new_pos_points in H as (r & E & Ea & Hk). exists r. repeat split; auto.
    now rewrite (proj2 (clean_spec n)), nth_error_map, Hk.
  Qed.
  Lemma clean_inactive_end (n : net) i : (forall b, zget (n_buses n) i = Some b -> b_active b = false) ->
    new_pos_z (@b_active B) (n_buses n) i = (-1)%Z.
  Proof.
    unfold zget, new_pos_z. destruct (Z.ltb_spec i 0); auto. intros H1. unfold new_pos.
    destruct (nth_error (n_buses n) (Z.to_nat i)) as [b|]; auto. now rewrite (H1 b).
  Qed.
  Lemma clean_ref (n : net) b : zget (n_buses n) (n_ref n) = Some b -> b_active b = true ->
    zget (n_buses (clean n)) (n_ref (clean n)) = Some (renumbered_bus n b).
  Proof.
    intros E Ea. rewrite <- (@clean_bus_ref n (n_ref n) b E Ea). f_equal.
    unfold clean. cbn [n_ref]. unfold zget in E. destruct (Z.ltb_spec (n_ref n) 0); [discriminate|].
    destruct (Z.eqb_spec (n_ref n) (-1)); [lia|]. unfold new_pos_z. destruct (Z.ltb_spec (n_ref n) 0); [lia|].
    rewrite mfind_keep0. unfold new_pos. now rewrite E, Ea.
  Qed.

  (** * Neighbour queries *)
  Lemma setup_queries (n : net) : self_contained n -> exists n', setup n = Ok n' /\
    map (@b_glob B) (n_buses n') = map (@b_glob B) (n_buses n) /\
    map bus_core (n_buses n') = map bus_core (n_buses n) /\
    map branch_core (n_branches n') = map branch_core (n_branches n) /\
    forall i b, nth_error (n_buses n) i = Some b ->
      get_connected_branches n' (Z.of_nat i) = Ok (incident (n_branches n) (b_glob b)) /\
      exists ks, get_connected_buses n' (Z.of_nat i) = Ok ks /\
        Forall2 (other_end n' (b_glob b)) (incident (n_branches n) (b_glob b)) ks.
  Proof.
    intros [HN HF]. rewrite Forall_forall in HF. unfold setup.
    set (BS0 := map (fun b => set_nbr b []) (n_buses n)). set (RS := n_branches n) in *.
    assert (EG : map (@b_glob B) BS0 = map (@b_glob B) (n_buses n)) by (unfold BS0; rewrite map_map; reflexivity).
    destruct (@link_ok B R RS 0 BS0 BS0 eq_refl) as (bs' & E & HS & HNb).
    { intros r Hr. rewrite EG. now apply HF. }
    rewrite E. cbn [obind fst snd]. eexists. split; [reflexivity|]. unfold set_map. cbn [n_buses n_branches].
    assert (SG : map (@b_glob B) bs' = map (@b_glob B) (n_buses n)) by (rewrite <- EG; now apply same_glob).
    set (lk := fun r : branch => set_rl r (Z.of_nat (busindex BS0 (r_g1 r))) (Z.of_nat (busindex BS0 (r_g2 r)))) in *.
    split; [exact SG|]. split.
    { assert (H : forall l : list bus, map bus_core l = map bus_core (map (@bare B) l)) by (intros l; rewrite map_map; reflexivity).
      unfold same_but_nbr in HS. rewrite (H bs'), HS, <- H. unfold BS0. rewrite map_map. reflexivity. }
    split. { rewrite map_map. reflexivity. }
    assert (LS := same_length HS).
    assert (BX : forall g, In g (map (@b_glob B) BS0) -> forall i b, nth_error bs' i = Some b -> (busindex BS0 g = i <-> g = b_glob b)).
    { intros g Hg i b Hb. destruct (busindex_spec BS0 g Hg) as (x & Hx & Ex).
      assert (Hgi : nth_error (map (@b_glob B) BS0) i = Some (b_glob b)) by (rewrite EG, <- SG, nth_error_map, Hb; auto).
      assert (Hgx : nth_error (map (@b_glob B) BS0) (busindex BS0 g) = Some g) by (rewrite nth_error_map, Hx; simpl; congruence).
      split; [intros <-; congruence|]. intros ->. apply (proj1 (NoDup_nth_error _)) with (2 := HN) || idtac.
      rewrite EG in *. apply (proj1 (NoDup_nth_error _) HN); [apply nth_error_Some; congruence|congruence]. }
    intros i b0 Hb0.
    destruct (nth_error bs' i) as [b|] eqn:Eb.
    2:{ apply nth_error_None in Eb. assert (i < length (n_buses n)) by (apply nth_error_Some; congruence).
        unfold BS0 in LS. rewrite map_length in LS. lia. }
    assert (Eglob : b_glob b = b_glob b0).
    { assert (H : nth_error (map (@b_glob B) bs') i = nth_error (map (@b_glob B) (n_buses n)) i) by now rewrite SG.
      rewrite !nth_error_map, Eb, Hb0 in H. simpl in H. congruence. }
    assert (Enb : b_nbr b = incident RS (b_glob b0)).
    { destruct (HNb _ _ Eb) as (x & Hx & ->). unfold BS0 in Hx. rewrite nth_error_map in Hx.
      destruct (nth_error (n_buses n) i) as [y|]; [|discriminate]. injection Hx as <-. cbn [b_nbr set_nbr]. rewrite app_nil_l.
      unfold incident. rewrite !flat_map_concat_map. f_equal. apply map_ext_in. intros [j r] Hj. apply in_combine_r in Hj.
      unfold ends_at. cbn [fst snd]. destruct (HF _ Hj) as [H1 H2]. rewrite <- EG in H1, H2.
      f_equal.
      - destruct (Nat.eqb_spec (busindex BS0 (r_g1 r)) i) as [H|H]; rewrite (BX _ H1 _ _ Eb), Eglob in H;
          destruct (Z.eqb_spec (r_g1 r) (b_glob b0)); auto; tauto.
      - destruct (Nat.eqb_spec (busindex BS0 (r_g2 r)) i) as [H|H]; rewrite (BX _ H2 _ _ Eb), Eglob in H;
          destruct (Z.eqb_spec (r_g2 r) (b_glob b0)); auto; tauto. }
    assert (Zi : zget bs' (Z.of_nat i) = Some b).
    { unfold zget. destruct (Z.ltb_spec (Z.of_nat i) 0); [lia|]. now rewrite Nat2Z.id. }
    split.
    - unfold get_connected_branches. cbn [n_buses]. now rewrite Zi, Enb.
    - unfold get_connected_buses. cbn [n_buses n_branches]. rewrite Zi, Enb.
      assert (Hin : forall j, In j (incident RS (b_glob b0)) -> exists r, nth_error RS j = Some r /\ (r_g1 r = b_glob b0 \/ r_g2 r = b_glob b0)).
      { intros j Hj. unfold incident in Hj. apply in_flat_map in Hj as ([j' r] & Hc & Hj). cbn [fst snd] in Hj.
        assert (Hn : nth_error RS j' = Some r).
        { clear -Hc. apply In_nth_error in Hc as (k & Hk).
          assert (K : k < length RS).
          { assert (K : k < length (combine (iota (length RS)) RS)) by (apply nth_error_Some; congruence).
            rewrite combine_length in K. lia. }
          destruct (nth_error RS k) as [r'|] eqn:Er; [|apply nth_error_None in Er; lia].
          assert (Ei : nth_error (iota (length RS)) k = Some k).
          { unfold iota. rewrite (nth_error_nth' _ 0) by (now rewrite seq_length). now rewrite seq_nth. }
          rewrite (nth_error_combine' _ _ _ Ei Er) in Hk. congruence. }
        exists r. destruct (Z.eqb_spec (r_g1 r) (b_glob b0)), (Z.eqb_spec (r_g2 r) (b_glob b0)); simpl in Hj;
          (assert (j' = j) as <- by intuition); auto; tauto. }
      set (q := fun j => match nth_error (map lk RS) j with Some r => if (r_l1 r =? Z.of_nat i)%Z then r_l2 r else r_l1 r | None => 0%Z end).
      exists (map q (incident RS (b_glob b0))). split.
      + apply oall_map_ok. intros j Hj. destruct (Hin j Hj) as (r & Hr & _). unfold q. rewrite nth_error_map, Hr. reflexivity.
      + assert (H : forall j, In j (incident RS (b_glob b0)) -> other_end
             {| n_buses := bs'; n_branches := map lk RS; n_ref := n_ref n;
                n_busmap := combine (map (@b_orig B) bs') (iota (length bs'));
                n_branchmap := combine (map (fun r => (r_o1 r, r_o2 r)) (map lk RS)) (iota (length (map lk RS))) |}
             (b_glob b0) j (q j)).
        { intros j Hj. destruct (Hin j Hj) as (r & Hr & Hg). 
          assert (Hl : nth_error (map lk RS) j = Some (lk r)) by now rewrite nth_error_map, Hr.
          unfold q. rewrite Hl. destruct (HF r (nth_error_In _ _ Hr)) as [H1 H2]. rewrite <- EG in H1, H2.
          assert (At : forall g, In g (map (@b_glob B) BS0) -> exists y, zget bs' (Z.of_nat (busindex BS0 g)) = Some y /\ b_glob y = g).
          { intros g Hg'. destruct (busindex_spec BS0 g Hg') as (x & Hx & _).
            assert (L : busindex BS0 g < length bs') by (rewrite LS; apply nth_error_Some; congruence).
            destruct (nth_error bs' (busindex BS0 g)) as [y|] eqn:Ey; [|apply nth_error_None in Ey; lia].
            exists y. unfold zget. destruct (Z.ltb_spec (Z.of_nat (busindex BS0 g)) 0); [lia|]. rewrite Nat2Z.id. split; auto.
            symmetry. now apply (BX g Hg' _ _ Ey). }
          destruct (At _ H1) as (y1 & Z1 & G1), (At _ H2) as (y2 & Z2 & G2).
          unfold other_end. cbn [n_branches n_buses]. simpl r_l1. simpl r_l2.
          destruct (Z.eqb_spec (Z.of_nat (busindex BS0 (r_g1 r))) (Z.of_nat i)) as [El|El].
          - assert (r_g1 r = b_glob b0) by (rewrite <- Eglob; apply (BX _ H1 _ _ Eb); lia).
            exists (lk r), y2. repeat split; auto.
          - assert (r_g1 r <> b_glob b0) by (rewrite <- Eglob; intros H; apply (BX _ H1 _ _ Eb) in H; lia).
            exists (lk r), y1. repeat split; auto. right. simpl. tauto. }
        revert H. generalize (incident RS (b_glob b0)). induction l as [|j l IH]; intros H; simpl; constructor.
        * apply H. now left.
        * apply IH. intros; apply H. now right.
  Qed.
End Clean.

(** * Every bus and branch is active exactly once *)
Lemma partition_by {X} (f : X -> Z) l P : (forall x, In x l -> 0 <= f x)%Z ->
  Permutation (flat_map (fun p => filter (fun x => f x =? Z.of_nat p)%Z l) (iota P)) (filter (fun x => f x <? Z.of_nat P)%Z l).
Proof.
  intros H. unfold iota. induction P as [|P IH].
  - simpl. replace (filter (fun x => f x <? 0)%Z l) with (@nil X); auto.
    symmetry. assert (HF : forall x, In x l -> (f x <? 0)%Z = false) by (intros x Hx; apply Z.ltb_ge; auto).
    clear -HF. induction l as [|x l IH]; simpl; auto. rewrite (HF x) by now left. apply IH. intros; apply HF; now right.
  - rewrite seq_S, flat_map_app. rewrite IH. simpl. rewrite app_nil_r. rewrite filter_or_perm.
    + apply Permutation_refl'. apply filter_ext. intros x.
      destruct (Z.ltb_spec (f x) (Z.of_nat P)), (Z.eqb_spec (f x) (Z.of_nat P)), (Z.ltb_spec (f x) (Z.pos (Pos.of_succ_nat P))); auto; lia.
    + intros x _. destruct (Z.ltb_spec (f x) (Z.of_nat P)), (Z.eqb_spec (f x) (Z.of_nat P)); auto; lia.
Qed.
Lemma filter_all {X} (f : X -> bool) l : (forall x, In x l -> f x = true) -> filter f l = l.
Proof. induction l as [|x l IH]; intros H; simpl; auto. rewrite (H x) by now left. f_equal. apply IH. intros; apply H; now right. Qed.

Section Once.
  Context {B R : Type}.
  Notation bus := (bus B). Notation branch := (branch R). Notation net := (net B R).

  Lemma perm_by_rank {X Y} (act : net -> list X) (ref : nat -> list Y) (core : X -> Y) (nets' : list net) P :
    length nets' = P -> (forall p, p < P -> Permutation (map core (act (at_rank nets' p))) (ref p)) ->
    Permutation (map core (flat_map act nets')) (flat_map ref (iota P)).
  Proof.
    intros <- H. rewrite <- (iota_flat_nth act nets' (Net [] [] (-1)%Z [] [])). rewrite map_flat_map.
    assert (HI : forall p, In p (iota (length nets')) -> p < length nets') by (intros p; apply in_iota).
    induction (iota (length nets')) as [|p l IH]; simpl; auto. apply Permutation_app; [apply H, HI; now left|].
    apply IH. intros; apply HI; now right.
  Qed.

  Lemma active_once (nets nets' : list net) part : fresh nets -> answer_ok nets part -> length nets' = length nets ->
    (forall p, p < length nets -> holds nets part p (at_rank nets' p)) ->
    Permutation (map bus_core (filter (@b_active B) (all_buses nets'))) (map bus_core (all_buses nets)) /\
    Permutation (map branch_core (filter (@r_active R) (all_branches nets'))) (map branch_core (all_branches nets)).
  Proof.
    intros Hf Ha L H. split.
    - unfold all_buses at 1. 
      replace (filter (@b_active B) (flat_map (@n_buses B R) nets')) with (flat_map (fun n => filter (@b_active B) (n_buses n)) nets')
        by (clear; induction nets'; simpl; auto; now rewrite filter_app, IHnets').
      rewrite (@perm_by_rank _ _ (fun n => filter (@b_active B) (n_buses n))
                (fun p => map bus_core (filter (fun b => owner nets part (b_orig b) =? Z.of_nat p)%Z (all_buses nets))) _ nets' (length nets) L).
      + rewrite <- map_flat_map. apply Permutation_map. 
        rewrite (partition_by (fun b => owner nets part (b_orig b))).
        * rewrite filter_all; auto. intros b Hb. apply Z.ltb_lt. now apply own_range.
        * intros b Hb. eapply own_range; eauto.
      + intros p Hp. apply (H p Hp).
    - unfold all_branches at 1. 
      replace (filter (@r_active R) (flat_map (@n_branches B R) nets')) with (flat_map (fun n => filter (@r_active R) (n_branches n)) nets')
        by (clear; induction nets'; simpl; auto; now rewrite filter_app, IHnets').
      rewrite (@perm_by_rank _ _ (fun n => filter (@r_active R) (n_branches n))
                (fun p => map branch_core (filter (fun r => owner nets part (low_end nets r) =? Z.of_nat p)%Z (all_branches nets))) _ nets' (length nets) L).
      + rewrite <- map_flat_map. apply Permutation_map. 
        rewrite (partition_by (fun r => owner nets part (low_end nets r))).
        * rewrite filter_all; auto. intros r Hr. apply Z.ltb_lt. destruct (lohi_bus Hf r Hr) as [(b & Hb & <-) _]. now apply own_range.
        * intros r Hr. destruct (lohi_bus Hf r Hr) as [(b & Hb & <-) _]. now apply own_range.
      + intros p Hp. apply (H p Hp).
  Qed.
End Once.

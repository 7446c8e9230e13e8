(** A copy answers as the original; networks that were partitioned can be copied. *)
From Verif Require Import Prelude GAModel ParModel NetModel ClnModel ClnSpec ClnProofs.

Lemma combine_filter {A C} (f : A -> Z) (g : A -> bool) (l : list A) : forall k,
  (forall (key : A -> C) (p : C -> bool), (forall x, p (key x) = g x) ->
    map snd (filter (fun e => p (fst e)) (combine (map key l) (seq k (length l)))) =
    filter (fun j => match nth_error l (j - k) with Some x => g x | None => false end) (seq k (length l))).
Proof.
  clear f. intros k key p Hp. revert k. induction l as [|x l IH]; intros k; [reflexivity|]. cbn [map length seq combine filter].
  rewrite Nat.sub_diag. cbn [nth_error fst]. rewrite Hp.
  assert (E : filter (fun j => match nth_error (x :: l) (j - k) with Some y => g y | None => false end) (seq (S k) (length l)) =
              filter (fun j => match nth_error l (j - S k) with Some y => g y | None => false end) (seq (S k) (length l))).
  { apply filter_ext_in. intros j Hj. apply in_seq in Hj. replace (j - k) with (S (j - S k)) by lia. reflexivity. }
  rewrite E, <- IH. destruct (g x); reflexivity.
Qed.

Section P.
  Context {B R B' R' D : Type} (nb : B') (nr : R') (nd : D).

  Lemma set_map_finds (n : net (B * D) (R * D)) d : finds (DNet (set_map n) d).
  Proof.
    split; cbn [d_net].
    - intros idx. unfold get_local_bus_indices, set_map, iota. cbn [n_busmap n_buses].
      rewrite (@combine_filter _ _ (fun _ => 0%Z) (fun b => (b_orig b =? idx)%Z) (n_buses n) 0 (@b_orig _) (fun z => (z =? idx)%Z)) by reflexivity.
      apply filter_ext_in. intros j _. now rewrite Nat.sub_0_r.
    - intros i j. unfold branch_entries, set_map, iota. cbn [n_branchmap n_branches].
      rewrite (@combine_filter _ _ (fun _ => 0%Z) (fun r => ((r_o1 r =? i) && (r_o2 r =? j))%Z) (n_branches n) 0 (fun r => (r_o1 r, r_o2 r)) (fun z => ((fst z =? i) && (snd z =? j))%Z)) by reflexivity.
      apply filter_ext_in. intros k _. now rewrite Nat.sub_0_r.
  Qed.

  Definition the_copy (o : dnet B R D) : dnet B' R' D :=
    DNet (set_map (Net (copy_buses nb (d_net o)) (map (rconv nr (d_net o)) (n_branches (d_net o))) (n_ref (d_net o)) [] [])) (d_data o).
  Lemma copy_zget (o : dnet B R D) i : exists f, (forall b : bus (B * D), (b_active (f b) = b_active b /\ b_orig (f b) = b_orig b /\ b_glob (f b) = b_glob b) /\ b_nbr (f b) = b_nbr b /\ b_obj (f b) = (nb, snd (b_obj b))) /\
    zget (n_buses (d_net (the_copy o))) i = option_map f (zget (n_buses (d_net o)) i).
  Proof.
    eexists (fun b => Bus (b_active b) (b_orig b) (b_glob b) (b_nbr b) (nb, snd (b_obj b)) (if (n_ref (d_net o) =? Z.of_nat (Z.to_nat i))%Z then true else false)).
    split; [intros b; cbn; auto|]. unfold zget. destruct (i <? 0)%Z; [reflexivity|]. cbn. now rewrite copy_nth.
  Qed.
  Lemma copy_same (o : dnet B R D) : same_answers o (the_copy o).
  Proof.
    assert (Hb : forall A (f : bus (B' * D) -> A) (g : bus (B * D) -> A), (forall b b' : _, b_active b' = b_active b -> b_orig b' = b_orig b -> b_glob b' = b_glob b -> b_nbr b' = b_nbr b -> b_obj b' = (nb, snd (b_obj b)) -> f b' = g b) ->
      forall i, at_bus (d_net (the_copy o)) i f = at_bus (d_net o) i g).
    { intros A f g H i. unfold at_bus. destruct (copy_zget o i) as (h & Hh & E). rewrite E. destruct (zget (n_buses (d_net o)) i) as [b|]; [|reflexivity].
      cbn. f_equal. destruct (Hh b) as ((H1 & H2 & H3) & H4 & H5). apply H; auto. }
    assert (Hr : forall A (f : branch (R' * D) -> A) (g : branch (R * D) -> A), (forall r, f (rconv nr (d_net o) r) = g r) ->
      forall i, at_branch (d_net (the_copy o)) i f = at_branch (d_net o) i g).
    { intros A f g H i. unfold at_branch. cbn. rewrite zget_map. destruct (zget (n_branches (d_net o)) i); [|reflexivity]. cbn. now rewrite H. }
    constructor; cbn [d_data].
    - cbn. apply copy_len.
    - cbn. apply map_length.
    - apply Hb; auto.
    - apply Hb; auto.
    - apply Hb; auto.
    - apply Hb. intros b b' _ _ _ _ E. now rewrite E.
    - intros i. unfold get_connected_branches. destruct (copy_zget o i) as (h & Hh & E). rewrite E. destruct (zget (n_buses (d_net o)) i) as [b|]; [|reflexivity].
      cbn. now destruct (Hh b) as (_ & -> & _).
    - intros i. unfold get_connected_buses. destruct (copy_zget o i) as (h & Hh & E). rewrite E. destruct (zget (n_buses (d_net o)) i) as [b|]; [|reflexivity].
      cbn [option_map]. destruct (Hh b) as (_ & -> & _). f_equal. apply map_ext. intros j. cbn. rewrite nth_error_map. destruct (nth_error (n_branches (d_net o)) j); reflexivity.
    - apply Hr; auto.
    - apply Hr; auto.
    - apply Hr; auto.
    - apply Hr; auto.
    - apply Hr; auto.
    - reflexivity.
    - reflexivity.
  Qed.

  Lemma add_neighbor_len (bs : list (bus (B * D))) i j : length (add_neighbor bs i j) = length bs.
  Proof. unfold add_neighbor. destruct (nth_error bs i); [apply upd_length|reflexivity]. Qed.
  Lemma link_ok (rs : list (branch (R * D))) : forall k (bs bs' : list (bus (B * D))) rs', link rs k bs = Ok (bs', rs') ->
    length bs' = length bs /\ forall r, In r rs' -> (0 <= r_l1 r < Z.of_nat (length bs))%Z /\ (0 <= r_l2 r < Z.of_nat (length bs))%Z.
  Proof.
    induction rs as [|r rs IH]; intros k bs bs' rs' E; cbn [link] in E.
    - injection E as <- <-. split; [reflexivity|]. intros r [].
    - destruct ((busindex bs (r_g1 r) <? length bs) && (busindex bs (r_g2 r) <? length bs)) eqn:G; [|discriminate].
      destruct (link rs (S k) _) as [[b2 r2]| |] eqn:E2; cbn [obind fst snd] in E; try discriminate. injection E as <- <-.
      apply IH in E2 as [L H]. rewrite !add_neighbor_len in *. split; [exact L|]. intros x [<-|Hx]; [|now apply H].
      cbn. apply andb_true_iff in G as [G1 G2]. apply Nat.ltb_lt in G1, G2. lia.
  Qed.
  Lemma setup_linked (n n' : net (B * D) (R * D)) d : setup n = Ok n' -> linked (DNet n' d).
  Proof.
    unfold setup. destruct (link _ _ _) as [[b r]| |] eqn:E; cbn [obind]; intros H; try discriminate. injection H as <-.
    apply link_ok in E as [L H]. unfold linked. cbn. rewrite L. exact H.
  Qed.
  Lemma oall_in {A} (l : list (outcome A)) l' x : oall l = Ok l' -> In x l' -> In (Ok x) l.
  Proof.
    revert l'. induction l as [|a l IH]; intros l' E Hx; cbn in E; [injection E as <-; destruct Hx|].
    destruct a; cbn in E; try discriminate. destruct (oall l) eqn:E2; cbn in E; try discriminate. injection E as <-.
    destruct Hx as [-> |Hx]; [now left|right; eauto].
  Qed.
  Lemma partition_linked (nets nets' : list (net (B * D) (R * D))) dist ord1 ord2 part n d :
    partition nets dist ord1 ord2 part = Ok nets' -> In n nets' -> linked (DNet n d).
  Proof.
    unfold partition. intros E Hn. destruct (partitioner nets dist ord1 ord2 part); cbn [obind] in E; try discriminate.
    repeat match type of E with obind (shuffle ?x) _ = _ => destruct (shuffle x); cbn [obind] in E; try discriminate end.
    eapply oall_in in E; [|exact Hn]. apply in_map_iff in E as (p & E & _). eapply setup_linked. exact E.
  Qed.
End P.

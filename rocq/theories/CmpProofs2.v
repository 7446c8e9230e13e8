(** Networks that were set up are ready; the wiring is determined; missing ends. *)
From Verif Require Import Prelude GAModel ParModel NetModel NetSpec NetProofs4 ClnModel ClnProofs CmpModel CmpSpec CmpProofs.

Lemma add_nb_len (bs : list (bus nat)) i j : length (add_neighbor bs i j) = length bs.
Proof. unfold add_neighbor. destruct (nth_error bs i); [apply upd_length|reflexivity]. Qed.
Lemma link_ends (rs : list (branch nat)) : forall k (bs bs' : list (bus nat)) rs', link rs k bs = Ok (bs', rs') ->
  length bs' = length bs /\ forall r, In r rs' -> (0 <= r_l1 r < Z.of_nat (length bs))%Z /\ (0 <= r_l2 r < Z.of_nat (length bs))%Z.
Proof.
  induction rs as [|r rs IH]; intros k bs bs' rs' E; cbn [link] in E.
  - injection E as <- <-. split; [reflexivity|]. intros r [].
  - destruct ((busindex bs (r_g1 r) <? length bs) && (busindex bs (r_g2 r) <? length bs)) eqn:G; [|discriminate].
    destruct (link rs (S k) _) as [[b2 r2]| |] eqn:E2; cbn [obind fst snd] in E; try discriminate. injection E as <- <-.
    apply IH in E2 as [L H]. rewrite !add_nb_len in *. split; [exact L|]. intros x [<-|Hx]; [|now apply H].
    cbn. apply andb_true_iff in G as [G1 G2]. apply Nat.ltb_lt in G1, G2. lia.
Qed.
Lemma incident_lt (rs : list (branch nat)) g j : In j (incident rs g) -> j < length rs.
Proof.
  unfold incident, iota. intros H. apply in_flat_map in H as ([k r] & Hc & Hj). apply in_combine_l in Hc. apply in_seq in Hc. cbn [fst snd] in Hj.
  apply in_app_iff in Hj as [Hj|Hj]; [destruct (r_g1 r =? g)%Z|destruct (r_g2 r =? g)%Z]; cbn in Hj; lia.
Qed.

Lemma setup_ready (n : cnet) : self_contained n -> NoDup (map (@b_obj nat) (n_buses n)) -> NoDup (map (@r_obj nat) (n_branches n)) ->
  n_ref n = (-1)%Z \/ (0 <= n_ref n < Z.of_nat (length (n_buses n)))%Z ->
  exists n', setup n = Ok n' /\ ready n' /\ map (@b_obj nat) (n_buses n') = map (@b_obj nat) (n_buses n) /\ map (@r_obj nat) (n_branches n') = map (@r_obj nat) (n_branches n) /\
    forall i b, nth_error (n_buses n') i = Some b -> b_nbr b = incident (n_branches n) (b_glob b).
Proof.
  intros SC NB NR RF. destruct (setup_queries SC) as (n' & E & HG & HB & HR & HQ). exists n'. split; [exact E|].
  assert (OB : map (@b_obj nat) (n_buses n') = map (@b_obj nat) (n_buses n)).
  { transitivity (map (fun c : Z * Z * nat * bool => snd (fst c)) (map (@bus_core nat) (n_buses n'))); [now rewrite map_map|]. rewrite HB. now rewrite map_map. }
  assert (OR : map (@r_obj nat) (n_branches n') = map (@r_obj nat) (n_branches n)).
  { transitivity (map (fun c : Z * Z * Z * nat => snd c) (map (@branch_core nat) (n_branches n'))); [now rewrite map_map|]. rewrite HR. now rewrite map_map. }
  assert (LB : length (n_buses n') = length (n_buses n)) by (rewrite <- (map_length (@b_obj nat)), OB, map_length; reflexivity).
  assert (LR : length (n_branches n') = length (n_branches n)) by (rewrite <- (map_length (@r_obj nat)), OR, map_length; reflexivity).
  assert (NBR : forall i b, nth_error (n_buses n') i = Some b -> b_nbr b = incident (n_branches n) (b_glob b)).
  { intros i b Hb. destruct (nth_error (n_buses n) i) as [b0|] eqn:E0.
    2:{ apply nth_error_None in E0. assert (i < length (n_buses n')) by (apply nth_error_Some; congruence). lia. }
    destruct (HQ i b0 E0) as [Q _]. unfold get_connected_branches in Q. rewrite zget_of_nat, Hb in Q. injection Q as Q. rewrite Q. f_equal.
    assert (X : nth_error (map (@b_glob nat) (n_buses n')) i = nth_error (map (@b_glob nat) (n_buses n)) i) by now rewrite HG.
    rewrite !nth_error_map, Hb, E0 in X. cbn in X. congruence. }
  split; [|auto].
  pose proof E as E'. unfold setup in E'. destruct (link _ _ _) as [[b r]| |] eqn:EL; cbn [obind] in E'; try discriminate. injection E' as <-.
  apply link_ends in EL as [L H]. rewrite map_length in L, H. constructor; cbn [set_map n_buses n_branches n_ref fst snd] in *.
  - now rewrite OB.
  - now rewrite OR.
  - intros x Hx. rewrite LB. now apply H.
  - intros x j Hx Hj. apply In_nth_error in Hx as [i Hi]. rewrite (NBR i x Hi) in Hj. rewrite LR. now apply incident_lt in Hj.
  - now rewrite LB.
Qed.

Lemma forall2_fun {A C} (P : A -> C -> Prop) l : (forall a x y, P a x -> P a y -> x = y) -> forall x y, Forall2 P l x -> Forall2 P l y -> x = y.
Proof.
  intros HP. induction l as [|a l IH]; intros x y Hx Hy; inversion Hx; inversion Hy; subst; [reflexivity|]. f_equal; eauto.
Qed.
Lemma is_bus_fun (n : cnet) i b b' : is_bus n i b -> is_bus n i b' -> b = b'.
Proof. intros [_ H] [_ H']. congruence. Qed.
(** What a bus knows is determined *)
Lemma bus_knows_fun n mv before i b c c' : bus_knows n mv before i b c -> bus_knows n mv before i b c' -> c = c'.
Proof.
  intros [A1 A2 A3 A4 A5 A6] [B1 B2 B3 B4 B5 B6]. destruct c, c'. cbn in *.
  assert (cb_branches = cb_branches0). { eapply forall2_fun; [|exact A4|exact B4]. cbn. intros j x y (r & H & <-) (r' & H' & <-). congruence. }
  assert (cb_buses = cb_buses0).
  { eapply forall2_fun; [|exact A5|exact B5]. cbn. intros j x y (r & p & G & Hp & <-) (r' & p' & G' & Hp' & <-). rewrite G in G'. injection G' as <-.
    f_equal. destruct Hp as [[Hp D]|[Hp D]]; destruct Hp' as [[Hp' D']|[Hp' D']]; try contradiction; eapply is_bus_fun; eassumption. }
  congruence.
Qed.
Lemma branch_knows_fun n s s' r c c' : (forall b, In b (n_buses n) -> sb s (b_obj b) = sb s' (b_obj b)) -> branch_knows n s r c -> branch_knows n s' r c' -> c = c'.
Proof.
  intros HS [A1 (b1 & P1 & P2 & P3 & P4 & P5) (b2 & Q1 & Q2 & Q3 & Q4 & Q5)] [B1 (b1' & P1' & P2' & P3' & P4' & P5') (b2' & Q1' & Q2' & Q3' & Q4' & Q5')].
  pose proof (is_bus_fun P1 P1'). pose proof (is_bus_fun Q1 Q1'). subst b1' b2'.
  pose proof (HS b1 (nth_error_In _ _ (proj2 P1))) as S1. pose proof (HS b2 (nth_error_In _ _ (proj2 Q1))) as S2. destruct c, c'. cbn in *. congruence.
Qed.
Lemma wired_fun n mv s0 s0' s s' : (forall b, In b (n_buses n) -> cb_ref (sb s0 (b_obj b)) = cb_ref (sb s0' (b_obj b))) ->
  wired n mv s0 s -> wired n mv s0' s' ->
  (forall b, In b (n_buses n) -> sb s (b_obj b) = sb s' (b_obj b)) /\ (forall r, In r (n_branches n) -> sr s (r_obj r) = sr s' (r_obj r)).
Proof.
  intros HR [W1 W2] [W1' W2'].
  assert (X : forall b, In b (n_buses n) -> sb s (b_obj b) = sb s' (b_obj b)).
  { intros b Hb. pose proof (HR b Hb) as Hf. apply In_nth_error in Hb as [i Hi]. eapply bus_knows_fun; [exact (W1 i b Hi)|].
    destruct (W1' i b Hi) as [A1 A2 A3 A4 A5 A6]. constructor; auto. now rewrite Hf. }
  split; [exact X|]. intros r Hr. apply In_nth_error in Hr as [j Hj]. eapply branch_knows_fun; [exact X|exact (W2 j r Hj)|exact (W2' j r Hj)].
Qed.

Lemma each_throw {A} (body : A -> nat -> outcome A) k l : (forall s i, body s i <> UB) -> (forall s, body s k = Throw) -> In k l -> forall s, each body l s = Throw.
Proof.
  intros HU HT. induction l as [|i l IH]; intros Hk s; [destruct Hk|]. cbn [each]. destruct Hk as [-> |Hk]; [now rewrite HT|].
  destruct (body s i) eqn:E; cbn [obind]; [now apply IH|reflexivity|]. destruct (HU s i E).
Qed.
Lemma no_end_throws (n : cnet) mv s r : In r (n_branches n) ->
  (~ (0 <= r_l1 r < Z.of_nat (length (n_buses n)))%Z \/ ~ (0 <= r_l2 r < Z.of_nat (length (n_buses n)))%Z) -> set_comps (make_factory n) n mv s = Throw.
Proof.
  intros Hr Hbad. apply In_nth_error in Hr as [k Hk]. unfold set_comps, iota.
  assert (K : k < length (n_branches n)) by (apply nth_error_Some; congruence).
  rewrite (@each_throw _ (set_ends n) k).
  - reflexivity.
  - intros x i. unfold set_ends, branch_at, bus_at. repeat match goal with |- context [match ?z with Some _ => _ | None => _ end] => destruct z; cbn [obind] end; discriminate.
  - intros x. unfold set_ends, branch_at, bus_at. rewrite zget_of_nat, Hk. cbn [obind fst snd].
    destruct (zget (n_buses n) (r_l1 r)) eqn:E1; cbn [obind]; [|reflexivity]. destruct (zget (n_buses n) (r_l2 r)) eqn:E2; cbn [obind]; [|reflexivity].
    exfalso. unfold zget in E1, E2. destruct (Z.ltb_spec (r_l1 r) 0); [discriminate|]. destruct (Z.ltb_spec (r_l2 r) 0); [discriminate|].
    assert (Z.to_nat (r_l1 r) < length (n_buses n)) by (apply nth_error_Some; congruence).
    assert (Z.to_nat (r_l2 r) < length (n_buses n)) by (apply nth_error_Some; congruence). lia.
  - apply in_seq. unfold f_nr, make_factory. cbn. rewrite map_length. lia.
Qed.

Lemma load_ref_ok flags : forall (bs : list (bus nat)) k ref,
  (load_ref flags bs k ref = ref /\ forall b, In b bs -> flags (b_obj b) = false) \/
  (exists i b, nth_error bs i = Some b /\ flags (b_obj b) = true /\ load_ref flags bs k ref = Z.of_nat (k + i) /\
     forall j b', i < j -> nth_error bs j = Some b' -> flags (b_obj b') = false).
Proof.
  induction bs as [|b bs IH]; intros k ref; cbn [load_ref]; [left; split; [reflexivity|intros b []]|].
  destruct (flags (b_obj b)) eqn:F; destruct (IH (S k) (if flags (b_obj b) then Z.of_nat k else ref)) as [[E H]|(i & b' & Hi & Hf & E & H)]; rewrite F in E.
  - right. exists 0, b. split; [reflexivity|]. split; [exact F|]. split; [rewrite E; f_equal; lia|]. intros [|j] b' Hj Hb'; [lia|]. apply H. eapply nth_error_In. exact Hb'.
  - right. exists (S i), b'. split; [exact Hi|]. split; [exact Hf|]. split; [rewrite E; f_equal; lia|]. intros [|j] c Hj Hc; [lia|]. apply (H j); [lia|exact Hc].
  - left. split; [exact E|]. intros x [<-|Hx]; auto.
  - right. exists (S i), b'. split; [exact Hi|]. split; [exact Hf|]. split; [rewrite E; f_equal; lia|]. intros [|j] c Hj Hc; [lia|]. apply (H j); [lia|exact Hc].
Qed.

Lemma save_ok (alive : nat -> bool) (n : cnet) : (forall b, In b (n_buses n) -> alive (b_obj b) = true) ->
  save_data (make_factory n) alive n = Ok (map (fun b => (b_obj b, b_obj b)) (n_buses n)).
Proof.
  intros HA. unfold save_data, f_nb, make_factory, iota. cbn [f_buses]. rewrite map_length.
  assert (G : forall l k, (forall i b, nth_error l i = Some b -> nth_error (n_buses n) (k + i) = Some b) ->
    oall (map (fun ic : nat * nat => if alive (snd ic) then bus_at n (Z.of_nat (fst ic)) (fun b => (snd ic, b_obj b)) else UB) (combine (seq k (length l)) (map (@b_obj nat) l))) =
    Ok (map (fun b => (b_obj b, b_obj b)) l)).
  { induction l as [|b l IH]; intros k H; [reflexivity|]. cbn [length seq map combine fst snd].
    assert (Hb : nth_error (n_buses n) k = Some b) by (specialize (H 0 b eq_refl); now rewrite Nat.add_0_r in H).
    cbn [oall]. rewrite (HA b (nth_error_In _ _ Hb)). unfold bus_at at 1. rewrite zget_of_nat, Hb. cbn [obind].
    rewrite IH; [reflexivity|]. intros i c Hc. specialize (H (S i) c Hc). now rewrite Nat.add_succ_r in H. }
  apply (G (n_buses n) 0). auto.
Qed.

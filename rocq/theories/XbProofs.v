(** Proofs about the exchange buffers. *)
From Verif Require Import Prelude GAModel XbModel XbSpec.

Definition wf (h : heap) : Prop := NoDup (h_live h) /\ forall b, In b (h_live h) -> b < h_next h.
Definition cells (bs : list nat) : list (option ptr) := map (fun b => Some (Mine b)) bs.

Lemma is_live_in h b : In b (h_live h) -> is_live h b = true.
Proof. intros H. unfold is_live. apply existsb_exists. exists b. split; [exact H|apply Nat.eqb_refl]. Qed.

Lemma perm_filter {A} (f : A -> bool) l l' : Permutation l l' -> Permutation (filter f l) (filter f l').
Proof.
  induction 1; cbn; auto.
  - destruct (f x); auto.
  - destruct (f x), (f y); auto. apply perm_swap.
  - eapply Permutation_trans; eassumption.
Qed.
Lemma filter_out b l : ~ In b l -> filter (fun x => negb (x =? b)) l = l.
Proof.
  induction l as [|x l IH]; intros H; cbn; auto. destruct (Nat.eqb_spec x b) as [E|D]; cbn; [subst; exfalso; apply H; now left|].
  f_equal. apply IH. intros G. apply H. now right.
Qed.

Lemma delete_ok h b R : wf h -> Permutation (h_live h) (b :: R) ->
  exists h', delete_ h b = Ok h' /\ wf h' /\ Permutation (h_live h') R /\ h_next h' = h_next h.
Proof.
  intros [N W] P. unfold delete_. rewrite is_live_in by (eapply Permutation_in; [apply Permutation_sym; exact P|now left]).
  eexists. split; [reflexivity|]. cbn [h_live h_next].
  assert (Nb : NoDup (b :: R)) by (eapply Permutation_NoDup; [exact P|exact N]). inversion_clear Nb as [|? ? Hb NR].
  assert (P' : Permutation (filter (fun x => negb (x =? b)) (h_live h)) R).
  { eapply Permutation_trans; [apply perm_filter; exact P|]. cbn. rewrite Nat.eqb_refl. cbn. now rewrite filter_out. }
  split; [|auto]. split; cbn [h_live h_next].
  - eapply Permutation_NoDup; [apply Permutation_sym; exact P'|exact NR].
  - intros x Hx. apply filter_In in Hx as [Hx _]. now apply W.
Qed.

Lemma new_ok h : wf h -> wf (fst (new_ h)) /\ h_live (fst (new_ h)) = h_next h :: h_live h /\ snd (new_ h) = h_next h /\ h_next (fst (new_ h)) = S (h_next h).
Proof.
  intros [N W]. cbn. repeat split; auto; cbn.
  - constructor; [|exact N]. intros H. specialize (W _ H). lia.
  - intros b [<-|H]; [lia|]. specialize (W _ H). lia.
Qed.
Lemma new_n_ok n : forall h, wf h ->
  wf (fst (new_n n h)) /\ Permutation (h_live (fst (new_n n h))) (seq (h_next h) n ++ h_live h) /\ snd (new_n n h) = cells (seq (h_next h) n).
Proof.
  induction n as [|n IH]; intros h W; cbn [new_n seq app cells map].
  - cbn. auto.
  - destruct (new_ok W) as (W1 & L1 & B1 & N1). destruct (new_ h) as [h1 b] eqn:E. cbn [fst snd] in *. subst b.
    destruct (IH h1 W1) as (W2 & P2 & C2). destruct (new_n n h1) as [h2 l]. cbn [fst snd] in *. rewrite N1, L1 in *. split; [exact W2|]. split.
    + eapply Permutation_trans; [exact P2|]. apply Permutation_sym, Permutation_middle.
    + rewrite C2. reflexivity.
Qed.

(** s looks like v; L are the blocks that nobody will delete *)
Definition held (v : seen) (s : xc) (a : nat) (l : list nat) : Prop :=
  x_ptr s = Some a /\ x_size s <> 0%Z /\ length (x_arr s) = u_n v /\
  match u_view v with
  | Nothing => False
  | Owned => x_alloc s = true /\ x_arr s = cells l
  | Borrowed c => x_alloc s = false /\ x_arr s = c /\ l = []
  end.
Definition Inv (s : xc) (v : seen) (L : list nat) : Prop :=
  x_n s = u_n v /\ wf (x_heap s) /\
  ((u_view v = Nothing /\ (x_ptr s = None \/ x_size s = 0%Z) /\ x_alloc s = false /\ Permutation (h_live (x_heap s)) L) \/
   exists a l, held v s a l /\ Permutation (h_live (x_heap s)) ((a :: l) ++ L)).
(** Nothing is lost: for buses the flag is reset by an allocation, for branches only by freeing *)
Definition tight (br : bool) (s : xc) (v : seen) (L : list nat) : Prop :=
  L = [] /\ (u_view v = Owned -> x_ext s = false) /\ (br = true -> u_busy v = false -> x_ext s = false /\ u_view v = Nothing).

Lemma read_cells s a l i : x_ptr s = Some a -> In a (h_live (x_heap s)) -> x_arr s = cells l -> i < length l -> read_at s i = Ok (Mine (nth i l 0)).
Proof.
  intros Ep Ha Ea Hi. unfold read_at. rewrite Ep, (is_live_in _ _ Ha), Ea. unfold cells. rewrite nth_error_map.
  rewrite (nth_error_nth' l 0 Hi). reflexivity.
Qed.

Lemma delete_all_ok s a l : x_ptr s = Some a -> In a (h_live (x_heap s)) -> x_arr s = cells l ->
  forall m k h R, k + m = length l -> wf h -> Permutation (h_live h) (skipn k l ++ R) ->
  exists h', delete_all s (seq k m) h = Ok h' /\ wf h' /\ Permutation (h_live h') R.
Proof.
  intros Ep Ha Ea. induction m as [|m IH]; intros k h R Hk W P; cbn [seq delete_all].
  - rewrite skipn_all2 in P by lia. exists h. auto.
  - rewrite (@read_cells s a l k Ep Ha Ea) by lia. cbn [obind delete_ptr].
    assert (Es : skipn k l = nth k l 0 :: skipn (S k) l).
    { assert (Hkl : k < length l) by lia. clear - Hkl. revert k Hkl. induction l as [|x l IH]; intros [|k] H; cbn in *; try lia; auto. apply IH; lia. }
    rewrite Es in P. destruct (@delete_ok h (nth k l 0) (skipn (S k) l ++ R) W P) as (h1 & E1 & W1 & P1 & _). rewrite E1. cbn [obind].
    apply IH; auto. lia.
Qed.

Lemma clean_out_ok s v L : Inv s v L ->
  (u_view v = Nothing /\ clean_out s = Ok None) \/
  (u_view v <> Nothing /\ exists s' L', clean_out s = Ok (Some s') /\
     x_n s' = x_n s /\ x_ext s' = x_ext s /\ x_alloc s' = false /\ wf (x_heap s') /\ Permutation (h_live (x_heap s')) L' /\
     (L = [] -> (u_view v = Owned -> x_ext s = false) -> L' = []) /\
     (u_view v = Owned -> length L' = (if x_ext s then u_n v else 0) + length L)).
Proof.
  intros (Hn & W & [(V & Hp & Ha & P)|(a & l & H & P)]).
  - left. split; [exact V|]. unfold clean_out. destruct (x_ptr s); [|reflexivity]. destruct Hp as [Hp|Hp]; [discriminate|]. now rewrite Hp.
  - right. destruct H as (Ep & Es & Hl & H). assert (Ha : In a (h_live (x_heap s))) by (eapply Permutation_in; [apply Permutation_sym; exact P|now left]).
    unfold clean_out. rewrite Ep. destruct (Z.eqb_spec (x_size s) 0) as [E|_]; [contradiction|].
    destruct (u_view v) as [| |c] eqn:V; [destruct H| |].
    + destruct H as [Hal Harr]. split; [discriminate|]. rewrite Hal. cbn [andb].
      assert (Ll : length l = x_n s). { rewrite Hn, <- Hl, Harr. unfold cells. now rewrite map_length. }
      destruct (x_ext s) eqn:Ex; cbn [negb].
      * cbn [obind]. destruct (@delete_ok (x_heap s) a (l ++ L) W P) as (h & E & Wh & Ph & _). rewrite E. cbn [obind].
        eexists _, (l ++ L)%list. split; [reflexivity|]. cbn [x_n x_ext x_alloc x_heap]. repeat split; auto; try apply Wh.
        { intros _ Hf. now specialize (Hf eq_refl). }
        intros _. rewrite app_length. lia.
      * assert (P' : Permutation (h_live (x_heap s)) (skipn 0 l ++ (a :: L))).
        { cbn [skipn]. eapply Permutation_trans; [exact P|]. cbn [app]. apply Permutation_middle. }
        destruct (@delete_all_ok s a l Ep Ha Harr (x_n s) 0 (x_heap s) (a :: L)) as (h & E & Wh & Ph); [lia|exact W|exact P'|].
        unfold iota. rewrite E. cbn [obind]. destruct (@delete_ok h a L Wh Ph) as (h2 & E2 & W2 & P2 & _). rewrite E2. cbn [obind].
        eexists _, L. split; [reflexivity|]. cbn [x_n x_ext x_alloc x_heap]. repeat split; auto; apply W2.
    + destruct H as (Hal & Harr & ->). split; [discriminate|]. rewrite Hal. cbn [andb obind].
      destruct (@delete_ok (x_heap s) a L W P) as (h & E & Wh & Ph & _). rewrite E. cbn [obind].
      eexists _, L. split; [reflexivity|]. cbn [x_n x_ext x_alloc x_heap]. repeat split; auto; try apply Wh; discriminate.
Qed.

Lemma new_all n h L : wf h -> Permutation (h_live h) L ->
  exists h2 a l, new_ h = (fst (new_ h), a) /\ new_n n (fst (new_ h)) = (h2, cells l) /\ length l = n /\ wf h2 /\ Permutation (h_live h2) ((a :: l) ++ L).
Proof.
  intros W P. destruct (new_ok W) as (W1 & L1 & B1 & N1). destruct (new_n_ok n W1) as (W2 & P2 & C2).
  exists (fst (new_n n (fst (new_ h)))), (h_next h), (seq (h_next (fst (new_ h))) n). split; [rewrite <- B1; now destruct (new_ h)|].
  split; [rewrite <- C2; now destruct (new_n n (fst (new_ h)))|]. split; [apply seq_length|]. split; [exact W2|].
  eapply Permutation_trans; [exact P2|]. rewrite L1. apply Permutation_sym. cbn [app]. eapply Permutation_trans; [|apply Permutation_middle].
  apply perm_skip. apply Permutation_app_head. now apply Permutation_sym.
Qed.

Theorem step_ok br s v L c : Inv s v L -> allowed v c = true ->
  exists s' r L', do_ br s c = Ok (s', r) /\ Inv s' (after v c) L' /\ returns v c r /\
    (tight br s v L -> (br = true -> (match c with CAlloc z => (z <? 0)%Z || negb (u_busy v) | _ => true end) = true) -> tight br s' (after v c) L').
Proof.
  intros I A. destruct c as [|z| |z|i p|i|]; cbn [do_ after allowed returns] in *.
  - (* add *)
    exists (add_ s), RUnit, L. split; [reflexivity|]. split; [|split; [reflexivity|intros T _; exact T]].
    destruct I as (Hn & W & H). split; [cbn; now rewrite Hn|]. split; [exact W|]. left. cbn.
    destruct H as [H|(a & l & (_ & _ & _ & H) & _)]; [exact H|]. destruct (u_view v); [destruct H|discriminate|discriminate].
  - (* alloc *)
    unfold alloc_. destruct (Z.ltb_spec z 0) as [Hz|Hz].
    { exists s, RThrow, L. split; [reflexivity|]. split; [exact I|]. split; [reflexivity|tauto]. }
    destruct (clean_out_ok I) as [(V & E)|(V & s' & L' & E & En & Ee & Ea & W' & P' & HL & _)]; rewrite E; cbn [obind].
    + destruct I as (Hn & W & H). destruct H as [(_ & Hp & Hal & P)|(a & l & (_ & _ & _ & H) & _)]; [|rewrite V in H; destruct H].
      rewrite Hn. destruct ((0 <? z)%Z && (0 <? u_n v)) eqn:G.
      * destruct (new_all (u_n v) W P) as (h2 & a & l & E1 & E2 & Hl & W2 & P2). rewrite E1, E2.
        eexists _, _, L. split; [reflexivity|]. split; [|split; [reflexivity|]].
        -- split; [reflexivity|]. split; [exact W2|]. right. exists a, l. split; [|exact P2]. split; [reflexivity|]. cbn. split; [lia|].
           split; [unfold cells; now rewrite map_length|auto].
        -- intros (T1 & T2 & T3) Hf. split; [exact T1|]. split; [|discriminate]. intros _. cbn. destruct br; [|reflexivity].
           destruct (T3 eq_refl) as [T4 _]; [|exact T4]. specialize (Hf eq_refl). destruct (Z.ltb_spec z 0); [lia|]. now destruct (u_busy v).
      * exists s, RUnit, L. split; [reflexivity|]. split; [|split; [reflexivity|]].
        -- split; [exact Hn|]. split; [exact W|]. left. auto.
        -- intros (T1 & T2 & T3) _. split; [exact T1|]. split; discriminate.
    + destruct I as (Hn & W & H). cbn [with_flags x_n x_heap x_ext]. rewrite En, Hn.
      destruct ((0 <? z)%Z && (0 <? u_n v)) eqn:G.
      * destruct (new_all (u_n v) W' P') as (h2 & a & l & E1 & E2 & Hl & W2 & P2). rewrite E1, E2.
        eexists _, _, L'. split; [reflexivity|]. split; [|split; [reflexivity|]].
        -- split; [reflexivity|]. split; [exact W2|]. right. exists a, l. split; [|exact P2]. split; [reflexivity|]. cbn. split; [lia|].
           split; [unfold cells; now rewrite map_length|auto].
        -- intros (T1 & T2 & T3) Hf. split; [now apply HL|]. split; [|discriminate]. intros _. cbn. destruct br; [|reflexivity].
           exfalso. specialize (Hf eq_refl). destruct (Z.ltb_spec z 0); [lia|]. destruct (u_busy v) eqn:Eb; [discriminate|].
           destruct (T3 eq_refl eq_refl). contradiction.
      * eexists _, _, L'. split; [reflexivity|]. split; [|split; [reflexivity|]].
        -- split; [cbn; congruence|]. split; [exact W'|]. left. cbn. rewrite Ea. auto.
        -- intros (T1 & T2 & T3) _. split; [now apply HL|]. split; discriminate.
  - (* free *)
    unfold free_. destruct (clean_out_ok I) as [(V & E)|(V & s' & L' & E & En & Ee & Ea & W' & P' & HL & _)]; rewrite E; cbn [obind].
    + rewrite V. exists s, RUnit, L. split; [reflexivity|]. split; [exact I|]. split; [reflexivity|tauto].
    + eexists _, _, L'. split; [reflexivity|]. destruct I as (Hn & W & H).
      assert (Ev : match u_view v with Nothing => v | _ => Seen (u_n v) Nothing false end = Seen (u_n v) Nothing false) by (destruct (u_view v); [contradiction|reflexivity|reflexivity]).
      rewrite Ev. split; [|split; [reflexivity|]].
      * split; [cbn; congruence|]. split; [exact W'|]. left. cbn. rewrite Ea. auto.
      * intros (T1 & T2 & T3) _. split; [now apply HL|]. split; [discriminate|]. cbn. auto.
  - (* pointers *)
    unfold pointers_. destruct (clean_out_ok I) as [(V & E)|(V & s' & L' & E & En & Ee & Ea & W' & P' & HL & _)]; rewrite E; cbn [obind].
    + destruct I as (Hn & W & H). destruct H as [(_ & Hp & Hal & P)|(a & l & (_ & _ & _ & H) & _)]; [|rewrite V in H; destruct H].
      destruct (Z.ltb_spec 0 z) as [Hz|Hz].
      * destruct (new_all 0 W P) as (h2 & a & l & E1 & E2 & Hl & W2 & P2). destruct l; [|discriminate]. cbn in E2. injection E2 as <-.
        rewrite E1. eexists _, _, L. split; [reflexivity|]. split; [|split; [reflexivity|]].
        -- split; [exact Hn|]. split; [exact W2|]. right. exists a, []. split; [|exact P2]. split; [reflexivity|]. cbn. split; [lia|].
           rewrite repeat_length, Hn. auto.
        -- intros (T1 & T2 & T3) _. split; [exact T1|]. split; discriminate.
      * eexists _, _, L. split; [reflexivity|]. split; [|split; [reflexivity|]].
        -- split; [exact Hn|]. split; [exact W|]. left. cbn. auto.
        -- intros (T1 & T2 & T3) _. split; [exact T1|]. split; discriminate.
    + destruct I as (Hn & W & H). cbn [with_flags x_n x_heap x_ext x_alloc x_size].
      destruct (Z.ltb_spec 0 z) as [Hz|Hz].
      * destruct (new_all 0 W' P') as (h2 & a & l & E1 & E2 & Hl & W2 & P2). destruct l; [|discriminate]. cbn in E2. injection E2 as <-.
        rewrite E1. eexists _, _, L'. split; [reflexivity|]. split; [|split; [reflexivity|]].
        -- split; [cbn; congruence|]. split; [exact W2|]. right. exists a, []. split; [|exact P2]. split; [reflexivity|]. cbn. split; [lia|].
           rewrite repeat_length, En, Hn. auto.
        -- intros (T1 & T2 & T3) _. split; [now apply HL|]. split; discriminate.
      * eexists _, _, L'. split; [reflexivity|]. split; [|split; [reflexivity|]].
        -- split; [cbn; congruence|]. split; [exact W'|]. left. cbn. auto.
        -- intros (T1 & T2 & T3) _. split; [now apply HL|]. split; discriminate.
  - (* set *)
    unfold set_. destruct (in_range v i) eqn:R.
    + cbn [negb orb] in A. destruct (u_view v) as [| |c] eqn:V; try discriminate.
      destruct I as (Hn & W & [(V' & _)|(a & l & H & P)]); [rewrite V in V'; discriminate|].
      destruct H as (Ep & Es & Hl & H). rewrite V in H. destruct H as (Hal & Harr & ->). rewrite Ep, Hn.
      unfold in_range in R. rewrite R.
      assert (Ha : In a (h_live (x_heap s))) by (eapply Permutation_in; [apply Permutation_sym; exact P|now left]).
      rewrite (is_live_in _ _ Ha). cbn [andb]. replace (Z.to_nat i <? length (x_arr s)) with true by (symmetry; apply Nat.ltb_lt; lia).
      eexists _, _, L. split; [reflexivity|]. split; [|split; [reflexivity|]].
      * split; [reflexivity|]. split; [exact W|]. right. exists a, []. split; [|exact P]. split; [reflexivity|]. split; [exact Es|].
        split; [cbn; rewrite upd_length; exact Hl|]. cbn. rewrite Harr. auto.
      * intros (T1 & T2 & T3) _. split; [exact T1|]. split; [discriminate|]. cbn. intros Eb Eu. destruct (T3 Eb Eu) as [_ X]. rewrite V in X. discriminate X.
    + assert (Ev : match u_view v with Borrowed _ => v | _ => v end = v) by (now destruct (u_view v)). rewrite Ev.
      exists s, RThrow, L. split; [|split; [exact I|split; [reflexivity|tauto]]].
      destruct (x_ptr s); [|reflexivity]. destruct I as (Hn & _). unfold in_range in R. rewrite Hn, R. reflexivity.
  - (* get *)
    unfold get_. destruct I as (Hn & W & H). rewrite Hn. destruct (((i <? 0) || (Z.of_nat (u_n v) <? i))%Z) eqn:R.
    + assert (Ri : in_range v i = false) by (unfold in_range; lia). rewrite Ri. exists s, RThrow, L.
      split; [reflexivity|]. split; [split; [exact Hn|split; [exact W|exact H]]|]. split; [reflexivity|tauto].
    + cbn [orb] in A. apply andb_true_iff in A as [Ri A]. rewrite Ri.
      destruct H as [(V & _)|(a & l & H & P)]; [rewrite V in A; discriminate|].
      pose proof H as (Ep & Es & Hl & H').
      assert (Ha : In a (h_live (x_heap s))) by (eapply Permutation_in; [apply Permutation_sym; exact P|now left]).
      destruct (u_view v) as [| |c] eqn:V; try discriminate.
      * destruct H' as (Hal & Harr). assert (Hi : Z.to_nat i < length l).
        { rewrite Harr in Hl. unfold cells in Hl. rewrite map_length in Hl. unfold in_range in Ri. lia. }
        rewrite (@read_cells s a l _ Ep Ha Harr Hi). cbn [obind].
        eexists _, _, L. split; [reflexivity|]. split; [split; [exact Hn|split; [exact W|right; exists a, l; split; [exact H|exact P]]]|]. split; [eauto|tauto].
      * destruct H' as (Hal & Harr & ->). unfold read_at. rewrite Ep, (is_live_in _ _ Ha), Harr.
        destruct (nth_error c (Z.to_nat i)) as [[q|]|] eqn:En; try discriminate. cbn [obind].
        eexists _, _, L. split; [reflexivity|]. split; [split; [exact Hn|split; [exact W|right; exists a, []; split; [exact H|exact P]]]|].
        split; [exists q; auto|tauto].
  - (* clear *)
    unfold clear_. destruct (clean_out_ok I) as [(V & E)|(V & s' & L' & E & En & Ee & Ea & W' & P' & HL & _)]; rewrite E; cbn [obind].
    + destruct I as (Hn & W & H). destruct H as [(_ & Hp & Hal & P)|(a & l & (_ & _ & _ & H) & _)]; [|rewrite V in H; destruct H].
      eexists _, _, L. split; [reflexivity|]. split; [|split; [reflexivity|]].
      * split; [reflexivity|]. split; [exact W|]. left. cbn. auto.
      * intros (T1 & T2 & T3) _. split; [exact T1|]. split; [discriminate|]. cbn. auto.
    + eexists _, _, L'. split; [reflexivity|]. split; [|split; [reflexivity|]].
      * split; [reflexivity|]. split; [exact W'|]. left. cbn. auto.
      * intros (T1 & T2 & T3) _. split; [now apply HL|]. split; [discriminate|]. cbn. auto.
Qed.

Lemma inv_new : Inv new_net fresh [].
Proof. split; [reflexivity|]. split; [split; [constructor|intros b []]|]. left. cbn. auto. Qed.
Lemma tight_new br : tight br new_net fresh [].
Proof. split; [reflexivity|]. split; [discriminate|]. cbn. auto. Qed.

Lemma history_ok br cs : forall s v L, Inv s v L -> meant v cs = true ->
  exists s' rs L', history br s cs = Ok (s', rs) /\ Inv s' (fold_left after cs v) L' /\ all_return v cs rs /\
    (tight br s v L -> (br = true -> freed_first v cs = true) -> tight br s' (fold_left after cs v) L').
Proof.
  induction cs as [|c cs IH]; intros s v L I M; cbn [history fold_left meant freed_first] in *.
  - exists s, [], L. split; [reflexivity|]. split; [exact I|]. split; [exact Logic.I|tauto].
  - apply andb_true_iff in M as [A M]. destruct (@step_ok br s v L c I A) as (s1 & r & L1 & E & I1 & R & T). rewrite E. cbn [obind fst snd].
    destruct (IH s1 (after v c) L1 I1 M) as (s' & rs & L' & E' & I' & R' & T'). rewrite E'. cbn [obind fst snd].
    exists s', (r :: rs), L'. split; [reflexivity|]. split; [exact I'|]. split; [cbn; auto|].
    intros Ht Hf. apply T'.
    + apply T; [exact Ht|]. intros Eb. specialize (Hf Eb). now apply andb_true_iff in Hf.
    + intros Eb. specialize (Hf Eb). now apply andb_true_iff in Hf.
Qed.

Lemma inv_usable s v L : Inv s v L -> usable v s.
Proof.
  intros (Hn & W & [(V & _)|(a & l & H & P)]); unfold usable; [now rewrite V|].
  destruct H as (Ep & Es & Hl & H).
  assert (Ha : In a (h_live (x_heap s))) by (eapply Permutation_in; [apply Permutation_sym; exact P|now left]).
  destruct (u_view v) as [| |c] eqn:V; [exact Logic.I| |].
  - destruct H as (Hal & Harr). assert (Ll : length l = u_n v) by (rewrite Harr in Hl; unfold cells in Hl; now rewrite map_length in Hl).
    exists l. split; [exact Ll|]. destruct W as [N _].
    assert (N2 : NoDup ((a :: l) ++ L)) by (eapply Permutation_NoDup; [exact P|exact N]). split.
    { cbn in N2. inversion_clear N2 as [|? ? _ N3]. clear - N3. induction l as [|x l IH]; [constructor|]. cbn in N3. inversion_clear N3 as [|? ? H1 H2].
      constructor; [|now apply IH]. intros H. apply H1. apply in_or_app. now left. }
    split.
    { intros b Hb. eapply Permutation_in; [apply Permutation_sym; exact P|]. cbn. right. apply in_or_app. now left. }
    intros i Hi. unfold get_. rewrite Hn. replace ((Z.of_nat i <? 0) || (Z.of_nat (u_n v) <? Z.of_nat i))%Z with false by lia.
    rewrite Nat2Z.id, (@read_cells s a l i Ep Ha Harr) by lia. reflexivity.
  - destruct H as (Hal & Harr & ->). intros i p Hi. assert (i < length c) by (apply nth_error_Some; congruence).
    unfold get_. rewrite Hn. replace ((Z.of_nat i <? 0) || (Z.of_nat (u_n v) <? Z.of_nat i))%Z with false by (rewrite Harr in Hl; lia).
    unfold read_at. rewrite Nat2Z.id, Ep, (is_live_in _ _ Ha), Harr, Hi. reflexivity.
Qed.

Lemma destroy_ok s v L : Inv s v L -> exists h, destroy_ s = Ok h /\ (L = [] -> (u_view v = Owned -> x_ext s = false) -> h_live h = []).
Proof.
  intros I. unfold destroy_. destruct (clean_out_ok I) as [(V & E)|(V & s' & L' & E & En & Ee & Ea & W' & P' & HL & _)]; rewrite E; cbn [obind].
  - eexists. split; [reflexivity|]. intros -> _. destruct I as (_ & _ & [(_ & _ & _ & P)|(a & l & (_ & _ & _ & H) & _)]); [|rewrite V in H; destruct H].
    now apply Permutation_sym, Permutation_nil in P.
  - eexists. split; [reflexivity|]. intros H1 H2. rewrite (HL H1 H2) in P'. now apply Permutation_sym, Permutation_nil in P'.
Qed.

Theorem buffers_ok br cs : meant fresh cs = true ->
  exists s rs, history br new_net cs = Ok (s, rs) /\ all_return fresh cs rs /\ usable (seen_after cs) s /\
    exists h, destroy_ s = Ok h /\ ((br = true -> freed_first fresh cs = true) -> h_live h = []).
Proof.
  intros M. destruct (@history_ok br cs _ _ _ inv_new M) as (s & rs & L & E & I & R & T). exists s, rs. split; [exact E|]. split; [exact R|].
  split; [eapply inv_usable; exact I|]. destruct (destroy_ok I) as (h & Eh & Hh). exists h. split; [exact Eh|].
  intros Hf. destruct (T (tight_new br) Hf) as (T1 & T2 & _). now apply Hh.
Qed.

(** Branches: allocating over buffers allocated before *)
Lemma realloc_leaks s v L z : Inv s v L -> u_view v = Owned -> 0 < u_n v -> (0 < z)%Z ->
  exists s' L', do_ true s (CAlloc z) = Ok (s', RUnit) /\ Inv s' v L' /\ x_ext s' = true /\
    length L' = (if x_ext s then u_n v else 0) + length L.
Proof.
  intros I V Hn0 Hz. cbn [do_]. unfold alloc_. destruct (Z.ltb_spec z 0); [lia|].
  destruct (clean_out_ok I) as [(V' & _)|(V' & s' & L' & E & En & Ee & Ea & W' & P' & _ & HL)]; [congruence|]. rewrite E. cbn [obind].
  destruct I as (Hn & W & _). cbn [with_flags x_n x_heap x_ext]. rewrite En, Hn.
  destruct (Z.ltb_spec 0 z); [|lia]. destruct (Nat.ltb_spec 0 (u_n v)); [|lia]. cbn [andb].
  destruct (new_all (u_n v) W' P') as (h2 & a & l & E1 & E2 & Hl & W2 & P2). rewrite E1, E2.
  eexists _, L'. split; [reflexivity|]. split; [|split; [reflexivity|now apply HL]].
  split; [reflexivity|]. split; [exact W2|]. right. exists a, l. split; [|exact P2]. split; [reflexivity|]. cbn. split; [lia|].
  split; [unfold cells; now rewrite map_length|]. rewrite V. auto.
Qed.
Lemma destroy_leaks s v L : Inv s v L -> u_view v = Owned -> exists h, destroy_ s = Ok h /\ length (h_live h) = (if x_ext s then u_n v else 0) + length L.
Proof.
  intros I V. unfold destroy_. destruct (clean_out_ok I) as [(V' & _)|(V' & s' & L' & E & En & Ee & Ea & W' & P' & _ & HL)]; [congruence|]. rewrite E. cbn [obind].
  eexists. split; [reflexivity|]. rewrite (Permutation_length P'). now apply HL.
Qed.

(** Exchange buffers: the calls of a factory, and what goes wrong. *)
From Verif Require Import Prelude GAModel XbModel XbSpec XbProofs.

Lemma fold_same v n : fold_left after (map (fun i => CGet (Z.of_nat i)) n) v = v.
Proof. induction n; cbn; auto. Qed.
Lemma meant_app cs cs' : forall v, meant v (cs ++ cs') = meant v cs && meant (fold_left after cs v) cs'.
Proof. induction cs as [|c cs IH]; intros v; cbn; auto. now rewrite IH, andb_assoc. Qed.
Lemma freed_app cs cs' : forall v, freed_first v (cs ++ cs') = freed_first v cs && freed_first (fold_left after cs v) cs'.
Proof. induction cs as [|c cs IH]; intros v; cbn [freed_first fold_left app]; auto. now rewrite IH, andb_assoc. Qed.
Lemma meant_gets v l : u_view v = Owned -> (forall i, In i l -> i < u_n v) -> meant v (map (fun i => CGet (Z.of_nat i)) l) = true.
Proof.
  intros V. induction l as [|i l IH]; intros H; cbn [map meant after]; auto. rewrite IH by (intros j Hj; apply H; now right).
  rewrite andb_true_r. cbn. rewrite V. assert (i < u_n v) by (apply H; now left). unfold in_range. lia.
Qed.
Lemma upd_app_len {A} (x y : A) l l' : upd (l ++ x :: l') (length l) y = (l ++ y :: l')%list.
Proof. induction l as [|z l IH]; cbn; auto. now rewrite IH. Qed.
Lemma sets_ok ext b n : forall m k l, k + m = n -> length l = k ->
  let v := Seen n (Borrowed (l ++ repeat None m)) b in
  let cs := map (fun i => CSet (Z.of_nat i) (ext i)) (seq k m) in
  meant v cs = true /\ fold_left after cs v = Seen n (Borrowed (l ++ map (fun i => Some (ext i)) (seq k m))) b.
Proof.
  induction m as [|m IH]; intros k l Hk Hl; cbn [seq map repeat]; [cbn; auto|].
  cbn [meant fold_left]. set (v := Seen n (Borrowed (l ++ None :: repeat None m)) b).
  assert (R : in_range v (Z.of_nat k) = true) by (unfold in_range, v; cbn [u_n]; lia).
  assert (E : after v (CSet (Z.of_nat k) (ext k)) = Seen n (Borrowed ((l ++ [Some (ext k)]) ++ repeat None m)) b).
  { cbn [after]. rewrite R. unfold v. cbn [u_view u_n u_busy]. rewrite Nat2Z.id, <- Hl, upd_app_len, <- app_assoc. reflexivity. }
  rewrite E. destruct (IH (S k) (l ++ [Some (ext k)])%list) as [M F]; [lia|rewrite app_length; cbn; lia|].
  cbn zeta in M, F. split.
  - rewrite M, andb_true_r. cbn. unfold v. cbn. apply orb_true_r.
  - rewrite F. rewrite <- app_assoc. reflexivity.
Qed.

(** The calls of setExchange are as meant, whatever was there *)
Lemma set_exchange_meant flag want ext v : (0 <= want)%Z -> meant v (set_exchange flag (u_n v) want ext) = true.
Proof.
  intros Hw. unfold set_exchange. destruct (Nat.ltb_spec 0 (u_n v)) as [Hn|Hn].
  - destruct flag; cbn [meant allowed andb].
    + destruct (Z.ltb_spec 0 want) as [H|H]; [|reflexivity]. apply meant_gets; cbn [after]; destruct (Z.ltb_spec want 0); try lia; cbn [u_view u_n].
      * destruct (Z.ltb_spec 0 want); [|lia]. destruct (Nat.ltb_spec 0 (u_n v)); [reflexivity|lia].
      * intros i Hi. apply in_seq in Hi. lia.
    + destruct (Z.ltb_spec 0 want) as [H|H]; [|reflexivity]. cbn [after]. destruct (Z.ltb_spec 0 want); [|lia].
      apply (@sets_ok ext true (u_n v) (u_n v) 0 []); [lia|reflexivity].
  - cbn [Z.ltb Z.compare]. destruct flag; reflexivity.
Qed.
Lemma set_exchange_view flag want ext v : (0 < want)%Z -> 0 < u_n v ->
  fold_left after (set_exchange flag (u_n v) want ext) v =
  Seen (u_n v) (if flag then Owned else Borrowed (map (fun i => Some (ext i)) (seq 0 (u_n v)))) true.
Proof.
  intros Hw Hn. unfold set_exchange. destruct (Nat.ltb_spec 0 (u_n v)); [|lia]. destruct (Z.ltb_spec 0 want); [|lia].
  destruct flag; cbn [fold_left].
  - rewrite fold_same. cbn [after]. destruct (Z.ltb_spec want 0); [lia|]. destruct (Z.ltb_spec 0 want); [|lia]. destruct (Nat.ltb_spec 0 (u_n v)); [reflexivity|lia].
  - cbn [after]. destruct (Z.ltb_spec 0 want); [|lia]. apply (@sets_ok ext true (u_n v) (u_n v) 0 []); [lia|reflexivity].
Qed.
Lemma adds n : forall v, u_view v = Nothing -> meant v (repeat CAdd n) = true /\ fold_left after (repeat CAdd n) v = Seen (u_n v + n) Nothing (u_busy v).
Proof.
  induction n as [|n IH]; intros v V; cbn.
  - split; [reflexivity|]. rewrite Nat.add_0_r, <- V. now destruct v.
  - rewrite V. destruct (IH (Seen (S (u_n v)) Nothing (u_busy v)) eq_refl) as [M F]. cbn in M, F. rewrite M, F. split; [reflexivity|]. f_equal. lia.
Qed.

Theorem factory_ok n fs ext1 : (forall f w, In (f, w) fs -> (0 <= w)%Z) ->
  meant fresh (repeat CAdd n ++ flat_map (fun fw => set_exchange (fst fw) n (snd fw) ext1) fs) = true.
Proof.
  intros H. destruct (adds n fresh eq_refl) as [M F]. rewrite meant_app, M, F. cbn [andb u_n fresh u_busy]. rewrite Nat.add_0_l.
  assert (G : forall v, u_n v = n -> meant v (flat_map (fun fw => set_exchange (fst fw) n (snd fw) ext1) fs) = true).
  { clear F. induction fs as [|[f w] fs' IH]; intros v Hv; [reflexivity|]. cbn [flat_map fst snd]. rewrite meant_app.
    rewrite <- Hv at 1. rewrite set_exchange_meant by (eapply H; now left). cbn [andb]. apply IH; [intros; eapply H; right; eassumption|].
    assert (N : forall cs v0, (forall c, In c cs -> c <> CAdd /\ c <> CClear) -> u_n (fold_left after cs v0) = u_n v0).
    { induction cs as [|c cs IHc]; intros v0 Hc; [reflexivity|]. cbn [fold_left]. rewrite IHc by (intros; apply Hc; now right).
      destruct (Hc c (or_introl eq_refl)). destruct c; cbn; try reflexivity; try congruence.
      - destruct (size <? 0)%Z; reflexivity.
      - destruct (u_view v0); reflexivity.
      - destruct (u_view v0); try reflexivity. destruct (in_range v0 idx); reflexivity. }
    rewrite N; [exact Hv|]. intros c Hc. unfold set_exchange in Hc.
    destruct f; destruct Hc as [<-|Hc]; try (split; discriminate);
      match type of Hc with In c (if ?b then _ else _) => destruct b end; try (now destruct Hc); apply in_map_iff in Hc as (j & <- & _); split; discriminate. }
  apply G. reflexivity.
Qed.

(** Two allocations for branches: what the first ones of the second leaves *)
Lemma history_app br cs cs' : forall s, history br s (cs ++ cs') =
  obind (history br s cs) (fun x => obind (history br (fst x) cs') (fun y => Ok (fst y, (snd x ++ snd y)%list))).
Proof.
  induction cs as [|c cs IH]; intros s; cbn [history app obind].
  - cbn [fst snd app]. destruct (history br s cs') as [[s' rs]| |]; reflexivity.
  - destruct (do_ br s c) as [[s1 r]| |]; cbn [obind fst snd]; auto. rewrite IH.
    destruct (history br s1 cs) as [[s2 rs]| |]; cbn [obind fst snd]; auto.
    destruct (history br s2 cs') as [[s3 rs3]| |]; reflexivity.
Qed.
Lemma history_adds br n : forall s, exists rs, history br s (repeat CAdd n) = Ok (Xc (x_n s + n) (x_ptr s) (x_arr s) (x_size s) (x_alloc s) (x_ext s) (x_heap s), rs).
Proof.
  induction n as [|n IH]; intros s; cbn [repeat history do_ obind fst snd].
  - rewrite Nat.add_0_r. exists []. now destruct s.
  - destruct (IH (add_ s)) as [rs E]. rewrite E. cbn [obind fst snd add_ x_n x_ptr x_arr x_size x_alloc x_ext x_heap].
    rewrite Nat.add_succ_r. eexists. reflexivity.
Qed.

Lemma reallocs_leak n z : 0 < n -> (0 < z)%Z -> forall k s v L, Inv s v L -> u_view v = Owned -> u_n v = n ->
  exists s' rs h, history true s (repeat (CAlloc z) k) = Ok (s', rs) /\ destroy_ s' = Ok h /\
    length (h_live h) = k * n + (if x_ext s then n else 0) + length L.
Proof.
  intros Hn Hz. induction k as [|k IH]; intros s v L I V E; cbn [repeat history].
  - destruct (destroy_leaks I V) as (h & Eh & Hh). exists s, [], h. rewrite E in Hh. split; [reflexivity|]. split; [exact Eh|]. cbn. lia.
  - destruct (@realloc_leaks s v L z I V ltac:(lia) Hz) as (s1 & L1 & E1 & I1 & X1 & H1). rewrite E1. cbn [obind fst snd].
    destruct (IH s1 v L1 I1 V E) as (s' & rs & h & E' & Eh & Hh). rewrite E'. cbn [obind fst snd].
    eexists s', _, h. split; [reflexivity|]. split; [exact Eh|]. rewrite Hh, X1, H1, E. cbn. lia.
Qed.
Theorem branch_leak n z k : 0 < n -> (0 < z)%Z ->
  exists s rs h, history true new_net (repeat CAdd n ++ repeat (CAlloc z) (S k)) = Ok (s, rs) /\ destroy_ s = Ok h /\ length (h_live h) = k * n.
Proof.
  intros Hn Hz. assert (Mp : meant fresh (repeat CAdd n ++ [CAlloc z]) = true).
  { rewrite meant_app. now destruct (adds n fresh eq_refl) as [-> _]. }
  assert (Fp : freed_first fresh (repeat CAdd n ++ [CAlloc z]) = true).
  { rewrite freed_app. destruct (adds n fresh eq_refl) as [_ ->]. cbn [freed_first u_busy fresh negb]. rewrite orb_true_r. cbn [andb]. rewrite andb_true_r.
    assert (forall v, freed_first v (repeat CAdd n) = true) as G; [|apply G]. clear. induction n; intros v; cbn; auto. }
  destruct (@history_ok true _ _ _ _ inv_new Mp) as (s & rs & L & E & I & _ & T).
  destruct (T (tight_new true) (fun _ => Fp)) as (-> & T2 & _).
  assert (Ev : fold_left after (repeat CAdd n ++ [CAlloc z]) fresh = Seen n Owned true).
  { rewrite fold_left_app. destruct (adds n fresh eq_refl) as [_ ->]. cbn [fold_left after]. destruct (Z.ltb_spec z 0); [lia|].
    destruct (Z.ltb_spec 0 z); [|lia]. cbn. destruct n; [lia|reflexivity]. }
  rewrite Ev in *. destruct (@reallocs_leak n z Hn Hz k s _ _ I eq_refl eq_refl) as (s' & rs' & h & E' & Eh & Hh).
  change (repeat (CAlloc z) (S k)) with ([CAlloc z] ++ repeat (CAlloc z) k)%list. rewrite app_assoc, history_app, E. cbn [obind fst snd]. rewrite E'.
  cbn [obind fst snd]. eexists s', _, h. split; [reflexivity|]. split; [exact Eh|]. rewrite Hh, (T2 eq_refl). cbn. lia.
Qed.

(** There is never an array longer than the number of buses *)
Lemma arr_short br cs0 s0 rs0 : history br new_net cs0 = Ok (s0, rs0) -> x_ptr s0 = None \/ length (x_arr s0) <= x_n s0.
Proof.
  revert s0 rs0. assert (G : forall s1 s0 rs0, (x_ptr s1 = None \/ length (x_arr s1) <= x_n s1) -> history br s1 cs0 = Ok (s0, rs0) -> x_ptr s0 = None \/ length (x_arr s0) <= x_n s0).
    { induction cs0 as [|c cs0 IH]; intros s1 s0 rs0 H E; cbn [history] in E; [injection E as <- <-; exact H|].
      destruct (do_ br s1 c) as [[s2 r]| |] eqn:Ed; cbn [obind fst snd] in E; try discriminate.
      destruct (history br s2 cs0) as [[s3 rs3]| |] eqn:E3; cbn [obind fst snd] in E; try discriminate. injection E as <- <-.
      eapply IH; [|exact E3]. clear IH E3.
      assert (Cl : forall s', clean_out s1 = Ok (Some s') -> x_ptr s' = x_ptr s1 /\ x_arr s' = x_arr s1 /\ x_n s' = x_n s1).
      { unfold clean_out. intros s' X. destruct (x_ptr s1); [|discriminate]. destruct (x_size s1 =? 0)%Z; [discriminate|].
        destruct (if x_alloc s1 && negb (x_ext s1) then delete_all s1 (iota (x_n s1)) (x_heap s1) else Ok (x_heap s1)); cbn in X; try discriminate.
        destruct (delete_ a n); cbn in X; try discriminate. injection X as <-. auto. }
      assert (Nl : forall m h, length (snd (new_n m h)) = m).
      { induction m; intros h; cbn; auto. destruct (new_n m _) as [h2 l] eqn:X. cbn. f_equal. specialize (IHm (Heap (h_next h :: h_live h) (S (h_next h)))). rewrite X in IHm. exact IHm. }
      destruct c; cbn [do_] in Ed.
      - injection Ed as <- <-. cbn. destruct H; [now left|right; lia].
      - unfold alloc_ in Ed. destruct (size <? 0)%Z; [injection Ed as <- <-; exact H|].
        destruct (clean_out s1) as [[s'|]| |] eqn:Ec; cbn [obind] in Ed; try discriminate.
        + destruct (Cl _ eq_refl) as (C1 & C2 & C3). cbn [with_flags x_n x_heap x_ext] in Ed.
          destruct ((0 <? size)%Z && (0 <? x_n s')).
          * destruct (new_ (x_heap s')) as [h a]. destruct (new_n (x_n s') h) as [h2 l] eqn:X. injection Ed as <- <-. right. cbn. pose proof (Nl (x_n s') h) as Y. rewrite X in Y. cbn in Y. lia.
          * injection Ed as <- <-. cbn. now rewrite C1, C2, C3.
        + destruct ((0 <? size)%Z && (0 <? x_n s1)).
          * destruct (new_ (x_heap s1)) as [h a]. destruct (new_n (x_n s1) h) as [h2 l] eqn:X. injection Ed as <- <-. right. cbn. pose proof (Nl (x_n s1) h) as Y. rewrite X in Y. cbn in Y. lia.
          * injection Ed as <- <-. exact H.
      - unfold free_ in Ed. destruct (clean_out s1) as [[s'|]| |] eqn:Ec; cbn [obind] in Ed; try discriminate; injection Ed as <- <-; [|exact H].
        destruct (Cl _ eq_refl) as (C1 & C2 & C3). cbn. now rewrite C1, C2, C3.
      - unfold pointers_ in Ed. destruct (clean_out s1) as [[s'|]| |] eqn:Ec; cbn [obind] in Ed; try discriminate.
        + destruct (Cl _ eq_refl) as (C1 & C2 & C3). destruct (0 <? size)%Z.
          * destruct (new_ _) as [h a]. injection Ed as <- <-. right. cbn. rewrite repeat_length. lia.
          * injection Ed as <- <-. cbn. now rewrite C1, C2, C3.
        + destruct (0 <? size)%Z.
          * destruct (new_ _) as [h a]. injection Ed as <- <-. right. cbn. rewrite repeat_length. lia.
          * injection Ed as <- <-. exact H.
      - unfold set_ in Ed. destruct (x_ptr s1) as [a|] eqn:Ep; [|injection Ed as <- <-; left; exact Ep].
        destruct ((0 <=? idx)%Z && (idx <? Z.of_nat (x_n s1))%Z); [|injection Ed as <- <-; rewrite Ep; exact H].
        destruct (is_live (x_heap s1) a && (Z.to_nat idx <? length (x_arr s1))); [|discriminate]. injection Ed as <- <-. cbn. now rewrite upd_length.
      - unfold get_ in Ed. destruct ((idx <? 0)%Z || (Z.of_nat (x_n s1) <? idx)%Z); [injection Ed as <- <-; exact H|].
        destruct (read_at s1 (Z.to_nat idx)); cbn in Ed; try discriminate. injection Ed as <- <-. exact H.
      - unfold clear_ in Ed. destruct (clean_out s1) as [[s'|]| |] eqn:Ec; cbn [obind] in Ed; try discriminate; injection Ed as <- <-; now left. }
  intros s0 rs0 E. eapply G; [|exact E]. now left.
Qed.

(** Proofs about the event manager. *)
From Verif Require Import Prelude GAProofs EvModel EvSpec.

Section P.
  Variables T D W : Type.
  Variable ev_size : nat -> nat.
  Variable ev_index : W -> nat -> Z.
  Variable ev_dirs : W -> nat -> list D.
  Variable ev_terms : W -> nat -> list bool.
  Variable ev_current : W -> nat -> list T.
  Variable ev_update : nat -> W -> Z -> list T -> W * list T.
  Variable ev_handle : nat -> W -> list bool -> Z -> list T -> W * list T.

  (** The records of the manager, from the list of events. *)
  Fixpoint infos (off : nat) (es : list (nat * Z)) : list info :=
    match es with
    | [] => []
    | (e, i) :: r => Info e off (ev_size e) i :: infos (off + ev_size e) r
    end.
  Notation tot := (total ev_size).
  Lemma infos_app off es e i : infos off (es ++ [(e, i)]) = (infos off es ++ [Info e (off + tot es) (ev_size e) i])%list.
  Proof.
    revert off. induction es as [|[e0 i0] es IH]; intros off; [cbn; now rewrite Nat.add_0_r|].
    cbn [app infos]. rewrite IH. unfold total. cbn [map fst sumn]. now rewrite Nat.add_assoc.
  Qed.
  Lemma infos_nval off es : sumn (map i_nval (infos off es)) = tot es.
  Proof. revert off. induction es as [|[e i] es IH]; intros off; [reflexivity|]. cbn [infos map i_nval sumn]. rewrite IH. reflexivity. Qed.
  Lemma infos_flat {A} (f : nat -> list A) off es : flat_map (fun r => f (i_event r)) (infos off es) = flat_map (fun e => f (fst e)) es.
  Proof. revert off. induction es as [|[e i] es IH]; intros off; [reflexivity|]. cbn [infos flat_map i_event fst]. now rewrite IH. Qed.

  Definition cap_ok (n : nat) (c : option nat) : Prop := c = None \/ c = Some n.
  Definition inv (es : list (nat * Z)) (b : bool) (m : manager) : Prop :=
    m_events m = infos 0 es /\ (m_size m = (-1)%Z \/ m_size m = Z.of_nat (tot es)) /\
    cap_ok (tot es) (m_dirs m) /\ cap_ok (tot es) (m_terms m) /\ cap_ok (tot es) (m_values m) /\ cap_ok (tot es) (m_trigger m) /\
    m_terminated m = b.

  Lemma size_ok es b m : inv es b m -> snd (m_size_ m) = Z.of_nat (tot es) /\ inv es b (fst (m_size_ m)).
  Proof.
    intros (E & S & I). unfold m_size_, size_sum. destruct (Z.leb_spec 0 (m_size m)).
    - cbn. split; [lia|]. split; [exact E|]. split; [exact S|exact I].
    - cbn [fst snd]. rewrite E, infos_nval. split; [reflexivity|]. split; [reflexivity|]. cbn. split; [now right|exact I].
  Qed.
  Lemma add_ok es b m w e : inv es b m -> inv (es ++ [(e, ev_index w e)]) b (m_add ev_size ev_index w m e).
  Proof.
    intros (E & S & I). unfold m_add. split; cbn.
    - rewrite E, infos_app. f_equal. f_equal. f_equal. rewrite <- (rev_involutive es).
      destruct (rev es) as [|[e0 i0] r]; [reflexivity|]. cbn [rev]. rewrite infos_app, rev_unit. cbn [i_evidx i_nval].
      unfold total. rewrite map_app, sumn_app. cbn [map fst sumn]. lia.
    - split; [now left|]. unfold cap_ok. intuition.
  Qed.

  Definition sizes_fit (f : nat -> nat) (es : list (nat * Z)) := forall e i, In (e, i) es -> f e = ev_size e.
  Lemma flat_length {A} (f : nat -> list A) es : (forall e i, In (e, i) es -> length (f e) = ev_size e) ->
    length (flat_map (fun e => f (fst e)) es) = tot es.
  Proof.
    induction es as [|[e i] es IH]; intros H; [reflexivity|]. cbn [flat_map fst]. rewrite app_length, (H e i) by now left.
    rewrite IH by (intros; eapply H; right; eassumption). reflexivity.
  Qed.
  Lemma cap_value es b m : inv es b m -> forall c, cap_ok (tot es) c ->
    let p := match c with Some k => (m, k) | None => let '(m', n) := m_size_ m in (m', Z.to_nat n) end in
    snd p = tot es /\ inv es b (fst p).
  Proof.
    intros I c [->| ->]; cbn; [|split; [reflexivity|exact I]]. pose proof (size_ok I) as [A B]. destruct (m_size_ m) as [m' n]. cbn in *. subst n.
    split; [lia|exact B].
  Qed.

  Lemma directions_ok es b m w : inv es b m -> (forall e i, In (e, i) es -> length (ev_dirs w e) = ev_size e) ->
    exists m', m_directions ev_dirs w m = Ok (m', flat_map (fun e => ev_dirs w (fst e)) es) /\ inv es b m'.
  Proof.
    intros I HS. unfold m_directions. pose proof (size_ok I) as [A B]. destruct (m_size_ m) as [m1 n]. cbn in A, B. subst n.
    destruct B as (E & S & C1 & C2 & C3 & C4 & C5). rewrite E, infos_flat. unfold fits.
    assert (Hc : match m_dirs m1 with Some c => c | None => Z.to_nat (Z.of_nat (tot es)) end = tot es)
      by (destruct C1 as [->| ->]; lia). rewrite Hc, flat_length by assumption.
    rewrite Nat.leb_refl. cbn [obind]. eexists. split; [reflexivity|]. unfold inv, cap_ok. cbn. intuition.
  Qed.
  Lemma flags_ok es b m w : inv es b m -> (forall e i, In (e, i) es -> length (ev_terms w e) = ev_size e) ->
    exists m', m_flags ev_terms w m = Ok (m', flat_map (fun e => ev_terms w (fst e)) es) /\ inv es b m' /\ m_terminated m' = m_terminated m.
  Proof.
    intros I HS. unfold m_flags. pose proof I as I'. destruct I' as (_ & _ & _ & C2 & _ & _ & C5).
    pose proof (cap_value I C2) as [A B]. cbv zeta in A, B.
    destruct (match m_terms m with Some k => (m, k) | None => let '(m', n) := m_size_ m in (m', Z.to_nat n) end) as [m1 cap].
    cbn in A, B. subst cap. destruct B as (E & S & D1 & D2 & D3 & D4 & D5). rewrite E, infos_flat. unfold fits.
    rewrite flat_length by assumption. rewrite Nat.leb_refl. cbn [obind]. eexists. split; [reflexivity|].
    unfold inv, cap_ok. cbn. intuition congruence.
  Qed.

  Lemma from_index_ok (st : list T) i : (0 <= i <= Z.of_nat (length st))%Z -> from_index st i = Ok (skipn (Z.to_nat i) st).
  Proof. intros H. unfold from_index. destruct (Z.ltb_spec i 0); [lia|]. destruct (Z.ltb_spec (Z.of_nat (length st)) i); [lia|]. reflexivity. Qed.
  Lemma put_length (st tail : list T) i : (0 <= i <= Z.of_nat (length st))%Z -> length tail = length (skipn (Z.to_nat i) st) ->
    length (put_from st i tail) = length st.
  Proof. intros H E. unfold put_from. rewrite app_length, E, firstn_length, skipn_length. lia. Qed.

    (** Trigger flags. *)
    Lemma nth_flags n idx k : k < n -> nth_error (flags_of n idx) k = Some (existsb (Z.eqb (Z.of_nat k)) idx).
    Proof.
      intros H. unfold flags_of. erewrite map_nth_error; [reflexivity|]. unfold iota.
      rewrite nth_error_nth' with (d := 0) by (rewrite seq_length; lia). now rewrite seq_nth by lia.
    Qed.
    Lemma flags_length n idx : length (flags_of n idx) = n.
    Proof. unfold flags_of, iota. now rewrite map_length, seq_length. Qed.
    Lemma upd_flags n k idx : k < n -> upd (flags_of n idx) k true = flags_of n (idx ++ [Z.of_nat k]).
    Proof.
      intros Hk. apply nth_error_ext. intros i. destruct (Nat.lt_ge_cases i n) as [Hi|Hi].
      - rewrite nth_flags, existsb_app by assumption. destruct (Nat.eq_dec k i) as [->|N].
        + rewrite nth_error_upd_same by (rewrite flags_length; lia). cbn [existsb]. rewrite Z.eqb_refl. now rewrite orb_true_r.
        + rewrite nth_error_upd_other, nth_flags by assumption. cbn [existsb].
          destruct (Z.eqb_spec (Z.of_nat i) (Z.of_nat k)); [lia|]. now rewrite !orb_false_r.
      - rewrite (proj2 (nth_error_None _ _)), (proj2 (nth_error_None _ _)); [reflexivity| |];
        rewrite ?upd_length, flags_length; lia.
    Qed.
    Lemma set_triggers_ok n : forall idx done, (forall i, In i idx -> (0 <= i < Z.of_nat n)%Z) ->
      set_triggers (flags_of n done) idx = Ok (flags_of n (done ++ idx)).
    Proof.
      induction idx as [|i idx IH]; intros done H; [cbn; now rewrite app_nil_r|]. cbn [set_triggers]. rewrite flags_length.
      pose proof (H i (or_introl eq_refl)). destruct (Z.ltb_spec i 0); [lia|]. destruct (Z.leb_spec (Z.of_nat n) i); [lia|]. cbn [orb].
      rewrite upd_flags by lia. rewrite IH by (intros; apply H; now right). rewrite <- app_assoc, Z2Nat.id by lia. reflexivity.
    Qed.
    Lemma no_flags n : repeat false n = flags_of n [].
    Proof.
      unfold flags_of. cbn [existsb]. unfold iota. generalize 0. induction n as [|n IH]; intros k; [reflexivity|]. cbn. now rewrite <- IH.
    Qed.

    (** Position of the first triggered flag. *)
    Fixpoint first_true (l : list bool) : option nat :=
      match l with [] => None | true :: _ => Some 0 | false :: r => option_map S (first_true r) end.
    Lemma first_true_none l : existsb (fun b => b) l = false -> first_true l = None.
    Proof. induction l as [|[] l IH]; cbn; intros H; try discriminate; auto. now rewrite IH. Qed.
    Lemma first_true_some l : existsb (fun b => b) l = true -> exists k, first_true l = Some k /\ nth_error l k = Some true /\
      forall j, j < k -> nth_error l j = Some false.
    Proof.
      induction l as [|[] l IH]; cbn; intros H; try discriminate.
      - exists 0. repeat split; auto. intros; lia.
      - destruct (IH H) as (k & E & N & F). exists (S k). rewrite E. repeat split; auto. intros [|j] Hj; [reflexivity|]. apply F. lia.
    Qed.
    Lemma first_trigger_ok tr : forall n off, off + n <= length tr ->
      first_trigger tr off n = Ok (option_map (fun k => off + k) (first_true (firstn n (skipn off tr)))).
    Proof.
      induction n as [|n IH]; intros off H; [reflexivity|]. cbn [first_trigger].
      destruct (nth_error tr off) as [b|] eqn:E; [|apply nth_error_None in E; lia].
      replace (skipn off tr) with (b :: skipn (S off) tr).
      2:{ clear - E. revert off E. induction tr as [|x tr IH]; intros [|off] E; cbn in *; try discriminate; [now inversion E|]. now apply IH. }
      cbn [firstn first_true]. destruct b; [cbn; now rewrite Nat.add_0_r|]. rewrite IH by lia.
      destruct (first_true (firstn n (skipn (S off) tr))); cbn; [|reflexivity]. now rewrite Nat.add_succ_r.
    Qed.
    Lemma skipn_plus {A} (l : list A) a b : skipn b (skipn a l) = skipn (a + b) l.
    Proof. revert a. induction l as [|x l IH]; intros [|a]; cbn; auto; now rewrite skipn_nil. Qed.

  Section Keeps.
    Hypothesis keep_h : forall e w fl t st, length (snd (ev_handle e w fl t st)) = length st.
    Hypothesis keep_u : forall e w t st, length (snd (ev_update e w t st)) = length st.

    Lemma values_loop_ok t : forall es off w st acc, indices_ok es st ->
      values_loop ev_current ev_update (infos off es) w t st acc =
      Ok (fst (collect ev_current ev_update es w t st), (acc ++ snd (collect ev_current ev_update es w t st))%list).
    Proof.
      induction es as [|[e i] es IH]; intros off w st acc HI; [cbn; now rewrite app_nil_r|].
      cbn [infos values_loop i_event i_solidx collect]. pose proof (HI e i (or_introl eq_refl)) as Hi.
      rewrite from_index_ok by exact Hi. cbn [obind]. unfold on_tail.
      pose proof (keep_u e w t (skipn (Z.to_nat i) st)) as HK. destruct (ev_update e w t (skipn (Z.to_nat i) st)) as [w' tail'] eqn:E.
      cbn in HK. rewrite IH.
      - change (firstn (Z.to_nat i) st ++ tail')%list with (put_from st i tail').
        destruct (collect ev_current ev_update es w' t (put_from st i tail')) as [w'' l]. cbn [fst snd]. now rewrite app_assoc.
      - intros e' i' I. rewrite put_length by assumption. apply (HI e' i'). now right.
    Qed.
    Lemma collect_length t : forall es w st, (forall w' e i, In (e, i) es -> length (ev_current w' e) = ev_size e) ->
      length (snd (collect ev_current ev_update es w t st)) = tot es.
    Proof.
      induction es as [|[e i] es IH]; intros w st H; [reflexivity|]. cbn [collect].
      destruct (on_tail st i (ev_update e w t)) as [w' st']. specialize (IH w' st').
      destruct (collect ev_current ev_update es w' t st') as [w'' l]. cbn [snd] in *. rewrite app_length, (H w' e i) by now left.
      rewrite IH by (intros; eapply H; right; eassumption). reflexivity.
    Qed.
    Lemma values_ok es b m w t st : inv es b m -> indices_ok es st ->
      (forall w' e i, In (e, i) es -> length (ev_current w' e) = ev_size e) ->
      exists m', m_values_ ev_current ev_update w m t st =
        Ok (fst (collect ev_current ev_update es w t st), m', snd (collect ev_current ev_update es w t st)) /\ inv es b m'.
    Proof.
      intros I HI HS. unfold m_values_. pose proof I as I'. destruct I' as (_ & _ & _ & _ & C3 & _).
      pose proof (cap_value I C3) as [A B]. cbv zeta in A, B.
      destruct (match m_values m with Some k => (m, k) | None => let '(m', n) := m_size_ m in (m', Z.to_nat n) end) as [m1 cap].
      cbn in A, B. subst cap. destruct B as (E & S & D1 & D2 & D3 & D4 & D5). rewrite E, values_loop_ok by assumption. cbn [obind app].
      unfold fits. rewrite collect_length by assumption. rewrite Nat.leb_refl. cbn [obind].
      eexists. split; [reflexivity|]. unfold inv, cap_ok. cbn. intuition.
    Qed.

    (** Whether the handled event asks for termination by its first triggered component. *)
    Definition ask1 (w0 : W) (ef : (nat * Z) * list bool) : bool :=
      match first_true (snd ef) with Some k => match nth_error (ev_terms w0 (fst (fst ef))) k with Some true => true | _ => false end | None => false end.
    Lemma handle_loop_ok tr t w0 : forall es off w st done pre, off = length pre -> off + tot es <= length tr -> indices_ok es st ->
      (forall e i, In (e, i) es -> length (ev_terms w0 e) = ev_size e) ->
      let efs := combine es (slices ev_size es (skipn off tr)) in
      handle_loop ev_handle (infos off es) tr (pre ++ flat_map (fun e => ev_terms w0 (fst e)) es) w t st done =
      Ok (dispatch ev_handle efs w t st, existsb (ask1 w0) efs || done).
    Proof.
      induction es as [|[e i] es IH]; intros off w st done pre Hp HL HI HT efs; [reflexivity|].
      subst efs. cbn [infos handle_loop i_evidx i_nval i_event i_solidx slices combine fst flat_map].
      unfold total in HL. cbn [map fst sumn] in HL. rewrite first_trigger_ok by lia. cbn [obind].
      set (fl := firstn (ev_size e) (skipn off tr)). pose proof (HI e i (or_introl eq_refl)) as Hi.
      assert (He : length (ev_terms w0 e) = ev_size e) by (apply (HT e i); now left).
      rewrite skipn_plus. cbn [dispatch existsb]. unfold ask1 at 1. cbn [fst snd].
      replace (pre ++ ev_terms w0 e ++ flat_map (fun e0 => ev_terms w0 (fst e0)) es)%list
        with ((pre ++ ev_terms w0 e) ++ flat_map (fun e0 => ev_terms w0 (fst e0)) es)%list by now rewrite app_assoc.
      destruct (existsb (fun b => b) fl) eqn:EX.
      - destruct (first_true_some _ EX) as (k & E & N & F). rewrite E. cbn [option_map]. rewrite from_index_ok by exact Hi. cbn [obind].
        unfold on_tail. pose proof (keep_h e w fl t (skipn (Z.to_nat i) st)) as HK.
        destruct (ev_handle e w fl t (skipn (Z.to_nat i) st)) as [w' tail'] eqn:EH. cbn in HK.
        assert (Hk : k < ev_size e).
        { assert (k < length fl) by (apply nth_error_Some; congruence). subst fl. rewrite firstn_length in H. lia. }
        rewrite nth_error_app1 by (rewrite app_length; lia). rewrite nth_error_app2 by lia. replace (off + k - length pre) with k by lia.
        destruct (nth_error (ev_terms w0 e) k) as [f|] eqn:EF; [|apply nth_error_None in EF; lia].
        rewrite (IH (off + ev_size e)); [| rewrite app_length; lia | unfold total; lia | | intros; eapply HT; right; eassumption].
        + change (firstn (Z.to_nat i) st ++ tail')%list with (put_from st i tail').
          f_equal. f_equal. destruct f; cbn; [now rewrite orb_true_r|reflexivity].
        + intros e' i' I'. rewrite put_length by assumption. apply (HI e' i'). now right.
      - rewrite (first_true_none _ EX). cbn [option_map orb].
        apply IH; [rewrite app_length; lia|unfold total; lia| |intros; eapply HT; right; eassumption].
        intros e' i' I'. apply (HI e' i'). now right.
    Qed.
    Lemma handle_ok es b m w idx t st : inv es b m -> indices_ok es st ->
      (forall e i, In (e, i) es -> length (ev_terms w e) = ev_size e) -> (forall i, In i idx -> (0 <= i < Z.of_nat (tot es))%Z) ->
      let efs := combine es (slices ev_size es (flags_of (tot es) idx)) in
      exists m', m_handle ev_terms ev_handle w m idx t st =
        Ok (fst (dispatch ev_handle efs w t st), m', snd (dispatch ev_handle efs w t st)) /\
        inv es (existsb (ask1 w) efs || b) m'.
    Proof.
      intros I HI HS HX efs. unfold m_handle. pose proof I as I'. destruct I' as (_ & _ & _ & _ & _ & C4 & _).
      pose proof (cap_value I C4) as [A B]. cbv zeta in A, B.
      destruct (match m_trigger m with Some k => (m, k) | None => let '(m', n) := m_size_ m in (m', Z.to_nat n) end) as [m1 cap].
      cbn in A, B. subst cap. pose proof (size_ok B) as [A2 B2]. destruct (m_size_ m1) as [m2 n]. cbn in A2, B2. subst n.
      rewrite Z.ltb_irrefl. rewrite no_flags, set_triggers_ok by assumption. cbn [obind app].
      destruct (flags_ok w B2 HS) as (m3 & E3 & B3 & _). rewrite E3. cbn [obind].
      destruct B3 as (E & S & D1 & D2 & D3 & D4 & D5). rewrite E.
      pose proof (@handle_loop_ok (flags_of (tot es) idx) t w es 0 w st (m_terminated m3) [] eq_refl) as HH. cbn [app skipn] in HH.
      rewrite HH by (try assumption; rewrite flags_length; lia). clear HH. cbn [obind]. fold efs.
      destruct (dispatch ev_handle efs w t st) as [w' st']. cbn [obind fst snd]. eexists. split; [reflexivity|].
      unfold inv, cap_ok. cbn. rewrite D5. intuition.
    Qed.
  End Keeps.

  Lemma ask1_spec w e i fl : ask1 w ((e, i), fl) = true <->
    exists k, nth_error fl k = Some true /\ (forall j, j < k -> nth_error fl j = Some false) /\ nth_error (ev_terms w e) k = Some true.
  Proof.
    unfold ask1. cbn [fst snd]. split.
    - intros H. destruct (existsb (fun b => b) fl) eqn:EX; [|rewrite (first_true_none _ EX) in H; discriminate].
      destruct (first_true_some _ EX) as (k & E & N & F). rewrite E in H. exists k. repeat split; auto.
      destruct (nth_error (ev_terms w e) k) as [[]|]; congruence.
    - intros (k & N & F & A). destruct (existsb (fun b => b) fl) eqn:EX.
      + destruct (first_true_some _ EX) as (k' & E & N' & F'). rewrite E.
        assert (k = k') as <-; [|now rewrite A].
        destruct (Nat.lt_trichotomy k k') as [L|[L|L]]; [rewrite (F' k L) in N; discriminate|exact L|rewrite (F k' L) in N'; discriminate].
      + apply nth_error_In in N. assert (existsb (fun b => b) fl = true) by (apply existsb_exists; eauto). congruence.
  Qed.
  Lemma ask_any w efs : existsb (ask1 w) efs = true <-> first_asks ev_terms w efs.
  Proof.
    rewrite existsb_exists. unfold first_asks. split.
    - intros ([[e i] fl] & I & H). apply ask1_spec in H. destruct H as (k & H). exists e, i, fl, k. tauto.
    - intros (e & i & fl & k & I & H). exists ((e, i), fl). split; [exact I|]. apply ask1_spec. eauto.
  Qed.

  (** Every reachable manager satisfies the invariant. *)
  Lemma directions_inv es b m w m' l : inv es b m -> m_directions ev_dirs w m = Ok (m', l) -> inv es b m'.
  Proof.
    intros I H. unfold m_directions in H. pose proof (size_ok I) as [A B]. destruct (m_size_ m) as [m1 n]. cbn in A, B. subst n.
    destruct B as (E & S & C1 & C2 & C3 & C4 & C5).
    assert (Hc : match m_dirs m1 with Some c => c | None => Z.to_nat (Z.of_nat (tot es)) end = tot es)
      by (destruct C1 as [->| ->]; lia). rewrite Hc in H. unfold fits in H.
    match type of H with context [if ?c then _ else _] => destruct c end; [|discriminate]. cbn [obind] in H. inversion H; subst.
    unfold inv, cap_ok. cbn. intuition.
  Qed.
  Lemma flags_inv es b m w m' l : inv es b m -> m_flags ev_terms w m = Ok (m', l) -> inv es b m'.
  Proof.
    intros I H. unfold m_flags in H. pose proof I as I'. destruct I' as (_ & _ & _ & C2 & _ & _ & C5).
    pose proof (cap_value I C2) as [A B]. cbv zeta in A, B.
    destruct (match m_terms m with Some k => (m, k) | None => let '(m', n) := m_size_ m in (m', Z.to_nat n) end) as [m1 cap].
    cbn in A, B. subst cap. destruct B as (E & S & D1 & D2 & D3 & D4 & D5). unfold fits in H.
    match type of H with context [if ?c then _ else _] => destruct c end; [|discriminate]. cbn [obind] in H. inversion H; subst.
    unfold inv, cap_ok. cbn. intuition.
  Qed.
  Lemma values_inv es b m w t st w' m' l : inv es b m -> m_values_ ev_current ev_update w m t st = Ok (w', m', l) -> inv es b m'.
  Proof.
    intros I H. unfold m_values_ in H. pose proof I as I'. destruct I' as (_ & _ & _ & _ & C3 & _).
    pose proof (cap_value I C3) as [A B]. cbv zeta in A, B.
    destruct (match m_values m with Some k => (m, k) | None => let '(m', n) := m_size_ m in (m', Z.to_nat n) end) as [m1 cap].
    cbn in A, B. subst cap. destruct B as (E & S & D1 & D2 & D3 & D4 & D5).
    destruct (values_loop _ _ _ _ _ _ _) as [[w1 l1]| |]; try discriminate. cbn [obind] in H. unfold fits in H.
    match type of H with context [if ?c then _ else _] => destruct c end; [|discriminate]. cbn [obind] in H. inversion H; subst.
    unfold inv, cap_ok. cbn. intuition.
  Qed.
  Lemma handle_inv es b m w idx t st w' m' st' : inv es b m -> m_handle ev_terms ev_handle w m idx t st = Ok (w', m', st') ->
    inv es (m_terminated m') m'.
  Proof.
    intros I H. unfold m_handle in H. pose proof I as I'. destruct I' as (_ & _ & _ & _ & _ & C4 & _).
    pose proof (cap_value I C4) as [A B]. cbv zeta in A, B.
    destruct (match m_trigger m with Some k => (m, k) | None => let '(m', n) := m_size_ m in (m', Z.to_nat n) end) as [m1 cap].
    cbn in A, B. subst cap. pose proof (size_ok B) as [A2 B2]. destruct (m_size_ m1) as [m2 n]. cbn in A2, B2. subst n.
    destruct (Z.of_nat (tot es) <? Z.of_nat (tot es))%Z; [discriminate|].
    destruct (set_triggers _ _) as [tr| |]; try discriminate. cbn [obind] in H.
    destruct (m_flags ev_terms w m2) as [[m3 term]| |] eqn:EF; try discriminate. cbn [obind] in H.
    apply (flags_inv _ B2) in EF. destruct EF as (E & S & D1 & D2 & D3 & D4 & D5).
    destruct (handle_loop _ _ _ _ _ _ _ _) as [[[w1 st1] d1]| |]; try discriminate. cbn [obind] in H. inversion H; subst.
    unfold inv, cap_ok. cbn. intuition.
  Qed.
  Lemma reach_inv es b m : reach ev_size ev_index ev_dirs ev_terms ev_current ev_update ev_handle es b m -> inv es b m.
  Proof.
    induction 1 as [|es b m w e H IH|es b m H IH|es b m w m' l H IH E|es b m w m' l H IH E|es b m w t st w' m' l H IH E
                    |es b m w idx t st w' m' st' H IH E|es b b' m H IH].
    - unfold inv, cap_ok. cbn. repeat split; auto.
    - now apply add_ok.
    - now apply size_ok.
    - eapply directions_inv; eauto.
    - eapply flags_inv; eauto.
    - eapply values_inv; eauto.
    - eapply handle_inv; eauto.
    - destruct IH as (E & S & D1 & D2 & D3 & D4 & D5). unfold inv. cbn. repeat split; auto.
  Qed.
  Lemma reach_terminated es b m : reach ev_size ev_index ev_dirs ev_terms ev_current ev_update ev_handle es b m -> m_is_terminated m = b.
  Proof. intros H. apply reach_inv in H. apply H. Qed.

  (** Independent events: what each delivers is what it holds in the end. *)
  Lemma collect_current t : forall es w st,
    (forall e e' w0 s, e <> e' -> ev_current (fst (ev_update e w0 t s)) e' = ev_current w0 e') -> NoDup (map fst es) ->
    snd (collect ev_current ev_update es w t st) =
    flat_map (fun e => ev_current (fst (collect ev_current ev_update es w t st)) (fst e)) es.
  Proof.
    intros es w st IND. revert w st.
    assert (K : forall es w st e, ~ In e (map fst es) -> ev_current (fst (collect ev_current ev_update es w t st)) e = ev_current w e).
    { induction es0 as [|[e0 i0] es0 IH]; intros w st e N; [reflexivity|]. cbn [collect].
      unfold on_tail. pose proof (IND e0 e w (skipn (Z.to_nat i0) st)) as HI.
      destruct (ev_update e0 w t (skipn (Z.to_nat i0) st)) as [w' tl]. cbn [fst] in HI.
      specialize (IH w' (firstn (Z.to_nat i0) st ++ tl)%list e).
      destruct (collect ev_current ev_update es0 w' t (firstn (Z.to_nat i0) st ++ tl)) as [w'' l]. cbn [fst] in *.
      rewrite IH by (intros X; apply N; now right). apply HI. intros ->. apply N. now left. }
    induction es as [|[e i] es IH]; intros w st ND; [reflexivity|]. cbn [map fst] in ND. apply NoDup_cons_iff in ND. destruct ND as [N ND].
    cbn [collect]. destruct (on_tail st i (ev_update e w t)) as [w' st']. specialize (IH w' st' ND). specialize (K es w' st' e N).
    destruct (collect ev_current ev_update es w' t st') as [w'' l]. cbn [fst snd flat_map] in *. now rewrite K, IH.
  Qed.
  (** With at most one triggered component per event, the first triggered one is any triggered one. *)
  Lemma one_trigger w efs : (forall e i fl k k', In ((e, i), fl) efs -> nth_error fl k = Some true -> nth_error fl k' = Some true -> k = k') ->
    (first_asks ev_terms w efs <-> asks ev_terms w efs).
  Proof.
    intros U. split.
    - intros (e & i & fl & k & I & N & F & A). exists e, i, fl, k. auto.
    - intros (e & i & fl & k & I & N & A). exists e, i, fl, k. repeat split; auto. intros j Hj.
      destruct (nth_error fl j) as [[|]|] eqn:E; [|reflexivity|].
      + specialize (U e i fl j k I E N). lia.
      + apply nth_error_None in E. assert (k < length fl) by (apply nth_error_Some; congruence). lia.
  Qed.
End P.

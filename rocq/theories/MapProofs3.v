From Verif Require Import Prelude GAModel GAProofs ParModel ParProofs ParProofs2 ParProofs3 NetProofs NetProofs2 NetProofs3 IdxProofs IdxProofs2 MapModel MapSpec MapProofs MapProofs2.

Lemma map_add_seq j s : forall n, map (fun k => j + k) (seq n s) = seq (j + n) s.
Proof. induction s; intros n; simpl; auto. rewrite IHs. f_equal. f_equal. lia. Qed.

(** * Bus vector map *)
Section Vec.
  Context {V : Type}.
  Variable v0 : V.
  Notation vbus := (vbus V).

  Definition vals_of (bs : list vbus) : list V := concat (flat_map given bs).

  Lemma contributing_given bs : Forall fills bs ->
    map fst (contributing bs) = map (@length V) (flat_map given bs) /\
    oall (map (fun so : nat * option (list V) => match snd so with
                    | Some vs => if length vs =? fst so then Ok vs else UB
                    | None => UB
                    end) (contributing bs)) = Ok (flat_map given bs).
  Proof.
    unfold contributing. induction 1 as [|b l Hb Hl [IH1 IH2]]; simpl; auto. unfold fills in Hb. unfold given at 1 3. destruct (vb_act b) eqn:Ea; simpl; auto.
    destruct (vb_size b) as [s|] eqn:Es; simpl; auto. destruct (Hb s eq_refl eq_refl) as (vs & Ev & El). rewrite Ev. simpl. split; [congruence|].
    rewrite El, Nat.eqb_refl. rewrite IH2. reflexivity.
  Qed.
  Lemma num_values_eq bs : Forall fills bs -> num_values bs = length (vals_of bs).
  Proof. intros H. unfold num_values, vals_of. destruct (contributing_given H) as [-> _]. now rewrite sumn_length_concat. Qed.

  Lemma offsets_seq : forall sizes j, concat (map (fun os => map (fun k => fst os + k) (iota (snd os))) (combine (bus_offsets j sizes) sizes)) = seq j (sumn sizes).
  Proof.
    induction sizes as [|s r IH]; intros j; simpl; auto. rewrite IH. rewrite seq_app. f_equal. unfold iota. rewrite map_add_seq. f_equal. lia.
  Qed.
  Lemma load_bus_ok (w : list (list vbus)) q : Forall (Forall fills) w -> load_bus w q = Ok (combine (seq (vec_start w q) (length (vals_of (nth q w [])))) (vals_of (nth q w []))).
  Proof.
    intros H. assert (Hq : Forall fills (nth q w [])).
    { destruct (Nat.lt_ge_cases q (length w)); [|rewrite nth_overflow by auto; constructor]. rewrite Forall_forall in H. apply H. now apply nth_In. }
    unfold load_bus. destruct (contributing_given Hq) as [E1 E2]. rewrite E2. cbn [obind]. f_equal. f_equal. rewrite offsets_seq. f_equal. now apply num_values_eq.
  Qed.

  Lemma vec_start_eq (w : list (list vbus)) q : Forall (Forall fills) w -> vec_start w q = length (vector_of (firstn q w)).
  Proof.
    intros H. unfold vec_start, vector_of. revert q. induction H as [|bs w Hb Hw IH]; intros [|q]; simpl; auto. rewrite IH, app_length. f_equal. now apply num_values_eq.
  Qed.
  Lemma total_eq (w : list (list vbus)) : Forall (Forall fills) w -> sumn (map num_values w) = length (vector_of w).
  Proof. intros H. rewrite <- (firstn_all w) at 2. rewrite <- vec_start_eq by auto. unfold vec_start. now rewrite firstn_all. Qed.

  Lemma owner_of_ok counts : forall q p i, p < length counts -> i < nth p counts 0 -> owner_of counts q (sumn (firstn p counts) + i) = q + p.
  Proof.
    induction counts as [|c r IH]; intros q [|p] i Hp Hi; simpl in *; try lia.
    - destruct (Nat.ltb_spec i c); lia.
    - destruct (Nat.ltb_spec (c + sumn (firstn p r) + i) c); [lia|]. replace (c + sumn (firstn p r) + i - c) with (sumn (firstn p r) + i) by lia.
      rewrite IH by lia. lia.
  Qed.

  Lemma add_spec (vadd : V -> V -> V) own total ord : forall x,
    Forall (fun e : nat * (nat * V) => fst (snd e) < total /\ own (fst (snd e)) = fst e) ord -> NoDup (map (fun e => fst (snd e)) ord) ->
    exists x', add_elems vadd own total x ord = Ok x' /\
      (forall e, In e ord -> x' (fst (snd e)) = vadd (x (fst (snd e))) (snd (snd e))) /\
      (forall i, ~ In i (map (fun e => fst (snd e)) ord) -> x' i = x i).
  Proof.
    induction ord as [|(q & i & v) r IH]; intros x HF ND; cbn [add_elems].
    { exists x. repeat split; auto. intros e []. }
    inversion HF as [|? ? [H1 H2] HF']; subst. simpl in *. inversion ND; subst. destruct (Nat.ltb_spec i total); [|lia]. rewrite Nat.eqb_refl.
    destruct (IH (fun k => if k =? i then vadd (x k) v else x k) HF' H4) as (x' & E & A & B). exists x'. split; auto. split.
    - intros e [<-|He]; simpl.
      + rewrite B by auto. now rewrite Nat.eqb_refl.
      + rewrite A by auto. destruct (Nat.eqb_spec (fst (snd e)) i) as [Ei|]; auto. exfalso. apply H3. rewrite <- Ei. apply in_map_iff. now exists e.
    - intros k Hk. rewrite B by tauto. destruct (Nat.eqb_spec k i); subst; tauto.
  Qed.

  Lemma nth_vector (w : list (list vbus)) q i : q < length w -> i < length (vals_of (nth q w [])) -> 
    nth (length (vector_of (firstn q w)) + i) (vector_of w) v0 = nth i (vals_of (nth q w [])) v0.
  Proof.
    revert q. induction w as [|bs w IH]; intros [|q] Hq Hi; simpl in *; try lia.
    - now rewrite app_nth1.
    - rewrite app_length, app_nth2 by lia. replace (_ + _ + i - _) with (length (vector_of (firstn q w)) + i) by lia. apply IH; auto; lia.
  Qed.
  Lemma vector_pos (w : list (list vbus)) i : i < length (vector_of w) -> exists q j, q < length w /\ j < length (vals_of (nth q w [])) /\ i = length (vector_of (firstn q w)) + j.
  Proof.
    revert i. induction w as [|bs w IH]; intros i Hi; simpl in *; [lia|]. rewrite app_length in Hi. destruct (Nat.lt_ge_cases i (length (concat (flat_map given bs)))).
    - exists 0, i. repeat split; simpl; auto; lia.
    - destruct (IH (i - length (concat (flat_map given bs)))) as (q & j & A & B & C); [lia|]. exists (S q), j. simpl. rewrite app_length. repeat split; auto; lia.
  Qed.

  Lemma in_combine_seq (l : list V) s i v : In (i, v) (combine (seq s (length l)) l) <-> s <= i < s + length l /\ v = nth (i - s) l v0.
  Proof.
    revert s. induction l as [|a l IH]; intros s; simpl.
    - split; [tauto|lia].
    - rewrite IH. split.
      + intros [E|[H1 H2]].
        * injection E as -> ->. rewrite Nat.sub_diag. split; [lia|auto].
        * split; [lia|]. replace (i - s) with (S (i - S s)) by lia. auto.
      + intros [H1 H2]. destruct (Nat.eq_dec i s) as [->|]; [left; rewrite Nat.sub_diag in H2; congruence|right]. split; [lia|].
        replace (i - s) with (S (i - S s)) in H2 by lia. auto.
  Qed.
  Lemma map_fst_combine_seq (l : list V) s : map fst (combine (seq s (length l)) l) = seq s (length l).
  Proof. revert s. induction l; intros s; simpl; auto. now rewrite IHl. Qed.

  Definition all_loads (w : list (list vbus)) : list (nat * (nat * V)) :=
    flat_map (fun q => map (pair q) (combine (seq (length (vector_of (firstn q w))) (length (vals_of (nth q w [])))) (vals_of (nth q w [])))) (iota (length w)).
  Lemma loads_seq (w : list (list vbus)) : map (fun e => fst (snd e)) (all_loads w) = seq 0 (length (vector_of w)).
  Proof.
    unfold all_loads. rewrite map_flat_map.
    transitivity (flat_map (fun q => seq (length (vector_of (firstn q w))) (length (vals_of (nth q w [])))) (iota (length w))).
    { apply flat_map_ext. intros q. rewrite map_map. simpl. apply map_fst_combine_seq. }
    assert (G : forall n, n <= length w -> flat_map (fun q => seq (length (vector_of (firstn q w))) (length (vals_of (nth q w [])))) (iota n) = seq 0 (length (vector_of (firstn n w)))).
    { induction n; intros Hn; [reflexivity|]. unfold iota in *. rewrite seq_S, flat_map_app, IHn by lia. cbn [flat_map Nat.add]. rewrite app_nil_r.
      rewrite (@firstn_S_nth_d _ w n [] Hn). 
      assert (E : forall a b : list (list vbus), vector_of (a ++ b)%list = (vector_of a ++ vector_of b)%list) by (intros; unfold vector_of; apply flat_map_app).
      rewrite E, app_length, seq_app. f_equal. simpl. rewrite app_nil_r. reflexivity. }
    rewrite G by auto. now rewrite firstn_all.
  Qed.

  Lemma vector_ok (vadd : V -> V -> V) (Hadd : forall v, vadd v0 v = v) (w : list (list vbus)) ord : Forall (Forall fills) w ->
    (exists loads, oall (map (load_bus w) (iota (length w))) = Ok loads /\
       Permutation ord (flat_map (fun q => map (pair q) (nth q loads [])) (iota (length w)))) ->
    exists x, map_to_vector vadd v0 w ord = Ok x /\ forall i, i < length (vector_of w) -> x i = nth i (vector_of w) v0.
  Proof.
    intros HF (loads & EL & HP).
    assert (HP' : Permutation ord (all_loads w)).
    { etransitivity; [exact HP|]. unfold all_loads. apply concat_perm_pointwise. intros q Hq. apply in_iota in Hq.
      rewrite (oall_map_ok _ (fun q => combine (seq (vec_start w q) (length (vals_of (nth q w [])))) (vals_of (nth q w [])))) in EL by (intros; now apply load_bus_ok).
      injection EL as <-. rewrite nth_map_iota by auto. now rewrite vec_start_eq by auto. }
    clear HP EL. unfold map_to_vector. rewrite total_eq by auto.
    destruct (@add_spec vadd (owner_of (map num_values w) 0) (length (vector_of w)) ord (fun _ => v0)) as (x & E & A & B).
    - apply Forall_forall. intros (q & i & v) He. apply (Permutation_in _ HP') in He. simpl. unfold all_loads in He. apply in_flat_map in He as (q' & Hq & He).
      apply in_iota in Hq. apply in_map_iff in He as (iv & Ei & He). injection Ei as <- ->. apply in_combine_seq in He as [[H1 H2] _].
      split.
      + assert (E : In i (map (fun e => fst (snd e)) (all_loads w))).
        { unfold all_loads. rewrite map_flat_map. apply in_flat_map. exists q'. split; [now apply in_iota|]. rewrite map_map. simpl. rewrite map_fst_combine_seq. apply in_seq. lia. }
        rewrite loads_seq in E. apply in_seq in E. lia.
      + replace i with (sumn (firstn q' (map num_values w)) + (i - length (vector_of (firstn q' w)))).
        * rewrite owner_of_ok; auto; [now rewrite map_length|]. rewrite (@nth_map_in _ _ num_values w q' [] 0) by auto. rewrite num_values_eq; [lia|].
          rewrite Forall_forall in HF. apply HF. now apply nth_In.
        * rewrite firstn_map. fold (vec_start w q'). rewrite vec_start_eq by auto. lia.
    - eapply Permutation_NoDup; [apply Permutation_sym, Permutation_map, HP'|]. rewrite loads_seq. apply seq_NoDup.
    - exists x. split; auto. intros i Hi. destruct (vector_pos _ Hi) as (q & j & Hq & Hj & ->). rewrite nth_vector by auto.
      set (s := length (vector_of (firstn q w))).
      assert (In (q, (s + j, nth j (vals_of (nth q w [])) v0)) ord).
      { apply (Permutation_in _ (Permutation_sym HP')). unfold all_loads. apply in_flat_map. exists q. split; [now apply in_iota|]. apply in_map. apply in_combine_seq.
        split; [unfold s; lia|]. f_equal. unfold s. lia. }
      apply A in H. simpl in H. rewrite H. apply Hadd.
  Qed.

  Lemma split_concat (ls : list (list V)) : split_sizes (map (@length V) ls) (concat ls) = ls.
  Proof.
    induction ls as [|l ls IH]; simpl; auto. rewrite firstn_app, Nat.sub_diag, firstn_all. simpl. rewrite app_nil_r. f_equal.
    rewrite skipn_app, skipn_all, Nat.sub_diag. simpl. auto.
  Qed.
  Lemma bus_ok (w : list (list vbus)) x q : Forall (Forall fills) w -> q < length w -> (forall i, i < length (vector_of w) -> x i = nth i (vector_of w) v0) ->
    map_to_bus w x q = flat_map given (nth q w []).
  Proof.
    intros HF Hq Hx. assert (HFq : Forall fills (nth q w [])) by (rewrite Forall_forall in HF; apply HF; now apply nth_In).
    unfold map_to_bus. destruct (contributing_given HFq) as [-> _]. replace (map x (vec_indices w q)) with (concat (flat_map given (nth q w []))).
    - apply split_concat.
    - unfold vec_indices. rewrite map_map. rewrite num_values_eq, vec_start_eq by auto. fold (vals_of (nth q w [])).
      apply nth_ext with (d := v0) (d' := v0).
      + unfold iota. now rewrite !map_length, !seq_length.
      + intros j Hj. rewrite nth_map_iota by auto. rewrite Hx.
        * symmetry. now apply nth_vector.
        * assert (G : In (length (vector_of (firstn q w)) + j) (map (fun e => fst (snd e)) (all_loads w))).
          { unfold all_loads. rewrite map_flat_map. apply in_flat_map. exists q. split; [now apply in_iota|]. rewrite map_map. simpl. rewrite map_fst_combine_seq. apply in_seq. lia. }
          rewrite loads_seq in G. apply in_seq in G. lia.
  Qed.

  (** getLocalOffset: the first index of every contributing bus relative to the process, -1 for others *)
  Lemma local_offsets_ok (bs : list vbus) : forall cnt k, k < length bs ->
    nth k (local_offsets cnt bs) ((-1)%Z, 0) =
      match vb_act (nth k bs (VBus false None None)), vb_size (nth k bs (VBus false None None)) with
      | true, Some s => (Z.of_nat (cnt + num_values (firstn k bs)), s)
      | _, _ => ((-1)%Z, 0)
      end.
  Proof.
    induction bs as [|b bs IH]; intros cnt k Hk; simpl in Hk; [lia|]. cbn [local_offsets]. destruct k.
    - simpl. destruct (vb_act b), (vb_size b); auto. now rewrite Nat.add_0_r.
    - destruct (vb_act b) eqn:Ea, (vb_size b) as [s|] eqn:Es; simpl; rewrite IH by lia;
        unfold num_values, contributing; simpl; rewrite Ea; simpl; try rewrite Es; simpl; destruct (vb_act (nth k bs (VBus false None None))), (vb_size (nth k bs (VBus false None None))); auto.
      now rewrite Nat.add_assoc.
  Qed.
End Vec.

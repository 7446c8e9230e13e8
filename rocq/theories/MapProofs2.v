From Verif Require Import Prelude GAModel GAProofs ParProofs ParProofs2 NetProofs NetProofs3 IdxProofs IdxProofs2 MapModel MapSpec MapProofs.

Lemma skipn_nth_d {A} (l : list A) q d : q < length l -> skipn q l = nth q l d :: skipn (S q) l.
Proof. revert q; induction l as [|x l IH]; intros [|q] H; simpl in *; try lia; auto. apply IH. lia. Qed.
Lemma firstn_S_nth_d {A} (l : list A) q d : q < length l -> firstn (S q) l = (firstn q l ++ [nth q l d])%list.
Proof. revert q; induction l as [|x l IH]; intros [|q] H; simpl in *; try lia; auto. f_equal. apply IH. lia. Qed.
Lemma firstn_add_split {A} (l : list A) a b : firstn (a + b) l = (firstn a l ++ firstn b (skipn a l))%list.
Proof. revert l; induction a as [|a IH]; intros [|x l]; simpl; auto. - now rewrite firstn_nil. - now rewrite IH. Qed.

Section Full.
  Context {V : Type} (v0 : V).
  Notation mbus := (mbus V). Notation mbr := (mbr V). Notation mproc := (mproc V).
  Variables (w : list mproc) (brs : list mbr) (rs cs : nat -> nat).
  Hypothesis Hnum : numbered w brs.
  Hypothesis Hsz : sizes_agree w brs rs cs.
  Hypothesis Hfit : values_fit w brs rs cs.
  Let N := length (all_active w).
  Let d := MProc [] [] : mproc.
  Let st q := length (flat_map (@active_idx V) (firstn q w)).
  Let P q := nth q w d.

  Lemma total_N : sumn (map (fun p => length (active_idx p)) w) = N.
  Proof. unfold N, all_active. rewrite flat_map_concat_map, <- sumn_length_concat, map_map. reflexivity. Qed.

  Lemma act_seq q : q < length w -> active_idx (P q) = seq (st q) (length (active_idx (P q))).
  Proof.
    intros Hq. destruct Hnum as (H1 & _). unfold all_active, iota in H1.
    apply (@flat_map_seq_part _ (@active_idx V) w 0 _ H1 q d Hq).
  Qed.
  Lemma act_pos q : q < length w -> 0 < length (active_idx (P q)).
  Proof.
    intros Hq. destruct Hnum as (_ & H2 & _). rewrite Forall_forall in H2. specialize (H2 (P q)).
    destruct (active_idx (P q)); [exfalso; apply H2; auto; now apply nth_In|simpl; lia].
  Qed.
  Lemma act_bound q : q < length w -> st q + length (active_idx (P q)) <= N.
  Proof.
    intros Hq. unfold N, all_active, st. rewrite <- (firstn_skipn q w) at 2. rewrite flat_map_app, app_length.
    rewrite (@skipn_nth_d _ w q d Hq). simpl. rewrite app_length. unfold P. lia.
  Qed.

  Lemma range_seq n s k : 0 < k -> s + k <= n ->
    fold_left (fun m i => (Nat.min (fst m) i, Nat.max (snd m) i)) (seq s k) (n, 0) = (s, s + k - 1).
  Proof.
    intros Hk Hn.
    assert (G : forall k s m, 0 < k ->
       fold_left (fun m i => (Nat.min (fst m) i, Nat.max (snd m) i)) (seq s k) m = (Nat.min (fst m) s, Nat.max (snd m) (s + k - 1))).
    { clear. induction k as [|k IH]; intros s m H1; [lia|]. simpl. destruct k as [|k].
      - simpl. f_equal; lia.
      - rewrite IH by lia. simpl. f_equal; lia. }
    rewrite G by auto. simpl. f_equal; lia.
  Qed.

  Lemma range_ok q : q < length w -> row_range N (P q) = (st q, st q + length (active_idx (P q)) - 1).
  Proof. intros Hq. unfold row_range. rewrite (act_seq Hq) at 1. apply range_seq; [now apply act_pos|now apply act_bound]. Qed.

  Lemma in_range_ok q k : q < length w -> in_range (row_range N (P q)) k = owns w q k.
  Proof.
    intros Hq. rewrite (range_ok Hq). unfold in_range, owns. fold d. fold (P q).
    replace (existsb (Nat.eqb k) (active_idx (P q))) with (existsb (Nat.eqb k) (seq (st q) (length (active_idx (P q))))) by (f_equal; symmetry; now apply act_seq).
    simpl fst. simpl snd.
    pose proof (act_pos Hq). generalize dependent (length (active_idx (P q))). intros n Hn.
    destruct (existsb (Nat.eqb k) (seq (st q) n)) eqn:E.
    - apply existsb_exists in E as (x & Hx & E). apply Nat.eqb_eq in E as <-. apply in_seq in Hx.
      apply andb_true_iff. split; apply Nat.leb_le; lia.
    - destruct (Nat.leb_spec (st q) k); destruct (Nat.leb_spec k (st q + n - 1)); simpl; auto.
      assert (existsb (Nat.eqb k) (seq (st q) n) = true) by (apply existsb_exists; exists k; split; [apply in_seq; lia|apply Nat.eqb_refl]).
      congruence.
  Qed.

  (** every bus has one owner *)
  Lemma one_owner k : k < N -> exists q, q < length w /\ owns w q k = true.
  Proof.
    intros Hk. destruct Hnum as (H1 & _). assert (Hi : In k (all_active w)) by (rewrite H1; now apply in_iota).
    unfold all_active in Hi. apply in_flat_map in Hi as (p & Hp & Hk'). apply In_nth with (d := d) in Hp as (q & Hq & E).
    exists q. split; auto. unfold owns. fold d. rewrite E. apply existsb_exists. exists k. split; auto. apply Nat.eqb_refl.
  Qed.
  Lemma st_S q : q < length w -> st (S q) = st q + length (active_idx (P q)).
  Proof.
    intros Hq. unfold st. rewrite (@firstn_S_nth_d _ w q d Hq). rewrite flat_map_app, app_length. simpl. now rewrite app_nil_r.
  Qed.
  Lemma st_le q q' : q <= q' -> st q <= st q'.
  Proof.
    intros H. unfold st. replace q' with (q + (q' - q)) by lia. rewrite firstn_add_split. rewrite flat_map_app, app_length. lia.
  Qed.
  Lemma owner_unique q q' k : q < length w -> q' < length w -> owns w q k = true -> owns w q' k = true -> q = q'.
  Proof.
    intros Hq Hq' H H'. unfold owns in *. fold d in H, H'. fold (P q) in H. fold (P q') in H'. rewrite (act_seq Hq) in H. rewrite (act_seq Hq') in H'.
    apply existsb_exists in H as (x & Hx & E). apply Nat.eqb_eq in E as <-. apply existsb_exists in H' as (x & Hx' & E). apply Nat.eqb_eq in E as <-.
    apply in_seq in Hx, Hx'. destruct (lt_eq_lt_dec q q') as [[L|L]|L]; auto.
    - pose proof (st_le L). rewrite (st_S Hq) in H. lia.
    - pose proof (st_le L). rewrite (st_S Hq') in H. lia.
  Qed.

  (** * Block sizes *)
  Lemma idx_lt q b : In q w -> In b (mp_buses q) -> mb_diag b <> None -> mb_idx b < N.
  Proof. intros Hq Hb Hd. destruct Hsz as (H1 & _). destruct (mb_diag b) as [s|] eqn:E; [|congruence]. now apply (H1 q b s). Qed.
  Lemma br_in q r : In q w -> In r (mp_brs q) -> In r brs.
  Proof.
    intros Hq Hr. apply In_nth with (d := d) in Hq as (i & Hi & E). destruct Hnum as (_ & _ & H3 & _). specialize (H3 i Hi).
    fold d in H3. rewrite E in H3. apply (Permutation_in _ H3) in Hr. apply filter_In in Hr. tauto.
  Qed.
  Lemma br_bound r : In r brs -> mr_i r < N /\ mr_j r < N.
  Proof. destruct Hnum as (_ & _ & _ & H4). rewrite Forall_forall in H4. apply H4. Qed.
  Lemma br_held r : In r brs -> exists q, In q w /\ In r (mp_brs q).
  Proof.
    intros Hr. destruct (br_bound _ Hr) as [Hi _]. destruct (one_owner Hi) as (q & Hq & Ho). exists (P q). split; [now apply nth_In|].
    destruct Hnum as (_ & _ & H3 & _). specialize (H3 q Hq). fold d in H3. fold (P q) in H3. apply Permutation_sym in H3. apply (Permutation_in _ H3).
    apply filter_In. rewrite Ho. auto.
  Qed.

  Lemma in_pos_entry k s x : In x (pos_entry k s) <-> 0 < s /\ x = (k, s).
  Proof.
    unfold pos_entry. destruct (Nat.ltb_spec 0 s); simpl; split; intros H0.
    - destruct H0 as [<-|[]]; auto.
    - destruct H0 as [_ ->]; auto.
    - destruct H0.
    - destruct H0; lia.
  Qed.

  Lemma sizes_of (f : nat -> nat) o1 o2 :
    (forall k s, In (k, s) (o1 ++ o2)%list -> k < N /\ s = f k) ->
    (forall k, k < N -> 0 < f k -> In k (map fst (o1 ++ o2)%list)) ->
    block_sizes N o1 o2 = Ok (map Some (map f (iota N))).
  Proof.
    intros H1 H2. unfold block_sizes.
    destruct (@scatter_agree f o1 (repeat (Some 0) N)) as (g1 & E1 & L1 & V1).
    { intros k s Hi. rewrite repeat_length. apply H1. apply in_app_iff. auto. }
    rewrite E1. cbn [obind]. rewrite repeat_length in *.
    destruct (@scatter_agree f o2 g1) as (g2 & E2 & L2 & V2).
    { intros k s Hi. rewrite L1. apply H1. apply in_app_iff. auto. }
    rewrite E2. f_equal. apply full_of_nth; [congruence|]. intros i Hi. rewrite V2 by congruence.
    destruct (existsb (Nat.eqb i) (map fst o2)) eqn:X2; auto. rewrite V1 by auto.
    destruct (existsb (Nat.eqb i) (map fst o1)) eqn:X1; auto. rewrite repeat_nth by auto.
    destruct (f i) eqn:Ef; auto. exfalso. assert (Hin : In i (map fst (o1 ++ o2)%list)) by (apply H2; auto; lia).
    rewrite map_app in Hin. apply in_app_iff in Hin.
    assert (G : forall l, In i l -> existsb (Nat.eqb i) l = true) by (intros l Hl; apply existsb_exists; exists i; split; auto; apply Nat.eqb_refl).
    destruct Hin as [Hin|Hin]; apply G in Hin; congruence.
  Qed.

  Lemma sizes_I o1 o2 : Permutation o1 (flat_map (@bus_I V) w) -> Permutation o2 (flat_map (@br_I V) w) ->
    block_sizes N o1 o2 = Ok (map Some (map rs (iota N))).
  Proof.
    intros P1 P2. destruct Hsz as (S1 & S2 & S3 & S4 & S5). apply sizes_of.
    - intros k s Hi. apply in_app_iff in Hi as [Hi|Hi].
      + apply (Permutation_in _ P1) in Hi. apply in_flat_map in Hi as (p & Hp & Hi). apply in_flat_map in Hi as (b & Hb & Hi).
        destruct (mb_diag b) as [sz|] eqn:E; [|destruct Hi]. apply in_pos_entry in Hi as [Hs Ei]. injection Ei as -> ->.
        destruct (S1 p b sz Hp Hb E) as (A & B & _). auto.
      + apply (Permutation_in _ P2) in Hi. apply in_flat_map in Hi as (p & Hp & Hi). unfold br_I in Hi. apply in_app_iff in Hi as [Hi|Hi];
        apply in_flat_map in Hi as (b & Hb & Hi); pose proof (br_in _ _ Hp Hb) as Hin; destruct (br_bound _ Hin).
        * destruct (mr_fwd b) as [sz|] eqn:E; [|destruct Hi]. apply in_pos_entry in Hi as [Hs Ei]. injection Ei as -> ->.
          destruct (S2 b sz Hin E); auto.
        * destruct (mr_rev b) as [sz|] eqn:E; [|destruct Hi]. apply in_pos_entry in Hi as [Hs Ei]. injection Ei as -> ->.
          destruct (S3 b sz Hin E); auto.
    - intros k Hk Hp. apply in_map_iff. exists (k, rs k). split; auto. apply in_app_iff. destruct (S4 k Hp) as [(p & b & s & H1 & H2 & H3 & H4)|(r & s & Hr & H)].
      + left. apply (Permutation_in _ (Permutation_sym P1)). apply in_flat_map. exists p. split; auto. apply in_flat_map. exists b. split; auto.
        rewrite H4. apply in_pos_entry. destruct (S1 p b s H1 H2 H4) as (_ & B & _). rewrite H3 in B. split; congruence.
      + right. apply (Permutation_in _ (Permutation_sym P2)). destruct (br_held _ Hr) as (q & Hq & Hrq). apply in_flat_map. exists q. split; auto.
        unfold br_I. apply in_app_iff. destruct H as [[H1 H2]|[H1 H2]]; [left|right]; apply in_flat_map; exists r; split; auto; rewrite H2; apply in_pos_entry.
        * destruct (S2 r s Hr H2). rewrite <- H1 in *. split; congruence.
        * destruct (S3 r s Hr H2). rewrite <- H1 in *. split; congruence.
  Qed.
  Lemma sizes_J o1 o2 : Permutation o1 (flat_map (@bus_J V) w) -> Permutation o2 (flat_map (@br_J V) w) ->
    block_sizes N o1 o2 = Ok (map Some (map cs (iota N))).
  Proof.
    intros P1 P2. destruct Hsz as (S1 & S2 & S3 & S4 & S5). apply sizes_of.
    - intros k s Hi. apply in_app_iff in Hi as [Hi|Hi].
      + apply (Permutation_in _ P1) in Hi. apply in_flat_map in Hi as (p & Hp & Hi). apply in_flat_map in Hi as (b & Hb & Hi).
        destruct (mb_diag b) as [sz|] eqn:E; [|destruct Hi]. apply in_pos_entry in Hi as [Hs Ei]. injection Ei as -> ->.
        destruct (S1 p b sz Hp Hb E) as (A & _ & B). auto.
      + apply (Permutation_in _ P2) in Hi. apply in_flat_map in Hi as (p & Hp & Hi). unfold br_J in Hi. apply in_app_iff in Hi as [Hi|Hi];
        apply in_flat_map in Hi as (b & Hb & Hi); pose proof (br_in _ _ Hp Hb) as Hin; destruct (br_bound _ Hin).
        * destruct (mr_fwd b) as [sz|] eqn:E; [|destruct Hi]. apply in_pos_entry in Hi as [Hs Ei]. injection Ei as -> ->.
          destruct (S2 b sz Hin E); auto.
        * destruct (mr_rev b) as [sz|] eqn:E; [|destruct Hi]. apply in_pos_entry in Hi as [Hs Ei]. injection Ei as -> ->.
          destruct (S3 b sz Hin E); auto.
    - intros k Hk Hp. apply in_map_iff. exists (k, cs k). split; auto. apply in_app_iff. destruct (S5 k Hp) as [(p & b & s & H1 & H2 & H3 & H4)|(r & s & Hr & H)].
      + left. apply (Permutation_in _ (Permutation_sym P1)). apply in_flat_map. exists p. split; auto. apply in_flat_map. exists b. split; auto.
        rewrite H4. apply in_pos_entry. destruct (S1 p b s H1 H2 H4) as (_ & _ & B). rewrite H3 in B. split; congruence.
      + right. apply (Permutation_in _ (Permutation_sym P2)). destruct (br_held _ Hr) as (q & Hq & Hrq). apply in_flat_map. exists q. split; auto.
        unfold br_J. apply in_app_iff. destruct H as [[H1 H2]|[H1 H2]]; [left|right]; apply in_flat_map; exists r; split; auto; rewrite H2; apply in_pos_entry.
        * destruct (S2 r s Hr H2). rewrite <- H1 in *. split; congruence.
        * destruct (S3 r s Hr H2). rewrite <- H1 in *. split; congruence.
  Qed.

  (** * Offsets *)
  Lemma sizes_rank f q : q < length w -> rank_sizes N (map Some (map f (iota N))) (P q) = Ok (map f (active_idx (P q))).
  Proof.
    intros Hq. unfold rank_sizes. rewrite (range_ok Hq). pose proof (act_pos Hq). pose proof (act_bound Hq). simpl fst. simpl snd.
    destruct (Nat.ltb_spec (st q + length (active_idx (P q)) - 1) (st q)); [lia|].
    replace (map f (active_idx (P q))) with (map f (seq (st q) (length (active_idx (P q))))) by (f_equal; symmetry; now apply act_seq).
    replace (S (st q + length (active_idx (P q)) - 1) - st q) with (length (active_idx (P q))) by lia.
    now apply get_map.
  Qed.
  Lemma sizes_all f : oall (map (rank_sizes N (map Some (map f (iota N)))) w) = Ok (map (fun p => map f (active_idx p)) w).
  Proof.
    apply oall_map_ok. intros p Hp. apply In_nth with (d := d) in Hp as (q & Hq & <-). now apply sizes_rank.
  Qed.
  Lemma sum_before f q : q <= length w -> sumn (map sumn (firstn q (map (fun p => map f (active_idx p)) w))) = start f (st q).
  Proof.
    intros Hq. induction q as [|q IH].
    - unfold start, st, iota. simpl. reflexivity.
    - rewrite (@firstn_S_nth_d _ _ q [] (eq_ind_r (fun x => q < x) Hq (map_length _ _))). rewrite map_app, sumn_app, IH by lia.
      rewrite (st_S Hq), start_add. simpl. rewrite Nat.add_0_r. f_equal.
      rewrite (@nth_map_in _ _ (fun p => map f (active_idx p)) w q d [] Hq). fold (P q). now rewrite <- (act_seq Hq).
  Qed.
  Lemma puts_ok f q : q < length w ->
    nth q (offset_puts N w (map (fun p => map f (active_idx p)) w)) (0, []) = (st q, map (start f) (active_idx (P q))).
  Proof.
    intros Hq. unfold offset_puts. rewrite nth_map_iota by auto. fold d. fold (P q). rewrite (range_ok Hq). simpl fst. f_equal.
    rewrite sum_before by lia. rewrite (@nth_map_in _ _ (fun p => map f (active_idx p)) w q d [] Hq). fold (P q). rewrite (act_seq Hq).
    apply offsets_from_spec.
  Qed.
  Lemma offsets_ok f op : Permutation op (iota (length w)) ->
    ga_puts (repeat (Some 0) N) (map (fun q => nth q (offset_puts N w (map (fun p => map f (active_idx p)) w)) (0, [])) op) =
      Ok (map Some (map (start f) (iota N))).
  Proof.
    intros Hop.
    assert (Hin : forall q, In q op <-> q < length w).
    { intros q. rewrite <- in_iota. split; apply Permutation_in; auto using Permutation_sym. }
    replace (map _ op) with (map (fun q => (st q, map (start f) (active_idx (P q)))) op).
    2:{ apply map_ext_in. intros q Hq. symmetry. apply puts_ok. now apply Hin. }
    destruct (@puts_agree (start f) (map (fun q => (st q, map (start f) (active_idx (P q)))) op) (repeat (Some 0) N)) as (g & E & L & VV).
    { intros lo xs Hi. apply in_map_iff in Hi as (q & Eq & Hq). apply Hin in Hq. injection Eq as <- <-. rewrite repeat_length, map_length.
      split; [now apply act_bound|]. now rewrite <- (act_seq Hq). }
    rewrite E. f_equal. rewrite repeat_length in *. apply full_of_nth; auto. intros i Hi. rewrite (VV i Hi).
    replace (existsb _ _) with true; auto. symmetry. destruct (one_owner Hi) as (q & Hq & Ho). apply existsb_exists.
    exists (st q, map (start f) (active_idx (P q))). split; [apply in_map_iff; exists q; split; auto; now apply Hin|]. simpl. rewrite map_length.
    unfold owns in Ho. fold d in Ho. fold (P q) in Ho. rewrite (act_seq Hq) in Ho. apply existsb_exists in Ho as (x & Hx & Ex).
    apply Nat.eqb_eq in Ex as <-. apply in_seq in Hx. apply andb_true_iff. split; [apply Nat.leb_le|apply Nat.ltb_lt]; lia.
  Qed.

  (** * Loading *)
  Let cap := fold_left Nat.max (concat (map (fun p => map rs (active_idx p)) w)) 0 *
             fold_left Nat.max (concat (map (fun p => map cs (active_idx p)) w)) 0.
  Lemma concat_sizes (f : nat -> nat) : concat (map (fun p => map f (active_idx p)) w) = map f (iota N).
  Proof.
    destruct Hnum as (H1 & _). change (iota N) with (iota (length (all_active w))). rewrite <- H1. unfold all_active. rewrite flat_map_concat_map, concat_map, map_map. reflexivity.
  Qed.
  Lemma cap_ok k l : k < N -> l < N -> rs k * cs l <= cap.
  Proof.
    intros Hk Hl. unfold cap. rewrite !concat_sizes. apply Nat.mul_le_mono; apply fold_max_in; left; apply in_map; now apply in_iota.
  Qed.

  Definition good (c : contrib (V:=V)) : Prop :=
    ct_row c < N /\ ct_col c < N /\ ct_size c = (rs (ct_row c), cs (ct_col c)) /\
    (forall vs, ct_vals c = Some vs -> length vs <= rs (ct_row c) * cs (ct_col c)).
  Definition blk (c : contrib (V:=V)) : list ((nat * nat) * list V) :=
    match ct_vals c with Some vs => [((ct_row c, ct_col c), vs)] | None => [] end.

  Lemma load_ok cl : Forall good cl ->
    load_data v0 cap cl (map (start rs) (map (@ct_row V) cl)) (map (start cs) (map (@ct_col V) cl)) = Ok (flat_map (elems_at v0 rs cs) (flat_map blk cl)).
  Proof.
    induction 1 as [|c cl (H1 & H2 & H3 & H4) HF IH]; cbn [load_data map flat_map]; auto.
    pose proof (cap_ok H1 H2) as Hc. rewrite H3. simpl fst. simpl snd.
    destruct (Nat.ltb_spec cap (rs (ct_row c) * cs (ct_col c))); [lia|]. unfold blk at 1. destruct (ct_vals c) as [vs|] eqn:E.
    - specialize (H4 vs eq_refl). destruct (Nat.ltb_spec cap (length vs)); [lia|]. rewrite IH. cbn [obind]. simpl flat_map. reflexivity.
    - rewrite IH. reflexivity.
  Qed.

  Lemma bus_blk p : flat_map blk (bus_contribs p) =
    flat_map (fun b => opt_block (mb_idx b) (mb_idx b) (mb_diag b) (mb_vals b)) (filter (@mb_act V) (mp_buses p)).
  Proof.
    unfold bus_contribs. induction (filter (@mb_act V) (mp_buses p)) as [|b l IH]; simpl; auto. rewrite flat_map_app, IH. f_equal.
    destruct (mb_diag b); simpl; auto. unfold blk. simpl. destruct (mb_vals b); auto.
  Qed.

  Definition fwd_blk (r : mbr) := opt_block (mr_i r) (mr_j r) (mr_fwd r) (mr_fvals r).
  Definition rev_blk (r : mbr) := opt_block (mr_j r) (mr_i r) (mr_rev r) (mr_rvals r).
  Lemma br_blk q : q < length w -> flat_map blk (br_contribs (row_range N (P q)) (P q)) =
    flat_map (fun r => ((if owns w q (mr_i r) then fwd_blk r else []) ++ (if owns w q (mr_j r) then rev_blk r else []))%list) (mp_brs (P q)).
  Proof.
    intros Hq. unfold br_contribs. induction (mp_brs (P q)) as [|r l IH]; simpl; auto. rewrite flat_map_app, IH. f_equal.
    rewrite !(in_range_ok _ Hq). rewrite flat_map_app. f_equal.
    - unfold fwd_blk. destruct (mr_fwd r); simpl; [|now destruct (owns w q (mr_i r))]. destruct (owns w q (mr_i r)); auto. simpl. unfold blk. simpl. now destruct (mr_fvals r).
    - unfold rev_blk. destruct (mr_rev r); simpl; [|now destruct (owns w q (mr_j r))]. destruct (owns w q (mr_j r)); auto. simpl. unfold blk. simpl. now destruct (mr_rvals r).
  Qed.

  Lemma fit_in k l vs : In ((k, l), vs) (blocks w brs) -> length vs <= rs k * cs l.
  Proof. intros H. unfold values_fit in Hfit. rewrite Forall_forall in Hfit. now apply (Hfit _ H). Qed.

  Lemma bus_good p : In p w -> Forall good (bus_contribs p).
  Proof.
    intros Hp. apply Forall_forall. intros c Hc. unfold bus_contribs in Hc. apply in_flat_map in Hc as (b & Hb & Hc). apply filter_In in Hb as [Hb Ha].
    destruct (mb_diag b) as [s|] eqn:E; [|destruct Hc]. destruct Hc as [<-|[]]. destruct Hsz as (S1 & _). destruct (S1 p b s Hp Hb E) as (A & B & C).
    split; [|split; [|split]]; simpl; auto.
    - destruct s; simpl in *; congruence.
    - intros vs Ev. apply fit_in. unfold blocks. apply in_app_iff. left. apply in_flat_map. exists p. split; auto. apply in_flat_map. exists b. split; [now apply filter_In|].
      rewrite E, Ev. now left.
  Qed.
  Lemma br_good q : q < length w -> Forall good (br_contribs (row_range N (P q)) (P q)).
  Proof.
    intros Hq. assert (Hp : In (P q) w) by now apply nth_In. apply Forall_forall. intros c Hc. unfold br_contribs in Hc. apply in_flat_map in Hc as (r & Hr & Hc).
    assert (Hin := br_in _ _ Hp Hr). destruct (br_bound _ Hin) as [Bi Bj]. destruct Hsz as (_ & S2 & S3 & _). apply in_app_iff in Hc as [Hc|Hc].
    - destruct (mr_fwd r) as [s|] eqn:E; [|destruct Hc]. destruct (in_range _ _); [|destruct Hc]. destruct Hc as [<-|[]]. destruct (S2 r s Hin E) as [A B].
      split; [|split; [|split]]; simpl; auto; [destruct s; simpl in *; congruence|]. intros vs Ev. apply fit_in. unfold blocks. apply in_app_iff. right. apply in_flat_map.
      exists r. split; auto. apply in_app_iff. left. unfold opt_block. rewrite E, Ev. now left.
    - destruct (mr_rev r) as [s|] eqn:E; [|destruct Hc]. destruct (in_range _ _); [|destruct Hc]. destruct Hc as [<-|[]]. destruct (S3 r s Hin E) as [A B].
      split; [|split; [|split]]; simpl; auto; [destruct s; simpl in *; congruence|]. intros vs Ev. apply fit_in. unfold blocks. apply in_app_iff. right. apply in_flat_map.
      exists r. split; auto. apply in_app_iff. right. unfold opt_block. rewrite E, Ev. now left.
  Qed.

  Lemma gather_start f ks : Forall (fun k => k < N) ks -> ga_gather (map Some (map (start f) (iota N))) ks = Ok (map (start f) ks).
  Proof.
    intros H. rewrite Forall_forall in H. rewrite ga_gather_full with (d := 0).
    - f_equal. apply map_ext_in. intros k Hk. rewrite (@nth_map_in _ _ (start f) (iota N) k 0 0); [|unfold iota; rewrite seq_length; auto].
      f_equal. unfold iota. rewrite seq_nth; auto.
    - intros k Hk. unfold iota. rewrite map_length, seq_length. auto.
  Qed.

  Definition rank_blocks q := (flat_map blk (bus_contribs (P q)) ++ flat_map blk (br_contribs (row_range N (P q)) (P q)))%list.
  Lemma rank_elems_ok q : q < length w ->
    rank_elems v0 N cap (map Some (map (start rs) (iota N))) (map Some (map (start cs) (iota N))) (P q) =
      Ok (flat_map (elems_at v0 rs cs) (rank_blocks q)).
  Proof.
    intros Hq. assert (Hp : In (P q) w) by now apply nth_In. unfold rank_elems.
    assert (G1 := bus_good _ Hp). assert (G2 := br_good Hq).
    assert (R : forall cl, Forall good cl -> Forall (fun k => k < N) (map (@ct_row V) cl) /\ Forall (fun k => k < N) (map (@ct_col V) cl)).
    { intros cl HF. rewrite Forall_forall in HF. split; apply Forall_forall; intros k Hk; apply in_map_iff in Hk as (c & <- & Hc); apply HF in Hc; destruct Hc as (? & ? & _); auto. }
    destruct (R _ G1) as [R1 R2]. destruct (R _ G2) as [R3 R4].
    rewrite !gather_start by auto. cbn [obind]. rewrite !load_ok by auto. cbn [obind]. unfold rank_blocks. now rewrite flat_map_app.
  Qed.

  (** all blocks of the network, each once *)
  Lemma all_blocks : Permutation (flat_map rank_blocks (iota (length w))) (blocks w brs).
  Proof.
    unfold rank_blocks. rewrite flat_map_app_perm. unfold blocks. apply Permutation_app.
    - rewrite flat_map_concat_map, (flat_map_concat_map _ w). unfold P. rewrite (map_nth_iota (fun p => flat_map blk (bus_contribs p)) w d).
      replace (map (fun p => flat_map blk (bus_contribs p)) w) with
        (map (fun p => flat_map (fun b => opt_block (mb_idx b) (mb_idx b) (mb_diag b) (mb_vals b)) (filter (@mb_act V) (mp_buses p))) w); auto.
      apply map_ext. intros p. symmetry. apply bus_blk.
    - set (term := fun q r => ((if owns w q (mr_i r) then fwd_blk r else []) ++ (if owns w q (mr_j r) then rev_blk r else []))%list).
      transitivity (flat_map (fun q => flat_map (fun r => if owns w q (mr_i r) || owns w q (mr_j r) then term q r else []) brs) (iota (length w))).
      { apply concat_perm_pointwise. intros q Hq. apply in_iota in Hq. rewrite (br_blk Hq). destruct Hnum as (_ & _ & H3 & _). specialize (H3 q Hq).
        fold d in H3. fold (P q) in H3. etransitivity; [apply flat_map_perm, H3|]. rewrite flat_map_filter_if. reflexivity. }
      rewrite flat_map_swap. apply concat_perm_pointwise. intros r Hr. destruct (br_bound _ Hr) as [Bi Bj].
      transitivity (flat_map (fun q => term q r) (iota (length w))).
      { apply concat_perm_pointwise. intros q Hq. unfold term. destruct (owns w q (mr_i r)), (owns w q (mr_j r)); simpl; auto. }
      unfold term. rewrite flat_map_app_perm. 
      assert (G : forall k (ys : list ((nat * nat) * list V)), k < N -> flat_map (fun q => if owns w q k then ys else []) (iota (length w)) = ys).
      { intros k ys Hk. destruct (one_owner Hk) as (q0 & Hq0 & Ho). apply flat_map_one with (x0 := q0).
        - unfold iota. apply seq_NoDup.
        - now apply in_iota.
        - intros q Hq. apply in_iota in Hq. split; [intros E; now apply (@owner_unique q q0 k)|intros ->; auto]. }
      rewrite !G by auto. reflexivity.
  Qed.

  Lemma sum_rows f : sumn (map sumn (map (fun p => map f (active_idx p)) w)) = start f N.
  Proof.
    rewrite <- (firstn_all (map (fun p => map f (active_idx p)) w)). rewrite map_length, sum_before by auto. f_equal.
    unfold st, N, all_active. now rewrite firstn_all.
  Qed.

  Lemma full_map_ok oI1 oI2 oJ1 oJ2 opI opJ :
    Permutation oI1 (flat_map (@bus_I V) w) -> Permutation oI2 (flat_map (@br_I V) w) ->
    Permutation oJ1 (flat_map (@bus_J V) w) -> Permutation oJ2 (flat_map (@br_J V) w) ->
    Permutation opI (iota (length w)) -> Permutation opJ (iota (length w)) ->
    exists m, full_map w oI1 oI2 oJ1 oJ2 opI opJ = Ok m /\
      sumn (fm_rows m) = start rs N /\ sumn (fm_cols m) = start cs N /\
      exists els, map_elems v0 w m = Ok els /\ length els = length w /\
        Permutation (concat els) (flat_map (elems_at v0 rs cs) (blocks w brs)) /\
        forall q e, q < length w -> In e (nth q els []) ->
          sumn (firstn q (fm_rows m)) <= fst (fst e) < sumn (firstn q (fm_rows m)) + nth q (fm_rows m) 0.
  Proof.
    intros A1 A2 A3 A4 A5 A6. unfold full_map. rewrite total_N, (sizes_I A1 A2), (sizes_J A3 A4). cbn [obind].
    rewrite !sizes_all. cbn [obind]. rewrite !offsets_ok by auto. cbn [obind]. eexists. split; [reflexivity|]. simpl fm_rows. simpl fm_cols.
    split; [apply sum_rows|]. split; [apply sum_rows|].
    exists (map (fun q => flat_map (elems_at v0 rs cs) (rank_blocks q)) (iota (length w))). split; [|split; [|split]].
    - unfold map_elems. rewrite total_N. cbn [fm_cap fm_offI fm_offJ]. fold cap. rewrite <- (map_nth_iota (rank_elems v0 N cap (map Some (map (start rs) (iota N))) (map Some (map (start cs) (iota N)))) w d).
      apply oall_map_ok. intros q Hq. apply in_iota in Hq. now apply rank_elems_ok.
    - unfold iota. now rewrite map_length, seq_length.
    - rewrite concat_map_flat. rewrite <- (flat_map_perm (elems_at v0 rs cs) all_blocks). clear. induction (iota (length w)) as [|q l IH]; simpl; auto.
      rewrite flat_map_app. now apply Permutation_app_head.
    - intros q e Hq He. rewrite nth_map_iota in He by auto. apply in_flat_map in He as (x & Hx & He). apply in_elems_at in He as (a & b & Ha & Hb & ->). simpl fst.
      assert (Ho : owns w q (fst (fst x)) = true).
      { unfold rank_blocks in Hx. apply in_app_iff in Hx as [Hx|Hx].
        - rewrite bus_blk in Hx. apply in_flat_map in Hx as (bu & Hbu & Hx). unfold owns. fold d. fold (P q). apply existsb_exists. exists (mb_idx bu).
          split; [unfold active_idx; now apply in_map|]. destruct (mb_diag bu); simpl in Hx; [|destruct Hx]. destruct (mb_vals bu); simpl in Hx; [|destruct Hx].
          destruct Hx as [<-|[]]. apply Nat.eqb_refl.
        - rewrite (br_blk Hq) in Hx. apply in_flat_map in Hx as (r & Hr & Hx). apply in_app_iff in Hx as [Hx|Hx].
          + destruct (owns w q (mr_i r)) eqn:E; [|destruct Hx]. unfold fwd_blk, opt_block in Hx. destruct (mr_fwd r); [|destruct Hx]. destruct (mr_fvals r); [|destruct Hx].
            destruct Hx as [<-|[]]. exact E.
          + destruct (owns w q (mr_j r)) eqn:E; [|destruct Hx]. unfold rev_blk, opt_block in Hx. destruct (mr_rev r); [|destruct Hx]. destruct (mr_rvals r); [|destruct Hx].
            destruct Hx as [<-|[]]. exact E. }
      unfold owns in Ho. fold d in Ho. fold (P q) in Ho. rewrite (act_seq Hq) in Ho. apply existsb_exists in Ho as (k & Hk & Ek). apply Nat.eqb_eq in Ek.
      rewrite Ek in *. clear Ek. apply in_seq in Hk.
      rewrite firstn_map, sum_before by lia. rewrite (@nth_map_in _ _ sumn _ q [] 0) by now rewrite map_length.
      rewrite (@nth_map_in _ _ (fun p => map rs (active_idx p)) w q d [] Hq). fold (P q). rewrite (act_seq Hq).
      rewrite <- start_add. pose proof (@start_le rs (st q) k ltac:(lia)). pose proof (@start_le rs (S k) (st q + length (active_idx (P q))) ltac:(lia)) as H2.
      rewrite start_S in H2. lia.
  Qed.

  Lemma load_matrix_ok f m (a : mat V) els ord : 
    sumn (fm_rows m) = start rs N -> sumn (fm_cols m) = start cs N ->
    Permutation (concat els) (flat_map (elems_at v0 rs cs) (blocks w brs)) -> Permutation ord (concat els) ->
    NoDup (map fst (blocks w brs)) ->
    exists a', load_matrix f m a ord = Ok a' /\
      forall k l x y, k < N -> l < N -> x < rs k -> y < cs l ->
        a' (start rs k + x, start cs l + y) = expected v0 f (a (start rs k + x, start cs l + y)) (blocks w brs) rs k l x y.
  Proof.
    intros Er Ec HP HO ND. unfold load_matrix. rewrite Er, Ec. set (bl := blocks w brs) in *.
    assert (HO' : Permutation ord (flat_map (elems_at v0 rs cs) bl)) by (etransitivity; eauto).
    assert (Hb : forall b, In b bl -> fst (fst b) < N /\ snd (fst b) < N).
    { intros b Hin. unfold bl, blocks in Hin. apply in_app_iff in Hin as [Hin|Hin]; apply in_flat_map in Hin as (p & Hp & Hin).
      - apply in_flat_map in Hin as (u & Hu & Hin). apply filter_In in Hu as [Hu _]. assert (mb_diag u <> None) as Hd by (intros E; rewrite E in Hin; destruct Hin).
        pose proof (idx_lt _ _ Hp Hu Hd). unfold opt_block in Hin. destruct (mb_diag u); [|destruct Hin]. destruct (mb_vals u); [|destruct Hin]. destruct Hin as [<-|[]]. auto.
      - destruct (br_bound _ Hp). apply in_app_iff in Hin as [Hin|Hin]; unfold opt_block in Hin.
        + destruct (mr_fwd p); [|destruct Hin]. destruct (mr_fvals p); [|destruct Hin]. destruct Hin as [<-|[]]; auto.
        + destruct (mr_rev p); [|destruct Hin]. destruct (mr_rvals p); [|destruct Hin]. destruct Hin as [<-|[]]; auto. }
    assert (ND' : NoDup (map fst ord)).
    { eapply Permutation_NoDup; [apply Permutation_sym, Permutation_map, HO'|]. now apply blocks_nodup. }
    destruct (@insert_spec V f (start rs N) (start cs N) ord a) as (a' & E & Ha); auto.
    { apply Forall_forall. intros e He. apply (Permutation_in _ HO') in He. apply in_flat_map in He as (b & Hin & He). apply Hb in Hin as [B1 B2].
      apply in_elems_at in He as (x & y & Hx & Hy & ->). simpl.
      pose proof (start_le rs B1) as L1. pose proof (start_le cs B2) as L2. rewrite start_S in L1, L2. lia. }
    exists a'. split; auto. intros k l x y Hk Hl Hx Hy. rewrite Ha. unfold expected.
    destruct (find (fun z => (fst (fst z) =? k) && (snd (fst z) =? l)) bl) as [b|] eqn:Ef.
    - apply find_some in Ef as [Hin Eb]. apply andb_true_iff in Eb as [Ek El]. apply Nat.eqb_eq in Ek, El. subst k l.
      rewrite (@find_pos_in V ord _ (nth (y * rs (fst (fst b)) + x) (snd b) v0)); auto.
      apply (Permutation_in _ (Permutation_sym HO')). apply in_flat_map. exists b. split; auto. apply in_elems_at. exists x, y. auto.
    - rewrite find_pos_none; auto. intros Hi. apply in_map_iff in Hi as (e & Ee & He). apply (Permutation_in _ HO') in He. apply in_flat_map in He as (b & Hin & He).
      apply in_elems_at in He as (x' & y' & Hx' & Hy' & ->). simpl in Ee. injection Ee as E1 E2. apply start_inj in E1 as [E1 _]; auto. apply start_inj in E2 as [E2 _]; auto.
      eapply find_none in Ef; eauto. rewrite E1, E2, !Nat.eqb_refl in Ef. discriminate.
  Qed.
End Full.

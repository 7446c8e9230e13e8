From Verif Require Import Prelude GAModel GAProofs ParModel ParProofs ParProofs2 ParProofs3 NetModel NetSpec NetProofs NetProofs2 NetProofs3 NetProofs4 IdxModel IdxSpec IdxProofs IdxProofs2 MapModel MapSpec MapProofs MapProofs2 MapProofs3 GenModel GenSpec GenProofs.

(** * All processes *)
Section All.
  Context {B R : Type}.
  Notation bus := (bus B). Notation branch := (branch R). Notation net := (net B R).
  Variables (bsz : B -> nat) (rsz : R -> nat).

  Lemma map_fst_filter_combine {X Y} (P : X -> bool) (a : list X) (b : list Y) : length a = length b ->
    map fst (filter (fun x => P (fst x)) (combine a b)) = filter P a.
  Proof. revert b. induction a as [|x a IH]; intros [|y b] H; simpl in *; try discriminate; auto. destruct (P x); simpl; rewrite IH; auto. Qed.

  Lemma seq_shift_n s o k : seq (o + s) k = map (fun i => s + i) (seq o k).
  Proof. rewrite map_add_seq. f_equal. lia. Qed.

  Lemma gen_start_eq (nets : list net) q : gen_start bsz rsz nets q = sumn (map (elements bsz rsz) (firstn q nets)).
  Proof. reflexivity. Qed.

  Lemma oall_exists {X Y} (f : X -> outcome Y) l (Q : X -> Y -> Prop) : (forall x, In x l -> exists y, f x = Ok y /\ Q x y) ->
    exists ys, oall (map f l) = Ok ys /\ Forall2 Q l ys.
  Proof.
    induction l as [|x l IH]; intros H; simpl.
    - exists []. split; auto.
    - destruct (H x (or_introl eq_refl)) as (y & E & Hq). destruct IH as (ys & E2 & F); [intros; apply H; now right|].
      rewrite E. cbn [obind]. rewrite E2. exists (y :: ys). split; auto.
  Qed.

  Lemma gen_indices_ok (nets : list net) : indexed nets -> branch_indexed nets -> Forall wired nets ->
    exists offs, oall (map (rank_offsets bsz rsz) nets) = Ok offs /\
      forall ordB ordR, Permutation ordB (flat_map (bus_puts bsz rsz nets offs) (iota (length nets))) ->
        Permutation ordR (flat_map (branch_puts bsz rsz nets offs) (iota (length nets))) ->
        exists (fb fr : Z -> nat),
          gen_indices bsz rsz nets ordB ordR = Ok (map (fun n => (map (fun b => fb (b_glob b)) (n_buses n), map (fun r => fr (r_glob r)) (n_branches n))) nets) /\
          forall q, q < length nets ->
            Permutation (ranges bsz rsz fb fr (at_rank nets q)) (seq (sumn (map (elements bsz rsz) (firstn q nets))) (elements bsz rsz (at_rank nets q))).
  Proof.
    intros [IB1 IB2] [IR1 IR2] HW. rewrite Forall_forall in HW.
    destruct (@oall_exists _ _ (rank_offsets bsz rsz) nets (fun n o => length (fst o) = length (n_buses n) /\ length (snd o) = length (n_branches n) /\
      Permutation (flat_map (fun x => seq (snd x) (bsz (b_obj (fst x)))) (filter (fun x => b_active (fst x)) (combine (n_buses n) (fst o))) ++
                   flat_map (fun x => seq (snd x) (rsz (r_obj (fst x)))) (filter (fun x => r_active (fst x)) (combine (n_branches n) (snd o))))%list
                  (seq 0 (gen_size bsz rsz n)))) as (offs & EO & FO).
    { intros n Hn. destruct (@rank_offsets_ok B R bsz rsz n (HW n Hn)) as (bo & ro & E & L1 & L2 & HP). exists (bo, ro). auto. }
    exists offs. split; auto. intros ordB ordR HB HR.
    assert (LO : length offs = length nets) by (clear - FO; induction FO; simpl; congruence).
    assert (FQ : forall q, q < length nets -> let n := nth_net nets q in let o := nth q offs ([], []) in
       length (fst o) = length (n_buses n) /\ length (snd o) = length (n_branches n) /\
      Permutation (flat_map (fun x => seq (snd x) (bsz (b_obj (fst x)))) (filter (fun x => b_active (fst x)) (combine (n_buses n) (fst o))) ++
                   flat_map (fun x => seq (snd x) (rsz (r_obj (fst x)))) (filter (fun x => r_active (fst x)) (combine (n_branches n) (snd o))))%list
                  (seq 0 (gen_size bsz rsz n))).
    { unfold nth_net. clear - FO. induction FO; intros q Hq; simpl in Hq; [lia|]. destruct q; simpl; auto. apply IHFO. lia. }
    set (xsB := flat_map (bus_puts bsz rsz nets offs) (iota (length nets))) in *.
    set (xsR := flat_map (branch_puts bsz rsz nets offs) (iota (length nets))) in *.
    assert (FB : map fst xsB = map (@b_glob B) (active_buses nets)).
    { unfold xsB, active_buses, all_buses. rewrite map_flat_map, filter_flat_map, map_flat_map.
      transitivity (flat_map (fun q => map (@b_glob B) (filter (@b_active B) (n_buses (nth_net nets q)))) (iota (length nets))).
      - apply flat_map_ext_in. intros q Hq. apply in_iota in Hq. destruct (FQ q Hq) as (L1 & _). unfold bus_puts. rewrite map_map. simpl.
        rewrite <- (map_map fst (@b_glob B)). now rewrite map_fst_filter_combine.
      - rewrite !flat_map_concat_map. f_equal. apply (map_nth_iota (fun n => map (@b_glob B) (filter (@b_active B) (n_buses n))) nets empty_net). }
    assert (FR : map fst xsR = map (@r_glob R) (active_branches nets)).
    { unfold xsR, active_branches, all_branches. rewrite map_flat_map, filter_flat_map, map_flat_map.
      transitivity (flat_map (fun q => map (@r_glob R) (filter (@r_active R) (n_branches (nth_net nets q)))) (iota (length nets))).
      - apply flat_map_ext_in. intros q Hq. apply in_iota in Hq. destruct (FQ q Hq) as (_ & L1 & _). unfold branch_puts. rewrite map_map. simpl.
        rewrite <- (map_map fst (@r_glob R)). now rewrite map_fst_filter_combine.
      - rewrite !flat_map_concat_map. f_equal. apply (map_nth_iota (fun n => map (@r_glob R) (filter (@r_active R) (n_branches n))) nets empty_net). }
    assert (TB : sumn (map (fun n => length (filter (@b_active B) (n_buses n))) nets) = length (active_buses nets)).
    { unfold active_buses, all_buses. rewrite filter_flat_map, flat_map_concat_map, <- sumn_length_concat, map_map. reflexivity. }
    assert (TR : sumn (map (fun n => length (filter (@r_active R) (n_branches n))) nets) = length (active_branches nets)).
    { unfold active_branches, all_branches. rewrite filter_flat_map, flat_map_concat_map, <- sumn_length_concat, map_map. reflexivity. }
    destruct (@full_scatter_zero _ 0 xsB ordB (length (active_buses nets))) as (aB & EB & LB & VB); auto; [now rewrite FB|].
    destruct (@full_scatter_zero _ 0 xsR ordR (length (active_branches nets))) as (aR & ER & LR & VR); auto; [now rewrite FR|].
    exists (fun z => nth (Z.to_nat z) aB 0), (fun z => nth (Z.to_nat z) aR 0). split.
    - unfold gen_indices. rewrite EO. cbn [obind]. rewrite TB, EB, TR, ER. cbn [obind]. apply oall_map_Ok. intros n Hn.
      rewrite zgather_full with (d := 0), zgather_full with (d := 0).
      + cbn [obind]. now rewrite !map_map.
      + intros i Hi. apply in_map_iff in Hi as (r & <- & Hr). assert (Hi : In (r_glob r) (map (@r_glob R) (active_branches nets))) by (apply IR2; unfold all_branches; apply in_flat_map; eauto).
        rewrite IR1 in Hi. apply in_map_iff in Hi as (k & <- & Hk). apply in_iota in Hk. lia.
      + intros i Hi. apply in_map_iff in Hi as (r & <- & Hr). assert (Hi : In (b_glob r) (map (@b_glob B) (active_buses nets))) by (apply IB2; unfold all_buses; apply in_flat_map; eauto).
        rewrite IB1 in Hi. apply in_map_iff in Hi as (k & <- & Hk). apply in_iota in Hk. lia.
    - intros q Hq. destruct (FQ q Hq) as (L1 & L2 & HP). change (at_rank nets q) with (nth_net nets q). set (n := nth_net nets q) in *. set (o := nth q offs ([], [])) in *.
      apply Permutation_map with (f := fun i => gen_start bsz rsz nets q + i) in HP. rewrite map_add_seq, Nat.add_0_r in HP.
      unfold ranges. change (elements bsz rsz n) with (gen_size bsz rsz n). rewrite <- gen_start_eq. etransitivity; [|exact HP].
      rewrite map_app, !map_flat_map.
      replace (flat_map (fun b => seq (nth (Z.to_nat (b_glob b)) aB 0) (bsz (b_obj b))) (filter (@b_active B) (n_buses n))) with
        (flat_map (fun x => map (fun i => gen_start bsz rsz nets q + i) (seq (snd x) (bsz (b_obj (fst x))))) (filter (fun x => b_active (fst x)) (combine (n_buses n) (fst o)))).
      2:{ rewrite <- (map_fst_filter_combine (@b_active B) (n_buses n) (fst o)) by auto. rewrite flat_map_concat_map, (flat_map_concat_map _ (map fst _)), map_map. f_equal.
          apply map_ext_in. intros x Hx. rewrite map_add_seq. f_equal.
          assert (In (b_glob (fst x), snd x + gen_start bsz rsz nets q) xsB) as Hin.
          { unfold xsB. apply in_flat_map. exists q. split; [now apply in_iota|]. unfold bus_puts. apply in_map_iff. exists x. auto. }
          apply VB in Hin. apply nth_error_nth with (d := 0) in Hin. rewrite Hin. lia. }
      replace (flat_map (fun b => seq (nth (Z.to_nat (r_glob b)) aR 0) (rsz (r_obj b))) (filter (@r_active R) (n_branches n))) with
        (flat_map (fun x => map (fun i => gen_start bsz rsz nets q + i) (seq (snd x) (rsz (r_obj (fst x))))) (filter (fun x => r_active (fst x)) (combine (n_branches n) (snd o)))).
      2:{ rewrite <- (map_fst_filter_combine (@r_active R) (n_branches n) (snd o)) by auto. rewrite flat_map_concat_map, (flat_map_concat_map _ (map fst _)), map_map. f_equal.
          apply map_ext_in. intros x Hx. rewrite map_add_seq. f_equal.
          assert (In (r_glob (fst x), snd x + gen_start bsz rsz nets q) xsR) as Hin.
          { unfold xsR. apply in_flat_map. exists q. split; [now apply in_iota|]. unfold branch_puts. apply in_map_iff. exists x. auto. }
          apply VR in Hin. apply nth_error_nth with (d := 0) in Hin. rewrite Hin. lia. }
      reflexivity.
  Qed.
End All.

(** * Partitioned networks are wired *)
Section Part.
  Context {B R : Type}.
  Notation bus := (bus B). Notation branch := (branch R). Notation net := (net B R).

  Lemma partitioned_wired (nets : list net) part p n : fresh nets -> holds nets part p n ->
    NoDup (map (@r_glob R) (all_branches nets)) -> Forall (fun r => r_o1 r <> r_o2 r) (all_branches nets) -> wired n.
  Proof.
    intros Hf (H1 & H2 & H3 & H4 & H5 & H6 & H7) NDr HS. split; [|exact H6].
    set (mine := fun o => (owner nets part o =? Z.of_nat p)%Z) in *.
    assert (MA : forall b, In b (n_buses n) -> b_active b = mine (b_orig b)).
    { intros b Hb. destruct (b_active b) eqn:Ea.
      - assert (Hc : In (bus_core b) (map bus_core (filter (@b_active B) (n_buses n)))) by (apply in_map, filter_In; auto).
        rewrite H1 in Hc. apply in_map_iff in Hc as (b0 & E & Hb0). apply filter_In in Hb0 as [_ Hm]. unfold bus_core in E. injection E as Eo _ _ _. now rewrite <- Eo.
      - assert (Hc : In (bus_core b) (map bus_core (filter (fun b => negb (b_active b)) (n_buses n)))) by (apply in_map, filter_In; now rewrite Ea).
        apply H4 in Hc as (b0 & _ & E & Hm & _). unfold bus_core in E. injection E as Eo _ _ _. now rewrite <- Eo. }
    assert (NDc : NoDup (map branch_core (n_branches n))).
    { eapply Permutation_NoDup; [apply Permutation_sym, H2|]. apply NoDup_map_inv with (f := fun c => fst (fst (fst c))). rewrite map_map. simpl.
      clear - NDr. induction (all_branches nets) as [|r l IH]; simpl in *; [constructor|]. inversion NDr; subst.
      destruct (_ || _); simpl; auto. constructor; auto. intros Hi. apply H1. apply in_map_iff in Hi as (x & <- & Hx). apply filter_In in Hx as [Hx _]. apply in_map_iff. eauto. }
    assert (RA : forall r, In r (n_branches n) -> r_active r = mine (low_end nets r)).
    { intros r Hr. destruct (r_active r) eqn:Ea.
      - assert (Hc : In (branch_core r) (map branch_core (filter (@r_active R) (n_branches n)))) by (apply in_map, filter_In; auto).
        rewrite H3 in Hc. apply in_map_iff in Hc as (r0 & E & Hr0). apply filter_In in Hr0 as [_ Hm]. unfold branch_core in E. injection E as _ E1 E2 _.
        rewrite <- Hm. unfold low_end. now rewrite E1, E2.
      - destruct (mine (low_end nets r)) eqn:Em; auto. exfalso.
        assert (Hc : In (branch_core r) (map branch_core (n_branches n))) by now apply in_map.
        rewrite H2 in Hc. apply in_map_iff in Hc as (r0 & E & Hr0). apply filter_In in Hr0 as [Hr0 _].
        assert (Hc : In (branch_core r0) (map branch_core (filter (fun r => mine (low_end nets r)) (all_branches nets)))).
        { apply in_map, filter_In. split; auto. unfold branch_core in E. injection E as _ E1 E2 _. unfold low_end in *. now rewrite E1, E2. }
        apply (Permutation_in _ (Permutation_sym H3)) in Hc. apply in_map_iff in Hc as (r1 & E' & Hr1). apply filter_In in Hr1 as [Hr1 Ha1]. rewrite E in E'.
        pose proof (@nodup_map_inj _ _ branch_core _ r1 r NDc Hr1 Hr E'). subst. congruence. }
    intros r Hr. destruct (H5 r Hr) as (b1 & b2 & Z1 & O1 & _ & Z2 & O2 & _).
    assert (B1 : In b1 (n_buses n)) by (unfold zget in Z1; destruct (_ <? _)%Z; [discriminate|]; eapply nth_error_In; eauto).
    assert (B2 : In b2 (n_buses n)) by (unfold zget in Z2; destruct (_ <? _)%Z; [discriminate|]; eapply nth_error_In; eauto).
    split.
    - intros E. rewrite E in Z1. rewrite Z1 in Z2. injection Z2 as ->.
      assert (Hc : In (branch_core r) (map branch_core (n_branches n))) by now apply in_map. rewrite H2 in Hc. apply in_map_iff in Hc as (r0 & Ec & Hr0).
      apply filter_In in Hr0 as [Hr0 _]. rewrite Forall_forall in HS. apply (HS r0 Hr0). unfold branch_core in Ec. congruence.
    - exists b1, b2. split; auto. split; auto. rewrite (MA b1 B1), (MA b2 B2), (RA r Hr), O1, O2. unfold low_end. destruct (_ <=? _)%Z; split; intros Hx; rewrite ?Hx; auto; try apply orb_true_r.
      + now apply andb_prop in Hx as [-> _].
      + now apply andb_prop in Hx as [_ ->].
  Qed.

  Lemma partitioned_branch_indexed (nets nets' : list net) part : fresh nets -> answer_ok nets part -> length nets' = length nets ->
    (forall p, p < length nets -> holds nets part p (at_rank nets' p)) ->
    Permutation (map (@r_glob R) (all_branches nets)) (map Z.of_nat (iota (length (all_branches nets)))) -> branch_indexed nets'.
  Proof.
    intros Hf Ha L H HG. destruct (@active_once B R nets nets' part Hf Ha L H) as [_ HR].
    assert (HP : Permutation (map (@r_glob R) (active_branches nets')) (map (@r_glob R) (all_branches nets))).
    { apply Permutation_map with (f := fun c => fst (fst (fst c))) in HR. rewrite !map_map in HR. exact HR. }
    split.
    - rewrite HP. apply Permutation_length in HP. rewrite !map_length in HP. now rewrite HP.
    - intros r Hr. rewrite HP. unfold all_branches in Hr. apply in_flat_map in Hr as (n & Hn & Hr). apply In_nth with (d := Net [] [] (-1)%Z [] []) in Hn as (p & Hp & E).
      rewrite L in Hp. destruct (H p Hp) as (_ & H2 & _). unfold at_rank in H2. rewrite E in H2.
      assert (Hc : In (branch_core r) (map branch_core (n_branches n))) by now apply in_map. rewrite H2 in Hc. apply in_map_iff in Hc as (r0 & Ec & Hr0).
      apply filter_In in Hr0 as [Hr0 _]. replace (r_glob r) with (r_glob r0) by (unfold branch_core in Ec; congruence). now apply in_map.
  Qed.
End Part.

(** * Vectors *)
Section Vec.
  Context {V : Type}.
  Lemma set_spec own total ord : forall x : nat -> V,
    Forall (fun e : nat * (nat * V) => fst (snd e) < total /\ own (fst (snd e)) = fst e) ord -> NoDup (map (fun e => fst (snd e)) ord) ->
    exists x', set_elems own total x ord = Ok x' /\
      (forall e, In e ord -> x' (fst (snd e)) = snd (snd e)) /\
      (forall i, ~ In i (map (fun e => fst (snd e)) ord) -> x' i = x i).
  Proof.
    induction ord as [|(q & i & v) r IH]; intros x HF ND; cbn [set_elems].
    { exists x. repeat split; auto. intros e []. }
    inversion HF as [|? ? [H1 H2] HF']; subst. simpl in *. inversion ND; subst. destruct (Nat.ltb_spec i total); [|lia]. rewrite Nat.eqb_refl.
    destruct (IH (fun k => if k =? i then v else x k) HF' H4) as (x' & E & A & B). exists x'. split; auto. split.
    - intros e [<-|He]; simpl.
      + rewrite B by auto. now rewrite Nat.eqb_refl.
      + now apply A.
    - intros k Hk. rewrite B by tauto. destruct (Nat.eqb_spec k i); subst; tauto.
  Qed.

  Variable w : list (gproc V).
  Variable len : nat -> nat.
  Hypothesis Hs : slabbed w len.
  Let P q := nth q w (GProc [] []).
  Let lo q := sumn (map len (iota q)).
  Definition comps (p : gproc V) : list (gcomp V) := filter gc_act (gp_buses p ++ gp_brs p).
  Definition entries (p : gproc V) : list (nat * V) := flat_map (fun c => combine (gc_idx c) (gc_vals c)) (comps p).

  Lemma entries_fst q : q < length w -> map fst (entries (P q)) = flat_map gc_idx (comps (P q)).
  Proof.
    intros Hq. destruct Hs as [_ HL]. unfold entries. rewrite map_flat_map. apply flat_map_ext_in. intros c Hc. apply map_fst_combine'.
    symmetry. apply (HL (P q) c); [now apply nth_In|]. unfold comps in Hc. now apply filter_In in Hc.
  Qed.
  Lemma loads_entries q : q < length w -> gen_loads (lo q) (len q) (P q) = entries (P q).
  Proof.
    intros Hq. unfold gen_loads, load_buses, load_brs, entries, comps. rewrite filter_app, flat_map_app. f_equal. apply filter_all.
    intros e He. destruct Hs as [HP _]. specialize (HP q Hq). fold (P q) in HP. fold (lo q) in HP.
    assert (Hi : In (fst e) (flat_map gc_idx (comps (P q)))).
    { rewrite <- entries_fst by auto. apply in_map. unfold entries, comps. rewrite filter_app, flat_map_app. apply in_app_iff. now right. }
    unfold comps in Hi. rewrite HP in Hi. apply in_seq in Hi. apply andb_true_intro. split; [apply Nat.leb_le|apply Nat.ltb_lt]; lia.
  Qed.

  Lemma lo_S q : lo (S q) = lo q + len q.
  Proof. unfold lo, iota. rewrite seq_S, map_app, sumn_app. simpl. lia. Qed.
  Lemma lo_mono a b : a <= b -> lo a <= lo b.
  Proof. induction 1; auto. rewrite lo_S. lia. Qed.

  Lemma all_entries_seq n : n <= length w -> Permutation (flat_map (fun q => map fst (entries (P q))) (iota n)) (seq 0 (lo n)).
  Proof.
    induction n; intros Hn; [reflexivity|]. unfold iota in *. rewrite seq_S, flat_map_app, lo_S, seq_app. apply Permutation_app; [apply IHn; lia|].
    cbn [flat_map Nat.add]. rewrite app_nil_r. rewrite entries_fst by lia. destruct Hs as [HP _]. specialize (HP n ltac:(lia)). exact HP.
  Qed.

  Lemma gen_vector_ok (v0 : V) own ord : holds_element (length w) len own ->
    Permutation ord (flat_map (fun q => map (pair q) (gen_loads (lo q) (len q) (P q))) (iota (length w))) ->
    exists x, set_elems own (lo (length w)) (fun _ => v0) ord = Ok x /\
      (forall p c, In p w -> In c (comps p) -> map x (gc_idx c) = gc_vals c).
  Proof.
    intros Ho HO.
    assert (HO' : Permutation ord (flat_map (fun q => map (pair q) (entries (P q))) (iota (length w)))).
    { etransitivity; [exact HO|]. apply concat_perm_pointwise. intros q Hq. apply in_iota in Hq. now rewrite loads_entries. }
    destruct (@set_spec own (lo (length w)) ord (fun _ => v0)) as (x & E & A & _).
    - apply Forall_forall. intros (q & i & v) He. apply (Permutation_in _ HO') in He. apply in_flat_map in He as (q' & Hq & He). apply in_iota in Hq.
      apply in_map_iff in He as (iv & Ei & He). injection Ei as <- ->. apply in_map with (f := fst) in He. rewrite entries_fst in He by auto. simpl in *.
      destruct Hs as [HP _]. specialize (HP q' Hq). fold (P q') in HP. unfold comps in He. rewrite HP in He. fold (lo q') in He. apply in_seq in He. split.
      + pose proof (@lo_mono (S q') (length w) Hq). rewrite lo_S in H. lia.
      + apply (Ho q' i Hq). fold (lo q'). lia.
    - eapply Permutation_NoDup; [apply Permutation_sym, Permutation_map, HO'|].
      rewrite map_flat_map. rewrite (flat_map_ext _ (fun q => map fst (entries (P q)))) by (intros; now rewrite map_map).
      eapply Permutation_NoDup; [apply Permutation_sym, all_entries_seq; auto|]. apply seq_NoDup.
    - exists x. split; auto. intros p c Hp Hc. apply In_nth with (d := GProc [] []) in Hp as (q & Hq & Ep). fold (P q) in Ep. subst p.
      apply map_combine_fun.
      + destruct Hs as [_ HL]. symmetry. apply (HL (P q)); [now apply nth_In|]. unfold comps in Hc. now apply filter_In in Hc.
      + intros i v Hiv. apply (A (q, (i, v))). apply (Permutation_in _ (Permutation_sym HO')). apply in_flat_map. exists q. split; [now apply in_iota|].
        apply in_map. unfold entries. apply in_flat_map. eauto.
  Qed.
End Vec.

Section Round.
  Context {V : Type}.
  Lemma unload_act (x : nat -> V) c : gc_act (unload x c) = gc_act c.
  Proof. unfold unload. destruct (gc_act c) eqn:E; auto. Qed.
  Lemma unload_idx (x : nat -> V) c : gc_idx (unload x c) = gc_idx c.
  Proof. unfold unload. destruct (gc_act c) eqn:E; auto. Qed.
  Lemma filter_unload (x : nat -> V) l : filter gc_act (map (unload x) l) = map (unload x) (filter gc_act l).
  Proof. induction l as [|c l IH]; simpl; auto. rewrite unload_act. destruct (gc_act c); simpl; now rewrite IH. Qed.

  Lemma slabbed_unload (w : list (gproc V)) len x : slabbed w len -> slabbed (map_to_network x w) len.
  Proof.
    intros [H1 H2]. split.
    - intros q Hq. unfold map_to_network in *. rewrite map_length in Hq. rewrite (@nth_map_in _ _ _ w q (GProc [] []) (GProc [] []) Hq). simpl.
      rewrite <- map_app, filter_unload. specialize (H1 q Hq). etransitivity; [|exact H1].
      clear. induction (filter gc_act _) as [|c l IH]; simpl; auto. rewrite unload_idx. now apply Permutation_app_head.
    - intros p c Hp Hc. unfold map_to_network in Hp. apply in_map_iff in Hp as (p0 & <- & Hp). simpl in Hc. rewrite <- map_app in Hc. apply in_map_iff in Hc as (c0 & <- & Hc).
      rewrite unload_idx. unfold unload. destruct (gc_act c0) eqn:E; simpl; [apply map_length|]. now apply (H2 p0).
  Qed.

  (** network -> vector -> network: every component gets its own values *)
  Lemma unload_same (w : list (gproc V)) x : (forall p c, In p w -> In c (comps p) -> map x (gc_idx c) = gc_vals c) -> map_to_network x w = w.
  Proof.
    intros H. unfold map_to_network. rewrite <- (map_id w) at 2. apply map_ext_in. intros p Hp.
    assert (G : forall c, In c (gp_buses p ++ gp_brs p)%list -> unload x c = c).
    { intros c Hc. unfold unload. destruct (gc_act c) eqn:E; auto. rewrite (H p c Hp); [destruct c; simpl in *; congruence|]. unfold comps. now apply filter_In. }
    rewrite (map_ext_in (unload x) (fun c => c) (gp_buses p)) by (intros; apply G; apply in_app_iff; auto).
    rewrite (map_ext_in (unload x) (fun c => c) (gp_brs p)) by (intros; apply G; apply in_app_iff; auto). rewrite !map_id. now destruct p.
  Qed.

  (** vector -> network -> vector *)
  Lemma vector_round (w : list (gproc V)) len v0 own ord x : slabbed w len -> holds_element (length w) len own ->
    Permutation ord (flat_map (fun q => map (pair q) (gen_loads (sumn (map len (iota q))) (len q) (nth q (map_to_network x w) (GProc [] [])))) (iota (length w))) ->
    exists x', set_elems own (sumn (map len (iota (length w)))) (fun _ => v0) ord = Ok x' /\ forall i, i < sumn (map len (iota (length w))) -> x' i = x i.
  Proof.
    intros Hs Ho HO. assert (Hs' := @slabbed_unload w len x Hs). assert (LW : length (map_to_network x w) = length w) by apply map_length.
    rewrite <- LW in *. destruct (@gen_vector_ok V (map_to_network x w) len Hs' v0 own ord Ho HO) as (x' & E & H).
    exists x'. split; auto. intros i Hi.
    pose proof (@all_entries_seq V (map_to_network x w) len Hs' (length (map_to_network x w)) (le_n _)) as HA.
    assert (Hin : In i (seq 0 (sumn (map len (iota (length (map_to_network x w))))))) by (apply in_seq; lia).
    rewrite <- HA in Hin. apply in_flat_map in Hin as (q & Hq & Hin). apply in_iota in Hq. rewrite entries_fst with (len := len) in Hin by auto.
    apply in_flat_map in Hin as (c & Hc & Hi'). assert (Hp : In (nth q (map_to_network x w) (GProc [] [])) (map_to_network x w)) by now apply nth_In.
    specialize (H _ c Hp Hc). set (p1 := nth q (map_to_network x w) (GProc [] [])) in *. clearbody p1. unfold map_to_network in Hp. apply in_map_iff in Hp as (p0 & Ep & Hp0). rewrite <- Ep in Hc. unfold comps in Hc. simpl in Hc.
    rewrite <- map_app, filter_unload in Hc. apply in_map_iff in Hc as (c0 & <- & Hc0). apply filter_In in Hc0 as [_ Ha]. rewrite unload_idx in *.
    unfold unload in H. rewrite Ha in H. simpl in H.
    clear - H Hi'. induction (gc_idx c0) as [|k l IH]; [destruct Hi'|]. simpl in H. injection H as Hk Hl. destruct Hi' as [<-|Hi']; auto.
  Qed.
End Round.

(** * Matrix elements of branches *)
Section Mat.
  Context {V : Type}.
  (** [b q]: the copy of a branch on process [q]; copies agree on everything but the active flag. *)
  Lemma branch_inserted_once (P : nat) (len : nat -> nat) (b : nat -> gbr V) (e : (nat * nat) * V) vals row ncols :
    (forall q, q < P -> gb_vals (b q) = vals /\ gb_row (b q) = row /\ gb_ncols (b q) = ncols) ->
    In e vals -> fst (fst e) < sumn (map len (iota P)) ->
    (ncols = 0 \/ snd (fst e) < row 0 \/ row (ncols - 1) < snd (fst e)) ->
    exists q, q < P /\ In e (load_branch (sumn (map len (iota q))) (len q) (b q)) /\
      forall q', q' < P -> In e (load_branch (sumn (map len (iota q'))) (len q') (b q')) -> q' = q.
  Proof.
    intros Hb He Hr Hc. set (lo := fun q => sumn (map len (iota q))) in *.
    assert (loS : forall q, lo (S q) = lo q + len q) by (intros q; unfold lo, iota; rewrite seq_S, map_app, sumn_app; simpl; lia).
    assert (lom : forall a c, a <= c -> lo a <= lo c) by (induction 1; auto; rewrite loS; lia).
    assert (EX : forall n, fst (fst e) < lo n -> exists q, q < n /\ lo q <= fst (fst e) < lo q + len q).
    { induction n; intros Hn; [unfold lo in Hn; simpl in Hn; lia|]. rewrite loS in Hn. destruct (Nat.lt_ge_cases (fst (fst e)) (lo n)) as [Hl|Hl].
      - destruct (IHn Hl) as (q & ? & ?). exists q. split; [lia|auto].
      - exists n. split; [lia|lia]. }
    destruct (EX P Hr) as (q & Hq & Hrow). exists q. split; auto. split.
    - destruct (Hb q Hq) as (E1 & E2 & E3). unfold load_branch. apply filter_In. rewrite E1, E2, E3. split; auto. fold (lo q).
      replace (lo q <=? fst (fst e)) with true by (symmetry; apply Nat.leb_le; lia). replace (fst (fst e) <? lo q + len q) with true by (symmetry; apply Nat.ltb_lt; lia). simpl.
      destruct (Nat.ltb_spec 0 ncols); auto. destruct ((row 0 <=? snd (fst e)) && (snd (fst e) <=? row (ncols - 1))) eqn:Ec; auto. apply andb_prop in Ec as [C1 C2]. apply Nat.leb_le in C1, C2. lia.
    - intros q' Hq' Hi. unfold load_branch in Hi. apply filter_In in Hi as [_ Hi]. fold (lo q') in Hi. apply andb_prop in Hi as [Hi _]. apply andb_prop in Hi as [C1 C2].
      apply Nat.leb_le in C1. apply Nat.ltb_lt in C2.
      destruct (Nat.lt_trichotomy q q') as [Hl|[Hl|Hl]]; auto.
      + pose proof (lom (S q) q' Hl). rewrite loS in H. lia.
      + pose proof (lom (S q') q Hl). rewrite loS in H. lia.
  Qed.
End Mat.

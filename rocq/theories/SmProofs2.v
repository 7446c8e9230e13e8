From Verif Require Import Prelude GAModel GAProofs ParModel ParProofs ParProofs2 ParProofs3 NetModel NetSpec NetProofs NetProofs2 NetProofs3 NetProofs4 IdxModel IdxSpec IdxProofs IdxProofs2 MapModel MapSpec MapProofs MapProofs2 MapProofs3 GenModel GenSpec GenProofs GenProofs2 SmModel SmSpec SmProofs.
Open Scope nat_scope.

Section Round.
Context {V : Type}.
Variables (zero : V) (w : list (gproc (list V))) (len : nat -> nat) (own : nat -> nat) (ncols : nat).
Hypothesis Hs : slabbed w len.
Hypothesis Ht : tabled ncols w.
Hypothesis Ho : holds_element (length w) len own.
Let P q := nth q w (GProc [] []).
Let total := sumn (map len (iota (length w))).
Let all_loads := flat_map (fun q => map (pair q) (slab_loads ncols (sumn (map len (iota q))) (len q) (P q))) (iota (length w)).

Lemma entries_row q e : q < length w -> In e (entries (P q)) -> length (snd e) = ncols.
Proof.
  intros Hq I. unfold entries in I. apply in_flat_map in I as (c & I & J). unfold comps in I. apply filter_In in I as (I & _).
  apply (Ht (P q) c); [now apply nth_In|exact I|]. destruct e as (i, row). now apply in_combine_r in J.
Qed.
Lemma loads_ok m ord : d_rows m = total -> d_cols m = ncols -> Permutation ord all_loads ->
  exists m', set_cells own m ord = Ok m' /\ d_rows m' = total /\ d_cols m' = ncols /\
    forall p c, In p w -> In c (comps p) -> map (fun i => map (d_at m' i) (iota ncols)) (gc_idx c) = gc_vals c.
Proof.
  intros R C HO.
  assert (HO' : Permutation ord (flat_map (fun q => map (pair q) (flat_map (row_cells ncols) (entries (P q)))) (iota (length w)))).
  { etransitivity; [exact HO|]. apply concat_perm_pointwise. intros q Hq. apply in_iota in Hq. rewrite slab_loads_rows. unfold P. now rewrite (@loads_entries _ w len Hs q Hq). }
  assert (IN : forall q i k v, In (q, ((i, k), v)) ord -> q < length w /\ sumn (map len (iota q)) <= i < sumn (map len (iota q)) + len q /\ k < ncols).
  { intros q i k v I. apply (Permutation_in _ HO') in I. apply in_flat_map in I as (q' & Hq & I). apply in_iota in Hq. apply in_map_iff in I as (x & E & I). injection E as -> ->.
    apply in_flat_map in I as (e & I & J). split; [exact Hq|]. unfold row_cells in J. apply in_map_iff in J as (kv & E & J). injection E as <- <- _. destruct kv as (k, v'). apply in_combine_l in J. apply in_iota in J. split; [|exact J].
    apply in_map with (f := fst) in I. unfold P in I. rewrite (@entries_fst _ w len Hs q Hq) in I. destruct Hs as [HP _]. unfold comps in I. rewrite (HP q Hq) in I. now apply in_seq in I. }
  destruct (@set_cells_spec V own ord m) as (m' & E & R' & C' & A & _).
  - apply Forall_forall. intros (q & (i & k) & v) I. destruct (IN q i k v I) as (Hq & Hi & Hk). cbn [fst snd]. rewrite R, C. split; [|split; [exact Hk|exact (@Ho q i Hq Hi)]].
    pose proof (@lo_mono _ w len (S q) (length w) Hq) as L. pose proof (@lo_S _ w len q) as L1. cbv zeta beta in L, L1. unfold total. lia.
  - eapply Permutation_NoDup; [apply Permutation_sym, Permutation_map, HO'|]. rewrite map_flat_map.
    assert (G : flat_map (fun q => map (fun e : nat * (nat * nat * V) => fst (snd e)) (map (pair q) (flat_map (row_cells ncols) (entries (P q))))) (iota (length w)) =
                flat_map (fun i => map (pair i) (iota ncols)) (flat_map (fun q => map fst (entries (P q))) (iota (length w)))).
    { assert (X : forall qs, (forall q, In q qs -> q < length w) ->
         flat_map (fun q => map (fun e : nat * (nat * nat * V) => fst (snd e)) (map (pair q) (flat_map (row_cells ncols) (entries (P q))))) qs =
         flat_map (fun i => map (pair i) (iota ncols)) (flat_map (fun q => map fst (entries (P q))) qs)).
      { induction qs as [|q qs IH]; intros Hq; [reflexivity|]. cbn [flat_map]. rewrite flat_map_app, IH by (intros; apply Hq; now right). f_equal. rewrite map_map. cbn [snd].
        assert (Y : forall es, (forall e, In e es -> length (snd e) = ncols) -> map fst (flat_map (row_cells ncols) es) = flat_map (fun i => map (pair i) (iota ncols)) (map (@fst nat (list V)) es)).
        { induction es as [|(i, row) es IH2]; intros L; [reflexivity|]. cbn [flat_map map fst]. rewrite map_app, IH2 by (intros; apply L; now right). f_equal. apply row_cells_keys, (L (i, row) (or_introl eq_refl)). }
        apply Y. intros e I. apply (@entries_row q e); auto. apply Hq. now left. }
      apply X. intros q I. now apply in_iota in I. }
    rewrite G. apply nodup_keys. eapply Permutation_NoDup; [apply Permutation_sym, (@all_entries_seq _ w len Hs (length w)); auto|apply seq_NoDup].
  - exists m'. rewrite R' , C', R, C. repeat split; auto. intros p c Hp Hc. apply In_nth with (d := GProc [] []) in Hp as (q & Hq & <-). fold (P q) in Hc.
    assert (Ic : In c (gp_buses (P q) ++ gp_brs (P q))%list) by (unfold comps in Hc; now apply filter_In in Hc).
    assert (Pw : In (P q) w) by now apply nth_In.
    apply map_combine_fun; [symmetry; apply (proj2 Hs (P q) c Pw Ic)|]. intros i row J. symmetry.
    assert (L : length row = ncols) by (apply (Ht (P q) c); auto; now apply in_combine_r in J).
    symmetry. apply map_combine_fun; [unfold iota; now rewrite seq_length|]. intros k v K.
    apply (A (q, ((i, k), v))). apply (Permutation_in _ (Permutation_sym HO')). apply in_flat_map. exists q. split; [now apply in_iota|]. apply in_map. apply in_flat_map.
    exists (i, row). split; [unfold entries; apply in_flat_map; eauto|]. unfold row_cells. apply in_map_iff. exists (k, v). auto.
Qed.
Lemma idx_lt p c i : In p w -> In c (gp_buses p ++ gp_brs p)%list -> gc_act c = true -> In i (gc_idx c) -> i < total.
Proof.
  intros Hp Hc Ha Hi. apply In_nth with (d := GProc [] []) in Hp as (q & Hq & <-). destruct Hs as [HP _]. specialize (HP q Hq).
  assert (I : In i (flat_map gc_idx (filter gc_act (gp_buses (P q) ++ gp_brs (P q))))) by (apply in_flat_map; exists c; split; [now apply filter_In|exact Hi]).
  unfold P in I. rewrite HP in I. apply in_seq in I. pose proof (@lo_mono _ w len (S q) (length w) Hq) as L. pose proof (@lo_S _ w len q) as L1. cbv zeta beta in L, L1. unfold total. lia.
Qed.

Lemma round_ok ord : (forall q, q < length w -> 0 < len q) -> Permutation ord all_loads ->
  exists m, map_to_matrix zero own (map len (iota (length w))) ncols ord = Ok m /\ d_rows m = total /\ d_cols m = ncols /\
    (forall p c, In p w -> In c (comps p) -> map (fun i => map (d_at m i) (iota ncols)) (gc_idx c) = gc_vals c) /\ slab_to_network ncols m w = Ok w.
Proof.
  intros HL HO. unfold map_to_matrix, create.
  assert (B : forallb (fun l => 0 <? l) (map len (iota (length w))) = true).
  { apply forallb_forall. intros x I. apply in_map_iff in I as (q & <- & I). apply in_iota in I. now apply Nat.ltb_lt, HL. }
  rewrite B. cbn [obind]. fold total. destruct (@loads_ok (Dense total ncols (fun _ _ => zero)) ord eq_refl eq_refl HO) as (m & E & R & C & A).
  exists m. split; [exact E|]. split; [exact R|]. split; [exact C|]. split; [exact A|].
  rewrite <- C. rewrite slab_to_network_ok; [f_equal; rewrite C; now apply unload_same|]. intros p c i I J K L. rewrite R. exact (@idx_lt p c i I J K L).
Qed.
End Round.

(** matrix -> network -> matrix *)
Lemma remap_ok {V} (zero : V) (w : list (gproc (list V))) len own ncols m ord : slabbed w len -> tabled ncols w -> holds_element (length w) len own ->
  d_rows m = sumn (map len (iota (length w))) -> d_cols m = ncols ->
  exists w', slab_to_network ncols m w = Ok w' /\
    (Permutation ord (flat_map (fun q => map (pair q) (slab_loads ncols (sumn (map len (iota q))) (len q) (nth q w' (GProc [] [])))) (iota (length w'))) ->
     exists m', remap zero own m ord = Ok m' /\ d_rows m' = d_rows m /\ d_cols m' = d_cols m /\ forall i k, i < d_rows m -> k < d_cols m -> d_at m' i k = d_at m i k).
Proof.
  intros Hs Ht Ho R C. subst ncols. set (f := fun i => map (d_at m i) (iota (d_cols m))).
  exists (map_to_network f w). split.
  { apply slab_to_network_ok. intros p c i I J K L. rewrite R. exact (@idx_lt _ w len Hs p c i I J K L). }
  intros HO. assert (Hs' := @slabbed_unload _ w len f Hs). assert (LW : length (map_to_network f w) = length w) by apply map_length.
  assert (Ht' : tabled (d_cols m) (map_to_network f w)).
  { intros p c row Ip Ic Ir. unfold map_to_network in Ip. apply in_map_iff in Ip as (p0 & <- & Ip). cbn [gp_buses gp_brs] in Ic. rewrite <- map_app in Ic. apply in_map_iff in Ic as (c0 & <- & Ic).
    unfold unload in Ir. destruct (gc_act c0); [|now apply (Ht p0 c0 row)]. cbn in Ir. apply in_map_iff in Ir as (i & <- & _). unfold f, iota. now rewrite map_length, seq_length. }
  rewrite <- LW in Ho, R. unfold remap.
  destruct (@loads_ok V _ len own (d_cols m) Hs' Ht' Ho (Dense (d_rows m) (d_cols m) (fun _ _ => zero)) ord R eq_refl HO) as (m' & E & R' & C' & A).
  exists m'. split; [exact E|]. split; [congruence|]. split; [exact C'|]. intros i k Hi Hk. rewrite R in Hi.
  pose proof (@all_entries_seq _ (map_to_network f w) len Hs' (length (map_to_network f w)) (le_n _)) as HA.
  assert (Hin : In i (seq 0 (sumn (map len (iota (length (map_to_network f w))))))) by (apply in_seq; lia).
  rewrite <- HA in Hin. apply in_flat_map in Hin as (q & Hq & Hin). apply in_iota in Hq. rewrite entries_fst with (len := len) in Hin by auto.
  apply in_flat_map in Hin as (c & Hc & Hi'). assert (Hp : In (nth q (map_to_network f w) (GProc [] [])) (map_to_network f w)) by now apply nth_In.
  specialize (A _ c Hp Hc). set (p1 := nth q (map_to_network f w) (GProc [] [])) in *. clearbody p1. unfold map_to_network in Hp. apply in_map_iff in Hp as (p0 & Ep & Hp0). rewrite <- Ep in Hc. unfold comps in Hc. simpl in Hc.
  rewrite <- map_app, filter_unload in Hc. apply in_map_iff in Hc as (c0 & <- & Hc0). apply filter_In in Hc0 as [_ Ha]. rewrite unload_idx in *.
  unfold unload in A. rewrite Ha in A. cbn [gc_vals] in A.
  assert (X : map (d_at m' i) (iota (d_cols m)) = f i).
  { clear - A Hi'. induction (gc_idx c0) as [|j l IH]; [destruct Hi'|]. cbn [map] in A. injection A as A1 A2. destruct Hi' as [->|I]; auto. }
  unfold f in X. assert (Y : forall l, map (d_at m' i) l = map (d_at m i) l -> In k l -> d_at m' i k = d_at m i k).
  { induction l as [|j l IH]; intros Q []; cbn in Q; injection Q as Q1 Q2; subst; auto. }
  apply (Y _ X). now apply in_iota.
Qed.

(** * From the network *)
Section Net.
Context {B R V : Type}.
Variables (bval : B -> list (list V)) (rval : R -> list (list V)).
Notation bsz := (fun b => length (bval b)).
Notation rsz := (fun r => length (rval r)).
Lemma combine_map_r {X Y} (f : X -> Y) l : combine l (map f l) = map (fun x => (x, f x)) l.
Proof. induction l as [|x l IH]; cbn; [reflexivity|]. now rewrite IH. Qed.
Lemma world_eq (nets : list (net B R)) fb fr :
  slab_world bval rval nets (map (fun n => (map (fun b => fb (b_glob b)) (n_buses n), map (fun r => fr (r_glob r)) (n_branches n))) nets) =
  map (fun n => GProc (map (fun b => GComp (b_active b) (seq (fb (b_glob b)) (length (bval (b_obj b)))) (bval (b_obj b))) (n_buses n))
                      (map (fun r => GComp (r_active r) (seq (fr (r_glob r)) (length (rval (r_obj r)))) (rval (r_obj r))) (n_branches n))) nets.
Proof.
  unfold slab_world. rewrite combine_map_r, map_map. cbn [fst snd]. apply map_ext. intros n. rewrite !combine_map_r, !map_map. reflexivity.
Qed.
Lemma world_slabbed (nets : list (net B R)) fb fr :
  (forall q, q < length nets -> Permutation (ranges bsz rsz fb fr (at_rank nets q)) (seq (sumn (map (elements bsz rsz) (firstn q nets))) (elements bsz rsz (at_rank nets q)))) ->
  slabbed (slab_world bval rval nets (map (fun n => (map (fun b => fb (b_glob b)) (n_buses n), map (fun r => fr (r_glob r)) (n_branches n))) nets))
          (fun q => elements bsz rsz (at_rank nets q)).
Proof.
  intros H. rewrite world_eq. split.
  - intros q Hq. rewrite map_length in Hq. specialize (H q Hq).
    match goal with |- context [nth q (map ?F nets) ?d] => rewrite (@nth_map_in _ _ F nets q (Net [] [] (-1)%Z [] []) d Hq) end.
    cbn [gp_buses gp_brs]. change (nth q nets (Net [] [] (-1)%Z [] [])) with (at_rank nets q).
    assert (S : sumn (map (fun q => elements bsz rsz (at_rank nets q)) (iota q)) = sumn (map (elements bsz rsz) (firstn q nets))).
    { f_equal. clear H. revert q Hq. induction nets as [|n ns IH]; intros q Hq; [cbn in Hq; lia|]. destruct q as [|q]; [reflexivity|]. cbn [firstn map]. unfold iota. cbn [seq map]. f_equal.
      rewrite <- seq_shift, map_map. rewrite <- IH by (cbn in Hq; lia). reflexivity. }
    rewrite S. etransitivity; [|exact H]. unfold ranges. rewrite filter_app, flat_map_app. apply Permutation_app; apply Permutation_refl'.
    + induction (n_buses (at_rank nets q)) as [|b l IH]; [reflexivity|]. cbn [map filter gc_act]. destruct (b_active b); cbn [flat_map gc_idx]; now rewrite IH.
    + induction (n_branches (at_rank nets q)) as [|b l IH]; [reflexivity|]. cbn [map filter gc_act]. destruct (r_active b); cbn [flat_map gc_idx]; now rewrite IH.
  - intros p c Ip Ic. apply in_map_iff in Ip as (n & <- & _). cbn [gp_buses gp_brs] in Ic. apply in_app_or in Ic as [Ic|Ic]; apply in_map_iff in Ic as (b & <- & _); cbn; now rewrite seq_length.
Qed.
End Net.

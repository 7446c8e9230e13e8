From Verif Require Import Prelude GAModel GAProofs ParProofs2 IOModel IOSpec IdxProofs.
From Coq Require Import Sorted.

Section P.
Context {A : Type}.
Variable fits : A -> bool.
Implicit Types (c : comp A) (l : list (comp A)).

Lemma counted_steady l : Forall (steady fits) l -> counted fits l = Ok (length (flat_map prints l)).
Proof.
  induction 1 as [|c l H _ IH]; [reflexivity|]. cbn [flat_map]. rewrite app_length. unfold counted in *. cbn [fold_right].
  unfold prints at 1. unfold steady in H. destruct (c_active c); [|exact IH]. destruct (H eq_refl) as [E F]. rewrite E.
  destruct (c_write c) as [a|]; [|exact IH]. rewrite (F a eq_refl), IH. reflexivity.
Qed.
Lemma filled_steady l n : Forall (steady fits) l -> length (flat_map prints l) <= n -> filled fits n l = Ok (flat_map prints l).
Proof.
  intros H. revert n. induction H as [|c l H _ IH]; intros n Hn; [destruct n; reflexivity|]. cbn [flat_map] in *.
  rewrite app_length in Hn. unfold prints at 1. unfold prints at 1 in Hn. unfold steady in H. cbn [filled].
  destruct n as [|n].
  - destruct (c_active c); [destruct (c_write c); simpl in Hn; [lia|]|]; simpl in *; symmetry;
      (destruct (flat_map prints l); [reflexivity|simpl in Hn; lia]).
  - destruct (c_active c); [|now apply IH]. destruct (H eq_refl) as [_ F].
    destruct (c_write c) as [a|]; [|now apply IH]. rewrite (F a eq_refl). rewrite IH by (simpl in Hn; lia). reflexivity.
Qed.
Lemma contribution_steady l : Forall (steady fits) l -> contribution fits l = Ok (flat_map prints l).
Proof.
  intros H. unfold contribution. rewrite counted_steady by auto. cbn [obind]. rewrite filled_steady by auto. cbn [obind].
  rewrite Nat.eqb_refl. destruct (flat_map prints l); reflexivity.
Qed.

(** The head process *)
Lemma gather_some (g : garray A) idx : (forall i, In i idx -> exists v, nth_error g i = Some (Some v)) ->
  exists out, ga_gather g idx = Ok (map snd out) /\ map fst out = idx /\ forall i v, In (i, v) out -> nth_error g i = Some (Some v).
Proof.
  induction idx as [|i r IH]; intros H; [exists []; repeat split; intros; contradiction|].
  destruct IH as (out & E & F & V); [intros j Hj; apply H; now right|]. destruct (H i (or_introl eq_refl)) as (v & Hv).
  exists ((i, v) :: out). cbn [ga_gather].
  assert (G : ga_get g i (length [v]) = Ok [v]).
  { apply ga_get_some.
    - simpl. assert (i < length g); [|lia]. apply nth_error_Some. rewrite Hv. discriminate.
    - intros [|k] Hk; simpl in *; [|lia]. now rewrite Nat.add_0_r. }
  simpl length in G. rewrite G. cbn [obind]. rewrite E. cbn [obind map fst snd app]. rewrite F. split; [reflexivity|].
  split; [reflexivity|]. intros j u [Ej|Hj]; [injection Ej as <- <-; exact Hv|now apply V].
Qed.
Lemma head_blocks (strings : garray A) mask (b : nat -> bool) : forall blocks lo,
  Forall (fun n => 0 < n) blocks ->
  lo + sumn blocks <= length mask ->
  (forall i, lo <= i < lo + sumn blocks -> nth_error mask i = Some (Some (if b i then 1 else 0))) ->
  (forall i, lo <= i < lo + sumn blocks -> b i = true -> exists v, nth_error strings i = Some (Some v)) ->
  exists out, head strings mask lo blocks = Ok (map snd out) /\ map fst out = filter b (seq lo (sumn blocks)) /\
    forall i v, In (i, v) out -> nth_error strings i = Some (Some v).
Proof.
  induction blocks as [|n r IH]; intros lo Hp Hl Hm Hs; [exists []; repeat split; intros; contradiction|].
  inversion Hp as [|? ? Hn Hr]; subst. cbn [head sumn] in *. unfold head_block. destruct (Nat.eqb_spec n 0) as [|_]; [lia|].
  assert (E : ga_get mask lo n = Ok (map (fun i => if b i then 1 else 0) (seq lo n))).
  { pose proof (@ga_get_some _ mask lo (map (fun i => if b i then 1 else 0) (seq lo n))) as X. rewrite map_length, seq_length in X.
    apply X; [lia|]. intros i Hi. rewrite Hm by lia. rewrite map_map, nth_error_map.
    rewrite (nth_error_nth' (seq lo n) 0) by now rewrite seq_length. rewrite seq_nth by auto. reflexivity. }
  rewrite E. cbn [obind].
  assert (E2 : map fst (filter (fun jm => snd jm =? 1) (combine (seq lo n) (map (fun i => if b i then 1 else 0) (seq lo n)))) = filter b (seq lo n)).
  { clear. generalize (seq lo n) as q. induction q as [|x q IH]; [reflexivity|]. cbn [map combine filter snd].
    destruct (b x); cbn [Nat.eqb map fst]; now rewrite IH. }
  rewrite E2. destruct (@gather_some strings (filter b (seq lo n))) as (o1 & G1 & F1 & V1).
  { intros i Hi. apply filter_In in Hi as [Hi Hb]. apply in_seq in Hi. apply Hs; [lia|auto]. }
  destruct (IH (lo + n)) as (o2 & G2 & F2 & V2); auto.
  - lia.
  - intros i Hi. apply Hm. lia.
  - intros i Hi. apply Hs. lia.
  - exists (o1 ++ o2)%list. rewrite G1. cbn [obind]. rewrite G2. cbn [obind]. rewrite map_app, map_app, F1, F2, seq_app, filter_app.
    split; [reflexivity|]. split; [reflexivity|]. intros i v Hi. apply in_app_iff in Hi as [Hi|Hi]; auto.
Qed.

Lemma sorted_filter_seq (b : nat -> bool) lo n : StronglySorted lt (filter b (seq lo n)).
Proof.
  revert lo; induction n as [|n IH]; intros lo; [constructor|]. cbn [seq filter].
  assert (F : Forall (lt lo) (filter b (seq (S lo) n))).
  { apply Forall_forall. intros x Hx. apply filter_In in Hx as [Hx _]. apply in_seq in Hx. lia. }
  destruct (b lo); [constructor|]; auto.
Qed.

(** The whole call. *)
Lemma write_all_spec (w : list (list (comp A))) strings blocks ws wm :
  NoDup (map fst (printed w)) -> (forall i v, In (i, v) (printed w) -> i < length strings) ->
  sumn blocks = length strings -> Forall (fun n => 0 < n) blocks ->
  Permutation ws (printed w) -> Permutation wm (printed w) ->
  exists out s', write_all strings blocks ws wm = Ok (map snd out, s') /\ length s' = length strings /\
    Permutation out (printed w) /\ StronglySorted lt (map fst out).
Proof.
  intros HN Hb HS Hp P1 P2.
  assert (HN1 : NoDup (map fst ws)) by (eapply Permutation_NoDup; [apply Permutation_map; symmetry; exact P1|exact HN]).
  assert (HN2 : NoDup (map fst wm)) by (eapply Permutation_NoDup; [apply Permutation_map; symmetry; exact P2|exact HN]).
  destruct (@scatter_spec A id strings ws) as (s' & E1 & L1 & S1 & _); [exact HN1| |].
  { intros i v Hi. apply (Hb i v). now apply (Permutation_in _ P1). }
  set (wm1 := map (fun x : nat * A => (fst x, 1)) wm).
  assert (M1 : map fst wm1 = map fst wm) by (unfold wm1; now rewrite map_map).
  destruct (@scatter_spec nat id (repeat (Some 0) (length strings)) wm1) as (m & E2 & L2 & S2 & O2).
  { now rewrite M1. }
  { intros i v Hi. rewrite repeat_length. unfold wm1 in Hi. apply in_map_iff in Hi as ([j u] & Hj & Hi). injection Hj as -> _.
    apply (Hb i u). now apply (Permutation_in _ P2). }
  rewrite repeat_length in L2.
  unfold write_all. rewrite E1. cbn [obind]. fold wm1. rewrite E2. cbn [obind].
  assert (X : forall i, In i (map fst (printed w)) -> exists v, In (i, v) (printed w)).
  { intros i Hi. apply in_map_iff in Hi as ([j v] & <- & Hi). eauto. }
  set (b := fun i => existsb (Nat.eqb i) (map fst (printed w))).
  assert (Hbs : forall i, b i = true <-> In i (map fst (printed w))).
  { intros i. unfold b. rewrite existsb_exists. split; [intros (x & Hx & Ex); apply Nat.eqb_eq in Ex; now subst|intros H; exists i; split; auto; apply Nat.eqb_refl]. }
  destruct (@head_blocks s' m b blocks 0) as (out & G & F & V); auto; try lia.
  - intros i Hi. destruct (b i) eqn:Eb.
    + apply Hbs in Eb. destruct (X i Eb) as (v & Hv). apply S2. unfold wm1. apply in_map_iff. exists (i, v). split; auto.
      now apply (Permutation_in _ (Permutation_sym P2)).
    + rewrite O2; [apply nth_error_repeat; lia|]. rewrite M1, (Permutation_map fst P2). intros H. apply Hbs in H. congruence.
  - intros i Hi Eb. apply Hbs in Eb. destruct (X i Eb) as (v & Hv). exists v. apply S1.
    now apply (Permutation_in _ (Permutation_sym P1)).
  - exists out, s'. rewrite G. cbn [obind]. split; [reflexivity|]. split; [exact L1|]. split.
    + assert (HO : NoDup (map fst out)) by (rewrite F; apply NoDup_filter, seq_NoDup).
      assert (K : forall i v, In (i, v) (printed w) -> nth_error s' i = Some (Some v)).
      { intros i v Hi. apply S1. now apply (Permutation_in _ (Permutation_sym P1)). }
      apply NoDup_Permutation; [now apply NoDup_map_inv in HO|now apply NoDup_map_inv in HN|].
      intros [i v]. split; intros Hi.
      * assert (Hb' : In i (map fst (printed w))).
        { apply Hbs. assert (In i (map fst out)) as Y by (apply in_map_iff; exists (i, v); auto). rewrite F in Y. now apply filter_In in Y. }
        destruct (X i Hb') as (u & Hu). pose proof (K i u Hu) as Q. rewrite (V i v Hi) in Q. injection Q as ->. exact Hu.
      * assert (In i (map fst out)) as Y.
        { rewrite F. apply filter_In. split; [apply in_seq; pose proof (Hb i v Hi); lia|]. apply Hbs. apply in_map_iff. exists (i, v); auto. }
        apply in_map_iff in Y as ([j u] & Ej & Y). simpl in Ej. subst j. pose proof (V i u Y) as Q. rewrite (K i v Hi) in Q. injection Q as <-. exact Y.
    + rewrite F. apply sorted_filter_seq.
Qed.
End P.

From Verif Require Import Prelude GAModel GAProofs ParModel ParSpec ParProofs ParProofs2 ParProofs3 NetModel NetSpec NetProofs.

Lemma combine_fst_snd {X Y} (l : list (X * Y)) : combine (map fst l) (map snd l) = l.
Proof. induction l as [|[a b] l IH]; simpl; auto. now rewrite IH. Qed.

Lemma iota_flat_nth {X Y} (f : X -> list Y) (l : list X) d :
  flat_map (fun p => f (nth p l d)) (iota (length l)) = flat_map f l.
Proof.
  unfold iota. assert (H : forall pre, flat_map (fun p => f (nth p (pre ++ l)%list d)) (seq (length pre) (length l)) = flat_map f l).
  { induction l as [|x l IH]; intros pre; simpl; auto. f_equal.
    - f_equal. rewrite app_nth2 by lia. now rewrite Nat.sub_diag.
    - specialize (IH (pre ++ [x])%list). rewrite app_length in IH. simpl in IH. rewrite Nat.add_1_r in IH.
      rewrite <- app_assoc in IH. exact IH. }
  exact (H []).
Qed.

Lemma flat_map_filter_ext {S X Y} (f : S -> list Y) (l : S -> list (Y * X)) (P : Y * X -> bool) ss :
  (forall s, In s ss -> f s = map fst (filter P (l s))) -> flat_map f ss = map fst (filter P (flat_map l ss)).
Proof.
  induction ss as [|s ss IH]; intros E; auto. change (f s ++ flat_map f ss = map fst (filter P (l s ++ flat_map l ss)))%list.
  rewrite filter_app, map_app. f_equal; [apply E; now left|]. apply IH. intros s' Hs'. apply E. now right.
Qed.

(** * Shuffling lists of (item, destination) pairs *)
Lemma shuffle_pairs {T} (l : nat -> list (T * Z)) P :
  (forall p x, p < P -> In x (l p) -> (0 <= snd x < Z.of_nat P)%Z) ->
  exists r, shuffle (map (fun p => (map fst (l p), map snd (l p))) (iota P)) = Ok r /\ length r = P /\
    forall p, p < P -> Permutation (nth p r []) (map fst (filter (fun x => snd x =? Z.of_nat p)%Z (flat_map l (iota P)))).
Proof.
  intros H. set (w := map (fun p => (map fst (l p), map snd (l p))) (iota P)).
  assert (Lw : length w = P) by (unfold w, iota; now rewrite map_length, seq_length).
  assert (Rw : routable w = true).
  { unfold routable. apply forallb_forall. intros x Hx. rewrite Lw. unfold w in Hx. apply in_map_iff in Hx as (p & <- & Hp).
    apply in_iota in Hp. simpl. rewrite !map_length, Nat.eqb_refl. simpl. apply forallb_forall. intros d Hd.
    apply in_map_iff in Hd as (y & <- & Hy). specialize (H p y Hp Hy). lia. }
  eexists. split; [apply shuffle_correct, Rw|]. split.
  - unfold iota. now rewrite map_length, seq_length.
  - intros p Hp. rewrite Lw. rewrite nth_map_iota by auto. unfold delivered. rewrite <- flat_map_concat_map.
    rewrite (own_first_perm Nat.eqb (fun s => items_for p (nth s w ([], [])))).
    + apply Permutation_refl'. rewrite Lw.
      assert (E : forall s, In s (iota P) -> items_for p (nth s w ([], [])) = map fst (filter (fun x => snd x =? Z.of_nat p)%Z (l s))).
      { intros s Hs. apply in_iota in Hs. unfold w. rewrite nth_map_iota by auto. unfold items_for. simpl. now rewrite combine_fst_snd. }
      now apply flat_map_filter_ext.
    + intros a b. apply Nat.eqb_spec.
    + rewrite Lw. now apply in_iota.
    + apply seq_NoDup.
Qed.

Section Link.
  Context {B R : Type}.
  Notation bus := (bus B). Notation branch := (branch R). Notation net := (net B R).

  Lemma last_index_spec (bs : list bus) g lidx acc :
    (exists i b, nth_error bs i = Some b /\ b_glob b = g /\ last_index g bs lidx acc = lidx + i) \/
    (~ In g (map (@b_glob B) bs) /\ last_index g bs lidx acc = acc).
  Proof.
    revert lidx acc; induction bs as [|b bs IH]; intros lidx acc; simpl; [right; split; auto|].
    destruct (IH (S lidx) (if (b_glob b =? g)%Z then lidx else acc)) as [(i & b' & Hi & Hg & E)|(Hn & E)].
    - left. exists (S i), b'. repeat split; auto. rewrite E. lia.
    - destruct (Z.eqb_spec (b_glob b) g) as [Hg|Hg].
      + left. exists 0, b. repeat split; auto. rewrite E. lia.
      + right. split; auto. intros [H|H]; auto.
  Qed.
  Lemma busindex_spec (bs : list bus) g : In g (map (@b_glob B) bs) ->
    exists b, nth_error bs (busindex bs g) = Some b /\ b_glob b = g.
  Proof.
    intros H. unfold busindex. destruct (last_index_spec bs g 0 0) as [(i & b & Hi & Hg & E)|(Hn & _)]; [|tauto].
    exists b. now rewrite E.
  Qed.
  Lemma busindex_ext (bs bs' : list bus) g : map (@b_glob B) bs = map (@b_glob B) bs' -> busindex bs g = busindex bs' g.
  Proof.
    unfold busindex. generalize 0 at 1 3 as lidx. generalize 0 as acc. revert bs'.
    induction bs as [|b bs IH]; intros [|b' bs'] acc lidx E; simpl in *; try discriminate; auto.
    injection E as E1 E2. rewrite E1. now apply IH.
  Qed.

  Definition bare (b : bus) : bus := set_nbr b [].
  Definition same_but_nbr (bs bs' : list bus) : Prop := map bare bs = map bare bs'.
  Lemma same_length bs bs' : same_but_nbr bs bs' -> length bs = length bs'.
  Proof. intros H. apply (f_equal (@length _)) in H. now rewrite !map_length in H. Qed.
  Lemma same_glob bs bs' : same_but_nbr bs bs' -> map (@b_glob B) bs = map (@b_glob B) bs'.
  Proof.
    intros H. assert (E : forall l, map (@b_glob B) l = map (@b_glob B) (map bare l)) by (intros l; rewrite map_map; now apply map_ext).
    rewrite (E bs), (E bs'). now f_equal.
  Qed.

  Lemma add_neighbor_same (bs : list bus) i j : same_but_nbr (add_neighbor bs i j) bs.
  Proof.
    unfold add_neighbor, same_but_nbr. destruct (nth_error bs i) as [b|] eqn:E; auto.
    revert i E; induction bs as [|x bs IH]; intros [|i] E; simpl in *; try discriminate.
    - injection E as ->. reflexivity.
    - f_equal. now apply IH.
  Qed.
  Lemma add_neighbor_nbr (bs : list bus) i j k b : nth_error (add_neighbor bs i j) k = Some b ->
    exists b0, nth_error bs k = Some b0 /\ b_nbr b = (b_nbr b0 ++ if i =? k then [j] else [])%list.
  Proof.
    unfold add_neighbor. destruct (nth_error bs i) as [x|] eqn:E; intros H.
    - destruct (Nat.eqb_spec i k) as [->|Hne].
      + rewrite nth_error_upd_same in H by (apply nth_error_Some; congruence). injection H as <-. exists x. now split.
      + rewrite nth_error_upd_other in H by auto. exists b. split; auto. now rewrite app_nil_r.
    - exists b. split; auto. destruct (Nat.eqb_spec i k) as [->|]; [congruence|]. now rewrite app_nil_r.
  Qed.

  (** Branch [j] ends at local bus [i] (twice for a self-loop). *)
  Definition ends_at (bs : list bus) (i : nat) (jr : nat * branch) : list nat :=
    ((if busindex bs (r_g1 (snd jr)) =? i then [fst jr] else []) ++
     (if busindex bs (r_g2 (snd jr)) =? i then [fst jr] else []))%list.

  Lemma link_ok (rs : list branch) lidx (bs bs0 : list bus) : same_but_nbr bs bs0 ->
    (forall r, In r rs -> In (r_g1 r) (map (@b_glob B) bs0) /\ In (r_g2 r) (map (@b_glob B) bs0)) ->
    exists bs', link rs lidx bs =
      Ok (bs', map (fun r => set_rl r (Z.of_nat (busindex bs0 (r_g1 r))) (Z.of_nat (busindex bs0 (r_g2 r)))) rs) /\
      same_but_nbr bs' bs0 /\
      forall i b, nth_error bs' i = Some b -> exists b0, nth_error bs i = Some b0 /\
        b_nbr b = (b_nbr b0 ++ flat_map (ends_at bs0 i) (combine (seq lidx (length rs)) rs))%list.
  Proof.
    revert lidx bs; induction rs as [|r rs IH]; intros lidx bs Hs Hr; cbn [link].
    - exists bs. split; [reflexivity|]. split; [exact Hs|]. intros i b Hb. exists b. split; auto. simpl. now rewrite app_nil_r.
    - assert (Hg := same_glob Hs). rewrite (busindex_ext bs bs0 (r_g1 r) Hg), (busindex_ext bs bs0 (r_g2 r) Hg).
      destruct (Hr r (or_introl eq_refl)) as [H1 H2].
      destruct (busindex_spec bs0 (r_g1 r) H1) as (b1 & Hb1 & _), (busindex_spec bs0 (r_g2 r) H2) as (b2 & Hb2 & _).
      assert (L := same_length Hs).
      set (l1 := busindex bs0 (r_g1 r)) in *. set (l2 := busindex bs0 (r_g2 r)) in *.
      assert (L1 : l1 < length bs) by (rewrite L; apply nth_error_Some; congruence).
      assert (L2 : l2 < length bs) by (rewrite L; apply nth_error_Some; congruence).
      destruct (Nat.ltb_spec l1 (length bs)); [|lia]. destruct (Nat.ltb_spec l2 (length bs)); [|lia]. cbn [andb].
      set (bs1 := add_neighbor (add_neighbor bs l1 lidx) l2 lidx).
      assert (S1 : same_but_nbr bs1 bs0).
      { unfold bs1, same_but_nbr. rewrite (add_neighbor_same (add_neighbor bs l1 lidx) l2 lidx), (add_neighbor_same bs l1 lidx). exact Hs. }
      destruct (IH (S lidx) bs1 S1) as (bs' & E & S' & N').
      { intros r' Hr'. apply Hr. now right. }
      exists bs'. rewrite E. split; [reflexivity|]. split; [exact S'|].
      intros i b Hb. destruct (N' i b Hb) as (b' & Hb' & En). unfold bs1 in Hb'.
      apply add_neighbor_nbr in Hb' as (b'' & Hb'' & En2). apply add_neighbor_nbr in Hb'' as (b0 & Hb0 & En1).
      exists b0. split; auto. rewrite En, En2, En1. cbn [combine length seq flat_map]. unfold ends_at at 2. simpl fst; simpl snd.
      fold l1 l2. now rewrite <- !app_assoc.
  Qed.
End Link.

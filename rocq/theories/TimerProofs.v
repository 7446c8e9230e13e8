(** Proofs about the timer. *)
From Verif Require Import Prelude TimerModel TimerSpec.
Open Scope nat_scope.

Definition good (t : timer) : Prop :=
  NoDup (t_title t) /\ (forall s i, map_find (t_map t) s = Some i <-> nth_error (t_title t) i = Some s) /\
  length (t_start t) = length (t_title t) /\ length (t_time t) = length (t_title t) /\
  length (t_istart t) = length (t_title t) /\ length (t_istop t) = length (t_title t).
Lemma good_new : good new_timer.
Proof. repeat split; try constructor; cbn; try discriminate. destruct i; discriminate. Qed.
Lemma nth_error_snoc {A} (l : list A) x i : nth_error (l ++ [x])%list i = if i =? length l then Some x else nth_error l i.
Proof.
  destruct (Nat.eqb_spec i (length l)) as [->|H]; [rewrite nth_error_app2, Nat.sub_diag by lia; reflexivity|].
  destruct (lt_dec i (length l)); [now rewrite nth_error_app1|]. rewrite nth_error_app2 by lia.
  destruct (i - length l) as [|[|k]] eqn:E; try lia; cbn; symmetry; apply nth_error_None; lia.
Qed.
Lemma create_good t s : good t -> let '(t', i) := create t s in good t' /\ nth_error (t_title t') i = Some s /\
  t_title t' = (if in_dec string_dec s (t_title t) then t_title t else t_title t ++ [s])%list /\ t_on t' = t_on t /\
  (forall h, h < length (t_title t') -> zat (t_start t') h = zat (t_start t) h /\ zat (t_time t') h = zat (t_time t) h /\
             zat (t_istart t') h = zat (t_istart t) h /\ zat (t_istop t') h = zat (t_istop t) h).
Proof.
  intros (HN & HM & L1 & L2 & L3 & L4). unfold create. destruct (map_find (t_map t) s) as [i|] eqn:E.
  - assert (Hi := proj1 (HM _ _) E). split; [repeat split; auto; apply HM|]. split; [exact Hi|]. split; [|repeat split; auto].
    destruct (in_dec string_dec s (t_title t)) as [_|H]; [reflexivity|]. exfalso. apply H. eapply nth_error_In, Hi.
  - assert (Hs : ~ In s (t_title t)).
    { intros H. apply In_nth_error in H as (i & Hi). apply HM in Hi. congruence. }
    cbn [t_title t_start t_time t_istart t_istop t_map t_on]. split.
    + split; [|split; [|cbn [t_title t_start t_time t_istart t_istop t_map]; rewrite !app_length; cbn [length]; lia]].
      * cbn [t_title]. apply Permutation.Permutation_NoDup with (l := s :: t_title t); [apply Permutation_cons_append|]. now constructor.
      * intros s' i. cbn [t_map t_title map_find]. rewrite nth_error_snoc. destruct (String.eqb_spec s s') as [<-|Hne].
        -- destruct (Nat.eqb_spec i (length (t_title t))) as [->|Hi]; [tauto|]. split; [intros F; injection F; lia|].
           intros F. exfalso. apply Hs. eapply nth_error_In, F.
        -- destruct (Nat.eqb_spec i (length (t_title t))) as [->|Hi]; [|apply HM]. split; [|congruence].
           intros F. apply HM in F. assert (length (t_title t) < length (t_title t)) by (apply nth_error_Some; congruence). lia.
    + split; [now rewrite nth_error_snoc, Nat.eqb_refl|]. split; [|split; [reflexivity|]].
      * destruct (in_dec string_dec s (t_title t)); [contradiction|reflexivity].
      * intros h _. unfold zat.
        assert (Z : forall l : list Z, nth h (l ++ [0%Z])%list 0%Z = nth h l 0%Z).
        { intros l. destruct (lt_dec h (length l)); [now rewrite app_nth1|]. rewrite app_nth2, (nth_overflow l) by lia.
          destruct (h - length l) as [|[|]]; reflexivity. }
        now rewrite !Z.
Qed.

(** The state of category [h] as a function of the calls made to it. *)
Fixpoint clock (h : nat) (since acc : Z) (cs : list call) : Z * Z :=
  match cs with
  | [] => (since, acc)
  | Start i now :: r => if (i =? Z.of_nat h)%Z then clock h now acc r else clock h since acc r
  | Stop i now :: r => if (i =? Z.of_nat h)%Z then clock h since (acc + (now - since)) r else clock h since acc r
  | _ :: r => clock h since acc r
  end.
Definition nstart h l := Z.of_nat (length (filter (fun c => match c with Start i _ => (i =? Z.of_nat h)%Z | _ => false end) l)).
Definition nstop h l := Z.of_nat (length (filter (fun c => match c with Stop i _ => (i =? Z.of_nat h)%Z | _ => false end) l)).
Lemma zat_upd l i x h : i < length l -> zat (upd l i x) h = if h =? i then x else zat l h.
Proof.
  intros H. unfold zat. destruct (Nat.eqb_spec h i) as [->|Hne].
  - apply nth_error_nth. now apply nth_error_upd_same.
  - destruct (nth_error l h) as [y|] eqn:E.
    + rewrite (nth_error_nth l h 0%Z E). apply nth_error_nth. rewrite nth_error_upd_other; auto.
    + apply nth_error_None in E. rewrite !nth_overflow; auto. now rewrite upd_length.
Qed.

Lemma titles_grow seen cs : exists l, titles seen cs = (seen ++ l)%list.
Proof.
  revert seen; induction cs as [|[s|i n|i n|f] cs IH]; intros seen; cbn [titles]; auto.
  - exists []. now rewrite app_nil_r.
  - destruct (in_dec string_dec s seen); [apply IH|]. destruct (IH (seen ++ [s])%list) as (l & ->). exists ([s] ++ l)%list. now rewrite app_assoc.
Qed.

Lemma run_spec cs : forall t t' hs, good t -> run t cs = Ok (t', hs) ->
  good t' /\ t_title t' = titles (t_title t) cs /\ Forall2 (fun s h => nth_error (t_title t') h = Some s) (created cs) hs /\
  (forall h, zat (t_istart t') h = (zat (t_istart t) h + nstart h (enabled (t_on t) cs))%Z /\
             zat (t_istop t') h = (zat (t_istop t) h + nstop h (enabled (t_on t) cs))%Z /\
             (zat (t_start t') h, zat (t_time t') h) = clock h (zat (t_start t) h) (zat (t_time t) h) (enabled (t_on t) cs)).
Proof.
  induction cs as [|[s|i now|i now|f] cs IH]; intros t t' hs G; cbn [run].
  - intros E. injection E as <- <-. cbn [titles enabled created flat_map]. repeat split; try apply G; auto; unfold nstart, nstop; cbn; lia.
  - assert (C := create_good s G). destruct (create t s) as [t1 i]. destruct C as (G1 & Hi & Ht & Hon & Hz).
    destruct (run t1 cs) as [[t2 hs2]| |] eqn:E; cbn [obind fst snd]; try discriminate. intros F. injection F as <- <-.
    destruct (IH _ _ _ G1 E) as (G2 & T2 & F2 & S2). cbn [titles enabled created flat_map]. rewrite Hon in S2. rewrite Ht in T2.
    split; [exact G2|]. split; [exact T2|]. split.
    + cbn [app]. constructor; [|exact F2]. rewrite T2. destruct (titles_grow (if in_dec string_dec s (t_title t) then t_title t else t_title t ++ [s])%list cs) as (l & ->).
      rewrite <- Ht. rewrite nth_error_app1; [exact Hi|]. apply nth_error_Some. congruence.
    + intros h. destruct (S2 h) as (A & B & C). rewrite A, B, C. clear A B C.
      destruct (lt_dec h (length (t_title t1))) as [H|H].
      * destruct (Hz h H) as (-> & -> & -> & ->). auto.
      * destruct G as (_ & _ & L1 & L2 & L3 & L4), G1 as (_ & _ & M1 & M2 & M3 & M4). 
        assert (LE : length (t_title t) <= length (t_title t1)) by (rewrite Ht; destruct (in_dec string_dec s (t_title t)); rewrite ?app_length; lia).
        unfold zat. rewrite !nth_overflow by lia. auto.
  - unfold start. destruct (t_on t) eqn:On; cbn [negb].
    + destruct ((0 <=? i)%Z && (i <? Z.of_nat (length (t_title t)))%Z) eqn:R; cbn [obind]; [|discriminate].
      apply andb_prop in R as (R1 & R2). apply Z.leb_le in R1. apply Z.ltb_lt in R2. intros E.
      assert (G' := G). destruct G' as (HN & HM & L1 & L2 & L3 & L4).
      apply IH in E; [|repeat split; auto; cbn [t_title t_start t_time t_istart t_istop t_map]; rewrite ?upd_length; auto; apply HM].
      destruct E as (G2 & T2 & F2 & S2). cbn [t_title t_start t_time t_istart t_istop t_map t_on] in *.
      split; [exact G2|]. split; [exact T2|]. split; [exact F2|]. intros h. destruct (S2 h) as (A & B & C). rewrite A, B, C. clear A B C.
      cbn [enabled]. rewrite !zat_upd by lia. unfold nstart, nstop. cbn [filter clock].
      destruct (Nat.eqb_spec h (Z.to_nat i)) as [->|Hne].
      * rewrite Z2Nat.id, Z.eqb_refl by lia. cbn [length]. repeat split; try lia.
      * destruct (Z.eqb_spec i (Z.of_nat h)) as [->|Hz]; [rewrite Nat2Z.id in Hne; lia|]. repeat split; lia.
    + cbn [obind]. intros E. apply IH in E; [|exact G]. cbn [titles enabled created flat_map app]. rewrite On in E. exact E.
  - unfold stop. destruct (t_on t) eqn:On; cbn [negb].
    + destruct ((0 <=? i)%Z && (i <? Z.of_nat (length (t_title t)))%Z) eqn:R; cbn [obind]; [|discriminate].
      apply andb_prop in R as (R1 & R2). apply Z.leb_le in R1. apply Z.ltb_lt in R2. intros E.
      assert (G' := G). destruct G' as (HN & HM & L1 & L2 & L3 & L4).
      apply IH in E; [|repeat split; auto; cbn [t_title t_start t_time t_istart t_istop t_map]; rewrite ?upd_length; auto; apply HM].
      destruct E as (G2 & T2 & F2 & S2). cbn [t_title t_start t_time t_istart t_istop t_map t_on] in *.
      split; [exact G2|]. split; [exact T2|]. split; [exact F2|]. intros h. destruct (S2 h) as (A & B & C). rewrite A, B, C. clear A B C.
      cbn [enabled]. rewrite !zat_upd by lia. unfold nstart, nstop. cbn [filter clock].
      destruct (Nat.eqb_spec h (Z.to_nat i)) as [->|Hne].
      * rewrite Z2Nat.id, Z.eqb_refl by lia. cbn [length]. repeat split; try lia.
      * destruct (Z.eqb_spec i (Z.of_nat h)) as [->|Hz]; [rewrite Nat2Z.id in Hne; lia|]. repeat split; lia.
    + cbn [obind]. intros E. apply IH in E; [|exact G]. cbn [titles enabled created flat_map app]. rewrite On in E. exact E.
  - intros E. apply IH in E; [|exact G]. exact E.
Qed.

Lemma clock_filter h cs : forall s a, clock h s a (filter (fun c => match c with Start i _ => (i =? Z.of_nat h)%Z | Stop i _ => (i =? Z.of_nat h)%Z | _ => false end) cs) = clock h s a cs.
Proof.
  induction cs as [|[x|i n|i n|f] cs IH]; intros s a; cbn [filter clock]; auto.
  - destruct (i =? Z.of_nat h)%Z eqn:E; cbn [clock]; rewrite ?E; auto.
  - destruct (i =? Z.of_nat h)%Z eqn:E; cbn [clock]; rewrite ?E; auto.
Qed.
Lemma clock_paired h ivs : forall s a, snd (clock h s a (paired h ivs)) = (a + total ivs)%Z.
Proof.
  induction ivs as [|[u v] ivs IH]; intros s a; [cbn; lia|]. unfold paired. cbn [flat_map app clock fst snd]. rewrite Z.eqb_refl.
  fold (paired h ivs). rewrite IH. unfold total. cbn [fold_right fst snd]. lia.
Qed.

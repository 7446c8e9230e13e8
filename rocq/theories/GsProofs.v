(** Proofs for the shuffler over Global Arrays: the invariant of the loop. *)
From Coq Require Import Ascii.
From Verif Require Import Prelude GAModel ParModel GsModel.

Ltac Zify.zify_post_hook ::= Z.to_euclidean_division_equations.

(** * Characters and ints *)
Lemma words_bytes : forall s, exists pad, concat (words s) = (s ++ pad)%list.
Proof.
  fix IH 1. intros [|a [|b [|c [|d r]]]].
  - exists []. reflexivity.
  - eexists. reflexivity.
  - eexists. reflexivity.
  - eexists. reflexivity.
  - destruct (IH r) as (pad & E). exists pad. cbn [words concat]. rewrite E. reflexivity.
Qed.
Lemma words_nil s : words s = [] -> s = [].
Proof. destruct s as [|a [|b [|c [|d r]]]]; cbn; congruence. Qed.

(** * Lists *)
Lemma nth_error_nth' {A} (l : list A) i d : i < length l -> nth_error l i = Some (nth i l d).
Proof. revert i; induction l as [|x l IH]; intros [|i] H; cbn in *; try lia; auto. apply IH; lia. Qed.
Lemma upd_same {A} (l : list A) i x d : i < length l -> nth i (upd l i x) d = x.
Proof. revert i; induction l as [|y l IH]; intros [|i] H; cbn in *; try lia; auto. apply IH; lia. Qed.
Lemma upd_other {A} (l : list A) i j x d : i <> j -> nth j (upd l i x) d = nth j l d.
Proof. revert i j; induction l as [|y l IH]; intros [|i] [|j] H; cbn in *; auto; lia. Qed.
Lemma In_upd {A} (l : list A) i x y : In y (upd l i x) -> y = x \/ In y l.
Proof. revert i; induction l as [|z l IH]; intros [|i] H; cbn in *; auto; destruct H as [->|H]; auto. destruct (IH _ H); auto. Qed.
Lemma maxl_le l x : In x l -> x <= maxl l.
Proof. unfold maxl. induction l as [|y l IH]; cbn [fold_right In]; [tauto|]. intros [->|H]; [apply Nat.le_max_l|]. specialize (IH H). eapply Nat.le_trans; [exact IH|apply Nat.le_max_r]. Qed.
Lemma firstn_put {A} (xs : list A) g : firstn (length xs) (map Some xs ++ g)%list = map Some xs.
Proof. rewrite <- (map_length Some xs) at 1. rewrite firstn_app, Nat.sub_diag, firstn_all. cbn. apply app_nil_r. Qed.
Lemma all_written_some {A} (l : list A) : all_written (map Some l) = Ok l.
Proof. induction l as [|x l IH]; cbn; auto. now rewrite IH. Qed.

(** * The program as phases between syncs *)
Definition puts (n me : nat) : list op := PutSizes :: map PutRow (filter (fun p => negb (p =? me)) (iota n)).
Definition phase (n me j : nat) : list op :=
  if Nat.even j then (if me =? j / 2 then puts n me else []) else (if me =? j / 2 then [] else [GetSize; GetRow]).
Definition rest (n me j : nat) : list op := flat_map (fun i => phase n me i ++ [Arrive; Go])%list (seq j (2 * n - j)).

Lemma phase_even n me s : phase n me (2 * s) = if me =? s then puts n me else [].
Proof. unfold phase. rewrite Nat.even_mul. cbn [Nat.even orb]. replace (2 * s / 2) with s by lia. reflexivity. Qed.
Lemma phase_odd n me s : phase n me (S (2 * s)) = if me =? s then [] else [GetSize; GetRow].
Proof.
  unfold phase. rewrite Nat.even_succ. replace (Nat.odd (2 * s)) with false by (unfold Nat.odd; rewrite Nat.even_mul; reflexivity).
  replace (S (2 * s) / 2) with s by lia. reflexivity.
Qed.
Lemma rest_step n me j : j < 2 * n -> rest n me j = (phase n me j ++ Arrive :: Go :: rest n me (S j))%list.
Proof.
  intros H. unfold rest. replace (2 * n - j) with (S (2 * n - S j)) by lia. cbn [seq flat_map].
  now rewrite <- app_assoc.
Qed.
Lemma rest_end n me : rest n me (2 * n) = [].
Proof. unfold rest. now rewrite Nat.sub_diag. Qed.
Lemma program_rest n me : program n me = rest n me 0.
Proof.
  unfold program, iota.
  assert (G : forall m s, s + m = n -> flat_map (round n me) (seq s m) = rest n me (2 * s)).
  { induction m as [|m IH]; intros s E.
    - replace s with n by lia. now rewrite rest_end.
    - cbn [seq flat_map]. rewrite IH by lia. rewrite (@rest_step n me (2 * s)), (@rest_step n me (S (2 * s))) by lia.
      rewrite phase_even, phase_odd. replace (2 * S s) with (S (S (2 * s))) by lia.
      unfold round. fold (puts n me). destruct (me =? s); cbn; rewrite <- ?app_assoc; reflexivity. }
  exact (G n 0 eq_refl).
Qed.

Section GsP.
Context {T : Type}.
Variable ser : list T -> list ascii.
Variable unser : list ascii -> option (list T).
Hypothesis Huns : forall v pad, unser (ser v ++ pad)%list = Some v.
Hypothesis Hne : forall v, ser v <> [].
(** What the ranks keep and send: own q, and msg s p from s to p *)
Variable n : nat.
Variable rs : list (list T * list (list T)).
Notation own q := (fst (nth q rs ([], []))).
Notation msg s p := (nth p (snd (nth s rs ([], []))) []).
Notation buf s p := (words (ser (msg s p))).
Notation bufsOf s := (buffers ser n s (snd (nth s rs ([], [])))).
Notation sizesOf s := (map (@length _) (bufsOf s)).
Notation rank := (@rank T).
Notation gstate := (@gstate T).

Definition recv (q m : nat) : list T := concat (map (fun s => if s =? q then [] else msg s q) (iota m)).
Definition dfl : rank := Rank [] 0 0 0 [] [] [].
Definition rk (s : gstate) (q : nat) : rank := nth q (gs_ranks s) dfl.
(** Number of sources received from when k calls of phase j are done *)
Definition nrec (j k : nat) : nat := j / 2 + (if Nat.odd j && (2 <=? k) then 1 else 0).

Definition fixed (q : nat) (r : rank) : Prop := rk_sizes r = sizesOf q /\ rk_bufs r = bufsOf q.
Definition at_ (q : nat) (r : rank) (j k : nat) : Prop :=
  j < 2 * n /\ k <= length (phase n q j) /\ rk_todo r = (skipn k (phase n q j) ++ Arrive :: Go :: rest n q (S j))%list /\
  rk_in r = j /\ rk_out r = j.
Definition waiting (q : nat) (r : rank) (j : nat) : Prop :=
  j < 2 * n /\ rk_todo r = Go :: rest n q (S j) /\ rk_in r = S j /\ rk_out r = j.
Definition done (r : rank) : Prop := rk_todo r = [] /\ rk_in r = 2 * n /\ rk_out r = 2 * n.
Definition rank_ok (q : nat) (r : rank) : Prop :=
  fixed q r /\
  ((exists j k, at_ q r j k /\ rk_loc r = (own q ++ recv q (nrec j k))%list /\
      (Nat.odd j = true -> k = 1 -> rk_size r = length (buf (j / 2) q))) \/
   (exists j, waiting q r j /\ rk_loc r = (own q ++ recv q (S j / 2))%list) \/
   (done r /\ rk_loc r = (own q ++ recv q n)%list)).

(** The effect of a call is in the arrays *)
Definition vis (s : gstate) (q : nat) (o : op) : Prop :=
  match o with
  | PutSizes => gs_sizes s = map Some (sizesOf q)
  | PutRow p => firstn (length (buf q p)) (nth p (gs_rows s) []) = map Some (buf q p)
  | _ => True
  end.
Definition quiet (s : gstate) (q : nat) : Prop := forall q', q < q' < n -> rk_out (rk s q') < 2 * q'.

Record Inv (s : gstate) : Prop := {
  i_len : length (gs_ranks s) = n;
  i_sz : length (gs_sizes s) = n;
  i_rows : length (gs_rows s) = n;
  i_wid : forall row q p, In row (gs_rows s) -> q < n -> p < n -> q <> p -> length (buf q p) <= length row;
  i_rk : forall q, q < n -> rank_ok q (rk s q);
  i_sync : forall q q', q < n -> q' < n -> rk_out (rk s q) <= rk_in (rk s q');
  i_at : forall q k, q < n -> at_ q (rk s q) (2 * q) k -> quiet s q -> forall o, In o (firstn k (puts n q)) -> vis s q o;
  i_all : forall q, q < n -> 2 * q < rk_in (rk s q) -> quiet s q -> forall o, In o (puts n q) -> vis s q o }.

Lemma recv_S q m : recv q (S m) = (recv q m ++ if m =? q then [] else msg m q)%list.
Proof. unfold recv, iota. rewrite seq_S, map_app, concat_app. cbn. now rewrite app_nil_r. Qed.

Lemma at_inj q r j k j' k' : at_ q r j k -> at_ q r j' k' -> j = j' /\ k = k'.
Proof.
  intros (H1 & H2 & H3 & H4 & H5) (G1 & G2 & G3 & G4 & G5). assert (E : j' = j) by lia. clear G4 G5. subst j'. split; [reflexivity|].
  rewrite H3 in G3. apply (f_equal (@length _)) in G3. rewrite !app_length, !skipn_length in G3. cbn [length] in G3. lia.
Qed.

Lemma bufsOf_nth q p : p < n -> nth p (bufsOf q) [] = if p =? q then [] else buf q p.
Proof.
  intros H. unfold buffers. set (f := fun p0 : nat => _).
  rewrite (nth_indep _ [] (f 0)) by (rewrite map_length; unfold iota; rewrite seq_length; exact H).
  rewrite map_nth. unfold iota. rewrite seq_nth by exact H. reflexivity.
Qed.
Lemma sizesOf_len q : length (sizesOf q) = n.
Proof. unfold buffers. rewrite !map_length. unfold iota. apply seq_length. Qed.
Lemma sizesOf_nth q p : p < n -> q <> p -> nth p (sizesOf q) 0 = length (buf q p).
Proof.
  intros H D. replace 0 with (length (@nil word)) by reflexivity. rewrite map_nth, bufsOf_nth by exact H.
  destruct (Nat.eqb_spec p q); [congruence|reflexivity].
Qed.
Lemma buf_nonempty q p : buf q p <> [].
Proof. intros E. apply words_nil in E. exact (@Hne _ E). Qed.

Lemma in_puts q o : In o (puts n q) -> o = PutSizes \/ exists p, o = PutRow p /\ p < n /\ p <> q.
Proof.
  intros [<-|H]; [auto|]. right. apply in_map_iff in H as (p & <- & H). apply filter_In in H as [H D].
  apply in_iota in H. exists p. repeat split; auto. intros ->. rewrite Nat.eqb_refl in D. discriminate.
Qed.

(** What a rank that does something else than waiting is doing *)
Lemma at_cases q r j k o l : at_ q r j k -> rk_todo r = o :: l ->
  (k < length (phase n q j) /\ nth_error (phase n q j) k = Some o /\ l = (skipn (S k) (phase n q j) ++ Arrive :: Go :: rest n q (S j))%list) \/
  (k = length (phase n q j) /\ o = Arrive /\ l = Go :: rest n q (S j)).
Proof.
  intros (H1 & H2 & H3 & H4 & H5) E. rewrite E in H3. clear E.
  destruct (Nat.eq_dec k (length (phase n q j))) as [D|D].
  - right. subst k. rewrite skipn_all in H3. cbn in H3. injection H3 as -> ->. auto.
  - left. assert (L : k < length (phase n q j)) by lia. split; [exact L|].
    destruct (nth_error (phase n q j) k) as [x|] eqn:E; [|apply nth_error_None in E; lia].
    assert (S1 : skipn k (phase n q j) = x :: skipn (S k) (phase n q j)).
    { clear -E. revert k E. induction (phase n q j) as [|y l IH]; intros [|k] E; cbn in *; try discriminate; [congruence|].
      now apply IH. }
    rewrite S1 in H3. cbn in H3. injection H3 as -> ->. auto.
Qed.
End GsP.

From Verif Require Import Prelude TaskModel TaskSpec.
Open Scope Z_scope.
Ltac Zify.zify_post_hook ::= Z.div_mod_to_equations.

Lemma wrap32_small z : -2147483648 <= z < 2147483648 -> wrap32 z = z.
Proof. unfold wrap32. intros H. rewrite Z.mod_small by lia. lia. Qed.

Lemma igop_single v (rs : list nat) : -2147483648 <= v < 2147483648 -> igop_plus (v :: map (fun _ => 0) rs) = v.
Proof.
  intros H. unfold igop_plus. cbn [fold_right].
  replace (fold_right (fun x acc => wrap32 (x + acc)) 0 (map (fun _ => 0) rs)) with 0.
  - rewrite Z.add_0_r. apply wrap32_small; auto.
  - induction rs as [|r rs IH]; cbn; auto. rewrite <- IH. reflexivity.
Qed.

Lemma seq_cons a n : seq a (S n) = a :: seq (S a) n.
Proof. reflexivity. Qed.

(** The tasks left when [k] calls have been made. *)
Definition left (n : nat) (v : Z) : list Z := map Z.of_nat (seq (Z.to_nat v) (n - Z.to_nat v)).

Lemma left_nil n v : Z.of_nat n <= v -> left n v = [].
Proof. intros H. unfold left. replace (n - Z.to_nat v)%nat with 0%nat by lia. auto. Qed.
Lemma left_cons n v : 0 <= v < Z.of_nat n -> left n v = v :: left n (v + 1).
Proof.
  intros H. unfold left. replace (n - Z.to_nat v)%nat with (S (n - Z.to_nat (v + 1)))%nat by lia.
  rewrite seq_cons. cbn [map]. f_equal; [lia|]. replace (Z.to_nat (v + 1)) with (S (Z.to_nat v)) by lia. auto.
Qed.

Lemma trun_ideal n cs : forall s,
  ntasks s = Z.of_nat n -> 0 <= counter s ->
  counter s + Z.of_nat n * Z.of_nat (cancels cs) + Z.of_nat (length cs) < 2147483648 ->
  snd (trun s cs) = ideal (left n (counter s)) cs.
Proof.
  induction cs as [|c cs IH]; intros s Hn H0 Hb; cbn [trun ideal]; auto.
  assert (Hc0 : 0 <= Z.of_nat n * Z.of_nat (cancels cs)) by lia.
  assert (Hlen : Z.of_nat (length (c :: cs)) = Z.of_nat (length cs) + 1) by (cbn [length]; lia).
  rewrite Hlen in Hb.
  destruct c as [r|rs|r].
  - cbn [tstep read_inc]. unfold answer. cbn [ntasks counter].
    assert (Hcan : cancels (Next r :: cs) = cancels cs) by auto. rewrite Hcan in Hb.
    rewrite wrap32_small by lia. rewrite Hn.
    destruct (Z.ltb_spec (counter s) (Z.of_nat n)); cbn [count_if fst].
    + rewrite left_cons by lia.
      match goal with |- context [trun ?s1 cs] => specialize (IH s1); destruct (trun s1 cs) as [s2 al] eqn:E end.
      cbn [snd] in *. cbn [map]. f_equal. apply IH; cbn; auto; lia.
    + rewrite left_nil by lia.
      match goal with |- context [trun ?s1 cs] => specialize (IH s1); destruct (trun s1 cs) as [s2 al] eqn:E end.
      cbn [snd] in *. cbn [map]. f_equal. rewrite IH; cbn; auto; try lia. rewrite left_nil by lia. auto.
  - assert (Hcan : cancels (NextGroup rs :: cs) = cancels cs) by auto. rewrite Hcan in Hb.
    destruct rs as [|r0 rs].
    + cbn [tstep]. specialize (IH s). destruct (trun s cs) as [s2 al]. cbn [snd] in *. f_equal. apply IH; auto; lia.
    + unfold tstep. cbn [read_inc]. rewrite igop_single by lia. unfold answer. cbn [ntasks counter].
      rewrite wrap32_small by lia. rewrite Hn.
      destruct (Z.ltb_spec (counter s) (Z.of_nat n)); cbn [count_if fst].
      * rewrite left_cons by lia.
        match goal with |- context [trun ?s1 cs] => specialize (IH s1); destruct (trun s1 cs) as [s2 al] eqn:E end.
        cbn [snd] in *. f_equal. apply IH; cbn [counter ntasks]; auto; lia.
      * rewrite left_nil by lia.
        match goal with |- context [trun ?s1 cs] => specialize (IH s1); destruct (trun s1 cs) as [s2 al] eqn:E end.
        cbn [snd] in *. f_equal. rewrite IH; cbn [counter ntasks]; auto; try lia. rewrite left_nil by lia. auto.
  - assert (Hcan : cancels (Cancel r :: cs) = S (cancels cs)) by auto. rewrite Hcan in Hb.
    cbn [tstep read_inc snd]. rewrite Hn. rewrite wrap32_small by nia.
    match goal with |- context [trun ?s1 cs] => specialize (IH s1); destruct (trun s1 cs) as [s2 al] eqn:E end.
    cbn [snd] in *. f_equal. rewrite IH; cbn [counter ntasks]; auto; try nia. rewrite left_nil by lia. auto.
Qed.

Lemma left_0 n : left n 0 = tasks n.
Proof. unfold left, tasks, iota. simpl. rewrite Nat.sub_0_r. auto. Qed.

Lemma task_refines n P cs : no_overflow n cs = true ->
  snd (trun (tm_set (Z.of_nat n) P) cs) = ideal (tasks n) cs.
Proof.
  unfold no_overflow. intros H. rewrite (@trun_ideal n); cbn [counter ntasks tm_set]; auto; try lia.
  rewrite left_0. auto.
Qed.

(** ** Exactly once *)
Lemma given_cons a al : given (a :: al) = given [a] ++ given al.
Proof. unfold given. simpl. rewrite app_nil_r. auto. Qed.

Lemma given_empty_queue cs : given (ideal [] cs) = [].
Proof.
  induction cs as [|c cs IH]; auto. cbn [ideal]. destruct c as [r|[|r0 rs]|r]; cbn; auto.
Qed.

Lemma given_ideal q cs : cancels cs = 0%nat ->
  given (ideal q cs) = firstn (length (filter asks cs)) q.
Proof.
  revert q; induction cs as [|c cs IH]; intros q Hc; [reflexivity|]. cbn [ideal].
  destruct c as [r|[|r0 rs]|r]; cbn [filter asks].
  - destruct q as [|t q]; rewrite given_cons, IH by auto; cbn [map given flat_map app length]; [rewrite !firstn_nil|]; auto.
  - rewrite given_cons, IH by auto. auto.
  - destruct q as [|t q]; rewrite given_cons, IH by auto; cbn [map given flat_map app length]; [rewrite !firstn_nil|]; auto.
  - discriminate.
Qed.

Lemma firstn_seq k a n : firstn k (seq a n) = seq a (Nat.min k n).
Proof. revert a n; induction k as [|k IH]; intros a [|n]; simpl; auto. f_equal. apply IH. Qed.

Lemma tasks_NoDup n : NoDup (tasks n).
Proof. unfold tasks, iota. apply FinFun.Injective_map_NoDup; [intros a b; lia | apply seq_NoDup]. Qed.

Lemma in_tasks n t : In t (tasks n) <-> 0 <= t < Z.of_nat n.
Proof.
  unfold tasks. rewrite in_map_iff. split.
  - intros (x & <- & Hx). apply in_iota in Hx. lia.
  - intros H. exists (Z.to_nat t). split; [lia|]. apply in_iota. lia.
Qed.

Lemma given_run n P cs : no_overflow n cs = true -> cancels cs = 0%nat ->
  given (snd (trun (tm_set (Z.of_nat n) P) cs)) = tasks (Nat.min (length (filter asks cs)) n).
Proof.
  intros H Hc. rewrite task_refines by auto. rewrite given_ideal by auto. unfold tasks, iota.
  rewrite firstn_map, firstn_seq. auto.
Qed.

Lemma exactly_once n P cs : no_overflow n cs = true -> cancels cs = 0%nat ->
  let g := given (snd (trun (tm_set (Z.of_nat n) P) cs)) in
  NoDup g /\ (forall t, In t g -> 0 <= t < Z.of_nat n) /\
  ((n <= length (filter asks cs))%nat -> forall t, 0 <= t < Z.of_nat n -> In t g).
Proof.
  intros H Hc g. subst g. rewrite given_run by auto. repeat split.
  - apply tasks_NoDup.
  - apply in_tasks in H0. lia.
  - apply in_tasks in H0. lia.
  - intros Hn t Ht. apply in_tasks. lia.
Qed.

(** A false answer is given only when every task has been given out before. *)
Lemma ideal_length q cs : length (ideal q cs) = length cs.
Proof.
  revert q; induction cs as [|c cs IH]; intros q; auto. cbn [ideal].
  destruct c as [r|[|r0 rs]|r]; try destruct q; cbn [length map]; f_equal; auto.
Qed.

Lemma trun_app s cs1 cs2 :
  trun s (cs1 ++ cs2) = let '(s1, a1) := trun s cs1 in let '(s2, a2) := trun s1 cs2 in (s2, a1 ++ a2).
Proof.
  revert s; induction cs1 as [|c cs1 IH]; intros s; cbn [trun app].
  - destruct (trun s cs2); auto.
  - destruct (tstep s c) as [s1 a]. rewrite IH. destruct (trun s1 cs1) as [s2 a1]. destruct (trun s2 cs2); auto.
Qed.

Lemma ideal_app q cs1 cs2 : cancels cs1 = 0%nat ->
  ideal q (cs1 ++ cs2) = ideal q cs1 ++ ideal (skipn (length (filter asks cs1)) q) cs2.
Proof.
  revert q; induction cs1 as [|c cs1 IH]; intros q Hc; auto. cbn [app ideal filter].
  destruct c as [r|[|r0 rs]|r]; cbn [asks]; try discriminate.
  - destruct q as [|t q]; cbn [length app]; f_equal; rewrite IH by auto; rewrite ?skipn_nil; auto.
  - cbn [app]; f_equal; apply IH; auto.
  - destruct q as [|t q]; cbn [length app]; f_equal; rewrite IH by auto; rewrite ?skipn_nil; auto.
Qed.

Lemma false_means_exhausted n P cs1 c cs2 p v :
  no_overflow n (cs1 ++ c :: cs2) = true -> cancels (cs1 ++ c :: cs2) = 0%nat ->
  (exists a, nth_error (snd (trun (tm_set (Z.of_nat n) P) (cs1 ++ c :: cs2))) (length cs1) = Some a /\ In (p, (false, v)) a) ->
  v = -1 /\ given (snd (trun (tm_set (Z.of_nat n) P) cs1)) = tasks n.
Proof.
  intros H Hc (a & Ha & Hin). rewrite task_refines in Ha by auto.
  assert (Hc1 : cancels cs1 = 0%nat).
  { unfold cancels in *. rewrite filter_app, app_length in Hc. lia. }
  assert (Hl : (length cs1 <= length (cs1 ++ c :: cs2))%nat) by (rewrite app_length; lia).
  assert (H1 : no_overflow n cs1 = true).
  { unfold no_overflow in *. rewrite Hc in H. rewrite Hc1. lia. }
  rewrite ideal_app in Ha by auto.
  rewrite nth_error_app2 in Ha by (rewrite ideal_length; auto).
  rewrite ideal_length, Nat.sub_diag in Ha.
  rewrite given_run by auto.
  assert (Hq : forall q, nth_error (ideal q (c :: cs2)) 0 = Some a -> q = [] /\ v = -1).
  { intros q Hq. cbn [ideal] in Hq.
    assert (Hcc : is_cancel c = false).
    { destruct (is_cancel c) eqn:Ec; auto. unfold cancels in Hc. rewrite filter_app, app_length in Hc.
      cbn [filter] in Hc. rewrite Ec in Hc. cbn [length] in Hc. lia. }
    destruct c as [r|[|r0 rs]|r]; try discriminate Hcc; destruct q as [|t q]; cbn [nth_error] in Hq; injection Hq as <-;
      cbn [map] in Hin; try contradiction.
    - destruct Hin as [E|[]]. injection E as <- <-. auto.
    - destruct Hin as [E|[]]. discriminate.
    - apply (in_map_iff (fun p0 => (p0, (false, -1))) (r0 :: rs)) in Hin. destruct Hin as (x & E & _). injection E as <- <-. auto.
    - apply (in_map_iff (fun p0 => (p0, (true, t))) (r0 :: rs)) in Hin. destruct Hin as (x & E & _). discriminate. }
  apply Hq in Ha. destruct Ha as [Ha Hv]. split; auto.
  f_equal. apply (f_equal (@length Z)) in Ha. rewrite skipn_length in Ha. unfold tasks, iota in Ha.
  rewrite map_length, seq_length in Ha. cbn [length] in Ha. lia.
Qed.

(** After a cancel nobody gets a task. *)
Lemma ideal_nil_all_false cs a p x : In a (ideal [] cs) -> In (p, x) a -> x = (false, -1).
Proof.
  induction cs as [|c cs IH]; cbn [ideal]; [contradiction|].
  destruct c as [r|[|r0 rs]|r]; cbn [map In]; intros [E|E] Hin; try (apply IH; assumption); subst a; try contradiction.
  - destruct Hin as [E|[]]; congruence.
  - destruct Hin as [E|Hin]; [congruence|]. apply (in_map_iff (fun p0 => (p0, (false, -1))) rs) in Hin. destruct Hin as (y & E & _); congruence.
Qed.

Lemma ideal_cancel q cs1 r cs2 : exists l, ideal q (cs1 ++ Cancel r :: cs2) = l ++ [] :: ideal [] cs2 /\ length l = length cs1.
Proof.
  revert q; induction cs1 as [|c cs1 IH]; intros q; cbn [app ideal].
  - exists []. auto.
  - destruct c as [r1|[|r0 rs]|r1]; try destruct q as [|t q];
    match goal with |- context [ideal ?q' (cs1 ++ _)] => destruct (IH q') as (l & E & L); rewrite E end;
    match goal with |- exists l', ?a :: _ = _ /\ _ => exists (a :: l); cbn [length app]; auto end.
Qed.

Lemma cancel_stops n P cs1 r cs2 : no_overflow n (cs1 ++ Cancel r :: cs2) = true ->
  forall a p x, In a (skipn (S (length cs1)) (snd (trun (tm_set (Z.of_nat n) P) (cs1 ++ Cancel r :: cs2)))) ->
  In (p, x) a -> x = (false, -1).
Proof.
  intros H a p x Ha Hin. rewrite task_refines in Ha by auto.
  destruct (@ideal_cancel (tasks n) cs1 r cs2) as (l & E & L). rewrite E, <- L in Ha.
  replace (S (length l)) with (length (l ++ [@nil (nat * (bool * Z))])) in Ha by (rewrite app_length; simpl; lia).
  replace (l ++ [] :: ideal [] cs2) with ((l ++ [[]]) ++ ideal [] cs2) in Ha by (rewrite <- app_assoc; auto).
  rewrite skipn_app, skipn_all, Nat.sub_diag in Ha. simpl in Ha. eapply ideal_nil_all_false; eauto.
Qed.

(** The per-process statistics count exactly the tasks a process received. *)
Lemma bump_nth l r p : nth p (bump l r) 0%nat = (if (Nat.eqb r p && Nat.ltb p (length l))%bool then S (nth p l 0%nat) else nth p l 0%nat).
Proof.
  unfold bump. destruct (nth_error l r) eqn:E.
  - assert (r < length l)%nat by (apply nth_error_Some; congruence).
    destruct (Nat.eqb_spec r p).
    + subst. destruct (Nat.ltb_spec p (length l)); [|lia]. cbn [andb].
      erewrite nth_error_nth by (apply nth_error_upd_same; auto). erewrite nth_error_nth by eauto. auto.
    + cbn [andb]. destruct (nth_error l p) eqn:E2.
      * erewrite nth_error_nth by (rewrite nth_error_upd_other by auto; eauto). erewrite nth_error_nth by eauto. auto.
      * rewrite !nth_overflow; auto; [apply nth_error_None; auto|]. rewrite upd_length. apply nth_error_None; auto.
  - apply nth_error_None in E. destruct (Nat.eqb_spec r p); auto. subst.
    destruct (Nat.ltb_spec p (length l)); [lia|auto].
Qed.

Lemma bump_length l r : length (bump l r) = length l.
Proof. unfold bump. destruct (nth_error l r); auto. apply upd_length. Qed.

Lemma bumps_nth rs : forall l p, (p < length l)%nat ->
  nth p (fold_left bump rs l) 0%nat = (nth p l 0 + length (filter (fun r => Nat.eqb r p) rs))%nat.
Proof.
  induction rs as [|r rs IH]; intros l p Hp; cbn [fold_left filter]; [simpl; lia|].
  rewrite IH by (rewrite bump_length; auto). rewrite bump_nth.
  destruct (Nat.eqb r p) eqn:E; destruct (Nat.ltb_spec p (length l)); simpl; lia.
Qed.

Lemma bumps_length rs : forall l, length (fold_left bump rs l) = length l.
Proof. induction rs; intros; cbn [fold_left]; auto. rewrite IHrs. apply bump_length. Qed.

Lemma filter_members (a : bool * Z) p rs :
  length (filter (fun x : nat * (bool * Z) => Nat.eqb (fst x) p && fst (snd x)) (map (fun r => (r, a)) rs))
  = if fst a then length (filter (fun r => Nat.eqb r p) rs) else 0%nat.
Proof.
  induction rs as [|r rs IH]; cbn [map filter]; [destruct (fst a); auto|]. cbn [fst snd].
  destruct (Nat.eqb r p); destruct (fst a) eqn:E; cbn [andb length]; rewrite ?IH; auto.
Qed.

Lemma tstep_counts s c p : (p < length (counts s))%nat ->
  nth p (counts (fst (tstep s c))) 0%nat = (nth p (counts s) 0 + successes p [snd (tstep s c)])%nat
  /\ length (counts (fst (tstep s c))) = length (counts s).
Proof.
  intros Hp. unfold successes. cbn [concat]. rewrite app_nil_r.
  destruct c as [r|[|r0 rs]|r].
  - cbn [tstep read_inc]. 
    match goal with |- context [answer ?s1 ?v] => set (a := answer s1 v) end.
    cbn [snd fst]. change [(r, a)] with (map (fun r => (r, a)) [r]). rewrite filter_members.
    destruct (fst a); cbn [count_if counts].
    + rewrite bumps_nth, bumps_length by auto. auto.
    + split; auto; lia.
  - simpl. auto.
  - unfold tstep. cbn [read_inc].
    match goal with |- context [answer ?s1 ?v] => set (a := answer s1 v) end.
    cbn [snd fst]. rewrite filter_members.
    destruct (fst a); cbn [count_if counts].
    + rewrite bumps_nth, bumps_length by auto. auto.
    + split; auto; lia.
  - simpl. auto.
Qed.

Lemma successes_cons p a al : successes p (a :: al) = (successes p [a] + successes p al)%nat.
Proof. unfold successes. cbn [concat]. rewrite app_nil_r, filter_app, app_length. auto. Qed.

Lemma trun_counts cs : forall s p, (p < length (counts s))%nat ->
  nth p (counts (fst (trun s cs))) 0%nat = (nth p (counts s) 0 + successes p (snd (trun s cs)))%nat.
Proof.
  induction cs as [|c cs IH]; intros s p Hp; cbn [trun]; [unfold successes; cbn [concat filter length fst snd]; lia|].
  destruct (@tstep_counts s c p Hp) as [H1 H2].
  destruct (tstep s c) as [s1 a]. cbn [fst snd] in *. specialize (IH s1 p).
  destruct (trun s1 cs) as [s2 al]. cbn [fst snd] in *. rewrite IH by lia. rewrite (successes_cons p a al). lia.
Qed.

Lemma stats_exact n P cs p : (p < P)%nat ->
  nth p (counts (fst (trun (tm_set n P) cs))) 0%nat = successes p (snd (trun (tm_set n P) cs)).
Proof.
  intros Hp. rewrite trun_counts by (cbn; rewrite repeat_length; auto). cbn [counts tm_set].
  rewrite nth_repeat. auto.
Qed.

(** Finding: enough cancels overflow the counter and hand out a negative task index. *)
Lemma cancel_refuted : exists n P cs1 r cs2 a p v,
  In a (skipn (S (length cs1)) (snd (trun (tm_set (Z.of_nat n) P) (cs1 ++ Cancel r :: cs2)))) /\
  In (p, (true, v)) a /\ v < 0.
Proof.
  exists (Z.to_nat 1000000), 2148%nat, [], 0%nat, (map Cancel (seq 1 2147) ++ [Next 0]).
  exists [(0%nat, (true, -2146967296))], 0%nat, (-2146967296).
  split; [|split; [left; reflexivity|lia]].
  rewrite Z2Nat.id by lia. cbn [length app].
  match goal with |- In ?x ?l => assert (H : nth_error l 2147 = Some x) by (vm_compute; reflexivity) end.
  eapply nth_error_In; exact H.
Qed.

(** ** divide *)
Lemma quot_div a b : 0 <= a -> 0 < b -> Z.quot a b = a / b.
Proof. intros. apply Z.quot_div_nonneg; lia. Qed.

Lemma nlarge_closed P n : 0 < P -> 0 < n -> nlarge_of P n = Ok (P / n).
Proof.
  intros HP Hn. unfold nlarge_of, cdiv. destruct (Z.eqb_spec n 0); [lia|]. cbn [obind].
  rewrite (@quot_div P n) by lia.
  set (q := P / n). pose proof (Z.div_mod P n ltac:(lia)) as Hd. pose proof (Z.mod_pos_bound P n ltac:(lia)) as Hm.
  fold q in Hd. set (r := P mod n) in *.
  assert (Hq0 : 0 <= q) by (apply Z.div_pos; lia). clearbody q r.
  f_equal.
  destruct (Z.ltb_spec (q * n) P) as [H1|H1].
  - destruct (Z.ltb_spec P ((q + 1) * n)) as [H2|H2]; [|nia].
    replace (P - ((q + 1) * n - P)) with (q * n + (2 * r - n)) by nia.
    destruct (Z_le_gt_dec n (2 * r)).
    + assert (E : Z.quot (q * n + (2 * r - n)) n = q).
      { rewrite quot_div by nia. symmetry. apply Z.div_unique with (2 * r - n); nia. }
      rewrite E. destruct (Z.ltb_spec n (P - q * n)); nia.
    + destruct (Z.eq_dec q 0) as [Hq|Hq].
      * assert (E : Z.quot (q * n + (2 * r - n)) n = 0).
        { rewrite Hq. replace (0 * n + (2 * r - n)) with (- (n - 2 * r)) by lia.
          rewrite Z.quot_opp_l by lia. rewrite Z.quot_small by nia. lia. }
        rewrite E. destruct (Z.ltb_spec n (P - 0 * n)); nia.
      * assert (0 < q) by lia.
        assert (E : Z.quot (q * n + (2 * r - n)) n = q - 1).
        { rewrite quot_div by nia. symmetry. apply Z.div_unique with (2 * r); nia. }
        rewrite E. destruct (Z.ltb_spec n (P - (q - 1) * n)); nia.
  - destruct (Z.ltb_spec P (q * n)); [nia|].
    assert (E : Z.quot P n = q) by (rewrite quot_div by lia; symmetry; apply Z.div_unique with r; nia). rewrite E.
    destruct (Z.ltb_spec n (P - q * n)); nia.
Qed.

(** The loop counts the multiples met so far. *)
Lemma color_loop_spec P n : 0 < P -> 0 < n ->
  forall steps i color, 0 <= i -> i + Z.of_nat steps <= P ->
  color = (if i =? 0 then 0 else (i - 1) / n + 1) ->
  color_loop steps i color (P / n) n = Ok (if (i + Z.of_nat steps) =? 0 then 0 else (i + Z.of_nat steps - 1) / n + 1).
Proof.
  intros HP Hn. induction steps as [|st IH]; intros i color Hi Hb Hcol.
  - cbn [color_loop]. rewrite Hcol. replace (i + Z.of_nat 0) with i by lia. auto.
  - cbn [color_loop].
    pose proof (Z.div_mod P n ltac:(lia)) as Hd. pose proof (Z.mod_pos_bound P n ltac:(lia)) as Hm.
    set (q := P / n) in *. set (r := P mod n) in *.
    assert (Hq : 0 <= q) by (apply Z.div_pos; lia).
    assert (Hstep : exists m, (if i <? q * n then cmod i n else cmod (i - q * n) (n - 1)) = Ok m /\
              ((m =? 0) = (i mod n =? 0))).
    { destruct (Z.ltb_spec i (q * n)).
      - unfold cmod. destruct (Z.eqb_spec n 0); [lia|]. exists (Z.rem i n). split; auto.
        rewrite Z.rem_mod_nonneg by lia. auto.
      - assert (i - q * n < r) by nia. assert (1 < n) by nia.
        unfold cmod. destruct (Z.eqb_spec (n - 1) 0); [lia|].
        exists (Z.rem (i - q * n) (n - 1)). split; auto.
        assert (i mod n = i - q * n) as ->.
        { symmetry. apply Z.mod_unique with q; nia. }
        rewrite Z.rem_mod_nonneg by lia. rewrite Z.mod_small by lia. auto. }
    destruct Hstep as (m & -> & Hm0). cbn [obind].
    rewrite IH.
    + f_equal. replace (i + 1 + Z.of_nat st) with (i + Z.of_nat (S st)) by lia. auto.
    + lia.
    + lia.
    + rewrite Hm0, Hcol. replace (i + 1 - 1) with i by lia.
      destruct (Z.eqb_spec (i + 1) 0); [lia|].
      destruct (Z.eqb_spec (i mod n) 0) as [E|E].
      * destruct (Z.eqb_spec i 0) as [E0|E0].
        { subst i. rewrite Z.div_0_l by lia. lia. }
        assert (i = n * (i / n)) by (pose proof (Z.div_mod i n ltac:(lia)); lia).
        assert ((i - 1) / n = i / n - 1); [|lia].
        symmetry. apply Z.div_unique with (n - 1); nia.
      * destruct (Z.eqb_spec i 0) as [E0|E0]; [subst i; rewrite Z.mod_0_l in E; lia|].
        f_equal. pose proof (Z.div_mod i n ltac:(lia)). pose proof (Z.mod_pos_bound i n ltac:(lia)).
        symmetry. apply Z.div_unique with (i mod n - 1); nia.
Qed.

Lemma divide_closed P n me : 0 < P -> 0 < n -> Z.of_nat me < P ->
  divide_color P n me = Ok (Z.of_nat me / n + 1).
Proof.
  intros HP Hn Hm. unfold divide_color. rewrite nlarge_closed by auto. cbn [obind].
  rewrite (@color_loop_spec P n); auto; try lia.
  destruct (Z.eqb_spec (0 + Z.of_nat (S me)) 0); [lia|]. f_equal. f_equal. f_equal. lia.
Qed.

Lemma filter_all {A} (f : A -> bool) l : (forall x, In x l -> f x = true) -> filter f l = l.
Proof. induction l as [|x l IH]; cbn [filter In]; intros H; auto. rewrite H by auto. f_equal. apply IH; auto. Qed.
Lemma filter_none {A} (f : A -> bool) l : (forall x, In x l -> f x = false) -> filter f l = [].
Proof. induction l as [|x l IH]; cbn [filter In]; intros H; auto. rewrite H by auto. apply IH; auto. Qed.

Lemma group_members_seq P n g : 0 < P -> 0 < n -> 1 <= g -> (g - 1) * n < P ->
  group_members P n g = seq (Z.to_nat ((g - 1) * n)) (Z.to_nat (Z.min n (P - (g - 1) * n))).
Proof.
  intros HP Hn Hg Hlt. unfold group_members, iota.
  set (a := Z.to_nat ((g - 1) * n)). set (k := Z.to_nat (Z.min n (P - (g - 1) * n))).
  assert (Ha : Z.of_nat a = (g - 1) * n) by (subst a; nia).
  assert (Hk : Z.of_nat k = Z.min n (P - (g - 1) * n)) by (subst k; nia).
  assert (Hsplit : Z.to_nat P = (a + (k + (Z.to_nat P - a - k)))%nat) by lia.
  assert (Hdiv : forall x, Z.of_nat x < P -> (Z.of_nat x / n + 1 =? g) = true <-> (a <= x < a + k)%nat).
  { intros x Hx. rewrite Z.eqb_eq. pose proof (Z.div_mod (Z.of_nat x) n ltac:(lia)).
    pose proof (Z.mod_pos_bound (Z.of_nat x) n ltac:(lia)). split; intros; nia. }
  rewrite Hsplit at 1. rewrite !seq_app, !filter_app.
  rewrite (@filter_none _ _ (seq 0 a)), (@filter_all _ _ (seq (0 + a) k)), (@filter_none _ _ (seq (0 + a + k) _)).
  - rewrite app_nil_r. auto.
  - intros x Hx. apply in_seq in Hx. rewrite divide_closed by lia.
    destruct (Z.of_nat x / n + 1 =? g) eqn:E; auto. apply Hdiv in E; lia.
  - intros x Hx. apply in_seq in Hx. rewrite divide_closed by lia. apply Hdiv; lia.
  - intros x Hx. apply in_seq in Hx. rewrite divide_closed by lia.
    destruct (Z.of_nat x / n + 1 =? g) eqn:E; auto. apply Hdiv in E; lia.
Qed.

Lemma divide_groups P n : 0 < P -> 0 < n ->
  (forall me1 me2, Z.of_nat me1 < P -> Z.of_nat me2 < P ->
     exists c1 c2, divide_color P n me1 = Ok c1 /\ divide_color P n me2 = Ok c2 /\
       (c1 = c2 <-> Z.of_nat me1 / n = Z.of_nat me2 / n)) /\
  (forall g, Z.of_nat (length (group_members P n g)) <= n).
Proof.
  intros HP Hn. split.
  - intros. exists (Z.of_nat me1 / n + 1), (Z.of_nat me2 / n + 1). rewrite !divide_closed by auto. repeat split; lia.
  - intros g. destruct (Z_le_gt_dec 1 g); [destruct (Z_lt_ge_dec ((g - 1) * n) P)|].
    + rewrite group_members_seq by auto. rewrite seq_length. lia.
    + unfold group_members. rewrite filter_none; [simpl; lia|].
      intros x Hx. apply in_iota in Hx. rewrite divide_closed by lia.
      pose proof (Z.div_mod (Z.of_nat x) n ltac:(lia)). pose proof (Z.mod_pos_bound (Z.of_nat x) n ltac:(lia)).
      destruct (Z.eqb_spec (Z.of_nat x / n + 1) g); auto. nia.
    + unfold group_members. rewrite filter_none; [simpl; lia|].
      intros x Hx. apply in_iota in Hx. rewrite divide_closed by lia.
      assert (0 <= Z.of_nat x / n) by (apply Z.div_pos; lia).
      destruct (Z.eqb_spec (Z.of_nat x / n + 1) g); auto. lia.
Qed.

(** ** checkTrue *)
Lemma flags_sum l : 0 <= fold_right Z.add 0 (map flag_int l) <= Z.of_nat (length l).
Proof. induction l as [|b l IH]; cbn [map fold_right length]; [lia|]. destruct b; cbn [flag_int]; lia. Qed.

Lemma check_true_spec l : check_true l = true <-> (forall b, In b l -> b = true).
Proof.
  unfold check_true. rewrite Z.eqb_eq. induction l as [|b l IH]; cbn [map fold_right length In].
  - split; intros; [contradiction|reflexivity].
  - pose proof (flags_sum l). destruct b; cbn [flag_int].
    + rewrite Nat2Z.inj_succ. split.
      * intros H' b' [<-|Hb]; auto. apply IH; auto. lia.
      * intros H'. assert (fold_right Z.add 0 (map flag_int l) = Z.of_nat (length l)) by (apply IH; auto). lia.
    + rewrite Nat2Z.inj_succ. split; [lia|]. intros H'. specialize (H' false (or_introl eq_refl)). discriminate.
Qed.

Lemma check_true_somewhere_spec l : check_true_somewhere l = true <-> In true l.
Proof.
  unfold check_true_somewhere. rewrite Z.ltb_lt. induction l as [|b l IH]; cbn [map fold_right In].
  - split; [lia|contradiction].
  - pose proof (flags_sum l). destruct b; cbn [flag_int].
    + split; auto. lia.
    + rewrite <- IH. split; [lia|]. intros [E|E]; [discriminate|lia].
Qed.

(** Members of one group agree. *)
Lemma ideal_group q cs i rs a : nth_error cs i = Some (NextGroup rs) -> nth_error (ideal q cs) i = Some a ->
  exists x, a = map (fun p => (p, x)) rs.
Proof.
  revert q i; induction cs as [|c cs IH]; intros q [|i] Hc Ha; cbn [nth_error] in Hc; try discriminate.
  - injection Hc as ->. cbn [ideal] in Ha. destruct rs as [|r0 rs].
    + injection Ha as <-. exists (false, -1). auto.
    + destruct q as [|t q]; injection Ha as <-; [exists (false, -1)|exists (true, t)]; auto.
  - cbn [ideal] in Ha. destruct c as [r|[|r0 rs0]|r]; try destruct q as [|t q]; cbn [nth_error] in Ha; eapply IH; eauto.
Qed.

Lemma members_agree n P cs i rs a p1 x1 p2 x2 : no_overflow n cs = true ->
  nth_error cs i = Some (NextGroup rs) ->
  nth_error (snd (trun (tm_set (Z.of_nat n) P) cs)) i = Some a ->
  map fst a = rs /\ (In (p1, x1) a -> In (p2, x2) a -> x1 = x2).
Proof.
  intros H Hc Ha. rewrite task_refines in Ha by auto.
  destruct (@ideal_group _ _ _ _ _ Hc Ha) as (x & ->). split.
  - rewrite map_map. cbn [fst]. apply map_id.
  - intros H1 H2. apply in_map_iff in H1, H2. destruct H1 as (? & E1 & _), H2 as (? & E2 & _). congruence.
Qed.

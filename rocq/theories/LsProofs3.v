(** The initial guess of the linear solvers: proofs for C53_zero_guess and C53_guess. *)
From Verif Require Import Prelude LsModel LsSpec LsProofs LsProofs2.

Section Guess.
Variables F M : Type.
Variable ksp : M -> list F -> option (list F) -> option (list F).
Variable z0 : F.

Lemma distribute_layout (y : list F) : forall x x' lo, layout x = layout x' -> distribute y lo x = distribute y lo x'.
Proof.
  induction x as [|p x IH]; intros [|p' x'] lo E; cbn in E; try discriminate; [reflexivity|].
  injection E as E1 E2. cbn [distribute]. rewrite E1. destruct (length y <? lo + length p'); [reflexivity|].
  now rewrite (IH x' _ E2).
Qed.

Lemma serial_zero o A pre s b x x' : o_zero o = true -> layout x = layout x' ->
  serial_part ksp o A pre s b x = serial_part ksp o A pre s b x'.
Proof.
  intros HZ E. unfold serial_part. destruct (prep_rhs b s) as [s1 [r| |]]; auto.
  assert (EP : prep_sol o r x s1 = prep_sol o r x' s1) by (unfold prep_sol; rewrite HZ; reflexivity).
  rewrite EP. destruct (prep_sol o r x' s1) as [s2 [y| |]]; auto.
  destruct (resolve_impl ksp o A (pre s2) r y); auto. now rewrite (@distribute_layout _ x x' 0 E).
Qed.

Lemma direct_zero o A s b x x' : o_zero o = true -> layout x = layout x' ->
  direct_part ksp o A s b x = direct_part ksp o A s b x'.
Proof.
  intros HZ E. unfold direct_part, resolve_impl. rewrite HZ. destruct (s_ops s); auto.
  destruct (ksp _ _ None); auto. now rewrite (@distribute_layout _ x x' 0 E).
Qed.

Lemma perform_zero o A s c c' : o_zero o = true -> but_guess c c' -> perform ksp z0 o A s c = perform ksp z0 o A s c'.
Proof.
  intros HZ H. destruct c, c'; cbn in H; try contradiction.
  - destruct H as [<- E]. cbn [perform]. unfold solve. destruct (o_serial o).
    + now rewrite (@serial_zero o A _ _ b x x0 HZ E).
    + now rewrite (@direct_zero o A _ b x x0 HZ E).
  - destruct H as [<- E]. cbn [perform]. unfold resolve. destruct (o_serial o).
    + now rewrite (@serial_zero o A _ _ b x x0 HZ E).
    + now rewrite (@direct_zero o A _ b x x0 HZ E).
  - destruct H as [<- <-]. reflexivity.
  - now subst.
Qed.

Lemma run_zero o : o_zero o = true -> forall cs cs', Forall2 (@but_guess F M) cs cs' -> forall A s,
  run ksp z0 o A s cs = run ksp z0 o A s cs'.
Proof.
  intros HZ cs cs' H. induction H as [|c c' cs cs' Hc H IH]; intros A s; [reflexivity|].
  cbn [run]. rewrite (@perform_zero o A s c c' HZ Hc). destruct (perform ksp z0 o A s c') as [[A' s'] [[| |]|]]; auto; now rewrite IH.
Qed.

Lemma run_last o : o_serial o = false -> o_zero o = false -> forall cs A s,
  (s_set s = true -> s_ops s = Some Live) -> Forall (fun r => r <> UB) (run ksp z0 o A s cs) ->
  forall b x y, ksp (final A cs) (concat b) (Some (concat x)) = Some y -> length y = sumn (layout x) ->
  exists d, run ksp z0 o A s (cs ++ [Solve b x]) = run ksp z0 o A s cs ++ [Ok (RVec d)] /\ concat d = y /\ layout d = layout x.
Proof.
  intros HS HZ cs. induction cs as [|c cs IH]; intros A s HL HU b x y HY HN.
  - change (final A []) with A in HY. cbn [app run] in *. cbn [perform]. unfold solve. rewrite HS. unfold direct_part, resolve_impl.
    assert (EL : s_ops (set_operators o Live s) = Some Live).
    { unfold set_operators. destruct (s_set s) eqn:E; [|reflexivity]. destruct (o_const o); [now apply HL|reflexivity]. }
    rewrite EL, HZ. unfold all_elements. rewrite HY. destruct (@distribute_all F y x HN) as (d & ED & E1 & E2). rewrite ED.
    exists d. cbn. repeat split; auto.
  - change (final A (c :: cs)) with (final (match c with SetMatrix A'' => A'' | _ => A end) cs) in HY. cbn [app run] in *.
    assert (HK : forall A' s' r, perform ksp z0 o A s c = (A', s', r) -> (s_set s' = true -> s_ops s' = Some Live) /\ A' = match c with SetMatrix A'' => A'' | _ => A end).
    { assert (Hset : forall t, (s_set t = true -> s_ops t = Some Live) -> forall u v, let t' := fst (solve ksp o A t u v) in s_set t' = true -> s_ops t' = Some Live).
      { intros t Ht u v. unfold solve. rewrite HS. unfold direct_part.
        assert (EL : s_ops (set_operators o Live t) = Some Live).
        { unfold set_operators. destruct (s_set t) eqn:E; [|reflexivity]. destruct (o_const o); [now apply Ht|reflexivity]. }
        destruct (resolve_impl _ _ _ _ _ _); cbn [fst]; auto. }
      assert (Hres : forall t, (s_set t = true -> s_ops t = Some Live) -> forall u v, let t' := fst (resolve ksp o A t u v) in s_set t' = true -> s_ops t' = Some Live).
      { intros t Ht u v. unfold resolve. rewrite HS. unfold direct_part. destruct (resolve_impl _ _ _ _ _ _); cbn [fst]; auto. }
      intros A' s' r E. destruct c as [u v|u v|B cols|A'']; cbn [perform] in E.
      - specialize (Hset s HL u v). destruct (solve ksp o A s u v) as [t q]. injection E as <- <- _. split; auto.
      - specialize (Hres s HL u v). destruct (resolve ksp o A s u v) as [t q]. injection E as <- <- _. split; auto.
      - assert (Hcol : forall k t j, (s_set t = true -> s_ops t = Some Live) -> let t' := fst (solve_columns ksp z0 o A t B j k) in s_set t' = true -> s_ops t' = Some Live).
        { induction k as [|k IHk]; intros t j Ht; [exact Ht|]. cbn [solve_columns].
          assert (H1 : let t' := fst (if j =? 0 then solve ksp o A t (column z0 B j) (zero_like z0 B) else resolve ksp o A t (column z0 B j) (zero_like z0 B)) in s_set t' = true -> s_ops t' = Some Live)
            by (destruct (j =? 0); [apply Hset|apply Hres]; exact Ht).
          destruct (if j =? 0 then _ else _) as [t1 [X| |]]; cbn [fst] in *; auto.
          specialize (IHk t1 (S j) H1). destruct (solve_columns ksp z0 o A t1 B (S j) k) as [t2 [Xs| |]]; auto. }
        unfold solve_matrix in E. specialize (Hcol cols s 0 HL). destruct (solve_columns ksp z0 o A s B 0 cols) as [t [Xs| |]];
          injection E as <- <- _; split; auto.
      - injection E as <- <- _. split; auto. }
    destruct (perform ksp z0 o A s c) as [[A' s'] r] eqn:EP. destruct (HK A' s' r eq_refl) as [HL' EA]. clear HK.
    destruct r as [[v| |]|].
    + inversion HU; subst. destruct (IH _ s' HL' H2 b x y HY HN) as (d & ED & E1 & E2).
      exists d. rewrite ED. repeat split; auto.
    + inversion HU; subst. destruct (IH _ s' HL' H2 b x y HY HN) as (d & ED & E1 & E2).
      exists d. rewrite ED. repeat split; auto.
    + inversion HU; congruence.
    + rewrite EA in HU |- *. destruct (IH _ s' HL' HU b x y HY HN) as (d & ED & E1 & E2).
      exists d. rewrite ED. repeat split; auto.
Qed.
End Guess.

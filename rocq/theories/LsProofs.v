(** Proofs about the linear solvers. *)
From Verif Require Import Prelude LsModel LsSpec.

Lemma map_nth_iota (T : Type) (d : T) (l : list T) : map (fun i => nth i l d) (iota (length l)) = l.
Proof.
  unfold iota. induction l as [|a l IH]; cbn [length seq map]; auto. f_equal; auto.
  rewrite <- seq_shift, map_map. exact IH.
Qed.

Lemma layout_length (T : Type) (v : list (list T)) : length (concat v) = sumn (layout v).
Proof. induction v as [|a v IH]; cbn; auto. rewrite app_length. rewrite IH. reflexivity. Qed.

Lemma layout_nth (T : Type) (u v : list (list T)) p : layout u = layout v -> length (nth p u []) = length (nth p v []).
Proof.
  intros H. assert (E : nth p (layout u) (length (@nil T)) = nth p (layout v) (length (@nil T))) by now rewrite H.
  unfold layout in E. now rewrite !map_nth in E.
Qed.

Lemma layout_nth2 (T U : Type) (u : list (list T)) (v : list (list U)) p : layout u = layout v -> length (nth p u []) = length (nth p v []).
Proof.
  intros H. assert (E : nth p (layout u) 0 = nth p (layout v) 0) by now rewrite H.
  unfold layout in E. pose proof (map_nth (@length T) u [] p) as E1. pose proof (map_nth (@length U) v [] p) as E2.
  cbn in E1, E2. congruence.
Qed.

Lemma skip_skip (T : Type) (a b : nat) : forall l : list T, skipn b (skipn a l) = skipn (a + b) l.
Proof. induction a as [|a IH]; intros l; cbn; auto. destruct l; auto. apply skipn_nil. Qed.

Lemma firstn_plus (T : Type) (a b : nat) : forall l : list T, firstn (a + b) l = firstn a l ++ firstn b (skipn a l).
Proof. induction a as [|a IH]; intros l; cbn; auto. destruct l; cbn; [now rewrite firstn_nil|]. now rewrite IH. Qed.

Section Proofs.
Variables F M : Type.
Variable ksp : M -> list F -> option (list F) -> option (list F).
Variable z0 : F.
Variable solves : M -> list F -> list F -> Prop.
Hypothesis snd_ksp : sound ksp solves.
Notation gives_up := (fails ksp).

Lemma distribute_ok (y : list F) (x : dvec F) : forall lo, lo + sumn (layout x) <= length y ->
  exists v, distribute y lo x = Ok v /\ layout v = layout x /\ concat v = firstn (sumn (layout x)) (skipn lo y).
Proof.
  induction x as [|p x IH]; intros lo H; cbn [distribute layout map sumn] in *.
  - exists []. repeat split.
  - destruct (Nat.ltb_spec (length y) (lo + length p)); [lia|].
    destruct (IH (lo + length p)) as (v & E & L & C); [unfold layout; lia|]. rewrite E. cbn. eexists; split; [reflexivity|].
    unfold range. replace (lo + length p - lo) with (length p) by lia. cbn. split.
    + unfold layout in *. rewrite L. f_equal. rewrite firstn_length, skipn_length. lia.
    + rewrite C. unfold layout. cbn [map sumn]. rewrite firstn_plus, skip_skip. reflexivity.
Qed.

Lemma distribute_all (y : list F) (x : dvec F) : length y = sumn (layout x) ->
  exists v, distribute y 0 x = Ok v /\ layout v = layout x /\ concat v = y.
Proof.
  intros H. destruct (@distribute_ok y x 0) as (v & E & L & C); [lia|]. exists v. repeat split; auto.
  rewrite C. cbn. rewrite <- H. apply firstn_all.
Qed.

(** The answer for vectors before it is wrapped. *)
Definition vanswer (A : M) (b : list F) (lay : list nat) (r : outcome (dvec F)) : Prop :=
  (exists y, r = Ok y /\ layout y = lay /\ solves A b (concat y)) \/ (r = Throw /\ gives_up A b).

Lemma vanswer_answer A b lay r : vanswer A b lay r -> vec_answer solves gives_up A b lay (omap (@RVec F) r).
Proof. intros [(y & -> & L & S)|(-> & G)]; [left; exists y; auto|right; auto]. Qed.

Lemma vanswer_not_ub A b lay r : vanswer A b lay r -> r <> UB.
Proof. intros [(y & -> & L & S)|(-> & G)]; discriminate. Qed.

(** Columns. *)
Lemma column_layout (B : dmat F) j : layout (column z0 B j) = layout B.
Proof. unfold layout, column. rewrite map_map. apply map_ext. intros; apply map_length. Qed.
Lemma zero_layout (B : dmat F) : layout (zero_like z0 B) = layout B.
Proof. unfold layout, zero_like. rewrite map_map. apply map_ext. intros; apply map_length. Qed.
Lemma column_concat (B : dmat F) j : concat (column z0 B j) = col z0 B j.
Proof. unfold column, col. now rewrite concat_map. Qed.

Lemma columns_ok o A A' B lay rhs (P Q : solver F M -> Prop) :
  layout B = lay ->
  (forall s, P s -> let (s', r) := solve ksp o A s (column z0 B 0) (zero_like z0 B) in Q s' /\ vanswer A' (rhs 0) lay r) ->
  (forall j s, Q s -> let (s', r) := resolve ksp o A s (column z0 B (S j)) (zero_like z0 B) in Q s' /\ vanswer A' (rhs (S j)) lay r) ->
  forall k j s, (match j with 0 => P s | S _ => Q s end) ->
  let (s', r) := solve_columns ksp z0 o A s B j k in
  (match k with 0 => s' = s | S _ => Q s' end) /\
  match r with
  | Ok Xs => length Xs = k /\ (forall i, i < k -> layout (nth i Xs []) = lay /\ solves A' (rhs (j + i)) (concat (nth i Xs [])))
  | Throw => exists i, i < k /\ gives_up A' (rhs (j + i))
  | UB => False
  end.
Proof.
  intros HL H0 HS. induction k as [|k IH]; intros j s HP.
  - cbn. repeat split; auto; lia.
  - cbn [solve_columns].
    assert (E : let (s', r) := (if j =? 0 then solve ksp o A s (column z0 B j) (zero_like z0 B)
                                else resolve ksp o A s (column z0 B j) (zero_like z0 B)) in Q s' /\ vanswer A' (rhs j) lay r).
    { destruct j; [now apply H0|now apply HS]. }
    destruct (if j =? 0 then _ else _) as [s' r]. destruct E as [HQ [(y & -> & Ly & Sy)|(-> & G)]].
    + specialize (IH (S j) s' HQ). destruct (solve_columns ksp z0 o A s' B (S j) k) as [s'' r].
      destruct IH as [I1 I2].
      assert (Q s'') by (destruct k; [subst; auto|auto]).
      destruct r as [Xs| |]; cbn.
      * split; auto. destruct I2 as [L I2]. split; [now rewrite L|]. intros [|i] Hi.
        -- rewrite Nat.add_0_r. auto.
        -- replace (j + S i) with (S j + i) by lia. apply I2. lia.
      * split; auto. destruct I2 as (i & Hi & G). exists (S i). split; [lia|]. now replace (j + S i) with (S j + i) by lia.
      * contradiction.
    + split; auto. exists 0. split; [lia|]. now rewrite Nat.add_0_r.
Qed.

Lemma assemble_layout (B : dmat F) Xs : layout (assemble z0 B Xs) = layout B.
Proof.
  unfold layout, assemble. rewrite map_map. transitivity (map (fun p => length (nth p B [])) (iota (length B))).
  - apply map_ext. intros p. unfold local_rows. rewrite map_length. unfold iota. apply seq_length.
  - rewrite <- (map_map (fun p => nth p B []) (@length _)). now rewrite map_nth_iota.
Qed.

Lemma assemble_rows (B : dmat F) Xs row : In row (concat (assemble z0 B Xs)) -> length row = length Xs.
Proof.
  intros H. apply in_concat in H. destruct H as (rs & H1 & H2). apply in_map_iff in H1. destruct H1 as (p & <- & _).
  apply in_map_iff in H2. destruct H2 as (i & <- & _). apply map_length.
Qed.

Lemma assemble_col (B : dmat F) Xs j : j < length Xs -> layout (nth j Xs []) = layout B ->
  col z0 (assemble z0 B Xs) j = concat (nth j Xs []).
Proof.
  intros Hj HL. unfold col. rewrite concat_map. f_equal. unfold assemble. rewrite map_map.
  rewrite <- (map_nth_iota [] (nth j Xs [])) at 1.
  assert (E : length (nth j Xs []) = length B).
  { apply (f_equal (@length nat)) in HL. unfold layout in HL. now rewrite !map_length in HL. }
  rewrite E. apply map_ext. intros p. unfold local_rows. rewrite map_map.
  rewrite <- (map_nth_iota z0 (nth p (nth j Xs []) [])). rewrite (@layout_nth2 _ _ (nth j Xs []) B p HL).
  apply map_ext. intros i. rewrite nth_indep with (d' := (fun X : dvec F => nth i (nth p X []) z0) []) by now rewrite map_length.
  exact (map_nth (fun X : dvec F => nth i (nth p X []) z0) Xs [] j).
Qed.

Lemma matrix_answer A' lay rhs B cols r :
  layout B = lay ->
  match r with
  | Ok Xs => length Xs = cols /\ (forall i, i < cols -> layout (nth i Xs []) = lay /\ solves A' (rhs i) (concat (nth i Xs [])))
  | Throw => exists i, i < cols /\ gives_up A' (rhs i)
  | UB => False
  end ->
  mat_answer z0 solves gives_up A' rhs lay cols (omap (@RMat F) (omap (assemble z0 B) r)).
Proof.
  intros HL H. destruct r as [Xs| |]; cbn.
  - destruct H as [HX H]. left. exists (assemble z0 B Xs). split; auto. split; [rewrite assemble_layout; auto|].
    split; [intros row HR; rewrite <- HX; now apply assemble_rows in HR|].
    intros j Hj. destruct (H j Hj) as [L S]. rewrite assemble_col; auto; [now rewrite HX|now rewrite HL].
  - right. auto.
  - contradiction.
Qed.

Lemma solve_matrix_eq o A s B cols :
  solve_matrix ksp z0 o A s B cols = (let (s', r) := solve_columns ksp z0 o A s B 0 cols in (s', omap (assemble z0 B) r)).
Proof. unfold solve_matrix. destruct (solve_columns _ _ _ _ _ _ _ _) as [s' [Xs| |]]; reflexivity. Qed.

(** *** The direct mode *)
Definition direct_state (ph : phase) (s : solver F M) : Prop :=
  match ph with
  | Unsolved => s_ops s = None /\ s_set s = false
  | _ => s_ops s = Some Live /\ s_set s = true
  end.

Lemma direct_answer o A s b x lay : s_ops s = Some Live -> layout b = lay -> layout x = lay ->
  exists r, direct_part ksp o A s b x = (s, r) /\ vanswer A (concat b) lay r.
Proof.
  intros HO HB HX. unfold direct_part, resolve_impl. rewrite HO. unfold all_elements.
  destruct (ksp A (concat b) _) as [y|] eqn:E.
  - destruct (@snd_ksp _ _ _ _ E) as [S L]. destruct (@distribute_all y x) as (v & Ev & Lv & Cv).
    { rewrite L, layout_length. congruence. }
    rewrite Ev. eexists; split; [reflexivity|]. left. exists v. subst y. repeat split; auto. congruence.
  - eexists; split; [reflexivity|]. right. split; auto. eexists; eauto.
Qed.

Lemma set_live o s ph : direct_state ph s -> s_ops (set_operators o Live s) = Some Live /\ s_set (set_operators o Live s) = true.
Proof.
  intros H. unfold set_operators. destruct (s_set s && o_const o) eqn:E; cbn; auto.
  destruct ph; cbn in H; destruct H as [H1 H2]; auto. rewrite H2 in E. discriminate.
Qed.

Lemma direct_solve o A s b x lay ph : o_serial o = false -> direct_state ph s -> layout b = lay -> layout x = lay ->
  let (s', r) := solve ksp o A s b x in direct_state Solved s' /\ vanswer A (concat b) lay r.
Proof.
  intros HS HD HB HX. unfold solve. rewrite HS. destruct (@set_live o s ph HD) as [H1 H2].
  destruct (@direct_answer o A (set_operators o Live s) b x lay H1 HB HX) as (r & -> & V). cbn; auto.
Qed.

Lemma direct_resolve o A s b x lay ph : o_serial o = false -> ph <> Unsolved -> direct_state ph s -> layout b = lay -> layout x = lay ->
  let (s', r) := resolve ksp o A s b x in direct_state ph s' /\ vanswer A (concat b) lay r.
Proof.
  intros HS HP HD HB HX. unfold resolve. rewrite HS.
  assert (H1 : s_ops s = Some Live) by (destruct ph; [contradiction|apply HD|apply HD]).
  destruct (@direct_answer o A s b x lay H1 HB HX) as (r & -> & V). auto.
Qed.

Lemma direct_unsolved o A s b x : o_serial o = false -> direct_state Unsolved s -> resolve ksp o A s b x = (s, Throw).
Proof. intros HS [HO _]. unfold resolve, direct_part, resolve_impl. now rewrite HS, HO. Qed.

Lemma direct_right o lay : o_serial o = false -> forall cs A s ph, direct_state ph s -> Forall (good_call lay) cs ->
  right z0 solves gives_up A ph cs (run ksp z0 o A s cs).
Proof.
  intros HS. induction cs as [|c cs IH]; intros A s ph HD HG; cbn [right run]; auto.
  inversion HG as [|? ? Hc HG']; subst. destruct c as [b x|b x|B cols|A']; cbn [perform].
  - destruct Hc as [HB HX]. pose proof (@direct_solve o A s b x lay ph HS HD HB HX) as E.
    destruct (solve ksp o A s b x) as [s' r]. destruct E as [HD' V].
    destruct r as [y| |]; cbn [omap obind]; try (split; [rewrite HX; exact (vanswer_answer V)|apply IH; auto]).
    exfalso. apply (vanswer_not_ub V). reflexivity.
  - destruct Hc as [HB HX]. destruct ph.
    + rewrite (@direct_unsolved o A s b x HS HD). cbn [omap obind]. split; auto.
    + pose proof (@direct_resolve o A s b x lay Solved HS ltac:(discriminate) HD HB HX) as E.
      destruct (resolve ksp o A s b x) as [s' r]. destruct E as [HD' V].
      destruct r as [y| |]; cbn [omap obind]; try (split; [rewrite HX; exact (vanswer_answer V)|apply IH; auto]).
      exfalso. apply (vanswer_not_ub V). reflexivity.
    + pose proof (@direct_resolve o A s b x lay Changed HS ltac:(discriminate) HD HB HX) as E.
      destruct (resolve ksp o A s b x) as [s' r]. destruct E as [HD' V].
      destruct r as [y| |]; cbn [omap obind]; try (split; [discriminate|apply IH; auto]).
      exfalso. apply (vanswer_not_ub V). reflexivity.
  - destruct Hc as [HB _]. rewrite solve_matrix_eq.
    pose proof (@columns_ok o A A B lay (col z0 B) (direct_state ph) (direct_state Solved) HB) as C.
    specialize (C ltac:(intros s1 H1; rewrite <- (column_concat B 0); apply (@direct_solve o A s1 _ _ lay ph); auto; [now rewrite column_layout|now rewrite zero_layout])).
    specialize (C ltac:(intros j s1 H1; rewrite <- (column_concat B (S j)); apply (@direct_resolve o A s1 _ _ lay Solved); auto; [discriminate|now rewrite column_layout|now rewrite zero_layout])).
    specialize (C cols 0 s HD). destruct (solve_columns ksp z0 o A s B 0 cols) as [s' r]. destruct C as [C1 C2].
    pose proof (@matrix_answer A lay (col z0 B) B cols r HB C2) as V. rewrite HB.
    assert (D : direct_state (if cols =? 0 then ph else Solved) s') by (destruct cols; cbn; [subst; auto|auto]).
    destruct r as [Xs| |]; cbn [omap obind] in *; try (split; [exact V|apply IH; auto]). contradiction.
  - apply IH; auto. destruct ph; auto.
Qed.
End Proofs.

(** Proofs about the linear solvers: the serial mode and the matrix solver. *)
From Verif Require Import Prelude LsModel LsSpec LsProofs.

Lemma skipn_last (T : Type) (d : T) (l : list T) : l <> [] -> skipn (length l - 1) l = [last l d].
Proof.
  intros H. rewrite (app_removelast_last d H) at 2. rewrite (removelast_firstn_len l).
  rewrite skipn_app. rewrite skipn_all2; [|rewrite firstn_length; lia]. cbn.
  replace (length l - 1 - length (firstn (pred (length l)) l)) with 0; [reflexivity|].
  rewrite firstn_length. lia.
Qed.

Lemma with_last_same (T : Type) (d : T) (l : list T) : l <> [] -> with_last l (last l d) = l.
Proof. intros H. symmetry. now apply app_removelast_last. Qed.

Lemma with_last_length (T : Type) (l : list T) e : l <> [] -> length (with_last l e) = length l.
Proof.
  intros H. unfold with_last. rewrite app_length, removelast_firstn_len, firstn_length. cbn.
  destruct l; [contradiction|cbn; lia].
Qed.

Lemma last_with_last (T : Type) (d : T) (l : list T) e : last (with_last l e) d = e.
Proof. unfold with_last. apply last_last. Qed.

Lemma set_range_last (T : Type) (d : T) (old new : list T) : length old = length new -> new <> [] ->
  set_range old 0 (length new - 1) new = with_last new (last old d).
Proof.
  intros HL HN. unfold set_range, with_last. cbn [firstn app]. rewrite Nat.sub_0_r. rewrite <- HL at 2.
  rewrite (@skipn_last T d old). 2:{ destruct old; destruct new; cbn in *; congruence. }
  rewrite removelast_firstn_len. do 2 f_equal. lia.
Qed.

Section Serial.
Variables F M : Type.
Variable ksp : M -> list F -> option (list F) -> option (list F).
Variable z0 : F.
Variable solves : M -> list F -> list F -> Prop.
Hypothesis snd_ksp : sound ksp solves.
Notation gives_up := (fails ksp).
Notation vanswer := (vanswer ksp solves).

Definition data_state (n : nat) (first : option F) (s : solver F M) : Prop :=
  match first with
  | None => s_rhs s = None /\ s_sol s = None /\ s_buf s = 0
  | Some e => exists r y, s_rhs s = Some r /\ length r = n /\ last r z0 = e /\ s_sol s = Some y /\ length y = n /\ s_buf s = n
  end.
Definition serial_state (n : nat) (m : option M) (first : option F) (s : solver F M) : Prop :=
  s_matrix s = m /\ s_ops s = option_map (@Copy M) m /\ s_set s = (match m with Some _ => true | None => false end) /\
  data_state n first s.

Lemma nonempty (T : Type) (l : list T) : 0 < length l -> l <> [].
Proof. destruct l; cbn; [lia|discriminate]. Qed.

Definition sets (s : solver F M) (r y : list F) (n : nat) : solver F M := Solver (s_matrix s) (Some r) (Some y) n (s_ops s) (s_set s).

Lemma prep_ok o n first s (b x : dvec F) : 0 < n -> data_state n first s -> length (concat b) = n -> length (concat x) = n ->
  let e := last_of z0 first (concat b) in let r := with_last (concat b) e in
  exists s1 y, prep_rhs b s = (s1, Ok r) /\ prep_sol o r x s1 = (sets s r y n, Ok y) /\ length y = n.
Proof.
  intros Hn HF HB HX e r.
  assert (NB : concat b <> []) by (apply nonempty; lia).
  assert (NX : concat x <> []) by (apply nonempty; lia).
  destruct first as [e0|]; cbn [last_of] in *.
  - destruct HF as (r0 & y0 & R1 & R2 & R3 & R4 & R5 & R6). unfold prep_rhs, all_elements; cbv zeta. rewrite R1, R6, HB.
    destruct (Nat.eqb_spec n 0); [lia|]. rewrite Nat.eqb_refl || idtac. cbn [orb].
    destruct (Nat.eqb_spec n 0); [lia|]. cbn [orb].
    destruct (Nat.ltb_spec n n); [lia|]. destruct (Nat.ltb_spec (length r0) (n - 1)); [lia|].
    assert (ER : set_range r0 0 (n - 1) (concat b) = r) by (rewrite <- HB, (@set_range_last F z0 r0 (concat b)) by (auto; congruence); now rewrite R3).
    rewrite ER.
    assert (EX : set_range y0 0 (n - 1) (concat x) = with_last (concat x) (last y0 z0)) by (rewrite <- HX, (@set_range_last F z0 y0 (concat x)) by (auto; congruence); auto).
    eexists; exists (if o_zero o then y0 else with_last (concat x) (last y0 z0)); split; [reflexivity|].
    unfold prep_sol, all_elements; cbv zeta; cbn [s_sol s_buf s_rhs s_matrix s_ops s_set]. rewrite R4, HX.
    destruct (o_zero o).
    + split; auto.
    + destruct (Nat.ltb_spec n n); [lia|]. destruct (Nat.ltb_spec (length y0) (n - 1)); [lia|].
      rewrite EX. split; auto. rewrite with_last_length; auto.
  - destruct HF as (R1 & R2 & R3). subst e r. rewrite with_last_same by auto.
    unfold prep_rhs, all_elements; cbv zeta. rewrite R1, R3, HB. cbn [Nat.eqb]. destruct (Nat.eqb_spec n 0); [lia|].
    eexists; exists (if o_zero o then concat b else concat x); split; [reflexivity|].
    unfold prep_sol, all_elements; cbv zeta; cbn [s_sol s_buf s_rhs s_matrix s_ops s_set]. rewrite R2.
    split; auto. destruct (o_zero o); auto.
Qed.

Lemma serial_answer o A first n s pre b x A0 lay : 0 < n -> n = sumn lay ->
  data_state n first s -> layout b = lay -> layout x = lay ->
  let e := last_of z0 first (concat b) in
  (forall r y, s_matrix (pre (sets s r y n)) = Some A0 /\ s_ops (pre (sets s r y n)) = Some (Copy A0) /\ s_set (pre (sets s r y n)) = true /\
     s_rhs (pre (sets s r y n)) = Some r /\ s_sol (pre (sets s r y n)) = Some y /\ s_buf (pre (sets s r y n)) = n) ->
  let (s', r) := serial_part ksp o A pre s b x in
  serial_state n (Some A0) (Some e) s' /\ vanswer A0 (with_last (concat b) e) lay r.
Proof.
  intros Hn En HS HB HX e HP.
  assert (LB : length (concat b) = n) by (rewrite layout_length; congruence).
  assert (LX : length (concat x) = n) by (rewrite layout_length; congruence).
  destruct (@prep_ok o n first s b x Hn HS LB LX) as (s1 & y & E1 & E2 & Ly). fold e in E1, E2.
  unfold serial_part. rewrite E1, E2. destruct (HP (with_last (concat b) e) y) as (P1 & P2 & P3 & P4 & P5 & P6).
  set (s3 := pre (sets s (with_last (concat b) e) y n)) in *. unfold resolve_impl. rewrite P2.
  assert (LR : length (with_last (concat b) e) = n) by (rewrite with_last_length; auto; apply nonempty; lia).
  destruct (ksp A0 (with_last (concat b) e) _) as [z|] eqn:E.
  - destruct (@snd_ksp _ _ _ _ E) as [S L]. destruct (@distribute_all F z x) as (v & Ev & Lv & Cv); [congruence|].
    rewrite Ev. split.
    + unfold serial_state; cbn. repeat split; auto. exists (with_last (concat b) e), z. repeat split; auto; [apply last_with_last|congruence].
    + left. exists v. repeat split; auto; congruence.
  - split.
    + unfold serial_state. repeat split; auto. exists (with_last (concat b) e), y. repeat split; auto. apply last_with_last.
    + right. split; auto. eexists; eauto.
Qed.

Lemma serial_solve o A m first n s b x lay : o_serial o = true -> 0 < n -> n = sumn lay -> serial_state n m first s -> layout b = lay -> layout x = lay ->
  let (s', r) := solve ksp o A s b x in
  let e := last_of z0 first (concat b) in let A0 := used (o_const o) A m in
  serial_state n (Some A0) (Some e) s' /\ vanswer A0 (with_last (concat b) e) lay r.
Proof.
  intros HO Hn En HS HB HX. unfold solve. rewrite HO. pose proof HS as (HM & HP & HT & HF). rewrite HM.
  change (match m with None => A | Some m0 => if o_const o then m0 else A end) with (used (o_const o) A m).
  set (A0 := used (o_const o) A m). set (s' := Solver _ _ _ _ _ _).
  apply (@serial_answer o A first n s' (set_operators o (Copy A0)) b x A0 lay Hn En HF HB HX).
  intros r y. unfold set_operators, sets, s'. cbn [s_rhs s_buf s_sol s_matrix s_ops s_set]. rewrite HT, HP. destruct m as [m0|]; cbn; auto.
  - unfold A0, used. destruct (o_const o); cbn; auto 10.
  - auto 10.
Qed.

Lemma serial_resolve o A A0 first n s b x lay : o_serial o = true -> 0 < n -> n = sumn lay -> serial_state n (Some A0) first s -> layout b = lay -> layout x = lay ->
  let (s', r) := resolve ksp o A s b x in
  let e := last_of z0 first (concat b) in
  serial_state n (Some A0) (Some e) s' /\ vanswer A0 (with_last (concat b) e) lay r.
Proof.
  intros HO Hn En HS HB HX. unfold resolve. rewrite HO.
  destruct HS as (H1 & H2 & H3 & HF).
  apply (@serial_answer o A first n s (fun t => t) b x A0 lay Hn En HF HB HX).
  intros r y. cbn. repeat split; auto.
Qed.

Lemma serial_unsolved o A first n s b x lay : o_serial o = true -> 0 < n -> n = sumn lay -> serial_state n None first s -> layout b = lay -> layout x = lay ->
  let (s', r) := resolve ksp o A s b x in
  serial_state n None (Some (last_of z0 first (concat b))) s' /\ r = Throw.
Proof.
  intros HO Hn En HS HB HX. unfold resolve. rewrite HO.
  assert (LB : length (concat b) = n) by (rewrite layout_length; congruence).
  assert (LX : length (concat x) = n) by (rewrite layout_length; congruence).
  destruct HS as (H1 & H2 & H3 & HF). destruct (@prep_ok o n first s b x Hn HF LB LX) as (s1 & y & E1 & E2 & Ly).
  unfold serial_part. rewrite E1, E2. unfold resolve_impl. cbn [s_ops sets]. rewrite H2. cbn [option_map].
  split; auto. unfold serial_state; cbn. repeat split; auto.
  assert (LR : concat b <> []) by (apply nonempty; lia).
  eexists; eexists; repeat split; auto; [now rewrite with_last_length|apply last_with_last].
Qed.

Lemma col_layout (B : dmat F) j : length (col z0 B j) = sumn (layout B).
Proof. unfold col. rewrite map_length. apply layout_length. Qed.

Lemma serial_program o n lay : o_serial o = true -> 0 < n -> n = sumn lay ->
  forall cs A s m first, serial_state n m first s -> Forall (good_call lay) cs ->
  serial_right z0 solves gives_up (o_const o) A m first cs (run ksp z0 o A s cs).
Proof.
  intros HO Hn En. induction cs as [|c cs IH]; intros A s m first HS HG; cbn [serial_right run]; auto.
  apply Forall_cons_iff in HG. destruct HG as [Hc HG']. destruct c as [b x|b x|B cols|A']; cbn [perform].
  - destruct Hc as [HB HX]. pose proof (@serial_solve o A m first n s b x lay HO Hn En HS HB HX) as E.
    destruct (solve ksp o A s b x) as [s' r]. cbn zeta in E. destruct E as [HS' V].
    destruct r as [y| |]; cbn [omap obind]; try (split; [rewrite HX; exact (vanswer_answer V)|apply IH; auto]).
    exfalso. apply (vanswer_not_ub V). reflexivity.
  - destruct Hc as [HB HX]. destruct m as [A0|].
    + pose proof (@serial_resolve o A A0 first n s b x lay HO Hn En HS HB HX) as E.
      destruct (resolve ksp o A s b x) as [s' r]. cbn zeta in E. destruct E as [HS' V].
      destruct r as [y| |]; cbn [omap obind]; try (split; [rewrite HX; exact (vanswer_answer V)|apply IH; auto]).
      exfalso. apply (vanswer_not_ub V). reflexivity.
    + pose proof (@serial_unsolved o A first n s b x lay HO Hn En HS HB HX) as E.
      destruct (resolve ksp o A s b x) as [s' r]. destruct E as [HS' ->]. cbn [omap obind]. split; auto.
  - destruct Hc as [HB _]. rewrite solve_matrix_eq. set (A0 := used (o_const o) A m). set (e := last_of z0 first (col z0 B 0)).
    pose proof (@columns_ok F M ksp z0 solves o A A0 B lay (fun j => with_last (col z0 B j) e) (serial_state n m first) (serial_state n (Some A0) (Some e)) HB) as C.
    specialize (C ltac:(intros s1 H1; unfold e; rewrite <- (column_concat z0 B 0); apply (@serial_solve o A m first n s1 _ _ lay); auto; [now rewrite column_layout|now rewrite zero_layout])).
    specialize (C ltac:(intros j s1 H1; cbv beta; rewrite <- (column_concat z0 B (S j)); apply (@serial_resolve o A A0 (Some e) n s1 _ _ lay); auto; [now rewrite column_layout|now rewrite zero_layout])).
    specialize (C cols 0 s HS). destruct (solve_columns ksp z0 o A s B 0 cols) as [s' r]. destruct C as [C1 C2].
    pose proof (@matrix_answer F M ksp z0 solves A0 lay (fun j => with_last (col z0 B j) e) B cols r HB C2) as V. rewrite HB.
    destruct r as [Xs| |]; cbn [omap obind] in *; try contradiction; (split; [exact V|]); destruct cols; cbn [Nat.eqb]; [subst s'|..]; try subst s'; apply IH; auto.
  - apply IH; auto.
Qed.

Lemma new_serial n : serial_state n None None new_solver.
Proof. repeat split. Qed.

(** When all right hand sides end alike and the matrix is not changed where it is declared constant, serial mode is right. *)
Lemma vec_answer_eq A b b' lay r : b = b' -> vec_answer solves gives_up A b lay r -> vec_answer solves gives_up A b' lay r.
Proof. now intros ->. Qed.

Lemma serial_alike const lay e : 0 < sumn lay -> forall cs A m first ph rs,
  Forall (good_call lay) cs -> (forall c b, In c cs -> In b (rhs_of z0 c) -> last b z0 = e) ->
  (first = None \/ first = Some e) ->
  (const = true -> existsb (@changes F M) cs = false) ->
  match ph with Unsolved => m = None | Solved => m = Some A | Changed => m <> None /\ const = false end ->
  serial_right z0 solves gives_up const A m first cs rs -> right z0 solves gives_up A ph cs rs.
Proof.
  intros Hn. induction cs as [|c cs IH]; intros A m first ph rs HG HL HF HC HP; cbn [serial_right right]; auto.
  inversion HG as [|? ? Hc HG']; subst.
  assert (HL' : forall c b, In c cs -> In b (rhs_of z0 c) -> last b z0 = e) by (intros; eapply HL; eauto; now right).
  assert (HC' : const = true -> existsb (@changes F M) cs = false) by (intros H; specialize (HC H); cbn in HC; apply orb_false_elim in HC; tauto).
  assert (U : c = c -> used const A m = A).
  { intros _. unfold used. destruct m as [A0|]; auto. destruct const eqn:Ec; auto. destruct ph; [discriminate|congruence|destruct HP; discriminate]. }
  specialize (U eq_refl).
  destruct c as [b x|b x|B cols|A'].
  - destruct rs as [|r rs]; auto. destruct Hc as [HB HX].
    assert (Nb : concat b <> []) by (apply nonempty; rewrite layout_length, HB; auto).
    assert (Le : last (concat b) z0 = e) by (apply (HL (Solve b x)); cbn; auto).
    assert (Ef : last_of z0 first (concat b) = e) by (destruct HF as [->| ->]; cbn; auto).
    cbn zeta. rewrite Ef, U, <- Le, with_last_same by auto. intros [V W]. split; auto.
    eapply (IH A (Some A) (Some e) Solved); auto. rewrite <- Le. exact W.
  - destruct rs as [|r rs]; auto. destruct Hc as [HB HX].
    assert (Nb : concat b <> []) by (apply nonempty; rewrite layout_length, HB; auto).
    assert (Le : last (concat b) z0 = e) by (apply (HL (Resolve b x)); cbn; auto).
    assert (Ef : last_of z0 first (concat b) = e) by (destruct HF as [->| ->]; cbn; auto).
    cbn zeta. rewrite Ef, <- Le, with_last_same by auto. intros [V W]. split.
    + destruct ph; subst; auto. destruct HP as [HP _]. destruct m; [|congruence]. destruct V as [(y & -> & _)|(-> & _)]; discriminate.
    + eapply (IH A m (Some e) ph); auto. rewrite <- Le. exact W.
  - destruct rs as [|r rs]; auto. destruct Hc as [HB HR]. cbn zeta. intros [V W].
    assert (Nb : forall j, col z0 B j <> []) by (intros j; apply nonempty; rewrite col_layout, HB; auto).
    destruct cols as [|cols].
    + cbn [Nat.eqb] in *. split; [|eapply IH; eauto]. rewrite U in V. destruct V as [(X & -> & L & R & V)|(-> & j & H & _)]; [|lia].
      left. exists X. repeat split; auto. intros; lia.
    + cbn [Nat.eqb] in *.
      assert (Le : forall j, j < S cols -> last (col z0 B j) z0 = e).
      { intros j Hj. apply (HL (SolveAll B (S cols))); [now left|]. cbn [rhs_of]. apply in_map. now apply in_iota. }
      assert (Ef : last_of z0 first (col z0 B 0) = e) by (destruct HF as [->| ->]; cbn; auto; apply Le; lia).
      rewrite Ef, U in *. split; [|eapply (IH A (Some A) (Some e) Solved); auto; exact W].
      destruct V as [(X & -> & L & R & V)|(-> & j & H & G)].
      * left. exists X. repeat split; auto. intros j Hj. specialize (V j Hj). cbn beta in V. rewrite <- (Le j Hj), with_last_same in V; auto.
      * right. split; auto. exists j. split; auto. cbn beta in G. rewrite <- (Le j H), with_last_same in G; auto.
  - intros W. assert (const = false) by (destruct const; auto; specialize (HC eq_refl); discriminate). subst const.
    eapply IH; eauto. destruct ph; auto; [split; [rewrite HP; discriminate|auto]].
Qed.
End Serial.

(** *** The matrix solver *)
Section MatrixSolver.
Variables M K D : Type.
Variable lu : M -> option K.
Variable msolve : K -> D -> option D.
Variable solves : M -> D -> D -> Prop.
Hypothesis factored_ok : forall A k B X, lu A = Some k -> msolve k B = Some X -> solves A B X.

Lemma mrun_right A : forall cs s, ms_A s = A -> (ms_factor s = None \/ exists k, ms_factor s = Some k /\ lu A = Some k) ->
  Forall2 (fun B r => (exists X, r = Ok X /\ solves A B X) \/ (r = Throw /\ (lu A = None \/ exists k, lu A = Some k /\ msolve k B = None)))
          (mrhs_of cs) (mrun lu msolve s cs).
Proof.
  assert (G : forall k B, lu A = Some k -> let r := match msolve k B with Some X => Ok X | None => Throw end in
     (exists X, r = Ok X /\ solves A B X) \/ (r = Throw /\ (lu A = None \/ exists k, lu A = Some k /\ msolve k B = None))).
  { intros k B Hk. cbn zeta. destruct (msolve k B) as [X|] eqn:E; [left; exists X; split; auto; eapply factored_ok; eauto|right; split; auto; right; exists k; auto]. }
  induction cs as [|[B|A'] cs IH]; intros s HA HF; unfold mrhs_of in *; cbn [flat_map mrun app]; auto.
  unfold msolver_solve. destruct HF as [HF|(k & HF & Hk)]; rewrite HF.
  - rewrite HA. destruct (lu A) as [k|] eqn:E.
    + constructor; [rewrite <- E in *; apply G; auto|]. apply IH; auto. right. exists k. auto.
    + constructor; [right; auto|]. apply IH; auto.
  - constructor; [apply G; auto|]. apply IH; auto. right. exists k; auto.
Qed.
End MatrixSolver.

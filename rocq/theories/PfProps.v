(** C36 and C37: the power flow equations, their Jacobian and the block sizes. *)
From Verif Require Import Prelude PfModel PfSpec PfProofs.
From Coq Require Import Reals Lra.
From Coquelicot Require Import Derive.
Open Scope R_scope.

(** ** C36 *)

(** The right hand side delivered by a bus that takes part in the equations is the mismatch of complex power V I* against the specified injection, real part first;
    a PV bus delivers the real part only. *)
Theorem C36_right_hand_side_is_the_mismatch : forall n k, wf_net n -> solved n k ->
  fst (rhs_bus n k) = if p_pv (getb n k) then [mismatch n (angle n) (magn n) k 0] else [mismatch n (angle n) (magn n) k 0; mismatch n (angle n) (magn n) k 1].
Proof.
  intros n k W (L & I & Rf).
  assert (Wb : forall b, In b (prs n) -> r_1 b <> r_2 b) by (intros b Hb; apply (W b Hb)).
  destruct (inj_terms n k Wb) as [I1 I2].
  rewrite !mismatch_sum. cbn [Nat.eqb].
  assert (P : sumR (map (tP (angle n) (magn n) k) (prs n)) + magn n k * magn n k * p_G (getb n k) = injP n k) by (rewrite <- I1; unfold injP, magn; ring).
  assert (Q : sumR (map (tQ (angle n) (magn n) k) (prs n)) - magn n k * magn n k * p_B (getb n k) = injQ n k) by (rewrite <- I2; unfold injQ, magn; ring).
  rewrite P, Q. unfold rhs_bus. rewrite I, Rf. destruct (p_pv (getb n k)); reflexivity.
Qed.
(** Isolated and reference buses deliver nothing. *)
Theorem C36_no_equation_elsewhere : forall n k, (k < length (pbs n))%nat -> ~ solved n k -> rhs_bus n k = ([], n).
Proof.
  intros n k L H. unfold rhs_bus. destruct (p_iso (getb n k)) eqn:E1; auto. destruct (p_ref (getb n k)) eqn:E2; auto. exfalso; apply H; split; auto.
Qed.
Print Assumptions C36_right_hand_side_is_the_mismatch.

(** After the right hand side has been evaluated on every bus, each entry of the assembled Jacobian is the partial derivative of the mismatch with respect to
    the angle (column 0) or the magnitude (column 1) of the bus. *)
Theorem C36_jacobian_is_the_derivative_partial : forall n k m c d, wf_net n -> inactive_zero n -> solved n k -> solved n m ->
  (c < unknowns n k)%nat -> (d < unknowns n m)%nat -> magn n k <> 0 ->
  (d = 0%nat -> derivable_pt_lim (fun x : R => mismatch n (bump (angle n) m x) (magn n) k c) (angle n m) (jac (rhs_all n) k c m d)) /\
  (d = 1%nat -> derivable_pt_lim (fun x : R => mismatch n (angle n) (bump (magn n) m x) k c) (magn n m) (jac (rhs_all n) k c m d)).
Proof.
  intros n k m c d W Z Sk Sm Hc Hd Hv. rewrite jac_value by auto.
  assert (C2 : (c < 2)%nat) by (unfold unknowns in Hc; destruct (p_pv (getb n k)); lia).
  split; intros ->; apply is_derive_Reals; [apply (@derive_value n k m c 0 W C2) | apply (@derive_value n k m c 1 W C2)]; auto; lia.
Qed.
Print Assumptions C36_jacobian_is_the_derivative_partial.

(** Evaluating the right hand side changes neither the state nor the equations, so that the Jacobian belongs to the mismatch the caller sees. *)
Theorem C36_evaluation_keeps_the_equations : forall n k c th v, mismatch (rhs_all n) th v k c = mismatch n th v k c /\
  angle (rhs_all n) k = angle n k /\ magn (rhs_all n) k = magn n k.
Proof.
  intros n k c th v. destruct (rhs_all_inv n) as ((S1 & S2 & S3) & _). destruct (S2 k) as (B1 & B2 & B3 & B4 & B5 & B6 & B7 & B8 & B9).
  unfold angle, magn. rewrite <- B6, <- B7. split; auto.
  rewrite !mismatch_sum, <- B4, <- B5, <- B8, <- B9.
  assert (G : map (tP th v k) (prs (rhs_all n)) = map (tP th v k) (prs n) /\ map (tQ th v k) (prs (rhs_all n)) = map (tQ th v k) (prs n)).
  { clear - S3. induction S3 as [| b b' l l' E F IH]; cbn [map]; auto. destruct IH as [-> ->]. rewrite E. split; reflexivity. }
  destruct G as [-> ->]. reflexivity.
Qed.
Print Assumptions C36_evaluation_keeps_the_equations.

(** A network with a reference, a PV and a PQ bus meets the hypotheses; the derivative of the PQ bus's reactive mismatch in the PV bus's angle is not zero. *)
Definition pf_net : pnet := PNet
  [PBus false true false 1 (-2) 1 0 0 0 0 0; PBus false false true 2 (-4) 1 0 1 0 0 0; PBus false false false 1 (-2) 1 0 (-1) 0 0 0]
  [PBr 0 1 true (-1) 2 (-1) 2 0; PBr 2 1 true (-1) 2 (-1) 2 0].
Example C36_nonvacuous : wf_net pf_net /\ inactive_zero pf_net /\ solved pf_net 1 /\ solved pf_net 2 /\ unknowns pf_net 1 = 1%nat /\ unknowns pf_net 2 = 2%nat /\
  magn pf_net 2 <> 0 /\ fst (rhs_bus pf_net 1) = [-1] /\ fst (rhs_bus pf_net 2) = [1; 0] /\ jac (rhs_all pf_net) 2 1 1 0 = 1 /\ jac (rhs_all pf_net) 2 1 2 1 = 2.
Proof.
  assert (W : wf_net pf_net) by (intros b [<- | [<- | []]]; cbn; repeat split; lia).
  assert (Z : inactive_zero pf_net) by (intros b [<- | [<- | []]] H; discriminate H).
  assert (S1 : solved pf_net 1) by (split; [cbn; lia | auto]). assert (S2 : solved pf_net 2) by (split; [cbn; lia | auto]).
  split; [auto |]. split; [auto |]. split; [auto |]. split; [auto |]. split; [reflexivity |]. split; [reflexivity |].
  assert (V : magn pf_net 2 <> 0) by (unfold magn; cbn; lra). split; [auto |].
  split; [| split; [| split]].
  - unfold rhs_bus, getPQ, theta_now, getb; cbn [pf_net prs pbs filter at_bus nth Nat.eqb orb map r_1 r_2 p_a p_v r_Gf r_Bf r_Gr r_Br p_iso p_ref p_pv p_G p_B p_P0 p_Q0 fst snd sumR fold_right].
    replace (0 - 0) with 0 by ring. replace (- 0) with 0 by ring. rewrite cos_0, sin_0. f_equal; ring.
  - unfold rhs_bus, getPQ, theta_now, getb; cbn [pf_net prs pbs filter at_bus nth Nat.eqb orb map r_1 r_2 p_a p_v r_Gf r_Bf r_Gr r_Br p_iso p_ref p_pv p_G p_B p_P0 p_Q0 fst snd sumR fold_right].
    replace (0 - 0) with 0 by ring. rewrite cos_0, sin_0. f_equal; [ring | f_equal; ring].
  - rewrite jac_value by (auto; cbn; lia). cbn [Nat.eqb]. unfold off, oP, oQ, angle, magn, getb; cbn [pf_net prs pbs map nth Nat.eqb andb r_1 r_2 p_a p_v r_Gf r_Bf r_Gr r_Br sumR fold_right].
    replace (0 - 0) with 0 by ring. rewrite cos_0, sin_0. ring.
  - rewrite jac_value by (auto; cbn; lia). cbn [Nat.eqb]. unfold own, injP, injQ, magn, getPQ, theta_now, getb; cbn [pf_net prs pbs filter at_bus nth Nat.eqb orb map r_1 r_2 p_a p_v r_Gf r_Bf r_Gr r_Br p_B p_G sumR fold_right fst snd].
    replace (0 - 0) with 0 by ring. rewrite cos_0, sin_0. field.
Qed.

(** Finding: a branch whose p_active flag is off but whose admittance is not zero enters the mismatch, and not the Jacobian. p_active is set from the status in the
    data collection in load only (2140-2146), while the admittance follows the status of each line element. *)
Definition pf_off : pnet := PNet [PBus false false true 1 (-2) 1 0 1 0 0 0; PBus false false false 1 (-2) 1 0 (-1) 0 0 0] [PBr 0 1 false (-1) 2 (-1) 2 0].
Theorem C36_inactive_branch_refuted : exists n k m, wf_net n /\ solved n k /\ solved n m /\ (forall i, magn n i <> 0 \/ (i >= length (pbs n))%nat) /\
  jac (rhs_all n) k 0 m 0 = 0 /\ ~ derivable_pt_lim (fun x : R => mismatch n (bump (angle n) m x) (magn n) k 0) (angle n m) (jac (rhs_all n) k 0 m 0).
Proof.
  exists pf_off, 0%nat, 1%nat.
  assert (W : wf_net pf_off) by (intros b [<- | []]; cbn; repeat split; lia).
  split; [auto |]. split; [split; [cbn; lia | auto] |]. split; [split; [cbn; lia | auto] |].
  split; [intros [| [| i]]; [left | left | right]; unfold magn; cbn; try lra; lia |].
  assert (J : jac (rhs_all pf_off) 0 0 1 0 = 0).
  { destruct (rhs_all_inv pf_off) as ((_ & _ & F) & _). unfold jac. generalize dependent (rhs_all pf_off). intros n' F. cbn [Nat.eqb pf_off prs] in *.
    inversion F as [| b b' l l' E F' E1 E2]. inversion F'. cbn [map fold_right].
    assert (A : fwd_jac n' b' = [] /\ rev_jac n' b' = []) by (unfold fwd_jac, rev_jac, br_ok; rewrite E; cbn [r_act set_th]; rewrite !andb_false_r; auto).
    destruct A as [-> ->].
    destruct (0 * unknowns n' 0 + 0)%nat; cbn [nth]; destruct (_ && _); destruct (_ && _); ring. }
  split; auto. rewrite J. intro D.
  pose proof (@derive_value pf_off 0 1 0 0 W ltac:(lia) ltac:(lia) ltac:(intros; lia)) as D'. cbn [Nat.eqb] in D'.
  apply is_derive_Reals in D'. pose proof (uniqueness_limite _ _ _ _ D D') as U. clear D D'. rename U into D'.
  unfold off, oP, angle, magn, getb in D'; cbn [pf_off prs pbs map nth Nat.eqb andb r_1 r_2 p_a p_v r_Gf r_Bf r_Gr r_Br sumR fold_right] in D'.
  replace (0 - 0) with 0 in D' by ring. rewrite cos_0, sin_0 in D'. lra.
Qed.
Print Assumptions C36_inactive_branch_refuted.

(** Finding: the Jacobian uses the injections and angles of the last evaluation of the right hand side. If the state has changed since, it is not the derivative. *)
Definition pf_stale : pnet := PNet [PBus false false true 1 (-2) 1 0 1 0 0 0; PBus false true false 1 (-2) 1 0 0 0 0 0; PBus false false false 1 (-2) 1 0 (-1) 0 0 5]
  [PBr 0 1 true (-1) 2 (-1) 2 0; PBr 2 1 true (-1) 2 (-1) 2 0].
Theorem C36_stale_state_refuted : exists n k, wf_net n /\ inactive_zero n /\ solved n k /\ magn n k <> 0 /\
  ~ derivable_pt_lim (fun x : R => mismatch n (bump (angle n) k x) (magn n) k 0) (angle n k) (jac n k 0 k 0).
Proof.
  exists pf_stale, 2%nat.
  assert (W : wf_net pf_stale) by (intros b [<- | [<- | []]]; cbn; repeat split; lia).
  split; [auto |]. split; [intros b [<- | [<- | []]] H; discriminate H |]. split; [split; [cbn; lia | auto] |].
  split; [unfold magn; cbn; lra |]. intro D.
  pose proof (@derive_value pf_stale 2 2 0 0 W ltac:(lia) ltac:(lia) ltac:(intros; lia)) as D'. cbn [Nat.eqb] in D'.
  apply is_derive_Reals in D'. pose proof (uniqueness_limite _ _ _ _ D D') as U. clear D D'. rename U into D'.
  unfold jac, own, injQ, magn, diag_jac, unknowns, getPQ, theta_now, getb in D'.
  cbn [pf_stale prs pbs filter at_bus nth Nat.eqb Nat.add Nat.mul andb negb orb map r_1 r_2 p_a p_v r_Gf r_Bf r_Gr r_Br p_B p_G p_Qi p_Pi p_iso p_ref p_pv sumR fold_right fst snd] in D'.
  replace (0 - 0) with 0 in D' by ring. rewrite cos_0, sin_0 in D'. lra.
Qed.
Print Assumptions C36_stale_state_refuted.

(** ** C37 *)

(** In every mode: where a branch announces a block, both buses announce a diagonal block; the forward block has the rows of the first
    and the columns of the second bus, the reverse block the opposite. *)
Theorem C37_block_sizes_agree : forall md n b,
  (exists r c, fwd_size md n b = Size r c /\ rev_size md n b = Size c r /\
     diag_size md (getb n (r_1 b)) = Size r r /\ diag_size md (getb n (r_2 b)) = Size c c) \/
  (fwd_size md n b = NoSize /\ rev_size md n b = NoSize).
Proof.
  intros [] n b; cbn [fwd_size rev_size diag_size]; auto.
  - destruct (r_act b), (p_iso (getb n (r_1 b))), (p_iso (getb n (r_2 b))); cbn [negb andb]; auto. left; exists 1%nat, 1%nat; auto.
  - unfold br_ok. destruct (p_ref (getb n (r_1 b))), (p_ref (getb n (r_2 b))), (p_iso (getb n (r_1 b))), (p_iso (getb n (r_2 b))), (r_act b); cbn [negb andb]; auto.
    destruct (p_pv (getb n (r_1 b))), (p_pv (getb n (r_2 b))); cbn [andb]; left; eauto 10.
Qed.
Print Assumptions C37_block_sizes_agree.

(** No block is missing: an active branch between two buses that both have a diagonal block announces its blocks, and no other branch does. *)
Theorem C37_block_exactly_between_blocks : forall n b,
  fwd_size Jacobian n b <> NoSize <-> (r_act b = true /\ diag_size Jacobian (getb n (r_1 b)) <> NoSize /\ diag_size Jacobian (getb n (r_2 b)) <> NoSize).
Proof.
  intros n b; cbn [fwd_size diag_size]; unfold br_ok.
  destruct (p_ref (getb n (r_1 b))), (p_ref (getb n (r_2 b))), (p_iso (getb n (r_1 b))), (p_iso (getb n (r_2 b))), (r_act b), (p_pv (getb n (r_1 b))), (p_pv (getb n (r_2 b)));
    cbn [negb andb]; split; intros; repeat split; intuition (try discriminate; try congruence).
Qed.
Print Assumptions C37_block_exactly_between_blocks.

(** The values fill the announced blocks exactly, and there are none without a block. *)
Definition fits (s : sz) (l : list R) : Prop := match s with Size r c => length l = (r * c)%nat | NoSize => l = [] | Unset => False end.
Theorem C37_values_fill_the_blocks : forall n b k,
  fits (diag_size Jacobian (getb n k)) (diag_jac n k) /\ fits (fwd_size Jacobian n b) (fwd_jac n b) /\ fits (rev_size Jacobian n b) (rev_jac n b).
Proof.
  intros n b k. unfold diag_size, fwd_size, rev_size, diag_jac, fwd_jac, rev_jac.
  repeat split.
  - destruct (p_iso (getb n k)); cbn; auto. destruct (p_ref (getb n k)); cbn; auto. destruct (p_pv (getb n k)); cbn; auto.
  - destruct (br_ok n b); cbn; auto. destruct (p_pv (getb n (r_1 b))), (p_pv (getb n (r_2 b))); cbn; auto.
  - destruct (br_ok n b); cbn; auto. destruct (p_pv (getb n (r_1 b))), (p_pv (getb n (r_2 b))); cbn; auto.
Qed.
Print Assumptions C37_values_fill_the_blocks.

(** The right hand side has one value per row of the Jacobian, and the solution handed back to the bus is read completely and no further. *)
Theorem C37_vector_matches_the_matrix : forall n k,
  (forall r c, diag_size Jacobian (getb n k) = Size r c <-> r = c /\ vec_size RHS (getb n k) = Some r) /\
  match vec_size RHS (getb n k) with
  | Some s => exists l, vec_values RHS n k = Some l /\ length l = s
  | None => vec_values RHS n k = None
  end /\
  (forall s vals, vec_size RHS (getb n k) = Some s -> length vals = s -> exists a v, set_values (getb n k) vals = Some (a, v) /\
     (exists x, nth_error vals 0 = Some x /\ a = p_a (getb n k) - x) /\
     (if p_pv (getb n k) then s = 1%nat /\ v = p_v (getb n k) else exists y, nth_error vals 1 = Some y /\ v = p_v (getb n k) - y)).
Proof.
  intros n k. cbn [diag_size vec_size vec_values]. unfold rhs_bus. split; [| split].
  - intros r c; destruct (p_iso (getb n k)), (p_ref (getb n k)), (p_pv (getb n k)); split; try (intros [=]; subst; auto; fail); try discriminate; intros (-> & H); try discriminate H; injection H as <-; auto.
  - destruct (p_iso (getb n k)), (p_ref (getb n k)), (p_pv (getb n k)); cbn [fst]; auto; eexists; split; reflexivity.
  - intros s vals. destruct (p_iso (getb n k)); [discriminate |]. destruct (p_ref (getb n k)); [discriminate |].
    unfold set_values. destruct (p_pv (getb n k)); intros [= <-] H; destruct vals as [| x [| y vals]]; try discriminate H; do 2 eexists; (split; [reflexivity |]); split; auto; eexists; split; reflexivity.
Qed.
Print Assumptions C37_vector_matches_the_matrix.

Example C37_nonvacuous : let n := pf_net in let b := PBr 2 1 true (-1) 2 (-1) 2 0 in
  In b (prs n) /\ fwd_size Jacobian n b = Size 2 1 /\ rev_size Jacobian n b = Size 1 2 /\ diag_size Jacobian (getb n 2) = Size 2 2 /\ diag_size Jacobian (getb n 1) = Size 1 1 /\
  fwd_size Jacobian n (PBr 0 1 true (-1) 2 (-1) 2 0) = NoSize /\ length (fwd_jac n b) = 2%nat /\ vec_size RHS (getb n 2) = Some 2%nat.
Proof. repeat split. right; left; reflexivity. Qed.

(** Finding: in the modes RHS, S_Cal and State a bus says it has a diagonal block without saying how large it is. *)
Theorem C37_size_not_set_refuted : forall md u, md = RHS \/ md = S_Cal \/ md = State -> diag_size md u = Unset.
Proof. intros md u [-> | [-> | ->]]; reflexivity. Qed.
(** Finding: in mode State a bus writes two values where it announced one (PV) or none (reference, isolated), and writes the magnitude first although setValues
    reads the angle first. *)
Theorem C37_state_vector_refuted : exists n, (exists k l s, vec_size State (getb n k) = Some s /\ vec_values State n k = Some l /\ (s < length l)%nat) /\
  (exists k l, vec_size State (getb n k) = None /\ vec_values State n k = Some l /\ l <> []) /\
  (exists k l a v, vec_size State (getb n k) = Some 2%nat /\ vec_values State n k = Some l /\ set_values (getb n k) l = Some (a, v) /\ a <> 0 /\ v <> 0).
Proof.
  exists pf_net. split; [| split].
  - exists 1%nat; do 2 eexists; repeat split; cbn; lia.
  - exists 0%nat; eexists; repeat split; cbn; discriminate.
  - exists 2%nat; do 3 eexists; repeat split; cbn; lra.
Qed.
Print Assumptions C37_state_vector_refuted.

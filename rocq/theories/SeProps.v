(** Theorems about state estimation (C54). *)
From Verif Require Import Prelude PfModel PfSpec PfProofs YbModel YbSpec SeModel SeSpec SeProofs SeProofs2 SeProofs3.
From Coq Require Import Reals Lra.
From Coquelicot Require Import Complex Derive Hierarchy.
Open Scope R_scope.

(** Bus measurements: the residuals are measured minus calculated values, the Jacobian rows their derivatives in all unknowns, the weights the
    reciprocal variances. *)
Theorem C54_bus : forall n k u, wf n -> good_bus n k u ->
  bus_resid n k = Ok (map (fun m => m_val m - at_node n k (m_type m) (now n)) (s_bmeas u)) /\
  Forall2 (fun m row => forall j i, unknown n j i -> deriv n (at_node n k (m_type m)) (j, i) (coef row (j, i))) (s_bmeas u) (bus_rows n k) /\
  bus_weights n k = map weight_of (s_bmeas u).
Proof.
  intros n k u W (Hk & Hi & Ht & L). assert (E : sget n k = u) by (unfold sget; apply nth_error_nth; auto).
  unfold bus_resid, bus_rows, bus_weights, iso. rewrite E, Hi. split; [| split].
  - apply (@bus_res_ok n k W L); auto.
  - apply Forall2_map_self. intros m Hm j i U. apply bus_row_ok; auto.
  - apply map_ext. apply weight_eq.
Qed.
Print Assumptions C54_bus.

(** Branch measurements. Missing for the full property (residual and derivative of every measurement that the program accepts): see the refutations
    below. *)
Theorem C54_branch_partial : forall n b ls, wf n -> good_branch n b ls ->
  (forall m, In m (s_rmeas b) -> m_type m = IIJ -> 0 < magn (el n) (r_1 (s_br b))) ->
  Forall2 (fun m z => forall h, measures b ls m h -> z = m_val m - h (now n)) (s_rmeas b) (br_resid n b) /\
  Forall2 (fun m row => forall h, measures b ls m h -> row_ok n b ls m -> forall j i, unknown n j i -> deriv n h (j, i) (coef row (j, i))) (s_rmeas b) (br_rows n b) /\
  br_weights n b = map weight_of (s_rmeas b).
Proof.
  intros n b ls W H Pos. split; [apply br_resid_ok; auto |]. unfold br_rows, br_weights. rewrite (good_live H). split.
  - apply Forall2_map_self. intros m Hm h Mh RO j i U. eapply br_row_ok; eauto.
  - apply map_ext. apply weight_eq.
Qed.
Print Assumptions C54_branch_partial.

(** The currents in [flow] are those of the transformer and pi section of the network model. *)
Theorem C54_currents : forall l vf vt, impedance l <> RtoC 0 -> two_port (turns l) (impedance l) (lb l) vf vt (i_from l vf vt) (i_to l vf vt).
Proof. exact two_port_ok. Qed.
Print Assumptions C54_currents.

(** The sizes announced to the mapper are those of the elements written, one row for each measurement, and the elements are in existing columns. *)
Theorem C54_sizes : forall n, wf n ->
  (forall k u, good_bus n k u -> length (bus_rows n k) = bus_num_rows n k /\ length (concat (bus_rows n k)) = bus_count n k /\
     forall j i x, In ((j, i), x) (concat (bus_rows n k)) -> (i < num_cols n j)%nat) /\
  (forall b ls, good_branch n b ls -> length (br_rows n b) = br_num_rows b /\ length (concat (br_rows n b)) = br_count n b /\
     length (br_resid n b) = br_num_rows b /\ forall j i x, In ((j, i), x) (concat (br_rows n b)) -> (i < num_cols n j)%nat).
Proof.
  intros n W. split.
  - intros k u G. split; [| split; [eapply bus_count_ok; eauto |]].
    + destruct G as (Hk & Hi & _). assert (E : sget n k = u) by (unfold sget; apply nth_error_nth; auto).
      unfold bus_rows, bus_num_rows, iso. rewrite E, Hi. apply map_length.
    + intros j i x Hx. apply (@bus_cols_ok n k u ((j, i), x)); auto.
  - intros b ls G. split; [| split; [eapply br_count_ok; eauto | split]].
    + unfold br_rows, br_num_rows. rewrite (good_live G). apply map_length.
    + unfold br_resid, br_num_rows. rewrite (good_live G).
      assert (P : forall m, In m (s_rmeas b) -> In (m_type m) (PIJ :: QIJ :: PJI :: QJI :: IIJ :: nil)) by (intros m Hm; destruct G as (_ & _ & _ & _ & _ & _ & G); apply (G m Hm)).
      revert P. generalize 0 at 1 as r1. generalize 0 as r2. generalize (s_rmeas b). induction l as [| m l IH]; intros r2 r1 P; auto.
      assert (Pm := P m (or_introl eq_refl)). assert (P' := fun x Hx => P x (or_intror Hx)).
      cbn [br_res]. destruct (m_type m); cbn [In] in Pm; try (exfalso; intuition discriminate); cbn [length]; f_equal; apply IH; auto.
    + intros j i x Hx. apply (@br_cols_ok n b ls ((j, i), x)); auto.
Qed.
Print Assumptions C54_sizes.

(** The right hand side of the equations of an iteration is minus the gradient of the weighted sum of squares, in every unknown. *)
Theorem C54_gradient : forall n lss, wf n -> complete n lss -> exists eqs, equations n = Ok eqs /\
  forall j i, unknown n j i -> deriv n (objective (terms n lss)) (j, i) (- rhs_at eqs (j, i)).
Proof.
  intros n lss W C. destruct (equations_fit W C) as (eqs & E & F). exists eqs. split; auto. intros j i U. eapply gradient; eauto.
Qed.
Print Assumptions C54_gradient.

(** The iteration stops moving exactly at the stationary points of the weighted sum of squares. *)
Theorem C54_stationary : forall n lss eqs, wf n -> complete n lss -> equations n = Ok eqs ->
  (solves n eqs (fun _ => 0) <-> forall j i, unknown n j i -> deriv n (objective (terms n lss)) (j, i) 0).
Proof.
  intros n lss eqs W C E. destruct (equations_fit W C) as (eqs' & E' & F). rewrite E in E'. injection E' as <-. rewrite zero_solves. split.
  - intros H j i U. assert (Z : rhs_at eqs (j, i) = 0).
    { destruct (in_dec pair_dec (j, i) (columns n)) as [Hc | Hc]; [auto | eapply no_column; eauto]. }
    rewrite <- Ropp_0, <- Z. eapply gradient; eauto.
  - intros H [j i] Hc. apply columns_unknown in Hc. cbn [fst snd] in Hc. specialize (H j i Hc).
    pose proof (gradient F Hc) as G. unfold deriv in *. apply is_derive_unique in H. apply is_derive_unique in G. rewrite H in G. lra.
Qed.
Print Assumptions C54_stationary.

(** A solution of the equations minimises the weighted sum of squares of the linearised measurements over all corrections. *)
Theorem C54_minimises : forall n lss eqs, wf n -> complete n lss -> equations n = Ok eqs ->
  exists gs, map fst gs = terms n lss /\ (forall t g, In (t, g) gs -> forall j i, unknown n j i -> deriv n (snd t) (j, i) (g (j, i))) /\
    forall x, solves n eqs x -> forall y, linearised n gs (columns n) x <= linearised n gs (columns n) y.
Proof.
  intros n lss eqs W C E. destruct (equations_fit W C) as (eqs' & E' & F). rewrite E in E'. injection E' as <-.
  exists (graded eqs (terms n lss)). destruct (graded_terms F) as [G1 G2]. split; [auto | split].
  - intros t g H j i U. apply (G2 (t, g) H j i U).
  - intros x Hx y. rewrite !(@linear_cost n eqs (terms n lss)) by auto. apply normal_min; auto. eapply fits_pos; eauto.
Qed.
Print Assumptions C54_minimises.

(** The update adds the correction: columns 0 and 1 to angle and magnitude, the only column of the reference bus to its magnitude; nothing else changes. *)
Theorem C54_update : forall u x, length x = (if p_ref (s_bus u) then 1 else 2)%nat -> p_iso (s_bus u) = false -> exists w, set_volt u x = Some w /\
  (if p_ref (s_bus u) then p_v (s_bus w) = p_v (s_bus u) + nth 0 x 0 /\ p_a (s_bus w) = p_a (s_bus u)
   else p_a (s_bus w) = p_a (s_bus u) + nth 0 x 0 /\ p_v (s_bus w) = p_v (s_bus u) + nth 1 x 0) /\
  p_iso (s_bus w) = false /\ p_ref (s_bus w) = p_ref (s_bus u) /\ s_bmeas w = s_bmeas u /\ s_gs w = s_gs u /\ p_G (s_bus w) = p_G (s_bus u) /\ p_B (s_bus w) = p_B (s_bus u).
Proof.
  intros u x Hl Hi. unfold set_volt. rewrite Hi. destruct (p_ref (s_bus u)) eqn:E.
  - destruct x as [| d [|]]; try discriminate. eexists; split; [reflexivity |]. cbn. rewrite Hi. auto 9.
  - destruct x as [| d [| e [|]]]; try discriminate. eexists; split; [reflexivity |]. cbn. rewrite Hi. auto 9.
Qed.
Print Assumptions C54_update.

(** ** The hypotheses are met: two buses, one line, measurements of magnitude, injection, power at both ends and current *)
Definition ex_line : line := Line "1" 1 1 0 0 0 0 0 0 0 true false.
Definition ex_branch (gs : R) : sbr :=
  SBr (PBr 0 1 true (- (1 / 2)) (1 / 2) (- (1 / 2)) (1 / 2) 0) (load_sel "1" 1 1 0 0 0 :: nil)
    (Meas PIJ "1" 1 (1 / 100) :: Meas QJI "1" 0 (1 / 100) :: Meas IIJ "1" (1 / 2) (1 / 10) :: nil).
Definition ex_net (gs : R) : snet :=
  SNet (SBus (PBus false true false (1 / 2) (- (1 / 2)) 2 0 0 0 0 0) gs (Meas VM "" 2 (1 / 100) :: Meas PI_ "" 1 (1 / 10) :: nil) ::
        SBus (PBus false false false (1 / 2) (- (1 / 2)) 1 0 0 0 0 0) 0 (Meas QI_ "" 1 0 :: Meas VA "" 0 1 :: nil) :: nil) (ex_branch gs :: nil).
Lemma ex_wf : forall gs, wf (ex_net gs).
Proof. intros gs b [<- | []]. cbn. lia. Qed.
Lemma ex_live : forall gs k, ~ alone (ex_net gs) k.
Proof. intros gs k H. unfold alone in H. destruct k as [| [| [| k]]]; cbn in H; discriminate. Qed.
Lemma ex_bus : forall gs k u, nth_error (sbs (ex_net gs)) k = Some u -> good_bus (ex_net gs) k u.
Proof.
  intros gs k u H. split; [auto |]. split; [| split].
  - destruct k as [| [| [| k]]]; cbn in H; try discriminate; injection H as <-; auto.
  - unfold bus_type. destruct k as [| [| [| k]]]; cbn in H; try discriminate; injection H as <-; intros m [<- | [<- | []]]; cbn; auto.
  - intros. split; apply ex_live.
Qed.
Lemma ex_loaded : loaded_from (load_sel "1" 1 1 0 0 0) ex_line.
Proof. split; [reflexivity | split; [| reflexivity]]. cbn. rewrite Rabs_R1. lra. Qed.
Lemma ex_good : forall gs, good_branch (ex_net gs) (ex_branch gs) (ex_line :: nil).
Proof.
  intro gs. split; [left; auto |]. split; [apply ex_live |]. split; [apply ex_live |]. split; [reflexivity |]. split; [| split].
  - constructor; [apply ex_loaded | constructor].
  - constructor; [intros [] | constructor].
  - intros m Hm. split; [cbn in Hm; destruct Hm as [<- | [<- | [<- | []]]]; cbn; auto 6 |]. exists ex_line. split; [left; auto |].
    cbn in Hm; destruct Hm as [<- | [<- | [<- | []]]]; auto.
Qed.
Lemma ex_el : g_of (load_sel "1" 1 1 0 0 0) = 1 / 2 /\ b_of (load_sel "1" 1 1 0 0 0) = - (1 / 2) /\ t_of (load_sel "1" 1 1 0 0 0) = 1 /\ s_of (load_sel "1" 1 1 0 0 0) = 0.
Proof.
  destruct (loaded_vals ex_loaded) as (_ & -> & -> & -> & -> & _). unfold gl, bl, ratio_of, shift_of. cbn. destruct (Req_EM_T 0 0); [| lra].
  repeat split; try field; ring.
Qed.
Lemma ex_current : forall gs, flow ex_line 0 1 IIJ (now (ex_net gs)) = sqrt 2 / 2.
Proof.
  intro gs. pose proof (@flow_value (ex_net gs) (ex_branch gs) (load_sel "1" 1 1 0 0 0) ex_line (Meas IIJ "1" (1 / 2) (1 / 10)) ex_loaded) as F.
  specialize (F ltac:(cbn; auto 6) ltac:(intros _; cbn; lra)). cbn [m_type ex_branch s_br r_1 r_2] in F. rewrite <- F.
  unfold value_of. cbn [m_type]. unfold fP, fQ. destruct ex_el as (-> & -> & -> & ->).
  cbn [q_chg load_sel]. unfold vm, va, sget, b1, b2. cbn [ex_net ex_branch sbs s_br r_1 r_2 nth s_bus p_v p_a].
  replace (0 - 0 + 0) with 0 by ring. rewrite cos_0, sin_0.
  f_equal. f_equal. field.
Qed.
Lemma ex_complete : complete (ex_net 0) ((ex_line :: nil) :: nil).
Proof.
  split; [left; apply ex_bus; auto |]. constructor; [| constructor]. right. split; [apply ex_good | split].
  - intros m Hm. split; [reflexivity | split; [reflexivity |]]. intros _ l [<- | []] _. split; [reflexivity | split; [reflexivity |]].
    change (flow ex_line 0 1 IIJ (now (ex_net 0)) <> 0). rewrite ex_current. assert (0 < sqrt 2) by (apply sqrt_lt_R0; lra). lra.
  - intros. cbn. lra.
Qed.
Example C54_bus_nonvacuous : exists u, wf (ex_net 0) /\ good_bus (ex_net 0) 0 u /\ length (s_bmeas u) = 2%nat.
Proof. eexists. split; [apply ex_wf | split; [apply ex_bus; reflexivity | reflexivity]]. Qed.
Example C54_branch_nonvacuous : exists b ls, wf (ex_net 0) /\ good_branch (ex_net 0) b ls /\ length (s_rmeas b) = 3%nat /\ 0 < magn (el (ex_net 0)) (r_1 (s_br b)) /\
  (forall m, In m (s_rmeas b) -> row_ok (ex_net 0) b ls m).
Proof.
  exists (ex_branch 0), (ex_line :: nil). split; [apply ex_wf | split; [apply ex_good | split; [reflexivity | split; [cbn; lra |]]]].
  destruct ex_complete as [_ F]. inversion F as [| ? ? ? ? [H | (_ & H & _)] _]; subst; [discriminate | exact H].
Qed.
Example C54_equations_nonvacuous : wf (ex_net 0) /\ complete (ex_net 0) ((ex_line :: nil) :: nil) /\ length (terms (ex_net 0) ((ex_line :: nil) :: nil)) = 7%nat /\
  unknown (ex_net 0) 1 1 /\ columns (ex_net 0) = ((0, 0) :: (1, 0) :: (1, 1) :: nil)%nat.
Proof. split; [apply ex_wf | split; [apply ex_complete | split; [reflexivity | split; [| reflexivity]]]]. split; [cbn; lia | split; [reflexivity | cbn; lia]]. Qed.

(** ** What fails *)
(** The Jacobian row of a real power flow includes the shunt conductance of the metered bus, which the residual does not (se_components.cpp:1832, 2060
    against 2260, 2325): with a bus shunt the row is not the derivative, so the iteration does not stop at a least squares solution. *)
Theorem C54_flow_shunt_refuted : exists n b ls m h j i, wf n /\ good_branch n b ls /\ In m (s_rmeas b) /\ m_type m = PIJ /\ measures b ls m h /\ unknown n j i /\
  ~ deriv n h (j, i) (coef (br_row n b m) (j, i)).
Proof.
  exists (ex_net 1), (ex_branch 1), (ex_line :: nil), (Meas PIJ "1" 1 (1 / 100)), (flow ex_line 0 1 PIJ), 0%nat, 0%nat.
  split; [apply ex_wf |]. split; [apply ex_good |]. split; [left; reflexivity |]. split; [reflexivity |].
  split; [exists ex_line; split; [left; reflexivity | split; reflexivity] |].
  assert (U : forall gs, unknown (ex_net gs) 0 0) by (intro; split; [cbn; lia | split; [reflexivity | cbn; lia]]).
  split; [apply U |]. intro D1.
  assert (D0 : deriv (ex_net 0) (flow ex_line 0 1 PIJ) (0%nat, 0%nat) (coef (br_row (ex_net 0) (ex_branch 0) (Meas PIJ "1" 1 (1 / 100))) (0%nat, 0%nat))).
  { eapply br_row_ok; [apply ex_wf | apply ex_good | left; reflexivity | exists ex_line; split; [left; reflexivity | split; reflexivity] | | apply U].
    split; [reflexivity | split; discriminate]. }
  change (deriv (ex_net 0) (flow ex_line 0 1 PIJ) (0%nat, 0%nat) (coef (br_row (ex_net 1) (ex_branch 1) (Meas PIJ "1" 1 (1 / 100))) (0%nat, 0%nat))) in D1.
  unfold deriv in *. apply is_derive_unique in D0. apply is_derive_unique in D1. rewrite D0 in D1. revert D1. clear D0.
  assert (E : forall gs, br_row (ex_net gs) (ex_branch gs) (Meas PIJ "1" 1 (1 / 100)) = (el_row (ex_net gs) (ex_branch gs) PIJ (load_sel "1" 1 1 0 0 0) ++ nil)%list) by reflexivity.
  rewrite !E, !app_nil_r. unfold el_row. destruct ex_el as (-> & -> & -> & ->). unfold cols2, b1, b2. cbn [ex_branch s_br r_1 r_2].
  unfold coef, rf, vm, va, sget. cbn [ex_net sbs nth s_bus p_ref app map fst snd Nat.eqb andb s_gs p_v p_a]. unfold sumR. cbn [fold_right]. lra.
Qed.
Print Assumptions C54_flow_shunt_refuted.

(** The Jacobian of a branch current is the one of a line without charging and transformer (se_components.cpp:1905-1985), the residual includes
    both: here the current does not depend on the magnitude at the metered end at all, and the row says 1. *)
Definition cap_line : line := Line "1" 0 1 2 0 0 0 0 0 0 true false.
Definition cap_branch : sbr := SBr (PBr 0 1 true 0 0 0 0 0) (load_sel "1" 0 1 0 0 2 :: nil) (Meas IIJ "1" 1 (1 / 10) :: nil).
Definition cap_net : snet := SNet (SBus (PBus false true false 0 0 2 0 0 0 0 0) 0 nil :: SBus (PBus false false false 0 0 1 0 0 0 0 0) 0 nil :: nil) (cap_branch :: nil).
Theorem C54_current_charging_refuted : exists n b ls m h, wf n /\ good_branch n b ls /\ In m (s_rmeas b) /\ m_type m = IIJ /\ measures b ls m h /\ 0 < magn (el n) (r_1 (s_br b)) /\
  unknown n 0 0 /\ deriv n h (0, 0)%nat 0 /\ coef (br_row n b m) (0, 0)%nat = 1.
Proof.
  exists cap_net, cap_branch, (cap_line :: nil), (Meas IIJ "1" 1 (1 / 10)), (flow cap_line 0 1 IIJ).
  assert (LD : loaded_from (load_sel "1" 0 1 0 0 2) cap_line) by (split; [reflexivity | split; [cbn; rewrite Rabs_R1; lra | reflexivity]]).
  assert (AL : forall k, ~ alone cap_net k) by (intros k H; unfold alone in H; destruct k as [| [| [| k]]]; cbn in H; discriminate).
  split; [intros b [<- | []]; cbn; lia |].
  split. { split; [left; auto |]. split; [apply AL |]. split; [apply AL |]. split; [reflexivity |]. split; [constructor; [exact LD | constructor] |]. split; [constructor; [intros [] | constructor] |].
    intros m [<- | []]. split; [cbn; auto 6 |]. exists cap_line. split; [left; auto | split; reflexivity]. }
  split; [left; reflexivity |]. split; [reflexivity |]. split; [exists cap_line; split; [left; reflexivity | split; reflexivity] |]. split; [cbn; lra |].
  split; [split; [cbn; lia | split; [reflexivity | cbn; lia]] |]. split.
  - unfold deriv. apply (is_derive_ext (fun _ : R => 1)); [| apply (is_derive_const (K := R_AbsRing) (V := R_NormedModule))].
    intro y. unfold flow, i_from, moved, volt, phasor. cbn [is_angle cap_net fst snd]. unfold is_angle. cbn.
    unfold angle, magn, getb, bump. cbn. unfold turns, impedance. cbn. destruct (Req_EM_T 0 0) as [_ | Ne]; [| lra]. rewrite cos_0, sin_0.
    match goal with |- _ = Cmod ?z => replace z with ((0, 1) : C) end.
    + unfold Cmod. cbn. replace (0 * (0 * 1) + 1 * (1 * 1)) with 1 by ring. rewrite sqrt_1. auto.
    + unfold Cdiv, Cinv, Cminus, Cplus, Copp, Cmult, Cconj, RtoC. cbn. apply injective_projections; cbn; field; lra.
  - assert (E : br_row cap_net cap_branch (Meas IIJ "1" 1 (1 / 10)) = (el_row cap_net cap_branch IIJ (load_sel "1" 0 1 0 0 2) ++ nil)%list) by reflexivity.
    rewrite E, app_nil_r. unfold el_row. destruct (loaded_vals LD) as (_ & -> & -> & _). unfold gl, bl. cbn [lr lx cap_line].
    unfold cols2, b1, b2, coef, rf, vm, va, sget. cbn [cap_net cap_branch s_br r_1 r_2 sbs nth s_bus p_ref app map fst snd Nat.eqb andb p_v p_a]. unfold sumR. cbn [fold_right].
    replace (0 - 0) with 0 by ring. rewrite cos_0.
    match goal with |- context [sqrt ?x] => replace x with 1 by field end. rewrite sqrt_1. field.
Qed.
Print Assumptions C54_current_charging_refuted.

(** The types PJ and QJ are read from the measurement file (se_app_module.cpp:68-83) but no bus writes a row or a value for them. The values after
    them move up: the value of the second measurement is written to the row of the first. *)
Theorem C54_bus_type_refuted : exists n k u m1 m2, nth_error (sbs n) k = Some u /\ p_iso (s_bus u) = false /\ s_bmeas u = m1 :: m2 :: nil /\ m_type m1 = PJ_ /\ m_type m2 = VM /\
  bus_num_rows n k = 2%nat /\ bus_resid n k = Ok (m_val m2 - magn (el n) k :: nil).
Proof.
  exists (SNet (SBus (PBus false false false 0 0 1 0 0 0 0 0) 0 (Meas PJ_ "" 5 1 :: Meas VM "" 1 1 :: nil) :: nil) nil), 0%nat. eexists. eexists. eexists.
  split; [reflexivity |]. cbn [s_bus s_bmeas p_iso]. split; [reflexivity |]. split; [reflexivity |]. repeat split.
Qed.
Print Assumptions C54_bus_type_refuted.

(** A current at the to end (IJI) is counted in the sizes but no row and no value is written (se_components.cpp:1632, against 1823-2129, 2214-2354). *)
Theorem C54_to_current_refuted : exists n b m, In b (srs n) /\ live n b = true /\ r_act (s_br b) = true /\ s_rmeas b = m :: nil /\ m_type m = IJI /\
  length (matching b m) = 1%nat /\ br_num_rows b = 1%nat /\ br_count n b = 3%nat /\ concat (br_rows n b) = nil /\ br_resid n b = nil.
Proof.
  pose (b := SBr (PBr 0 1 true 0 0 0 0 0) (load_sel "1" 0 1 0 0 2 :: nil) (Meas IJI "1" 1 (1 / 10) :: nil)).
  exists (SNet (sbs cap_net) (b :: nil)), b. eexists. split; [left; reflexivity |]. repeat split; reflexivity.
Qed.
Print Assumptions C54_to_current_refuted.

(** A measurement on a branch that is switched off is counted, its elements are not written (se_components.cpp:1612-1651 does not look at the status). *)
Theorem C54_switched_off_refuted : exists n b m, In b (srs n) /\ live n b = true /\ r_act (s_br b) = false /\ s_rmeas b = m :: nil /\ br_count n b = 3%nat /\
  concat (br_rows n b) = nil.
Proof.
  pose (b := SBr (PBr 0 1 false 0 0 0 0 0) (load_sel "1" 0 1 0 0 2 :: nil) (Meas PIJ "1" 1 (1 / 10) :: nil)).
  exists (SNet (sbs cap_net) (b :: nil)), b. eexists. split; [left; reflexivity |]. repeat split; reflexivity.
Qed.
Print Assumptions C54_switched_off_refuted.

(** An injection measurement at a bus with an isolated neighbour reads the variables v and theta before they are set (se_components.cpp:1043-1044,
    1066-1076: getVTheta returns without setting them). *)
Theorem C54_isolated_neighbour_refuted : exists n k u, wf n /\ nth_error (sbs n) k = Some u /\ p_iso (s_bus u) = false /\ (forall m, In m (s_bmeas u) -> bus_type (m_type m)) /\ bus_resid n k = UB.
Proof.
  exists (SNet (SBus (PBus false true false 0 0 2 0 0 0 0 0) 0 (Meas PI_ "" 1 1 :: nil) :: SBus (PBus true false false 0 0 1 0 0 0 0 0) 0 nil :: nil) (cap_branch :: nil)), 0%nat.
  eexists. split; [intros b [<- | []]; cbn; lia |]. split; [reflexivity |]. split; [reflexivity |].
  split; [intros m [<- | []]; unfold bus_type; cbn; auto | reflexivity].
Qed.
Print Assumptions C54_isolated_neighbour_refuted.

(** A measurement whose circuit is not an element of the branch takes the value calculated for the measurement before it. *)
Theorem C54_unknown_circuit_refuted : forall n b m1 m2 e, live n b = true -> s_rmeas b = m1 :: m2 :: nil -> m_type m1 = PIJ -> m_type m2 = PIJ ->
  matching b m1 = e :: nil -> matching b m2 = nil -> br_resid n b = (m_val m1 - fP n b e :: m_val m2 - fP n b e :: nil).
Proof.
  intros n b m1 m2 e L M T1 T2 E1 E2. unfold br_resid. rewrite L, M. cbn [br_res]. rewrite T1, T2, E1, E2. reflexivity.
Qed.
Print Assumptions C54_unknown_circuit_refuted.
Example C54_unknown_circuit_nonvacuous : exists n b m1 m2 e, live n b = true /\ s_rmeas b = m1 :: m2 :: nil /\ m_type m1 = PIJ /\ m_type m2 = PIJ /\ matching b m1 = e :: nil /\ matching b m2 = nil.
Proof.
  exists cap_net, (SBr (PBr 0 1 true 0 0 0 0 0) (load_sel "1" 0 1 0 0 2 :: nil) (Meas PIJ "1" 1 1 :: Meas PIJ "2" 1 1 :: nil)). eexists. eexists. eexists. repeat split; reflexivity.
Qed.

(** The columns of the Jacobian and the vector of corrections disagree for a bus without a measurement at it, at a neighbour or on its branches: no
    column, but two elements of the vector (se_components.cpp:663-700 against 126-142). *)
Theorem C54_unmeasured_bus_refuted : exists n k, wf n /\ (k < length (sbs n))%nat /\ num_cols n k = 0%nat /\ vec_elems n k = 2%nat.
Proof.
  exists (SNet (SBus (PBus false true false 0 0 1 0 0 0 0 0) 0 (Meas VM "" 1 1 :: nil) :: SBus (PBus false false false 0 0 1 0 0 0 0 0) 0 nil :: nil) nil), 1%nat.
  split; [intros b [] | split; [cbn; lia | split; reflexivity]].
Qed.
Print Assumptions C54_unmeasured_bus_refuted.

(** An element that is out of service is treated as in service when another element of the branch is: the status of the elements is stored
    (se_components.cpp:1298-1301) and not looked at for measurements, the residual of a correctly measured zero flow is not zero. *)
Theorem C54_out_of_service_refuted : exists n b ls m l, wf n /\ In b (srs n) /\ r_act (s_br b) = existsb lserv ls /\ Forall2 loaded_from (s_els b) ls /\ In l ls /\ ltag l = m_ckt m /\
  lserv l = false /\ s_rmeas b = m :: nil /\ m_type m = PIJ /\ m_val m = 0 /\ br_resid n b = -1 :: nil.
Proof.
  pose (l := Line "1" 1 1 0 0 0 0 0 0 0 false false). pose (l2 := Line "2" 1 1 0 0 0 0 0 0 0 true false). pose (m := Meas PIJ "1" 0 1).
  pose (b := SBr (PBr 0 1 true 0 0 0 0 0) (load_sel "1" 1 1 0 0 0 :: load_sel "2" 1 1 0 0 0 :: nil) (m :: nil)).
  exists (SNet (sbs (ex_net 0)) (b :: nil)), b, (l :: l2 :: nil), m, l.
  split; [intros b0 [<- | []]; cbn; lia |]. split; [left; reflexivity |]. split; [reflexivity |].
  split; [constructor; [| constructor; [| constructor]]; (split; [reflexivity | split; [cbn; rewrite Rabs_R1; lra | reflexivity]]) |].
  split; [left; reflexivity |]. split; [reflexivity |]. split; [reflexivity |]. split; [reflexivity |]. split; [reflexivity |]. split; [reflexivity |].
  assert (E : br_resid (SNet (sbs (ex_net 0)) (b :: nil)) b = 0 - fP (SNet (sbs (ex_net 0)) (b :: nil)) b (load_sel "1" 1 1 0 0 0) :: nil) by reflexivity.
  rewrite E. unfold fP. destruct ex_el as (-> & -> & -> & ->). unfold vm, va, sget, b1, b2. cbn [ex_net b sbs s_br r_1 r_2 nth s_bus p_v p_a].
  replace (0 - 0 + 0) with 0 by ring. rewrite cos_0, sin_0. f_equal. field.
Qed.
Print Assumptions C54_out_of_service_refuted.

(** C38, C39 and C40: reactive limits, voltage angles, participation, scaling and resetting of power. *)
From Verif Require Import Prelude PqModel PqSpec PqProofs.
From Coq Require Import Reals Lra.
Open Scope R_scope.

(** ** C38 *)

(** A check of a PV bus converts it exactly when the reactive power required of its generators is above or below the sum of the limits of those in service;
    the flag in the exchange buffer follows. A bus that is not PV is left alone. *)
Theorem C38_converts_exactly_beyond_limits : forall u, consistent u -> q_xc u <> None ->
  exists r u', chk_qlim u = Ok (r, u') /\
    (r = true <-> q_pv u = true /\ (total g_qmax (gens_on u) < required u \/ required u < total g_qmin (gens_on u))) /\
    q_pv u' = (if r then false else q_pv u) /\
    (exists a v, q_xc u' = Some (a, v, q_pv u')) /\
    (r = false -> q_gst u' = q_gst u /\ q_gens u' = q_gens u /\ q_lds u' = q_lds u).
Proof.
  intros u C X. unfold chk_qlim. destruct (q_xc u) as [[[a v] p] |] eqn:E; [| congruence]. destruct (q_pv u) eqn:P.
  - rewrite paired_ok by auto. cbn [obind]. rewrite !gsum_on, lsum_on. fold (gens_on u) (loads_on u). fold (required u).
    destruct (Rlt_dec (total g_qmax (gens_on u)) (required u)) as [L | L].
    + do 2 eexists; split; [reflexivity |]. cbn. rewrite E. cbn. split; [tauto |]. split; [reflexivity |]. split; [eauto | discriminate].
    + destruct (Rlt_dec (required u) (total g_qmin (gens_on u))) as [L2 | L2].
      * do 2 eexists; split; [reflexivity |]. cbn. rewrite E. cbn. split; [tauto |]. split; [reflexivity |]. split; [eauto | discriminate].
      * do 2 eexists; split; [reflexivity |]. cbn. rewrite E, P. cbn. split; [split; [discriminate | tauto] |]. split; [reflexivity |]. split; [eauto | auto].
  - do 2 eexists; split; [reflexivity |]. cbn. rewrite E, P. cbn. split; [split; [discriminate | intros [? _]; discriminate] |]. split; [reflexivity |]. split; [eauto | auto].
Qed.
Print Assumptions C38_converts_exactly_beyond_limits.

(** The injection specified after a conversion: real power as before, reactive power at the violated limit. Proved for buses with exactly one load in service;
    the other cases are refuted below. *)
Theorem C38_injection_at_the_limit_partial : forall u u' l, consistent u -> q_sb u <> 0 -> loads_on u = [l] -> chk_qlim u = Ok (true, u') ->
  specified u' = Some (fst (injection u), ((if Rlt_dec (total g_qmax (gens_on u)) (required u) then total g_qmax (gens_on u) else total g_qmin (gens_on u)) - total l_ql (loads_on u)) / q_sb u).
Proof.
  intros u u' l C B L H. unfold chk_qlim in H. destruct (q_pv u); [| discriminate]. rewrite paired_ok in H by auto. cbn [obind] in H.
  rewrite !gsum_on, lsum_on in H. fold (gens_on u) (loads_on u) in H. fold (required u) in H.
  assert (K : forall lim, specified (convert u lim (combine (q_gst u) (q_gens u))) = Some (fst (injection u), (total lim (gens_on u) - total l_ql (loads_on u)) / q_sb u)).
  { intro lim. rewrite specified_injection by (apply conv_consistent; auto). unfold injection. rewrite conv_gens_on, conv_loads, L. rewrite !lsum_on, !gsum_on.
    fold (gens_on u) (loads_on u). rewrite L. unfold total; cbn [map fold_right l_pl l_ql set_ld fst].
    change (q_sb (convert u lim (combine (q_gst u) (q_gens u)))) with (q_sb u). f_equal. f_equal; field; auto. }
  destruct (Rlt_dec (total g_qmax (gens_on u)) (required u)) as [Q | Q].
  - destruct (q_xc u); [| discriminate]. injection H as <-. apply K.
  - destruct (Rlt_dec (required u) (total g_qmin (gens_on u))) as [Q2 | Q2]; [| discriminate]. injection H as <-. apply K.
Qed.
Print Assumptions C38_injection_at_the_limit_partial.

(** Clearing after a conversion, with any solution steps in between, restores the PV flag and every generator's status. Missing: loads and reactive generation,
    and buses that were not converted (refuted below). *)
Theorem C38_clear_restores_status_partial : forall u u1 os u2, consistent u -> q_gsave u = [] -> chk_qlim u = Ok (true, u1) -> Forall solving os -> run u1 os = Ok u2 ->
  exists u3, clear_qlim u2 = Ok u3 /\ q_pv u3 = true /\ q_pv u = true /\ q_gst u3 = q_gst u /\
    map g_pg (q_gens u3) = map g_pg (q_gens u) /\ (forall a v p, q_xc u3 = Some (a, v, p) -> p = true).
Proof.
  intros u u1 os u2 C G H F R. unfold chk_qlim in H. destruct (q_pv u) eqn:P; [| discriminate]. rewrite paired_ok in H by auto. cbn [obind] in H.
  assert (E : exists lim, u1 = convert u lim (combine (q_gst u) (q_gens u))).
  { destruct (Rlt_dec _ _); [destruct (q_xc u); [| discriminate]; injection H as <-; eauto |]. destruct (Rlt_dec _ _); [injection H as <-; eauto | discriminate]. }
  destruct E as (lim & ->).
  destruct (@calm_run os (convert u lim (combine (q_gst u) (q_gens u))) u2 eq_refl F R) as (E1 & E2 & E3 & E4 & E5 & E6 & _).
  unfold clear_qlim. rewrite E6. cbn. eexists; split; [reflexivity |]. cbn. rewrite E2, E3. cbn. rewrite G. cbn.
  split; [reflexivity |]. split; [reflexivity |]. split; [reflexivity |]. split.
  - rewrite C, firstn_all, skipn_all, app_nil_r, map_map. reflexivity.
  - intros a v p. destruct (q_xc u2) as [[[? ?] ?] |]; cbn; intros [= _ _ <-]; auto.
Qed.
Print Assumptions C38_clear_restores_status_partial.

Definition g_ex : dgen := DGen "1"%string 50 0 1 1 20 (-10) 100 10.
Definition l_ex : dload := DLoad "1"%string 30 25 0 0 0 0 1.
Definition d_ex (ls : list (option dload)) : dbus := DBus 100 0 1 2 (Some [Some g_ex]) (Some ls).
(** The bus of the examples: a generator of 50 MW with limits -10 and 20 MVar and the given loads, just loaded. *)
Definition u_ex (ls : list ld) (Q : R) : qbus :=
  QBus [1%Z] [] [Gen "1"%string 50 0 20 (-10) 20 (-10) 100 10 1 1] [50] ls (map (fun l => (l_pl l, l_ql l)) ls) 100 Q true (Some true) None 1 0 1 0 (Some (0, 1, true)) 0 0.
Lemma u_ex_reachable : run new_bus [OLoad (d_ex [Some l_ex]); OXCBuf; ORhs 0] = Ok (u_ex [Ld "1"%string 30 25 1] 0).
Proof.
  cbn [run step obind]. unfold load, norm_fac. cbn [b_gens d_ex somes flat_map app map load_gen d_st g_ex sumR fold_right g_fac d_pt d_pb obind length Nat.ltb Nat.leb Z.eqb Pos.eqb].
  destruct (Req_EM_T _ _) as [E | _]; [lra |]. cbn [obind set_fac]. unfold set_xcbuf, buf_of, set_volt; cbn.
  assert (W : wrap (0 * (4 * atan 1) / 180) = 0) by (rewrite wrap_inside; [field | pose proof PI_RGT_0; split; lra]).
  rewrite W. unfold set_Qi, u_ex; cbn. replace (0 * (4 * atan 1) / 180) with 0 by field.
  unfold load_ld, l_ex; cbn [e_id e_pl e_ql e_ip e_iq e_yp e_yq e_st].
  replace (30 + 0 + 0) with 30 by ring. replace (25 - 0 - 0) with 25 by ring. reflexivity.
Qed.
Example C38_nonvacuous : let u := u_ex [Ld "1"%string 30 25 1] 0 in
  consistent u /\ q_gsave u = [] /\ q_xc u <> None /\ loads_on u = [Ld "1"%string 30 25 1] /\ total g_qmax (gens_on u) < required u /\
  exists u', chk_qlim u = Ok (true, u') /\ q_pv u' = false /\ specified u' = Some (20 / 100, -5 / 100).
Proof.
  cbn. split; [reflexivity |]. split; [reflexivity |]. split; [discriminate |]. split; [reflexivity |].
  assert (Q : total g_qmax (gens_on (u_ex [Ld "1"%string 30 25 1] 0)) < required (u_ex [Ld "1"%string 30 25 1] 0)) by (unfold required, total; cbn; lra).
  split; [exact Q |].
  destruct (@C38_converts_exactly_beyond_limits (u_ex [Ld "1"%string 30 25 1] 0) eq_refl) as (r & u' & H1 & H2 & H3 & _); [discriminate |].
  assert (r = true) as -> by (apply H2; auto). exists u'. split; auto. split; auto.
  assert (B : q_sb (u_ex [Ld "1"%string 30 25 1] 0) <> 0) by (cbn; lra).
  rewrite (@C38_injection_at_the_limit_partial (u_ex [Ld "1"%string 30 25 1] 0) u' (Ld "1"%string 30 25 1) eq_refl B eq_refl H1).
  destruct (Rlt_dec _ _) as [_ | N]; [| contradiction]. unfold injection, total; cbn. f_equal. f_equal; field.
Qed.

(** Finding: without a load in service the conversion loses the generation of the bus, and with two loads it counts it twice. *)
Theorem C38_no_load_refuted : exists u u', consistent u /\ loads_on u = [] /\ chk_qlim u = Ok (true, u') /\ fst (injection u) = 50 / 100 /\ specified u' = Some (0, 0).
Proof.
  exists (u_ex [] (-1)). eexists. split; [reflexivity |]. split; [reflexivity |].
  assert (E : chk_qlim (u_ex [] (-1)) = Ok (true, convert (u_ex [] (-1)) g_qmin (combine (q_gst (u_ex [] (-1))) (q_gens (u_ex [] (-1)))))).
  { unfold chk_qlim; cbn [q_pv u_ex]. rewrite paired_ok by reflexivity. cbn [obind]. destruct (Rlt_dec _ _) as [L | _]; [cbn in L; exfalso; revert L; unfold sumR; cbn; lra |].
    destruct (Rlt_dec _ _) as [_ | N]; [reflexivity |]. exfalso; apply N. unfold gsum, lsum, sumR; cbn. lra. }
  split; [exact E |]. split; [unfold injection, total; cbn; field |].
  rewrite specified_injection by (apply conv_consistent; reflexivity). unfold injection. rewrite conv_gens_on, conv_loads. unfold total; cbn. f_equal. f_equal; field.
Qed.
(** Finding: with two loads in service the conversion counts the generation of the bus twice. *)
Theorem C38_two_loads_refuted : exists u u' p, consistent u /\ length (loads_on u) = 2%nat /\ chk_qlim u = Ok (true, u') /\ fst (injection u) = 10 / 100 /\
  specified u' = Some p /\ fst p = 20 / 100.
Proof.
  pose (u := u_ex [Ld "1"%string 30 25 1; Ld "2"%string 10 0 1] 0). exists u. do 2 eexists. split; [reflexivity |]. split; [reflexivity |].
  assert (E : chk_qlim u = Ok (true, convert u g_qmax (combine (q_gst u) (q_gens u)))).
  { unfold chk_qlim; cbn [q_pv u u_ex]. rewrite paired_ok by reflexivity. cbn [obind q_xc u_ex]. destruct (Rlt_dec _ _) as [_ | N]; [reflexivity |].
    exfalso; apply N. unfold gsum, lsum, sumR; cbn. lra. }
  split; [exact E |]. split; [unfold injection, total; cbn; field |].
  rewrite specified_injection by (apply conv_consistent; reflexivity). split; [reflexivity |]. unfold injection. rewrite conv_gens_on, conv_loads. unfold total, gsum, lsum, sumR; cbn. field.
Qed.
(** Finding: clearing does not restore the loads, so that the generation is counted twice after a conversion has been cleared. *)
Theorem C38_clear_keeps_loads_refuted : exists u u1 u2, consistent u /\ q_gsave u = [] /\ (exists l, loads_on u = [l]) /\ chk_qlim u = Ok (true, u1) /\ clear_qlim u1 = Ok u2 /\
  fst (injection u) = 20 / 100 /\ fst (injection u2) = 70 / 100.
Proof.
  pose (u := u_ex [Ld "1"%string 30 25 1] 0). exists u. do 2 eexists. split; [reflexivity |]. split; [reflexivity |]. split; [eexists; reflexivity |].
  assert (E : chk_qlim u = Ok (true, convert u g_qmax (combine (q_gst u) (q_gens u)))).
  { unfold chk_qlim; cbn [q_pv u u_ex]. rewrite paired_ok by reflexivity. cbn [obind q_xc u_ex]. destruct (Rlt_dec _ _) as [_ | N]; [reflexivity |].
    exfalso; apply N. unfold gsum, lsum, sumR; cbn. lra. }
  split; [exact E |]. split; [reflexivity |]. split; [unfold injection, total; cbn; field |]. unfold injection, total; cbn. unfold gsum, lsum, sumR; cbn. field.
Qed.
(** Finding: clearing a bus whose check found no violation takes all its generators out. Clearing a bus that never was a PV bus during a check reads an uninitialised flag. *)
Theorem C38_clear_unconverted_refuted : exists u u1 u2, consistent u /\ chk_qlim u = Ok (false, u1) /\ clear_qlim u1 = Ok u2 /\ q_gst u = [1%Z] /\ q_gst u2 = [] /\ gens_on u2 = [].
Proof.
  pose (u := u_ex [Ld "1"%string 30 5 1] 0). exists u. do 2 eexists. split; [reflexivity |].
  assert (E : chk_qlim u = Ok (false, keep_pv u (Some true))).
  { unfold chk_qlim; cbn [q_pv u u_ex]. rewrite paired_ok by reflexivity. cbn [obind q_xc u_ex]. destruct (Rlt_dec _ _) as [L | _].
    - exfalso; revert L. unfold gsum, lsum, sumR; cbn. lra.
    - destruct (Rlt_dec _ _) as [L | _]; auto. exfalso; revert L. unfold gsum, lsum, sumR; cbn. lra. }
  split; [exact E |]. repeat split.
Qed.
(** Finding: clearing a bus that never was a PV bus during a check reads an uninitialised flag. *)
Theorem C38_clear_uninitialised_refuted : forall d u u1, load new_bus d = Ok u -> q_pv u = false -> chk_qlim u = Ok (false, u1) -> clear_qlim u1 = UB.
Proof.
  intros d u u1 L P H. unfold chk_qlim in H. rewrite P in H. injection H as <-. unfold clear_qlim; cbn.
  unfold load in L. apply obind_ok in L as (gs & _ & [= <-]). reflexivity.
Qed.
(** Finding: converting and clearing twice doubles the status vector; the next use of it runs past the end of the generator arrays. *)
Theorem C38_convert_twice_refuted : exists u u1 u2 Q u3 u4, consistent u /\ q_gsave u = [] /\ chk_qlim u = Ok (true, u1) /\ clear_qlim u1 = Ok u2 /\
  chk_qlim (set_Qi u2 Q) = Ok (true, u3) /\ clear_qlim u3 = Ok u4 /\ q_gst u4 = [1%Z; 1%Z] /\ set_sbus u4 = UB.
Proof.
  pose (u := u_ex [Ld "1"%string 30 25 1] 0).
  assert (E : chk_qlim u = Ok (true, convert u g_qmax (combine (q_gst u) (q_gens u)))).
  { unfold chk_qlim; cbn [q_pv u u_ex]. rewrite paired_ok by reflexivity. cbn [obind q_xc u_ex]. destruct (Rlt_dec _ _) as [_ | N]; [reflexivity |].
    exfalso; apply N. unfold gsum, lsum, sumR; cbn. lra. }
  pose (u1 := convert u g_qmax (combine (q_gst u) (q_gens u))).
  assert (E2 : exists u2, clear_qlim u1 = Ok u2) by (eexists; reflexivity). destruct E2 as (u2 & E2). pose proof E2 as E2'. injection E2' as E2'.
  pose (w := set_Qi u2 1).
  assert (E3 : chk_qlim w = Ok (true, convert w g_qmax (combine (q_gst w) (q_gens w)))).
  { unfold w. rewrite <- E2'. unfold chk_qlim; cbn [q_pv set_Qi]. rewrite paired_ok by reflexivity. cbn [obind q_xc set_Qi u1 convert u u_ex set_pv]. destruct (Rlt_dec _ _) as [_ | N]; [reflexivity |].
    exfalso; apply N. unfold gsum, lsum, sumR; cbn. unfold gsum, lsum, sumR; cbn. lra. }
  exists u, u1, u2, 1, (convert w g_qmax (combine (q_gst w) (q_gens w))). eexists.
  split; [reflexivity |]. split; [reflexivity |]. split; [exact E |]. split; [exact E2 |]. split; [exact E3 |]. split; [reflexivity |].
  unfold w. rewrite <- E2'. split; reflexivity.
Qed.
Print Assumptions C38_convert_twice_refuted.

(** ** C39 *)

(** A correction is subtracted from the angle, and from the magnitude unless the bus is a PV bus, in the bus and in the buffer its neighbours read. *)
Theorem C39_correction : forall u x y a v p, q_xc u = Some (a, v, p) -> exists u', set_values u x y = Ok u' /\
  q_a u' = q_a u - x /\ q_v u' = (if q_pv u then q_v u else q_v u - y) /\ q_xc u' = Some (wrap (q_a u - x), q_v u', p) /\
  q_pv u' = q_pv u /\ q_gens u' = q_gens u /\ q_gst u' = q_gst u /\ q_lds u' = q_lds u.
Proof. intros u x y a v p X. unfold set_values. rewrite X. eexists. split; [reflexivity |]. cbn. repeat split. Qed.
Print Assumptions C39_correction.

(** After every sequence of calls the angle in the exchange buffer lies in [-pi, pi] and differs by a multiple of 2 pi from the angle that the loads, resets and
    corrections make without wrapping. *)
Theorem C39_angle_in_principal_range : forall os u a v p, run new_bus os = Ok u -> q_xc u = Some (a, v, p) ->
  - PI <= a <= PI /\ exists k : Z, a = unwrapped os + 2 * PI * IZR k.
Proof.
  intros os u a v p R X.
  assert (I : ang_inv new_bus (0, 0)) by (split; [apply cong_refl | split; [reflexivity | exact I]]).
  destruct (@ang_run _ _ _ _ I R) as (I1 & _ & I3). unfold buf_ok in I3. rewrite X in I3. destruct I3 as [B C]. split; auto.
  apply (cong_trans C I1).
Qed.
Print Assumptions C39_angle_in_principal_range.
(** The internal angle, too, differs from it by a multiple of 2 pi, and an angle strictly inside the range is stored as it is. *)
Theorem C39_inside_unchanged : forall os u, run new_bus os = Ok u ->
  (exists k : Z, q_a u = unwrapped os + 2 * PI * IZR k) /\ (forall a, - PI < a < PI -> wrap a = a).
Proof.
  intros os u R. split; [| apply wrap_inside].
  assert (I : ang_inv new_bus (0, 0)) by (split; [apply cong_refl | split; [reflexivity | exact I]]).
  apply (@ang_run _ _ _ _ I R).
Qed.
Print Assumptions C39_inside_unchanged.
(** The voltage phasor is not changed by wrapping. *)
Theorem C39_same_phasor : forall os u a v p, run new_bus os = Ok u -> q_xc u = Some (a, v, p) -> cos a = cos (unwrapped os) /\ sin a = sin (unwrapped os).
Proof.
  intros os u a v p R X. destruct (@C39_angle_in_principal_range _ _ _ _ _ R X) as [_ (k & ->)].
  assert (K : forall x, cos (x + 2 * PI * IZR k) = cos x /\ sin (x + 2 * PI * IZR k) = sin x).
  { intro x. destruct (Z_le_gt_dec 0 k) as [L | L].
    - rewrite <- (Z2Nat.id k L), <- INR_IZR_INZ. replace (2 * PI * INR (Z.to_nat k)) with (2 * INR (Z.to_nat k) * PI) by ring. split; [apply cos_period | apply sin_period].
    - assert (E : k = (- Z.of_nat (Z.to_nat (- k)))%Z) by lia. rewrite E, opp_IZR, <- INR_IZR_INZ. set (m := Z.to_nat (- k)).
      split; [rewrite <- (cos_period (x + 2 * PI * - INR m) m) | rewrite <- (sin_period (x + 2 * PI * - INR m) m)]; f_equal; ring. }
  apply K.
Qed.
Print Assumptions C39_same_phasor.
(** A correction that takes the angle beyond pi. *)
Example C39_nonvacuous : exists u a v, run new_bus [OLoad (DBus 100 90 1 1 None None); OXCBuf; OSetValues (- PI) 0] = Ok u /\ q_xc u = Some (a, v, false) /\
  unwrapped [OLoad (DBus 100 90 1 1 None None); OXCBuf; OSetValues (- PI) 0] = 3 * PI / 2 /\ a = - PI / 2.
Proof.
  do 3 eexists. split; [cbn; reflexivity |]. split; [cbn; reflexivity |]. split; [unfold unwrapped; cbn; field |].
  cbn. rewrite pi4. set (x := 90 * PI / 180 - - PI). pose proof PI_RGT_0 as P.
  destruct (wrap_ok x) as [B (k & K)]. rewrite K in *.
  assert (k = (-1)%Z) as ->.
  { assert (L1 : IZR k < 0) by (apply Rmult_lt_reg_l with (2 * PI); unfold x in B; lra).
    assert (L2 : -2 < IZR k) by (apply Rmult_lt_reg_l with (2 * PI); unfold x in B; lra).
    apply (lt_IZR k 0) in L1. apply (lt_IZR (-2) k) in L2. lia. }
  unfold x. field.
Qed.

(** ** C40 *)

(** Participation factors after loading: in-service generators share in proportion to their capacity (maximum minus minimum), the others have none, and
    the shares add up to one - provided the capacities in service do not add up to zero. *)
Theorem C40_participation_partial : forall u d l u', load u d = Ok u' -> b_gens d = Some l -> (forall g, In (Some g) l -> d_st g = 0%Z \/ d_st g = 1%Z) ->
  let ds := somes l in
  let cap := total (fun g => d_pt g - d_pb g) (filter (fun g => (d_st g =? 1)%Z) ds) in
  cap <> 0 ->
  total g_fac (gens_on u') = 1 /\
  (forall i g, nth_error ds i = Some g -> exists g', nth_error (q_gens u') i = Some g' /\ g_fac g' = if (d_st g =? 1)%Z then (d_pt g - d_pb g) / cap else 0) /\
  ((forall g, In g ds -> d_pb g <= d_pt g) -> Forall (fun g => 0 <= g_fac g <= 1) (q_gens u')).
Proof.
  intros u d l u' L G S ds cap C. unfold load in L. rewrite G in L. fold ds in L. apply obind_ok in L as (gs & N & E).
  assert (S' : forall g, In g ds -> d_st g = 0%Z \/ d_st g = 1%Z).
  { intros g I. apply S. unfold ds, somes in I. apply in_flat_map in I as ([x |] & I1 & I2); [destruct I2 as [<- | []]; auto | destruct I2]. }
  assert (N' := @norm_share _ _ S' C N). fold cap in N'. change (cap_of ds) with cap in N'. injection E as <-. cbn [q_gst q_gens gens_on].
  assert (T : total (fun g => (if (d_st g =? 1)%Z then (d_pt g - d_pb g) / cap else 0)) (filter (fun g => (d_st g =? 1)%Z) ds) = 1).
  { transitivity (total (fun g => (d_pt g - d_pb g) / cap) (filter (fun g => (d_st g =? 1)%Z) ds)).
    - unfold total. f_equal. apply map_ext_in. intros g I. apply filter_In in I as [_ I]. rewrite I. reflexivity.
    - rewrite total_div. fold cap. field; auto. }
  split; [| split].
  - unfold gens_on; cbn [q_gst q_gens]. rewrite N', on_map. unfold total in *. rewrite map_map. exact T.
  - intros i g I. rewrite N'. rewrite nth_error_map, I. eexists; split; reflexivity.
  - intro Pos. rewrite N'. apply Forall_forall. intros g' I. apply in_map_iff in I as (g & <- & I). cbn [g_fac set_fac].
    assert (K : forall l, (forall g, In g l -> d_pb g <= d_pt g) -> 0 <= total (fun g => d_pt g - d_pb g) l /\ forall g, In g l -> d_pt g - d_pb g <= total (fun g => d_pt g - d_pb g) l).
    { clear. unfold total. induction l as [| x l IH]; intros H; cbn; [split; [lra | intros g []] |].
      destruct IH as [I1 I2]; [intros; apply H; cbn; auto |]. pose proof (H x (or_introl eq_refl)). split; [lra |].
      intros g [<- | I]; [lra |]. specialize (I2 g I). lra. }
    destruct (K (filter (fun g => (d_st g =? 1)%Z) ds)) as [K1 K2]; [intros h Ih; apply filter_In in Ih; apply Pos; tauto |]. fold cap in K1, K2.
    destruct (d_st g =? 1)%Z eqn:E; [| lra]. assert (0 < cap) by lra.
    pose proof (Pos g I). assert (d_pt g - d_pb g <= cap) by (apply K2; apply filter_In; auto).
    split; [apply Rmult_le_pos; [lra | left; apply Rinv_0_lt_compat; auto] |]. apply Rmult_le_reg_r with cap; auto. unfold Rdiv. rewrite Rmult_assoc, Rinv_l by auto. lra.
Qed.
Print Assumptions C40_participation_partial.
(** A bus with a single generator gives it the whole share. *)
Theorem C40_single_generator : forall u d l u' g, load u d = Ok u' -> b_gens d = Some l -> somes l = [g] -> exists g', q_gens u' = [g'] /\ g_fac g' = 1.
Proof.
  intros u d l u' g L G S. unfold load in L. rewrite G, S in L. apply obind_ok in L as (gs & N & [= <-]). cbn. unfold norm_fac in N. cbn [map length] in N.
  destruct (Req_EM_T _ _); cbn in N; injection N as <-; eauto.
Qed.

(** Scaling: through every history of scalings by factors in [-1, 1], switching, limit checks and resets, a generator that is within its real power limits, and was
    loaded so, stays within them. *)
Theorem C40_scaling_within_limits : forall u os u' i g s, (length (q_gens u) <= length (q_savePg u))%nat -> (length (q_lds u) <= length (q_saveL u))%nat ->
  Forall only_scaling os -> run u os = Ok u' ->
  nth_error (q_gens u) i = Some g -> within_limits g -> nth_error (q_savePg u) i = Some s -> g_pb g <= s <= g_pt g ->
  exists g', nth_error (q_gens u') i = Some g' /\ g_pt g' = g_pt g /\ g_pb g' = g_pb g /\ within_limits g'.
Proof.
  intros u os u' i g s S1 S2 F R G W Hs B.
  assert (Sv : saved u) by (split; auto).
  assert (I : lim_inv u i) by (intros h Hh; rewrite G in Hh; injection Hh as <-; split; auto; intros t Ht; rewrite Hs in Ht; injection Ht as <-; auto).
  assert (NL : Forall no_load os) by (eapply Forall_impl; [| exact F]; apply scaling_no_load).
  destruct (@run_fixed _ _ _ Sv NL R) as (Fx & _).
  assert (E : exists g', nth_error (q_gens u') i = Some g' /\ fixed g' = fixed g).
  { apply (map_nth_error fixed) in G. rewrite <- Fx, nth_error_map in G. destruct (nth_error (q_gens u') i) as [g' |]; [| discriminate]. exists g'. split; [reflexivity |]. cbn [option_map] in G. congruence. }
  destruct E as (g' & E1 & E2). unfold fixed in E2. injection E2 as _ E3 E4. exists g'. split; [auto |]. split; [auto |]. split; [auto |]. exact (proj1 (@lim_run _ _ _ _ Sv F R I g' E1)).
Qed.
Print Assumptions C40_scaling_within_limits.
(** What one scaling does to the first matching generator in service, and only to it. *)
Theorem C40_scaling_one : forall u id v, consistent u -> exists u', scale_generator u id v = Ok u' /\ q_gst u' = q_gst u /\
  ((forall g, In g (combine (q_gst u) (q_gens u)) -> g_id (snd g) = id -> fst g = 0%Z) /\ q_gens u' = q_gens u \/
   exists i z g, nth_error (q_gst u) i = Some z /\ z <> 0%Z /\ nth_error (q_gens u) i = Some g /\ g_id g = id /\
     (forall j z' g', (j < i)%nat -> nth_error (q_gst u) j = Some z' -> nth_error (q_gens u) j = Some g' -> g_id g' = id -> z' = 0%Z) /\
     q_gens u' = upd (q_gens u) i (set_pg g (if Rlt_dec 0 v then g_pg g + v * (g_pt g - g_pg g) else g_pg g + v * (g_pg g - g_pb g)))).
Proof.
  intros u id v C. unfold scale_generator. rewrite aligned_ok by auto. eexists; split; [reflexivity |]. cbn.
  unfold consistent in C. revert C. generalize (q_gst u) (q_gens u). intros zs. induction zs as [| z zs IH]; intros [| g gs] C; cbn in C; try discriminate.
  - split; [reflexivity |]. left; split; auto. intros g [].
  - injection C as C. cbn. destruct (String.eqb_spec (g_id g) id) as [Ei | Ei]; destruct (Z.eqb_spec z 0) as [Ez | Ez]; cbn.
    2: { destruct (combine_split_l _ _ C) as [-> E2]. split; [reflexivity |]. right. exists 0%nat, z, g. cbn. rewrite E2.
         split; [auto |]. split; [auto |]. split; [auto |]. split; [auto |]. split; [intros; lia |]. f_equal. unfold scale_gen. destruct (Rlt_dec 0 v); reflexivity. }
    all: destruct (IH gs C) as (I1 & I2); split; [rewrite I1; auto |]; destruct I2 as [(I2 & I3) | (i & z' & h & J1 & J2 & J3 & J4 & J5 & J6)];
      [left; split; [intros q [<- | Hq]; cbn; auto; try (intros; contradiction) | rewrite I3; auto] |
       right; exists (S i), z', h; cbn; split; [auto |]; split; [auto |]; split; [auto |]; split; [auto |]; split; [| rewrite J6; auto]].
    all: intros [| j] a b Hj Ha Hb Hid; cbn in *; [injection Ha as <-; injection Hb as <-; try congruence; contradiction | eapply J5; eauto; lia].
Qed.
Print Assumptions C40_scaling_one.

(** Resetting: after any history of calls other than loading, resetPower restores the real power of every generator, both powers of every load and the voltage that were loaded. *)
Theorem C40_reset_restores_partial : forall d u os u', load new_bus d = Ok u -> Forall no_load os -> run u os = Ok u' ->
  map g_pg (q_gens (reset_power u')) = map g_pg (q_gens u) /\ map (fun l => (l_pl l, l_ql l)) (q_lds (reset_power u')) = map (fun l => (l_pl l, l_ql l)) (q_lds u) /\
  map g_id (q_gens (reset_power u')) = map g_id (q_gens u) /\ map l_id (q_lds (reset_power u')) = map l_id (q_lds u) /\
  q_v (reset_power u') = b_mag d /\ q_a (reset_power u') = b_ang d * PI / 180.
Proof.
  intros d u os u' L F R.
  assert (U : q_savePg u = map g_pg (q_gens u) /\ q_saveL u = map (fun l => (l_pl l, l_ql l)) (q_lds u) /\ q_volt u = b_mag d /\ q_angle u = b_ang d * PI / 180).
  { unfold load in L. apply obind_ok in L as (gs & N & [= <-]). cbn. split; [| split; [reflexivity | split; [reflexivity | rewrite pi4; reflexivity]]].
    destruct (b_gens d) as [l |]; [| injection N as <-; reflexivity].
    unfold norm_fac in N. destruct (Req_EM_T _ _); [| destruct (1 <? _)%nat].
    - destruct (map load_gen (somes l)); [discriminate |]. injection N as <-. reflexivity.
    - injection N as <-. clear. generalize (sumR (map g_fac (map load_gen (somes l)))). intro c. induction (map load_gen (somes l)) as [| g r IH]; cbn; [reflexivity | rewrite IH; reflexivity].
    - destruct (map load_gen (somes l)); [discriminate |]. injection N as <-. reflexivity. }
  destruct U as (U1 & U2 & U3 & U4).
  assert (Sv : saved u) by (split; rewrite ?U1, ?U2, map_length; auto).
  pose proof (@run_fixed _ _ _ Sv F R) as S. pose proof (saved_fixed Sv S) as Sv'.
  destruct S as (A1 & A2 & A3 & A4 & A5 & A6 & A7 & A8 & _).
  assert (LG : length (q_gens u') = length (q_gens u)) by (rewrite <- (map_length fixed), A1, map_length; auto).
  pose proof (@reset_fixed u' (proj1 Sv') (proj2 Sv')) as (R1 & R2 & R3 & _).
  split; [| split; [| split; [| split; [| split]]]].
  - cbn. rewrite A5, U1. assert (LL : length (map g_pg (q_gens u)) = length (q_gens u')) by (rewrite map_length; auto).
    revert LL. generalize (map g_pg (q_gens u)) (q_gens u'). clear. induction l as [| x l IH]; intros [| g m] H; cbn in *; try discriminate; auto. rewrite IH by lia. auto.
  - cbn. rewrite A6, U2. assert (LL : length (map (fun l => (l_pl l, l_ql l)) (q_lds u)) = length (q_lds u')) by (rewrite map_length; auto).
    revert LL. generalize (map (fun l => (l_pl l, l_ql l)) (q_lds u)) (q_lds u'). clear. induction l as [| [x y] l IH]; intros [| g m] H; cbn in *; try discriminate; auto. rewrite IH by lia. auto.
  - assert (R1' : map (fun g => fst (fst (fixed g))) (q_gens (reset_power u')) = map (fun g => fst (fst (fixed g))) (q_gens u)).
    { rewrite <- (map_map fixed (fun x => fst (fst x))), R1, A1, map_map. reflexivity. }
    exact R1'.
  - rewrite R3, A3. reflexivity.
  - cbn. rewrite A7. auto.
  - cbn. rewrite A8. auto.
Qed.
Print Assumptions C40_reset_restores_partial.

Example C40_nonvacuous : let d := DBus 100 0 1 2 (Some [Some g_ex; None; Some (DGen "2"%string 20 0 1 1 5 (-5) 40 10)]) (Some [Some l_ex]) in
  exists u u', load new_bus d = Ok u /\ map g_fac (q_gens u) = [90 / 120; 30 / 120] /\ (length (q_gens u) <= length (q_savePg u))%nat /\
    run u [OScaleGen "2"%string (1 / 2); OGenStatus "1"%string false; OScaleLoad "1"%string 2] = Ok u' /\ map g_pg (q_gens u') = [50; 30] /\ Forall within_limits (q_gens u').
Proof.
  cbn zeta. eexists. eexists.
  assert (N : norm_fac (map load_gen [g_ex; DGen "2"%string 20 0 1 1 5 (-5) 40 10]) =
     Ok (map (fun g => set_fac g (g_fac g / (100 - 10 + (40 - 10 + 0))) (g_fac g / (100 - 10 + (40 - 10 + 0)))) (map load_gen [g_ex; DGen "2"%string 20 0 1 1 5 (-5) 40 10]))).
  { unfold norm_fac. cbn [map load_gen g_ex d_st d_pt d_pb Z.eqb Pos.eqb g_fac sumR fold_right length Nat.ltb Nat.leb]. destruct (Req_EM_T _ _) as [E | _]; [lra | reflexivity]. }
  split; [unfold load; cbn [b_gens somes flat_map app]; rewrite N; cbn [obind]; reflexivity |].
  split; [cbn; f_equal; [field | f_equal; field] |]. split; [cbn; lia |].
  split; [cbn; unfold scale_gen; destruct (Rlt_dec 0 (1 / 2)) as [_ | E]; [reflexivity | exfalso; lra] |].
  split; [cbn; f_equal; f_equal; field |]. cbn. constructor; [unfold within_limits; cbn; lra | constructor; [unfold within_limits; cbn; lra | constructor]].
Qed.

(** Finding: when the capacities in service add up to zero (for example when no PMAX and PMIN are given), the whole share goes to the first generator, even if it is out of
    service, and the others keep unnormalised values. *)
Theorem C40_zero_capacity_refuted : exists d u, load new_bus d = Ok u /\ (exists l, b_gens d = Some l /\ forall g, In (Some g) l -> d_st g = 0%Z \/ d_st g = 1%Z) /\
  q_gst u = [0%Z; 1%Z] /\ map g_fac (q_gens u) = [1; 0] /\ total g_fac (gens_on u) = 0.
Proof.
  exists (DBus 100 0 1 2 (Some [Some (DGen "1"%string 50 0 1 0 20 (-10) 100 10); Some (DGen "2"%string 20 0 1 1 5 (-5) 0 0)]) None). eexists.
  split.
  { unfold load, norm_fac. cbn [b_gens somes flat_map app map load_gen d_st d_pt d_pb Z.eqb g_fac sumR fold_right]. destruct (Req_EM_T _ _) as [_ | E]; [| exfalso; apply E; ring]. reflexivity. }
  split; [eexists; split; [reflexivity |]; intros g [[= <-] | [[= <-] | []]]; auto |].
  split; [reflexivity |]. split; [cbn; f_equal; f_equal; ring |]. unfold gens_on, total; cbn. ring.
Qed.
(** Finding: a bus with generators of which none is complete writes to an empty vector. *)
Theorem C40_no_complete_generator_refuted : forall u sb a m t ls, load u (DBus sb a m t (Some [None]) ls) = UB.
Proof. intros. unfold load, norm_fac; cbn. destruct (Req_EM_T 0 0); reflexivity. Qed.
(** Switching a generator off takes it out of the totals and leaves the others alone; switching it on again gives back the limits and share it was loaded with. *)
Theorem C40_switching : forall u id s, consistent u -> NoDup (map g_id (q_gens u)) -> exists u', set_gen_status u id s = Ok u' /\ consistent u' /\
  forall i z g, nth_error (q_gst u) i = Some z -> nth_error (q_gens u) i = Some g ->
    if String.eqb (g_id g) id then
      nth_error (q_gst u') i = Some (if s then 1%Z else 0%Z) /\ exists g', nth_error (q_gens u') i = Some g' /\ g_id g' = id /\ g_pg g' = g_pg g /\ g_qg g' = g_qg g /\
        g_qmax g' = (if s then g_qmaxo g else 0) /\ g_qmin g' = (if s then g_qmino g else 0) /\ g_fac g' = (if s then g_faco g else 0) /\
        g_qmaxo g' = g_qmaxo g /\ g_qmino g' = g_qmino g /\ g_faco g' = g_faco g /\ g_pt g' = g_pt g /\ g_pb g' = g_pb g
    else nth_error (q_gst u') i = Some z /\ nth_error (q_gens u') i = Some g.
Proof.
  intros u id s C D. unfold set_gen_status. rewrite aligned_ok by auto. eexists; split; [reflexivity |]. unfold consistent in *. cbn.
  split; [now rewrite !map_length |]. revert C D. generalize (q_gst u) (q_gens u). intros zs.
  induction zs as [| z0 zs IH]; intros [| g0 gs] C D; cbn in C; try discriminate; [intros [|i] z g Z; discriminate Z |]. cbn [combine upd_first snd].
  inversion D as [| ? ? N D']; subst. destruct (String.eqb_spec (g_id g0) id) as [E | E]; intros [| i] z g Z G; cbn in Z, G |- *.
  - injection Z as ->. injection G as ->. rewrite E, String.eqb_refl. destruct s; cbn; (split; [reflexivity |]); eexists; (split; [reflexivity |]); cbn; repeat split; auto.
  - destruct (String.eqb_spec (g_id g) id) as [E' | E'].
    + exfalso. apply N. rewrite E, <- E'. apply in_map. eapply nth_error_In; eauto.
    + assert (L : length zs = length gs) by lia. clear -Z G L. rewrite !nth_error_map. assert (K : nth_error (combine zs gs) i = Some (z, g)); [| rewrite K; split; reflexivity].
      revert gs i Z G L. induction zs as [| a zs IH]; intros [| b gs] [| i] Z G L; cbn in *; try discriminate; [congruence | apply IH; auto].
  - injection Z as ->. injection G as ->. destruct (String.eqb_spec (g_id g) id); [contradiction | split; reflexivity].
  - apply (IH gs); auto.
Qed.
Print Assumptions C40_switching.
(** Finding: switching a generator off does not pass its share to the others. *)
Theorem C40_switching_refuted : exists u u', consistent u /\ total g_fac (gens_on u) = 1 /\ set_gen_status u "1"%string false = Ok u' /\ length (gens_on u') = 1%nat /\ total g_fac (gens_on u') = 1 / 2.
Proof.
  pose (g := fun i => Gen i 50 0 20 (-10) 20 (-10) 100 10 (1 / 2) (1 / 2)).
  exists (set_gens (u_ex [] 0) [1%Z; 1%Z] [g "1"%string; g "2"%string]). eexists. split; [reflexivity |].
  split; [unfold gens_on, total; cbn; field |]. split; [reflexivity |]. split; [reflexivity |]. unfold gens_on, total; cbn. field.
Qed.
(** Finding: the vectors of saved powers are not cleared by a second load: resetting then restores the powers of the first. *)
Theorem C40_second_load_refuted : exists d d' u u', load new_bus d = Ok u /\ load u d' = Ok u' /\ map g_pg (q_gens u') = [60] /\ map g_pg (q_gens (reset_power u')) = [50] /\
  map l_pl (q_lds u') = [40] /\ map l_pl (q_lds (reset_power u')) = [30].
Proof.
  assert (N : forall p, exists g, norm_fac [load_gen (DGen "1"%string p 0 1 1 20 (-10) 100 10)] = Ok [g] /\ g_pg g = p).
  { intro p. unfold norm_fac; cbn. destruct (Req_EM_T _ _); eexists; split; reflexivity. }
  destruct (N 50) as (g1 & N1 & P1). destruct (N 60) as (g2 & N2 & P2).
  exists (DBus 100 0 1 2 (Some [Some g_ex]) (Some [Some l_ex])), (DBus 100 0 1 2 (Some [Some (DGen "1"%string 60 0 1 1 20 (-10) 100 10)]) (Some [Some (DLoad "1"%string 40 25 0 0 0 0 1)])).
  do 2 eexists. split; [unfold load; cbn [b_gens somes flat_map app map]; unfold g_ex; rewrite N1; cbn [obind]; reflexivity |].
  split; [unfold load; cbn [b_gens somes flat_map app map]; rewrite N2; cbn [obind]; reflexivity |].
  cbn. rewrite P2. repeat split; f_equal; ring.
Qed.
Print Assumptions C40_second_load_refuted.

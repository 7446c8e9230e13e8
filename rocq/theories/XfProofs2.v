From Coq Require Import Reals Lra.
From Coquelicot Require Import Complex.
From Verif Require Import Prelude StrModel RecModel RecSpec XfModel YbSpec XfSpec XfProofs.
Open Scope R_scope.

(** ** Two ratios and one *)
Lemma phasor_scale t t2 deg : t2 <> 0 -> (phasor t deg = RtoC t2 * phasor (t / t2) deg)%C.
Proof. intro H. unfold phasor, RtoC, Cmult. cbn [fst snd]. f_equal; field; exact H. Qed.
Lemma phasor_neq0 t deg : t <> 0 -> phasor t deg <> 0%C.
Proof.
  unfold phasor, RtoC. intros H E. pose proof (f_equal fst E) as A. pose proof (f_equal snd E) as B. cbn [fst snd] in A, B. pose proof (sin2_cos2 (deg * PI / 180)) as S. unfold Rsqr in S.
  apply Rmult_integral in A. apply Rmult_integral in B. destruct A as [A|A]; [contradiction|]. destruct B as [B|B]; [contradiction|].
  rewrite A, B in S. lra.
Qed.
Lemma conj_real_mult (t : R) (a : C) : (Cconj (RtoC t * a) = RtoC t * Cconj a)%C.
Proof. destruct a. unfold Cconj, Cmult, RtoC. cbn. f_equal; ring. Qed.
Lemma charge0 : ((0%R, (0 / 2)%R) : C) = 0%C.
Proof. unfold RtoC. f_equal. field. Qed.

Lemma two_port_two_winding (t1 t2 deg : R) (z : C) v1 v2 j1 j2 : t1 <> 0 -> t2 <> 0 -> z <> 0%C ->
  two_port (phasor (t1 / t2) deg) (RtoC t2 * RtoC t2 * z)%C 0 v1 v2 j1 j2 <-> two_winding (phasor t1 deg) t2 z v1 v2 j1 j2.
Proof.
  intros H1 H2 Hz. rewrite (phasor_scale t1 deg H2). set (a := phasor (t1 / t2) deg).
  assert (H2' : RtoC t2 <> 0%C) by (intro E; apply H2; now inversion E).
  unfold two_port, two_winding. rewrite charge0, conj_real_mult. split.
  - intros (v & j & A & B & D & E). exists (v / RtoC t2)%C, (v2 / RtoC t2)%C, (RtoC t2 * j)%C. repeat split.
    + rewrite <- A. field. exact H2'.
    + field. exact H2'.
    + assert (D' : (RtoC t2 * RtoC t2 * z * j = v - v2)%C) by (rewrite <- D; ring).
      replace (v / RtoC t2 - v2 / RtoC t2)%C with ((v - v2) / RtoC t2)%C by (field; exact H2'). rewrite <- D'. field. exact H2'.
    + rewrite <- B. ring.
    + assert (S : (RtoC t2 * RtoC t2 * z * (j + j2) = 0)%C).
      { replace (RtoC t2 * RtoC t2 * z * (j + j2))%C
          with (RtoC t2 * RtoC t2 * z * (j - 0 * v) + RtoC t2 * RtoC t2 * z * (j2 - 0 * v2))%C by ring. rewrite D, E. ring. }
      assert (S' : (j + j2 = 0)%C).
      { replace (j + j2)%C with ((RtoC t2 * RtoC t2 * z * (j + j2)) / (RtoC t2 * RtoC t2 * z))%C by (field; auto). rewrite S. field. auto. }
      replace (RtoC t2 * j2)%C with (RtoC t2 * ((j + j2) - j))%C by ring. rewrite S'. ring.
  - intros (u1 & u2 & i & A & B & D & E & F). exists (RtoC t2 * u1)%C, (Cconj a * j1)%C.
    assert (I : i = (RtoC t2 * (Cconj a * j1))%C) by (rewrite <- E; ring).
    assert (J : (j2 = - (Cconj a * j1))%C).
    { replace j2 with ((RtoC t2 * j2) / RtoC t2)%C by (field; exact H2'). rewrite F, I. field. exact H2'. }
    repeat split.
    + rewrite <- A. ring.
    + rewrite <- B. replace (RtoC t2 * u1 - RtoC t2 * u2)%C with (RtoC t2 * (u1 - u2))%C by ring. rewrite <- D, I. ring.
    + rewrite <- B. replace (RtoC t2 * u2 - RtoC t2 * u1)%C with (- (RtoC t2 * (u1 - u2)))%C by ring. rewrite <- D, I, J. ring.
Qed.

Lemma fdiv_some a b : b <> 0 -> fdiv (Some a) (Some b) = Some (a / b).
Proof. intro H. unfold fdiv. destruct (Req_EM_T b 0); [contradiction|reflexivity]. Qed.
Lemma to_case_some sbase r sb t2 (cz : Z) : (cz = 2 \/ cz = 1 /\ (sb = sbase \/ sb = 0%R))%Z -> sbase <> 0 ->
  to_case sbase r sb (Some t2) = Some (t2 * t2 * on_case sbase cz r sb).
Proof.
  intros Hcz H0. unfold to_case, on_case, fmul. destruct (Req_EM_T sb sbase) as [->|N].
  - destruct Hcz as [->|[-> _]]; [change (2 =? 1)%Z with false|change (1 =? 1)%Z with true]; cbv iota; apply (f_equal (@Some R)).
    + destruct (Req_EM_T sbase 0); [contradiction|]. field. exact H0.
    + ring.
  - destruct (Req_EM_T sb 0) as [->|N0].
    + apply (f_equal (@Some R)). destruct (cz =? 1)%Z; ring.
    + destruct Hcz as [->|[-> [E|E]]]; [|contradiction|contradiction]. change (2 =? 1)%Z with false. cbv iota.
      rewrite fdiv_some by exact N0. apply (f_equal (@Some R)). field. exact N0.
Qed.

(** ** The element *)
Lemma two_elem_ok atof sbase v r1 r2 r3 r4 : readable2 v r1 r2 r3 r4 ->
  exists e, two_elem atof sbase v r1 r2 r3 r4 = Ok e /\ two_element atof sbase v r1 r2 r3 r4 e.
Proof.
  intro Hr. pose proof Hr as (H1 & I1 & _ & H2 & H3 & _ & H4).
  destruct (@nth_error_some _ r1 4) as [t4 E4]; [lia|]. destruct (I1 4%nat ["TRANSFORMER_CW"%string] t4 eq_refl E4) as [cw Ecw].
  assert (Hcw : code r1 4 cw) by (exists t4; auto).
  destruct (@two_elem_form atof sbase v r1 r2 r3 r4 cw Hr Hcw) as (t & tag & l1 & l3 & Et & Eg & E1 & E3 & E). cbv zeta in E.
  eexists. split; [exact E|].
  set (w := windvs atof cw r3 r4) in *. set (sb := val atof r2 2) in *. clear E.
  pose proof (@holds1 atof v r1 r3 tag l1 l3 E1 E3 sb (fst w) (snd w) (val atof r2 0) (val atof r2 1)
    (to_case sbase (val atof r2 0) sb (snd w)) (to_case sbase (val atof r2 1) sb (snd w))) as P1.
  pose proof (@holds3 atof v r1 r3 tag l1 l3 E1 E3 sb (fst w) (snd w) (val atof r2 0) (val atof r2 1)
    (to_case sbase (val atof r2 0) sb (snd w)) (to_case sbase (val atof r2 1) sb (snd w))) as P3.
  split; [|split; [exact P1|split; [exact P3|]]].
  - exists t, tag. repeat split; auto. rewrite xget_xadds0. reflexivity.
  - intros cw' cz kv1 kv2 Hcw' Hcz. rewrite (code_fun Hcw' Hcw). clear cw' Hcw'.
    intros n1 n2 sb' t1 t2 z. subst sb'. fold sb in z |- *. intros Hv Hz K1 K2 T1 T2 Zn S0.
    assert (W : w = (Some t1, Some t2)).
    { unfold w, windvs, t1, t2, ratio. fold n1 n2. destruct Hv as [->|(-> & N1 & N2)].
      - reflexivity.
      - change (2 =? 2)%Z with true. change (2 =? 1)%Z with false. cbv iota. rewrite N1, N2. rewrite !fdiv_some by auto. reflexivity. }
    rewrite W. cbn [fst snd].
    assert (L2 : (2 < length r3)%nat) by (destruct v; lia).
    exists (t1 / t2), (val atof r3 2), (t2 * t2 * on_case sbase cz (val atof r2 0) sb), (t2 * t2 * on_case sbase cz (val atof r2 1) sb).
    assert (Q : forall name q, String.eqb "BRANCH_CKT" name = false -> filter (named name) line1_items = [] ->
      xget (mids sb (Some t1) (Some t2) (val atof r2 0) (val atof r2 1) (to_case sbase (val atof r2 0) sb (Some t2)) (to_case sbase (val atof r2 1) sb (Some t2))) name = Some q ->
      xget (xadds [] (("BRANCH_CKT"%string, XS tag) :: l1 ++
        mids sb (Some t1) (Some t2) (val atof r2 0) (val atof r2 1) (to_case sbase (val atof r2 0) sb (Some t2)) (to_case sbase (val atof r2 1) sb (Some t2)) ++ l3)%list) name = Some q).
    { intros name q A B D. exact (@mid_get atof r1 tag l1 l3 E1 sb (Some t1) (Some t2) (val atof r2 0) (val atof r2 1) _ _ name q A B D). }
    split; [|split; [|split; [|split; [|split]]]].
    + apply Q; try reflexivity. cbn [xget mids String.eqb Ascii.eqb Bool.eqb]. rewrite fdiv_some by exact T2. reflexivity.
    + rewrite W in P3. cbn [fst snd] in P3. specialize (P3 2%nat (FDbl ["BRANCH_SHIFT"; "TRANSFORMER_ANG1"]%string) "BRANCH_SHIFT"%string).
      assert (X : nth_error (layout3 v) 2 = Some (FDbl ["BRANCH_SHIFT"; "TRANSFORMER_ANG1"]%string)) by (destruct v; reflexivity).
      specialize (P3 X (or_introl eq_refl)). unfold val. destruct (nth_error_some r3 L2) as [u Eu]. rewrite Eu in *. exact P3.
    + apply Q; try reflexivity. cbn [xget mids String.eqb Ascii.eqb Bool.eqb]. rewrite (@to_case_some sbase _ sb t2 cz Hz S0). reflexivity.
    + apply Q; try reflexivity. cbn [xget mids String.eqb Ascii.eqb Bool.eqb]. rewrite (@to_case_some sbase _ sb t2 cz Hz S0). reflexivity.
    + unfold Rdiv. apply Rmult_integral_contrapositive_currified; [exact T1|now apply Rinv_neq_0_compat].
    + intros v1 v2 j1 j2. rewrite <- (two_port_two_winding (val atof r3 2) v1 v2 j1 j2 T1 T2 Zn).
      replace ((t2 * t2 * on_case sbase cz (val atof r2 0) sb, t2 * t2 * on_case sbase cz (val atof r2 1) sb) : C) with (RtoC t2 * RtoC t2 * z)%C.
      { reflexivity. }
      unfold z, RtoC, Cmult. cbn [fst snd]. f_equal; ring.
Qed.

(** ** Records *)
Lemma read_inner l r st s k : inner_line l r -> read_line (l :: st) s k = k r st.
Proof. intros [A B]. unfold read_line. cbn [next_line]. rewrite A, B. reflexivity. Qed.
Lemma upd_app_at (A : Type) (l m : list A) k y : upd (l ++ m) (length l + k) y = (l ++ upd m k y)%list.
Proof. induction l as [|a l IH]; cbn [app length Nat.add upd]; [reflexivity|]. now rewrite IH. Qed.
Lemma upd_last (A : Type) (l : list A) x y : upd (l ++ [x]) (length l) y = (l ++ [y])%list.
Proof. pose proof (upd_app_at l [x] 0 y) as H. rewrite Nat.add_0_r in H. exact H. Qed.

Definition where_next (st : list str) (s : xstate) : outcome where_ := go_on st s.

Lemma pfind_app m p q l : pfind (m ++ [(q, l)])%list p = match pfind m p with Some x => Some x | None => if ((fst q =? fst p) && (snd q =? snd p))%Z then Some l else None end.
Proof. induction m as [|[k v] m IH]; cbn [app pfind]; [reflexivity|]. destruct ((fst k =? fst p) && (snd k =? snd p))%Z; [reflexivity|exact IH]. Qed.

Lemma record_two atof names bmap sbase v l1 l2 l3 l4 st r1 r2 r3 r4 s :
  record_line l1 r1 -> bus_field names r1 2 0 -> inner_line l2 r2 -> inner_line l3 r3 -> inner_line l4 r4 ->
  readable2 v r1 r2 r3 r4 -> (exists o1, bus_field names r1 0 o1) -> (exists o2, bus_field names r1 1 o2) ->
  map_ok (x_map s) (length (x_br s)) ->
  exists s', xf_record atof names bmap sbase v l1 (l2 :: l3 :: l4 :: st) s = go_on st s' /\ one_two atof names sbase v r1 r2 r3 r4 s s' /\
    map_ok (x_map s') (length (x_br s')).
Proof.
  intros (_ & _ & S1) B3 I2 I3 I4 Hr [o1 B1] [o2 B2] Hm. unfold xf_record. rewrite S1. cbn [obind].
  rewrite (bus_field_ok B1), (bus_field_ok B2), (bus_field_ok B3). cbn [obind Z.eqb]. change (0 =? 0)%Z with true. cbv iota.
  unfold two. rewrite (read_inner _ _ _ I2), (read_inner _ _ _ I3), (read_inner _ _ _ I4).
  destruct (two_elem_ok atof sbase Hr) as (e & -> & He). cbn [obind]. unfold two_slot.
  destruct (pfind (x_map s) (o1, o2)) as [l|] eqn:P1; [|destruct (pfind (x_map s) (o2, o1)) as [l|] eqn:P2].
  - destruct (nth_error_some (x_br s) (Hm _ _ P1)) as [b Eb]. rewrite Eb. eexists. split; [reflexivity|]. split.
    + exists o1, o2, e. refine (conj B1 (conj B2 (conj He (conj eq_refl (conj eq_refl _))))). left. exists (o1, o2), l, b. repeat split; auto.
    + unfold set_br. cbn [x_map x_br]. rewrite upd_length. exact Hm.
  - destruct (nth_error_some (x_br s) (Hm _ _ P2)) as [b Eb]. rewrite Eb. eexists. split; [reflexivity|]. split.
    + exists o1, o2, e. refine (conj B1 (conj B2 (conj He (conj eq_refl (conj eq_refl _))))). left. exists (o2, o1), l, b. repeat split; auto.
    + unfold set_br. cbn [x_map x_br]. rewrite upd_length. exact Hm.
  - cbn [x_br]. rewrite nth_error_app2 by lia. rewrite Nat.sub_diag. cbn [nth_error]. eexists. split; [reflexivity|].
    unfold set_br. cbn [x_br x_bus x_map x_index x_max xb_own xb_elems app]. rewrite upd_last. split.
    + exists o1, o2, e. refine (conj B1 (conj B2 (conj He (conj eq_refl (conj eq_refl _))))). right. repeat split; auto. eexists. repeat split; reflexivity.
    + cbn [x_map x_br]. intros p l H. rewrite pfind_app in H. rewrite app_length. cbn [length].
      destruct (pfind (x_map s) p) eqn:E; [inversion H; subst; specialize (Hm _ _ E); lia|].
      destruct (_ && _)%bool; inversion H. lia.
Qed.

Lemma winding_ok atof v r : (match v with V33 => 6 | _ => 15 end <= length r)%nat ->
  winding atof v r = Ok (val atof r 0, val atof r 2, map (val atof r) (seq 3 (rate_count v))).
Proof.
  intro H. unfold winding. rewrite !num_ok by (destruct v; lia). cbn [obind]. rewrite nums_ok by (destruct v; cbn [rate_count]; lia). reflexivity.
Qed.
Lemma correct_some sbase x sb : sb <> 0 -> correct sbase x sb = Some x.
Proof. intro H. unfold correct. destruct (Req_EM_T sb sbase); [reflexivity|]. destruct (Req_EM_T sb 0); [contradiction|reflexivity]. Qed.
Lemma on_case_id atof sbase r1 r2 c cz x : case_base atof sbase r1 r2 -> In c [2; 5; 8]%nat -> code r1 5 cz -> on_case sbase cz x (val atof r2 c) = x.
Proof.
  intros [S0 H] Hc Hz. destruct (H _ Hc) as [N [K|[K E]]]; rewrite (code_fun Hz K); unfold on_case.
  - reflexivity.
  - change (2 =? 1)%Z with false. cbv iota. destruct (Req_EM_T (val atof r2 c) 0); [contradiction|]. rewrite E. field. exact S0.
Qed.
Lemma status_code stat k (l : list Z) : (winding_on stat k <-> In stat l) ->
  (winding_on stat k -> XI (if zmem stat l then 1 else 0)%Z = XI 1) /\ (~ winding_on stat k -> XI (if zmem stat l then 1 else 0)%Z = XI 0).
Proof.
  intro H. rewrite H. assert (Z : zmem stat l = true <-> In stat l).
  { unfold zmem. rewrite existsb_exists. split; [intros (y & Hy & E); apply Z.eqb_eq in E; now subst|intro Hi; exists stat; split; [exact Hi|apply Z.eqb_refl]]. }
  rewrite <- Z. destruct (zmem stat l); split; intro Q; try reflexivity; [exfalso; now apply Q|discriminate].
Qed.

Lemma br_set s i b : x_br (set_br s i b) = upd (x_br s) i b.
Proof. reflexivity. Qed.
Lemma br_push s b : x_br (push_br s b) = (x_br s ++ [b])%list.
Proof. reflexivity. Qed.
Lemma three_upds (A : Type) (l : list A) e a1 a2 b2 a3 b3 :
  upd (upd (upd (upd (upd (l ++ [e]) (length l) a1 ++ [e]) (length l) a2) (length l + 1) b2 ++ [e]) (length l) a3) (length l + 2) b3 = (l ++ [a3; b2; b3])%list.
Proof. induction l as [|x l IH]; cbn; [reflexivity|]. cbn in IH. now rewrite IH. Qed.
Lemma star_get tag r x re windv ang g1 b1 on name : xget (star_elem tag r x re windv ang g1 b1 on) name =
  match xget [("BRANCH_CKT", XS tag); ("BRANCH_R", XR r); ("BRANCH_X", XR x); ("BRANCH_B", XR (Some 0))]%string name with Some w => Some w | None =>
  match xget re name with Some w => Some w | None =>
  xget [("BRANCH_TAP", XR (Some windv)); ("BRANCH_SHIFT", XR (Some ang)); ("BRANCH_SWITCHED", XB false);
     ("BRANCH_SHUNT_ADMTTNC_G1", XR (Some g1)); ("BRANCH_SHUNT_ADMTTNC_B1", XR (Some b1));
     ("BRANCH_SHUNT_ADMTTNC_G2", XR (Some 0)); ("BRANCH_SHUNT_ADMTTNC_B2", XR (Some 0)); ("BRANCH_STATUS", XI (if on then 1 else 0))]%string name end end.
Proof. unfold star_elem. rewrite xget_xadds0, !xget_app. reflexivity. Qed.
Lemma star_branch_ok atof v r1 rw k i from star stat z re t tag l g1 b1 : nth_error r1 3 = Some t -> clean2char t = Ok tag ->
  (winding_on stat k <-> In stat l) ->
  Forall (fun n => xget re n = None) ["BRANCH_TAP"; "BRANCH_SHIFT"; "BRANCH_SHUNT_ADMTTNC_G1"; "BRANCH_SHUNT_ADMTTNC_B1"; "BRANCH_SHUNT_ADMTTNC_G2"; "BRANCH_SHUNT_ADMTTNC_B2"; "BRANCH_STATUS"]%string ->
  (g1, b1) = (if (k =? 1)%nat then val atof r1 7 else 0, if (k =? 1)%nat then val atof r1 8 else 0) ->
  (v = V33 \/ k = 1%nat -> xget re "BRANCH_RATING_A"%string = Some (XR (Some (val atof rw 3))) /\
     xget re "BRANCH_RATING_B"%string = Some (XR (Some (val atof rw 4))) /\ xget re "BRANCH_RATING_C"%string = Some (XR (Some (val atof rw 5)))) ->
  winding_branch atof v r1 rw k from star stat z
    (XBranch (star_own i from star) [star_elem tag (fst z) (snd z) re (val atof rw 0) (val atof rw 2) g1 b1 (zmem stat l)]).
Proof.
  intros Et Eg C N G Hr. assert (N' : forall n, In n ["BRANCH_TAP"; "BRANCH_SHIFT"; "BRANCH_SHUNT_ADMTTNC_G1"; "BRANCH_SHUNT_ADMTTNC_B1"; "BRANCH_SHUNT_ADMTTNC_G2"; "BRANCH_SHUNT_ADMTTNC_B2"; "BRANCH_STATUS"]%string -> xget re n = None).
  { apply Forall_forall. exact N. } clear N. inversion G; subst g1 b1.
  split; [reflexivity|]. split; [reflexivity|]. eexists. split; [reflexivity|].
  split; [exists t, tag; split; [exact Et|]; split; [exact Eg|]; rewrite star_get; reflexivity|].
  do 3 (split; [rewrite star_get; reflexivity|]). do 2 (split; [rewrite star_get, N' by (cbn; auto); reflexivity|]).
  split. { intro K. destruct (Hr K) as (A & B & D). rewrite !star_get, A, B, D. auto. }
  do 4 (split; [rewrite star_get, N' by (cbn; auto 8); reflexivity|]).
  rewrite star_get, N' by (cbn; auto 8). cbn [xget String.eqb Ascii.eqb Bool.eqb]. apply status_code in C.
  split; intro W; apply (f_equal Some); now apply C.
Qed.
Definition star_values (atof : str -> R) (sbase : R) (r2 : list str) (k : nat) : option R * option R :=
  let z := val atof r2 in
  match k with
  | 1 => (correct sbase (/ 2 * (z 0 + z 6 - z 3)) (z 2), correct sbase (/ 2 * (z 1 + z 7 - z 4)) (z 2))
  | 2 => (correct sbase (/ 2 * (z 0 + z 3 - z 6)) (z 5), correct sbase (/ 2 * (z 1 + z 4 - z 7)) (z 5))
  | _ => (correct sbase (/ 2 * (z 3 + z 6 - z 0)) (z 8), correct sbase (/ 2 * (z 4 + z 7 - z 1)) (z 8))
  end%nat.
Lemma record_three atof names bmap sbase v (P : list str -> list str -> option R * option R -> option R * option R -> option R * option R -> Prop)
    l1 l2 l3 l4 l5 st r1 r2 r3 r4 r5 k s :
  record_line l1 r1 -> bus_field names r1 2 k -> k <> 0%Z ->
  inner_line l2 r2 -> inner_line l3 r3 -> inner_line l4 r4 -> inner_line l5 r5 ->
  readable3 v bmap names r1 r2 r3 r4 r5 -> P r1 r2 (star_values atof sbase r2 1) (star_values atof sbase r2 2) (star_values atof sbase r2 3) ->
  buses_ok bmap (x_bus s) ->
  exists s', xf_record atof names bmap sbase v l1 (l2 :: l3 :: l4 :: l5 :: st) s = go_on st s' /\ one_three atof names bmap P v r1 r2 r3 r4 r5 s s'.
Proof.
  intros (_ & _ & S1) B3 Hk I2 I3 I4 I5 (L1 & (t & tag & Et & Eg) & L2 & (stat & Hs) & Lw & (o1 & o2 & o3 & Q1 & Q2 & Q3 & N1 & N2 & N3)) HP Hb.
  rewrite (bus_field_fun B3 Q3) in Hk. unfold xf_record. rewrite S1. cbn [obind].
  rewrite (bus_field_ok Q1), (bus_field_ok Q2), (bus_field_ok Q3). cbn [obind]. apply Z.eqb_neq in Hk. rewrite Hk.
  unfold three. rewrite (read_inner _ _ _ I2), (code_int Hs). cbn [obind].
  assert (X : (length r2 <? 4)%nat = false) by (apply Nat.ltb_ge; lia). rewrite X. cbn [orb].
  destruct (stat =? 0)%Z eqn:E0.
  { apply Z.eqb_eq in E0. subst. exists s. split; [reflexivity|]. left. auto. }
  unfold bus_at. destruct (zfind bmap o1) as [i1|] eqn:F1; [|contradiction]. destruct (zfind bmap o2) as [i2|]; [|contradiction].
  destruct (zfind bmap o3) as [i3|]; [|contradiction]. cbn [obind]. destruct (Hb _ _ F1) as (d & a & w & Ed & Ea & Ew).
  unfold bus_entry. rewrite Ed, Ea, Ew. cbn [obind]. rewrite !num_ok by lia. cbn [obind]. unfold col at 1. rewrite Et. cbn [obind]. rewrite Eg. cbn [obind].
  rewrite (read_inner _ _ _ I3), (winding_ok atof v r3 (Lw r3 ltac:(cbn; auto))). cbn [obind].
  rewrite (read_inner _ _ _ I4), (winding_ok atof v r4 (Lw r4 ltac:(cbn; auto))). cbn [obind].
  rewrite (read_inner _ _ _ I5), (winding_ok atof v r5 (Lw r5 ltac:(cbn; auto))). cbn [obind].
  apply Z.eqb_neq in E0.
  match goal with |- exists s', go_on st ?S = _ /\ _ => exists S; set (s' := S) end. split; [reflexivity|]. right.
  assert (Hbr : exists b1 b2 b3, x_br s' = (x_br s ++ [b1; b2; b3])%list /\
     winding_branch atof v r1 r3 1 o1 (x_max s + 1) stat (star_values atof sbase r2 1) b1 /\
     winding_branch atof v r1 r4 2 o2 (x_max s + 1) stat (star_values atof sbase r2 2) b2 /\
     winding_branch atof v r1 r5 3 o3 (x_max s + 1) stat (star_values atof sbase r2 3) b3).
  { unfold s'. rewrite ?br_set, ?br_push, ?br_set, ?br_push, ?br_set, ?br_push. cbn [x_br].
    rewrite three_upds.
    do 3 eexists. split; [reflexivity|].
    assert (C1 : winding_on stat 1 <-> In stat [1; 2; 3]%Z) by (unfold winding_on; cbn [In]; split; intros; lia).
    assert (C2 : winding_on stat 2 <-> In stat [1; 3; 4]%Z) by (unfold winding_on; cbn [In]; split; intros; lia).
    assert (C3 : winding_on stat 3 <-> In stat [1; 2; 4]%Z) by (unfold winding_on; cbn [In]; split; intros; lia).
    split; [apply (@star_branch_ok atof v r1 r3 1 _ o1 _ stat (star_values atof sbase r2 1) _ t tag [1; 2; 3]%Z _ _ Et Eg C1)
           |split; [apply (@star_branch_ok atof v r1 r4 2 _ o2 _ stat (star_values atof sbase r2 2) _ t tag [1; 3; 4]%Z _ _ Et Eg C2)
                   |apply (@star_branch_ok atof v r1 r5 3 _ o3 _ stat (star_values atof sbase r2 3) _ t tag [1; 2; 4]%Z _ _ Et Eg C3)]].
    1,4,7: destruct v; repeat constructor.
    1,3,5: reflexivity.
    1: intros _; destruct v; auto.
    all: intros [->|K]; [auto|discriminate K].
  }
  destruct Hbr as (b1 & b2 & b3 & Hbr & W1 & W2 & W3).
  exists stat, o1, o2, o3, i1, d. do 7 eexists. assert (M : x_max s' = (x_max s + 1)%Z) by reflexivity. rewrite <- M in W1, W2, W3.
  split; [exact Hs|]. split; [exact E0|]. split; [exact Q1|]. split; [exact Q2|]. split; [exact Q3|].
  split; [exact M|]. split; [reflexivity|]. split; [reflexivity|]. split; [reflexivity|]. split; [reflexivity|].
  split; [exact F1|]. split; [exact Ed|]. split; [rewrite Ea; reflexivity|]. split; [rewrite Ew; reflexivity|].
  split; [reflexivity|]. split; [reflexivity|]. split; [exact Hbr|].
  split; [|split; [exact W1|split; [exact W2|exact W3]]]. exact HP.
Qed.
Lemma star_values_given atof sbase r1 r2 : bases_nonzero atof r1 r2 ->
  star_as_given atof r1 r2 (star_values atof sbase r2 1) (star_values atof sbase r2 2) (star_values atof sbase r2 3).
Proof.
  intro H. unfold star_values. rewrite !correct_some by (apply H; cbn; auto). unfold star_as_given, star.
  set (z := val atof r2). exists (/ 2 * (z 0%nat + z 6%nat - z 3%nat), / 2 * (z 1%nat + z 7%nat - z 4%nat)), (/ 2 * (z 0%nat + z 3%nat - z 6%nat), / 2 * (z 1%nat + z 4%nat - z 7%nat)),
    (/ 2 * (z 3%nat + z 6%nat - z 0%nat), / 2 * (z 4%nat + z 7%nat - z 1%nat)). repeat split; unfold Cplus; cbn [fst snd]; apply injective_projections; cbn [fst snd]; lra.
Qed.
Lemma star_values_case atof sbase r1 r2 : case_base atof sbase r1 r2 ->
  star_of atof sbase r1 r2 (star_values atof sbase r2 1) (star_values atof sbase r2 2) (star_values atof sbase r2 3).
Proof.
  intros Hcb cz Hz. destruct (@star_values_given atof sbase r1 r2) as (z1 & z2 & z3 & A & B & D & E & F & G).
  { intros c Hc. apply (proj2 Hcb c Hc). }
  exists z1, z2, z3. repeat split; auto.
  - rewrite E. rewrite !(@on_case_id atof sbase r1 r2 2 cz _ Hcb ltac:(cbn; auto) Hz). reflexivity.
  - rewrite F. rewrite !(@on_case_id atof sbase r1 r2 5 cz _ Hcb ltac:(cbn; auto) Hz). reflexivity.
  - rewrite G. rewrite !(@on_case_id atof sbase r1 r2 8 cz _ Hcb ltac:(cbn; auto) Hz). reflexivity.
Qed.

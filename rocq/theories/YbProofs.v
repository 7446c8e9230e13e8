(** Proofs for YbProps.v. *)
From Verif Require Import Prelude YbModel YbSpec.
From Coq Require Import Reals Lra.
From Coquelicot Require Import Complex.
Open Scope R_scope.
Open Scope C_scope.

Lemma Cext : forall x y : C, fst x = fst y -> snd x = snd y -> x = y.
Proof. intros [a b] [c d]; cbn; intros; subst; reflexivity. Qed.
Lemma conj_neq : forall a : C, a <> 0 -> Cconj a <> 0.
Proof. intros [x y] H K; apply H; injection K; intros; apply Cext; cbn; lra. Qed.
Lemma conj_conj : forall a, Cconj (Cconj a) = a.
Proof. intros [x y]; apply Cext; cbn; lra. Qed.
Lemma conj_1 : Cconj 1 = 1.
Proof. apply Cext; cbn; lra. Qed.
Lemma Cmult_cancel : forall a x y : C, a <> 0 -> a * x = a * y -> x = y.
Proof. intros a x y H E; assert (H1 : / a * (a * x) = / a * (a * y)) by (rewrite E; auto); rewrite !Cmult_assoc, !Cinv_l, !Cmult_1_l in H1; auto. Qed.

(** the law solved for the currents *)
Lemma two_port_iff : forall (a z : C) (b : R) (vf vt jf jt : C), a <> 0 -> z <> 0 ->
  two_port a z b vf vt jf jt <->
  jf = (1 / z + (0%R, (b / 2)%R)) / (a * Cconj a) * vf + - (1) / z / Cconj a * vt /\
  jt = (1 / z + (0%R, (b / 2)%R)) * vt + - (1) / z / a * vf.
Proof.
  intros a z b vf vt jf jt Ha Hz; pose proof (conj_neq Ha) as Hc; unfold two_port.
  set (c := Cconj a) in *; set (y := (0%R, (b / 2)%R) : C).
  split.
  - intros (v & j & E1 & E2 & E3 & E4); subst vf j.
    assert (F1 : c * jf = (v - vt) / z + y * v).
    { apply (@Cmult_cancel z); auto. replace (z * ((v - vt) / z + y * v)) with (v - vt + z * y * v) by (field; auto). rewrite <- E3; ring. }
    assert (F2 : jt = (vt - v) / z + y * vt).
    { apply (@Cmult_cancel z); auto. replace (z * ((vt - v) / z + y * vt)) with (vt - v + z * y * vt) by (field; auto). rewrite <- E4; ring. }
    split.
    + apply (@Cmult_cancel c); auto. rewrite F1. field; auto.
    + rewrite F2; field; auto.
  - intros [-> ->]; exists (vf / a), (((1 / z + y) / a) * vf + - (1) / z * vt).
    repeat split; field; auto.
Qed.

Definition elem_of (l : line) : elem :=
  Elem (ltag l) (lr l) (lx l) (ltap l) (ldeg l * PI / 180)%R (lb l) (lg1 l) (lb1 l) (lg2 l) (lb2 l)
       (if Req_EM_T (ltap l) 0 then false else true) true (lserv l) (lrev l).

Lemma load_elem_ok : forall d l rv sv, describes d l ->
  load_elem d rv sv = Ok (elem_of l, lserv l, Some (lb2 l), ltag l).
Proof.
  intros d l rv sv (Hx & Hr & Hs & Ht & Hc & Hst & Hsw & Hb & H1 & H2 & H3 & H4).
  unfold load_elem. rewrite Hx, Hr, Hc, Hb, H1, H2, H3, H4. cbn [has look val obind andb].
  assert (E1 : match dShift d with Some v => v | None => 0%R end = ldeg l) by (destruct Hs as [-> | [-> ->]]; reflexivity).
  assert (E2 : match dTap d with Some v => v | None => 0%R end = ltap l) by (destruct Ht as [-> | [-> ->]]; reflexivity).
  assert (E3 : match dStat d with Some v => v | None => 1%Z end = (if lserv l then 1 else 0)%Z) by (destruct Hst as [-> | [-> ->]]; reflexivity).
  assert (E4 : match dSw d with Some v => v | None => false end = lrev l) by (destruct Hsw as [-> | [-> ->]]; reflexivity).
  rewrite E1, E2, E3, E4, atan_1. unfold elem_of.
  replace (ldeg l * (4 * (PI / 4)) / 180)%R with (ldeg l * PI / 180)%R by field.
  destruct (lserv l); reflexivity.
Qed.
Lemma load_elems_ok : forall ds ls rv sv, Forall2 describes ds ls ->
  load_elems ds rv sv = Ok (map elem_of ls, existsb lserv ls).
Proof.
  intros ds ls rv sv H; revert rv sv; induction H as [| d l ds ls Hd H IH]; intros rv sv; cbn [load_elems map existsb]; auto.
  rewrite (load_elem_ok rv sv Hd); cbn [obind]. rewrite IH; cbn [obind fst snd]. reflexivity.
Qed.
Lemma load_branch_ok : forall k1 k2 ds ls, Forall2 describes ds ls ->
  load_branch k1 k2 ds = Ok (Yb k1 k2 (existsb lserv ls) (map elem_of ls)).
Proof. intros; unfold load_branch; rewrite (load_elems_ok None ""%string H); reflexivity. Qed.

(** A branch holding the elements of records, with the active flag set whenever something is in service. *)
Definition repr (b : ybranch) (x : arc) : Prop :=
  yb1 b = a1 x /\ yb2 b = a2 x /\ yel b = map elem_of (ael x) /\ (existsb lserv (ael x) = true -> yact b = true).

Lemma turns_neq : forall l, turns l <> 0.
Proof.
  intro l; unfold turns; destruct (Req_EM_T (ltap l) 0) as [E | E].
  - intro H; injection H; lra.
  - intro H; injection H; intros H1 H2.
    apply Rmult_integral in H1; apply Rmult_integral in H2.
    destruct H1 as [H1 | H1]; [easy |]; destruct H2 as [H2 | H2]; [easy |].
    pose proof (sin2_cos2 (ldeg l * PI / 180)) as H3; rewrite H1, H2 in H3; unfold Rsqr in H3; lra.
Qed.
Lemma ratio_turns : forall l, ltap l <> 0%R -> RtoC (etap (elem_of l)) * expi (eshift (elem_of l)) = turns l.
Proof. intros l H; unfold turns; destruct (Req_EM_T (ltap l) 0); [easy |]; apply Cext; cbn; ring. Qed.

(** contribution of one element to the diagonal of bus [k] *)
Definition dia (b1 b2 k : nat) (e : elem) : C :=
  let b := Yb b1 b2 true [e] in - getAdmittance b - getTransformer b k + getShunt b k.
Lemma sumC_cons : forall x l, sumC (x :: l) = x + sumC l.
Proof. reflexivity. Qed.
Lemma dia_sum : forall b k, - getAdmittance b - getTransformer b k + getShunt b k = sumC (map (dia (yb1 b) (yb2 b) k) (yel b)).
Proof.
  intros [k1 k2 ac es] k; cbn [yb1 yb2 yel]. unfold getAdmittance, getTransformer, getShunt; cbn [yb1 yb2 yel].
  induction es as [| e es IH]; [cbn; apply Cext; cbn; ring |].
  cbn [map]. rewrite !sumC_cons, <- IH.
  unfold dia, getAdmittance, getTransformer, getShunt; cbn [yb1 yb2 yel map]; rewrite !sumC_cons; cbn [sumC fold_right].
  match goal with |- - (?p + ?q) - (?r + ?s) + (?t + ?u) = _ => generalize p q r s t u end; intros; ring.
Qed.

Ltac nz := repeat split; auto; try (let HH := fresh in intro HH; injection HH; lra).
Lemma half : forall b, (0%R, (/ 2 * b)%R) = (0%R, (b / 2)%R) :> C.
Proof. intro b; f_equal; field. Qed.

Lemma elem_law : forall l k1 k2 v1 v2 j1 j2, k1 <> k2 -> impedance l <> 0 -> simple_line l ->
  (at_branch l v1 v2 j1 j2 <->
   j1 = dia k1 k2 k1 (elem_of l) * v1 + fst (yfr (elem_of l)) * v2 /\
   j2 = dia k1 k2 k2 (elem_of l) * v2 + snd (yfr (elem_of l)) * v1).
Proof.
  intros l k1 k2 v1 v2 j1 j2 Hk Hz Hs.
  assert (N1 : (k1 =? k2)%nat = false) by (apply Nat.eqb_neq; auto).
  assert (N2 : (k2 =? k1)%nat = false) by (apply Nat.eqb_neq; auto).
  pose proof (turns_neq l) as Ht; pose proof (conj_neq Ht) as Hc.
  unfold dia, getAdmittance, getTransformer, getShunt, at_branch, element; cbn [yb1 yb2 yel map]; unfold sumC; cbn [fold_right].
  rewrite !Nat.eqb_refl, N1, N2. unfold yfr.
  change (zz (elem_of l)) with (impedance l). change (estat (elem_of l)) with (lserv l). change (eshunt (elem_of l)) with true.
  change (eswitch (elem_of l)) with (lrev l). change (eB (elem_of l)) with (lb l).
  change (eG1 (elem_of l)) with (lg1 l); change (eB1 (elem_of l)) with (lb1 l); change (eG2 (elem_of l)) with (lg2 l); change (eB2 (elem_of l)) with (lb2 l).
  rewrite !half.
  destruct (lserv l) eqn:Sv.
  2: { rewrite !andb_false_r. cbn [fst snd]. destruct (lrev l); split; intros [-> ->]; split; ring. }
  rewrite !andb_true_r.
  set (z := impedance l) in *; set (y := (0%R, (lb l / 2)%R) : C).
  assert (X : exform (elem_of l) = negb (if Req_EM_T (ltap l) 0 then true else false)) by (cbn; destruct (Req_EM_T (ltap l) 0); auto).
  destruct (Req_EM_T (ltap l) 0) as [T0 | T0]; cbn [negb] in X; rewrite X; cbn [negb andb orb].
  - (* line *)
    assert (E : turns l = 1) by (unfold turns; destruct (Req_EM_T (ltap l) 0); easy).
    rewrite E in *; rewrite conj_1 in *.
    assert (S2 : lrev l = true -> lg1 l = lg2 l /\ lb1 l = lb2 l) by (intro; destruct Hs as [Hs | Hs]; [congruence | auto]).
    destruct (lrev l) eqn:Rv; cbn [negb andb orb fst snd].
    + destruct (S2 eq_refl) as [-> ->].
      split.
      * intros (kf & kt & H & -> & ->). apply two_port_iff in H; auto. fold y in H. rewrite conj_1 in H. destruct H as [-> ->]. split; field; nz.
      * intros [-> ->]. exists ((1 / z + y) * v2 + - (1) / z * v1), ((1 / z + y) * v1 + - (1) / z * v2).
        split; [apply two_port_iff; auto; fold y; rewrite conj_1; split; field; nz | split; field; nz].
    + split.
      * intros (kf & kt & H & -> & ->). apply two_port_iff in H; auto. fold y in H. rewrite conj_1 in H. destruct H as [-> ->]. split; field; nz.
      * intros [-> ->]. exists ((1 / z + y) * v1 + - (1) / z * v2), ((1 / z + y) * v2 + - (1) / z * v1).
        split; [apply two_port_iff; auto; fold y; rewrite conj_1; split; field; nz | split; field; nz].
  - (* transformer *)
    rewrite !(ratio_turns l T0). set (a := turns l) in *.
    assert (S2 : lrev l = true -> lg1 l = lg2 l /\ lb1 l = lb2 l) by (intro; destruct Hs as [Hs | Hs]; [congruence | auto]).
    destruct (lrev l) eqn:Rv; cbn [negb andb orb fst snd]; rewrite ?conj_conj; set (c := Cconj a) in *.
    + destruct (S2 eq_refl) as [-> ->].
      split.
      * intros (kf & kt & H & -> & ->). apply two_port_iff in H; auto. fold c in H; fold y in H. destruct H as [-> ->]. split; field; nz.
      * intros [-> ->]. exists ((1 / z + y) / (a * c) * v2 + - (1) / z / c * v1), ((1 / z + y) * v1 + - (1) / z / a * v2).
        split; [apply two_port_iff; auto; split; reflexivity | split; field; nz].
    + split.
      * intros (kf & kt & H & -> & ->). apply two_port_iff in H; auto. fold c in H; fold y in H. destruct H as [-> ->]. split; field; nz.
      * intros [-> ->]. exists ((1 / z + y) / (a * c) * v1 + - (1) / z / c * v2), ((1 / z + y) * v2 + - (1) / z / a * v1).
        split; [apply two_port_iff; auto; split; reflexivity | split; field; nz].
Qed.

Lemma branch_law : forall ls k1 k2 ac v1 v2 j1 j2, k1 <> k2 -> Forall (fun l => impedance l <> 0) ls -> Forall simple_line ls ->
  let b := Yb k1 k2 ac (map elem_of ls) in
  (branch_currents ls v1 v2 j1 j2 <->
   j1 = (- getAdmittance b - getTransformer b k1 + getShunt b k1) * v1 + yfrwd b * v2 /\
   j2 = (- getAdmittance b - getTransformer b k2 + getShunt b k2) * v2 + yrvrs b * v1).
Proof.
  intros ls k1 k2 ac v1 v2 j1 j2 Hk Hz Hs b. rewrite !dia_sum. subst b; unfold yfrwd, yrvrs; cbn [yb1 yb2 yel].
  revert j1 j2; induction ls as [| l ls IH]; intros j1 j2; cbn [map].
  - cbn [sumC fold_right]. split.
    + intro H; inversion H; subst. split; ring.
    + intros [-> ->]. replace (0 * v1 + 0 * v2) with (RtoC 0) by ring. replace (0 * v2 + 0 * v1) with (RtoC 0) by ring. constructor.
  - inversion_clear Hz as [| ? ? Z1 Z2]; inversion_clear Hs as [| ? ? S1 S2]. rewrite !sumC_cons. specialize (IH Z2 S2).
    split.
    + intro H; inversion H; subst.
      match goal with A : at_branch _ _ _ _ _, B : branch_currents ls _ _ _ _ |- _ =>
        apply (@elem_law l k1 k2) in A; auto; apply IH in B; destruct A as [-> ->], B as [-> ->] end. split; ring.
    + intros [-> ->].
      set (p1 := dia k1 k2 k1 (elem_of l) * v1 + fst (yfr (elem_of l)) * v2).
      set (p2 := dia k1 k2 k2 (elem_of l) * v2 + snd (yfr (elem_of l)) * v1).
      match goal with |- branch_currents _ _ _ ((?d + ?s) * _ + (?f + ?t) * _) ((?d' + ?s') * _ + (?f' + ?t') * _) =>
        replace ((d + s) * v1 + (f + t) * v2) with (p1 + (s * v1 + t * v2)) by (unfold p1; ring);
        replace ((d' + s') * v2 + (f' + t') * v1) with (p2 + (s' * v2 + t' * v1)) by (unfold p2; ring) end.
      constructor; [apply (@elem_law l k1 k2); auto | apply IH; auto].
Qed.

(** values when nothing is in service *)
Lemma yfrwd_off : forall ls, existsb lserv ls = false -> forall k1 k2 ac, yfrwd (Yb k1 k2 ac (map elem_of ls)) = 0 /\ yrvrs (Yb k1 k2 ac (map elem_of ls)) = 0.
Proof.
  intros ls H k1 k2 ac; unfold yfrwd, yrvrs; cbn [yel]. induction ls as [| l ls IH]; cbn [map]; auto.
  cbn [existsb] in H; apply orb_false_iff in H as [H1 H2]. destruct (IH H2) as [E1 E2]. rewrite !sumC_cons, E1, E2.
  unfold yfr. change (estat (elem_of l)) with (lserv l); rewrite H1. cbn [fst snd]. split; ring.
Qed.

(** ** The whole network *)
Definition rep (s : R) (n : ynet) (g : grid) : Prop :=
  Forall2 (fun u nd => yiso u = niso nd /\ @eq C (if ysh u then (ygs u, ybs u) else RtoC 0) (shunt_total nd / RtoC s)) (nbus n) (gnode g) /\
  Forall2 repr (nbr n) (garc g).

Lemma Forall2_nth_l : forall A B (P : A -> B -> Prop) l l' k x, Forall2 P l l' -> nth_error l' k = Some x -> exists y, nth_error l k = Some y /\ P y x.
Proof. intros A B P l l' k x H; revert k; induction H; intros [| k] E; cbn in *; try discriminate; [injection E as <-; eauto | eauto]. Qed.
Lemma isolated_rep : forall s n g k nd, rep s n g -> nth_error (gnode g) k = Some nd -> isolated n k = niso nd.
Proof. intros s n g k nd [H _] E; destruct (Forall2_nth_l _ H E) as (u & E1 & E2 & _); unfold isolated; rewrite E1; auto. Qed.

Lemma repr_form : forall b x, repr b x -> b = Yb (a1 x) (a2 x) (yact b) (map elem_of (ael x)).
Proof. intros [k1 k2 ac es] x (H1 & H2 & H3 & _); cbn in *; subst; reflexivity. Qed.

Lemma rep_law : forall s n g, rep s n g -> wf_grid g -> (forall x l, In x (garc g) -> In l (ael x) -> simple_line l) ->
  forall k nd V j, nth_error (gnode g) k = Some nd -> niso nd = false -> (out_of g s V k j <-> y_row n V k = j).
Proof.
  intros s n g Hr (W1 & W2 & W3) Hsim k nd V j Hk Hiso.
  pose proof Hr as Hr0; destruct Hr as [Hb Hbr].
  destruct (Forall2_nth_l _ Hb Hk) as (u & Hu & Hui & Hus).
  (* branches *)
  set (rowpart := fun b => (if (yb1 b =? k)%nat then ent (forward_value n b) * V (yb2 b) else 0) + (if (yb2 b =? k)%nat then ent (reverse_value n b) * V (yb1 b) else 0)).
  set (diag := fun b => - getAdmittance b - getTransformer b k + getShunt b k).
  assert (Main : forall bs xs, Forall2 repr bs xs -> (forall x, In x xs -> In x (garc g)) -> forall i,
    (inflow V k xs i <-> i = sumC (map diag (filter (incident k) bs)) * V k + fold_right Cplus 0 (map rowpart bs))).
  { intros bs xs HF; induction HF as [| b x bs xs Hb1 HF IH]; intros Hin i; cbn [filter map fold_right].
    - cbn [sumC fold_right map]. split; [intro H; inversion H; ring | intros ->; replace (0 * V k + 0) with (RtoC 0) by ring; constructor].
    - assert (Hx : In x (garc g)) by (apply Hin; left; auto).
      destruct (W1 x Hx) as (Hne & L1 & L2).
      assert (IH' := IH (fun y Hy => Hin y (or_intror Hy))). clear IH.
      pose proof Hb1 as Hb2; destruct Hb2 as (R1 & R2 & R3 & R4).
      assert (Z : Forall (fun l => impedance l <> 0) (ael x)) by (apply Forall_forall; intros l Hl; apply (W2 x l Hx Hl)).
      assert (S : Forall simple_line (ael x)) by (apply Forall_forall; intros l Hl; apply (Hsim x l Hx Hl)).
      pose proof (@branch_law (ael x) (a1 x) (a2 x) (yact b) (V (a1 x)) (V (a2 x))) as BL.
      cbv zeta in BL; rewrite <- (repr_form Hb1) in BL.
      (* the values the branch delivers *)
      assert (FV : (a1 x = k \/ a2 x = k) -> ent (forward_value n b) = yfrwd b /\ ent (reverse_value n b) = yrvrs b).
      { intro Hend. unfold forward_value, reverse_value; rewrite R1, R2.
        destruct (existsb lserv (ael x)) eqn:Ex.
        - rewrite (R4 eq_refl).
          apply existsb_exists in Ex as (l & Hl & Hsv).
          assert (I : forall m, (a1 x = m \/ a2 x = m) -> isolated n m = false).
          { intros m Hm. assert (Lm : (m < length (gnode g))%nat) by (destruct Hm; subst; auto).
            destruct (nth_error (gnode g) m) as [nm |] eqn:Em; [| apply nth_error_None in Em; lia].
            rewrite (isolated_rep m Hr0 Em). destruct (niso nm) eqn:En; auto. rewrite (W3 x l m nm Hx Hl Em En Hm) in Hsv; discriminate. }
          rewrite (I (a1 x)) by auto; rewrite (I (a2 x)) by auto. cbn; auto.
        - rewrite (repr_form Hb1). destruct (yfrwd_off _ Ex (a1 x) (a2 x) (yact b)) as [E1 E2]. rewrite E1, E2.
          match goal with |- context [if ?c then _ else _] => destruct c end; cbn; auto. }
      assert (Dg : diag b = - getAdmittance b - getTransformer b k + getShunt b k) by reflexivity.
      unfold rowpart at 1, incident at 1. rewrite R1, R2.
      rewrite (Nat.eqb_sym k (a1 x)), (Nat.eqb_sym k (a2 x)).
      destruct (Nat.eqb_spec (a1 x) k) as [K1 | K1]; destruct (Nat.eqb_spec (a2 x) k) as [K2 | K2]; cbn [orb map]; try rewrite sumC_cons.
      + congruence.
      + destruct (FV (or_introl K1)) as [-> _]. split.
        * intro H; inversion H; subst; try congruence.
          match goal with A : branch_currents _ _ _ _ _, B : inflow _ _ xs _ |- _ => apply BL in A; auto; apply IH' in B; rewrite Dg; destruct A as [-> _]; rewrite B end. ring.
        * intros ->.
          pose proof (proj2 (BL _ _ Hne Z S) (conj eq_refl eq_refl)) as BC.
          pose proof (proj2 (IH' _) eq_refl) as IF.
          match goal with |- inflow _ _ _ ?e =>
            replace e with ((diag b * V (a1 x) + yfrwd b * V (a2 x)) + (sumC (map diag (filter (incident k) bs)) * V k + fold_right Cplus 0 (map rowpart bs))) by (rewrite K1; unfold rowpart; ring) end.
          eapply if_one; eauto. rewrite Dg. rewrite <- K1 at 1 2. exact BC.
      + destruct (FV (or_intror K2)) as [_ ->]. split.
        * intro H; inversion H; subst; try congruence.
          match goal with A : branch_currents _ _ _ _ _, B : inflow _ _ xs _ |- _ => apply BL in A; auto; apply IH' in B; rewrite Dg; destruct A as [_ ->]; rewrite B end. ring.
        * intros ->.
          pose proof (proj2 (BL _ _ Hne Z S) (conj eq_refl eq_refl)) as BC.
          pose proof (proj2 (IH' _) eq_refl) as IF.
          match goal with |- inflow _ _ _ ?e =>
            replace e with ((diag b * V (a2 x) + yrvrs b * V (a1 x)) + (sumC (map diag (filter (incident k) bs)) * V k + fold_right Cplus 0 (map rowpart bs))) by (rewrite K2; unfold rowpart; ring) end.
          eapply if_two; eauto. rewrite Dg. rewrite <- K2 at 1 2. exact BC.
      + replace (0 + 0 + fold_right Cplus 0 (map rowpart bs)) with (fold_right Cplus 0 (map rowpart bs)) by ring.
        split.
        * intro H; inversion H; subst; try congruence. apply IH'; auto.
        * intros ->. apply if_oth; auto. apply IH'; auto. }
  specialize (Main (nbr n) (garc g) Hbr (fun x H => H)).
  unfold y_row, diag_value. rewrite Hu, Hui, Hiso. cbn [ent]. unfold ybus_diag. rewrite Hus.
  fold diag; fold rowpart. split.
  - intros (nd' & i & E & Hi & ->). rewrite Hk in E; injection E as <-. apply Main in Hi; subst. ring.
  - intros <-. exists nd. eexists; split; [auto | split; [apply Main; reflexivity | ring]].
Qed.

(** ** Loading represents the data *)
Lemma load_bus_ok : forall s d nd u r, s <> 0%R -> simple_node nd -> describes_node s d nd -> load_bus d = Ok (u, r) ->
  yiso u = niso nd /\ @eq C (if ysh u then (ygs u, ybs u) else RtoC 0) (shunt_total nd / RtoC s).
Proof.
  intros s d nd u r Hs Hn (D1 & D2 & D3 & D4 & t & D5 & D6) H.
  unfold load_bus in H. rewrite D1, D5, D4, (D2 0%nat), (D3 0%nat) in H. cbn [val obind] in H.
  destruct (Req_EM_T s 0); [easy |].
  injection H as <- <-. cbn [yiso ysh ygs ybs]. split.
  - destruct (Z.eqb_spec t 4) as [E | E]; destruct (niso nd); auto; [symmetry; apply D6; auto | destruct (E (proj1 D6 eq_refl))].
  - unfold shunt_total. destruct Hn as [-> | [(sh & -> & Hsv) Hw]].
    + cbn. destruct (nsw nd); cbn; apply Cext; cbn; field; auto.
    + rewrite Hw. cbn. rewrite Hsv. apply Cext; cbn; field; auto.
Qed.
Lemma loaded_rep : forall s n g, s <> 0%R -> Forall simple_node (gnode g) -> loaded s n g -> rep s n g.
Proof.
  intros s n g Hs Hn [H1 H2]; split.
  - induction H1 as [| u nd us nds (d & r & Hd & Hl) H1 IH]; constructor; inversion Hn; subst; auto.
    eapply load_bus_ok; eauto.
  - clear - H2; induction H2 as [| b x bs xs (ds & Hd & Hl) H2 IH]; constructor; auto.
    rewrite (load_branch_ok _ _ Hd) in Hl; injection Hl as <-. unfold repr; cbn; auto.
Qed.

Lemma set_stat_ok : forall ls t on, fst (set_stat (map elem_of ls) t on) = map elem_of (switch t on ls).
Proof.
  induction ls as [| l ls IH]; intros t on; cbn; auto.
  destruct (String.eqb t (ltag l)); cbn; auto.
  specialize (IH t on). destruct (set_stat (map elem_of ls) t on); cbn in *. congruence.
Qed.
Lemma switch_off : forall ls t, existsb lserv (switch t false ls) = true -> existsb lserv ls = true.
Proof.
  induction ls as [| l ls IH]; intros t; cbn; auto.
  destruct (String.eqb t (ltag l)); cbn; intro H; [rewrite H; apply orb_true_r |].
  apply orb_true_iff in H as [H | H]; [rewrite H; auto | rewrite (IH t H); apply orb_true_r].
Qed.
Lemma repr_switch : forall b x t on, repr b x -> (on = false \/ yact b = true) ->
  repr (fst (setLineStatus b t on)) (Arc (a1 x) (a2 x) (switch t on (ael x))).
Proof.
  intros b x t on (H1 & H2 & H3 & H4) Ho. unfold setLineStatus. rewrite H3.
  pose proof (set_stat_ok (ael x) t on) as E. destruct (set_stat (map elem_of (ael x)) t on) as [l f]; cbn in *.
  split; [auto | split; [auto | split; [auto |]]]. cbn. intro H. destruct Ho as [-> | Ho]; auto. apply H4; eapply switch_off; eauto.
Qed.

(** ** Histories of switching *)
Lemma Forall2_upd : forall A B (P : A -> B -> Prop) l l' i x y, Forall2 P l l' -> P x y -> Forall2 P (upd l i x) (upd l' i y).
Proof. intros A B P l l' i x y H; revert i; induction H; intros [| i] Hp; cbn; constructor; auto. Qed.
Lemma Forall2_nth_r : forall A B (P : A -> B -> Prop) l l' k x, Forall2 P l l' -> nth_error l k = Some x -> exists y, nth_error l' k = Some y /\ P x y.
Proof. intros A B P l l' k x H; revert k; induction H; intros [| k] E; cbn in *; try discriminate; [injection E as <-; eauto | eauto]. Qed.
Lemma Forall2_none : forall A B (P : A -> B -> Prop) l l' k, Forall2 P l l' -> nth_error l k = None -> nth_error l' k = None.
Proof. intros A B P l l' k H; revert k; induction H; intros [| k] E; cbn in *; auto; discriminate. Qed.

Definition keeps (n0 n : ynet) : Prop := forall i b, nth_error (nbr n0) i = Some b -> exists b', nth_error (nbr n) i = Some b' /\ yact b' = yact b.
Lemma step_rep : forall s n g i t on, rep s n g -> (on = true -> exists b, nth_error (nbr n) i = Some b /\ yact b = true) ->
  rep s (step_net n (i, t, on)) (step_grid g (i, t, on)).
Proof.
  intros s n g i t on [H1 H2] Ha; unfold step_net, step_grid.
  destruct (nth_error (nbr n) i) as [b |] eqn:E.
  - destruct (Forall2_nth_r i H2 E) as (x & Ex & Hx); rewrite Ex. split; cbn; auto.
    apply Forall2_upd; auto. apply repr_switch; auto. destruct on; auto. destruct (Ha eq_refl) as (b' & Eb & Hb). right; congruence.
  - rewrite (Forall2_none i H2 E). split; auto.
Qed.
Lemma step_keeps : forall n0 n o, keeps n0 n -> keeps n0 (step_net n o).
Proof.
  intros n0 n [[i t] on] H j b E. destruct (H j b E) as (b' & E1 & E2). unfold step_net.
  destruct (nth_error (nbr n) i) as [bi |] eqn:Ei; [| eauto]. cbn [nbr].
  destruct (Nat.eq_dec j i) as [-> | Ne].
  - rewrite E1 in Ei; injection Ei as <-. exists (fst (setLineStatus b' t on)). split.
    + apply nth_error_upd_same. apply nth_error_Some; congruence.
    + unfold setLineStatus. destruct (set_stat (yel b') t on); cbn; auto.
  - exists b'; split; auto. rewrite nth_error_upd_other; auto.
Qed.
Lemma run_rep : forall s ops n0 g0 n g, rep s n0 g0 -> keeps n0 n -> Forall (allowed g0) ops -> rep s n g ->
  (forall i x l, nth_error (garc g0) i = Some x -> In l (ael x) -> lserv l = true -> exists b, nth_error (nbr n0) i = Some b /\ yact b = true) ->
  rep s (fold_left step_net ops n) (fold_left step_grid ops g).
Proof.
  induction ops as [| [[i t] on] ops IH]; intros n0 g0 n g H0 K Hal H Hact; cbn [fold_left]; auto.
  inversion_clear Hal as [| ? ? A1 A2].
  apply IH with (n0 := n0) (g0 := g0); auto.
  - apply step_keeps; auto.
  - apply step_rep; auto. intro Hon. destruct (A1 Hon) as (x & l & X1 & X2 & X3).
    destruct (Hact i x l X1 X2 X3) as (b & B1 & B2). destruct (K i b B1) as (b' & C1 & C2). exists b'; split; congruence.
Qed.
Lemma active_rep : forall s n g i x l, rep s n g -> nth_error (garc g) i = Some x -> In l (ael x) -> lserv l = true ->
  exists b, nth_error (nbr n) i = Some b /\ yact b = true.
Proof.
  intros s n g i x l [_ H] E Hl Hs. destruct (Forall2_nth_l i H E) as (b & B1 & B2). exists b; split; auto.
  apply B2. apply existsb_exists; eauto.
Qed.

(** ** Reciprocity *)
Lemma yfr_sym : forall l, ldeg l = 0%R -> fst (yfr (elem_of l)) = snd (yfr (elem_of l)).
Proof.
  intros l H. unfold yfr, elem_of; cbn [eshift exform etap eswitch estat zz eR eX]. rewrite H.
  replace (0 * PI / 180)%R with 0%R by field. unfold expi; rewrite cos_0, sin_0.
  destruct (lserv l); [| reflexivity]. destruct (Req_EM_T (ltap l) 0); [reflexivity |].
  cbn [fst snd].
  assert (E : Cconj (RtoC (ltap l) * (1%R, 0%R)) = RtoC (ltap l) * (1%R, 0%R)) by (apply Cext; cbn; ring).
  destruct (lrev l); rewrite ?E; reflexivity.
Qed.

(** ** Flows *)
Lemma find_tag_ok : forall t ls, find_tag (map elem_of ls) t = option_map elem_of (find_line t ls).
Proof. intros t ls; induction ls as [| l ls IH]; cbn; auto. destruct (String.eqb t (ltag l)); auto. Qed.

Lemma line_elements_law : forall l b t v1 v2 j1 j2, impedance l <> 0 -> lserv l = true ->
  lg1 l = 0%R -> lb1 l = 0%R -> lg2 l = 0%R -> lb2 l = 0%R ->
  find_tag (yel b) t = Some (elem_of l) -> at_branch l v1 v2 j1 j2 ->
  j1 = fst (getLineElements b t) * v1 + snd (getLineElements b t) * v2 /\
  j2 = fst (getRvrsLineElements b t) * v2 + snd (getRvrsLineElements b t) * v1.
Proof.
  intros l b t v1 v2 j1 j2 Hz Sv E1 E2 E3 E4 F H.
  unfold getLineElements, getRvrsLineElements; rewrite F.
  pose proof (turns_neq l) as Ht; pose proof (conj_neq Ht) as Hc.
  unfold at_branch, element in H. rewrite Sv, E1, E2, E3, E4 in H.
  change (zz (elem_of l)) with (impedance l). change (eswitch (elem_of l)) with (lrev l). change (eB (elem_of l)) with (lb l).
  destruct (Ceq_dec (impedance l) (RtoC 0)); [easy |].
  set (z := impedance l) in *; set (y := (0%R, (lb l / 2)%R) : C) in *.
  assert (Y : RtoC (/ 2) * (0%R, lb l) = y) by (apply Cext; cbn; field). rewrite Y.
  assert (X : exform (elem_of l) = negb (if Req_EM_T (ltap l) 0 then true else false)) by (cbn; destruct (Req_EM_T (ltap l) 0); auto).
  destruct (Req_EM_T (ltap l) 0) as [T0 | T0]; cbn [negb] in X; rewrite X.
  - assert (E : turns l = 1) by (unfold turns; destruct (Req_EM_T (ltap l) 0); easy). rewrite E in *; rewrite conj_1 in *.
    destruct (lrev l); destruct H as (kf & kt & H & -> & ->); apply two_port_iff in H; auto; fold y in H; rewrite conj_1 in H; destruct H as [-> ->]; cbn [fst snd]; change (0%R, 0%R) with (RtoC 0); split; field; nz.
  - rewrite !(ratio_turns l T0). set (a := turns l) in *. destruct (Ceq_dec a (RtoC 0)); [easy |]. set (c := Cconj a) in *.
    destruct (lrev l); destruct H as (kf & kt & H & -> & ->); apply two_port_iff in H; auto; fold y in H; fold c in H; destruct H as [-> ->]; cbn [fst snd negb]; change (0%R, 0%R) with (RtoC 0); split; field; nz.
Qed.

(** real power into both ends *)
Lemma two_port_loss : forall (a z : C) (b : R) (vf vt jf jt : C), z <> 0 -> two_port a z b vf vt jf jt ->
  exists w : C, (Re (vf * Cconj jf + vt * Cconj jt)%C = Re z * ((Re w)^2 + (Im w)^2))%R.
Proof.
  intros a z b vf vt jf jt Hz (v & j & E1 & E2 & E3 & E4). subst vf j. exists ((v - vt) / z).
  assert (F1 : Cconj a * jf = (v - vt) / z + (0%R, (b / 2)%R) * v).
  { apply (@Cmult_cancel z); auto. replace (z * ((v - vt) / z + (0%R, (b / 2)%R) * v)) with (v - vt + z * (0%R, (b / 2)%R) * v) by (field; auto). rewrite <- E3; ring. }
  assert (F2 : jt = (vt - v) / z + (0%R, (b / 2)%R) * vt).
  { apply (@Cmult_cancel z); auto. replace (z * ((vt - v) / z + (0%R, (b / 2)%R) * vt)) with (vt - v + z * (0%R, (b / 2)%R) * vt) by (field; auto). rewrite <- E4; ring. }
  assert (G : a * v * Cconj jf = v * Cconj (Cconj a * jf)) by (apply Cext; cbn; ring). rewrite G, F1, F2.
  set (w := (v - vt) / z).
  assert (W : v - vt = z * w) by (unfold w; field; auto).
  assert (W2 : (vt - v) / z = - w) by (unfold w; field; auto). rewrite W2.
  assert (V : v = vt + z * w) by (rewrite <- W; ring). rewrite V. clearbody w. clear.
  destruct w as [w1 w2], vt as [t1 t2], z as [z1 z2]. unfold Re, Im. cbn. field.
Qed.

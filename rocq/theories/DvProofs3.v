(** Proofs for C57: lines. *)
From Verif Require Import Prelude.
From Coq Require Import Reals Lra.
From Coquelicot Require Import Complex.
From Verif Require Import StrModel StrSpec StrProofs3 YbModel YbSpec YbProofs DvModel DvSpec DvProofs DvProofs2.
Open Scope R_scope.
Open Scope C_scope.

Lemma upd_same : forall A (l : list A) i a, nth_error l i = Some a -> upd l i a = l.
Proof. induction l as [|b l IH]; intros [|i] a E; cbn in *; try discriminate; [injection E as ->; auto|]. rewrite IH; auto. Qed.
Lemma upd_twice : forall A (l : list A) i a b, upd (upd l i a) i b = upd l i b.
Proof. induction l as [|c l IH]; intros [|i] a b; cbn; auto. rewrite IH; auto. Qed.

(** ** The currents of one element *)
Definition elems (l : line) : C * C * (C * C) := let b := Yb 0 0 true [elem_of l] in (getLineElements b (ltag l), getRvrsLineElements b (ltag l)).
Definition set_on (on : bool) (l : line) : line := Line (ltag l) (lr l) (lx l) (lb l) (ltap l) (ldeg l) (lg1 l) (lb1 l) (lg2 l) (lb2 l) on (lrev l).
Lemma elems_on : forall on l, elems (set_on on l) = elems l.
Proof. intros on l. unfold elems, getLineElements, getRvrsLineElements. cbn [yel find_tag]. change (etag (elem_of (set_on on l))) with (ltag l). change (etag (elem_of l)) with (ltag l). change (ltag (set_on on l)) with (ltag l). rewrite String.eqb_refl. reflexivity. Qed.
Lemma elems_find : forall b t l ls, yel b = map elem_of ls -> find_line t ls = Some l -> elems l = (getLineElements b t, getRvrsLineElements b t).
Proof.
  intros b t l ls E F. unfold elems, getLineElements, getRvrsLineElements. rewrite E, find_tag_ok, F. cbn [option_map yel find_tag].
  change (etag (elem_of l)) with (ltag l). rewrite String.eqb_refl. reflexivity.
Qed.
Lemma elems_none : forall b t ls, yel b = map elem_of ls -> find_line t ls = None -> getLineElements b t = (RtoC 0, RtoC 0) /\ getRvrsLineElements b t = (RtoC 0, RtoC 0).
Proof. intros b t ls E F. unfold getLineElements, getRvrsLineElements. rewrite E, find_tag_ok, F. split; reflexivity. Qed.
Lemma at_on : forall l v1 v2 j1 j2, impedance l <> RtoC 0 -> no_end_shunts l -> lserv l = true ->
  (at_branch l v1 v2 j1 j2 <-> j1 = fst (fst (elems l)) * v1 + snd (fst (elems l)) * v2 /\ j2 = fst (snd (elems l)) * v2 + snd (snd (elems l)) * v1).
Proof.
  intros l v1 v2 j1 j2 Hz (E1 & E2 & E3 & E4) Sv.
  assert (Ls : simple_line l) by (right; rewrite E1, E2, E3, E4; auto).
  assert (L : forall j1 j2, at_branch l v1 v2 j1 j2 -> j1 = fst (fst (elems l)) * v1 + snd (fst (elems l)) * v2 /\ j2 = fst (snd (elems l)) * v2 + snd (snd (elems l)) * v1).
  { intros i1 i2 H. apply (@line_elements_law l (Yb 0 0 true [elem_of l]) (ltag l) v1 v2 i1 i2); auto. cbn [yel find_tag]. change (etag (elem_of l)) with (ltag l). rewrite String.eqb_refl. reflexivity. }
  split; [apply L|]. intros [-> ->].
  pose proof (fun i1 i2 => @elem_law l 0 1 v1 v2 i1 i2 ltac:(lia) Hz Ls) as Q.
  pose proof (proj2 (Q _ _) (conj eq_refl eq_refl)) as X. pose proof (L _ _ X) as [X1 X2]. rewrite <- X1, <- X2. exact X.
Qed.
Lemma at_off : forall l v1 v2 j1 j2, lserv l = false -> (at_branch l v1 v2 j1 j2 <-> j1 = RtoC 0 /\ j2 = RtoC 0).
Proof. intros l v1 v2 j1 j2 H. unfold at_branch, element. rewrite H. destruct (lrev l); tauto. Qed.

Definition sgn (on : bool) (y : C) : C := if on then y else Copp y.
Lemma switch_currents : forall t on l v1 v2 ls j1 j2, find_line t ls = Some l -> lserv l = negb on -> no_end_shunts l -> impedance l <> RtoC 0 ->
  branch_currents ls v1 v2 j1 j2 ->
  branch_currents (switch t on ls) v1 v2 (j1 + sgn on (fst (fst (elems l)) * v1 + snd (fst (elems l)) * v2)) (j2 + sgn on (fst (snd (elems l)) * v2 + snd (snd (elems l)) * v1)).
Proof.
  intros t on l v1 v2 ls. set (e1 := fst (fst (elems l)) * v1 + _). set (e2 := fst (snd (elems l)) * v2 + _).
  induction ls as [|x ls IH]; intros j1 j2 F Sv Ne Hz H; [discriminate|]. cbn [find_line switch] in *. inversion H as [|? ? ? ? i1 i2 k1 k2 H1 H2]; subst.
  destruct (String.eqb t (ltag x)) eqn:Et.
  - injection F as ->. fold (set_on on l).
    assert (A : at_branch (set_on on l) v1 v2 (i1 + sgn on e1) (i2 + sgn on e2)).
    { destruct on.
      - apply at_off in H1 as [-> ->]; [|exact Sv]. apply at_on; auto. rewrite elems_on. unfold sgn. subst e1 e2. split; ring.
      - apply at_on in H1 as [-> ->]; auto. fold e1 e2. apply at_off; auto. unfold sgn. split; ring. }
    replace (i1 + k1 + sgn on e1) with (i1 + sgn on e1 + k1) by ring. replace (i2 + k2 + sgn on e2) with (i2 + sgn on e2 + k2) by ring.
    apply bc_cons; auto.
  - replace (i1 + k1 + sgn on e1) with (i1 + (k1 + sgn on e1)) by ring. replace (i2 + k2 + sgn on e2) with (i2 + (k2 + sgn on e2)) by ring.
    apply bc_cons; auto.
Qed.
Lemma switch_find : forall t on ls l, find_line t ls = Some l -> find_line t (switch t on ls) = Some (set_on on l).
Proof. induction ls as [|x ls IH]; intros l F; [discriminate|]. cbn [find_line switch] in *. destruct (String.eqb t (ltag x)) eqn:E; cbn [find_line]; [injection F as ->; cbn [ltag]; rewrite E; auto|rewrite E; auto]. Qed.
Lemma switch_switch : forall t on ls l, find_line t ls = Some l -> switch t (lserv l) (switch t on ls) = ls.
Proof.
  induction ls as [|x ls IH]; intros l F; [discriminate|]. cbn [find_line switch] in *. destruct (String.eqb t (ltag x)) eqn:E; cbn [switch].
  - injection F as ->. cbn. rewrite E. destruct l; reflexivity.
  - rewrite E, (IH l F). reflexivity.
Qed.
Lemma switch_none : forall t on ls, find_line t ls = None -> switch t on ls = ls.
Proof. induction ls as [|x ls IH]; intros F; auto. cbn [find_line switch] in *. destruct (String.eqb t (ltag x)); [discriminate|]. rewrite IH; auto. Qed.
Lemma switch_idle : forall t ls l, find_line t ls = Some l -> switch t (lserv l) ls = ls.
Proof. induction ls as [|x ls IH]; intros l F; [discriminate|]. cbn [find_line switch] in *. destruct (String.eqb t (ltag x)); [injection F as ->; destruct l; reflexivity|rewrite (IH l F); auto]. Qed.
Lemma find_in : forall t ls l, find_line t ls = Some l -> In l ls.
Proof. induction ls as [|x ls IH]; intros l F; [discriminate|]. cbn [find_line] in F. destruct (String.eqb t (ltag x)); [injection F as ->; left; auto|right; auto]. Qed.
Lemma switch_wf : forall t on ls, Forall wf_line ls -> Forall wf_line (switch t on ls).
Proof. intros t on ls H. induction H as [|x ls Hx H IH]; cbn [switch]; auto. destruct (String.eqb t (ltag x)); constructor; auto. Qed.
(** both directions, for the elements given by the branch *)
Lemma switch_law : forall b x t on v1 v2 j1 j2, repr b x -> Forall wf_line (ael x) -> getLineStatus b t <> on -> (forall l, find_line t (ael x) = Some l -> no_end_shunts l) ->
  let e1 := sgn on (fst (getLineElements b t)) * v1 + sgn on (snd (getLineElements b t)) * v2 in
  let e2 := sgn on (fst (getRvrsLineElements b t)) * v2 + sgn on (snd (getRvrsLineElements b t)) * v1 in
  branch_currents (ael x) v1 v2 j1 j2 <-> branch_currents (switch t on (ael x)) v1 v2 (j1 + e1) (j2 + e2).
Proof.
  intros b x t on v1 v2 j1 j2 (_ & _ & R3 & _) Wf Hs Ne e1 e2. unfold getLineStatus in Hs. rewrite R3, find_tag_ok in Hs.
  destruct (find_line t (ael x)) as [l|] eqn:F.
  - cbn [option_map] in Hs. change (estat (elem_of l)) with (lserv l) in Hs.
    assert (Sv : lserv l = negb on) by (destruct (lserv l), on; cbn; congruence).
    assert (Hz : impedance l <> RtoC 0) by (eapply (proj1 (Forall_forall _ _) Wf), find_in; eauto).
    pose proof (elems_find b t (ael x) R3 F) as E.
    assert (E1 : e1 = sgn on (fst (fst (elems l)) * v1 + snd (fst (elems l)) * v2)) by (subst e1; rewrite E; cbn [fst snd]; destruct on; unfold sgn; ring).
    assert (E2 : e2 = sgn on (fst (snd (elems l)) * v2 + snd (snd (elems l)) * v1)) by (subst e2; rewrite E; cbn [fst snd]; destruct on; unfold sgn; ring).
    rewrite E1, E2. split; intros H.
    + apply switch_currents; auto.
    + pose proof (@switch_currents t (negb on) (set_on on l) v1 v2 (switch t on (ael x)) _ _ (switch_find t on (ael x) F) ltac:(cbn; rewrite negb_involutive; auto) (Ne l eq_refl) Hz H) as Q.
      rewrite <- Sv, (switch_switch t on (ael x) F) in Q. rewrite elems_on in Q.
      match type of Q with branch_currents _ _ _ ?p ?q => replace j1 with p; [replace j2 with q; [exact Q|]|] end; rewrite Sv; destruct on; unfold sgn; cbn [negb]; ring.
  - destruct (elems_none b t (ael x) R3 F) as [E1 E2]. subst e1 e2. rewrite E1, E2. cbn [fst snd]. rewrite switch_none by auto.
    match goal with |- _ <-> branch_currents _ _ _ ?p ?q => replace p with j1; [replace q with j2; [tauto|]|] end; destruct on; unfold sgn; ring.
Qed.

(** ** Kirchhoff's law with one branch changed *)
Definition ends (x : arc) (k : nat) (e1 e2 : C) : C := if (a1 x =? k)%nat then e1 else if (a2 x =? k)%nat then e2 else RtoC 0.
Lemma inflow_change : forall V k x ls' (e1 e2 : C), a1 x <> a2 x ->
  (forall j1 j2, branch_currents (ael x) (V (a1 x)) (V (a2 x)) j1 j2 -> branch_currents ls' (V (a1 x)) (V (a2 x)) (j1 + e1) (j2 + e2)) ->
  forall xs i j, nth_error xs i = Some x -> inflow V k xs j -> inflow V k (upd xs i (Arc (a1 x) (a2 x) ls')) (j + ends x k e1 e2).
Proof.
  intros V k x ls' e1 e2 Hx Hc xs. induction xs as [|y xs IH]; intros [|i] j E H; cbn in E; try discriminate; cbn [upd].
  - injection E as ->. unfold ends. inversion H as [|? ? j1 j2 j0 B I K1 K2|? ? j1 j2 j0 B I K1 K2|? ? j0 I K1 K2]; subst.
    + rewrite Nat.eqb_refl. replace (j1 + j0 + e1) with (j1 + e1 + j0) by ring. eapply if_one; cbn; eauto.
    + destruct (Nat.eqb_spec (a1 x) (a2 x)); [easy|]. rewrite Nat.eqb_refl. replace (j2 + j0 + e2) with (j2 + e2 + j0) by ring. eapply if_two; cbn; eauto.
    + destruct (Nat.eqb_spec (a1 x) k); [easy|]. destruct (Nat.eqb_spec (a2 x) k); [easy|]. rewrite Cplus_0_r. apply if_oth; auto.
  - inversion H as [|? ? j1 j2 j0 B I K1 K2|? ? j1 j2 j0 B I K1 K2|? ? j0 I K1 K2]; subst.
    + replace (j1 + j0 + ends x (a1 y) e1 e2) with (j1 + (j0 + ends x (a1 y) e1 e2)) by ring. eapply if_one; eauto.
    + replace (j2 + j0 + ends x (a2 y) e1 e2) with (j2 + (j0 + ends x (a2 y) e1 e2)) by ring. eapply if_two; eauto.
    + apply if_oth; auto.
Qed.
Lemma inflow_iff : forall V k x ls' (e1 e2 : C) xs i j, a1 x <> a2 x ->
  (forall j1 j2, branch_currents (ael x) (V (a1 x)) (V (a2 x)) j1 j2 <-> branch_currents ls' (V (a1 x)) (V (a2 x)) (j1 + e1) (j2 + e2)) ->
  nth_error xs i = Some x -> (inflow V k (upd xs i (Arc (a1 x) (a2 x) ls')) (j + ends x k e1 e2) <-> inflow V k xs j).
Proof.
  intros V k x ls' e1 e2 xs i j Hx Hc E. split; intros H.
  - assert (E' : nth_error (upd xs i (Arc (a1 x) (a2 x) ls')) i = Some (Arc (a1 x) (a2 x) ls')) by (apply nth_error_upd_same; apply nth_error_Some; congruence).
    pose proof (@inflow_change V k (Arc (a1 x) (a2 x) ls') (ael x) (- e1) (- e2) Hx) as Q. cbn [a1 a2 ael] in Q.
    assert (Hc' : forall j1 j2, branch_currents ls' (V (a1 x)) (V (a2 x)) j1 j2 -> branch_currents (ael x) (V (a1 x)) (V (a2 x)) (j1 + - e1) (j2 + - e2)).
    { intros j1 j2 B. apply Hc. replace (j1 + - e1 + e1) with j1 by ring. replace (j2 + - e2 + e2) with j2 by ring. auto. }
    specialize (Q Hc' _ i _ E' H). rewrite upd_twice in Q.
    assert (X : upd xs i (Arc (a1 x) (a2 x) (ael x)) = xs) by (destruct x; apply upd_same; auto). rewrite X in Q.
    match type of Q with inflow _ _ _ ?p => replace j with p; [exact Q|] end. unfold ends; cbn. destruct (a1 x =? k)%nat; [ring|]. destruct (a2 x =? k)%nat; ring.
  - apply inflow_change; auto. intros; apply Hc; auto.
Qed.

(** ** The process *)
Definition brk (P : plant) (r : dbr) (x : arc) : Prop :=
  nth_error (pl_num P) (a1 x) = Some (br_f r) /\ nth_error (pl_num P) (a2 x) = Some (br_t r) /\ br_chg r = None /\ repr (br_b r) x.
Definition single (P0 P : plant) (w : list proc) : Prop :=
  exists p, w = [p] /\ map bu_idx (pr_bus p) = seq 0 (length (pl_num P)) /\ Forall2 (brk P) (pr_br p) (garc (pl_grid P)) /\
    (forall i r x0, nth_error (pr_br p) i = Some r -> nth_error (garc (pl_grid P0)) i = Some x0 -> existsb lserv (ael x0) = true -> yact (br_b r) = true).
Definition arcs_upd (P : plant) (i : nat) (x : arc) : plant :=
  Plant (pl_num P) (Grid (gnode (pl_grid P)) (upd (garc (pl_grid P)) i x)) (pl_gens P) (pl_faults P) (pl_rest P).
Lemma act_line : forall P a b t on i x, nth_error (garc (pl_grid P)) i = Some x -> joins P a b x = true ->
  (forall j y, nth_error (garc (pl_grid P)) j = Some y -> joins P a b y = true -> j = i) ->
  act P (Line_ a b t on) = arcs_upd P i (Arc (a1 x) (a2 x) (switch t on (ael x))).
Proof.
  intros P a b t on i x E J U. unfold arcs_upd. cbn [act]. f_equal. f_equal. symmetry.
  apply (@upd_map _ (joins P a b) (fun x => Arc (a1 x) (a2 x) (switch t on (ael x)))); auto.
Qed.
Lemma arcs_idle : forall P i x, nth_error (garc (pl_grid P)) i = Some x -> arcs_upd P i x = P.
Proof. intros [n [gn ga] gs f r] i x E. unfold arcs_upd. cbn in *. rewrite upd_same; auto. Qed.
Lemma br_pos_ok : forall P rs a b i x, Forall2 (brk P) rs (garc (pl_grid P)) -> nth_error (garc (pl_grid P)) i = Some x -> joins P a b x = true ->
  (forall j y, nth_error (garc (pl_grid P)) j = Some y -> joins P a b y = true -> j = i) -> br_pos rs a b = Some i.
Proof.
  intros P rs a b i x F E J U. unfold br_pos.
  assert (Jf : forall j r (c d : Z), nth_error rs j = Some r -> (c = a /\ d = b \/ c = b /\ d = a) -> Z.eqb (br_f r) c && Z.eqb (br_t r) d = true -> j = i).
  { intros j r c d Ej Hcd X. apply andb_true_iff in X as [X1 X2]. apply Z.eqb_eq in X1, X2. destruct (Forall2_nth_r _ F Ej) as (y & Ey & Y1 & Y2 & _). apply (U j y Ey).
    unfold joins. rewrite Y1, Y2, X1, X2. destruct Hcd as [[-> ->]|[-> ->]]; rewrite !Z.eqb_refl; cbn; auto using orb_true_r. }
  destruct (find_pos (fun r => Z.eqb (br_f r) a && Z.eqb (br_t r) b) rs) as [j|] eqn:F1.
  - destruct (find_pos_some _ _ F1) as (r & R1 & R2 & _). f_equal. apply (Jf j r a b); auto.
  - destruct (find_pos (fun r => Z.eqb (br_f r) b && Z.eqb (br_t r) a) rs) as [j'|] eqn:F2.
    + destruct (find_pos_some _ _ F2) as (r & R1 & R2 & _). f_equal. apply (Jf j' r b a); auto.
    + exfalso. destruct (Forall2_nth_l _ F E) as (r & Er & Y1 & Y2 & _). pose proof (find_pos_none _ _ F1 r (nth_error_In _ _ Er)) as N1. pose proof (find_pos_none _ _ F2 r (nth_error_In _ _ Er)) as N2.
      cbv beta in N1, N2. unfold joins in J. rewrite Y1, Y2, N1, N2 in J. discriminate.
Qed.
Lemma inc_brs_idle : forall l rs Y, (forall r, In r rs -> br_chg r = None) -> inc_brs l rs Y = (rs, Y).
Proof. induction rs as [|r rs IH]; intros Y H; auto. cbn [inc_brs]. rewrite (H r (or_introl eq_refl)). rewrite IH by (intros; apply H; right; auto). reflexivity. Qed.
Lemma inc_brs_one : forall l rs i r r0 (f t : C) Y, (forall r, In r rs -> br_chg r = None) -> nth_error rs i = Some r0 -> br_chg r = Some (f, t) ->
  sized l (br_b r) = true -> at_bus bu_act false l (yb1 (br_b r)) = true -> at_bus bu_act false l (yb2 (br_b r)) = true ->
  inc_brs l (upd rs i r) Y = (upd rs i (Dbr (br_f r) (br_t r) (br_b r) None),
    add_at (at_bus bu_idx 0%nat l (yb2 (br_b r))) (at_bus bu_idx 0%nat l (yb1 (br_b r))) t (add_at (at_bus bu_idx 0%nat l (yb1 (br_b r))) (at_bus bu_idx 0%nat l (yb2 (br_b r))) f Y)).
Proof.
  induction rs as [|c rs IH]; intros [|i] r r0 f t Y H E Hc Hs A1 A2; cbn in E; try discriminate; cbn [upd inc_brs].
  - rewrite Hc, Hs, A1, A2. cbn [andb]. rewrite inc_brs_idle by (intros; apply H; right; auto). reflexivity.
  - rewrite (H c (or_introl eq_refl)). rewrite (IH i r r0 f t Y) by (auto; intros; apply H; right; auto). reflexivity.
Qed.
Lemma seq_nth_bus : forall l n k, map bu_idx l = seq 0 n -> (k < n)%nat -> exists b, nth_error l k = Some b /\ bu_idx b = k.
Proof.
  intros l n k E Hk. assert (X : nth_error (map bu_idx l) k = Some k).
  { rewrite E. rewrite (nth_error_nth' _ 0%nat) by (rewrite seq_length; auto). rewrite seq_nth by auto. reflexivity. }
  rewrite nth_error_map in X. destruct (nth_error l k) as [b|]; [|discriminate]. injection X as X. eauto.
Qed.
Lemma seq_idx : forall l n j b, map bu_idx l = seq 0 n -> nth_error l j = Some b -> bu_idx b = j.
Proof.
  intros l n j b E H. assert (Hj : (j < n)%nat). { rewrite <- (seq_length n 0), <- E, map_length. apply nth_error_Some; congruence. }
  destruct (seq_nth_bus l E Hj) as (c & C1 & C2). congruence.
Qed.
Lemma all_active : forall l n, map bu_idx l = seq 0 n -> Permutation (map bu_idx (filter bu_act l)) (seq 0 n) -> forall b, In b l -> bu_act b = true.
Proof.
  intros l n E Hp. apply Permutation_length in Hp. rewrite <- E, !map_length in Hp. clear E. induction l as [|c l IH]; intros b Hb; [destruct Hb|].
  cbn [filter length] in Hp. assert (L : forall m : list dbus, (length (filter bu_act m) <= length m)%nat) by (induction m as [|x m IHm]; cbn; [lia|destruct (bu_act x); cbn; lia]).
  destruct (bu_act c) eqn:A; cbn [length] in Hp; [|specialize (L l); lia]. destruct Hb as [<-|Hb]; auto.
Qed.
Lemma on_bus_at : forall n (g : dbus -> dbus) l k, map bu_idx l = seq 0 n -> (k < n)%nat ->
  on_bus (fun u => Ok (g u)) l k = Ok (map (fun b => if (bu_idx b =? k)%nat then g b else b) l).
Proof.
  intros n g l k E Hk. destruct (seq_nth_bus l E Hk) as (b & B1 & B2). unfold on_bus. rewrite B1. cbn [obind]. f_equal.
  apply (@upd_map _ (fun b => (bu_idx b =? k)%nat) g); auto. { apply Nat.eqb_eq; auto. }
  intros j c Hj Hc. apply Nat.eqb_eq in Hc. rewrite <- Hc. symmetry. eapply seq_idx; eauto.
Qed.
Definition two (k1 k2 : nat) (y1 y2 : C) (b : dbus) : dbus :=
  if (bu_idx b =? k1)%nat then set_yii (Some y1) b else if (bu_idx b =? k2)%nat then set_yii (Some y2) b else b.
Lemma static_two : forall k1 k2 y1 y2, static (two k1 k2 y1 y2).
Proof. intros k1 k2 y1 y2 b. unfold two. destruct (bu_idx b =? k1)%nat; [cbn; auto|]. destruct (bu_idx b =? k2)%nat; cbn; auto. Qed.
Lemma okb_num : forall P P', pl_num P' = pl_num P -> gnode (pl_grid P') = gnode (pl_grid P) -> pl_gens P' = pl_gens P -> pl_faults P' = pl_faults P -> forall b, okb P b -> okb P' b.
Proof. intros P P' E1 E2 E3 E4 b. unfold okb, fault_ok. rewrite E1, E2, E3, E4. auto. Qed.
Lemma increment_one : forall p Y, increment LineChange [p] Y = let (bs, Y) := inc_buses LineChange (pr_bus p) Y in let (rs, Y) := inc_brs bs (pr_br p) Y in ([Proc bs rs], Y).
Proof. intros p Y. cbn [increment]. destruct (inc_buses LineChange (pr_bus p) Y). destruct (inc_brs l (pr_br p) m). reflexivity. Qed.

Lemma line_event : forall s P0 P a c tag t st w Y, stat P -> inv P w -> single P0 P w -> right s P Y -> stands_for tag t ->
  ok_act P0 P (Line_ a c t (negb (Z.eqb st 0))) ->
  exists w1, each (set_line a c tag st) w = Ok w1 /\ let P' := act P (Line_ a c t (negb (Z.eqb st 0))) in
    inv P' (fst (increment LineChange w1 Y)) /\ right s P' (snd (increment LineChange w1 Y)) /\ single P0 P' (fst (increment LineChange w1 Y)).
Proof.
  intros s P0 P a c tag t st w Y St I (p & -> & Sq & Fb & Act) R T (i & x & Ei & J & U & Ne & Iso & On). set (on := negb (Z.eqb st 0)) in *.
  pose proof St as (S1 & S2 & S3 & S4 & S5 & S6). pose proof I as (I1 & I2 & I3).
  destruct (S5 x (nth_error_In _ _ Ei)) as (X0 & X1 & X2).
  assert (Wf : Forall wf_line (ael x)) by (apply Forall_forall; intros l; apply S6; eapply nth_error_In; eauto).
  destruct (Forall2_nth_l _ Fb Ei) as (r & Er & Bf & Bt & Bc & Br). pose proof Br as (R1 & R2 & R3 & R4).
  assert (Chg : forall r, In r (pr_br p) -> br_chg r = None). { intros r' Hr. apply In_nth_error in Hr as (j & Ej). destruct (Forall2_nth_r _ Fb Ej) as (y & _ & _ & _ & Q & _). auto. }
  assert (Ob : forall b, In b (pr_bus p) -> okb P b) by (intros b; apply (I1 p); left; auto).
  assert (Aa : forall b, In b (pr_bus p) -> bu_act b = true). { apply (@all_active _ _ Sq). cbn [flat_map] in I3. rewrite app_nil_r in I3. auto. }
  assert (Lt : forall b, In b (pr_bus p) -> (bu_idx b < length (pl_num P))%nat) by (intros b Hb; eapply inv_lt; eauto; left; auto).
  rewrite (act_line P a c t on Ei J U). cbn [each]. unfold set_line. rewrite (br_pos_ok a c Fb Ei J U), Er, (clean_ok T). cbn [obind]. fold on.
  destruct (Bool.eqb (getLineStatus (br_b r) t) on) eqn:Eq.
  - (* nothing to do *)
    apply Bool.eqb_prop in Eq.
    assert (X : arcs_upd P i (Arc (a1 x) (a2 x) (switch t on (ael x))) = P).
    { assert (Y0 : switch t on (ael x) = ael x).
      { unfold getLineStatus in Eq. rewrite R3, find_tag_ok in Eq. destruct (find_line t (ael x)) as [l|] eqn:F; [|apply switch_none; auto].
        cbn in Eq. rewrite <- Eq. apply switch_idle; auto. }
      rewrite Y0. apply arcs_idle. rewrite Ei. destruct x; reflexivity. }
    rewrite X. exists [p]. split; [reflexivity|]. cbv zeta. rewrite increment_one.
    assert (Bn : map (bnext LineChange) (pr_bus p) = pr_bus p).
    { rewrite <- (map_id (pr_bus p)) at 2. apply map_ext_in. intros b Hb. unfold bnext, diag_change. rewrite (Aa b Hb). destruct (bu_iso b) eqn:Is; auto.
      destruct (Ob b Hb) as (_ & _ & Q & _). destruct (Q (Aa b Hb) Is) as (Q1 & _). rewrite Q1. reflexivity. }
    pose proof (inc_buses_fst LineChange (pr_bus p) Y) as F1. pose proof (fun V k => @inc_buses_snd LineChange (length (pl_num P)) V k (pr_bus p) Y Lt) as F2.
    destruct (inc_buses LineChange (pr_bus p) Y) as [bs Y1]. cbn [fst snd] in F1, F2. rewrite F1, Bn. rewrite inc_brs_idle by auto. cbn [fst snd].
    replace (Proc (pr_bus p) (pr_br p)) with p by (destruct p; reflexivity).
    split; [auto|split; [|exists p; auto]].
    apply (@right_change s P P Y Y1 (fun _ _ => RtoC 0)); auto. intros k nd V Hk Hi. split.
    + rewrite F2. rewrite total_zero; [ring|]. intros b Hb. destruct (bu_idx b =? k)%nat eqn:Ek; auto. unfold bval, diag_change. rewrite (Aa b Hb).
      destruct (bu_iso b) eqn:Is; auto. destruct (Ob b Hb) as (_ & _ & Q & _). destruct (Q (Aa b Hb) Is) as (Q1 & _). rewrite Q1. reflexivity.
    + intros j. rewrite Cplus_0_r. tauto.
  - apply eqb_false_iff in Eq.
    assert (Ya : yact (br_b r) = true).
    { destruct on eqn:Eo.
      - destruct (On eq_refl) as (x0 & Ex0 & l & Il & Sl). eapply Act; eauto. apply existsb_exists; eauto.
      - apply R4. unfold getLineStatus in Eq. rewrite R3, find_tag_ok in Eq. destruct (find_line t (ael x)) as [l|] eqn:F; [|easy].
        apply existsb_exists. exists l. split; [eapply find_in; eauto|]. cbn in Eq. destruct (lserv l); easy. }
    destruct (getLineElements (br_b r) t) as [yii yij] eqn:G1. destruct (getRvrsLineElements (br_b r) t) as [yjj yji] eqn:G2.
    change (if on then yii else - yii) with (sgn on yii). change (if on then yjj else - yjj) with (sgn on yjj). change (if on then yij else - yij) with (sgn on yij). change (if on then yji else - yji) with (sgn on yji).
    rewrite R1, R2. rewrite (@on_bus_at _ _ (pr_bus p) (a1 x) Sq X1). cbn [obind].
    assert (Sq1 : forall (g : dbus -> dbus), (forall b, bu_idx (g b) = bu_idx b) -> map bu_idx (map g (pr_bus p)) = seq 0 (length (pl_num P))).
    { intros g Hg. rewrite map_map. rewrite (map_ext _ bu_idx) by auto. auto. }
    rewrite (@on_bus_at (length (pl_num P)) _ _ (a2 x)); [|apply Sq1; intros b; destruct (bu_idx b =? a1 x)%nat; reflexivity|auto]. cbn [obind].
    rewrite map_map.
    set (b' := fst (YbModel.setLineStatus (br_b r) t on)).
    set (r' := Dbr (br_f r) (br_t r) b' (Some (sgn on yij, sgn on yji))).
    set (f := two (a1 x) (a2 x) (sgn on yii) (sgn on yjj)).
    match goal with |- context [map ?g (pr_bus p)] => assert (Ef : map g (pr_bus p) = map f (pr_bus p)) end.
    { apply map_ext_in. intros b Hb. subst f. unfold two. destruct (Nat.eqb_spec (bu_idx b) (a1 x)) as [E1|E1]; auto. cbn [set_yii bu_idx].
      destruct (Nat.eqb_spec (bu_idx b) (a2 x)); [congruence|auto]. }
    rewrite Ef. clear Ef. eexists. split; [reflexivity|]. cbv zeta. rewrite increment_one. cbn [pr_bus pr_br].
    assert (Sf : static f) by (apply static_two).
    assert (Lt1 : forall b, In b (map f (pr_bus p)) -> (bu_idx b < length (pl_num P))%nat).
    { intros b Hb. apply in_map_iff in Hb as (b0 & <- & Hb0). destruct (Sf b0) as (_ & -> & _). auto. }
    pose proof (inc_buses_fst LineChange (map f (pr_bus p)) Y) as F1. pose proof (fun V k => @inc_buses_snd LineChange (length (pl_num P)) V k (map f (pr_bus p)) Y Lt1) as F2.
    destruct (inc_buses LineChange (map f (pr_bus p)) Y) as [bs Y1]. cbn [fst snd] in F1, F2. rewrite map_map in F1.
    pose proof (static_comp (@static_bnext LineChange) Sf) as Sg. set (g := fun b => bnext LineChange (f b)) in *.
    assert (Hb' : yb1 b' = a1 x /\ yb2 b' = a2 x /\ yact b' = true).
    { subst b'. unfold YbModel.setLineStatus. destruct (set_stat (yel (br_b r)) t on). cbn. auto. }
    destruct Hb' as (Y1b & Y2b & Y3b).
    assert (At : forall k, (k < length (pl_num P))%nat -> exists b, In b (pr_bus p) /\ nth_error bs k = Some (g b) /\ bu_idx b = k /\ bu_act (g b) = true /\ bu_iso (g b) = bu_iso b).
    { intros k Hk. destruct (seq_nth_bus (pr_bus p) Sq Hk) as (b & B1 & B2). exists b. assert (Ib : In b (pr_bus p)) by (eapply nth_error_In; eauto). rewrite F1, nth_error_map, B1. destruct (Sg b) as (_ & _ & -> & ->). repeat split; auto. }
    assert (NI : forall b, In b (pr_bus p) -> a1 x = bu_idx b \/ a2 x = bu_idx b -> bu_iso b = false).
    { intros b Hb Hx. destruct (Ob b Hb) as (_ & (nd & N1 & ->) & _). apply (Iso (bu_idx b) nd N1 Hx). }
    destruct (At _ X1) as (u1 & U1 & U2 & U3 & U4 & U5). destruct (At _ X2) as (v1 & V1 & V2 & V3 & V4 & V5).
    assert (Sz : sized bs (br_b r') = true).
    { unfold sized, at_bus. cbn [r' br_b]. rewrite Y1b, Y2b, Y3b, U2, V2, U5, V5, (NI u1 U1), (NI v1 V1); auto. }
    rewrite (@inc_brs_one bs (pr_br p) i r' r (sgn on yij) (sgn on yji) Y1 Chg Er eq_refl Sz); [|unfold at_bus; cbn [r' br_b]; rewrite Y1b, U2; auto|unfold at_bus; cbn [r' br_b]; rewrite Y2b, V2; auto].
    cbn [fst snd r' br_f br_t br_b]. rewrite Y1b, Y2b. unfold at_bus. rewrite U2, V2.
    replace (bu_idx (g u1)) with (a1 x) by (destruct (Sg u1) as (_ & -> & _); auto). replace (bu_idx (g v1)) with (a2 x) by (destruct (Sg v1) as (_ & -> & _); auto).
    assert (Gk : forall b, okb P b -> In b (pr_bus p) -> okb P (g b)).
    { intros b O Hb. destruct O as (O1 & O2 & O3 & O4 & O5). destruct (Sg b) as (Z1 & Z2 & Z3 & Z4).
      assert (Q : bu_ygen (g b) = bu_ygen b /\ bu_fault (g b) = bu_fault b /\ bu_gens (g b) = bu_gens b /\ bu_mach (g b) = bu_mach b /\ (bu_act b = true -> bu_iso b = false -> bu_yii (g b) = None)).
      { subst g f. unfold two, bnext, diag_change. destruct b as [nu ix ac is fa yi yg gs ms]. cbn. destruct (ix =? a1 x)%nat, (ix =? a2 x)%nat, ac, is, yi; cbn; repeat split; auto; discriminate. }
      destruct Q as (Q1 & Q2 & Q3 & Q4 & Q5). unfold okb, fault_ok. rewrite Z1, Z2, Z3, Z4, Q1, Q2, Q3, Q4. split; [auto|split; [auto|split; [|auto]]].
      intros A1 A2. destruct (O3 A1 A2) as (W1 & W2 & W3). rewrite Q5 by auto. split; [auto|split; [auto|exact W3]]. }
    split; [|split].
    + split; [|split].
      * intros q b [<-|[]] Hb. cbn in Hb. rewrite F1 in Hb. apply in_map_iff in Hb as (b0 & <- & Hb0). apply (@okb_num P); auto.
      * intros q [<-|[]]. cbn. rewrite F1, Sq1 by (intros b; apply Sg). apply seq_NoDup.
      * cbn [flat_map pr_bus]. rewrite app_nil_r, F1, static_perm by auto. cbn [flat_map] in I3. rewrite app_nil_r in I3. exact I3.
    + apply (@right_change s P _ Y _ (fun V k => ends x k (sgn on yii * V (a1 x) + sgn on yij * V (a2 x)) (sgn on yjj * V (a2 x) + sgn on yji * V (a1 x)))); auto.
      intros k nd V Hk Hi. split.
      * rewrite !times_add by auto. rewrite F2.
        assert (Hk' : (k < length (pl_num P))%nat) by (rewrite <- S1; apply nth_error_Some; congruence).
        destruct (seq_nth_bus (pr_bus p) Sq Hk') as (b & B1 & B2). assert (Ib : In b (pr_bus p)) by (eapply nth_error_In; eauto).
        rewrite (@active_pick (length (pl_num P)) (bval LineChange) (map f (pr_bus p)) k (f b)).
        -- assert (Is : bu_iso b = false). { destruct (Ob b Ib) as (_ & (nd' & N1 & ->) & _). rewrite B2, Hk in N1. injection N1 as <-. auto. }
           destruct (Ob b Ib) as (_ & _ & Q & _). destruct (Q (Aa b Ib) Is) as (Q1 & _).
           unfold bval, diag_change. destruct (Sf b) as (_ & _ & Z3 & Z4). rewrite Z3, Z4, (Aa b Ib), Is. unfold f, two, ends. rewrite B2, !(Nat.eqb_sym k).
           destruct (Nat.eqb_spec (a1 x) k) as [Ek|Ek].
           ++ destruct (Nat.eqb_spec (a2 x) k) as [Ek2|Ek2]; [congruence|]. cbn [set_yii bu_yii fst]. rewrite <- Ek. ring.
           ++ destruct (Nat.eqb_spec (a2 x) k) as [Ek2|Ek2]; [cbn [set_yii bu_yii fst]; rewrite <- Ek2; ring|]. rewrite Q1. cbn [fst]. ring.
        -- rewrite static_perm by auto. cbn [flat_map] in I3. rewrite app_nil_r in I3. exact I3.
        -- intros u Hu. unfold bval. rewrite Hu. reflexivity.
        -- apply in_map; auto.
        -- destruct (Sf b) as (_ & _ & -> & _). auto.
        -- destruct (Sf b) as (_ & -> & _). auto.
      * intros j. unfold leaves, out_of. cbn [arcs_upd pl_grid gnode garc].
        pose proof (fun j1 j2 => @switch_law (br_b r) x t on (V (a1 x)) (V (a2 x)) j1 j2 Br Wf Eq Ne) as L. cbv zeta in L. rewrite G1, G2 in L. cbn [fst snd] in L.
        pose proof (fun jj => @inflow_iff V k x _ _ _ (garc (pl_grid P)) i jj X0 L Ei) as Q.
        change (ground (arcs_upd P i (Arc (a1 x) (a2 x) (switch t on (ael x)))) k) with (ground P k).
        set (d := ends x k _ _) in *. split.
        -- intros (i0 & (n & i1 & N1 & N2 & N3) & E). exists (i0 - d). split.
           ++ exists n, (i1 - d). split; [auto|split]. { apply Q. replace (i1 - d + d) with i1 by ring. auto. } rewrite N3. ring.
           ++ replace j with (j + d - d) by ring. rewrite E. ring.
        -- intros (i0 & (n & i1 & N1 & N2 & N3) & E). exists (i0 + d). split.
           ++ exists n, (i1 + d). split; [auto|split]. { apply Q. auto. } rewrite N3. ring.
           ++ rewrite E. ring.
    + eexists. split; [reflexivity|]. cbn [pr_bus pr_br arcs_upd pl_num pl_grid garc]. split; [|split].
      * rewrite F1. apply Sq1. intros b; apply Sg.
      * apply Forall2_upd; [exact Fb|]. split; [exact Bf|split; [exact Bt|split; [reflexivity|]]]. cbn [br_b]. subst b'. apply repr_switch; auto.
      * intros j r0 x0 Ej Ex0 Hx0. destruct (Nat.eq_dec j i) as [->|Ne'].
        -- rewrite nth_error_upd_same in Ej by (apply nth_error_Some; congruence). injection Ej as <-. cbn. auto.
        -- rewrite nth_error_upd_other in Ej by auto. eapply Act; eauto.
Qed.

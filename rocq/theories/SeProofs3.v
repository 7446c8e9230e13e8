(** Proofs for SeProps.v: the equations of an iteration and the least squares problem. *)
From Verif Require Import Prelude PfModel PfSpec PfProofs YbModel YbSpec SeModel SeSpec SeProofs SeProofs2.
From Coq Require Import Reals Lra.
From Coquelicot Require Import Complex Derive Hierarchy AutoDerive.
Open Scope R_scope.

(** ** Linear algebra over lists of rows *)
Definition eqn : Type := list entry * R * R.
Lemma sumR_zero : forall l, (forall x, In x l -> x = 0) -> sumR l = 0.
Proof. induction l as [| x l IH]; intro H; [reflexivity |]. rewrite sumR_cons, IH by (intros; apply H; right; auto). rewrite (H x) by (left; auto). ring. Qed.
Lemma sumR_plus : forall A (f g : A -> R) l, sumR (map (fun x => f x + g x) l) = sumR (map f l) + sumR (map g l).
Proof. induction l as [| x l IH]; cbn [map]; rewrite ?sumR_cons, ?IH; [cbn; ring | ring]. Qed.
Lemma sumR_scale : forall A (f : A -> R) k l, sumR (map (fun x => k * f x) l) = k * sumR (map f l).
Proof. induction l as [| x l IH]; cbn [map]; rewrite ?sumR_cons, ?IH; [cbn; ring | ring]. Qed.
Lemma sumR_swap : forall A B (f : A -> B -> R) a b, sumR (map (fun x => sumR (map (f x) b)) a) = sumR (map (fun y => sumR (map (fun x => f x y) a)) b).
Proof.
  induction a as [| x a IH]; intro b; cbn [map].
  - symmetry. apply sumR_zero. intros y H. apply in_map_iff in H as (z & <- & _). reflexivity.
  - rewrite sumR_cons, IH, <- sumR_plus. reflexivity.
Qed.
Lemma sumR_ext : forall A (f g : A -> R) l, (forall x, In x l -> f x = g x) -> sumR (map f l) = sumR (map g l).
Proof. intros A f g l H. f_equal. apply map_ext_in; auto. Qed.
Lemma sumR_le : forall A (f g : A -> R) l, (forall x, In x l -> f x <= g x) -> sumR (map f l) <= sumR (map g l).
Proof. induction l as [| x l IH]; intro H; cbn [map]; rewrite ?sumR_cons; [apply Rle_refl |]. apply Rplus_le_compat; [apply H; left; auto | apply IH; intros; apply H; right; auto]. Qed.

Definition lin (q : eqn) (cs : list (nat * nat)) (x : nat * nat -> R) : R := sumR (map (fun c => coef (fst (fst q)) c * x c) cs).
Definition cost (eqs : list eqn) (cs : list (nat * nat)) (x : nat * nat -> R) : R := sumR (map (fun q => / 2 * snd (fst q) * (snd q - lin q cs x) ^ 2) eqs).
Lemma lin_plus : forall q cs x d, lin q cs (fun c => x c + d c) = lin q cs x + lin q cs d.
Proof. intros. unfold lin. rewrite <- sumR_plus. apply sumR_ext. intros; ring. Qed.
Lemma gain_lin : forall eqs cs x c, sumR (map (fun d => gain_at eqs c d * x d) cs) = sumR (map (fun q => coef (fst (fst q)) c * snd (fst q) * lin q cs x) eqs).
Proof.
  intros. unfold gain_at, lin.
  transitivity (sumR (map (fun d => sumR (map (fun q : eqn => coef (fst (fst q)) c * snd (fst q) * coef (fst (fst q)) d * x d) eqs)) cs)).
  - apply sumR_ext. intros d _. rewrite Rmult_comm, <- sumR_scale. apply sumR_ext. intros; ring.
  - rewrite sumR_swap. apply sumR_ext. intros q _. rewrite <- sumR_scale. apply sumR_ext. intros; ring.
Qed.
Lemma cross_zero : forall eqs cs x d, (forall c, In c cs -> sumR (map (fun d => gain_at eqs c d * x d) cs) = rhs_at eqs c) ->
  sumR (map (fun q => snd (fst q) * (snd q - lin q cs x) * lin q cs d) eqs) = 0.
Proof.
  intros eqs cs x d H.
  transitivity (sumR (map (fun c => d c * (rhs_at eqs c - sumR (map (fun d => gain_at eqs c d * x d) cs))) cs)).
  - transitivity (sumR (map (fun q : eqn => sumR (map (fun c => snd (fst q) * (snd q - lin q cs x) * (coef (fst (fst q)) c * d c)) cs)) eqs)).
    { apply sumR_ext. intros q _. unfold lin at 2. rewrite <- sumR_scale. auto. }
    rewrite sumR_swap. apply sumR_ext. intros c _. rewrite gain_lin. unfold rhs_at.
    transitivity (d c * sumR (map (fun q : eqn => coef (fst (fst q)) c * snd (fst q) * snd q + (- 1) * (coef (fst (fst q)) c * snd (fst q) * lin q cs x)) eqs)).
    + rewrite <- sumR_scale. apply sumR_ext. intros; ring.
    + rewrite sumR_plus, sumR_scale. unfold eqn. ring.
  - apply sumR_zero. intros y Hy. apply in_map_iff in Hy as (c & <- & Hc). rewrite (H c Hc). ring.
Qed.
Lemma normal_min : forall eqs cs x y, (forall q, In q eqs -> 0 <= snd (fst q)) ->
  (forall c, In c cs -> sumR (map (fun d => gain_at eqs c d * x d) cs) = rhs_at eqs c) -> cost eqs cs x <= cost eqs cs y.
Proof.
  intros eqs cs x y Hw H. pose (d := fun c => y c + - x c).
  assert (E : cost eqs cs y = cost eqs cs x + (- (1) * sumR (map (fun q => snd (fst q) * (snd q - lin q cs x) * lin q cs d) eqs) + sumR (map (fun q => / 2 * snd (fst q) * (lin q cs d) ^ 2) eqs))).
  { unfold cost. rewrite <- sumR_scale, <- !sumR_plus. apply sumR_ext. intros q _.
    replace (lin q cs y) with (lin q cs x + lin q cs d); [field |]. rewrite <- lin_plus. unfold lin. apply sumR_ext. intros; unfold d; ring. }
  rewrite E, (@cross_zero eqs cs x d H).
  assert (0 <= sumR (map (fun q => / 2 * snd (fst q) * (lin q cs d) ^ 2) eqs)); [| lra].
  rewrite <- (sumR_zero (map (fun _ : eqn => 0) eqs)) by (intros z Hz; apply in_map_iff in Hz as (? & <- & _); auto).
  apply sumR_le. intros q Hq. specialize (Hw q Hq). apply Rmult_le_pos; [lra | apply pow2_ge_0].
Qed.

(** ** The equations are those of the measurements *)
Definition fits (n : snet) (q : eqn) (t : term) : Prop :=
  (forall j i, unknown n j i -> deriv n (snd t) (j, i) (coef (fst (fst q)) (j, i))) /\ snd (fst q) = weight_of (fst t) /\ snd q = m_val (fst t) - snd t (now n).
Lemma weight_eq : forall m, weight m = weight_of m.
Proof. intro m. unfold weight, weight_of. destruct (Req_EM_T (m_dev m) 0); auto. field; auto. Qed.
Lemma weight_pos : forall m, 0 <= weight_of m.
Proof. intro m. unfold weight_of. destruct (Req_EM_T (m_dev m) 0) as [| H]; [lra |]. apply Rlt_le, Rinv_0_lt_compat. replace (m_dev m ^ 2) with (Rsqr (m_dev m)) by (unfold Rsqr; ring). apply Rsqr_pos_lt; auto. Qed.

Lemma zip3_fits : forall n ms (row : meas -> list entry) (res : list R) (h : meas -> state -> R),
  (forall m, In m ms -> forall j i, unknown n j i -> deriv n (h m) (j, i) (coef (row m) (j, i))) -> Forall2 (fun m z => z = m_val m - h m (now n)) ms res ->
  Forall2 (fits n) (zip3 (map row ms) (map weight ms) res) (map (fun m => (m, h m)) ms).
Proof.
  intros n ms row res h Hd F. induction F as [| m z ms res Hz F IH]; unfold zip3; cbn [map combine]; constructor.
  - unfold fits. cbn [fst snd]. split; [apply Hd; left; auto | split; [apply weight_eq | auto]].
  - apply IH. intros m' Hm'; apply Hd; apply in_cons; auto.
Qed.
Lemma Forall2_map_self : forall A B (f : A -> B) (P : A -> B -> Prop) l, (forall x, In x l -> P x (f x)) -> Forall2 P l (map f l).
Proof. induction l as [| x l IH]; intro H; cbn [map]; constructor; [apply H; left; auto | apply IH; intros; apply H; right; auto]. Qed.
Lemma bus_fits : forall n k u, wf n -> good_bus n k u \/ (nth_error (sbs n) k = Some u /\ p_iso (s_bus u) = true /\ s_bmeas u = nil) ->
  exists r, bus_resid n k = Ok r /\ Forall2 (fits n) (zip3 (bus_rows n k) (bus_weights n k) r) (map (fun m => (m, at_node n k (m_type m))) (s_bmeas u)).
Proof.
  intros n k u W [(Hk & Hi & Ht & L) | (Hk & Hi & ->)].
  - assert (E : sget n k = u) by (unfold sget; apply nth_error_nth; auto).
    unfold bus_resid, bus_rows, bus_weights, iso. rewrite E, Hi.
    eexists; split; [apply (@bus_res_ok n k W L); auto |].
    apply zip3_fits with (h := fun m => at_node n k (m_type m)).
    + intros m Hm j i U. apply bus_row_ok; auto.
    + apply Forall2_map_self; auto.
  - assert (E : sget n k = u) by (unfold sget; apply nth_error_nth; auto).
    unfold bus_resid, bus_rows, bus_weights, iso. rewrite E, Hi. exists nil. split; auto. constructor.
Qed.
Lemma meter_measures : forall b ls m l, In l ls -> ltag l = m_ckt m -> measures b ls m (meter b ls m).
Proof.
  intros b ls m l Hl Ht. unfold meter, measures.
  destruct (find (fun l => String.eqb (ltag l) (m_ckt m)) ls) as [l' |] eqn:E.
  - apply find_some in E as [E1 E2]. apply String.eqb_eq in E2. exists l'. auto.
  - exfalso. apply (find_none _ _ E) in Hl. rewrite Ht, String.eqb_refl in Hl. discriminate.
Qed.
Lemma br_fits : forall n b ls, wf n -> s_rmeas b = nil \/
  (good_branch n b ls /\ (forall m, In m (s_rmeas b) -> row_ok n b ls m) /\ (forall m, In m (s_rmeas b) -> m_type m = IIJ -> 0 < magn (el n) (r_1 (s_br b)))) ->
  Forall2 (fits n) (zip3 (br_rows n b) (br_weights n b) (br_resid n b)) (map (fun m => (m, meter b ls m)) (s_rmeas b)).
Proof.
  intros n b ls W [H | (H & RO & Pos)].
  - unfold br_rows, br_weights, br_resid. rewrite H. destruct (live n b); constructor.
  - assert (M : forall m, In m (s_rmeas b) -> measures b ls m (meter b ls m)).
    { intros m Hm. pose proof H as (_ & _ & _ & _ & _ & _ & G). destruct (G m Hm) as (_ & l & Hl & Hc & _). eapply meter_measures; eauto. }
    pose proof (@br_resid_ok n b ls H Pos) as F. unfold br_rows, br_weights. rewrite (good_live H).
    apply zip3_fits.
    + intros m Hm j i U. apply (@br_row_ok n b ls m); auto.
    + revert F M. generalize (br_resid n b). generalize (s_rmeas b). induction 1 as [| m z ms rs Hz F IH]; intro M; constructor.
      * apply Hz. apply M; left; auto.
      * apply IH. intros; apply M; right; auto.
Qed.
Lemma Forall2_concat : forall A B (P : A -> B -> Prop) a b, Forall2 (Forall2 P) a b -> Forall2 P (concat a) (concat b).
Proof. induction 1; cbn [concat]; [constructor | apply Forall2_app; auto]. Qed.
Lemma all_ok_of : forall A B (f : A -> outcome B) (P : A -> B -> Prop) l, (forall x, In x l -> exists y, f x = Ok y /\ P x y) -> exists ys, all_ok (map f l) = Ok ys /\ Forall2 P l ys.
Proof.
  induction l as [| x l IH]; intro H; cbn [map all_ok]; [exists nil; split; auto; constructor |].
  destruct (H x (or_introl eq_refl)) as (y & E & Hy). destruct IH as (ys & E2 & F); [intros; apply H; right; auto |].
  rewrite E. cbn [obind]. rewrite E2. cbn [obind]. eexists; split; [reflexivity | constructor; auto].
Qed.
Lemma equations_fit : forall n lss, wf n -> complete n lss -> exists eqs, equations n = Ok eqs /\ Forall2 (fits n) eqs (terms n lss).
Proof.
  intros n lss W [HB HR]. unfold equations, terms.
  destruct (@all_ok_of _ _ (bus_resid n) (fun k r => exists u, nth_error (sbs n) k = Some u /\
    Forall2 (fits n) (zip3 (bus_rows n k) (bus_weights n k) r) (map (fun m => (m, at_node n k (m_type m))) (s_bmeas u))) (Prelude.iota (length (sbs n)))) as (rs & E & F).
  { intros k Hk. apply in_iota in Hk. destruct (nth_error (sbs n) k) as [u |] eqn:Eu; [| apply nth_error_None in Eu; lia].
    destruct (@bus_fits n k u W) as (r & E & F); [destruct (HB k u Eu); auto |]. eauto 6. }
  rewrite E. cbn [obind]. eexists; split; [reflexivity |].
  apply Forall2_app; apply Forall2_concat.
  - assert (K : forall (bs : list sbus) ks rs, (forall i k, nth_error ks i = Some k -> nth_error bs i = nth_error (sbs n) k) -> length ks = length bs ->
      Forall2 (fun k r => exists u, nth_error (sbs n) k = Some u /\ Forall2 (fits n) (zip3 (bus_rows n k) (bus_weights n k) r) (map (fun m => (m, at_node n k (m_type m))) (s_bmeas u))) ks rs ->
      Forall2 (Forall2 (fits n)) (map (fun kr : nat * list R => zip3 (bus_rows n (fst kr)) (bus_weights n (fst kr)) (snd kr)) (combine ks rs))
        (map (fun ku : nat * sbus => map (fun m => (m, at_node n (fst ku) (m_type m))) (s_bmeas (snd ku))) (combine ks bs))).
    { intros bs ks rs0 Hn Hl F0. revert bs Hn Hl. induction F0 as [| k r ks rs0 (u & Eu & Fu) F0 IH]; intros bs Hn Hl; [constructor |].
      destruct bs as [| v bs]; [discriminate |]. cbn [combine map fst snd]. constructor.
      - pose proof (Hn 0%nat k eq_refl) as Hv. cbn in Hv. rewrite Eu in Hv. injection Hv as ->. auto.
      - apply IH; [intros i k' Hk; apply (Hn (S i) k'); auto | cbn in Hl; lia]. }
    apply K; auto.
    + intros i k Hk. f_equal. unfold Prelude.iota in Hk.
      assert (i < length (sbs n))%nat by (rewrite <- (seq_length (length (sbs n)) 0); apply nth_error_Some; congruence).
      assert (Q : nth i (seq 0 (length (sbs n))) 0%nat = k) by (apply nth_error_nth; auto). rewrite seq_nth in Q by auto. lia.
    + apply seq_length.
  - clear - HR W. revert HR. generalize (srs n). intros bs HR. induction HR as [| b ls bs lss Hb HR IH]; cbn [combine map fst snd]; constructor; auto.
    apply br_fits; auto.
Qed.

(** ** Gradient of the objective *)
Lemma moved_now : forall n c, moved n c (value n c) = now n.
Proof.
  intros n c. unfold moved, value, now, bump. destruct (is_angle n c); f_equal; apply FunctionalExtensionality.functional_extensionality; intro k;
    destruct (Nat.eqb_spec k (fst c)) as [-> |]; auto.
Qed.
Lemma square_deriv : forall n h c d w z, deriv n h c d -> deriv n (fun x => / 2 * w * (z - h x) ^ 2) c (- (d * w * (z - h (now n)))).
Proof.
  intros n h c d w z H. unfold deriv in *. pose (f := fun y : R => h (moved n c y)). fold f in H.
  change (is_derive (fun y : R => / 2 * w * (z - f y) ^ 2) (value n c) (- (d * w * (z - h (now n))))).
  assert (Ef : f (value n c) = h (now n)) by (unfold f; rewrite moved_now; auto). rewrite <- Ef. clearbody f.
  auto_derive; [exists d; auto |]. match goal with |- context [Derive ?g ?x] => replace (Derive g x) with d by (symmetry; apply is_derive_unique; exact H) end. field.
Qed.
Lemma objective_cons : forall t ts x, objective (t :: ts) x = / 2 * weight_of (fst t) * (m_val (fst t) - snd t x) ^ 2 + objective ts x.
Proof. reflexivity. Qed.
Lemma gradient : forall n eqs ts j i, Forall2 (fits n) eqs ts -> unknown n j i -> deriv n (objective ts) (j, i) (- rhs_at eqs (j, i)).
Proof.
  intros n eqs ts j i F U. induction F as [| q t eqs ts (Hd & Hw & Hr) F IH].
  - unfold deriv, objective, rhs_at. cbn. rewrite Ropp_0. apply (is_derive_const (K := R_AbsRing) (V := R_NormedModule)).
  - unfold rhs_at. cbn [map]. rewrite sumR_cons, Ropp_plus_distr. unfold deriv.
    apply (is_derive_plus (K := R_AbsRing) (V := R_NormedModule) (fun y => / 2 * weight_of (fst t) * (m_val (fst t) - snd t (moved n (j, i) y)) ^ 2) (fun y => objective ts (moved n (j, i) y))).
    + rewrite Hw, Hr. apply square_deriv. auto.
    + apply IH.
Qed.
Lemma columns_unknown : forall n c, In c (columns n) -> unknown n (fst c) (snd c).
Proof.
  intros n c H. unfold columns in H. apply in_concat in H as (l & Hl & Hc). apply in_map_iff in Hl as (k & <- & Hk). apply in_map_iff in Hc as (i & <- & Hi).
  apply in_iota in Hk. apply in_iota in Hi. cbn [fst snd]. unfold unknown. split; auto. unfold num_cols in Hi. rewrite <- iso_el.
  destruct (_ || _); [| lia]. destruct (iso n k); [lia |]. split; auto. unfold ncol in Hi. rewrite <- rf_el. auto.
Qed.
(** The derivatives attached to the terms *)
Definition graded (eqs : list eqn) (ts : list term) : list (term * (nat * nat -> R)) := combine ts (map (fun q : eqn => coef (fst (fst q))) eqs).
Lemma graded_terms : forall n eqs ts, Forall2 (fits n) eqs ts -> map fst (graded eqs ts) = ts /\
  (forall q, In q (graded eqs ts) -> forall j i, unknown n j i -> deriv n (snd (fst q)) (j, i) (snd q (j, i))).
Proof.
  intros n eqs ts F. unfold graded. induction F as [| q t eqs ts (Hd & _) F [IH1 IH2]]; cbn [combine map fst].
  - split; auto. intros q [].
  - split; [f_equal; auto |]. intros q' [<- | Hq]; cbn [fst snd]; auto.
Qed.
Lemma linear_cost : forall n eqs ts cs x, Forall2 (fits n) eqs ts -> linearised n (graded eqs ts) cs x = cost eqs cs x.
Proof.
  intros n eqs ts cs x F. unfold graded, linearised, cost. induction F as [| q t eqs ts (_ & Hw & Hr) F IH]; cbn [combine map]; auto.
  refine (f_equal2 Rplus _ IH). rewrite Hw, Hr. unfold lin, sumR. cbn [fst snd]. field.
Qed.
Lemma fits_pos : forall n eqs ts, Forall2 (fits n) eqs ts -> forall q, In q eqs -> 0 <= snd (fst q).
Proof. intros n eqs ts F. induction F as [| q t eqs ts (_ & Hw & _) F IH]; intros q' []; [subst; rewrite Hw; apply weight_pos | auto]. Qed.
(** An unknown without a column in the Jacobian does not occur in any equation. *)
Lemma zero_solves : forall n eqs, solves n eqs (fun _ => 0) <-> (forall c, In c (columns n) -> rhs_at eqs c = 0).
Proof.
  intros n eqs. unfold solves. split; intros H c Hc.
  - rewrite <- (H c Hc). apply sumR_zero. intros y Hy. apply in_map_iff in Hy as (d & <- & _). ring.
  - rewrite (H c Hc). apply sumR_zero. intros y Hy. apply in_map_iff in Hy as (d & <- & _). ring.
Qed.
Definition pair_dec (a b : nat * nat) : {a = b} + {a <> b}.
Proof. decide equality; apply Nat.eq_dec. Defined.

(** ** Update *)
Lemma set_volt_ok : forall u x w, set_volt u x = Some w ->
  p_iso (s_bus w) = p_iso (s_bus u) /\ p_ref (s_bus w) = p_ref (s_bus u) /\ s_bmeas w = s_bmeas u /\ s_gs w = s_gs u /\ p_G (s_bus w) = p_G (s_bus u) /\ p_B (s_bus w) = p_B (s_bus u).
Proof.
  intros u x w H. unfold set_volt in H. destruct (p_iso (s_bus u)) eqn:E; [injection H as <-; rewrite E; auto 7 |].
  destruct x as [| d x]; [discriminate |]. destruct (p_ref (s_bus u)) eqn:E2; [injection H as <-; cbn; auto 8 |].
  destruct x as [| e x]; [discriminate |]. injection H as <-; cbn; auto 8.
Qed.

(** ** Unknowns without a column *)
Lemma num_cols_out : forall n k, wf n -> (0 < num_cols n k)%nat -> (k < length (sbs n))%nat.
Proof.
  intros n k W H. destruct (Nat.lt_ge_cases k (length (sbs n))) as [| Ge]; auto. exfalso.
  unfold num_cols in H. replace (sget n k) with sbus0 in H by (unfold sget; rewrite nth_overflow; auto).
  replace (near n k) with (@nil sbr) in H; [cbn in H; lia |]. symmetry. unfold near.
  assert (A : forall l, incl l (srs n) -> filter (fun b => at_bus k (s_br b)) l = nil).
  { induction l as [| b l IH]; intro Hl; cbn [filter]; auto. destruct (at_bus k (s_br b)) eqn:E.
    - exfalso. apply at_bus_spec in E. destruct (W b (Hl b (or_introl eq_refl))) as (_ & A1 & A2). unfold touches in E. lia.
    - apply IH. intros x Hx; apply Hl; right; auto. }
  apply A, incl_refl.
Qed.
Lemma in_columns : forall n k i, wf n -> (i < num_cols n k)%nat -> In (k, i) (columns n).
Proof.
  intros n k i W H. unfold columns. apply in_concat. exists (map (fun i => (k, i)) (Prelude.iota (num_cols n k))). split.
  - apply in_map_iff. exists k. split; auto. apply in_iota. apply num_cols_out; auto. lia.
  - apply in_map. apply in_iota. auto.
Qed.
Lemma zip3_in : forall a w r q, In q (zip3 a w r) -> In (fst (fst q)) a.
Proof.
  intros a w r [[x y] z] H. unfold zip3 in H. apply in_combine_l in H. apply in_combine_l in H. auto.
Qed.
Lemma combine_iota : forall A (rs : list A) n k r, In (k, r) (combine (Prelude.iota n) rs) -> (k < n)%nat.
Proof. intros A rs n k r H. apply in_combine_l in H. apply in_iota in H. auto. Qed.
Lemma eq_columns : forall n lss eqs q e, wf n -> complete n lss -> equations n = Ok eqs -> In q eqs -> In e (fst (fst q)) -> In (fst e) (columns n).
Proof.
  intros n lss eqs q [[k i] x] W [HB HR] E Hq He. cbn [fst]. apply in_columns; auto.
  unfold equations in E. destruct (all_ok (map (bus_resid n) (Prelude.iota (length (sbs n))))) as [rs | |]; try discriminate. cbn [obind] in E. injection E as <-.
  apply in_app_or in Hq as [Hq | Hq]; apply in_concat in Hq as (l & Hl & Hq); apply in_map_iff in Hl as (kr & <- & Hk); apply zip3_in in Hq.
  - destruct kr as [k0 r]. cbn [fst snd] in *. apply combine_iota in Hk.
    destruct (nth_error (sbs n) k0) as [u |] eqn:Eu; [| apply nth_error_None in Eu; lia].
    destruct (HB k0 u Eu) as [G | [G _]].
    + apply (@bus_cols_ok n k0 u ((k, i), x) W G). apply in_concat. eauto.
    + exfalso. unfold bus_rows, iso, sget in Hq. rewrite (nth_error_nth _ _ sbus0 Eu), G in Hq. destruct Hq.
  - assert (G : exists ls, good_branch n kr ls).
    { clear - HR Hk Hq. assert (P : forall bs lss, Forall2 (fun b ls => s_rmeas b = nil \/
        (good_branch n b ls /\ (forall m, In m (s_rmeas b) -> row_ok n b ls m) /\ (forall m, In m (s_rmeas b) -> m_type m = IIJ -> 0 < magn (el n) (r_1 (s_br b))))) bs lss ->
        In kr bs -> exists ls, good_branch n kr ls).
      { clear HR. intros bs lss0 F. induction F as [| b ls bs lss0 Hb F IH]; intros Hin; [destruct Hin |]. destruct Hin as [-> | Hin]; [| apply IH; auto].
        destruct Hb as [Hb | [Hb _]]; [| exists ls; exact Hb].
        exfalso. unfold br_rows in Hq. rewrite Hb in Hq. revert Hq. destruct (live n kr); cbn; tauto. }
      eauto. }
    destruct G as (ls & G). apply (@br_cols_ok n kr ls ((k, i), x) G). apply in_concat. eauto.
Qed.
Lemma coef_none : forall row c, (forall e, In e row -> fst e <> c) -> coef row c = 0.
Proof.
  intros row [j i] H. unfold coef. apply sumR_zero. intros y Hy. apply in_map_iff in Hy as ([[k l] x] & <- & He). specialize (H _ He). cbn [fst snd] in *.
  destruct (Nat.eqb_spec k j); destruct (Nat.eqb_spec l i); cbn; auto. congruence.
Qed.
Lemma no_column : forall n lss eqs c, wf n -> complete n lss -> equations n = Ok eqs -> ~ In c (columns n) -> rhs_at eqs c = 0.
Proof.
  intros n lss eqs c W C E H. unfold rhs_at. apply sumR_zero. intros y Hy. apply in_map_iff in Hy as (q & <- & Hq).
  rewrite coef_none; [ring |]. intros e He <-. apply H. eapply eq_columns; eauto.
Qed.
Lemma two_port_ok : forall l vf vt, impedance l <> RtoC 0 -> two_port (turns l) (impedance l) (lb l) vf vt (i_from l vf vt) (i_to l vf vt).
Proof.
  intros l vf vt Hz. destruct (turns_val l) as [T Tn].
  assert (Ht : turns l <> RtoC 0).
  { intro Q. rewrite T in Q. unfold RtoC in Q. injection Q as Q1 Q2. pose proof (sin2_cos2 (shift_of l)) as S. unfold Rsqr in S.
    assert (cos (shift_of l) = 0) by (apply Rmult_integral in Q1 as [|]; [contradiction | auto]).
    assert (sin (shift_of l) = 0) by (apply Rmult_integral in Q2 as [|]; [contradiction | auto]). nra. }
  assert (Hc : Cconj (turns l) <> RtoC 0). { intro Q. apply Ht. revert Q. destruct (turns l) as [x y]. unfold Cconj, RtoC. cbn. intro Q. injection Q as -> Q. f_equal. lra. }
  exists (Cdiv vf (turns l)), (Cmult (Cconj (turns l)) (i_from l vf vt)). unfold i_from, i_to.
  repeat split; auto; field; auto.
Qed.

(** Proofs for C59, third part: one task. *)
From Verif Require Import Prelude PqModel PqSpec FmModel FmSpec FmProofs GAModel CaModel CaSpec CaProofs CaProofs2.
From Verif Require TaskModel TaskProofs.
From Coq Require Import Reals Lra.
Open Scope R_scope.

(** ** What the hypotheses depend on *)
Definition sumb (b : fbus) := (u_act b, u_id b, match q_xc (u_q b) with Some _ => true | None => false end, q_save (u_q b), q_pv (u_q b), map g_id (q_gens (u_q b)), length (q_gst (u_q b))).
Definition sumf (f : fbr) := (f_act f, f_1 f, f_2 f, map n_tag (f_lines f)).
Definition good (s : proc) : Prop := well_formed s /\ tags_ok s /\ whole s.
Lemma in_same A B (h : A -> B) l l' y : map h l = map h l' -> In y l' -> exists x, In x l /\ h x = h y.
Proof. intros E I. apply (in_map h) in I. rewrite <- E in I. apply in_map_iff in I as (x & X & I). eauto. Qed.
Lemma good_same s s' : map sumb (s_bus s) = map sumb (s_bus s') -> map sumf (s_brs s) = map sumf (s_brs s') -> good s -> good s'.
Proof.
  intros B F ((O & N & G) & T & (W & V)). split; [split; [| split] | split; [| split]].
  - intros i j f g I J K. destruct (nth_same _ _ _ i (eq_sym F) I) as (f0 & I0 & Ef). destruct (nth_same _ _ _ j (eq_sym F) J) as (g0 & J0 & Eg). unfold sumf in *. injection Ef as _ E1 E2 _. injection Eg as _ E3 E4 _.
    apply (O i j f0 g0); auto. unfold joins in *. rewrite E1, E2, E3, E4. exact K.
  - assert (E : map u_id (s_bus s) = map u_id (s_bus s')); [| rewrite <- E; exact N]. apply (f_equal (map (fun x : bool * Z * bool * option bool * bool * list string * nat => snd (fst (fst (fst (fst (fst x)))))))) in B. rewrite !map_map in B. exact B.
  - intros b I. destruct (@in_same _ _ _ _ _ _ B I) as (b0 & I0 & E). specialize (G b0 I0). unfold sumb in E. injection E as _ _ _ _ _ E1 E2. apply (f_equal (@length _)) in E1. rewrite !map_length in E1. congruence.
  - intros f I. destruct (@in_same _ _ _ _ _ _ F I) as (f0 & I0 & E). specialize (T f0 I0). unfold sumf in E. injection E as _ _ _ E. now rewrite <- E.
  - intros b I. destruct (@in_same _ _ _ _ _ _ B I) as (b0 & I0 & E). destruct (W b0 I0) as (W1 & W2 & W3 & W4). unfold sumb in E. injection E as E0 _ E1 E2 E3 E4 _. rewrite <- E0, <- E2, <- E3, <- E4. repeat split; auto.
    destruct (q_xc (u_q b)); [discriminate |]. destruct (q_xc (u_q b0)); [discriminate | tauto].
  - intros f I. destruct (@in_same _ _ _ _ _ _ F I) as (f0 & I0 & E). unfold sumf in E. injection E as E _ _ _. rewrite <- E. auto.
Qed.
Lemma sumb_reset b : sumb (resetb b) = sumb b.
Proof. unfold sumb, resetb, with_q, reset_voltage, set_volt. cbn. destruct (q_xc (u_q b)) as [[[a v] p] |]; reflexivity. Qed.
Lemma sumb_blank b : sumb (blank_bus b) = sumb b. Proof. reflexivity. Qed.
Lemma sumf_blank f : sumf (blank_br f) = sumf f.
Proof. unfold sumf, blank_br, with_lines. cbn. rewrite map_map. reflexivity. Qed.
Lemma sum_blank s : map sumb (s_bus (blank s)) = map sumb (s_bus s) /\ map sumf (s_brs (blank s)) = map sumf (s_brs s).
Proof. unfold blank. cbn. rewrite !map_map. split; apply map_ext; intros x; [apply sumb_blank | apply sumf_blank]. Qed.
Lemma sum_reset s : map sumb (s_bus (reset_voltages s)) = map sumb (s_bus s) /\ map sumf (s_brs (reset_voltages s)) = map sumf (s_brs s).
Proof. unfold reset_voltages. cbn. split; auto. rewrite map_map. apply map_ext. intros b. destruct (u_act b); auto. apply sumb_reset. Qed.
Lemma good_blank s : good s <-> good (blank s).
Proof. destruct (sum_blank s) as [A B]. split; apply good_same; auto. Qed.
Lemma good_reset s : good s <-> good (reset_voltages s).
Proof. destruct (sum_reset s) as [A B]. split; apply good_same; auto. Qed.
Lemma good_start s : good s <-> good (start s).
Proof. unfold start. now rewrite good_reset, good_blank. Qed.
Lemma good_outage e s : good s -> good (outage e s).
Proof.
  intros G. pose proof G as ((_ & _ & GO) & _). revert G. apply good_same; unfold outage; cbn; rewrite map_map; [apply map_ext_in | apply map_ext].
  - intros b I. specialize (GO b I). change (combine (q_gst (u_q b)) (q_gens (u_q b))) with (pairs b). destruct (combine_parts _ _ GO) as [L1 L2].
    unfold sumb, gens_out, with_iso, with_q, set_gens. cbn. f_equal.
    + f_equal. rewrite map_map. rewrite L2 at 1. rewrite !map_map. apply map_ext. intros p. destruct (named_gen e b (snd p)); reflexivity.
    + rewrite !map_length, combine_length. rewrite <- GO. now rewrite Nat.min_id.
  - intros f. unfold sumf, lines_out, with_lines. cbn. rewrite map_map. reflexivity.
Qed.
Lemma settled_same e s s' : map (fun b => (u_id b, pairs b)) (s_bus s) = map (fun b => (u_id b, pairs b)) (s_bus s') -> settled e s -> settled e s'.
Proof.
  intros E S b p I P N. destruct (@in_same _ _ _ _ _ _ E I) as (b0 & I0 & F). injection F as F1 F2. apply (S b0 p); auto.
  - fold (pairs b0). rewrite F2. exact P.
  - rewrite <- N. now apply named_ids.
Qed.
Lemma settled_start e s : settled e s <-> settled e (start s).
Proof.
  assert (E : map (fun b => (u_id b, pairs b)) (s_bus (start s)) = map (fun b => (u_id b, pairs b)) (s_bus s)).
  { unfold start, blank, reset_voltages. cbn. rewrite !map_map. apply map_ext. intros b. destruct (u_act b); reflexivity. }
  split; apply settled_same; auto.
Qed.
Lemma settled_reset e s : settled e s -> settled e (reset_voltages s).
Proof. apply settled_same. unfold reset_voltages. cbn. rewrite map_map. apply map_ext. intros b. destruct (u_act b); reflexivity. Qed.
Lemma good_ids s : good s -> ids_ok s.
Proof.
  intros ((_ & _ & G) & _ & (W & _)) b I. destruct (W b I) as (_ & _ & _ & N). unfold gen_states. rewrite map_map. cbn. specialize (G b I). destruct (combine_parts _ _ G) as [_ E]. rewrite E, map_map in N. exact N.
Qed.
Lemma good_acts s : good s -> forall b, In b (s_bus s) -> u_act b = true.
Proof. intros (_ & _ & (W & _)) b I. now apply W. Qed.

(** ** The network solved is the one with the elements out *)
Lemma blank_outage e s : blank (outage e s) = outage e (blank s).
Proof.
  unfold outage, blank. cbn. rewrite !map_map. assert (F : forall f, blank_br (lines_out e f) = lines_out e (blank_br f)).
  { intros f. unfold blank_br, lines_out, with_lines. cbn. f_equal. rewrite !map_map. apply map_ext. intros l. reflexivity. }
  f_equal.
  - apply map_ext. intros b. unfold blank_bus, with_iso, gens_out, with_q. cbn [u_q u_act u_id u_area u_zone u_iso u_ign u_vmin u_vmax u_near]. f_equal.
    f_equal. rewrite !without_lone. apply lone_abs; auto. unfold labs. rewrite !map_map. apply map_ext. intros f. unfold line_states, lines_out, with_lines. cbn. rewrite !map_map. apply map_ext. intros l. reflexivity.
  - apply map_ext. intros f. apply F.
Qed.

(** ** Reading the solution *)
Lemma mapi_mapi A B C (f : nat -> A -> B) (g : nat -> B -> C) l : forall i, mapi g i (mapi f i l) = mapi (fun k x => g k (f k x)) i l.
Proof. induction l as [| x l IH]; intros i; cbn; auto. now rewrite IH. Qed.
Lemma mapO_mapi A B (f : nat * A -> outcome B) (g : nat -> A -> B) l : forall i, (forall k x, In x l -> f (k, x) = Ok (g k x)) -> mapO f (mapi (fun k x => (k, x)) i l) = Ok (mapi g i l).
Proof. induction l as [| x l IH]; intros i H; cbn; auto. rewrite H by now left. cbn. rewrite IH; auto. intros; apply H; now right. Qed.
Lemma filter_mapi A (p : A -> bool) l : forall i, (forall x, In x l -> p x = true) -> filter (fun q => p (snd q)) (mapi (fun k x => (k, x)) i l) = mapi (fun k x => (k, x)) i l.
Proof. induction l as [| x l IH]; intros i H; cbn; auto. rewrite H by now left. rewrite IH; auto. intros; apply H; now right. Qed.
Lemma existsb_negb_forallb A (p : A -> bool) l : forallb (fun x => negb (p x)) l = negb (existsb p l).
Proof. induction l as [| x l IH]; cbn; auto. now rewrite IH, negb_orb. Qed.
Lemma sumR_filter A (f : A -> R) (p : A -> bool) l : sumR (map (fun x => if p x then f x else 0) l) = fold_right Rplus 0 (map f (filter p l)).
Proof. induction l as [| x l IH]; cbn; auto. unfold sumR in *. rewrite IH. destruct (p x); cbn; [reflexivity | lra]. Qed.
Lemma lsum_loads f b : lsum f (q_lds (u_q b)) = loads_on f b.
Proof. unfold lsum, loads_on, on. apply sumR_filter. Qed.

Section Solution.
Variables isref orig : nat -> bool.
Variable z : sol.
Variable s : proc.
Hypothesis G : good s.
Let s2 := place isref z s.
Let x := blank s.

Lemma acts2 : forall b, In b (s_bus s2) -> u_act b = true.
Proof. intros b I. unfold s2, place in I. cbn in I. apply in_mapi in I as (k & b0 & I & ->). exact (good_acts G b0 I). Qed.
Lemma actives2 : actives s2 = mapi (fun k b => (k, b)) 0 (mapi (place_bus isref z) 0 (s_bus s)).
Proof. unfold actives. rewrite filter_mapi; auto. exact acts2. Qed.
Lemma in_place b : In b (mapi (place_bus isref z) 0 (s_bus s)) -> exists k b0, In b0 (s_bus s) /\ b = place_bus isref z k b0.
Proof. intros I. apply in_mapi in I as (k & b0 & I & ->). eauto. Qed.
Lemma vmag_place i b : q_xc (u_q b) <> None -> vmag (place_bus isref z i b) = z_v z i.
Proof. unfold vmag, place_bus, with_q, set_volt. cbn. destruct (q_xc (u_q b)) as [[[a v] p] |]; [reflexivity | tauto]. Qed.

Lemma mag_ok (h : fbus -> bool -> R * Z) (h' : nat -> R * Z) : (forall i b, In b (s_bus s) -> h (place_bus isref z i b) false = h' i) -> mag_rows orig h s2 = Ok (per_mag orig h' x).
Proof.
  intros H. unfold mag_rows, rows. rewrite actives2.
  assert (K : forall (l : list fbus) i, (forall b, In b l -> In b (s_bus s)) ->
    mapO (fun p : nat * fbus => match q_save (u_q (snd p)) with None => UB | Some sv => Ok (if sv || orig (fst p) then [] else [h (snd p) (negb (Bool.eqb (q_pv (u_q (snd p))) sv))]) end) (mapi (fun k b => (k, b)) i (mapi (place_bus isref z) i l))
    = Ok (mapi (fun k b => if q_pv (u_q b) || orig k then [] else [h' k]) i (map blank_bus l))).
  { induction l as [| b l IH]; intros i I; [reflexivity |]. cbn [mapi map mapO snd fst]. destruct G as (_ & _ & (W & _)). destruct (W b (I b (or_introl eq_refl))) as (_ & _ & W3 & _).
    assert (E1 : q_save (u_q (place_bus isref z i b)) = q_save (u_q b)) by (unfold place_bus; cbn; destruct (u_iso b || isref i); reflexivity).
    assert (E2 : q_pv (u_q (place_bus isref z i b)) = q_pv (u_q b)) by (unfold place_bus; cbn; destruct (u_iso b || isref i); reflexivity).
    rewrite E1, E2, W3. cbn [obind]. rewrite IH by (intros; apply I; now right). cbn [obind]. rewrite Bool.eqb_reflx. cbn [negb]. rewrite H by (apply I; now left). reflexivity. }
  rewrite K by auto. reflexivity.
Qed.
Lemma ang_ok h h' : (forall i b, In b (s_bus s) -> h (place_bus isref z i b) = h' i) -> ang_rows h s2 = mapi (fun i _ => h' i) 0 (s_bus x).
Proof.
  intros H. unfold ang_rows. rewrite actives2. unfold x, blank. cbn. rewrite map_mapi, mapi_mapi, mapi_map. cbn. apply mapi_ext. intros; auto.
Qed.
Lemma gens_ok2 : gen_rows isref z s2 = Ok (concat (mapi (fun i b => map (fun p => (output_p isref z i b (snd p), output_q isref z i b (fst p) (snd p))) (combine (q_gst (u_q b)) (q_gens (u_q b)))) 0 (s_bus x))).
Proof.
  unfold gen_rows, rows. rewrite actives2.
  assert (K : forall (l : list fbus) i, (forall b, In b l -> In b (s_bus s)) ->
    mapO (fun p : nat * fbus => gen_values isref z (fst p) (snd p)) (mapi (fun k b => (k, b)) i (mapi (place_bus isref z) i l)) =
    Ok (mapi (fun i b => map (fun p => (output_p isref z i b (snd p), output_q isref z i b (fst p) (snd p))) (combine (q_gst (u_q b)) (q_gens (u_q b)))) i (map blank_bus l))).
  { induction l as [| b l IH]; intros i I; [reflexivity |]. cbn [mapi map mapO snd fst]. rewrite IH by (intros; apply I; now right). destruct G as ((_ & _ & GO) & _ & _). specialize (GO b (I b (or_introl eq_refl))).
    unfold gen_values, aligned.
    assert (E1 : q_gst (u_q (place_bus isref z i b)) = q_gst (u_q b)) by (unfold place_bus; cbn; destruct (u_iso b || isref i); reflexivity).
    assert (E2 : q_gens (u_q (place_bus isref z i b)) = q_gens (u_q b)) by (unfold place_bus; cbn; destruct (u_iso b || isref i); reflexivity).
    assert (E3 : q_lds (u_q (place_bus isref z i b)) = q_lds (u_q b)) by (unfold place_bus; cbn; destruct (u_iso b || isref i); reflexivity).
    assert (E4 : q_sb (u_q (place_bus isref z i b)) = q_sb (u_q b)) by (unfold place_bus; cbn; destruct (u_iso b || isref i); reflexivity).
    assert (E5 : q_pv (u_q (place_bus isref z i b)) = q_pv (u_q b)) by (unfold place_bus; cbn; destruct (u_iso b || isref i); reflexivity).
    assert (E6 : u_iso (place_bus isref z i b) = u_iso b) by reflexivity.
    assert (E7 : q_Qi (u_q (place_bus isref z i b)) = if u_iso b || isref i then q_Qi (u_q b) else z_Q z i) by (unfold place_bus; cbn; destruct (u_iso b || isref i); reflexivity).
    rewrite E1, E2, E3, E4, E5, E6, E7, (proj2 (Nat.eqb_eq _ _) GO). cbn [obind]. f_equal. f_equal. apply map_ext. intros p.
    rewrite !lsum_loads. unfold output_p, output_q, injected. change (u_iso (blank_bus b)) with (u_iso b). change (q_sb (u_q (blank_bus b))) with (q_sb (u_q b)). change (q_pv (u_q (blank_bus b))) with (q_pv (u_q b)).
    change (loads_on l_pl (blank_bus b)) with (loads_on l_pl b). change (loads_on l_ql (blank_bus b)) with (loads_on l_ql b).
    destruct (isref i) eqn:E; [reflexivity |]. cbn [orb]. rewrite orb_false_r. destruct (u_iso b), (q_pv (u_q b)); reflexivity. }
  rewrite K by auto. reflexivity.
Qed.
Lemma concat_mapi_map A B C (f : nat -> A -> list B) (g : B -> C) l : forall i, map g (concat (mapi f i l)) = concat (mapi (fun k a => map g (f k a)) i l).
Proof. induction l as [| a l IH]; intros i; cbn; auto. now rewrite map_app, IH. Qed.
Lemma nth_mapi A B (f : nat -> A -> B) l : forall i k, nth_error (mapi f i l) k = option_map (f (i + k)%nat) (nth_error l k).
Proof. induction l as [| a l IH]; intros i [| k]; cbn; auto; [now rewrite Nat.add_0_r |]. rewrite IH. now rewrite Nat.add_succ_r. Qed.
Lemma iso2 i : iso_at s2 i = match nth_error (s_bus x) i with Some b => u_iso b | None => false end.
Proof. unfold iso_at, s2, place, x, blank. cbn. rewrite nth_mapi, nth_error_map. destruct (nth_error (s_bus s) i); reflexivity. Qed.
Lemma flow_ok A (g : R * R * R * Z -> A) (h : nat -> fbr -> nat -> line -> A) :
  (forall k f j l, g ((if dead x f l then 0 else fst (z_flow z k j)), (if dead x f l then 0 else snd (z_flow z k j)), loading z k j l ^ 2, above_a z k j l) = h k f j l) ->
  map g (flow_rows s2 z) = concat (mapi (fun k f => mapi (h k f) 0 (f_lines f)) 0 (s_brs x)).
Proof.
  intros H. unfold flow_rows. rewrite concat_mapi_map. f_equal. unfold s2 at 2, place, x at 1, blank. cbn [s_brs]. rewrite mapi_mapi, mapi_map. destruct G as (_ & _ & (_ & V)).
  assert (K : forall (l : list fbr) i, (forall f, In f l -> In f (s_brs s)) ->
    mapi (fun k f => map g (if f_act (with_lines f (mapi (place_line z k) 0 (f_lines f))) then mapi (flow_row s2 z k (with_lines f (mapi (place_line z k) 0 (f_lines f)))) 0 (f_lines (with_lines f (mapi (place_line z k) 0 (f_lines f)))) else [])) i l =
    mapi (fun k f => mapi (h k (blank_br f)) 0 (f_lines (blank_br f))) i l).
  { intros l i I. apply mapi_ext. intros k f F. cbn [with_lines f_act f_lines]. rewrite (V f (I f F)). unfold blank_br at 2. cbn [with_lines f_lines]. rewrite map_mapi, mapi_mapi, mapi_map. apply mapi_ext. intros j l0 _.
    rewrite <- H. f_equal. unfold flow_row, dead. cbv zeta. change (rate_a (place_line z k j l0)) with (rate_a l0). change (n_on (place_line z k j l0)) with (n_on l0). cbn [with_lines f_b1 f_b2].
    change (f_b1 (blank_br f)) with (f_b1 f). change (f_b2 (blank_br f)) with (f_b2 f). change (n_on (blank_line l0)) with (n_on l0). rewrite !iso2. cbn [existsb]. rewrite orb_false_r, orb_assoc.
    assert (Ld : (if Rlt_dec 0 (rate_a l0) then cabs (z_flow z k j) / rate_a l0 else 0) = loading z k j (blank_line l0)).
    { unfold loading, rate_a. cbn. destruct (n_A l0); auto. destruct (Rlt_dec 0 0); [lra | reflexivity]. }
    rewrite Ld. cbn [pow]. rewrite Rmult_1_r. reflexivity. }
  apply K; auto.
Qed.
Lemma tables_eq ok code v : tables isref orig ok code (with_viol s2 v) z = Ok (report isref orig ok code x z).
Proof.
  change (tables isref orig ok code (with_viol s2 v) z) with (tables isref orig ok code s2 z). unfold tables. rewrite (mag_ok _ (fun i => (z_v z i, 1%Z))) by reflexivity. rewrite gens_ok2. cbn [obind]. unfold report. f_equal. f_equal.
  - rewrite (ang_ok _ (fun i => (z_a z i * 180 / PI, 1%Z))); auto. intros i b _. unfold place_bus. cbn. f_equal. f_equal. rewrite atan_1. field.
  - unfold marked, per_gen. rewrite map_map, concat_mapi_map. f_equal. apply mapi_ext. intros k b _. rewrite map_map. reflexivity.
  - unfold marked, per_gen. rewrite map_map, concat_mapi_map. f_equal. apply mapi_ext. intros k b _. rewrite map_map. reflexivity.
  - apply flow_ok. reflexivity.
  - apply flow_ok. reflexivity.
  - apply flow_ok. reflexivity.
Qed.
Lemma zeros_eq A (l : list A) : zeros (length l) = map (fun _ => (0, 0%Z)) l.
Proof. induction l; cbn; auto. unfold zeros in IHl. now rewrite IHl. Qed.
Lemma no_tables_eq : no_tables orig s2 z = Ok (no_report orig x).
Proof.
  unfold no_tables. rewrite (mag_ok _ (fun _ => (0, 0%Z))) by reflexivity. cbn [obind]. unfold no_report. cbv zeta. rewrite !zeros_eq. rewrite (ang_ok _ (fun _ => (0, 0%Z))) by reflexivity. rewrite mapi_const.
  rewrite (@flow_ok _ _ (fun _ _ _ _ => (0, 0%Z))) by reflexivity.
  assert (Gc : zeros (gen_count s2) = per_gen (fun _ _ _ _ => (0, 0%Z)) x).
  { unfold gen_count. rewrite zeros_eq. rewrite actives2. rewrite flat_map_concat_map. unfold per_gen. rewrite map_mapi, mapi_mapi. rewrite concat_mapi_map. f_equal. unfold x, blank. cbn [s_bus]. rewrite mapi_map.
    apply mapi_ext. intros k b I. cbn [snd]. replace (q_gens (u_q (place_bus isref z k b))) with (q_gens (u_q b)) by (unfold place_bus; cbn; destruct (u_iso b || isref k); reflexivity).
    change (combine (q_gst (u_q (blank_bus b))) (q_gens (u_q (blank_bus b)))) with (combine (q_gst (u_q b)) (q_gens (u_q b))). destruct G as ((_ & _ & GO) & _). specialize (GO b I). rewrite <- !zeros_eq. f_equal. rewrite combine_length. rewrite <- GO. now rewrite Nat.min_id. }
  rewrite Gc. reflexivity.
Qed.
Lemma voltage_eq v : check_voltage [with_viol s2 v] = negb (bus_bad x z).
Proof.
  unfold check_voltage. cbn [map s_bus with_viol]. apply eq_true_iff_eq. rewrite TaskProofs.check_true_spec. unfold bus_bad, x, blank. cbn [s_bus]. rewrite mapi_map.
  assert (K : forall (l : list fbus) i ok, (forall b, In b l -> In b (s_bus s)) ->
    fold_left (fun ok b => if u_act b && negb (u_ign b) && negb (voltage_ok b) then false else ok) (mapi (place_bus isref z) i l) ok =
    ok && negb (existsb (fun o => o) (mapi (fun i b => negb (u_ign (blank_bus b)) && (if Rlt_dec (u_vmax (blank_bus b)) (z_v z i) then true else if Rlt_dec (z_v z i) (u_vmin (blank_bus b)) then true else false)) i l))).
  { induction l as [| b l IH]; intros i ok I; cbn [mapi fold_left existsb]; [now rewrite andb_true_r |]. rewrite IH by (intros; apply I; now right). destruct G as (_ & _ & (W & _)). destruct (W b (I b (or_introl eq_refl))) as (W1 & W2 & _).
    rewrite voltage_okb. unfold off_limitsb. rewrite (@vmag_place i b W2). change (u_act (place_bus isref z i b)) with (u_act b). rewrite W1. change (u_ign (place_bus isref z i b)) with (u_ign b). change (u_vmax (place_bus isref z i b)) with (u_vmax b). change (u_vmin (place_bus isref z i b)) with (u_vmin b).
    change (u_ign (blank_bus b)) with (u_ign b). change (u_vmax (blank_bus b)) with (u_vmax b). change (u_vmin (blank_bus b)) with (u_vmin b). cbn [andb].
    destruct (u_ign b); cbn [negb andb orb]; auto. destruct (Rlt_dec (u_vmax b) (z_v z i)); cbn; [now rewrite andb_false_r |]. destruct (Rlt_dec (z_v z i) (u_vmin b)); cbn; auto. now rewrite andb_false_r. }
  unfold s2, place. cbn [s_bus]. rewrite K by auto. cbn [andb]. split; [intros H; apply H; now left | intros H y [<- | []]; exact H].
Qed.
Lemma lines_eq v : exists v', check_lines1 (with_viol s2 v) = (with_viol s2 v', negb (line_bad x z)).
Proof.
  assert (T : tags_ok (with_viol s2 v)).
  { intros f F. unfold s2, place in F. cbn in F. apply in_mapi in F as (k & f0 & F & ->). cbn. rewrite map_mapi. cbn. rewrite mapi_const. destruct G as (_ & T & _). now apply T. }
  rewrite check_lines_eq by exact T. cbv zeta. eexists. apply f_equal2; [reflexivity |]. cbn [with_viol s_bus s_brs s_viol s_sav s_rateB]. unfold line_bad, x, blank, s2, place. cbn [s_brs s_rateB]. rewrite mapi_map. destruct G as (_ & _ & (_ & V)).
  assert (K : forall (l : list fbr) i, (forall f, In f l -> In f (s_brs s)) ->
    forallb (fun f => negb (f_act f) || forallb (fun l => negb (negb (n_ign l) && overloadedb (s_rateB s) l)) (f_lines f)) (mapi (fun k f => with_lines f (mapi (place_line z k) 0 (f_lines f))) i l) =
    negb (existsb (fun o => o) (concat (mapi (fun k f => mapi (fun j l => negb (n_ign l) && match rating (s_rateB s) l with Some r => if Rlt_dec 0 r then if Rlt_dec r (cabs (z_flow z k j)) then true else false else false | None => false end) 0 (f_lines (blank_br f))) i l)))).
  { induction l as [| f l IH]; intros i I; cbn [mapi forallb concat]; auto. rewrite existsb_app, negb_orb. rewrite IH by (intros; apply I; now right). f_equal. cbn [with_lines f_act f_lines]. rewrite (V f (I f (or_introl eq_refl))). cbn [negb orb].
    unfold blank_br. cbn [with_lines f_lines]. rewrite mapi_map. generalize 0%nat at 1 2 as j. intros j. revert j. induction (f_lines f) as [| l0 ls IHl]; intros j; cbn [mapi forallb existsb]; auto. rewrite IHl, negb_orb. f_equal. }
  apply K; auto.
Qed.
End Solution.

(** Proofs about RecModel: branches. *)
From Verif Require Import Prelude StrModel StrProofs StrProofs2 DCModel DCSpec DCProofs RecModel RecSpec RecProofs RecProofs2.
From Coq Require Import Ascii.
Open Scope nat_scope.

(** ** Pairs *)
Lemma pair_eqb_spec p q : pair_eqb p q = true <-> p = q.
Proof.
  unfold pair_eqb. destruct p as [a b], q as [c d]. cbn [fst snd]. rewrite andb_true_iff, !Z.eqb_eq. split; [intros [-> ->]; auto|].
  intros H; inversion H; auto.
Qed.
Definition swap (p : Z * Z) : Z * Z := (snd p, fst p).
Lemma same_ends_spec p q : same_ends p q = true <-> p = q \/ swap p = q.
Proof.
  unfold same_ends, swap. destruct p as [a b], q as [c d]. cbn [fst snd]. rewrite orb_true_iff, !andb_true_iff, !Z.eqb_eq.
  split; [intros [[-> ->]|[-> ->]]; auto|intros [H|H]; inversion H; auto].
Qed.
Lemma same_ends_sym p q : same_ends p q = true -> same_ends q p = true.
Proof. rewrite !same_ends_spec. intros [->| <-]; auto. right. now destruct p. Qed.
Lemma same_ends_trans p q r : same_ends p q = true -> same_ends q r = true -> same_ends p r = true.
Proof. rewrite !same_ends_spec. destruct p, q, r. unfold swap; cbn. intros [H|H] [K|K]; inversion H; inversion K; subst; auto. Qed.
Lemma same_ends_refl p : same_ends p p = true.
Proof. apply same_ends_spec. auto. Qed.

Lemma first_pairs_snoc ps : forall seen p,
  first_pairs seen (ps ++ [p]) = (first_pairs seen ps ++ if existsb (same_ends p) (seen ++ first_pairs seen ps) then [] else [p])%list.
Proof.
  induction ps as [|q ps IH]; intros seen p; cbn [app first_pairs].
  - rewrite app_nil_r. now destruct (existsb _ _).
  - destruct (existsb (same_ends q) seen) eqn:E; [apply IH|]. rewrite IH. cbn [app]. f_equal. f_equal.
    rewrite !existsb_app. cbn [app existsb]. rewrite existsb_app. destruct (same_ends p q), (existsb (same_ends p) seen); reflexivity.
Qed.
Lemma apart_snoc fp p : apart fp -> existsb (same_ends p) fp = false -> apart (fp ++ [p]).
Proof.
  intros A E i j x y Hi Hj S.
  assert (forall k z, nth_error (fp ++ [p]) k = Some z -> (nth_error fp k = Some z /\ In z fp) \/ (k = length fp /\ z = p)) as X.
  { intros k z Hk. destruct (lt_dec k (length fp)) as [L|L].
    - rewrite nth_error_app1 in Hk by exact L. left; split; auto. eapply nth_error_In; eassumption.
    - rewrite nth_error_app2 in Hk by lia. destruct (k - length fp) eqn:Ek; cbn in Hk; [inversion Hk; right; split; [lia|auto]|].
      destruct n; discriminate. }
  assert (forall z, In z fp -> same_ends p z = true -> False) as Y.
  { intros z Hz Hs. assert (existsb (same_ends p) fp = true); [apply existsb_exists; eauto|congruence]. }
  destruct (X _ _ Hi) as [[Hi1 Hi2]|[-> ->]], (X _ _ Hj) as [[Hj1 Hj2]|[-> ->]].
  - eapply A; eassumption.
  - exfalso. eapply Y; [exact Hi2|]. now apply same_ends_sym.
  - exfalso. eapply Y; eassumption.
  - reflexivity.
Qed.

(** The map holds the position of every pair. *)
Definition pmap_of (fp : list (Z * Z)) : list ((Z * Z) * nat) := combine fp (seq 0 (length fp)).
Lemma pfind_combine fp : forall k p,
  match pfind (combine fp (seq k (length fp))) p with
  | Some l => k <= l /\ nth_error fp (l - k) = Some p
  | None => ~ In p fp
  end.
Proof.
  induction fp as [|q fp IH]; intros k p; cbn [length seq combine pfind]; [now intros []|].
  fold (pair_eqb q p). destruct (pair_eqb q p) eqn:E.
  - apply pair_eqb_spec in E. subst. split; [lia|]. now rewrite Nat.sub_diag.
  - specialize (IH (S k) p). destruct (pfind _ p) as [l|].
    + destruct IH as [H1 H2]. split; [lia|]. replace (l - k) with (S (l - S k)) by lia. exact H2.
    + intros [->|H]; [|exact (IH H)]. assert (pair_eqb p p = true); [now apply pair_eqb_spec|congruence].
Qed.
Lemma pfind_pmap fp p : match pfind (pmap_of fp) p with Some l => nth_error fp l = Some p | None => ~ In p fp end.
Proof. unfold pmap_of. generalize (pfind_combine fp 0 p). destruct (pfind _ p) as [l|]; [|auto]. rewrite Nat.sub_0_r. tauto. Qed.
Lemma pmap_snoc fp p : pmap_of (fp ++ [p]) = (pmap_of fp ++ [(p, length fp)])%list.
Proof.
  unfold pmap_of. rewrite app_length. cbn [length]. rewrite seq_app. cbn [seq]. generalize (seq_length (length fp) 0). generalize (seq 0 (length fp)) as m.
  induction fp as [|q fp IH]; intros [|x m] H; cbn in *; try discriminate; [reflexivity|]. f_equal.
  assert (forall a, (combine (fp ++ [p]) (m ++ [a]) = combine fp m ++ [(p, a)])%list) as X.
  { inversion H as [H1]. clear -H1. revert m H1. induction fp as [|q fp IH]; intros [|y m] H a; cbn in *; try discriminate; [reflexivity|].
    f_equal. apply IH. congruence. }
  apply X.
Qed.

(** ** Records *)
Section Branch.
Variable atof : str -> Z.
Variable names : list (str * Z).
Variable zero : Z.
Variable its : list item.
Variable ss : list stmt.
Definition M : list string := ["BRANCH_INDEX"; "BRANCH_FROMBUS"; "BRANCH_TOBUS"; "BRANCH_NUM_ELEMENTS"]%string.
Let N := ("BRANCH_SWITCHED" :: "BRANCH_TAP" :: "BRANCH_SHIFT" :: flat_map item_names its)%string.
Let body := (SSwitched "BRANCH_SWITCHED" :: ss ++ [SZero "BRANCH_TAP" zero; SZero "BRANCH_SHIFT" zero])%list.
Hypothesis Hcomp : compiles (columns 2 its) ss.
Hypothesis Hnodup : NoDup (M ++ N)%list.
Hypothesis Hcolon : forallb no_colon (M ++ N)%list = true.
Hypothesis Hnobus : forall n, ~ In (IBus n) its.

Definition E_br (q : Z * Z) (r : list str) (n : Z) : list expectation :=
  ((Indexed "BRANCH_SWITCHED" n, TBool, Some (VBool (is_reversed names q r))) ::
   all_expect atof 0 r n (columns 2 its) ++
   [(Indexed "BRANCH_TAP" n, TDouble, Some (VDouble zero)); (Indexed "BRANCH_SHIFT" n, TDouble, Some (VDouble zero))])%list.

Lemma br_colon x : In x (M ++ N)%list -> no_colon x = true.
Proof. intros H. pose proof Hcolon as X. rewrite forallb_forall in X. auto. Qed.
Lemma brN_colon x : In x N -> no_colon x = true.
Proof. intros H. apply br_colon. rewrite in_app_iff. auto. Qed.
Lemma brM_colon x : In x M -> no_colon x = true.
Proof. intros H. apply br_colon. rewrite in_app_iff. auto. Qed.
Lemma M_notin x : In x M -> ~ In x N.
Proof. intros H1 H2. apply (nodup_app_inv M N) in Hnodup. destruct Hnodup as (_ & _ & X). exact (X x H1 H2). Qed.

Lemma E_br_names q r n s t v : In (s, t, v) (E_br q r n) ->
  In (slot_name s) N /\ match s with Indexed _ i => i = n | Plain _ => n = 0%Z end.
Proof.
  unfold E_br, N. intros [H|H].
  - inversion H; subst. split; [now left|reflexivity].
  - apply in_app_iff in H. destruct H as [H|[H|[H|[]]]].
    + apply all_expect_names in H. rewrite columns_names in H. destruct H; split; auto. right; right; right; auto.
    + inversion H; subst. split; [right; now left|reflexivity].
    + inversion H; subst. split; [right; right; now left|reflexivity].
Qed.
Lemma E_br_typed q r n s t v : In (s, t, Some v) (E_br q r n) -> type_of v = t.
Proof.
  unfold E_br. intros [H|H]; [inversion H; reflexivity|]. apply in_app_iff in H. destruct H as [H|[H|[H|[]]]].
  - eapply all_expect_typed; exact H.
  - inversion H; reflexivity.
  - inversion H; reflexivity.
Qed.
Lemma E_br_nodup q r n : NoDup (map e_slot (E_br q r n)).
Proof.
  apply nodup_app_inv in Hnodup. destruct Hnodup as (_ & ND & _). unfold N in ND.
  inversion ND as [|? ? N1 ND1]; subst. inversion ND1 as [|? ? N2 ND2]; subst. inversion ND2 as [|? ? N3 ND3]; subst.
  assert (forall s, In s (map e_slot (all_expect atof 0 r n (columns 2 its))) -> In (slot_name s) (flat_map item_names its)) as X.
  { intros s Hs. apply in_map_iff in Hs. destruct Hs as ([[s' t] v] & Es & Hs). cbn in Es. subst. apply all_expect_names in Hs.
    rewrite columns_names in Hs. tauto. }
  unfold E_br. cbn [map e_slot fst]. rewrite map_app. cbn [map e_slot fst]. constructor.
  - intros H. apply in_app_iff in H. destruct H as [H|[H|[H|[]]]]; try discriminate H. apply X in H. apply N1. right. right. exact H.
  - apply nodup_app.
    + apply all_expect_nodup. rewrite columns_names. exact ND3.
    + constructor; [intros [H|[]]; discriminate H|]. constructor; [intros []|constructor].
    + intros s Hs [<-|[<-|[]]]; apply X in Hs; [apply N2; right; exact Hs|exact (N3 Hs)].
Qed.

Lemma all_expect_bus b b' r n c0 : all_expect atof b r n (columns c0 its) = all_expect atof b' r n (columns c0 its).
Proof.
  revert c0 Hnobus. clear. induction its as [|it l IH]; intros c0 Hnb; [reflexivity|]. unfold all_expect in *. cbn [columns flat_map].
  rewrite (IH (c0 + width it)) by (intros nm Hi; apply (Hnb nm); now right). f_equal.
  destruct it; try reflexivity. exfalso. apply (Hnb name). now left.
Qed.

Lemma exec_body d a q r n : Forall nonblank r -> (forall c it, In (c, it) (columns 2 its) -> readable_at r c it) ->
  exec atof body d a (is_reversed names q r) r n = add_all d (somes (E_br q r n)).
Proof.
  intros H1 H2. unfold body, E_br. cbn [exec adds_of obind].
  change (somes ((Indexed "BRANCH_SWITCHED" n, TBool, Some (VBool (is_reversed names q r))) ::
     all_expect atof 0 r n (columns 2 its) ++
     [(Indexed "BRANCH_TAP" n, TDouble, Some (VDouble zero)); (Indexed "BRANCH_SHIFT" n, TDouble, Some (VDouble zero))])%list)
   with ([(Indexed "BRANCH_SWITCHED" n, VBool (is_reversed names q r))] ++ somes (all_expect atof 0 r n (columns 2 its) ++
     [(Indexed "BRANCH_TAP" n, TDouble, Some (VDouble zero)); (Indexed "BRANCH_SHIFT" n, TDouble, Some (VDouble zero))]))%list.
  rewrite add_all_app. destruct (add_all d _) as [d1| |]; cbn [obind]; try reflexivity.
  rewrite exec_app, (exec_compiled atof Hcomp) by assumption. rewrite somes_app, add_all_app, (all_expect_bus a 0).
  destruct (add_all d1 _) as [d2| |]; cbn [obind]; try reflexivity.
  change (somes [(Indexed "BRANCH_TAP" n, TDouble, Some (VDouble zero)); (Indexed "BRANCH_SHIFT" n, TDouble, Some (VDouble zero))])
    with ([(Indexed "BRANCH_TAP" n, VDouble zero)] ++ [(Indexed "BRANCH_SHIFT" n, VDouble zero)])%list.
  rewrite add_all_app. cbn [exec adds_of obind]. destruct (add_all d2 _) as [d3| |]; cbn [obind]; try reflexivity.
  destruct (add_all d3 _); reflexivity.
Qed.

Definition BState (l : nat) (q : Z * Z) (ms : list (list str)) (d : dc) : Prop :=
  Stored (E_br q) N ms d /\
  look d TInt (Plain "BRANCH_INDEX") = Some (VInt (Z.of_nat l)) /\
  look d TInt (Plain "BRANCH_FROMBUS") = Some (VInt (fst q)) /\
  look d TInt (Plain "BRANCH_TOBUS") = Some (VInt (snd q)) /\
  look d TInt (Plain "BRANCH_NUM_ELEMENTS") = Some (VInt (Z.of_nat (length ms))) /\
  (forall t s, slot_good s = true -> ~ In (slot_name s) (M ++ N)%list -> look d t s = None).

Lemma plain_good x : In x (M ++ N)%list -> slot_good (Plain x) = true.
Proof. intros H. unfold slot_good. cbn. now apply br_colon. Qed.
Lemma inM x : In x M -> In x (M ++ N)%list.
Proof. intros H. apply in_app_iff. auto. Qed.

Lemma bstate_step l q ms d r a : BState l q ms d -> length ms <= Z.to_nat 9999999 ->
  Forall nonblank r -> (forall c it, In (c, it) (columns 2 its) -> readable_at r c it) ->
  exists d', exec atof body d a (is_reversed names q r) r (Z.of_nat (length ms)) = Ok d' /\
    BState l q (ms ++ [r]) (fst (set_key d' "BRANCH_NUM_ELEMENTS" (VInt (Z.of_nat (length ms) + 1)))).
Proof.
  intros (S0 & S1 & S2 & S3 & S4 & S5) Hl H1 H2. rewrite exec_body by assumption.
  destruct (@stored_snoc _ (E_br q) N (fun _ => True) (@E_br_names q) (fun r n _ => @E_br_nodup q r n) (@E_br_typed q) brN_colon ms r d I)
    as (d' & Ed & T1 & T2); [exact Hl|exact S0|]. exists d'. split; [exact Ed|].
  assert (forall x, In x M -> look d' TInt (Plain x) = look d TInt (Plain x)) as X.
  { intros x Hx. apply T2; [now apply plain_good, inM|]. apply M_notin. exact Hx. }
  assert (In "BRANCH_NUM_ELEMENTS" M) as HM by (unfold M; cbn; tauto).
  assert (forall t s, slot_good s = true -> s <> Plain "BRANCH_NUM_ELEMENTS" ->
     look (fst (set_key d' "BRANCH_NUM_ELEMENTS" (VInt (Z.of_nat (length ms) + 1)))) t s = look d' t s) as Y.
  { intros t s Hs Hne. rewrite look_set_plain by (auto; apply brM_colon; exact HM).
    destruct (slot_eq_dec _ s) as [e|]; [exfalso; apply Hne; now symmetry|reflexivity]. }
  split; [|split; [|split; [|split; [|split]]]].
  - apply (@stored_other _ (E_br q) N (fun _ => True) (@E_br_names q) (fun r n _ => @E_br_nodup q r n) (@E_br_typed q) brN_colon) with (d := d');
      [|rewrite app_length; cbn; lia|exact T1].
    intros t s Hs Hn. apply Y; [exact Hs|]. intros ->. exact (M_notin HM Hn).
  - rewrite Y; [rewrite X; [assumption|unfold M; cbn; tauto]|apply plain_good, inM; unfold M; cbn; tauto|discriminate].
  - rewrite Y; [rewrite X; [assumption|unfold M; cbn; tauto]|apply plain_good, inM; unfold M; cbn; tauto|discriminate].
  - rewrite Y; [rewrite X; [assumption|unfold M; cbn; tauto]|apply plain_good, inM; unfold M; cbn; tauto|discriminate].
  - rewrite look_set_plain; [|apply brM_colon; exact HM|apply plain_good, inM; exact HM].
    destruct (slot_eq_dec _ _) as [_|ne]; [|congruence]. cbn [type_of]. destruct (dtype_eq_dec TInt TInt); [|congruence].
    rewrite X, S4 by exact HM. rewrite app_length, Nat2Z.inj_add. reflexivity.
  - intros t s Hs Hn. rewrite Y; [|exact Hs|intros ->; apply Hn, inM; exact HM].
    rewrite T2; [apply S5; auto|exact Hs|]. intros Z. apply Hn, in_app_iff. auto.
Qed.

Lemma look_empty t s : slot_good s = true -> look dc_empty t s = None.
Proof. intros H. rewrite look_good by exact H. destruct t; reflexivity. Qed.
Lemma look_add_other d x v t s : In x M -> slot_good s = true -> s <> Plain x -> look (add_key d x v) t s = look d t s.
Proof.
  intros Hx Hs Hne. rewrite look_add_plain by (auto using brM_colon). destruct (slot_eq_dec _ s) as [e|]; [exfalso; apply Hne; now symmetry|reflexivity].
Qed.
Lemma look_add_int d x z : In x M -> look d TInt (Plain x) = None -> look (add_key d x (VInt z)) TInt (Plain x) = Some (VInt z).
Proof.
  intros Hx Hn. rewrite look_add_plain by (auto using brM_colon, plain_good, inM). destruct (slot_eq_dec _ _) as [_|n]; [|congruence].
  cbn [type_of]. destruct (dtype_eq_dec TInt TInt); [|congruence]. now rewrite Hn.
Qed.
Lemma bstate_init l q :
  BState l q [] (add_key (add_key (add_key (add_key dc_empty "BRANCH_NUM_ELEMENTS" (VInt 0)) "BRANCH_INDEX" (VInt (Z.of_nat l)))
     "BRANCH_FROMBUS" (VInt (fst q))) "BRANCH_TOBUS" (VInt (snd q))).
Proof.
  assert (forall x, In x ["BRANCH_INDEX"; "BRANCH_FROMBUS"; "BRANCH_TOBUS"; "BRANCH_NUM_ELEMENTS"]%string -> In x M) as HM by auto.
  assert (forall x, In x M -> slot_good (Plain x) = true) as HP by (intros; now apply plain_good, inM).
  assert (forall s, slot_good s = true -> ~ In (slot_name s) M -> forall t, look (add_key (add_key (add_key (add_key dc_empty "BRANCH_NUM_ELEMENTS" (VInt 0))
     "BRANCH_INDEX" (VInt (Z.of_nat l))) "BRANCH_FROMBUS" (VInt (fst q))) "BRANCH_TOBUS" (VInt (snd q))) t s = None) as X.
  { intros s Hs Hn t.
    rewrite !look_add_other; [now apply look_empty|..]; try exact Hs; try (apply HM; cbn; tauto); intros ->; apply Hn; cbn; tauto. }
  split; [|split; [|split; [|split; [|split]]]].
  - split; [|split].
    + intros [|i] r s t v Hi; discriminate Hi.
    + intros name i t Hname Hi. apply X.
      * unfold slot_good. cbn [slot_ok slot_name]. rewrite (@brN_colon _ Hname), andb_true_r. cbn [length] in Hi.
        apply andb_true_iff. split; apply Z.leb_le; lia.
      * cbn [slot_name]. intros HM'. exact (M_notin HM' Hname).
    + intros _ name t Hname. apply X.
      * unfold slot_good. cbn. exact (@brN_colon _ Hname).
      * cbn [slot_name]. intros HM'. exact (M_notin HM' Hname).
  - rewrite !look_add_other by first [apply HP, HM; cbn; tauto | apply HM; cbn; tauto | discriminate].
    rewrite look_add_int; [reflexivity|apply HM; cbn; tauto|].
    rewrite look_add_other by first [apply HP, HM; cbn; tauto | apply HM; cbn; tauto | discriminate]. apply look_empty, HP, HM. cbn; tauto.
  - rewrite look_add_other by first [apply HP, HM; cbn; tauto | apply HM; cbn; tauto | discriminate].
    rewrite look_add_int; [reflexivity|apply HM; cbn; tauto|].
    rewrite !look_add_other by first [apply HP, HM; cbn; tauto | apply HM; cbn; tauto | discriminate]. apply look_empty, HP, HM. cbn; tauto.
  - rewrite look_add_int; [reflexivity|apply HM; cbn; tauto|].
    rewrite !look_add_other by first [apply HP, HM; cbn; tauto | apply HM; cbn; tauto | discriminate]. apply look_empty, HP, HM. cbn; tauto.
  - rewrite !look_add_other by first [apply HP, HM; cbn; tauto | apply HM; cbn; tauto | discriminate].
    rewrite look_add_int; [reflexivity|apply HM; cbn; tauto|]. apply look_empty, HP, HM. cbn; tauto.
  - intros t s Hs Hn. apply X; [exact Hs|]. intros H. apply Hn, inM, H.
Qed.

(** The whole section. *)
Definition BInv (rs : list (list str)) (b : branches) : Prop :=
  let fp := first_pairs [] (all_ends names rs) in
  apart fp /\ length (br_data b) = length fp /\ br_index b = length fp /\ br_map b = pmap_of fp /\
  (forall p, In p (all_ends names rs) -> existsb (same_ends p) fp = true) /\
  forall l q d, nth_error fp l = Some q -> nth_error (br_data b) l = Some d ->
    BState l q (filter (joins names q) rs) d /\ filter (joins names q) rs <> [].

Lemma branch_step rs b r p : BInv rs b -> ends_of names r = Some p -> readable its 2 r -> length rs <= Z.to_nat 9999999 ->
  exists b', branch_record atof body names b r = Ok b' /\ BInv (rs ++ [r]) b'.
Proof.
  intros (A & L & I & Mp & Cov & S) He [Hr1 Hr2] Hlen.
  set (fp := first_pairs [] (all_ends names rs)) in *.
  assert (exists t1 t2 r', r = t1 :: t2 :: r' /\ get_bus_index (sfind names) t1 = Ok (fst p) /\ get_bus_index (sfind names) t2 = Ok (snd p))
    as (t1 & t2 & r' & -> & G1 & G2).
  { unfold ends_of in He. destruct r as [|t1 [|t2 r']]; try discriminate.
    destruct (get_bus_index (sfind names) t1) as [x| |] eqn:E1; try discriminate.
    destruct (get_bus_index (sfind names) t2) as [y| |] eqn:E2; try discriminate. inversion He; subst. eauto 10. }
  set (r := t1 :: t2 :: r') in *. change (branch_record atof body names b r) with
    (obind (get_bus_index (sfind names) t1) (fun a => obind (get_bus_index (sfind names) t2) (fun c =>
    obind (branch_slot b a c) (fun '(b1, l, n, sw) =>
    obind (if (n =? 0)%Z then new_branch b1 l a c else Ok b1) (fun b2 =>
    match nth_error (br_data b2) l with
    | None => UB
    | Some d => obind (exec atof body d a sw r n) (fun d' =>
                Ok (Build_branches (upd (br_data b2) l (fst (set_key d' "BRANCH_NUM_ELEMENTS" (VInt (n + 1)))))
                                   (br_map b2) (br_index b2)))
    end))))).
  rewrite G1, G2. cbn [obind].
  assert (forall q, joins names q r = same_ends p q) as Hj by (intros q; unfold joins; now rewrite He).
  assert (forall q, is_reversed names q r = negb (pair_eqb p q)) as Hrev by (intros q; unfold is_reversed; now rewrite He).
  assert (all_ends names (rs ++ [r]) = (all_ends names rs ++ [p])%list) as Hae.
  { unfold all_ends. rewrite flat_map_app. cbn [flat_map]. rewrite He, app_nil_r. reflexivity. }
  assert (forall f : list str -> bool, length (filter f rs) <= length rs) as Hfl.
  { intros f. clear. induction rs as [|x rs IH]; cbn; [lia|]. destruct (f x); cbn; lia. }
  assert (forall q, filter (joins names q) (rs ++ [r]) = (filter (joins names q) rs ++ if same_ends p q then [r] else []))%list as Hfi.
  { intros q. rewrite filter_app. cbn [filter]. rewrite Hj. now destruct (same_ends p q). }
  destruct p as [a c]. cbn [fst snd] in *.
  (* an existing branch *)
  assert (forall l q, nth_error fp l = Some q -> same_ends (a, c) q = true ->
    exists d, nth_error (br_data b) l = Some d /\ nelems_of (br_data b) l = Ok (Z.of_nat (length (filter (joins names q) rs))) /\
      (Z.of_nat (length (filter (joins names q) rs)) =? 0)%Z = false /\
      exists d', exec atof body d a (negb (pair_eqb (a, c) q)) r (Z.of_nat (length (filter (joins names q) rs))) = Ok d' /\
      BInv (rs ++ [r]) (Build_branches (upd (br_data b) l (fst (set_key d' "BRANCH_NUM_ELEMENTS"
           (VInt (Z.of_nat (length (filter (joins names q) rs)) + 1))))) (br_map b) (br_index b))) as Old.
  { intros l q Hl Hq. assert (l < length (br_data b)) as Hlt by (rewrite L; apply nth_error_Some; congruence).
    destruct (nth_error (br_data b) l) as [d|] eqn:Ed; [|apply nth_error_None in Ed; lia].
    destruct (S l q d Hl Ed) as [Sd Nn]. exists d. split; [reflexivity|].
    assert (look d TInt (Plain "BRANCH_NUM_ELEMENTS") = Some (VInt (Z.of_nat (length (filter (joins names q) rs))))) as Hne by apply Sd.
    rewrite look_good in Hne by (apply plain_good, inM; unfold M; cbn; tauto). cbn [slot_key] in Hne.
    split; [unfold nelems_of; rewrite Ed, Hne; reflexivity|]. split; [apply Z.eqb_neq; destruct (filter (joins names q) rs); [congruence|cbn; lia]|].
    destruct (@bstate_step l q _ d r a Sd) as (d' & E' & S'); [pose proof (Hfl (joins names q)); lia|exact Hr1|exact Hr2|].
    rewrite Hrev in E'. exists d'. split; [exact E'|].
    assert (existsb (same_ends (a, c)) fp = true) as Hex by (apply existsb_exists; exists q; split; [eapply nth_error_In; eassumption|exact Hq]).
    unfold BInv. rewrite Hae, first_pairs_snoc. cbn [app]. fold fp. rewrite Hex, app_nil_r. cbn [br_data br_map br_index].
    split; [exact A|]. split; [rewrite upd_length; exact L|]. split; [exact I|]. split; [exact Mp|]. split.
    { intros p Hp. apply in_app_iff in Hp. destruct Hp as [Hp|[<-|[]]]; auto. }
    intros l' q' d'' Hl' Hd''. destruct (Nat.eq_dec l l') as [<-|Ne].
    - rewrite nth_error_upd_same in Hd'' by exact Hlt. inversion Hd''; subst. rewrite Hl in Hl'. inversion Hl'; subst.
      rewrite Hfi, Hq. split; [exact S'|]. destruct (filter (joins names q') rs); discriminate.
    - rewrite nth_error_upd_other in Hd'' by exact Ne. destruct (S _ _ _ Hl' Hd'') as [Sd' Nn'].
      assert (same_ends (a, c) q' = false) as Hq'.
      { destruct (same_ends (a, c) q') eqn:Eq; [|reflexivity]. exfalso. apply Ne. eapply A; [exact Hl|exact Hl'|].
        eapply same_ends_trans; [apply same_ends_sym; exact Hq|exact Eq]. }
      rewrite Hfi, Hq', app_nil_r. auto. }
  unfold branch_slot. rewrite Mp. generalize (pfind_pmap fp (a, c)). destruct (pfind (pmap_of fp) (a, c)) as [l|] eqn:E1.
  { intros Hl. destruct (Old l (a, c) Hl (same_ends_refl _)) as (d & Ed & En & Ez & d' & Ee & HI).
    rewrite En. cbn [obind]. rewrite Ez. cbn [obind]. rewrite Ed.
    assert (pair_eqb (a, c) (a, c) = true) as Er by now apply pair_eqb_spec. rewrite Er in Ee. cbn [negb] in Ee. rewrite Ee. cbn [obind].
    eexists. split; [reflexivity|]. exact HI. }
  intros Nin1. generalize (pfind_pmap fp (c, a)). destruct (pfind (pmap_of fp) (c, a)) as [l|] eqn:E2.
  { intros Hl. destruct (Old l (c, a) Hl) as (d & Ed & En & Ez & d' & Ee & HI); [apply same_ends_spec; now right|].
    rewrite En. cbn [obind]. rewrite Ez. cbn [obind]. rewrite Ed.
    assert (pair_eqb (a, c) (c, a) = false) as Er.
    { destruct (pair_eqb (a, c) (c, a)) eqn:Ep; [|reflexivity]. apply pair_eqb_spec in Ep. exfalso. apply Nin1. rewrite Ep. eapply nth_error_In; eassumption. }
    rewrite Er in Ee. cbn [negb] in Ee. rewrite Ee. cbn [obind]. eexists. split; [reflexivity|]. exact HI. }
  (* a new branch *)
  intros Nin2. cbn [obind]. change (0 =? 0)%Z with true. cbv iota. unfold new_branch. cbn [br_data br_map br_index].
  rewrite nth_error_app2, Nat.sub_diag by lia. cbn [nth_error]. rewrite E1. cbn [obind br_data br_map br_index].
  rewrite nth_error_upd_same by (rewrite app_length; cbn; lia). rewrite I.
  assert (existsb (same_ends (a, c)) fp = false) as Hex.
  { destruct (existsb (same_ends (a, c)) fp) eqn:Ex; [|reflexivity]. apply existsb_exists in Ex. destruct Ex as (q & Hin & Hq).
    apply same_ends_spec in Hq. unfold swap in Hq. cbn in Hq. destruct Hq as [<-|<-]; contradiction. }
  assert (filter (joins names (a, c)) rs = []) as Hnil.
  { destruct (filter (joins names (a, c)) rs) as [|x xs] eqn:Ef; [reflexivity|exfalso].
    assert (In x (filter (joins names (a, c)) rs)) as Hx by (rewrite Ef; now left). apply filter_In in Hx. destruct Hx as [Hx Hjx].
    unfold joins in Hjx. destruct (ends_of names x) as [px|] eqn:Epx; [|discriminate].
    assert (In px (all_ends names rs)) as Hpx by (unfold all_ends; apply in_flat_map; exists x; rewrite Epx; cbn; auto).
    apply Cov in Hpx. apply existsb_exists in Hpx. destruct Hpx as (q & Hq1 & Hq2).
    assert (existsb (same_ends (a, c)) fp = true); [|congruence]. apply existsb_exists. exists q. split; [exact Hq1|].
    eapply same_ends_trans; [apply same_ends_sym; exact Hjx|exact Hq2]. }
  rewrite L.
  destruct (@bstate_step (length fp) (a, c) [] _ r a (bstate_init (length fp) (a, c))) as (d' & E' & S'); [cbn; lia|exact Hr1|exact Hr2|].
  rewrite Hrev in E'. assert (pair_eqb (a, c) (a, c) = true) as Er by now apply pair_eqb_spec. rewrite Er in E'. cbn [negb fst snd length] in E'.
  change (Z.of_nat 0) with 0%Z in E'. cbn [length] in S'. change (Z.of_nat 0) with 0%Z in S'.
  rewrite E'. cbn [obind]. eexists. split; [reflexivity|].
  unfold BInv. rewrite Hae, first_pairs_snoc. cbn [app]. fold fp. rewrite Hex. cbn [br_data br_map br_index].
  split; [apply apart_snoc; assumption|]. split; [rewrite !upd_length, !app_length, L; reflexivity|].
  split; [rewrite app_length; cbn; lia|]. split; [rewrite pmap_snoc; reflexivity|]. split.
  { intros p Hp. rewrite existsb_app. apply in_app_iff in Hp. destruct Hp as [Hp|[<-|[]]].
    - now rewrite (Cov _ Hp).
    - cbn [existsb]. rewrite same_ends_refl. now rewrite orb_true_r. }
  intros l q d Hl Hd. destruct (Nat.eq_dec (length fp) l) as [<-|Ne].
  - rewrite nth_error_upd_same in Hd by (rewrite upd_length, app_length, L; cbn; lia). inversion Hd; subst.
    rewrite nth_error_app2, Nat.sub_diag in Hl by lia. cbn in Hl. inversion Hl; subst. rewrite Hfi, Hnil, same_ends_refl. cbn [app].
    split; [exact S'|discriminate].
  - assert (l < length fp) as Hlt.
    { assert (l < length (fp ++ [(a, c)])) as X by (apply nth_error_Some; congruence). rewrite app_length in X. cbn in X. lia. }
    rewrite !nth_error_upd_other in Hd by exact Ne. rewrite nth_error_app1 in Hd by lia. rewrite nth_error_app1 in Hl by exact Hlt.
    destruct (S _ _ _ Hl Hd) as [Sd Nn]. assert (same_ends (a, c) q = false) as Hq.
    { destruct (same_ends (a, c) q) eqn:Eq; [|reflexivity]. assert (existsb (same_ends (a, c)) fp = true); [|congruence].
      apply existsb_exists. exists q. split; [eapply nth_error_In; eassumption|exact Eq]. }
    rewrite Hfi, Hq, app_nil_r. auto.
Qed.

Lemma branch_steps rs : (forall r, In r rs -> ends_of names r <> None /\ readable its 2 r) -> length rs <= Z.to_nat 9999999 ->
  exists b, steps (branch_record atof body names) rs (Build_branches [] [] 0) = Ok b /\ BInv rs b.
Proof.
  induction rs as [|r rs IH] using rev_ind; intros H Hl.
  - eexists. split; [reflexivity|]. unfold BInv. cbn [all_ends flat_map first_pairs length br_data br_map br_index].
    split; [intros [|i] j p q Hi; discriminate Hi|]. repeat (split; [reflexivity|]). split; [intros p []|].
    intros [|l] q d Hq; discriminate Hq.
  - rewrite app_length in Hl. cbn in Hl. destruct IH as (b & Eb & Ib); [intros; apply H; rewrite in_app_iff; auto|lia|].
    rewrite steps_app, Eb. cbn [obind steps]. destruct (H r) as [H1 H2]; [rewrite in_app_iff; cbn; auto|].
    destruct (ends_of names r) as [p|] eqn:Ep; [|congruence].
    destruct (branch_step Ib Ep H2) as (b' & Eb' & Ib'); [lia|]. exists b'. rewrite Eb'. auto.
Qed.

Lemma branch_groups rs : (forall r, In r rs -> ends_of names r <> None /\ readable its 2 r) -> length rs <= Z.to_nat 9999999 ->
  let fp := first_pairs [] (all_ends names rs) in
  exists b, steps (branch_record atof body names) rs (Build_branches [] [] 0) = Ok b /\ length (br_data b) = length fp /\
    forall l q d, nth_error fp l = Some q -> nth_error (br_data b) l = Some d ->
      holds_branch atof zero its names l q (filter (joins names q) rs) d.
Proof.
  intros H Hl. cbn zeta. destruct (branch_steps _ H Hl) as (b & Eb & _ & L & _ & _ & _ & S). exists b. split; [exact Eb|]. split; [exact L|].
  intros l q d Hq Hd. destruct (S l q d Hq Hd) as [((T1 & T2 & _) & S1 & S2 & S3 & S4 & S5) _].
  repeat (split; [assumption|]). split; [|split].
  - intros i r Hi. split; [|split; [|split]].
    + apply (T1 i r _ _ _ Hi). unfold E_br. now left.
    + apply (T1 i r _ _ _ Hi). unfold E_br. right. apply in_app_iff. right. now left.
    + apply (T1 i r _ _ _ Hi). unfold E_br. right. apply in_app_iff. right. right. now left.
    + intros c it b0 s t v Hc Hin. apply (T1 i r _ _ _ Hi). unfold E_br. right. apply in_app_iff. left.
      rewrite (all_expect_bus 0 b0). unfold all_expect. apply in_flat_map. exists (c, it). auto.
  - intros name i t Hname Hi. apply T2; assumption.
  - intros t s Hs Hn. apply S5; assumption.
Qed.
End Branch.

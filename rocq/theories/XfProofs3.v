From Coq Require Import Reals Lra.
From Coquelicot Require Import Complex.
From Verif Require Import Prelude StrModel RecModel RecSpec XfModel YbSpec XfSpec XfProofs XfProofs2.
Open Scope R_scope.

Lemma buses_ok_app bmap bs d : buses_ok bmap bs -> buses_ok bmap (bs ++ [d])%list.
Proof.
  intros H o l F. destruct (H o l F) as (x & a & w & E & A & W). exists x, a, w. repeat split; auto.
  rewrite nth_error_app1; [exact E|]. apply nth_error_Some. congruence.
Qed.
Lemma go_on_loop atof names bmap sbase v fuel st s line st0 s0 :
  test_end line = true -> check_comment line = false -> xf_record atof names bmap sbase v line st0 s0 = go_on st s ->
  xf_loop atof names bmap sbase (S fuel) v line st0 s0 = (let (l, st1) := next_line st in xf_loop atof names bmap sbase fuel v l st1 s).
Proof. intros H1 H2 H3. cbn [xf_loop]. rewrite H1, H2, H3. unfold go_on. destruct (next_line st). reflexivity. Qed.

Lemma xf_loop_reads atof names bmap sbase v (base : list str -> list str -> Prop)
    (P : list str -> list str -> option R * option R -> option R * option R -> option R * option R -> Prop) ls rs :
  (forall r1 r2, base r1 r2 -> P r1 r2 (star_values atof sbase r2 1) (star_values atof sbase r2 2) (star_values atof sbase r2 3)) ->
  xreads names ls rs -> Forall (readable base v names bmap) rs ->
  forall fuel s term rest, test_end term = false -> (length ls < fuel)%nat -> buses_ok bmap (x_bus s) -> map_ok (x_map s) (length (x_br s)) ->
  exists s', (let (l, st) := next_line (ls ++ term :: rest)%list in xf_loop atof names bmap sbase fuel v l st s) = Some (Ok (s', rest)) /\
    all_of (one atof names bmap sbase P v) rs s s'.
Proof.
  intro HP. induction 1 as [|l ls rs [C1 C2] _ IH|l1 l2 l3 l4 ls r1 r2 r3 r4 rs R1 B3 I2 I3 I4 _ IH|l1 l2 l3 l4 l5 ls r1 r2 r3 r4 r5 rs k R1 B3 Hk I2 I3 I4 I5 _ IH];
    intros Hf fuel s term rest Ht Hl Hb Hm.
  - destruct fuel; [cbn in Hl; lia|]. exists s. cbn [app next_line xf_loop]. rewrite Ht. split; [reflexivity|constructor].
  - destruct fuel; [cbn in Hl; lia|]. cbn [length] in Hl. cbn [app next_line xf_loop]. rewrite C1, C2.
    apply (IH Hf fuel s term rest); auto. lia.
  - inversion Hf as [|x xs Hx Hxs]; subst. destruct Hx as (Hr & Y1 & Y2).
    destruct fuel; [cbn in Hl; lia|]. cbn [length] in Hl. pose proof R1 as (T1 & T2 & _).
    destruct (@record_two atof names bmap sbase v l1 l2 l3 l4 (ls ++ term :: rest) r1 r2 r3 r4 s R1 B3 I2 I3 I4 Hr Y1 Y2 Hm) as (s1 & E & O & M).
    assert (Hb1 : buses_ok bmap (x_bus s1)).
    { destruct O as (? & ? & ? & _ & _ & _ & Ebus & _). now rewrite Ebus. }
    destruct (IH Hxs fuel s1 term rest Ht ltac:(lia) Hb1 M) as (s2 & E2 & A). exists s2. split; [|econstructor; [exact O|exact A]].
    cbn [app next_line]. rewrite (@go_on_loop atof names bmap sbase v fuel (ls ++ term :: rest) s1 l1 _ s T1 T2 E). exact E2.
  - inversion Hf as [|x xs Hx Hxs]; subst. destruct fuel; [cbn in Hl; lia|]. cbn [length] in Hl. pose proof R1 as (T1 & T2 & S1).
    assert (Q : exists s1, xf_record atof names bmap sbase v l1 (l2 :: l3 :: l4 :: l5 :: ls ++ term :: rest) s = go_on (ls ++ term :: rest) s1 /\
        one_three atof names bmap P v r1 r2 r3 r4 r5 s s1).
    { destruct Hx as [[H0 Hc]|[Hr Hcb]].
      - exists s. split; [|left; auto]. unfold xf_record. rewrite S1. cbn [obind].
        destruct (Hc 0%nat) as [o1 Q1]; [lia|]. destruct (Hc 1%nat) as [o2 Q2]; [lia|].
        rewrite (bus_field_ok Q1), (bus_field_ok Q2), (bus_field_ok B3). cbn [obind]. apply Z.eqb_neq in Hk. rewrite Hk.
        unfold three. rewrite (read_inner _ _ _ I2), (code_int H0). cbn [obind]. rewrite orb_true_r. reflexivity.
      - apply (@record_three atof names bmap sbase v P l1 l2 l3 l4 l5 (ls ++ term :: rest) r1 r2 r3 r4 r5 k s); auto. }
    destruct Q as (s1 & E & O).
    assert (Hb1 : buses_ok bmap (x_bus s1) /\ map_ok (x_map s1) (length (x_br s1))).
    { destruct O as [[_ ->]|O]; [auto|].
      destruct O as (? & ? & ? & ? & ? & ? & bus & ? & ? & ? & ? & ? & ? & _ & _ & _ & _ & _ & _ & Em & Eb & _ & _ & _ & _ & _ & _ & _ & _ & Er & _).
      rewrite Em, Eb, Er. split; [now apply buses_ok_app|]. rewrite app_length. intros p l Hp. specialize (Hm p l Hp). lia. }
    destruct Hb1 as [Hb1 M].
    destruct (IH Hxs fuel s1 term rest Ht ltac:(lia) Hb1 M) as (s2 & E2 & A). exists s2. split; [|econstructor; [exact O|exact A]].
    cbn [app next_line]. rewrite (@go_on_loop atof names bmap sbase v fuel (ls ++ term :: rest) s1 l1 _ s T1 T2 E). exact E2.
Qed.

(** ** Elements of a pair *)
Definition pos (m : list ((Z * Z) * nat)) (a c : Z) : option nat := match pfind m (a, c) with Some l => Some l | None => pfind m (c, a) end.
Definition at_pos (brs : list xbranch) (l : option nat) : list entries :=
  match l with Some l => match nth_error brs l with Some b => xb_elems b | None => [] end | None => [] end.
Lemma elements_pos s a c : elements s a c = at_pos (x_br s) (pos (x_map s) a c).
Proof. unfold elements, pos, at_pos. destruct (pfind (x_map s) (a, c)); [reflexivity|]. now destruct (pfind (x_map s) (c, a)). Qed.
Lemma pos_of m a c p l : map_one m -> pfind m p = Some l -> p = (a, c) \/ p = (c, a) -> pos m a c = Some l.
Proof.
  intros [M _] H [->| ->]; unfold pos; [now rewrite H|]. destruct (pfind m (a, c)) as [l'|] eqn:E; [|exact H].
  destruct (Z.eq_dec c a) as [->|N]; [congruence|]. rewrite (M _ _ _ H N) in E. discriminate.
Qed.
Lemma pos_key m a c l : pos m a c = Some l -> exists q, pfind m q = Some l /\ (q = (a, c) \/ q = (c, a)).
Proof. unfold pos. destruct (pfind m (a, c)) eqn:E; intro H; [inversion H; subst; eauto|eauto]. Qed.
Lemma same_pair o1 o2 a c : same_ends (o1, o2) (a, c) = true <-> (o1, o2) = (a, c) \/ (o1, o2) = (c, a).
Proof.
  unfold same_ends. cbn [fst snd]. rewrite orb_true_iff, !andb_true_iff, !Z.eqb_eq. split; (intros [H|H]; [left|right]);
    try (destruct H; now subst); inversion H; auto.
Qed.
Lemma ends_field names r o1 o2 : bus_field names r 0 o1 -> bus_field names r 1 o2 -> ends_of names r = Some (o1, o2).
Proof. intros (t1 & E1 & B1) (t2 & E2 & B2). destruct r as [|x [|y r]]; try discriminate. cbn in *. inversion E1; inversion E2; subst. now rewrite B1, B2. Qed.

Lemma elements_two atof names sbase v r1 r2 r3 r4 s s' a c : one_two atof names sbase v r1 r2 r3 r4 s s' ->
  map_one (x_map s) -> map_ok (x_map s) (length (x_br s)) ->
  map_one (x_map s') /\ map_ok (x_map s') (length (x_br s')) /\
  exists e, two_element atof sbase v r1 r2 r3 r4 e /\
    elements s' a c = (elements s a c ++ if joins2 names a c (X2 r1 r2 r3 r4) then [e] else [])%list.
Proof.
  intros (o1 & o2 & e & B1 & B2 & He & _ & _ & H) Mo Mk. unfold joins2. rewrite (ends_field B1 B2). rewrite !elements_pos.
  destruct H as [(p & l & b & Hp & Hl & Hb & Er & Em)|(P1 & P2 & own & Er & _ & _ & Em)]; rewrite Er, Em.
  - split; [exact Mo|]. split; [rewrite upd_length; exact Mk|]. exists e. split; [exact He|].
    assert (Lb : (l < length (x_br s))%nat) by (eapply Mk; eauto).
    destruct (same_ends (o1, o2) (a, c)) eqn:S.
    + apply same_pair in S. assert (Hp' : p = (a, c) \/ p = (c, a)).
      { destruct Hp as [->|[-> _]]; [exact S|]. destruct S as [S|S]; inversion S; subst; auto. }
      rewrite (pos_of Mo Hl Hp'). cbn [at_pos]. rewrite nth_error_upd_same by exact Lb. rewrite Hb. reflexivity.
    + rewrite app_nil_r. destruct (pos (x_map s) a c) as [l'|] eqn:P; [|reflexivity]. cbn [at_pos].
      rewrite nth_error_upd_other; [reflexivity|]. intro E. subst l'. destruct (pos_key _ _ _ P) as (q & Q & Hq).
      pose proof (proj2 Mo _ _ _ Hl Q) as Epq. subst q. assert (same_ends (o1, o2) (a, c) = true); [|congruence].
      apply same_pair. destruct Hp as [->|[-> _]]; [exact Hq|]. destruct Hq as [Hq|Hq]; inversion Hq; subst; auto.
  - split; [|split].
    + split.
      * intros a' c' l. rewrite !pfind_app. cbn [fst snd]. intros H N. destruct (pfind (x_map s) (a', c')) as [l'|] eqn:E.
        -- inversion H; subst l'. rewrite (proj1 Mo _ _ _ E N). destruct ((o1 =? c')%Z && (o2 =? a')%Z) eqn:X; [|reflexivity].
           apply andb_true_iff in X. rewrite !Z.eqb_eq in X. destruct X; subst. congruence.
        -- destruct ((o1 =? a')%Z && (o2 =? c')%Z) eqn:X; [|discriminate]. apply andb_true_iff in X. rewrite !Z.eqb_eq in X. destruct X; subst.
           rewrite P2. replace ((a' =? c')%Z && (c' =? a')%Z) with false; [reflexivity|]. symmetry. apply andb_false_iff. left. now apply Z.eqb_neq.
      * intros p q l. rewrite !pfind_app. intros H1 H2. destruct p as [p1 p2], q as [q1 q2]. cbn [fst snd] in *.
        destruct (pfind (x_map s) (p1, p2)) eqn:E1; destruct (pfind (x_map s) (q1, q2)) eqn:E2.
        -- inversion H1; inversion H2; subst. eapply (proj2 Mo); eauto.
        -- exfalso. inversion H1; subst. specialize (Mk _ _ E1). destruct (_ && _)%bool; inversion H2. lia.
        -- exfalso. inversion H2; subst. specialize (Mk _ _ E2). destruct (_ && _)%bool; inversion H1. lia.
        -- destruct ((o1 =? p1)%Z && (o2 =? p2)%Z) eqn:X; [|discriminate]. destruct ((o1 =? q1)%Z && (o2 =? q2)%Z) eqn:Y; [|discriminate].
           apply andb_true_iff in X. apply andb_true_iff in Y. rewrite !Z.eqb_eq in X, Y. destruct X, Y; subst. reflexivity.
    + rewrite app_length. cbn [length]. intros p l. rewrite pfind_app. intro H. destruct (pfind (x_map s) p) eqn:E; [inversion H; subst; specialize (Mk _ _ E); lia|].
      destruct (_ && _)%bool; inversion H. lia.
    + exists e. split; [exact He|]. destruct (same_ends (o1, o2) (a, c)) eqn:S.
      * apply same_pair in S. assert (N : pos (x_map s) a c = None).
        { unfold pos. destruct S as [S|S]; inversion S; subst; now rewrite P1, P2. }
        rewrite N. cbn [at_pos app]. assert (N' : pos (x_map s ++ [((o1, o2), length (x_br s))]) a c = Some (length (x_br s))).
        { unfold pos. rewrite !pfind_app. cbn [fst snd]. destruct S as [S|S]; inversion S; subst; rewrite P1, P2.
          - now rewrite !Z.eqb_refl.
          - rewrite !Z.eqb_refl. destruct ((c =? a)%Z && (a =? c)%Z); reflexivity. }
        rewrite N'. cbn [at_pos]. rewrite nth_error_app2 by lia. rewrite Nat.sub_diag. reflexivity.
      * rewrite app_nil_r.
        assert (S1 : ((o1 =? a)%Z && (o2 =? c)%Z) = false /\ ((o1 =? c)%Z && (o2 =? a)%Z) = false).
        { unfold same_ends in S. cbn [fst snd] in S. apply orb_false_iff in S. exact S. }
        destruct S1 as [S1 S2]. unfold pos. rewrite !pfind_app. cbn [fst snd]. rewrite S1, S2.
        destruct (pfind (x_map s) (a, c)) as [l|] eqn:E1; [|destruct (pfind (x_map s) (c, a)) as [l|] eqn:E2]; cbn [at_pos]; try reflexivity.
        -- rewrite nth_error_app1; [reflexivity|]. eapply Mk; eauto.
        -- rewrite nth_error_app1; [reflexivity|]. eapply Mk; eauto.
Qed.

Lemma elements_three atof names bmap P v r1 r2 r3 r4 r5 s s' a c : one_three atof names bmap P v r1 r2 r3 r4 r5 s s' ->
  map_one (x_map s) -> map_ok (x_map s) (length (x_br s)) ->
  map_one (x_map s') /\ map_ok (x_map s') (length (x_br s')) /\ elements s' a c = elements s a c.
Proof.
  intros [[_ ->]|O] Mo Mk; [auto|].
  destruct O as (? & ? & ? & ? & ? & ? & bus & ? & ? & ? & ? & ? & ? & _ & _ & _ & _ & _ & _ & Em & Eb & _ & _ & _ & _ & _ & _ & _ & _ & Er & _).
  rewrite !elements_pos, Em, Er. split; [exact Mo|]. split.
  - rewrite app_length. intros p l Hp. specialize (Mk p l Hp). lia.
  - unfold at_pos. destruct (pos (x_map s) a c) as [l|] eqn:Ps; [|reflexivity]. destruct (pos_key _ _ _ Ps) as (q & Q & _).
    rewrite nth_error_app1; [reflexivity|]. eapply Mk; eauto.
Qed.

Definition is_element (atof : str -> R) (sbase : R) (v : version) (x : xrec) (e : entries) : Prop :=
  match x with X2 r1 r2 r3 r4 => two_element atof sbase v r1 r2 r3 r4 e | X3 _ _ _ _ _ => False end.
Lemma elements_all atof names bmap sbase P v rs s s' a c : all_of (one atof names bmap sbase P v) rs s s' ->
  map_one (x_map s) -> map_ok (x_map s) (length (x_br s)) ->
  exists es, elements s' a c = (elements s a c ++ es)%list /\ Forall2 (is_element atof sbase v) (filter (joins2 names a c) rs) es.
Proof.
  induction 1 as [s|x rs s s1 s2 Px _ IH]; intros Mo Mk; [exists []; rewrite app_nil_r; split; [reflexivity|constructor]|].
  destruct x as [r1 r2 r3 r4|r1 r2 r3 r4 r5]; cbn [one] in Px.
  - destruct (elements_two a c Px Mo Mk) as (Mo1 & Mk1 & e & He & E). destruct (IH Mo1 Mk1) as (es & E2 & F).
    rewrite E2, E, <- app_assoc. eexists. split; [reflexivity|]. cbn [filter]. destruct (joins2 names a c (X2 r1 r2 r3 r4)); [|exact F].
    constructor; [exact He|exact F].
  - destruct (elements_three a c Px Mo Mk) as (Mo1 & Mk1 & E). destruct (IH Mo1 Mk1) as (es & E2 & F).
    rewrite E2, E. eexists. split; [reflexivity|]. exact F.
Qed.

(** ** Facts about every element of a two-winding record *)
Lemma ok_inj (A : Type) (a b : A) : Ok a = Ok b -> a = b.
Proof. intro H. now inversion H. Qed.
Lemma two_elem_absent atof sbase v r1 r2 r3 r4 e name : readable2 v r1 r2 r3 r4 -> two_elem atof sbase v r1 r2 r3 r4 = Ok e ->
  filter (named name) line1_items = [] -> filter (named name) (line3_items v) = [] -> existsb (fun m => String.eqb m name) mid_names = false ->
  xget e name = None.
Proof.
  intros Hr He F1 F3 M. pose proof Hr as (H1 & I1 & _).
  destruct (@nth_error_some _ r1 4) as [t4 E4]; [lia|]. destruct (I1 4%nat ["TRANSFORMER_CW"%string] t4 eq_refl E4) as [cw Ecw].
  assert (Hcw : code r1 4 cw) by (exists t4; auto).
  destruct (@two_elem_form atof sbase v r1 r2 r3 r4 cw Hr Hcw) as (t & tag & l1 & l3 & Et & Eg & E1 & E3 & E). cbv zeta in E.
  rewrite E in He. apply ok_inj in He. rewrite <- He. destruct (@mids_none (val atof r2 2) (fst (windvs atof cw r3 r4)) (snd (windvs atof cw r3 r4)) (val atof r2 0) (val atof r2 1)
    (to_case sbase (val atof r2 0) (val atof r2 2) (snd (windvs atof cw r3 r4))) (to_case sbase (val atof r2 1) (val atof r2 2) (snd (windvs atof cw r3 r4))) name M) as [K Mn].
  rewrite e_get by exact K. rewrite (@l1_none _ _ _ E1 _ F1), (@l3_none _ _ _ _ E3 _ F3), Mn. reflexivity.
Qed.
Lemma two_elem_mid atof sbase v r1 r2 r3 r4 e cw : readable2 v r1 r2 r3 r4 -> code r1 4 cw -> two_elem atof sbase v r1 r2 r3 r4 = Ok e ->
  let w := windvs atof cw r3 r4 in
  xget e "BRANCH_TAP"%string = Some (XR (fdiv (fst w) (snd w))) /\
  xget e "BRANCH_R"%string = Some (XR (to_case sbase (val atof r2 0) (val atof r2 2) (snd w))) /\
  xget e "BRANCH_X"%string = Some (XR (to_case sbase (val atof r2 1) (val atof r2 2) (snd w))).
Proof.
  intros Hr Hcw He w.
  destruct (@two_elem_form atof sbase v r1 r2 r3 r4 cw Hr Hcw) as (t & tag & l1 & l3 & Et & Eg & E1 & E3 & E). cbv zeta in E.
  rewrite E in He. apply ok_inj in He. rewrite <- He. fold w.
  split; [|split]; apply (@mid_get atof r1 tag l1 l3 E1); reflexivity.
Qed.

(** Boolean checks for examples. *)
Definition ints_okb (layout : list field) (r : list str) : bool :=
  forallb (fun cf => match snd cf with FInt _ => match nth_error r (fst cf) with Some t => is_ok (atoi t) | None => true end | _ => true end) (columns_of layout).
Lemma ints_okb_ok layout r : ints_okb layout r = true -> ints_ok layout r.
Proof.
  intros H c ns t Hc Ht. unfold ints_okb in H. rewrite forallb_forall in H. specialize (H _ (@columns_of_in _ _ _ Hc)). cbn [snd fst] in H.
  rewrite Ht in H. destruct (atoi t); try discriminate H. eauto.
Qed.

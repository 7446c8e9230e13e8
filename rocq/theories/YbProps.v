(** C35 (the admittance matrix obeys Kirchhoff's law with the two-port laws of the elements) and C47 (flows). *)
From Verif Require Import Prelude YbModel YbSpec YbProofs.
From Coq Require Import Reals Lra.
From Coquelicot Require Import Complex.
Open Scope R_scope.
Open Scope C_scope.

(** For every network loaded from data and every voltage vector, row [k] of the matrix times the vector is the current that flows from bus [k]
    into the lines, transformers and shunts connected to it. *)
Theorem C35_admittance_law_partial : forall s n g, s <> 0%R -> wf_grid g ->
  Forall simple_node (gnode g) -> (forall x l, In x (garc g) -> In l (ael x) -> simple_line l) -> loaded s n g ->
  forall k nd V j, nth_error (gnode g) k = Some nd -> niso nd = false ->
  (out_of g s V k j <-> y_row n V k = j).
Proof. intros s n g Hs W Hn Hl L k nd V j Hk Hi; eapply rep_law; eauto. apply loaded_rep; auto. Qed.
Print Assumptions C35_admittance_law_partial.

(** setLineStatus answers whether the branch has an element with the tag, and its status is then what was asked for; other tags keep theirs. *)
Theorem C35_set_line_status : forall b t s, let (b', found) := setLineStatus b t s in
  (found = true <-> exists e, In e (yel b) /\ etag e = t) /\ (found = true -> getLineStatus b' t = s) /\ (found = false -> b' = b) /\
  (forall t', t' <> t -> getLineStatus b' t' = getLineStatus b t').
Proof.
  intros b t s. unfold setLineStatus, getLineStatus. destruct b as [b1 b2 act l]. cbn [yel yb1 yb2 yact].
  assert (K : let (l', f) := set_stat l t s in (f = true <-> exists e, In e l /\ etag e = t) /\ (f = true -> match find_tag l' t with Some e => estat e | None => false end = s) /\
    (f = false -> l' = l) /\ (forall t', t' <> t -> match find_tag l' t' with Some e => estat e | None => false end = match find_tag l t' with Some e => estat e | None => false end)).
  { induction l as [|e l IH]; cbn.
    - repeat split; try discriminate; auto. intros (e & [] & _).
    - destruct (String.eqb_spec t (etag e)) as [E|E]; cbn.
      + rewrite (proj2 (String.eqb_eq t (etag e)) E). repeat split; auto; try discriminate; [eauto|]. intros t' N. destruct (String.eqb_spec t' (etag e)); congruence.
      + destruct (set_stat l t s) as [l' f]. destruct IH as (I1 & I2 & I3 & I4). cbn. repeat split.
        * intros F. apply I1 in F as (x & X & Y). eauto.
        * intros (x & [->|X] & Y); [congruence|]. apply I1. eauto.
        * intros F. destruct (String.eqb_spec t (etag e)); [congruence|]. auto.
        * intros F. f_equal. auto.
        * intros t' N. destruct (String.eqb t' (etag e)); auto. }
  destruct (set_stat l t s) as [l' f]. cbn. destruct K as (I1 & I2 & I3 & I4). repeat split; auto; try apply I1. intros F. f_equal. auto.
Qed.
Print Assumptions C35_set_line_status.

(** The same after any history of setLineStatus calls that switches on only elements of branches with something in service at loading. *)
Theorem C35_after_switching : forall s n g ops, s <> 0%R -> Forall simple_node (gnode g) -> loaded s n g -> Forall (allowed g) ops ->
  let g' := fold_left step_grid ops g in let n' := fold_left step_net ops n in
  wf_grid g' -> (forall x l, In x (garc g') -> In l (ael x) -> simple_line l) ->
  forall k nd V j, nth_error (gnode g') k = Some nd -> niso nd = false ->
  (out_of g' s V k j <-> y_row n' V k = j).
Proof.
  intros s n g ops Hs Hn L Ha g' n' W Hl k nd V j Hk Hi. eapply rep_law; eauto.
  pose proof (loaded_rep Hs Hn L) as H.
  apply (run_rep (s := s) (ops := ops) H); auto.
  - intros i b E; eauto.
  - intros i x l E1 E2 E3; eapply active_rep; eauto.
Qed.
Print Assumptions C35_after_switching.

(** Isolated buses have no row, column or diagonal entry. *)
Theorem C35_isolated : forall s n g k nd, s <> 0%R -> Forall simple_node (gnode g) -> loaded s n g -> nth_error (gnode g) k = Some nd -> niso nd = true ->
  diag_value n k = None /\ (forall b, In b (nbr n) -> yb1 b = k \/ yb2 b = k -> forward_value n b = None /\ reverse_value n b = None).
Proof.
  intros s n g k nd Hs Hn L Hk Hi. pose proof (loaded_rep Hs Hn L) as H.
  assert (I : isolated n k = true) by (rewrite (isolated_rep k H Hk); auto).
  split.
  - unfold diag_value, isolated in *. destruct (nth_error (nbus n) k) as [u |]; auto. rewrite I; auto.
  - intros b _ [<- | <-]; unfold forward_value, reverse_value; rewrite I; cbn; rewrite ?andb_false_r; auto.
Qed.
Print Assumptions C35_isolated.

(** Without phase shifters the matrix is symmetric. *)
Theorem C35_symmetric : forall k1 k2 ds ls b, Forall2 describes ds ls -> load_branch k1 k2 ds = Ok b -> (forall l, In l ls -> ldeg l = 0%R) ->
  forall n, forward_value n b = reverse_value n b.
Proof.
  intros k1 k2 ds ls b Hd Hl H0 n. rewrite (load_branch_ok k1 k2 Hd) in Hl; injection Hl as <-.
  unfold forward_value, reverse_value; cbn [yb1 yb2 yact].
  assert (E : yfrwd (Yb k1 k2 (existsb lserv ls) (map elem_of ls)) = yrvrs (Yb k1 k2 (existsb lserv ls) (map elem_of ls))).
  { unfold yfrwd, yrvrs; cbn [yel]; clear Hd. induction ls as [| l ls IH]; cbn [map]; auto.
    rewrite !sumC_cons, IH by (intros; apply H0; right; auto). rewrite (yfr_sym l) by (apply H0; left; auto). auto. }
  rewrite E; reflexivity.
Qed.
Print Assumptions C35_symmetric.

(** *** A concrete network: a phase shifting transformer and a line in parallel, a shunt *)
Definition ln1 : line := Line "1"%string 0 1 0 0 0 0 0 0 0 true false.
Definition tr1 : line := Line "T1"%string (1/10) 1 (1/5) (11/10) 30 0 (1/20) 0 0 true false.
Definition dat (l : line) : edata := Ed (Some (lx l)) (Some (lr l)) (Some (ldeg l)) (Some (ltap l)) (Some (ltag l)) (Some (if lserv l then 1 else 0)%Z) (Some (lrev l))
   (Some (lb l)) (Some (lg1 l)) (Some (lb1 l)) (Some (lg2 l)) (Some (lb2 l)).
Lemma dat_ok : forall l, describes (dat l) l.
Proof. intro l; unfold describes, dat; cbn; tauto. Qed.
Lemma dats_ok : forall ls, Forall2 describes (map dat ls) ls.
Proof. induction ls; cbn; constructor; auto using dat_ok. Qed.
Definition ndat (s : R) (n : nodeT) : bdata :=
  Bd (Some s) (fun i => option_map sg (nth_error (nfix n) i)) (fun i => option_map sb (nth_error (nfix n) i)) (nsw n) (Some (if niso n then 4 else 1)%Z).
Lemma ndat_ok : forall s n, describes_node s (ndat s n) n.
Proof. intros s n; unfold describes_node, ndat; cbn. repeat (split; [auto |]). exists (if niso n then 4 else 1)%Z. split; auto. destruct (niso n); split; auto; discriminate. Qed.
Definition mk_bus (s : R) (n : nodeT) : ybus := match load_bus (ndat s n) with Ok (u, _) => u | _ => Bus false false 0 0 end.
Definition mk_branch (x : arc) : ybranch := Yb (a1 x) (a2 x) (existsb lserv (ael x)) (map elem_of (ael x)).
Definition mk_net (s : R) (g : grid) : ynet := Net (map (mk_bus s) (gnode g)) (map mk_branch (garc g)).
Lemma mk_loaded : forall s g, s <> 0%R -> loaded s (mk_net s g) g.
Proof.
  intros s g Hs; split; cbn.
  - induction (gnode g) as [| n l IH]; cbn; constructor; auto. exists (ndat s n).
    unfold mk_bus. destruct (load_bus (ndat s n)) as [[u r] | |] eqn:E.
    + exists r; split; auto using ndat_ok.
    + unfold load_bus, ndat in E; cbn in E. destruct (Req_EM_T s 0); [easy | discriminate].
    + unfold load_bus, ndat in E; cbn in E. destruct (Req_EM_T s 0); [easy | discriminate].
  - induction (garc g) as [| x l IH]; cbn; constructor; auto. exists (map dat (ael x)); split; [apply dats_ok |].
    rewrite (load_branch_ok _ _ (dats_ok (ael x))). reflexivity.
Qed.
Definition g1 : grid := Grid [Node false [Shunt true 10 20] None; Node false [] None; Node true [] None]
  [Arc 0 1 [tr1; ln1]; Arc 1 2 [Line "1"%string 0 1 0 0 0 0 0 0 0 false false]].
Lemma g1_wf : wf_grid g1.
Proof.
  split; [| split]; cbn.
  - intros x [<- | [<- | []]]; cbn; lia.
  - intros x l [<- | [<- | []]]; cbn; [intros [<- | [<- | []]] | intros [<- | []]]; unfold wf_line, impedance; cbn; intro H; injection H; lra.
  - intros x l k n [<- | [<- | []]]; cbn; [intros [<- | [<- | []]] | intros [<- | []]]; intros E Hn [<- | <-]; cbn in *; auto;
      injection E as <-; discriminate Hn.
Qed.
Lemma g1_simple : Forall simple_node (gnode g1) /\ (forall x l, In x (garc g1) -> In l (ael x) -> simple_line l).
Proof.
  split.
  - apply Forall_cons; [right; split; auto; eexists; split; reflexivity |].
    apply Forall_cons; [left; reflexivity |]. apply Forall_cons; [left; reflexivity | constructor].
  - intros x l [<- | [<- | []]]; cbn; [intros [<- | [<- | []]] | intros [<- | []]]; left; reflexivity.
Qed.
Example C35_nonvacuous : wf_grid g1 /\ loaded 100 (mk_net 100 g1) g1 /\
  (exists n, nth_error (gnode g1) 0 = Some n /\ niso n = false) /\
  Forall (allowed g1) [(0%nat, "1"%string, false); (0%nat, "T1"%string, false); (0%nat, "1"%string, true)] /\
  (fold_left step_grid [(0%nat, "1"%string, false); (0%nat, "T1"%string, false)] g1) <> g1.
Proof.
  split; [exact g1_wf | split; [apply mk_loaded; lra | split; [eexists; split; reflexivity | split]]].
  - repeat constructor; try discriminate. cbn. intros _. exists (Arc 0 1 [tr1; ln1]), ln1. cbn; auto.
  - cbn. intro H; injection H; discriminate.
Qed.

(** *** Where the law fails *)
(** Switching on the only element of a branch that was loaded out of service: the entries between the two buses stay missing. *)
Definition off1 : line := Line "1"%string 0 1 0 0 0 0 0 0 0 false false.
Definition g2 : grid := Grid [Node false [] None; Node false [] None] [Arc 0 1 [off1]].
Theorem C35_switch_on_refuted : exists s n g o V k nd j, s <> 0%R /\ loaded s n g /\ Forall simple_node (gnode g) /\ wf_grid (step_grid g o) /\
  (forall x l, In x (garc (step_grid g o)) -> In l (ael x) -> simple_line l) /\
  nth_error (gnode (step_grid g o)) k = Some nd /\ niso nd = false /\ out_of (step_grid g o) s V k j /\ y_row (step_net n o) V k <> j.
Proof.
  exists 100%R, (mk_net 100 g2), g2, (0%nat, "1"%string, true), (fun k => match k with O => RtoC 0 | _ => RtoC 1 end), 0%nat, (Node false [] None), (0%R, 1%R).
  split; [lra |]. split; [apply mk_loaded; lra |]. split; [repeat constructor; left; auto |].
  split; [| split; [| split; [| split; [| split]]]].
  - split; [| split]; cbn.
    + intros x [<- | []]; cbn; lia.
    + intros x l [<- | []]; cbn; intros [<- | []]; unfold wf_line, impedance; cbn; intro H; injection H; lra.
    + intros x l k n [<- | []]; cbn; intros [<- | []] E Hn [<- | <-]; cbn in *; injection E as <-; discriminate Hn.
  - intros x l [<- | []]; cbn; intros [<- | []]; left; reflexivity.
  - reflexivity.
  - reflexivity.
  - exists (Node false [] None), (0%R, 1%R). split; [reflexivity | split].
    + replace ((0%R, 1%R) : C) with ((0%R, 1%R) + RtoC 0) by (apply Cext; cbn; ring).
      eapply if_one; [| constructor | reflexivity | cbn; lia].
      cbn. replace ((0%R, 1%R) : C) with ((0%R, 1%R) + RtoC 0) by (apply Cext; cbn; ring).
      apply bc_cons with (j2 := (0%R, (-1)%R)) (k2 := RtoC 0); [| constructor].
      unfold at_branch, element; cbn. exists (0%R, 1%R), (0%R, (-1)%R). split; [| split; apply Cext; cbn; ring].
      exists (RtoC 0), (0%R, 1%R). unfold turns, impedance; cbn. destruct (Req_EM_T 0 0); [| easy].
      repeat split; apply Cext; cbn; field.
    + apply Cext; cbn; field.
  - unfold y_row. cbn [step_net mk_net nbr nbus map g2 garc nth_error]. cbn [fst setLineStatus mk_branch upd map fold_right yb1 yb2 a1 a2 Nat.eqb].
    intro H. apply (f_equal snd) in H. revert H. unfold forward_value, reverse_value. cbn. lra.
Qed.
Print Assumptions C35_switch_on_refuted.

(** A second fixed shunt is not read, an out of service fixed shunt is counted, a switched shunt replaces the susceptance of a fixed one. *)
Definition contribution (u : ybus) : C := if ysh u then (ygs u, ybs u) else RtoC 0.
Theorem C35_shunts_refuted : forall nd, In nd [Node false [Shunt true 1 2; Shunt true 3 4] None; Node false [Shunt false 1 2] None; Node false [Shunt true 0 2] (Some 1%R)] ->
  exists d u r, describes_node 1 d nd /\ load_bus d = Ok (u, r) /\ contribution u <> shunt_total nd / RtoC 1.
Proof.
  assert (Aux : forall nd, contribution (mk_bus 1 nd) <> shunt_total nd / RtoC 1 ->
    exists d u r, describes_node 1 d nd /\ load_bus d = Ok (u, r) /\ contribution u <> shunt_total nd / RtoC 1).
  { intros nd H. exists (ndat 1 nd). unfold mk_bus in H. destruct (load_bus (ndat 1 nd)) as [[u r] | |] eqn:E.
    - exists u, r; split; [apply ndat_ok | split; auto].
    - exfalso. unfold load_bus, ndat in E; cbn in E. destruct (Req_EM_T 1 0); [lra | discriminate].
    - exfalso. unfold load_bus, ndat in E; cbn in E. destruct (Req_EM_T 1 0); [lra | discriminate]. }
  intros nd [<- | [<- | [<- | []]]]; apply Aux; unfold mk_bus, load_bus, ndat; cbn; destruct (Req_EM_T 1 0); try lra;
    intro H; apply (f_equal snd) in H; revert H; unfold contribution, shunt_total; cbn; intro H; field_simplify in H; lra.
Qed.
Print Assumptions C35_shunts_refuted.

(** The end shunts of a record stored with its buses exchanged are put at the wrong ends. *)
Definition rev1 : line := Line "1"%string 0 1 0 0 0 0 1 0 0 true true.
Theorem C35_reversed_shunts_refuted : exists l ds b v1 v2 j1 j2, describes ds l /\ load_branch 0 1 [ds] = Ok b /\ wf_line l /\
  at_branch l v1 v2 j1 j2 /\ j1 <> (- getAdmittance b - getTransformer b 0 + getShunt b 0) * v1 + yfrwd b * v2.
Proof.
  exists rev1, (dat rev1), (Yb 0 1 true [elem_of rev1]), (RtoC 1), (RtoC 1), (RtoC 0), (0%R, 1%R).
  split; [apply dat_ok | split; [| split; [| split]]].
  - rewrite (@load_branch_ok 0 1 [dat rev1] [rev1]); [reflexivity | repeat constructor; tauto].
  - unfold wf_line, impedance; cbn; intro H; injection H; lra.
  - unfold at_branch, element; cbn. exists (RtoC 0), (RtoC 0). split; [| split; apply Cext; cbn; ring].
    exists (RtoC 1), (RtoC 0). unfold turns, impedance; cbn. destruct (Req_EM_T 0 0); [| easy]. repeat split; apply Cext; cbn; field.
  - intro H. apply (f_equal snd) in H; revert H. unfold getAdmittance, getTransformer, getShunt, yfrwd, yfr, elem_of; cbn.
    destruct (Req_EM_T 0 0); [| easy]. cbn. intro H; field_simplify in H; lra.
Qed.
Print Assumptions C35_reversed_shunts_refuted.

(** A line in service to an isolated bus acts as a line to ground: the other bus keeps its full admittance. *)
Definition g3 : grid := Grid [Node false [] None; Node true [] None] [Arc 0 1 [ln1]].
Theorem C35_isolated_end_refuted : exists n g, loaded 1 n g /\ (exists nd, nth_error (gnode g) 1 = Some nd /\ niso nd = true) /\
  (forall b, In b (nbr n) -> forward_value n b = None /\ reverse_value n b = None) /\ diag_value n 0 = Some (0%R, (-1)%R).
Proof.
  exists (mk_net 1 g3), g3. split; [apply mk_loaded; lra | split; [eexists; split; reflexivity | split]].
  - intros b [<- | []]. unfold forward_value, reverse_value, isolated, mk_net; cbn. unfold mk_bus, load_bus, ndat; cbn. destruct (Req_EM_T 1 0); [lra |]. cbn; auto.
  - unfold diag_value, mk_net; cbn [nbus g3 gnode map nth_error]. unfold mk_bus, load_bus, ndat; cbn [dSbase val obind]. destruct (Req_EM_T 1 0); [lra |].
    cbn. f_equal. unfold ybus_diag; cbn. unfold getAdmittance, getTransformer, getShunt, elem_of; cbn. destruct (Req_EM_T 0 0); [| easy]. cbn.
    apply Cext; cbn; field.
Qed.
Print Assumptions C35_isolated_end_refuted.

(** A status other than 0 and 1 counts as in service for the diagonal but leaves the branch inactive. *)
Theorem C35_status_code_refuted : exists d b, dStat d = Some 2%Z /\ load_branch 0 1 [d] = Ok b /\ getAdmittance b <> 0 /\ forall n, forward_value n b = None.
Proof.
  set (d := Ed (Some 1%R) (Some 0%R) None None (Some "1"%string) (Some 2%Z) None (Some 0%R) (Some 0%R) (Some 0%R) (Some 0%R) (Some 0%R)).
  exists d. eexists. split; [reflexivity | split; [cbn; reflexivity | split]].
  - unfold getAdmittance; cbn. destruct (Req_EM_T 0 0); [| easy]. cbn. intro H; apply (f_equal snd) in H; cbn in H. field_simplify in H. lra.
  - intro n; reflexivity.
Qed.
Print Assumptions C35_status_code_refuted.

(** A branch without reactance stores an uninitialised number. *)
Theorem C35_missing_reactance_refuted : exists d, dR d <> None /\ load_branch 0 1 [d] = UB.
Proof. exists (Ed None (Some 0%R) None None None None None None None None None None). split; [discriminate | reflexivity]. Qed.
Print Assumptions C35_missing_reactance_refuted.

(** ** C47 *)
(** The complex power reported for an element in service without end shunts is the power that enters it at the first bus, and the elements used for
    the other direction give the power that enters at the second bus. *)
Theorem C47_flow_partial : forall k1 k2 ds ls b t l v1 v2 j1 j2 s, Forall2 describes ds ls -> load_branch k1 k2 ds = Ok b ->
  find_line t ls = Some l -> wf_line l -> lserv l = true -> no_end_shunts l -> at_branch l v1 v2 j1 j2 ->
  getComplexPower b t v1 v2 s = v1 * Cconj j1 * RtoC s /\
  v2 * Cconj (fst (getRvrsLineElements b t) * v2 + snd (getRvrsLineElements b t) * v1) * RtoC s = v2 * Cconj j2 * RtoC s.
Proof.
  intros k1 k2 ds ls b t l v1 v2 j1 j2 s Hd Hl Hf Hz Hs (E1 & E2 & E3 & E4) H.
  rewrite (load_branch_ok k1 k2 Hd) in Hl; injection Hl as <-.
  assert (F : find_tag (yel (Yb k1 k2 (existsb lserv ls) (map elem_of ls))) t = Some (elem_of l)) by (cbn [yel]; rewrite find_tag_ok, Hf; reflexivity).
  destruct (@line_elements_law l _ t v1 v2 j1 j2 Hz Hs E1 E2 E3 E4 F H) as [G1 G2].
  unfold getComplexPower. rewrite <- G1, <- G2. auto.
Qed.
Print Assumptions C47_flow_partial.

(** An element with non-negative resistance takes real power, a lossless one passes it on. *)
Theorem C47_passive : forall k1 k2 ds ls b t l v1 v2, Forall2 describes ds ls -> load_branch k1 k2 ds = Ok b ->
  find_line t ls = Some l -> wf_line l -> lserv l = true -> no_end_shunts l ->
  let total := Re (v1 * Cconj (fst (getLineElements b t) * v1 + snd (getLineElements b t) * v2) +
                   v2 * Cconj (fst (getRvrsLineElements b t) * v2 + snd (getRvrsLineElements b t) * v1)) in
  ((0 <= lr l)%R -> (0 <= total)%R) /\ (lr l = 0%R -> total = 0%R).
Proof.
  intros k1 k2 ds ls b t l v1 v2 Hd Hl Hf Hz Hs Hn total.
  rewrite (load_branch_ok k1 k2 Hd) in Hl; injection Hl as <-.
  destruct Hn as (E1 & E2 & E3 & E4).
  assert (Sm : simple_line l) by (right; rewrite E1, E2, E3, E4; auto).
  pose proof (proj2 (@elem_law l 0%nat 1%nat v1 v2 _ _ ltac:(lia) Hz Sm) (conj eq_refl eq_refl)) as H.
  assert (F : find_tag (yel (Yb k1 k2 (existsb lserv ls) (map elem_of ls))) t = Some (elem_of l)) by (cbn [yel]; rewrite find_tag_ok, Hf; reflexivity).
  destruct (@line_elements_law l _ t v1 v2 _ _ Hz Hs E1 E2 E3 E4 F H) as [G1 G2].
  set (b := Yb k1 k2 (existsb lserv ls) (map elem_of ls)) in *.
  assert (T : exists w : C, total = (lr l * ((Re w)^2 + (Im w)^2))%R).
  { unfold total. rewrite <- G1, <- G2. revert H.
    match goal with |- at_branch _ _ _ ?x ?y -> _ => generalize x y end. intros j1 j2 H.
    unfold at_branch, element in H. rewrite Hs, E1, E2, E3, E4 in H. destruct (lrev l).
    - destruct H as (kf & kt & H & -> & ->). apply two_port_loss in H; auto. destruct H as (w & Hw). exists w.
      change (lr l) with (Re (impedance l)). rewrite <- Hw. unfold Re; cbn; ring.
    - destruct H as (kf & kt & H & -> & ->). apply two_port_loss in H; auto. destruct H as (w & Hw). exists w.
      change (lr l) with (Re (impedance l)). rewrite <- Hw. unfold Re; cbn; ring. }
  destruct T as (w & ->). split.
  - intro; apply Rmult_le_pos; auto. apply Rplus_le_le_0_compat; apply pow2_ge_0.
  - intros ->; ring.
Qed.
Print Assumptions C47_passive.
Example C47_nonvacuous : find_line "T1"%string [ln1; tr1] = Some tr1 /\ lserv ln1 = true /\ no_end_shunts ln1 /\ wf_line ln1 /\
  load_branch 0 1 [dat ln1; dat tr1] = Ok (Yb 0 1 true [elem_of ln1; elem_of tr1]).
Proof.
  split; [reflexivity | split; [reflexivity | split; [repeat split | split]]].
  - unfold wf_line, impedance; cbn; intro H; injection H; lra.
  - rewrite (@load_branch_ok 0 1 [dat ln1; dat tr1] [ln1; tr1]); [reflexivity | apply (dats_ok [ln1; tr1])].
Qed.

(** Shunts at the ends of a line are left out. *)
Definition sh1 : line := Line "1"%string 0 1 0 0 0 1 0 0 0 true false.
Theorem C47_end_shunts_refuted : exists l b v1 v2 j1 j2, load_branch 0 1 [dat l] = Ok b /\ wf_line l /\ lserv l = true /\ at_branch l v1 v2 j1 j2 /\
  getComplexPower b (ltag l) v1 v2 1 <> v1 * Cconj j1 * RtoC 1.
Proof.
  exists sh1, (Yb 0 1 true [elem_of sh1]), (RtoC 1), (RtoC 1), (RtoC 1), (RtoC 0).
  split; [rewrite (@load_branch_ok 0 1 [dat sh1] [sh1]); [reflexivity | apply (dats_ok [sh1])] |].
  split; [unfold wf_line, impedance; cbn; intro H; injection H; lra | split; [reflexivity | split]].
  - unfold at_branch, element; cbn. exists (RtoC 0), (RtoC 0). split; [| split; apply Cext; cbn; ring].
    exists (RtoC 1), (RtoC 0). unfold turns, impedance; cbn. destruct (Req_EM_T 0 0); [| easy]. repeat split; apply Cext; cbn; field.
  - intro H. apply (f_equal fst) in H; revert H. unfold getComplexPower, getLineElements, elem_of; cbn.
    destruct (Req_EM_T 0 0); [| easy]. destruct (Ceq_dec (zz (Elem "1" 0 1 0 (0 * PI / 180) 0 1 0 0 0 false true true false)) 0) as [E | E].
    + injection E; lra.
    + cbn. intro H; field_simplify in H; lra.
Qed.
Print Assumptions C47_end_shunts_refuted.

(** An element that is out of service is reported with the flow it would have. *)
Theorem C47_out_of_service_refuted : exists l b v1 v2, load_branch 0 1 [dat l] = Ok b /\ wf_line l /\ no_end_shunts l /\ lserv l = false /\
  (forall j1 j2, at_branch l v1 v2 j1 j2 -> j1 = 0) /\ getComplexPower b (ltag l) v1 v2 1 <> 0.
Proof.
  exists off1, (Yb 0 1 false [elem_of off1]), (RtoC 1), (RtoC 0).
  split; [rewrite (@load_branch_ok 0 1 [dat off1] [off1]); [reflexivity | apply (dats_ok [off1])] |].
  split; [unfold wf_line, impedance; cbn; intro H; injection H; lra | split; [repeat split | split; [reflexivity | split]]].
  - unfold at_branch, element; cbn. tauto.
  - intro H. apply (f_equal snd) in H; revert H. unfold getComplexPower, getLineElements, elem_of; cbn.
    destruct (Req_EM_T 0 0); [| easy]. match goal with |- context [Ceq_dec ?x ?y] => destruct (Ceq_dec x y) as [E | E] end.
    + injection E; lra.
    + cbn. intro H; field_simplify in H; lra.
Qed.
Print Assumptions C47_out_of_service_refuted.

From Coq Require Import Reals Lra.
From Coquelicot Require Import Complex.
From Verif Require Import Prelude StrModel RecModel RecSpec XfModel YbSpec XfSpec.
Open Scope R_scope.

(** ** Entries *)
Lemma xget_app (a b : entries) k : xget (a ++ b)%list k = match xget a k with Some v => Some v | None => xget b k end.
Proof. induction a as [|[k' v] a IH]; cbn [app xget]; [reflexivity|]. destruct (String.eqb k' k); [reflexivity|apply IH]. Qed.
Lemma xget_xadds (l d : entries) k : xget (xadds d l) k = match xget d k with Some w => Some w | None => xget l k end.
Proof.
  revert d. induction l as [|[k' v] l IH]; intro d; cbn [xadds xget]; [now destruct (xget d k)|].
  rewrite IH. unfold xadd. destruct (xget d k') eqn:E.
  - destruct (xget d k) eqn:E2; [reflexivity|]. destruct (String.eqb k' k) eqn:E3; [|reflexivity].
    apply String.eqb_eq in E3. subst. congruence.
  - rewrite xget_app. destruct (xget d k); [reflexivity|]. cbn [xget]. now destruct (String.eqb k' k).
Qed.
Lemma xget_xadds0 (l : entries) k : xget (xadds [] l) k = xget l k.
Proof. apply xget_xadds. Qed.

(** ** Fields *)
Lemma nth_error_some (A : Type) (r : list A) c : (c < length r)%nat -> exists t, nth_error r c = Some t.
Proof. intro H. apply nth_error_Some in H. destruct (nth_error r c); [eauto|contradiction]. Qed.
Lemma num_ok atof r c : (c < length r)%nat -> num atof r c = Ok (val atof r c).
Proof. intro H. destruct (nth_error_some _ H) as [t E]. unfold num, col, val. rewrite E. reflexivity. Qed.
Lemma nums_ok atof r n : forall c, (c + n <= length r)%nat -> nums atof r c n = Ok (map (val atof r) (seq c n)).
Proof.
  induction n as [|n IH]; intros c H; cbn [nums seq map]; [reflexivity|]. rewrite num_ok by lia. cbn [obind]. rewrite IH by lia. reflexivity.
Qed.
Lemma code_int r c z : code r c z -> int_ r c = Ok z.
Proof. intros (t & E & A). unfold int_, col. rewrite E. exact A. Qed.
Lemma code_fun r c z z' : code r c z -> code r c z' -> z = z'.
Proof. intros H H'. apply code_int in H, H'. congruence. Qed.
Lemma bus_field_ok names r c o : bus_field names r c o -> obind (col r c) (get_bus_index (sfind names)) = Ok o.
Proof. intros (t & E & A). unfold col. rewrite E. exact A. Qed.
Lemma bus_field_fun names r c o o' : bus_field names r c o -> bus_field names r c o' -> o = o'.
Proof. intros H H'. apply bus_field_ok in H, H'. congruence. Qed.

Lemma items_ok atof r its : (forall it, In it its -> it_guard it = false -> (it_col it < length r)%nat) ->
  (forall it t, In it its -> it_kind it = KI -> nth_error r (it_col it) = Some t -> exists z, atoi t = Ok z) ->
  exists es, items atof r its = Ok es.
Proof.
  induction its as [|it its IH]; intros H1 H2; cbn [items]; [eauto|].
  destruct IH as [es E]; [intros; apply H1; cbn; auto|intros i u; intros; eapply H2; cbn; eauto|].
  destruct (nth_error r (it_col it)) as [t|] eqn:Et.
  - destruct (it_kind it) eqn:K.
    + destruct (H2 it t (or_introl eq_refl) K Et) as [z Z]. rewrite Z. cbn [obind]. rewrite E. cbn. eauto.
    + cbn [obind]. rewrite E. cbn. eauto.
  - destruct (it_guard it) eqn:G; [eauto|]. specialize (H1 it (or_introl eq_refl) G). apply nth_error_None in Et. lia.
Qed.
Definition named (name : string) (it : XfModel.item) : bool := String.eqb (it_name it) name.
Lemma items_none atof r its es name : items atof r its = Ok es ->
  (forall it, In it (filter (named name) its) -> nth_error r (it_col it) = None) -> xget es name = None.
Proof.
  revert es. induction its as [|it its IH]; intros es H Hn; cbn [items] in H; [inversion H; reflexivity|].
  cbn [filter] in Hn. destruct (nth_error r (it_col it)) as [t|] eqn:Et.
  - destruct (match it_kind it with KI => _ | KD => _ end) as [x| |]; try discriminate H. cbn [obind] in H.
    destruct (items atof r its) as [es'| |]; try discriminate H. cbn [obind] in H. inversion H; subst. cbn [xget].
    unfold named in Hn at 1. destruct (String.eqb (it_name it) name) eqn:E.
    + rewrite (Hn it (or_introl eq_refl)) in Et. discriminate.
    + apply IH; [reflexivity|exact Hn].
  - destruct (it_guard it); [|discriminate H]. apply IH; [exact H|]. intros i Hi. apply Hn. destruct (named name it); [now right|exact Hi].
Qed.
Lemma items_get atof r its es name it0 rest t : items atof r its = Ok es -> filter (named name) its = it0 :: rest ->
  nth_error r (it_col it0) = Some t ->
  match it_kind it0 with KI => exists z, atoi t = Ok z /\ xget es name = Some (XI z) | KD => xget es name = Some (XR (Some (atof t))) end.
Proof.
  revert es. induction its as [|it its IH]; intros es H Hf Ht; [discriminate Hf|].
  cbn [filter] in Hf. destruct (named name it) eqn:N.
  - inversion Hf; subst it0. clear Hf. cbn [items] in H. rewrite Ht in H. unfold named in N. destruct (it_kind it).
    + destruct (atoi t) as [z| |]; try discriminate H. cbn [obind] in H. destruct (items atof r its) as [es'| |]; try discriminate H.
      inversion H; subst. cbn [xget]. rewrite N. eauto.
    + cbn [obind] in H. destruct (items atof r its) as [es'| |]; try discriminate H. inversion H; subst. cbn [xget]. rewrite N. reflexivity.
  - cbn [items] in H. unfold named in N. destruct (nth_error r (it_col it)) as [u|].
    + destruct (match it_kind it with KI => _ | KD => _ end) as [x| |]; try discriminate H. cbn [obind] in H.
      destruct (items atof r its) as [es'| |]; try discriminate H. inversion H; subst. cbn [xget]. rewrite N. apply IH; auto.
    + destruct (it_guard it); [|discriminate H]. apply IH; auto.
Qed.

Definition is_int (it : XfModel.item) : bool := match it_kind it with KI => true | KD => false end.
Definition fits (layout : list field) (n : nat) (it : XfModel.item) : bool :=
  ((it_guard it || (it_col it <? n)%nat) && (negb (is_int it) || match nth_error layout (it_col it) with Some (FInt _) => true | _ => false end))%bool.
Lemma items_layout atof r its layout n : forallb (fits layout n) its = true -> (n <= length r)%nat -> ints_ok layout r -> exists es, items atof r its = Ok es.
Proof.
  intros H Hn Hi. rewrite forallb_forall in H. apply items_ok.
  - intros it Hit G. apply H in Hit. unfold fits in Hit. rewrite G in Hit. apply andb_true_iff in Hit. destruct Hit as [K _].
    cbn [orb] in K. apply Nat.ltb_lt in K. lia.
  - intros it t Hit K Et. apply H in Hit. unfold fits, is_int in Hit. rewrite K in Hit. apply andb_true_iff in Hit. destruct Hit as [_ Q].
    cbn [negb orb] in Q. destruct (nth_error layout (it_col it)) as [[|ns|ns]|] eqn:E; try discriminate Q. exact (Hi _ _ _ E Et).
Qed.
Lemma items_present atof r its es it : items atof r its = Ok es -> In it its -> it_guard it = false -> nth_error r (it_col it) <> None.
Proof.
  revert es. induction its as [|i its IH]; intros es H Hin G; [contradiction|]. cbn [items] in H. destruct Hin as [->|Hin].
  - destruct (nth_error r (it_col it)); [discriminate|]. rewrite G in H. discriminate.
  - destruct (nth_error r (it_col i)).
    + destruct (match it_kind i with KI => _ | KD => _ end) as [x| |]; try discriminate H. cbn [obind] in H.
      destruct (items atof r its) as [es'| |] eqn:E; try discriminate H. eapply IH; eauto.
    + destruct (it_guard i); [|discriminate H]. eapply IH; eauto.
Qed.

(** ** The element of a two-winding record *)
Definition mids (sb2 : R) (windv1 windv2 : option R) (r x : R) (rc xc : option R) : entries :=
  [("TRANSFORMER_SBASE1_2", XR (Some sb2)); ("BRANCH_TAP", XR (fdiv windv1 windv2)); ("TRANSFORMER_WINDV1", XR windv1);
   ("TRANSFORMER_WINDV2", XR windv2); ("TRANSFORMER_R1_2", XR (Some r)); ("BRANCH_R", XR rc); ("TRANSFORMER_X1_2", XR (Some x)); ("BRANCH_X", XR xc)]%string.
Definition windvs (atof : str -> R) (cw : Z) (r3 r4 : list str) : option R * option R :=
  if (cw =? 2)%Z then (fdiv (Some (val atof r3 0)) (Some (val atof r3 1)), fdiv (Some (val atof r4 0)) (Some (val atof r4 1)))
  else (Some (val atof r3 0), Some (val atof r4 0)).

Lemma two_elem_form atof sbase v r1 r2 r3 r4 cw : readable2 v r1 r2 r3 r4 -> code r1 4 cw -> exists t tag l1 l3,
  nth_error r1 3 = Some t /\ clean2char t = Ok tag /\ items atof r1 line1_items = Ok l1 /\ items atof r3 (line3_items v) = Ok l3 /\
  let w := windvs atof cw r3 r4 in let sb := val atof r2 2 in
  two_elem atof sbase v r1 r2 r3 r4 = Ok (xadds [] (("BRANCH_CKT"%string, XS tag) :: l1 ++
    mids sb (fst w) (snd w) (val atof r2 0) (val atof r2 1) (to_case sbase (val atof r2 0) sb (snd w)) (to_case sbase (val atof r2 1) sb (snd w)) ++ l3)%list).
Proof.
  intros (H1 & I1 & (t & tag & Et & Eg) & H2 & H3 & I3 & H4) Hcw.
  assert (A1 : exists l1, items atof r1 line1_items = Ok l1).
  { apply (@items_layout atof r1 line1_items layout1 12); [reflexivity|lia|exact I1]. }
  assert (A3 : exists l3, items atof r3 (line3_items v) = Ok l3).
  { apply (@items_layout atof r3 (line3_items v) (layout3 v) (match v with V33 => 16 | V34 => 19 | V35 => 20 end)); [destruct v; reflexivity|lia|exact I3]. }
  destruct A1 as [l1 E1], A3 as [l3 E3]. exists t, tag, l1, l3. repeat split; auto. cbv zeta.
  assert (L3 : (16 <= length r3)%nat) by (destruct v; lia).
  unfold two_elem, col. rewrite Et. cbn [obind]. rewrite Eg. cbn [obind]. rewrite (code_int Hcw). cbn [obind]. rewrite E1. cbn [obind].
  rewrite !num_ok by lia. cbn [obind]. unfold windvs. destruct (cw =? 2)%Z.
  - rewrite ?num_ok by lia. cbn [obind fst snd]. rewrite E3. cbn [obind]. reflexivity.
  - cbn [obind fst snd]. rewrite ?num_ok by lia. cbn [obind]. rewrite E3. cbn [obind]. reflexivity.
Qed.

Definition kind_is (f : field) (it : XfModel.item) : bool := match f, it_kind it with FInt _, KI => true | FDbl _, KD => true | _, _ => false end.
(** The item for the names of a column comes first and from that column. *)
Definition agrees (its : list XfModel.item) (cf : nat * field) : bool :=
  let (c, f) := cf in
  forallb (fun n => match filter (named n) its with
                    | it :: rest => (it_col it =? c)%nat && kind_is f it && (negb (it_guard it) || match rest with [] => true | _ => false end)
                    | [] => false end)%bool
          (match f with FSkip => [] | FInt ns => ns | FDbl ns => ns end).
Definition free (its : list XfModel.item) (n : string) : bool := match filter (named n) its with [] => true | _ => false end.
Definition field_names (f : field) : list string := match f with FSkip => [] | FInt ns => ns | FDbl ns => ns end.
Definition columns_of (l : list field) : list (nat * field) := combine (seq 0 (length l)) l.
Lemma columns_of_in l c f : nth_error l c = Some f -> In (c, f) (columns_of l).
Proof.
  intro H. unfold columns_of. assert (G : forall k, In (k + c, f)%nat (combine (seq k (length l)) l)).
  { revert c H. induction l as [|a l IH]; intros c H k; [destruct c; discriminate|]. cbn [length seq combine]. destruct c as [|c]; cbn in H.
    - inversion H; subst. left. now rewrite Nat.add_0_r.
    - right. replace (k + S c)%nat with (S k + c)%nat by lia. now apply IH. }
  exact (G 0%nat).
Qed.
Definition answer (atof : str -> R) (r : list str) (c : nat) (f : field) (got : option xval) : Prop :=
  match f with
  | FSkip => True
  | FInt _ => match nth_error r c with Some t => exists z, atoi t = Ok z /\ got = Some (XI z) | None => got = None end
  | FDbl _ => match nth_error r c with Some t => got = Some (XR (Some (atof t))) | None => got = None end
  end.
Lemma items_answer atof r its es layout c f name : items atof r its = Ok es -> forallb (agrees its) (columns_of layout) = true ->
  nth_error layout c = Some f -> In name (field_names f) -> answer atof r c f (xget es name).
Proof.
  intros E A Hc Hn. rewrite forallb_forall in A. specialize (A _ (@columns_of_in _ _ _ Hc)). unfold agrees in A. rewrite forallb_forall in A.
  specialize (A name). destruct f as [|ns|ns]; cbn [field_names] in Hn; [contradiction| |]; specialize (A Hn);
    destruct (filter (named name) its) as [|it rest] eqn:F; try discriminate A;
    apply andb_true_iff in A; destruct A as [A G]; apply andb_true_iff in A; destruct A as [Ac K]; apply Nat.eqb_eq in Ac; subst c;
    unfold kind_is in K; unfold answer; destruct (nth_error r (it_col it)) as [t|] eqn:Et.
  1,3: pose proof (items_get _ _ _ _ E F Et) as Q; destruct (it_kind it); try discriminate K; exact Q.
  all: apply (items_none _ _ _ _ E); rewrite F; destruct (it_guard it) eqn:Gd;
    [destruct rest; [|discriminate G]; intros i [<-|[]]; exact Et
    |exfalso; refine (@items_present atof r its es it E _ Gd Et); assert (In it (filter (named name) its)) by (rewrite F; left; reflexivity);
     now apply filter_In in H].
Qed.

Section Elem.
Variables (atof : str -> R) (v : version) (r1 r3 : list str) (tag : str) (l1 l3 : entries).
Hypothesis E1 : items atof r1 line1_items = Ok l1.
Hypothesis E3 : items atof r3 (line3_items v) = Ok l3.
Variables (sb2 : R) (windv1 windv2 : option R) (r x : R) (rc xc : option R).
Let e := xadds [] (("BRANCH_CKT"%string, XS tag) :: l1 ++ mids sb2 windv1 windv2 r x rc xc ++ l3)%list.

Lemma e_get name : String.eqb "BRANCH_CKT" name = false ->
  xget e name = match xget l1 name with Some w => Some w | None => match xget (mids sb2 windv1 windv2 r x rc xc) name with Some w => Some w | None => xget l3 name end end.
Proof. intro H. unfold e. rewrite xget_xadds0. cbn [xget]. rewrite H. rewrite !xget_app. reflexivity. Qed.
Lemma l1_none name : filter (named name) line1_items = [] -> xget l1 name = None.
Proof. intro H. apply (items_none _ _ _ _ E1). rewrite H. contradiction. Qed.
Lemma l3_none name : filter (named name) (line3_items v) = [] -> xget l3 name = None.
Proof. intro H. apply (items_none _ _ _ _ E3). rewrite H. contradiction. Qed.
Lemma mid_get name w : String.eqb "BRANCH_CKT" name = false -> filter (named name) line1_items = [] ->
  xget (mids sb2 windv1 windv2 r x rc xc) name = Some w -> xget e name = Some w.
Proof. intros H N M. rewrite e_get, l1_none, M; auto. Qed.

Definition mid_names : list string :=
  ["BRANCH_CKT"; "TRANSFORMER_SBASE1_2"; "BRANCH_TAP"; "TRANSFORMER_WINDV1"; "TRANSFORMER_WINDV2"; "TRANSFORMER_R1_2"; "BRANCH_R";
   "TRANSFORMER_X1_2"; "BRANCH_X"]%string.
Definition clear_of (its : list XfModel.item) (n : string) : bool := (free its n && negb (existsb (fun m => String.eqb m n) mid_names))%bool.
Lemma mids_none name : existsb (fun m => String.eqb m name) mid_names = false ->
  String.eqb "BRANCH_CKT" name = false /\ xget (mids sb2 windv1 windv2 r x rc xc) name = None.
Proof.
  unfold mid_names, mids. cbn [existsb xget]. intro H. repeat (apply orb_false_elim in H; let K := fresh in destruct H as [K H]; try rewrite K).
  auto.
Qed.
Lemma clear_names its layout c f name : forallb (fun cf => forallb (clear_of its) (field_names (snd cf))) (columns_of layout) = true ->
  nth_error layout c = Some f -> In name (field_names f) ->
  filter (named name) its = [] /\ existsb (fun m => String.eqb m name) mid_names = false.
Proof.
  intros A Hc Hn. rewrite forallb_forall in A. specialize (A _ (@columns_of_in _ _ _ Hc)). cbn [snd] in A. rewrite forallb_forall in A.
  specialize (A _ Hn). unfold clear_of, free in A. apply andb_true_iff in A. destruct A as [A B]. apply negb_true_iff in B.
  destruct (filter (named name) its); [auto|discriminate].
Qed.
Lemma holds_answer layout q (d : entries) : (forall c f name, nth_error layout c = Some f -> In name (field_names f) -> answer atof q c f (xget d name)) ->
  holds atof layout q d.
Proof. intros H c f name Hc. specialize (H c f name Hc). destruct f as [|ns|ns]; [exact I| |]; exact H. Qed.
Lemma holds1 : holds atof layout1 r1 e.
Proof.
  apply holds_answer. intros c f name Hc Hn.
  destruct (@clear_names (line3_items v) layout1 c f name) as [F M]; auto; [destruct v; reflexivity|].
  destruct (mids_none _ M) as [K Mn]. rewrite e_get by exact K. rewrite (l3_none _ F), Mn.
  replace (match xget l1 name with Some w => Some w | None => None end) with (xget l1 name) by (now destruct (xget l1 name)).
  apply (@items_answer atof r1 line1_items l1 layout1 c f name E1); auto.
Qed.
Lemma holds3 : holds atof (layout3 v) r3 e.
Proof.
  apply holds_answer. intros c f name Hc Hn.
  destruct (@clear_names line1_items (layout3 v) c f name) as [F M]; auto; [destruct v; reflexivity|].
  destruct (mids_none _ M) as [K Mn]. rewrite e_get by exact K. rewrite (l1_none _ F), Mn.
  apply (@items_answer atof r3 (line3_items v) l3 (layout3 v) c f name E3); auto. destruct v; reflexivity.
Qed.
End Elem.

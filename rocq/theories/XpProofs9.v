(** Deciding the hypotheses of C55 for concrete cases. *)
From Verif Require Import Prelude GAModel StrModel StrSpec DCModel DCSpec RecModel RecSpec XpModel XpSpec XpProofs3.
From Coq Require Import Ascii.
Open Scope nat_scope.

Definition str_eqb (a b : str) : bool := if list_eq_dec ascii_dec a b then true else false.
Definition plainb (t : str) : bool := negb (length t =? 0) && forallb plain_charb t.
Lemma plainb_ok t : plainb t = true -> plain_text t.
Proof.
  unfold plainb. intros H. apply andb_true_iff in H as [H1 H2]. apply plain_textb; [|assumption].
  intros ->. discriminate.
Qed.
Definition writableb (v : value) : bool :=
  match v with
  | VInt z => is_int z
  | VString s => let i := trim (s_ s) in plainb i && str_eqb (s_ s) (canonical i)
  | VDouble _ | VComplex _ _ => true
  | _ => false
  end.
Lemma writableb_ok v : writableb v = true -> writable v.
Proof.
  destruct v; cbn; try discriminate; auto.
  intros H. apply andb_true_iff in H as [H1 H2]. exists (trim (s_ s)). split; [now apply plainb_ok|].
  unfold str_eqb in H2. now destruct list_eq_dec.
Qed.
Definition entriesb (d : dc) (sl : string -> slot) (es : list (string * dtype)) : bool :=
  forallb (fun '(n, ty) => match look d ty (sl n) with Some v => writableb v | None => false end) es.
Lemma entriesb_ok d sl es : entriesb d sl es = true ->
  forall n ty, In (n, ty) es -> exists v, look d ty (sl n) = Some v /\ writable v.
Proof.
  unfold entriesb. rewrite forallb_forall. intros H n ty I. specialize (H _ I). cbn in H.
  destruct look as [v|]; [|discriminate]. exists v. split; [reflexivity|now apply writableb_ok].
Qed.
Definition is_vint (o : option value) (b : Z) : bool := match o with Some (VInt z) => (z =? b)%Z | _ => false end.
Lemma is_vint_ok o b : is_vint o b = true -> o = Some (VInt b).
Proof. destruct o as [[]|]; cbn; try discriminate. intros H. apply Z.eqb_eq in H. now subst. Qed.
Definition below (n : nat) (f : nat -> bool) : bool := forallb f (iota n).
Lemma below_ok n f : below n f = true -> forall j, j < n -> f j = true.
Proof. unfold below, iota. rewrite forallb_forall. intros H j Hj. apply H. apply in_seq. lia. Qed.
Definition completeb (d : dc) (b : Z) (count busname : string) (es : list (string * dtype)) : bool :=
  below (devices d count) (fun j => is_vint (look d TInt (Indexed busname (Z.of_nat j))) b &&
                                    entriesb d (fun n => Indexed n (Z.of_nat j)) es).
Lemma completeb_ok d b count busname es : completeb d b count busname es = true -> complete d b count busname es.
Proof.
  intros H j Hj. unfold completeb in H. pose proof (@below_ok _ _ H j Hj) as K. cbn beta in K. apply andb_true_iff in K as [K1 K2]. split.
  - now apply is_vint_ok.
  - now apply (@entriesb_ok d (fun n => Indexed n (Z.of_nat j))).
Qed.
Definition has_powerb (d : dc) (j : Z) : bool :=
  match look d TDouble (Indexed "LOAD_PL" j), look d TDouble (Indexed "LOAD_QL" j) with
  | Some (VDouble x), Some (VDouble y) => negb (dbl_zero x && dbl_zero y) | _, _ => true end.
Lemma has_powerb_ok d j : has_powerb d j = true -> has_power d j.
Proof. unfold has_powerb, has_power. intros H x y E1 E2. rewrite E1, E2 in H. now apply negb_true_iff in H. Qed.
Definition lacksb (c : ascii) (t : str) : bool := negb (existsb (Ascii.eqb c) t).
Lemma lacksb_ok c t : lacksb c t = true -> lacks c t.
Proof.
  unfold lacksb, lacks. intros H I. apply negb_true_iff in H. enough (existsb (Ascii.eqb c) t = true) by congruence.
  apply existsb_exists. exists c. split; [assumption|apply Ascii.eqb_refl].
Qed.
Definition nameb (t : str) : bool :=
  lacksb qt1 t && lacksb ","%char t && lacksb tab t && lacksb lf t &&
  ((length t =? 0) || ((2 <=? length t) && negb (Ascii.eqb (hd sp t) sp) && negb (Ascii.eqb (last t sp) sp))).
Lemma nameb_ok t : nameb t = true -> name_text t.
Proof.
  unfold nameb. rewrite !andb_true_iff, orb_true_iff, !andb_true_iff. intros [[[[H1 H2] H3] H4] H].
  repeat split; try now apply lacksb_ok. destruct H as [H|[[H5 H6] H7]].
  - left. destruct t; [reflexivity|discriminate].
  - right. apply Nat.leb_le in H5. split; [assumption|]. apply negb_true_iff, Ascii.eqb_neq in H6, H7.
    destruct t as [|c r]; [cbn in H5; lia|]. split; [now exists c, r|].
    exists (removelast (c :: r)), (last (c :: r) sp). split; [|assumption]. apply app_removelast_last. discriminate.
Qed.
Definition bus_okb (d : dc) : bool :=
  match look d TInt (Plain "BUS_NUMBER"), look d TString (Plain "BUS_NAME") with
  | Some (VInt b), Some (VString name) =>
    ((1 <=? b) && (b <=? 2147483647))%Z && nameb (s_ name) && entriesb d Plain bus_entries &&
    completeb d b "LOAD_NUMBER" "LOAD_BUSNUMBER" load_entries &&
    below (devices d "LOAD_NUMBER") (fun j => has_powerb d (Z.of_nat j)) &&
    completeb d b "SHUNT_NUMBER" "SHUNT_BUSNUMBER" shunt_entries &&
    completeb d b "GENERATOR_NUMBER" "GENERATOR_BUSNUMBER" gen_entries
  | _, _ => false
  end.
Lemma bus_okb_ok d : bus_okb d = true -> bus_ok d.
Proof.
  unfold bus_okb, bus_ok. destruct (look d TInt _) as [[]|] eqn:E1; try discriminate.
  destruct (look d TString _) as [[]|] eqn:E2; try discriminate. rewrite !andb_true_iff.
  intros [[[[[[[H1 H2] H3] H4] H5] H6] H7] H8]. eexists _, _. apply Z.leb_le in H1, H2. split; [split; eassumption|]. split; [reflexivity|]. split; [reflexivity|].
  split; [now apply nameb_ok|]. split; [now apply (@entriesb_ok d Plain)|]. split; [now apply completeb_ok|].
  split; [|split; now apply completeb_ok].
  intros j Hj. apply has_powerb_ok. exact (@below_ok _ _ H6 j Hj).
Qed.
Fixpoint nodupb {A} (eqb : A -> A -> bool) (l : list A) : bool :=
  match l with [] => true | x :: r => negb (existsb (eqb x) r) && nodupb eqb r end.
Lemma nodupb_ok {A} (eqb : A -> A -> bool) : (forall x, eqb x x = true) -> forall l, nodupb eqb l = true -> NoDup l.
Proof.
  intros R. induction l as [|x r IH]; cbn; [constructor|]. rewrite andb_true_iff, negb_true_iff. intros [H1 H2].
  constructor; [|auto]. intros I. enough (existsb (eqb x) r = true) by congruence. apply existsb_exists. eauto.
Qed.
Definition number_eqb (a b : option value) : bool :=
  match a, b with Some (VInt x), Some (VInt y) => (x =? y)%Z | _, _ => true end.
Lemma number_eqb_refl a : number_eqb a a = true.
Proof. destruct a as [[]|]; cbn; auto. apply Z.eqb_refl. Qed.
Definition fewb (count : string) (ps : list place) : bool := sumn (map (fun p => devices (pl_data p) count) ps) <=? 9.
Lemma fewb_ok count ps : fewb count ps = true -> few count ps.
Proof. unfold fewb, few. intros H. apply Nat.leb_le in H. lia. Qed.
Definition busesb (buses : list (list place)) : bool :=
  nodupb Nat.eqb (map pl_global (actives buses)) &&
  nodupb number_eqb (map (fun p => look (pl_data p) TInt (Plain "BUS_NUMBER")) (actives buses)) &&
  forallb (fun p => bus_okb (pl_data p)) (actives buses) &&
  fewb "LOAD_NUMBER" (actives buses) && fewb "SHUNT_NUMBER" (actives buses) && fewb "GENERATOR_NUMBER" (actives buses).
Lemma busesb_ok buses : busesb buses = true -> exportable_buses buses.
Proof.
  unfold busesb. rewrite !andb_true_iff. intros [[[[[H1 H2] H3] H4] H5] H6].
  split; [eapply nodupb_ok; [|exact H1]; apply Nat.eqb_refl|]. split; [eapply nodupb_ok; [|exact H2]; apply number_eqb_refl|].
  split; [|repeat split; now apply fewb_ok]. rewrite forallb_forall in H3. intros p Hp. apply bus_okb_ok. auto.
Qed.
Definition is_none {A} (o : option A) : bool := match o with None => true | _ => false end.
Lemma is_none_ok {A} (o : option A) : is_none o = true -> o = None.
Proof. now destruct o. Qed.
Definition elementb (d : dc) (j : Z) : bool :=
  is_none (look d TInt (Indexed "BRANCH_SWITCHED" j)) &&
  match look d TBool (Indexed "BRANCH_SWITCHED" j) with Some (VBool false) => true | _ => false end &&
  match look d TDouble (Indexed "BRANCH_TAP" j) with Some (VDouble x) => dbl_zero x | _ => false end &&
  is_none (look d TDouble (Indexed "TRANSFORMER_WINDV1" j)) &&
  forallb (fun n => is_none (look d TDouble (Indexed n j))) ["BRANCH_F1"; "BRANCH_F2"; "BRANCH_F3"; "BRANCH_F4"]%string &&
  entriesb d (fun n => Indexed n j) line_entries.
Definition branch_okb (d : dc) : bool :=
  match branch_ends d with
  | Some (a, b) => ((1 <=? a) && (a <=? 2147483647) && (1 <=? b) && (b <=? 2147483647))%Z
  | None => false
  end && (0 <? devices d "BRANCH_NUM_ELEMENTS") && below (devices d "BRANCH_NUM_ELEMENTS") (fun j => elementb d (Z.of_nat j)).
Lemma branch_okb_ok d : branch_okb d = true -> branch_ok d.
Proof.
  unfold branch_okb, branch_ok. destruct (branch_ends d) as [[a b]|]; [|discriminate]. rewrite !andb_true_iff.
  intros [[[[[H1 H2] H3] H4] H5] H6]. apply Z.leb_le in H1, H2, H3, H4. split; [exists a, b; auto|]. apply Nat.ltb_lt in H5.
  split; [assumption|]. intros j Hj. pose proof (@below_ok _ _ H6 j Hj) as K. cbn beta in K. unfold elementb in K.
  rewrite !andb_true_iff in K. destruct K as [[[[[K1 K2] K3] K4] K5] K6].
  split; [now apply is_none_ok|]. split.
  { destruct (look d TBool _) as [[| |[]| | | |]|]; try discriminate; reflexivity. }
  split.
  { destruct (look d TDouble (Indexed "BRANCH_TAP" _)) as [[]|]; try discriminate. eauto. }
  split; [now apply is_none_ok|]. split; [|now apply (@entriesb_ok d (fun n => Indexed n (Z.of_nat j)))].
  rewrite forallb_forall in K5. intros k n I. apply is_none_ok, K5. cbn in I. cbn. intuition congruence.
Qed.
Definition distinct_ends (p q : place) : bool :=
  match branch_ends (pl_data p), branch_ends (pl_data q) with Some a, Some b => same_ends a b | _, _ => true end.
Definition branchesb (branches : list (list place)) : bool :=
  nodupb Nat.eqb (map pl_global (actives branches)) && nodupb distinct_ends (actives branches) &&
  forallb (fun p => branch_okb (pl_data p)) (actives branches) && fewb "BRANCH_NUM_ELEMENTS" (actives branches).
Lemma same_ends_sym a b : same_ends a b = same_ends b a.
Proof.
  unfold same_ends. apply eq_true_iff_eq. rewrite !orb_true_iff, !andb_true_iff, !Z.eqb_eq. intuition congruence.
Qed.
Lemma distinct_ok l : nodupb distinct_ends l = true ->
  forall p q a b, In p l -> In q l -> branch_ends (pl_data p) = Some a -> branch_ends (pl_data q) = Some b -> same_ends a b = true -> p = q.
Proof.
  induction l as [|x r IH]; cbn; [tauto|]. rewrite andb_true_iff, negb_true_iff. intros [H1 H2] p q a b Hp Hq Ea Eb S.
  assert (forall y c d, In y r -> branch_ends (pl_data x) = Some c -> branch_ends (pl_data y) = Some d -> same_ends c d = true -> False) as N.
  { intros y c e Hy Ec Ee Hs. enough (existsb (distinct_ends x) r = true) by congruence. apply existsb_exists. exists y.
    split; [assumption|]. unfold distinct_ends. now rewrite Ec, Ee. }
  destruct Hp as [->|Hp], Hq as [->|Hq]; auto.
  - destruct (N _ _ _ Hq Ea Eb S).
  - rewrite same_ends_sym in S. destruct (N _ _ _ Hp Eb Ea S).
  - eapply IH; eauto.
Qed.
Lemma branchesb_ok branches : branchesb branches = true -> exportable_branches branches.
Proof.
  unfold branchesb. rewrite !andb_true_iff. intros [[[H1 H2] H3] H4].
  split; [eapply nodupb_ok; [|exact H1]; apply Nat.eqb_refl|]. split; [now apply distinct_ok|].
  split; [|now apply fewb_ok]. rewrite forallb_forall in H3. intros p Hp. apply branch_okb_ok. auto.
Qed.

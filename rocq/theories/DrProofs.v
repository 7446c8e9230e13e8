(** Proofs for the reading of dynamic model records: a small abstract interpreter for the tables and its soundness. *)
From Verif Require Import Prelude DCModel DCSpec DCProofs StrModel DrModel DrTables DrModel2 DrSpec.
From Coq Require Import Ascii.
Open Scope string_scope.

Definition ikey (k : string) (idx : Z) : string := k ++ ":" ++ dec idx.
Definition small (idx : Z) : Prop := (String.length (dec idx) <= 7)%nat.
Lemma key_small k idx : small idx -> key_of (Indexed k idx) = Ok (ikey k idx).
Proof. unfold small, key_of. intros H. apply Nat.leb_le in H. now rewrite H. Qed.
Lemma small_range z : small z <-> (-999999 <= z <= 9999999)%Z.
Proof.
  unfold small, dec. destruct (Z.ltb_spec z 0).
  - cbn [String.length].
    pose proof (@digits_length_le 10 (Z.to_N (- z)) "" 6 ltac:(lia) ltac:(lia)) as E.
    change (10 ^ N.of_nat 6)%N with 1000000%N in E.
    change (6 + String.length "")%nat with 6%nat in E. lia.
  - pose proof (@digits_length_le 10 (Z.to_N z) "" 7 ltac:(lia) ltac:(lia)) as E.
    change (10 ^ N.of_nat 7)%N with 10000000%N in E.
    change (7 + String.length "")%nat with 7%nat in E. lia.
Qed.
Lemma small_int z : small z -> is_int z = true.
Proof. intros H. apply small_range in H. unfold is_int. lia. Qed.
Lemma append_cancel a b c : a ++ c = b ++ c -> a = b.
Proof.
  intros H. assert (L : String.length a = String.length b).
  { apply (f_equal String.length) in H. assert (A : forall x y, String.length (x ++ y) = String.length x + String.length y) by (induction x; cbn; intros; auto; now rewrite IHx).
    rewrite !A in H. lia. }
  revert b L H. induction a as [|x a IH]; destruct b as [|y b]; cbn; intros L H; try discriminate; auto.
  inversion H. f_equal. apply IH; auto.
Qed.
Lemma ikey_inj a b idx : ikey a idx = ikey b idx -> a = b.
Proof. unfold ikey. apply append_cancel. Qed.
Lemma ikey_inj2 a b i j : small i -> small j -> ikey a i = ikey b j -> a = b /\ i = j.
Proof. intros. apply key_of_indexed_inj; auto using small_int. Qed.
Lemma ikey_plain a b i : no_colon b = true -> ikey a i <> b.
Proof.
  intros H E. subst b. unfold ikey in H. rewrite no_colon_app in H. cbn in H. rewrite andb_false_r in H. discriminate.
Qed.
Lemma ikey_eqb a b idx : String.eqb (ikey a idx) (ikey b idx) = String.eqb a b.
Proof.
  destruct (String.eqb_spec a b) as [->|N]; [apply String.eqb_refl|]. apply String.eqb_neq. intros H. apply ikey_inj in H. auto.
Qed.

Definition src_type (x : src) : dtype :=
  match x with D _ => TDouble | I _ | Tr _ => TInt | Up _ | Tag _ => TString | Yes => TBool end.
Definition src_eqb (x y : src) : bool :=
  match x, y with
  | D a, D b | I a, I b | Tr a, Tr b | Up a, Up b | Tag a, Tag b => (a =? b)%nat
  | Yes, Yes => true
  | _, _ => false
  end.
Lemma src_eqb_eq x y : src_eqb x y = true <-> x = y.
Proof. split; [destruct x, y; cbn; try discriminate; intros H; try apply Nat.eqb_eq in H; congruence | intros ->; destruct y; cbn; auto using Nat.eqb_refl]. Qed.
Lemma dtype_eqb_eq a b : dtype_eqb a b = true <-> a = b.
Proof. unfold dtype_eqb. destruct (dtype_eq_dec a b); split; auto; discriminate. Qed.

Section Run.
Variable atof : str -> Z.
Variable trunc : Z -> outcome Z.
Notation eval := (eval atof trunc).

Lemma eval_type toks x v : eval toks x = Ok v -> type_of v = src_type x.
Proof.
  destruct x; cbn; unfold obind; intros H; repeat match goal with H : match ?e with _ => _ end = Ok _ |- _ => destruct e; try discriminate end; inversion H; auto.
Qed.

(** ** One step *)
Lemma run_row_cases toks n idx d r d' : small idx -> run_row (eval toks) n idx d r = Ok d' ->
  (passes (guard r) n = false /\ d' = d) \/
  (passes (guard r) n = true /\ find_key d (look_type r) (ikey (look r) idx) = None /\ exists v, eval toks (add_src r) = Ok v /\ d' = add_key d (ikey (add_to r) idx) v) \/
  (passes (guard r) n = true /\ find_key d (look_type r) (ikey (look r) idx) <> None /\ exists v, eval toks (set_src r) = Ok v /\ d' = fst (set_key d (ikey (set_to r) idx) v)).
Proof.
  intros Sm H. unfold run_row in H. destruct (passes (guard r) n) eqn:G; [|left; split; auto; congruence].
  rewrite (@key_small _ _ Sm) in H. cbn [obind] in H. destruct (find_key d (look_type r) (ikey (look r) idx)) as [w|] eqn:F; right; [right|left]; repeat (split; [auto; congruence|]).
  - destruct (eval toks (set_src r)) as [v| |]; try discriminate. exists v. split; auto. cbn [obind] in H. unfold run_call in H. rewrite (@key_small _ _ Sm) in H. cbn in H. congruence.
  - destruct (eval toks (add_src r)) as [v| |]; try discriminate. exists v. split; auto. cbn [obind] in H. unfold run_call in H. rewrite (@key_small _ _ Sm) in H. cbn in H. congruence.
Qed.

(** ** Abstract state of one entry *)
Inductive ast := Absent | Pres | Known (x : src) | Any.
Definition conc (toks : list str) (o : option value) (a : ast) : Prop :=
  match a with
  | Absent => o = None
  | Pres => o <> None
  | Known x => exists v, eval toks x = Ok v /\ o = Some v
  | Any => True
  end.
Definition ast_eqb (a b : ast) : bool :=
  match a, b with Absent, Absent | Pres, Pres | Any, Any => true | Known x, Known y => src_eqb x y | _, _ => false end.
Definition present (a : ast) : bool := match a with Pres | Known _ => true | _ => false end.
Definition join (a b : ast) : ast := if ast_eqb a b then a else if present a && present b then Pres else Any.
Lemma present_conc toks o a : present a = true -> conc toks o a -> o <> None.
Proof. destruct a; cbn; try discriminate; auto. intros _ (v & _ & ->). discriminate. Qed.
Lemma join_l toks o a b : conc toks o a -> conc toks o (join a b).
Proof.
  intros H. unfold join. destruct (ast_eqb a b); auto. destruct (present a && present b) eqn:P; cbn; auto.
  apply andb_true_iff in P as (P & _). eapply present_conc; eauto.
Qed.
Lemma ast_eqb_eq a b : ast_eqb a b = true -> a = b.
Proof. destruct a, b; cbn; try discriminate; auto. intros H. apply src_eqb_eq in H. congruence. Qed.
Lemma join_r toks o a b : conc toks o b -> conc toks o (join a b).
Proof.
  intros H. unfold join. destruct (ast_eqb a b) eqn:E; [apply ast_eqb_eq in E; now subst|]. destruct (present a && present b) eqn:P; cbn; auto.
  apply andb_true_iff in P as (_ & P). eapply present_conc; eauto.
Qed.

Section Entry.
Variable K : string.
Variable T : dtype.
(** Types under which the key is known to have no entry. *)
Variable F : dtype -> bool.
Definition hits (k : string) (x : src) : bool := String.eqb k K && dtype_eqb (src_type x) T.
Definition add_eff (r : row src) (a : ast) : ast :=
  if hits (add_to r) (add_src r) then match a with Absent => Known (add_src r) | Any => Pres | _ => a end else a.
Definition set_eff (r : row src) (a : ast) : ast :=
  if hits (set_to r) (set_src r) then match a with Absent => Absent | Pres | Known _ => Known (set_src r) | Any => Any end else a.
Definition effect (r : row src) (a : ast) : ast :=
  if String.eqb (look r) K && dtype_eqb (look_type r) T then
    match a with
    | Absent => add_eff r Absent
    | Pres => set_eff r Pres
    | Known x => set_eff r (Known x)
    | Any => join (add_eff r Absent) (set_eff r Pres)
    end
  else if String.eqb (look r) K && F (look_type r) then add_eff r a
  else join (add_eff r a) (set_eff r a).
(** [p]: a position known to be present. *)
Definition arow (p : nat) (a : ast) (r : row src) : ast :=
  if match guard r with Some g => (g <=? p)%nat | None => true end then effect r a else join a (effect r a).
Definition arows (p : nat) (a : ast) (rs : list (row src)) : ast := fold_left (arow p) rs a.

Lemma add_sound toks d idx r a v : eval toks (add_src r) = Ok v -> conc toks (find_key d T (ikey K idx)) a ->
  conc toks (find_key (add_key d (ikey (add_to r) idx) v) T (ikey K idx)) (add_eff r a).
Proof.
  intros E C. pose proof (@eval_type _ _ _ E) as Ty. rewrite find_add, ikey_eqb, Ty. unfold add_eff, hits.
  destruct (String.eqb (add_to r) K && dtype_eqb (src_type (add_src r)) T) eqn:Q; auto.
  apply andb_true_iff in Q as (Q & _). apply String.eqb_eq in Q. rewrite Q.
  destruct (find_key d T (ikey K idx)) eqn:G; destruct a; cbn in *; eauto; try discriminate; try congruence.
  destruct C as (? & _ & ?). discriminate.
Qed.
Lemma set_sound toks d idx r a v : eval toks (set_src r) = Ok v -> conc toks (find_key d T (ikey K idx)) a ->
  conc toks (find_key (fst (set_key d (ikey (set_to r) idx) v)) T (ikey K idx)) (set_eff r a).
Proof.
  intros E C. pose proof (@eval_type _ _ _ E) as Ty. rewrite find_set, ikey_eqb, Ty. unfold set_eff, hits.
  destruct (String.eqb (set_to r) K && dtype_eqb (src_type (set_src r)) T) eqn:Q; auto.
  apply andb_true_iff in Q as (Q & _). apply String.eqb_eq in Q. rewrite Q.
  destruct (find_key d T (ikey K idx)) eqn:G; destruct a; cbn in *; eauto; try discriminate; try congruence.
  destruct C as (? & _ & ?). discriminate.
Qed.
Definition fresh (d : dc) (idx : Z) : Prop := forall t, F t = true -> find_key d t (ikey K idx) = None.
Definition keeps (r : row src) : bool := negb (String.eqb (add_to r) K && F (src_type (add_src r))).
Lemma fresh_step toks n d idx r d' : small idx -> run_row (eval toks) n idx d r = Ok d' -> keeps r = true -> fresh d idx -> fresh d' idx.
Proof.
  intros Sm R Q H t Ht. specialize (H t Ht). apply run_row_cases in R; auto. destruct R as [(_ & ->)|[(_ & _ & v & E & ->)|(_ & _ & v & E & ->)]]; auto.
  - rewrite find_add, ikey_eqb, (@eval_type _ _ _ E). destruct (String.eqb (add_to r) K && dtype_eqb (src_type (add_src r)) t) eqn:X; auto.
    apply andb_true_iff in X as (X1 & X2). apply dtype_eqb_eq in X2. unfold keeps in Q. rewrite X1, X2, Ht in Q. discriminate.
  - rewrite find_set, ikey_eqb, (@eval_type _ _ _ E). destruct (String.eqb (set_to r) K && dtype_eqb (src_type (set_src r)) t) eqn:X; auto.
    apply andb_true_iff in X as (X1 & X2). apply String.eqb_eq in X1. rewrite X1, H. auto.
Qed.
Lemma effect_sound toks n d idx r a d' : fresh d idx -> small idx -> run_row (eval toks) n idx d r = Ok d' -> passes (guard r) n = true ->
  conc toks (find_key d T (ikey K idx)) a -> conc toks (find_key d' T (ikey K idx)) (effect r a).
Proof.
  intros Fr Sm R P C. apply run_row_cases in R; auto. destruct R as [(X & _)|[(_ & G & v & E & ->)|(_ & G & v & E & ->)]]; [congruence| |]; unfold effect.
  - destruct (String.eqb (look r) K && dtype_eqb (look_type r) T) eqn:Q.
    + apply andb_true_iff in Q as (Q1 & Q2). apply String.eqb_eq in Q1. apply dtype_eqb_eq in Q2. rewrite Q1, Q2 in G.
      destruct a.
      * now apply add_sound.
      * contradiction.
      * destruct C as (w & _ & C). congruence.
      * apply join_l. now apply add_sound.
    + destruct (String.eqb (look r) K && F (look_type r)); [now apply add_sound|]. apply join_l; now apply add_sound.
  - destruct (String.eqb (look r) K && dtype_eqb (look_type r) T) eqn:Q.
    + apply andb_true_iff in Q as (Q1 & Q2). apply String.eqb_eq in Q1. apply dtype_eqb_eq in Q2. rewrite Q1, Q2 in G.
      destruct a.
      * contradiction.
      * now apply set_sound.
      * now apply set_sound.
      * apply join_r. now apply set_sound.
    + destruct (String.eqb (look r) K && F (look_type r)) eqn:Q'; [|apply join_r; now apply set_sound].
      apply andb_true_iff in Q' as (Q1 & Q2). apply String.eqb_eq in Q1. rewrite Q1 in G. now rewrite (Fr _ Q2) in G.
Qed.
Lemma arow_sound toks n p d idx r a d' : fresh d idx -> small idx -> (p < n)%nat -> run_row (eval toks) n idx d r = Ok d' ->
  conc toks (find_key d T (ikey K idx)) a -> conc toks (find_key d' T (ikey K idx)) (arow p a r).
Proof.
  intros Fr Sm L R C. unfold arow. destruct (passes (guard r) n) eqn:P.
  - pose proof (@effect_sound _ _ _ _ _ _ _ Fr Sm R P C) as H. destruct (match guard r with Some _ => _ | None => _ end); auto. now apply join_r.
  - pose proof R as R'. apply run_row_cases in R'; auto. destruct R' as [(_ & ->)|[(X & _)|(X & _)]]; try congruence.
    destruct (guard r) as [g|]; [|discriminate]. cbn in P. apply Nat.ltb_ge in P. assert ((g <=? p)%nat = false) as -> by (apply Nat.leb_gt; lia). now apply join_l.
Qed.
Lemma arows_sound toks n p idx rs : small idx -> (p < n)%nat -> forallb keeps rs = true -> forall d a d', fresh d idx -> run_rows (eval toks) n idx d rs = Ok d' ->
  conc toks (find_key d T (ikey K idx)) a -> conc toks (find_key d' T (ikey K idx)) (arows p a rs).
Proof.
  intros Sm L. induction rs as [|r rs IH]; cbn [run_rows arows fold_left forallb]; intros Q d a d' Fr R C; [cbn; congruence|].
  apply andb_true_iff in Q as (Q1 & Q2).
  destruct (run_row (eval toks) n idx d r) as [d1| |] eqn:E; try discriminate. cbn [obind] in R. eapply (IH Q2 d1); eauto; [eapply fresh_step | eapply arow_sound]; eauto.
Qed.
End Entry.

(** ** Entries nobody writes *)
Definition names (rs : list (row src)) : list string := map (@add_to src) rs ++ map (@set_to src) rs.
Lemma run_rows_frame toks n idx rs : small idx -> forall d d' t k, run_rows (eval toks) n idx d rs = Ok d' ->
  (forall a, In a (names rs) -> k <> ikey a idx) -> find_key d' t k = find_key d t k.
Proof.
  intros Sm. induction rs as [|r rs IH]; cbn [run_rows]; intros d d' t k R H; [congruence|].
  destruct (run_row (eval toks) n idx d r) as [d1| |] eqn:E; try discriminate. cbn [obind] in R.
  rewrite (IH d1 d'); auto.
  - assert (A : k <> ikey (add_to r) idx) by (apply H; unfold names; cbn; auto).
    assert (B : k <> ikey (set_to r) idx) by (apply H; unfold names; cbn; right; apply in_or_app; cbn; auto).
    apply run_row_cases in E; auto. destruct E as [(_ & ->)|[(_ & _ & v & _ & ->)|(_ & _ & v & _ & ->)]]; auto; rewrite ?find_add, ?find_set.
    + destruct (String.eqb_spec (ikey (add_to r) idx) k); cbn; auto. now subst.
    + destruct (String.eqb_spec (ikey (set_to r) idx) k); cbn; auto. now subst.
  - intros a I. apply H. unfold names in *. cbn. right. apply in_or_app. cbn. apply in_app_or in I as [I|I]; auto.
Qed.

(** ** Steps that can be evaluated *)
Lemma run_rows_ok toks n idx rs : small idx -> (forall r, In r rs -> (exists v, eval toks (add_src r) = Ok v) /\ (exists v, eval toks (set_src r) = Ok v)) ->
  forall d, exists d', run_rows (eval toks) n idx d rs = Ok d'.
Proof.
  intros Sm. induction rs as [|r rs IH]; intros H d; [now exists d|]. cbn [run_rows].
  assert (X : exists d1, run_row (eval toks) n idx d r = Ok d1).
  { destruct (H r) as ((v & V) & (w & W)); [cbn; auto|]. unfold run_row. destruct (passes _ _); eauto. rewrite (@key_small _ _ Sm). cbn [obind].
    destruct (find_key _ _ _); rewrite ?V, ?W; cbn [obind]; unfold run_call; rewrite (@key_small _ _ Sm); cbn; eauto. }
  destruct X as (d1 & ->). cbn [obind]. apply IH. intros; apply H; cbn; auto.
Qed.
End Run.

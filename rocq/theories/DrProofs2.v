(** Proofs for the reading of dynamic model records: struct and data collection together, and the checks of the tables. *)
From Verif Require Import Prelude DCModel DCSpec DCProofs StrModel DrModel DrTables DrModel2 DrSpec DrProofs.
From Coq Require Import Ascii.
Open Scope string_scope.

(** ** Fields as sources *)
Definition f_src (f : field) : src :=
  match f with
  | Param p _ TDouble => D p
  | Param p _ TInt => I p
  | Param p _ _ => Tag p
  | Name p _ => Up p
  | Flag _ => Yes
  end.
Definition plain_type (f : field) : bool :=
  match f with Param _ _ (TDouble | TInt | TString) => true | Param _ _ _ => false | _ => true end.
Lemma capital_upper c : capital c = upper_c c.
Proof. reflexivity. Qed.
Lemma reads_eval atof trunc toks f v : plain_type f = true -> (reads atof toks f v <-> eval atof trunc toks (f_src f) = Ok v).
Proof.
  assert (M : forall t, map capital t = map upper_c t) by (intros; apply map_ext; intros; apply capital_upper).
  intros P. destruct f as [p k ty|p k|k]; [destruct ty; try discriminate|..]; cbn; unfold token, text.
  - split.
    + intros (x & z & -> & A & ->). cbn. now rewrite A.
    + destruct (nth_error toks p) as [x|]; [|discriminate]. cbn. destruct (atoi x) as [z| |] eqn:A; try discriminate. cbn. intros H. exists x, z. repeat split; auto. congruence.
  - split.
    + intros (x & t & -> & A & ->). cbn. now rewrite A.
    + destruct (nth_error toks p) as [x|]; [|discriminate]. cbn. destruct (clean2char x) as [z| |] eqn:A; try discriminate. cbn. intros H. exists x, z. repeat split; auto. congruence.
  - split.
    + intros (x & -> & ->). reflexivity.
    + destruct (nth_error toks p) as [x|]; [|discriminate]. cbn. intros H. exists x. split; auto. congruence.
  - split.
    + intros (x & t & -> & A & ->). cbn. now rewrite A, M.
    + destruct (nth_error toks p) as [x|]; [|discriminate]. cbn. destruct (trim_quotes x) as [z| |] eqn:A; try discriminate. cbn. intros H. exists x, z. repeat split; auto. rewrite M. congruence.
  - split; congruence.
Qed.
Lemma holds_find c f idx v : small idx -> (holds c f idx v <-> find_key c (f_type f) (ikey (f_key f) idx) = Some v).
Proof.
  intros Sm. unfold holds, get_value. rewrite (@key_small _ _ Sm). cbn [obind]. split.
  - intros H. specialize (H (VBool true)). destruct (find_key _ _ _); congruence.
  - intros -> old. reflexivity.
Qed.
Lemma unset_find c f idx : small idx -> (unset c f idx <-> find_key c (f_type f) (ikey (f_key f) idx) = None).
Proof.
  intros Sm. unfold unset, get_value. rewrite (@key_small _ _ Sm). cbn [obind]. split.
  - intros H. specialize (H (VBool true)). destruct (find_key _ _ _); congruence.
  - intros -> old. reflexivity.
Qed.

(** ** Checks on tables, decided by computation *)
Definition is_listed (l : list (string * string)) (m : string) (f : field) : bool :=
  existsb (fun p => String.eqb (fst p) m && String.eqb (snd p) (f_key f)) l.
Lemma is_listed_spec l m f : is_listed l m f = true <-> listed l m f.
Proof.
  unfold is_listed, listed. rewrite existsb_exists. split.
  - intros ((a & b) & I & H). apply andb_true_iff in H as (H1 & H2). apply String.eqb_eq in H1, H2. cbn in *. now subst.
  - intros H. exists (m, f_key f). cbn. now rewrite !String.eqb_refl.
Qed.
(** Starting from any contents ([first] = false), or from a collection with no entry under the key ([first] = true), the
    field ends up holding its token.  A record with a model name has at least two tokens. *)
Definition no_entry (first : bool) (f : field) (rs : list (row src)) (t : dtype) : bool :=
  first && negb (dtype_eqb t (f_type f)) && forallb (fun r => negb (String.eqb (add_to r) (f_key f) && dtype_eqb (src_type (add_src r)) t)) rs.
Definition field_ok (first : bool) (rs : list (row src)) (f : field) : bool :=
  plain_type f && dtype_eqb (src_type (f_src f)) (f_type f) &&
  ast_eqb (arows (f_key f) (f_type f) (no_entry first f rs) (Nat.max 1 (f_pos f)) (if first then Absent else Any) rs) (Known (f_src f)).
Definition table_ok (a : bool) (wrong : list (string * string)) (m : string) (l : list field) (rs : list (row src)) : bool :=
  forallb (fun f => is_listed wrong m f || field_ok a rs f) l.
(** Only documented keys are written. *)
Definition names_ok (l : list field) (rs : list (row src)) : bool :=
  forallb (fun a => existsb (fun f => String.eqb a (f_key f)) l) (names rs).
(** Everything a step may evaluate can be evaluated when the fields of the layout can. *)
Definition src_pos (x : src) : option nat := match x with D p | I p | Tr p | Up p | Tag p => Some p | Yes => None end.
Definition src_ok (l : list field) (x : src) : bool :=
  existsb (fun f => plain_type f && (src_eqb (f_src f) x || match x, f_src f with D p, y => match src_pos y with Some q => (p =? q)%nat | None => false end | Up p, Tag q => (p =? q)%nat | _, _ => false end)) l
  || src_eqb x Yes.
Definition evals_ok (l : list field) (rs : list (row src)) : bool :=
  forallb (fun r => src_ok l (add_src r) && src_ok l (set_src r)) rs.

Section Sound.
Variable atof : str -> Z.
Variable trunc : Z -> outcome Z.
Notation eval := (eval atof trunc).

Lemma src_ok_sound toks l x : complete atof toks l -> src_ok l x = true -> exists v, eval toks x = Ok v.
Proof.
  intros C H. unfold src_ok in H. apply orb_true_iff in H as [H|H]; [|apply src_eqb_eq in H; subst; cbn; eauto].
  apply existsb_exists in H as (f & I & H). apply andb_true_iff in H as (P & H).
  unfold complete in C. rewrite Forall_forall in C. destruct (C f I) as (v & R). apply (@reads_eval atof trunc) in R; auto.
  apply orb_true_iff in H as [H|H]; [apply src_eqb_eq in H; subst; eauto|].
  destruct x; try discriminate.
  - destruct (src_pos (f_src f)) as [q|] eqn:Q; try discriminate. apply Nat.eqb_eq in H. subst q.
    assert (T : exists t, token toks i = Ok t).
    { destruct (f_src f) as [?|?|?|?|?|]; cbn in Q; inversion Q; subst; cbn in R; destruct (token toks i); try discriminate; eauto. }
    destruct T as (t & T). cbn. rewrite T. cbn. eauto.
  - destruct (f_src f) as [?|?|?|?|q|]; try discriminate. apply Nat.eqb_eq in H. subst q. cbn in *. destruct (token toks i) as [s| |]; try discriminate. cbn in *.
    unfold clean2char, trim_quotes in *. destruct (unquote s); try discriminate. cbn. eauto.
Qed.
Lemma evals_ok_sound toks l n idx rs d : small idx -> complete atof toks l -> evals_ok l rs = true -> exists d', run_rows (eval toks) n idx d rs = Ok d'.
Proof.
  intros Sm C H. apply run_rows_ok; auto. intros r I. unfold evals_ok in H. rewrite forallb_forall in H. specialize (H r I).
  apply andb_true_iff in H as (H1 & H2). split; eapply src_ok_sound; eauto.
Qed.
Lemma field_ok_sound (first : bool) toks n idx rs f d d' : small idx -> (1 < n)%nat -> (f_pos f < n)%nat -> field_ok first rs f = true ->
  run_rows (eval toks) n idx d rs = Ok d' -> (first = true -> forall t, find_key d t (ikey (f_key f) idx) = None) ->
  exists v, reads atof toks f v /\ holds d' f idx v.
Proof.
  intros Sm N L F R C. unfold field_ok in F. apply andb_true_iff in F as (F & E). apply andb_true_iff in F as (P & _). apply ast_eqb_eq in E.
  assert (L' : (Nat.max 1 (f_pos f) < n)%nat) by lia.
  assert (Q : forallb (keeps (f_key f) (no_entry first f rs)) rs = true).
  { apply forallb_forall. intros r Hr. unfold keeps. destruct (String.eqb (add_to r) (f_key f)) eqn:X; auto. cbn. unfold no_entry.
    destruct first; auto. cbn. destruct (negb (dtype_eqb (src_type (add_src r)) (f_type f))); auto. cbn.
    destruct (forallb _ rs) eqn:Y; auto. rewrite forallb_forall in Y. specialize (Y r Hr). rewrite X in Y. cbn in Y.
    assert (dtype_eqb (src_type (add_src r)) (src_type (add_src r)) = true) as Z by now apply dtype_eqb_eq. rewrite Z in Y. discriminate. }
  assert (Fr : fresh (f_key f) (no_entry first f rs) d idx).
  { intros t Ht. unfold no_entry in Ht. destruct first; [auto | discriminate]. }
  assert (C' : conc atof trunc toks (find_key d (f_type f) (ikey (f_key f) idx)) (if first then Absent else Any)) by (destruct first; cbn; auto).
  pose proof (@arows_sound atof trunc (f_key f) (f_type f) (no_entry first f rs) toks n _ idx rs Sm L' Q d _ d' Fr R C') as X. rewrite E in X. destruct X as (v & V & W).
  exists v. split; [apply (@reads_eval atof trunc); auto | now apply holds_find].
Qed.
Lemma names_ok_sound toks n idx rs l d d' t k : small idx -> names_ok l rs = true -> run_rows (eval toks) n idx d rs = Ok d' ->
  (forall f, In f l -> k <> ikey (f_key f) idx) -> find_key d' t k = find_key d t k.
Proof.
  intros Sm N R H. eapply run_rows_frame; eauto. intros a I. unfold names_ok in N. rewrite forallb_forall in N. specialize (N a I).
  apply existsb_exists in N as (f & J & E). apply String.eqb_eq in E. subst a. auto.
Qed.

(** ** store, then extract *)
Fixpoint last_src (rs : list srow) (f : string) : option src :=
  match rs with
  | [] => None
  | r :: t => match last_src t f with Some x => Some x | None => if String.eqb (s_field r) f then Some (s_src r) else None end
  end.
Definition resolve (rs : list srow) (x : fsrc) : option src := match x with FYes => Some Yes | Fld f => last_src rs f end.
Fixpoint composed (st : list srow) (ex : list (row fsrc)) : option (list (row src)) :=
  match ex with
  | [] => Some []
  | r :: t =>
      match guard r, resolve st (add_src r), resolve st (set_src r), composed st t with
      | None, Some a, Some b, Some t' => Some (Row None (look r) (look_type r) (add_to r) a (set_to r) b :: t')
      | _, _, _, _ => None
      end
  end.
Definition guards_below (n : nat) (rs : list srow) : Prop := forall r, In r rs -> passes (s_guard r) n = true.
Lemma store_get cap toks rs : guards_below (length toks) rs -> forall s s', store atof trunc cap rs toks s = Ok s' -> forall f,
  match last_src rs f with Some x => exists v, eval toks x = Ok v /\ fget s' f = Some v | None => fget s' f = fget s f end.
Proof.
  induction rs as [|r rs IH]; cbn [store last_src]; intros G s s' H f; [congruence|].
  rewrite (G r) in H by (cbn; auto). destruct (eval toks (s_src r)) as [v| |] eqn:E; try discriminate. cbn [obind] in H.
  unfold put_field in H. destruct (fits cap (s_field r) v); try discriminate. cbn [obind] in H.
  assert (G' : guards_below (length toks) rs) by (intros x I; apply G; cbn; auto).
  specialize (IH G' _ _ H f). destruct (last_src rs f); auto. unfold fget in *. cbn [m_find] in IH. destruct (String.eqb (s_field r) f); eauto.
Qed.
Lemma feval_eval cap toks st s s' x y : guards_below (length toks) st -> store atof trunc cap st toks s = Ok s' -> resolve st x = Some y -> feval s' x = eval toks y.
Proof.
  intros G S R. destruct x as [f|]; cbn in *; [|inversion R; reflexivity]. pose proof (@store_get cap toks st G s s' S f) as H. rewrite R in H. destruct H as (v & -> & ->). reflexivity.
Qed.
Lemma extract_composed cap toks st ex : guards_below (length toks) st -> forall rs s s', store atof trunc cap st toks s = Ok s' -> composed st ex = Some rs ->
  forall idx d n, extract ex s' idx d = run_rows (eval toks) n idx d rs.
Proof.
  intros G. induction ex as [|r ex IH]; cbn [composed]; intros rs s s' S C idx d n; [inversion C; reflexivity|].
  destruct (guard r) eqn:Gr; try discriminate. destruct (resolve st (add_src r)) as [a|] eqn:A; try discriminate. destruct (resolve st (set_src r)) as [b|] eqn:B; try discriminate.
  destruct (composed st ex) as [t|] eqn:T; try discriminate. inversion C; subst rs. unfold extract. cbn [run_rows].
  assert (E : run_row (feval s') 0 idx d r = run_row (eval toks) n idx d (Row None (look r) (look_type r) (add_to r) a (set_to r) b)).
  { unfold run_row. rewrite Gr. cbn [passes guard look look_type add_to add_src set_to set_src].
    rewrite (@feval_eval cap toks st s s' _ _ G S A), (@feval_eval cap toks st s s' _ _ G S B). reflexivity. }
  rewrite E. destruct (run_row _ n _ _ _) as [d1| |]; auto. cbn [obind]. apply (IH t s s' S eq_refl).
Qed.
Definition guards_ok (l : list field) (rs : list srow) : bool :=
  forallb (fun r => match s_guard r with None => true | Some g => existsb (fun f => match src_pos (f_src f) with Some p => (g <=? p)%nat | None => false end && plain_type f) l end) rs.
Lemma complete_pos toks l f p : complete atof toks l -> In f l -> plain_type f = true -> src_pos (f_src f) = Some p -> (p < length toks)%nat.
Proof.
  unfold complete. rewrite Forall_forall. intros C Hf P Q. destruct (C f Hf) as (v & R). apply (@reads_eval atof trunc) in R; auto.
  assert (T : exists t, token toks p = Ok t).
  { destruct (f_src f); cbn in Q; inversion Q; subst; cbn in R; destruct (token toks p); try discriminate; eauto. }
  destruct T as (t & T). unfold token in T. destruct (nth_error toks p) eqn:N; try discriminate. apply nth_error_Some. congruence.
Qed.
Lemma guards_ok_sound toks l rs : complete atof toks l -> guards_ok l rs = true -> guards_below (length toks) rs.
Proof.
  intros C H r Hr. unfold guards_ok in H. rewrite forallb_forall in H. specialize (H r Hr). destruct (s_guard r) as [g|]; cbn; auto.
  apply existsb_exists in H as (f & Hf & H). apply andb_true_iff in H as (H & P). destruct (src_pos (f_src f)) as [p|] eqn:Q; try discriminate. apply Nat.leb_le in H. apply Nat.ltb_lt.
  pose proof (@complete_pos toks l f p C Hf P Q). lia.
Qed.
(** store succeeds on a complete record whose identifiers fit. *)
Lemma store_ok cap toks rs : (forall r, In r rs -> exists v, eval toks (s_src r) = Ok v /\ fits cap (s_field r) v = true) -> forall s, exists s', store atof trunc cap rs toks s = Ok s'.
Proof.
  induction rs as [|r rs IH]; cbn [store]; intros H s; [eauto|].
  destruct (H r) as (v & V & F); [cbn; auto|]. assert (H' : forall r, In r rs -> exists v, eval toks (s_src r) = Ok v /\ fits cap (s_field r) v = true) by (intros; apply H; cbn; auto).
  destruct (passes _ _); cbn [obind]; [rewrite V; cbn [obind]; unfold put_field; rewrite F; cbn [obind]|]; apply IH; auto.
Qed.
End Sound.

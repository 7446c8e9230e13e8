(** Proofs for C59, fifth part: the list of contingencies and what is made of the results. *)
From Verif Require Import Prelude DCModel StrModel StrSpec PqModel FmModel FmSpec GAModel ParModel ParSpec CaModel CaSpec.
From Verif Require StrProofs3 StrProps ParProps ParProofs2 StatSpec TaskModel TaskSpec TaskProofs.
From Verif Require Import CaProofs2 CaProofs3 CaProofs4.
From Coq Require Import Ascii Reals Lra.
Open Scope R_scope.

(** ** The list *)
Lemma words_eq c key ws : holds c key ws -> words (val c key) = Ok ws.
Proof.
  intros (text & fs & trail & F & W & N & G & <-). unfold words, val. rewrite F. unfold s_. rewrite W.
  rewrite (@StrProps.C23_fields_read_back fs trail (S (length (write fs trail))) N G) by lia. reflexivity.
Qed.
Lemma numbers_eq l : forall bs, Forall2 number l bs -> mapO atoi bs = Ok l.
Proof. induction l as [| i l IH]; intros bs H; inversion H as [| x y l1 l2 [Hi ->] H2]; subst; [reflexivity |]. cbn [mapO]. destruct (StrProofs3.dec_text _ Hi) as (_ & _ & E). unfold s_ in E. rewrite E. cbn [obind]. rewrite (IH _ H2). reflexivity. Qed.
Lemma tags_eq l : forall ts, Forall2 tag l ts -> mapO tag2 ts = Ok (map tag_of l).
Proof. induction l as [| i l IH]; intros bs H; inversion H as [| x y l1 l2 [Hi S] H2]; subst; [reflexivity |]. cbn [mapO map]. unfold tag2 at 1. rewrite (StrProps.C24_tag_of_spelling Hi S). cbn [obind]. rewrite (IH _ H2). reflexivity. Qed.
Lemma Forall2_len A B (P : A -> B -> Prop) l m : Forall2 P l m -> length l = length m.
Proof. induction 1; cbn; auto. Qed.
Lemma str_eqb_refl a : str_eqb a a = true. Proof. unfold str_eqb. destruct (list_eq_dec _ _ _); tauto. Qed.
Lemma line_elements_eq (es : list (Z * Z * str)) : line_elements (flat_map (fun x => [fst (fst x); snd (fst x)]) es) (map tag_of (map snd es)) = map (fun x => (fst (fst x), snd (fst x), tag_of (snd x), true)) es.
Proof. induction es as [| [[a b] t] es IH]; cbn; auto. now rewrite IH. Qed.
Lemma name_back s : string_of_list_ascii (s_ s) = s. Proof. apply string_of_list_ascii_of_string. Qed.
Lemma val_find c k v : m_find c k = Some v -> val c k = s_ v. Proof. intros E. unfold val. now rewrite E. Qed.
Lemma read_described c x : describes c x -> read_contingency c = Ok (Some x).
Proof.
  intros [name es bs ts N T B S Hb Ht | name es bs ts N T B S Hb Ht]; unfold read_contingency; rewrite (val_find _ _ N), (val_find _ _ T), name_back.
  - rewrite str_eqb_refl, (words_eq B). cbn [obind]. rewrite (numbers_eq Hb). cbn [obind]. rewrite (words_eq S). cbn [obind]. rewrite (tags_eq Ht). cbn [obind].
    rewrite line_elements_eq. replace (length (flat_map (fun x => [fst (fst x); snd (fst x)]) es) =? 2 * length (map tag_of (map snd es)))%nat with true; [reflexivity |].
    symmetry. apply Nat.eqb_eq. clear. rewrite !map_length. induction es as [| x es IH]; cbn; auto. cbn in IH. lia.
  - change (str_eqb (s_ "Generator") (s_ "Line")) with false. cbn iota. rewrite str_eqb_refl, (words_eq B). cbn [obind]. rewrite (numbers_eq Hb). cbn [obind]. rewrite (words_eq S). cbn [obind]. rewrite (tags_eq Ht). cbn [obind].
    rewrite !map_length, Nat.eqb_refl. f_equal. f_equal. f_equal. f_equal. clear. induction es as [| [i t] es IH]; cbn; auto. now rewrite IH.
Qed.
Lemma read_list cs evs : Forall2 describes cs evs -> read_contingencies cs = Ok evs.
Proof.
  intros H. unfold read_contingencies. assert (K : mapO read_contingency cs = Ok (map Some evs)).
  { induction H as [| c x cs evs D H IH]; cbn [mapO map]; auto. rewrite (read_described D). cbn [obind]. now rewrite IH. }
  rewrite K. cbn [obind]. f_equal. clear. induction evs as [| x evs IH]; cbn; auto. now rewrite IH.
Qed.

(** ** Columns *)
Definition shape (x : proc) := (map (fun b => (q_pv (u_q b), length (combine (q_gst (u_q b)) (q_gens (u_q b))))) (s_bus x), map (fun f => length (f_lines f)) (s_brs x)).
Lemma len_mag orig h h' x x' : shape x = shape x' -> length (per_mag orig h x) = length (per_mag orig h' x').
Proof.
  intros E. apply (f_equal fst) in E. unfold per_mag. cbn in E. generalize 0%nat. revert E. generalize (s_bus x'). generalize (s_bus x) as l. induction l as [| b l IH]; intros [| b' l'] E i; try discriminate; cbn; auto.
  cbn in E. inversion E as [[Q L M]]. rewrite Q. rewrite !app_length. f_equal; [destruct (q_pv (u_q b') || orig i); reflexivity | apply IH; exact M].
Qed.
Lemma len_gen h h' x x' : shape x = shape x' -> length (per_gen h x) = length (per_gen h' x').
Proof.
  intros E. apply (f_equal fst) in E. unfold per_gen. cbn in E. generalize 0%nat. revert E. generalize (s_bus x'). generalize (s_bus x) as l. induction l as [| b l IH]; intros [| b' l'] E i; try discriminate; cbn; auto.
  cbn in E. inversion E as [[Q L M]]. rewrite !app_length, !map_length. rewrite L. f_equal. apply IH; exact M.
Qed.
Lemma len_line h h' x x' : shape x = shape x' -> length (per_line h x) = length (per_line h' x').
Proof.
  intros E. apply (f_equal snd) in E. unfold per_line. cbn in E. generalize 0%nat at 2 4. revert E. generalize (s_brs x'). generalize (s_brs x) as l. induction l as [| b l IH]; intros [| b' l'] E i; try discriminate; cbn; auto.
  cbn in E. inversion E as [[L M]]. rewrite !app_length, !mapi_length. rewrite L. f_equal. apply IH; exact M.
Qed.
Lemma len_bus x x' : shape x = shape x' -> length (s_bus x) = length (s_bus x').
Proof. intros E. apply (f_equal fst), (f_equal (@length _)) in E. cbn in E. now rewrite !map_length in E. Qed.
Definition is_table (col : result -> list (R * Z)) : Prop := In col [r_mag; r_ang; r_pg; r_qg; r_pf; r_qf; r_perf].
Definition of_shape (x : proc) (r : result) orig : Prop :=
  length (r_mag r) = length (per_mag orig (fun _ => (0, 0%Z)) x) /\ length (r_ang r) = length (s_bus x) /\ length (r_pg r) = length (per_gen (fun _ _ _ _ => (0, 0%Z)) x) /\ length (r_qg r) = length (per_gen (fun _ _ _ _ => (0, 0%Z)) x) /\
  length (r_pf r) = length (per_line (fun _ _ _ _ => (0, 0%Z)) x) /\ length (r_qf r) = length (per_line (fun _ _ _ _ => (0, 0%Z)) x) /\ length (r_perf r) = length (per_line (fun _ _ _ _ => (0, 0%Z)) x).
Lemma report_shape isref orig ok code x x' z : shape x = shape x' -> of_shape x' (report isref orig ok code x z) orig.
Proof.
  intros E. unfold of_shape, report. cbn [r_mag r_ang r_pg r_qg r_pf r_qf r_perf]. rewrite mapi_length, (len_bus E). repeat split; auto using len_mag, len_gen, len_line.
Qed.
Lemma expected_shape newton isref orig x x' : shape x = shape x' -> of_shape x' (expected newton isref orig x) orig.
Proof.
  intros E. unfold expected. destruct (z_end (newton x)); [now apply report_shape | |];
    unfold of_shape, no_report; cbn [r_mag r_ang r_pg r_qg r_pf r_qf r_perf]; rewrite map_length, (len_bus E); repeat split; auto using len_mag, len_gen, len_line.
Qed.
Lemma same_shape orig x r r' col : of_shape x r orig -> of_shape x r' orig -> is_table col -> length (col r) = length (col r').
Proof. intros (A1 & A2 & A3 & A4 & A5 & A6 & A7) (B1 & B2 & B3 & B4 & B5 & B6 & B7) I. unfold is_table in I. cbn in I. intuition (subst; congruence). Qed.
Lemma shape_outage e s : shape (outage e s) = shape s.
Proof.
  unfold shape, outage. cbn. rewrite !map_map. f_equal; apply map_ext; intros b; cbn; [| now rewrite map_length]. f_equal. rewrite !combine_length, !map_length, combine_length. lia.
Qed.
Lemma shape_start s : shape (start s) = shape s.
Proof.
  unfold shape, start, blank, reset_voltages. cbn. rewrite !map_map. f_equal; apply map_ext; intros b; cbn; [| now rewrite map_length]. destruct (u_act b); reflexivity.
Qed.
Lemma shape_blank s : shape (blank s) = shape s.
Proof. unfold shape, blank. cbn. rewrite !map_map. f_equal. apply map_ext; intros b; cbn. now rewrite map_length. Qed.
Lemma shape_flagged z s : shape (flagged z s) = shape s.
Proof. unfold shape, flagged. cbn. rewrite map_mapi. cbn. f_equal. etransitivity; [| apply mapi_const with (i := 0%nat)]. reflexivity. Qed.

Lemma columns_mapi A (g : A -> list (R * Z)) evs : forall i, map (fun x : Z * list (R * Z) => ((fst x + 1)%Z, snd x)) (mapi (fun k c => (Z.of_nat k, g c)) i evs) = combine (map Z.of_nat (seq (S i) (length evs))) (map g evs).
Proof. induction evs as [| c evs IH]; intros i; cbn [mapi map seq length combine]; auto. rewrite IH. f_equal. cbn [fst snd]. f_equal. lia. Qed.
Section Made.
Variable newton : proc -> sol.
Variables isref orig : nat -> bool.
Variable s : proc.
Variable evs : list (string * event).
Let x := start (flagged (newton (blank s)) s).
Let want := fun c : string * event => expected newton isref orig (outage (snd c) x).
Let base := report isref orig true 0 (blank s) (newton (blank s)).
Variable w : list (list (Z * result)).
Hypothesis HW : Permutation (concat w) (mapi (fun k c => (Z.of_nat k, want c)) 0 evs).

Lemma columns_eq col : is_table col -> StatSpec.adds_table (length (col base)) (col base :: map (fun c => col (want c)) evs) (column_calls col base w).
Proof.
  intros T. assert (B : of_shape s base orig) by (apply report_shape, shape_blank). split.
  - constructor; [reflexivity |]. apply Forall_forall. intros l I. apply in_map_iff in I as (c & <- & I). apply (@same_shape orig s); auto. apply expected_shape. unfold x. now rewrite shape_outage, shape_start, shape_flagged.
  - exists []. split; [| constructor]. rewrite app_nil_r. unfold column_calls. cbn [length]. rewrite map_length. cbn [seq map combine]. apply perm_skip. rewrite HW. rewrite <- columns_mapi. rewrite !map_mapi. reflexivity.
Qed.

Lemma results_fst : Permutation (map fst (concat w)) (TaskSpec.tasks (length evs)).
Proof.
  rewrite HW. rewrite map_mapi. cbn. unfold TaskSpec.tasks, iota. clear HW. assert (K : forall i (l : list (string * event)), mapi (fun k _ => Z.of_nat k) i l = map Z.of_nat (seq i (length l))); [| now rewrite K].
  intros i l. revert i. induction l; intros i; cbn; auto. now rewrite IHl.
Qed.
Lemma max_tasks l n : (0 < n)%nat -> Permutation l (TaskSpec.tasks n) -> fold_left Z.max l (-1)%Z = (Z.of_nat n - 1)%Z.
Proof.
  intros N P. assert (M : forall l a, fold_left Z.max l a = fold_right Z.max a l).
  { clear. induction l as [| y l IH]; intros a; cbn; auto. rewrite IH. clear IH. induction l as [| c l IH]; cbn; [lia |]. rewrite IH. lia. }
  rewrite M. assert (U : forall l, (forall t, In t l -> (t <= Z.of_nat n - 1)%Z) -> (fold_right Z.max (-1) l <= Z.of_nat n - 1)%Z) by (clear - N; induction l; intros H; cbn; [lia |]; specialize (IHl (fun t I => H t (or_intror I))); specialize (H a (or_introl eq_refl)); lia).
  assert (V : forall l t, In t l -> (t <= fold_right Z.max (-1) l)%Z) by (clear; induction l; intros t []; cbn; [lia | specialize (IHl t H); lia]).
  assert (A1 : (fold_right Z.max (-1) l <= Z.of_nat n - 1)%Z). { apply U. intros t I. eapply Permutation_in in I; [| exact P]. apply TaskProofs.in_tasks in I. lia. }
  assert (A2 : (Z.of_nat n - 1 <= fold_right Z.max (-1) l)%Z). { apply V. eapply Permutation_in; [symmetry; exact P |]. apply TaskProofs.in_tasks. lia. }
  lia.
Qed.
Lemma fetched A (f : result -> A) zero own sA sB : evs <> [] -> (forall i, (own i < length w)%nat) -> Permutation sA (sched_ops (length w)) -> barrier sA -> Permutation sB (sched_ops (length w)) -> barrier sB ->
  exists g, gv_upload zero own (map (map (fun y => (fst y, f (snd y)))) w) sA sB = Ok g /\ gv_getData g (TaskSpec.tasks (length evs)) = Ok (map (fun c => f (want c)) evs).
Proof.
  intros Ne Own P1 B1 P2 B2. set (w' := map (map (fun y : Z * result => (fst y, f (snd y)))) w). assert (C : concat w' = map (fun y => (fst y, f (snd y))) (concat w)) by (unfold w'; now rewrite concat_map).
  assert (F : map fst (concat w') = map fst (concat w)) by (rewrite C, map_map; reflexivity). assert (L : length w' = length w) by apply map_length. pose proof results_fst as RF.
  assert (N : (0 < length evs)%nat) by (destruct evs; [tauto | cbn; lia]).
  assert (Ex : extent (concat w') = length evs) by (unfold extent; rewrite F, (max_tasks N RF); lia).
  destruct (@ParProps.C07_values_after_upload_partial A zero own w' sA sB) as (g & U & _ & V & _); rewrite ?L; auto.
  - apply Forall_forall. intros y I. apply (in_map fst) in I. rewrite F in I. eapply Permutation_in in I; [| exact RF]. apply TaskProofs.in_tasks in I. lia.
  - rewrite F. eapply Permutation_NoDup; [symmetry; exact RF | apply TaskProofs.tasks_NoDup].
  - intros E. apply (f_equal (@length _)) in E. rewrite <- (map_length fst), F, (Permutation_length RF) in E. unfold TaskSpec.tasks, iota in E. rewrite map_length, seq_length in E. cbn in E. lia.
  - exists g. split; [exact U |]. rewrite V; [| apply Forall_forall; intros t I; rewrite Ex; apply TaskProofs.in_tasks in I; exact I]. f_equal.
    assert (At : forall k c, nth_error evs k = Some c -> value_at zero (concat w') (Z.of_nat k) = f (want c)).
    { intros k c E. unfold value_at. assert (In (Z.of_nat k, f (want c)) (concat w')).
      { rewrite C. apply in_map_iff. exists (Z.of_nat k, want c). split; auto. eapply Permutation_in; [symmetry; exact HW |]. eapply nth_error_In with (n := k). rewrite nth_mapi, E. reflexivity. }
      apply ParProofs2.added_In in H; [now rewrite H |]. rewrite F. eapply Permutation_NoDup; [symmetry; exact RF | apply TaskProofs.tasks_NoDup]. }
    unfold TaskSpec.tasks. rewrite map_map. unfold iota. clear - At.
    assert (K : forall l p, (forall k c, nth_error l k = Some c -> value_at zero (concat w') (Z.of_nat (p + k)) = f (want c)) -> map (fun k => value_at zero (concat w') (Z.of_nat k)) (seq p (length l)) = map (fun c => f (want c)) l).
    { induction l as [| c l IH]; intros p H; cbn; auto. f_equal; [specialize (H 0%nat c eq_refl); now rewrite Nat.add_0_r in H |]. apply IH. intros k d E. specialize (H (S k) d E). now rewrite Nat.add_succ_r in H. }
    apply (K evs 0%nat). exact At.
Qed.
End Made.

(** Proofs for the reading of dynamic model records: the checks of all the tables, one record. *)
From Verif Require Import Prelude DCModel DCSpec DCProofs StrModel DrModel DrTables DrModel2 DrSpec DrProofs DrProofs2.
From Coq Require Import Ascii.
Open Scope string_scope.

(** ** The tables *)
Definition first_unguarded {A} (rs : list (row A)) : bool := match rs with r :: _ => match guard r with None => true | Some _ => false end | [] => false end.
Definition cls_ok (m : string) (l : list field) (c : cls) : bool :=
  first_unguarded (c_parse c) && names_ok l (c_parse c) && evals_ok l (c_parse c) &&
  table_ok false parse_wrong m l (c_parse c) && table_ok true parse_wrong_first m l (c_parse c) &&
  first_unguarded (c_extract c) && guards_ok l (c_store c) &&
  match composed (c_store c) (c_extract c) with
  | None => false
  | Some rs => names_ok l rs && table_ok false extern_wrong m l rs && (String.eqb m "PSSSIM" || evals_ok l rs)
  end.
Definition group_ok (ls : list (string * list field)) (cs : list (string * cls)) : bool :=
  forallb (fun p => match assoc cs (fst p) with Some c => cls_ok (fst p) (snd p) c | None => false end) ls.
Lemma gen_ok : group_ok Layout.generator_models gen_class = true.
Proof. vm_cast_no_check (eq_refl true). Qed.
Lemma relay_ok : group_ok Layout.relay_models relay_class = true.
Proof. vm_cast_no_check (eq_refl true). Qed.
Lemma branch_ok : group_ok Layout.branch_relay_models [("DISTR1", branch_class)] = true.
Proof. vm_cast_no_check (eq_refl true). Qed.
Lemma load_ok : group_ok Layout.load_models load_class = true.
Proof. vm_cast_no_check (eq_refl true). Qed.

Definition keys (ls : list (string * list field)) : list string := flat_map (fun p => map f_key (snd p)) ls.
Definition disjoint (a b : list string) : bool := forallb (fun x => negb (mem x b)) a.
Definition id_keys : list string := ["GENERATOR_ID"; "LOAD_ID"].
Definition relay_keys : list string := (keys Layout.relay_models ++ keys Layout.branch_relay_models)%list.
Lemma gen_relay_apart : disjoint (keys Layout.generator_models) relay_keys = true.
Proof. vm_cast_no_check (eq_refl true). Qed.
Lemma gen_load_apart : disjoint (keys Layout.generator_models) (keys Layout.load_models) = true.
Proof. vm_cast_no_check (eq_refl true). Qed.
Lemma load_relay_apart : disjoint (keys Layout.load_models) relay_keys = true.
Proof. vm_cast_no_check (eq_refl true). Qed.
Lemma ids_apart : disjoint (keys Layout.generator_models) id_keys && disjoint (keys Layout.load_models) id_keys && disjoint relay_keys id_keys = true.
Proof. vm_cast_no_check (eq_refl true). Qed.
Lemma mem_In x l : mem x l = true <-> In x l.
Proof.
  unfold mem. rewrite existsb_exists. split; [intros (y & H & E); apply String.eqb_eq in E; now subst | intros H; exists x; split; auto; apply String.eqb_refl].
Qed.
Lemma disjoint_spec a b x : disjoint a b = true -> In x a -> In x b -> False.
Proof.
  unfold disjoint. rewrite forallb_forall. intros H A B. specialize (H x A). apply mem_In in B. rewrite B in H. discriminate.
Qed.
Lemma on_generator_listed m : on_generator m = true -> exists l, In (m, l) Layout.generator_models.
Proof.
  unfold on_generator. rewrite mem_In. intros H.
  assert (Q : forallb (fun x => existsb (fun p => String.eqb (fst p) x) Layout.generator_models) ["GENCLS"; "GENSAL"; "GENROU"; "GDFORM"; "REGCA1"; "REECA1"; "REPCA1"; "REPCTA1"; "REGCB1"; "REGCC1"; "WSIEG1";
         "EXDC1"; "EXDC2"; "IEEET1"; "SEXS"; "GAST"; "HYGOV"; "ESST1A"; "ESST4B"; "GGOV1"; "WSHYGP"; "TGOV1"; "PSSSIM";
         "WTDTA1"; "WTARA1"; "WTPTA1"; "WTTQA1"] = true) by (vm_compute; reflexivity).
  rewrite forallb_forall in Q. specialize (Q m H). apply existsb_exists in Q as ((a & l) & I & E). apply String.eqb_eq in E. cbn in E. subst. eauto.
Qed.
Lemma listed_on_generator m l : In (m, l) Layout.generator_models -> on_generator m = true.
Proof.
  intros H. assert (Q : forallb (fun p => on_generator (fst p)) Layout.generator_models = true) by (vm_compute; reflexivity).
  rewrite forallb_forall in Q. apply (Q _ H).
Qed.
Lemma group_get ls cs m l : group_ok ls cs = true -> In (m, l) ls -> exists c, assoc cs m = Some c /\ cls_ok m l c = true.
Proof.
  unfold group_ok. rewrite forallb_forall. intros H I. specialize (H _ I). cbn in H. destruct (assoc cs m) as [c|]; [eauto | discriminate].
Qed.
Lemma layout_unique ls (m : string) (l l' : list field) : NoDup (map fst ls) -> In (m, l) ls -> In (m, l') ls -> l = l'.
Proof.
  induction ls as [|(a & x) ls IH]; cbn; intros N H H'; [contradiction|]. inversion N; subst.
  destruct H as [H|H], H' as [H'|H'].
  - congruence.
  - inversion H; subst. exfalso. apply H2. now apply (in_map fst) in H'.
  - inversion H'; subst. exfalso. apply H2. now apply (in_map fst) in H.
  - auto.
Qed.
Fixpoint nodupb (l : list string) : bool := match l with [] => true | x :: r => negb (mem x r) && nodupb r end.
Lemma nodupb_spec l : nodupb l = true -> NoDup l.
Proof.
  induction l as [|x l IH]; cbn; intros H; constructor; apply andb_true_iff in H as (H1 & H2); auto. intros I. apply mem_In in I. rewrite I in H1. discriminate.
Qed.
Lemma gens_unique m l l' : In (m, l) Layout.generator_models -> In (m, l') Layout.generator_models -> l = l'.
Proof. apply layout_unique. apply nodupb_spec. vm_compute. reflexivity. Qed.
Lemma loads_unique m l l' : In (m, l) Layout.load_models -> In (m, l') Layout.load_models -> l = l'.
Proof. apply layout_unique. apply nodupb_spec. vm_compute. reflexivity. Qed.

Section One.
Variable atof : str -> Z.
Variable trunc : Z -> outcome Z.

Lemma run_small {A} (ev : A -> outcome value) n idx d rs d' : first_unguarded rs = true -> run_rows ev n idx d rs = Ok d' -> small idx.
Proof.
  destruct rs as [|r rs]; [discriminate|]. cbn [first_unguarded run_rows]. destruct (guard r) eqn:G; [discriminate|]. intros _ H.
  unfold run_row in H. rewrite G in H. cbn [passes] in H. unfold key_of in H at 1.
  destruct (String.length (dec idx) <=? 7)%nat eqn:L; [now apply Nat.leb_le in L | cbn in H; discriminate].
Qed.

Definition cls_facts (m : string) (l : list field) (c : cls) : Prop :=
  (forall toks idx d d', parse atof trunc (c_parse c) toks idx d = Ok d' -> small idx) /\
  (forall toks idx d d' t k, parse atof trunc (c_parse c) toks idx d = Ok d' -> (forall f, In f l -> k <> ikey (f_key f) idx) -> find_key d' t k = find_key d t k) /\
  (forall toks idx d, small idx -> complete atof toks l -> exists d', parse atof trunc (c_parse c) toks idx d = Ok d') /\
  (forall toks idx d d' f, (1 < length toks)%nat -> parse atof trunc (c_parse c) toks idx d = Ok d' -> In f l -> (f_pos f < length toks)%nat -> ~ listed parse_wrong m f ->
    exists v, reads atof toks f v /\ holds d' f idx v) /\
  (forall toks idx d d' f, (1 < length toks)%nat -> parse atof trunc (c_parse c) toks idx d = Ok d' -> In f l -> (f_pos f < length toks)%nat -> ~ listed parse_wrong_first m f ->
    (forall t, find_key d t (ikey (f_key f) idx) = None) -> exists v, reads atof toks f v /\ holds d' f idx v).
Lemma cls_ok_facts m l c : cls_ok m l c = true -> cls_facts m l c.
Proof.
  unfold cls_ok. rewrite !andb_true_iff. intros (((((((U & N) & E) & T1) & T2) & _) & _) & _).
  split; [intros toks idx d d' H; now apply run_small in H|].
  split; [intros toks idx d d' t k H K; pose proof (@run_small _ _ _ _ _ _ _ U H) as Sm; eapply names_ok_sound; eauto|].
  split; [intros toks idx d Sm C; eapply evals_ok_sound; eauto|].
  split.
  - intros toks idx d d' f L1 H I L W. pose proof (@run_small _ _ _ _ _ _ _ U H) as Sm. unfold table_ok in T1. rewrite forallb_forall in T1. specialize (T1 f I).
    apply orb_true_iff in T1 as [T1|T1]; [apply is_listed_spec in T1; contradiction|]. eapply (@field_ok_sound atof trunc false); eauto. discriminate.
  - intros toks idx d d' f L1 H I L W Fr. pose proof (@run_small _ _ _ _ _ _ _ U H) as Sm. unfold table_ok in T2. rewrite forallb_forall in T2. specialize (T2 f I).
    apply orb_true_iff in T2 as [T2|T2]; [apply is_listed_spec in T2; contradiction|]. eapply (@field_ok_sound atof trunc true); eauto.
Qed.
(** The struct way. *)
Definition xfacts (m : string) (l : list field) (c : cls) : Prop :=
  (forall s idx d d', extract (c_extract c) s idx d = Ok d' -> small idx) /\
  (forall cap toks s s' idx d d' t k, complete atof toks l -> store atof trunc cap (c_store c) toks s = Ok s' -> extract (c_extract c) s' idx d = Ok d' ->
    (forall f, In f l -> k <> ikey (f_key f) idx) -> find_key d' t k = find_key d t k) /\
  (forall cap toks s s' idx d d' f, complete atof toks l -> (1 < length toks)%nat -> store atof trunc cap (c_store c) toks s = Ok s' -> extract (c_extract c) s' idx d = Ok d' ->
    In f l -> ~ listed extern_wrong m f -> exists v, reads atof toks f v /\ holds d' f idx v) /\
  (forall cap toks s s' idx d, complete atof toks l -> m <> "PSSSIM" -> small idx -> store atof trunc cap (c_store c) toks s = Ok s' -> exists d', extract (c_extract c) s' idx d = Ok d').
Lemma cls_ok_xfacts m l c : cls_ok m l c = true -> (forall f, In f l -> plain_type f = true) -> xfacts m l c.
Proof.
  unfold cls_ok. rewrite !andb_true_iff. intros (((_ & U) & G) & X) Pl.
  destruct (composed (c_store c) (c_extract c)) as [rs|] eqn:C; [|discriminate]. rewrite !andb_true_iff in X. destruct X as ((N & T) & E).
  split; [intros s idx d d' H; now apply run_small in H|].
  split; [|split].
  - intros cap toks s s' idx d d' t k Co S H K. pose proof (@run_small _ _ _ _ _ _ _ U H) as Sm. pose proof (@guards_ok_sound atof trunc toks l _ Co G) as GB.
    rewrite (@extract_composed atof trunc cap toks _ _ GB rs s s' S C idx d (length toks)) in H. eapply names_ok_sound; eauto.
  - intros cap toks s s' idx d d' f Co L S H I W. pose proof (@run_small _ _ _ _ _ _ _ U H) as Sm. pose proof (@guards_ok_sound atof trunc toks l _ Co G) as GB.
    rewrite (@extract_composed atof trunc cap toks _ _ GB rs s s' S C idx d (length toks)) in H.
    unfold table_ok in T. rewrite forallb_forall in T. specialize (T f I). apply orb_true_iff in T as [T|T]; [apply is_listed_spec in T; contradiction|].
    eapply (@field_ok_sound atof trunc false toks (length toks)); eauto; [|discriminate].
    destruct (src_pos (f_src f)) as [p|] eqn:Q.
    + pose proof (@complete_pos atof trunc toks l f p Co I (Pl f I) Q). destruct f as [? ? []|? ?|?]; cbn in *; inversion Q; subst; auto.
    + destruct f as [? ? []|? ?|?]; cbn in *; try discriminate. lia.
  - intros cap toks s s' idx d Co M Sm S. pose proof (@guards_ok_sound atof trunc toks l _ Co G) as GB.
    apply orb_true_iff in E as [E|E]; [apply String.eqb_eq in E; contradiction|].
    rewrite (@extract_composed atof trunc cap toks _ _ GB rs s s' S C idx d (length toks)). eapply evals_ok_sound; eauto.
Qed.
Definition all_plain (ls : list (string * list field)) : bool := forallb (fun p => forallb plain_type (snd p)) ls.
Lemma all_plain_ok : all_plain (Layout.generator_models ++ Layout.relay_models ++ Layout.branch_relay_models ++ Layout.load_models) = true.
Proof. vm_compute. reflexivity. Qed.
Lemma plain_in m l f : In (m, l) (Layout.generator_models ++ Layout.relay_models ++ Layout.branch_relay_models ++ Layout.load_models) -> In f l -> plain_type f = true.
Proof.
  intros H I. pose proof all_plain_ok as P. unfold all_plain in P. rewrite forallb_forall in P. specialize (P _ H). cbn in P. rewrite forallb_forall in P. auto.
Qed.
Lemma gen_facts m l : In (m, l) Layout.generator_models -> exists c, assoc gen_class m = Some c /\ cls_facts m l c /\ xfacts m l c.
Proof.
  intros H. destruct (@group_get _ _ _ _ gen_ok H) as (c & A & O). exists c. split; auto. split; [now apply cls_ok_facts | apply cls_ok_xfacts; auto]. intros f I. refine (@plain_in m l f _ I). apply in_or_app. auto.
Qed.
Lemma relay_facts m l : In (m, l) Layout.relay_models -> exists c, assoc relay_class m = Some c /\ cls_facts m l c /\ xfacts m l c.
Proof.
  intros H. destruct (@group_get _ _ _ _ relay_ok H) as (c & A & O). exists c. split; auto. split; [now apply cls_ok_facts | apply cls_ok_xfacts; auto]. intros f I. refine (@plain_in m l f _ I). apply in_or_app. right. apply in_or_app. auto.
Qed.
Lemma branch_facts m l : In (m, l) Layout.branch_relay_models -> m = "DISTR1" /\ cls_facts m l branch_class /\ xfacts m l branch_class.
Proof.
  intros H. destruct (@group_get _ _ _ _ branch_ok H) as (c & A & O).
  assert (m = "DISTR1") as -> by (cbn in H; destruct H as [H|[]]; congruence). cbn in A. inversion A; subst c.
  split; auto. split; [now apply cls_ok_facts | apply cls_ok_xfacts; auto]. intros f I. refine (@plain_in "DISTR1" l f _ I). apply in_or_app. right. apply in_or_app. right. apply in_or_app. auto.
Qed.
Lemma load_facts m l : In (m, l) Layout.load_models -> exists c, assoc load_class m = Some c /\ cls_facts m l c /\ xfacts m l c.
Proof.
  intros H. destruct (@group_get _ _ _ _ load_ok H) as (c & A & O). exists c. split; auto. split; [now apply cls_ok_facts | apply cls_ok_xfacts; auto]. intros f I. refine (@plain_in m l f _ I). apply in_or_app. right. apply in_or_app. right. apply in_or_app. auto.
Qed.
End One.

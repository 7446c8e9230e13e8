(** Proofs about contingencies, limit checks and area totals. *)
From Verif Require Import Prelude PqModel PqProofs FmModel FmSpec.
From Verif Require TaskModel TaskProofs.
From Coq Require Import Reals Lra.
Open Scope R_scope.

(** ** A switchboard: lists of named switches *)
Notation sws := (list (string * bool)).
Definition put (t : string) (x : bool) (l : sws) : sws := upd_first (fun p => String.eqb t (fst p)) (fun p => (fst p, x)) l.
Definition get (t : string) (l : sws) : bool := match find (fun p => String.eqb t (fst p)) l with Some p => snd p | None => false end.
Definition at_put (g : list sws) (j : nat) (t : string) (x : bool) : list sws := match nth_error g j with Some l => upd g j (put t x l) | None => g end.
Fixpoint g_trip (g : list sws) (ids : list nat) (t : string) (sv : bool) : list sws * bool :=
  match ids with
  | [] => (g, sv)
  | j :: r => match nth_error g j with Some l => g_trip (upd g j (put t false l)) r t (get t l) | None => g_trip g r t sv end
  end.
Fixpoint g_back (g : list sws) (ids : list nat) (t : string) (x : bool) : list sws :=
  match ids with [] => g | j :: r => g_back (at_put g j t x) r t x end.
Notation entries := (list (list nat * string * bool)).
Fixpoint g_set (g : list sws) (l : entries) : list sws * entries :=
  match l with
  | [] => (g, [])
  | (ids, t, sv) :: r => let '(g1, sv1) := g_trip g ids t sv in let '(g2, r2) := g_set g1 r in (g2, (ids, t, sv1) :: r2)
  end.
Fixpoint g_unset (g : list sws) (l : entries) : list sws :=
  match l with [] => g | (ids, t, x) :: r => g_unset (g_back g ids t x) r end.

Lemma put_put t x y l : put t x (put t y l) = put t x l.
Proof.
  unfold put. induction l as [| [a b] l IH]; cbn; [reflexivity |]. destruct (String.eqb t a) eqn:E; cbn; rewrite E; [reflexivity |]. now rewrite IH.
Qed.
Lemma put_get t l : put t (get t l) l = l.
Proof.
  unfold put, get. induction l as [| [a b] l IH]; cbn; [reflexivity |]. destruct (String.eqb t a) eqn:E; cbn; [reflexivity |]. now rewrite IH.
Qed.
Lemma put_comm t t' x y l : t <> t' -> put t x (put t' y l) = put t' y (put t x l).
Proof.
  intros N. unfold put. induction l as [| [a b] l IH]; cbn; [reflexivity |].
  destruct (String.eqb t a) eqn:E, (String.eqb t' a) eqn:E'; cbn; rewrite ?E, ?E'; try reflexivity.
  - apply String.eqb_eq in E. apply String.eqb_eq in E'. congruence.
  - now rewrite IH.
Qed.
Lemma upd_upd A (l : list A) j x y : upd (upd l j x) j y = upd l j y.
Proof. revert j. induction l as [| a l IH]; intros [| j]; cbn; auto. now rewrite IH. Qed.
Lemma upd_self A (l : list A) j x : nth_error l j = Some x -> upd l j x = l.
Proof. revert j. induction l as [| a l IH]; intros [| j]; cbn; intros E; try congruence. now rewrite IH. Qed.
Lemma upd_swap A (l : list A) i j x y : i <> j -> upd (upd l i x) j y = upd (upd l j y) i x.
Proof. revert i j. induction l as [| a l IH]; intros [| i] [| j] N; cbn; auto; try congruence. rewrite IH; auto. Qed.
Lemma nth_upd_lt A (l : list A) j x y : nth_error l j = Some y -> nth_error (upd l j x) j = Some x.
Proof. intros E. apply nth_error_upd_same. apply nth_error_Some. congruence. Qed.

Lemma at_put_comm g i j t t' x y : ~ (t = t' /\ i = j) -> at_put (at_put g i t x) j t' y = at_put (at_put g j t' y) i t x.
Proof.
  intros N. unfold at_put. destruct (Nat.eq_dec i j) as [-> | D].
  - destruct (nth_error g j) as [l |] eqn:E; [| now rewrite E]. rewrite !(nth_upd_lt _ _ _ E), !upd_upd. f_equal. apply put_comm. intros ->. apply N. auto.
  - destruct (nth_error g i) as [l |] eqn:E, (nth_error g j) as [m |] eqn:F; rewrite ?nth_error_upd_other, ?E, ?F by auto; try rewrite E; try rewrite F; auto.
    + now rewrite upd_swap by auto.
Qed.

Definition small (x : list nat * string * bool) : Prop := (length (fst (fst x)) <= 1)%nat.
Definition apart (x y : list nat * string * bool) : Prop := ~ (snd (fst x) = snd (fst y) /\ exists j, In j (fst (fst x)) /\ In j (fst (fst y))).
Lemma g_back_comm g x ids t v : small x -> (length ids <= 1)%nat -> apart x (ids, t, v) ->
  g_back (g_back g (fst (fst x)) (snd (fst x)) (snd x)) ids t v = g_back (g_back g ids t v) (fst (fst x)) (snd (fst x)) (snd x).
Proof.
  destruct x as [[is u] w]; unfold small, apart; cbn. intros S1 S2 N.
  destruct is as [| i [| ? ?]], ids as [| j [| ? ?]]; cbn in *; try lia; auto. apply at_put_comm. intros [-> ->]. apply N. split; auto. exists j. auto.
Qed.
Lemma g_unset_comm l : forall g x, small x -> Forall small l -> Forall (apart x) l ->
  g_unset (g_back g (fst (fst x)) (snd (fst x)) (snd x)) l = g_back (g_unset g l) (fst (fst x)) (snd (fst x)) (snd x).
Proof.
  induction l as [| [[ids t] v] l IH]; intros g x S F A; cbn; auto. inversion F; subst. inversion A; subst. rewrite g_back_comm; auto.
Qed.
Lemma g_set_keys l : forall g, map fst (snd (g_set g l)) = map fst l.
Proof.
  induction l as [| [[ids t] v] l IH]; intros g; cbn; auto. destruct (g_trip g ids t v) as [g1 sv1]. specialize (IH g1). destruct (g_set g1 l). cbn in *. now rewrite IH.
Qed.
Lemma small_keys l l' : map fst l = map fst l' -> Forall small l -> Forall small l'.
Proof.
  revert l'. induction l as [| x l IH]; intros [| y l'] E F; try discriminate; auto. injection E as E1 E2. inversion F; subst. constructor; auto. unfold small in *. now rewrite <- E1.
Qed.
Lemma apart_keys x l l' : map fst l = map fst l' -> Forall (apart x) l -> Forall (apart x) l'.
Proof.
  revert l'. induction l as [| y l IH]; intros [| y' l'] E F; try discriminate; auto. injection E as E1 E2. inversion F; subst. constructor; auto. unfold apart in *. now rewrite <- E1.
Qed.
Lemma g_restore l : forall g, Forall small l -> ForallOrdPairs apart l -> g_unset (fst (g_set g l)) (snd (g_set g l)) = g.
Proof.
  induction l as [| [[ids t] v] l IH]; intros g F A; cbn; auto. inversion F as [| ? ? S1 F1]; subst. inversion A as [| ? ? A1 A2]; subst.
  destruct (g_trip g ids t v) as [g1 sv1] eqn:T. specialize (IH g1 F1 A2). pose proof (g_set_keys l g1) as K. destruct (g_set g1 l) as [g2 r2] eqn:E. cbn in *.
  pose proof (@g_unset_comm r2 g2 (ids, t, sv1)) as C. cbn in C. rewrite C; [| exact S1 | apply (@small_keys l r2 (eq_sym K)); auto | apply (@apart_keys _ l r2 (eq_sym K)); auto].
  rewrite IH. unfold small in S1; cbn in S1. destruct ids as [| i [| ? ?]]; cbn in *; try lia.
  - congruence.
  - unfold at_put. destruct (nth_error g i) as [m |] eqn:M; injection T as <- <-.
    + rewrite (nth_upd_lt _ _ _ M), upd_upd, put_put, put_get. apply upd_self; auto.
    + now rewrite M.
Qed.

(** ** Lines *)
Definition labs (brs : list fbr) : list sws := map line_states brs.
Definition ends (brs : list fbr) := map (fun f => (f_1 f, f_2 f)) brs.
Arguments labs : simpl never.
Arguments ends : simpl never.
Lemma filter_ext' A (p q : A -> bool) l : (forall x, p x = q x) -> filter p l = filter q l.
Proof. intros E. induction l; cbn; auto. now rewrite E, IHl. Qed.
Lemma branches_ends b1 b2 x y : ends b1 = ends b2 -> branches_of b1 x y = branches_of b2 x y.
Proof.
  intros E. unfold branches_of. assert (L : length b1 = length b2) by (apply (f_equal (@length _)) in E; unfold ends in E; now rewrite !map_length in E). rewrite L.
  apply filter_ext'. intros i. assert (N : nth_error (ends b1) i = nth_error (ends b2) i) by now rewrite E. unfold ends in N. rewrite !nth_error_map in N.
  destruct (nth_error b1 i), (nth_error b2 i); cbn in N; try discriminate; auto. injection N as -> ->. reflexivity.
Qed.
Lemma local_ends b1 b2 x y : ends b1 = ends b2 -> local_branch b1 x y = local_branch b2 x y.
Proof. intros E. unfold local_branch. now rewrite !(branches_ends _ _ _ _ E). Qed.
Lemma set_line_abs ls t x : map (fun l => (n_tag l, n_on l)) (set_line_status ls t x) = put t x (map (fun l => (n_tag l, n_on l)) ls).
Proof. unfold set_line_status, put, tagged. induction ls as [| l ls IH]; cbn; auto. destruct (String.eqb t (n_tag l)); cbn; auto. now rewrite IH. Qed.
Lemma line_status_abs ls t : line_status ls t = get t (map (fun l => (n_tag l, n_on l)) ls).
Proof. unfold line_status, get, tagged. induction ls as [| l ls IH]; cbn; auto. destruct (String.eqb t (n_tag l)); cbn; auto. Qed.
Lemma map_upd A B (f : A -> B) l j x : map f (upd l j x) = upd (map f l) j (f x).
Proof. revert j. induction l as [| a l IH]; intros [| j]; cbn; auto. now rewrite IH. Qed.
Lemma ends_upd brs j f l : nth_error brs j = Some f -> ends (upd brs j (with_lines f l)) = ends brs.
Proof. intros E. unfold ends. rewrite map_upd. apply upd_self. rewrite nth_error_map, E. reflexivity. Qed.
Lemma trip_abs ids : forall brs t sv, labs (fst (trip_lines brs ids t sv)) = fst (g_trip (labs brs) ids t sv) /\
  snd (trip_lines brs ids t sv) = snd (g_trip (labs brs) ids t sv) /\ ends (fst (trip_lines brs ids t sv)) = ends brs.
Proof.
  induction ids as [| j ids IH]; intros brs t sv; cbn; auto. replace (nth_error (labs brs) j) with (option_map line_states (nth_error brs j)) by (unfold labs; now rewrite nth_error_map). destruct (nth_error brs j) as [f |] eqn:E; cbn.
  - destruct (IH (upd brs j (with_lines f (set_line_status (f_lines f) t false))) t (line_status (f_lines f) t)) as (A & B & C).
    rewrite line_status_abs in *. unfold labs in A, B |- *. rewrite map_upd in A, B. change (line_states (with_lines f (set_line_status (f_lines f) t false))) with
      (map (fun l => (n_tag l, n_on l)) (set_line_status (f_lines f) t false)) in *. rewrite set_line_abs in *. unfold line_states in *. split; [exact A |]. split; [exact B |].
    etransitivity; [exact C |]. now apply ends_upd.
  - apply IH.
Qed.
Lemma back_abs ids : forall brs t x, labs (back_lines brs ids t x) = g_back (labs brs) ids t x /\ ends (back_lines brs ids t x) = ends brs.
Proof.
  induction ids as [| j ids IH]; intros brs t x; cbn; auto. unfold at_put. replace (nth_error (labs brs) j) with (option_map line_states (nth_error brs j)) by (unfold labs; now rewrite nth_error_map). destruct (nth_error brs j) as [f |] eqn:E; cbn.
  - destruct (IH (upd brs j (with_lines f (set_line_status (f_lines f) t x))) t x) as (A & B). split.
    + unfold labs in *. rewrite A, map_upd. unfold line_states at 2. cbn [f_lines with_lines]. now rewrite set_line_abs.
    + etransitivity; [exact B |]. now apply ends_upd.
  - apply IH.
Qed.
Definition lentry (brs : list fbr) (x : Z * Z * string * bool) : list nat * string * bool := let '(a, b, t, sv) := x in (local_branch brs a b, t, sv).
Lemma lentry_ends b1 b2 l : ends b1 = ends b2 -> map (lentry b1) l = map (lentry b2) l.
Proof. intros E. apply map_ext. intros [[[a b] t] sv]. cbn. now rewrite (local_ends _ _ _ _ E). Qed.
Definition lfound (brs : list fbr) (l : list (Z * Z * string * bool)) : bool := forallb (fun x => has_some (fst (fst (lentry brs x)))) l.
Lemma lfound_ends b1 b2 l : ends b1 = ends b2 -> lfound b1 l = lfound b2 l.
Proof. intros E. unfold lfound. induction l as [| [[[a b] t] sv] l IH]; cbn; auto. now rewrite IH, (local_ends _ _ _ _ E). Qed.
Lemma set_lines_abs l : forall brs, let '(brs2, l2, ok) := set_lines brs l in
  labs brs2 = fst (g_set (labs brs) (map (lentry brs) l)) /\ map (lentry brs) l2 = snd (g_set (labs brs) (map (lentry brs) l)) /\ ends brs2 = ends brs /\
  ok = lfound brs l /\ map fst l2 = map fst l.
Proof.
  induction l as [| [[[a b] t] sv] l IH]; intros brs; cbn; auto.
  destruct (trip_abs (local_branch brs a b) brs t sv) as (A & B & C). destruct (trip_lines brs (local_branch brs a b) t sv) as [brs1 sv1]. cbn in A, B, C.
  destruct (g_trip (labs brs) (local_branch brs a b) t sv) as [g1 sv1']. cbn in A, B. subst g1 sv1'. specialize (IH brs1). destruct (set_lines brs1 l) as [[brs2 l2] ok].
  destruct IH as (D & E & F & G & H). rewrite (lentry_ends _ _ _ C) in D, E. rewrite (lentry_ends _ _ l2 C) in E. destruct (g_set (labs brs1) (map (lentry brs) l)) as [g2 r2]. cbn in *.
  split; [exact D |]. split; [now rewrite E |]. split; [congruence |]. split; [| now rewrite H]. rewrite G. f_equal. apply lfound_ends; auto.
Qed.
Lemma unset_lines_abs l : forall brs, labs (fst (unset_lines brs l)) = g_unset (labs brs) (map (lentry brs) l) /\ ends (fst (unset_lines brs l)) = ends brs /\
  snd (unset_lines brs l) = lfound brs l.
Proof.
  induction l as [| [[[a b] t] sv] l IH]; intros brs; cbn; auto. destruct (back_abs (local_branch brs a b) brs t sv) as (A & B).
  destruct (IH (back_lines brs (local_branch brs a b) t sv)) as (C & D & E). destruct (unset_lines (back_lines brs (local_branch brs a b) t sv) l) as [brs2 ok]. cbn in *.
  rewrite C, A, (lentry_ends _ _ _ B). split; auto. split; [congruence |]. rewrite E. f_equal. apply lfound_ends; auto.
Qed.
Lemma branches_in brs a b i : In i (branches_of brs a b) <-> exists f, nth_error brs i = Some f /\ f_1 f = a /\ f_2 f = b.
Proof.
  unfold branches_of. rewrite filter_In, in_iota. split.
  - intros [L E]. destruct (nth_error brs i) as [f |] eqn:N; [| discriminate]. apply andb_prop in E as [E1 E2]. exists f. split; auto. split; now apply Z.eqb_eq.
  - intros (f & N & <- & <-). rewrite N, !Z.eqb_refl. split; auto. apply nth_error_Some. congruence.
Qed.
Lemma local_in brs a b i : In i (local_branch brs a b) -> exists f, nth_error brs i = Some f /\ joins f a b.
Proof.
  unfold local_branch, joins. intros H. destruct (branches_of brs a b) as [| x r] eqn:E.
  - apply branches_in in H as (f & N & A & B). eauto.
  - rewrite <- E in H. apply branches_in in H as (f & N & A & B). eauto.
Qed.
Lemma local_has brs a b f i : nth_error brs i = Some f -> joins f a b -> one_branch brs -> In i (local_branch brs a b).
Proof.
  intros N J O. unfold local_branch. destruct (branches_of brs a b) as [| x r] eqn:E.
  - destruct J as [[A B] | [A B]].
    + assert (H : In i (branches_of brs a b)) by (apply branches_in; eauto). rewrite E in H. destruct H.
    + apply branches_in. eauto.
  - assert (X : In x (branches_of brs a b)) by (rewrite E; now left). apply branches_in in X as (g & M & C & D).
    assert (i = x) as -> by (apply (O i x f g N M); unfold joins in *; destruct J as [[? ?] | [? ?]]; subst; [left | right]; auto). now left.
Qed.
Lemma NoDup_iota n : NoDup (iota n).
Proof. unfold iota. apply seq_NoDup. Qed.
Lemma small_of A (l : list A) : NoDup l -> (forall x y, In x l -> In y l -> x = y) -> (length l <= 1)%nat.
Proof.
  intros N U. destruct l as [| x [| y l]]; cbn; auto. exfalso. inversion N as [| ? ? H]; subst. apply H. rewrite (U x y); [now left | now left | right; now left].
Qed.
Lemma local_small brs a b : one_branch brs -> (length (local_branch brs a b) <= 1)%nat.
Proof.
  intros O. apply small_of.
  - unfold local_branch. destruct (branches_of brs a b) as [| x r] eqn:E; [| rewrite <- E]; apply NoDup_filter, NoDup_iota.
  - intros x y X Y. apply local_in in X as (f & N & J), Y as (g & M & K). apply (O x y f g N M). unfold joins in *. intuition congruence.
Qed.
Lemma lentries_small brs l : one_branch brs -> Forall small (map (lentry brs) l).
Proof. intros O. rewrite Forall_map. apply Forall_forall. intros [[[a b] t] sv] _. unfold small; cbn. now apply local_small. Qed.
Lemma FOP_map A B (f : A -> B) (R1 : A -> A -> Prop) (R2 : B -> B -> Prop) l : (forall x y, R1 x y -> R2 (f x) (f y)) -> ForallOrdPairs R1 l -> ForallOrdPairs R2 (map f l).
Proof. intros H F. induction F; cbn; constructor; auto. rewrite Forall_map. eapply Forall_impl; [| eassumption]. cbn. auto. Qed.
Lemma lentries_apart brs l : one_branch brs -> distinct_elements (ELine l) -> ForallOrdPairs apart (map (lentry brs) l).
Proof.
  intros O D. cbn in D. eapply FOP_map; [| exact D]. intros [[[a b] t] sv] [[[c d] t'] sv'] N. unfold apart; cbn. intros [-> (j & X & Y)]. apply N. split; auto.
  apply local_in in X as (f & F & J), Y as (g & G & K). rewrite F in G. injection G as <-. unfold joins, same_ends in *. intuition congruence.
Qed.

(** ** Lone buses *)
Lemma lone_abs b1 b2 x y : labs b1 = labs b2 -> u_near x = u_near y -> lone b1 x = lone b2 y.
Proof.
  intros L N. unfold lone. rewrite N. clear N. f_equal. induction (u_near y) as [| j r IH]; [reflexivity |]. cbn [existsb]. rewrite IH. f_equal.
  assert (E : nth_error (labs b1) j = nth_error (labs b2) j) by now rewrite L. unfold labs in E. rewrite !nth_error_map in E.
  destruct (nth_error b1 j) as [f |], (nth_error b2 j) as [g |]; cbn in E; try discriminate; auto. injection E as E. unfold line_states in E.
  assert (X : forall ls, existsb n_on ls = existsb snd (map (fun l => (n_tag l, n_on l)) ls)) by (induction ls; cbn; congruence). now rewrite !X, E.
Qed.
Definition tb (b : fbus) := (u_act b, u_id b, u_near b, u_iso b, gen_states b).
Definition tb0 (b : fbus) := (u_act b, u_id b, u_near b, gen_states b).
Lemma mark_abs brs l : let '(l', sv, ok) := mark_lone brs l in map tb0 l' = map tb0 l /\
  forall b2 l2, labs brs = labs b2 -> map tb l2 = map tb l' ->
    exists l3, unmark_lone b2 l2 sv = Ok l3 /\ map tb l3 = map tb l.
Proof.
  induction l as [| b l IH]; cbn.
  - split; auto. intros b2 [| ? ?] L E; [| discriminate]. exists []. auto.
  - destruct (mark_lone brs l) as [[r' sv] ok]. destruct IH as [IH1 IH2]. destruct (u_act b && lone brs b) eqn:E; cbn.
    + split; [now rewrite IH1 |]. intros b2 [| c l2] L T; [discriminate |]. cbn in T. injection T as T1 T2 T3 T4 T5 T6. cbn.
      assert (X : u_act c && lone b2 c = true). { rewrite <- E. f_equal; auto. symmetry. apply lone_abs; auto. }
      rewrite X. destruct (IH2 b2 l2 L T6) as (l3 & U & M). rewrite U. cbn. eexists; split; [reflexivity |]. cbn. rewrite M. f_equal. unfold tb. cbn. unfold gen_states in *. cbn in *. congruence.
    + split; [now rewrite IH1 |]. intros b2 [| c l2] L T; [discriminate |]. cbn in T. injection T as T1 T2 T3 T4 T5 T6. cbn.
      assert (X : u_act c && lone b2 c = false). { rewrite <- E. f_equal; auto. symmetry. apply lone_abs; auto. }
      rewrite X. destruct (IH2 b2 l2 L T6) as (l3 & U & M). rewrite U. cbn. eexists; split; [reflexivity |]. cbn. rewrite M. f_equal. unfold tb. congruence.
Qed.
Lemma mark_nil brs l l' ok : mark_lone brs l = (l', [], ok) -> l' = l.
Proof.
  revert l' ok. induction l as [| b l IH]; cbn; intros l' ok; [congruence |]. destruct (mark_lone brs l) as [[r' sv] ok']. destruct (u_act b && lone brs b); [discriminate |].
  intros E. injection E as <- -> ->. now rewrite (IH _ _ eq_refl).
Qed.

(** ** Generators *)
Definition okq (q : qbus) : Prop := length (q_gst q) = length (q_gens q).
Definition gst (q : qbus) : sws := map (fun p => (g_id (snd p), negb (fst p =? 0)%Z)) (combine (q_gst q) (q_gens q)).
Lemma combine_fs A B (l : list (A * B)) : combine (map fst l) (map snd l) = l.
Proof. induction l as [| [a b] l IH]; cbn; auto. now rewrite IH. Qed.
Lemma set_gen_abs q t x : okq q -> exists q', set_gen_status q t x = Ok q' /\ gst q' = put t x (gst q) /\ okq q'.
Proof.
  intros C. unfold set_gen_status, aligned. rewrite (proj2 (Nat.eqb_eq _ _) C). cbn [obind]. eexists; split; [reflexivity |]. unfold gst, okq, unzip_gens, set_gens. cbn [q_gst q_gens].
  rewrite combine_fs. split; [| now rewrite !map_length]. unfold put. induction (combine (q_gst q) (q_gens q)) as [| [z g] l IH]; cbn [upd_first map]; auto. cbn [fst snd] in *.
  rewrite (String.eqb_sym t). destruct (String.eqb (g_id g) t).
  - cbn. destruct x; reflexivity.
  - cbn [map]. now rewrite IH.
Qed.
Lemma gen_status_abs q t : gen_status q t = get t (gst q).
Proof.
  unfold gen_status, get, gst. induction (combine (q_gst q) (q_gens q)) as [| [z g] l IH]; cbn; auto. rewrite (String.eqb_sym t). destruct (String.eqb (g_id g) t); auto.
Qed.
Definition gabs (bs : list fbus) : list sws := map gen_states bs.
Definition stat0 (b : fbus) := (u_act b, u_id b, u_near b, u_iso b).
Definition rest (bs : list fbus) := map stat0 bs.
Definition oks (bs : list fbus) : Prop := forall b, In b bs -> okq (u_q b).
Arguments gabs : simpl never.
Arguments rest : simpl never.
Lemma in_upd A (l : list A) j x y : In y (upd l j x) -> y = x \/ In y l.
Proof. revert j. induction l as [| a l IH]; intros [| j]; cbn; auto; intros [-> | H]; auto. apply IH in H as [-> | H]; auto. Qed.
Lemma oks_upd bs j b q : oks bs -> okq q -> oks (upd bs j (with_q b q)).
Proof. intros O C y H. apply in_upd in H as [-> | H]; auto. Qed.
Lemma rest_upd bs j b q : nth_error bs j = Some b -> rest (upd bs j (with_q b q)) = rest bs.
Proof. intros E. unfold rest. rewrite map_upd. apply upd_self. rewrite nth_error_map, E. reflexivity. Qed.
Lemma nth_gabs bs j : nth_error (gabs bs) j = option_map gen_states (nth_error bs j).
Proof. unfold gabs. now rewrite nth_error_map. Qed.
Lemma gabs_upd bs j b q : gabs (upd bs j (with_q b q)) = upd (gabs bs) j (gst q).
Proof. unfold gabs. rewrite map_upd. reflexivity. Qed.
Lemma trip_gens_abs ids : forall bs t sv, oks bs -> exists bs' sv', trip_gens bs ids t sv = Ok (bs', sv') /\ g_trip (gabs bs) ids t sv = (gabs bs', sv') /\ rest bs' = rest bs /\ oks bs'.
Proof.
  induction ids as [| j ids IH]; intros bs t sv O; cbn.
  - exists bs, sv. auto.
  - rewrite nth_gabs. destruct (nth_error bs j) as [b |] eqn:E; cbn [option_map].
    + destruct (@set_gen_abs (u_q b) t false) as (q & Q & G & C); [apply O; eapply nth_error_In; eauto |]. rewrite Q. cbn [obind].
      destruct (IH (upd bs j (with_q b q)) t (gen_status (u_q b) t)) as (bs' & sv' & A & B & D & F); [now apply oks_upd |].
      exists bs', sv'. split; [exact A |]. rewrite gabs_upd, G, gen_status_abs in B. split; [exact B |]. split; [rewrite D; now apply rest_upd | auto].
    + apply IH; auto.
Qed.
Lemma back_gens_abs ids : forall bs t x, oks bs -> exists bs', back_gens bs ids t x = Ok bs' /\ g_back (gabs bs) ids t x = gabs bs' /\ rest bs' = rest bs /\ oks bs'.
Proof.
  induction ids as [| j ids IH]; intros bs t x O; cbn.
  - exists bs. auto.
  - unfold at_put. rewrite nth_gabs. destruct (nth_error bs j) as [b |] eqn:E; cbn [option_map].
    + destruct (@set_gen_abs (u_q b) t x) as (q & Q & G & C); [apply O; eapply nth_error_In; eauto |]. rewrite Q. cbn [obind].
      destruct (IH (upd bs j (with_q b q)) t x) as (bs' & A & B & D & F); [now apply oks_upd |].
      exists bs'. split; [exact A |]. rewrite gabs_upd, G in B. split; [exact B |]. split; [rewrite D; now apply rest_upd | auto].
    + apply IH; auto.
Qed.
Lemma local_bus_rest b1 b2 i : map u_id b1 = map u_id b2 -> local_bus b1 i = local_bus b2 i.
Proof.
  intros E. unfold local_bus. assert (L : length b1 = length b2) by (apply (f_equal (@length _)) in E; now rewrite !map_length in E). rewrite L.
  apply filter_ext'. intros k. assert (N : nth_error (map u_id b1) k = nth_error (map u_id b2) k) by now rewrite E. rewrite !nth_error_map in N.
  destruct (nth_error b1 k), (nth_error b2 k); cbn in N; try discriminate; auto. injection N as ->. reflexivity.
Qed.
Lemma rest_ids b1 b2 : rest b1 = rest b2 -> map u_id b1 = map u_id b2.
Proof. intros E. assert (X : forall b, map u_id b = map (fun x => snd (fst (fst x))) (rest b)) by (intros; unfold rest; now rewrite map_map). now rewrite !X, E. Qed.
Definition gentry (bs : list fbus) (x : Z * string * bool) : list nat * string * bool := let '(i, t, sv) := x in (local_bus bs i, t, sv).
Lemma gentry_ids b1 b2 l : map u_id b1 = map u_id b2 -> map (gentry b1) l = map (gentry b2) l.
Proof. intros E. apply map_ext. intros [[i t] sv]. cbn. now rewrite (local_bus_rest _ _ _ E). Qed.
Definition gfound (bs : list fbus) (l : list (Z * string * bool)) : bool := forallb (fun x => has_some (fst (fst (gentry bs x)))) l.
Lemma gfound_ids b1 b2 l : map u_id b1 = map u_id b2 -> gfound b1 l = gfound b2 l.
Proof. intros E. unfold gfound. induction l as [| [[i t] sv] l IH]; cbn; auto. now rewrite IH, (local_bus_rest _ _ _ E). Qed.
Lemma set_gens_abs l : forall bs, oks bs -> exists bs2 l2 ok, set_gens_out bs l = Ok (bs2, l2, ok) /\
  g_set (gabs bs) (map (gentry bs) l) = (gabs bs2, map (gentry bs) l2) /\ rest bs2 = rest bs /\ ok = gfound bs l /\ oks bs2 /\ map fst l2 = map fst l.
Proof.
  induction l as [| [[i t] sv] l IH]; intros bs O; cbn.
  - exists bs, [], true. auto 10.
  - destruct (trip_gens_abs (local_bus bs i) t sv O) as (bs1 & sv1 & A & B & C & D). rewrite A, B. cbn [obind fst snd].
    destruct (IH bs1 D) as (bs2 & l2 & ok & E & F & G & H & I & J). pose proof (rest_ids _ _ C) as Y. rewrite E. cbn [obind]. rewrite (gentry_ids _ _ l Y), (gentry_ids _ _ l2 Y) in F. rewrite F.
    do 3 eexists. split; [reflexivity |]. split; [reflexivity |]. split; [congruence |]. split; [rewrite H; f_equal; now apply gfound_ids |]. split; auto. cbn. now rewrite J.
Qed.
Lemma unset_gens_abs l : forall bs, oks bs -> exists bs2, unset_gens bs l = Ok (bs2, gfound bs l) /\ g_unset (gabs bs) (map (gentry bs) l) = gabs bs2 /\ rest bs2 = rest bs /\ oks bs2.
Proof.
  induction l as [| [[i t] sv] l IH]; intros bs O; cbn.
  - exists bs. auto.
  - destruct (back_gens_abs (local_bus bs i) t sv O) as (bs1 & A & B & C & D). rewrite A, B. cbn [obind fst snd]. pose proof (rest_ids _ _ C) as Y.
    destruct (IH bs1 D) as (bs2 & E & F & G & H). rewrite E. cbn [obind fst snd]. exists bs2. rewrite (gfound_ids _ _ l Y). split; auto. rewrite (gentry_ids _ _ l Y) in F. rewrite F.
    split; [auto |]. split; [congruence | auto].
Qed.
Lemma local_bus_in bs i k : In k (local_bus bs i) <-> exists b, nth_error bs k = Some b /\ u_id b = i.
Proof.
  unfold local_bus. rewrite filter_In, in_iota. split.
  - intros [L E]. destruct (nth_error bs k) as [b |]; [| discriminate]. apply Z.eqb_eq in E. eauto.
  - intros (b & N & <-). rewrite N, Z.eqb_refl. split; auto. apply nth_error_Some. congruence.
Qed.
Lemma local_bus_small bs i : NoDup (map u_id bs) -> (length (local_bus bs i) <= 1)%nat.
Proof.
  intros N. apply small_of; [apply NoDup_filter, NoDup_iota |]. intros x y X Y. apply local_bus_in in X as (b & B & E), Y as (c & C & F).
  rewrite NoDup_nth_error in N. apply N; [rewrite map_length; apply nth_error_Some; congruence |]. rewrite !nth_error_map, B, C. cbn. congruence.
Qed.
Lemma gentries_small bs l : NoDup (map u_id bs) -> Forall small (map (gentry bs) l).
Proof. intros O. rewrite Forall_map. apply Forall_forall. intros [[i t] sv] _. unfold small; cbn. now apply local_bus_small. Qed.
Lemma gentries_apart bs l : distinct_elements (EGen l) -> ForallOrdPairs apart (map (gentry bs) l).
Proof.
  intros D. cbn in D. eapply FOP_map; [| exact D]. intros [[i t] sv] [[j t'] sv'] N. unfold apart; cbn. intros [-> (k & X & Y)]. apply N. split; auto.
  apply local_bus_in in X as (b & B & E), Y as (c & C & F). congruence.
Qed.

(** ** Setting and unsetting *)
Lemma topo_eq s1 s2 : topology s1 = topology s2 <-> ends (s_brs s1) = ends (s_brs s2) /\ labs (s_brs s1) = labs (s_brs s2) /\ rest (s_bus s1) = rest (s_bus s2) /\ gabs (s_bus s1) = gabs (s_bus s2).
Proof.
  unfold topology, ends, labs, rest, gabs.
  assert (P : forall A B C (f : A -> B) (g : A -> C) l l', map (fun x => (f x, g x)) l = map (fun x => (f x, g x)) l' <-> map f l = map f l' /\ map g l = map g l').
  { intros A B C f g. induction l as [| x l IH]; intros [| y l']; cbn; split; try easy; [intros E | intros [E1 E2]].
    - injection E as E1 E2 E3. apply IH in E3 as [-> ->]. now rewrite E1, E2.
    - injection E1 as -> E1. injection E2 as -> E2. f_equal. now apply IH. }
  change (fun f : fbr => (f_1 f, f_2 f, line_states f)) with (fun f : fbr => ((fun f => (f_1 f, f_2 f)) f, line_states f)).
  change (fun b : fbus => (u_act b, u_id b, u_near b, u_iso b, gen_states b)) with (fun b : fbus => (stat0 b, gen_states b)).
  split.
  - intros E. injection E as E1 E2. apply P in E1, E2. tauto.
  - intros (A & B & C & D). f_equal; apply P; auto.
Qed.
Lemma tb_eq l l' : map tb l = map tb l' <-> rest l = rest l' /\ gabs l = gabs l'.
Proof.
  unfold rest, gabs, tb. revert l'. induction l as [| x l IH]; intros [| y l']; cbn; split; try easy; [intros E | intros [E1 E2]].
  - injection E as E1 E2 E3 E4 E5 E6. apply IH in E6 as [-> ->]. unfold stat0. now rewrite E1, E2, E3, E4, E5.
  - injection E1 as E1 E3 E4 E5 E1'. injection E2 as E2 E2'. rewrite (proj2 (IH l') (conj E1' E2')). congruence.
Qed.
Lemma mark_q brs l : map u_q (fst (fst (mark_lone brs l))) = map u_q l.
Proof. induction l as [| b l IH]; cbn; auto. destruct (mark_lone brs l) as [[r sv] ok]. destruct (u_act b && lone brs b); cbn in *; now rewrite IH. Qed.
Lemma clear_after_mark brs l b2 s2 : labs brs = labs b2 -> s_brs s2 = b2 -> map tb (s_bus s2) = map tb (fst (fst (mark_lone brs l))) -> s_sav s2 = snd (fst (mark_lone brs l)) ->
  exists l3, clear_lone1 s2 = Ok (with_bus s2 l3) /\ map tb l3 = map tb l /\ (oks (s_bus s2) -> oks l3).
Proof.
  intros L B T S. pose proof (mark_abs brs l) as M. destruct (mark_lone brs l) as [[l' sv] ok] eqn:E. destruct M as [_ M]. cbn in T, S. unfold clear_lone1. rewrite S.
  destruct sv as [| x sv].
  - apply mark_nil in E. subst l'. exists (s_bus s2). destruct s2; cbn in *. auto.
  - destruct (M b2 (s_bus s2) L T) as (l3 & U & V). rewrite B, U. cbn. exists l3. split; auto. split; auto.
    clear - U. revert l3 U. generalize (x :: sv) as sv0. induction (s_bus s2) as [| b l IH]; cbn; intros sv0 l3 U O.
    + injection U as <-. intros ? [].
    + destruct (u_act b && lone b2 b).
      * destruct sv0 as [| y sv0]; [discriminate |]. destruct (unmark_lone b2 l sv0) as [r | |] eqn:R; try discriminate. cbn in U. injection U as <-.
        intros c [<- | H]; [cbn; apply O; now left |]. apply (IH _ _ R); auto. intros d ?. apply O. now right.
      * destruct (unmark_lone b2 l sv0) as [r | |] eqn:R; try discriminate. cbn in U. injection U as <-.
        intros c [<- | H]; [cbn; apply O; now left |]. apply (IH _ _ R); auto. intros d ?. apply O. now right.
Qed.
Lemma check_lone1_eq s : fst (check_lone1 s) = with_sav (with_bus s (fst (fst (mark_lone (s_brs s) (s_bus s))))) (snd (fst (mark_lone (s_brs s) (s_bus s)))).
Proof. unfold check_lone1. now destruct (mark_lone (s_brs s) (s_bus s)) as [[l sv] ok]. Qed.

Theorem restores : forall s e s1 e1 ok s2, well_formed s -> distinct_elements e -> set_contingency s e = Ok (s1, e1, ok) ->
  topology s2 = topology s1 -> s_sav s2 = s_sav s1 -> gens_ok s2 ->
  exists s3, unset_contingency s2 e1 = Ok (s3, ok) /\ topology s3 = topology s.
Proof.
  intros s e s1 e1 ok s2 (W1 & W2 & W3) D S T V G. apply topo_eq in T as (T1 & T2 & T3 & T4). unfold set_contingency in S. destruct e as [l | l |].
  - destruct (set_gens_abs l W3) as (bs & l2 & k & A & B & C & E & F & H). rewrite A in S. cbn [obind] in S. injection S as <- <- <-. rewrite check_lone1_eq in *. cbn in T1, T2, T3, T4, V.
    destruct (@clear_after_mark (s_brs s) bs (s_brs s2) s2) as (l3 & X & Y & Z); auto. { apply tb_eq. auto. }
    unfold unset_contingency. rewrite X. cbn [obind s_bus with_bus]. apply tb_eq in Y as [Y1 Y2].
    destruct (unset_gens_abs l2 (Z G)) as (bs2 & I & J & K & M). rewrite I. cbn [obind fst snd].
    assert (Q : map u_id l3 = map u_id (s_bus s)) by (transitivity (map u_id bs); apply rest_ids; auto).
    eexists; split.
    + f_equal. f_equal. rewrite E, (gfound_ids _ _ _ Q). unfold gfound.
      assert (forall l l', map fst l = map fst l' -> forallb (fun x => has_some (fst (fst (gentry (s_bus s) x)))) l = forallb (fun x => has_some (fst (fst (gentry (s_bus s) x)))) l') as FF.
      { induction l0 as [| [[i t] sv] l0 IH]; intros [| [[i' t'] sv'] l']; cbn; try discriminate; auto. intros R. injection R as -> -> R. now rewrite (IH _ R). }
      apply FF; auto.
    + apply topo_eq. cbn. split; auto. split; auto. split; [congruence |]. rewrite <- J, Y2, (gentry_ids _ _ _ Q).
      pose proof (@g_restore (map (gentry (s_bus s)) l) (gabs (s_bus s)) (@gentries_small _ l W2) (@gentries_apart _ _ D)) as R. rewrite B in R. exact R.
  - pose proof (set_lines_abs l (s_brs s)) as P. destruct (set_lines (s_brs s) l) as [[brs l2] k]. destruct P as (A & B & C & E & F). injection S as <- <- <-. rewrite check_lone1_eq in *. cbn in T1, T2, T3, T4, V.
    destruct (@clear_after_mark brs (s_bus s) (s_brs s2) s2) as (l3 & X & Y & Z); auto. { apply tb_eq. auto. }
    unfold unset_contingency. rewrite X. cbn [obind s_brs with_bus]. apply tb_eq in Y as [Y1 Y2].
    destruct (unset_lines_abs l2 (s_brs s2)) as (I & J & K). destruct (unset_lines (s_brs s2) l2) as [brs3 k2]. cbn [fst snd] in I, J, K. subst k2.
    assert (Q : ends (s_brs s2) = ends (s_brs s)) by congruence.
    eexists; split.
    + f_equal. f_equal. rewrite E, (lfound_ends _ _ _ Q). unfold lfound.
      assert (forall l l', map fst l = map fst l' -> forallb (fun x => has_some (fst (fst (lentry (s_brs s) x)))) l = forallb (fun x => has_some (fst (fst (lentry (s_brs s) x)))) l') as FF.
      { induction l0 as [| [[[a b] t] sv] l0 IH]; intros [| [[[a' b'] t'] sv'] l']; cbn; try discriminate; auto. intros R. injection R as -> -> -> R. now rewrite (IH _ R). }
      apply FF; auto.
    + apply topo_eq. cbn. split; [congruence |]. split; [| auto]. rewrite I, T2, A, (lentry_ends _ _ _ Q), B. apply g_restore; [now apply lentries_small | now apply lentries_apart].
  - injection S as <- <- <-. rewrite check_lone1_eq in *. cbn in T1, T2, T3, T4, V.
    destruct (@clear_after_mark (s_brs s) (s_bus s) (s_brs s2) s2) as (l3 & X & Y & Z); auto. { apply tb_eq. auto. }
    unfold unset_contingency. rewrite X. cbn [obind]. eexists; split; [reflexivity |]. apply tb_eq in Y as [Y1 Y2]. apply topo_eq. cbn. auto.
Qed.

(** ** What setting does *)
Definition keyed (g : list sws) : Prop := forall j l, nth_error g j = Some l -> NoDup (map fst l).
Lemma put_keys t x l : map fst (put t x l) = map fst l.
Proof. unfold put. induction l as [| [a b] l IH]; cbn; auto. destruct (String.eqb t a); cbn; auto. now rewrite IH. Qed.
Lemma put_in t l u : NoDup (map fst l) -> (In (u, true) (put t false l) <-> In (u, true) l /\ u <> t).
Proof.
  unfold put. induction l as [| [a b] l IH]; cbn; intros N; [tauto |]. inversion N as [| ? ? N1 N2]; subst. destruct (String.eqb t a) eqn:E; cbn.
  - apply String.eqb_eq in E. subst a. split.
    + intros [H | H]; [discriminate |]. split; auto. intros ->. apply N1. now apply (in_map fst) in H.
    + intros [[H | H] D]; auto. injection H as -> ->. congruence.
  - rewrite IH by auto. apply String.eqb_neq in E. split.
    + intros [H | [H D]]; auto. injection H as -> ->. split; auto.
    + tauto.
Qed.
Lemma g_trip_effect ids : forall g t sv, keyed g ->
  let g' := fst (g_trip g ids t sv) in keyed g' /\ length g' = length g /\
  forall j l l', nth_error g j = Some l -> nth_error g' j = Some l' -> forall u, In (u, true) l' <-> In (u, true) l /\ ~ (u = t /\ In j ids).
Proof.
  induction ids as [| k ids IH]; intros g t sv K; cbn.
  - split; auto. split; auto. intros j l l' E1 E2 u. replace l' with l by congruence. tauto.
  - destruct (nth_error g k) as [m |] eqn:E.
    + assert (K' : keyed (upd g k (put t false m))).
      { intros j l H. destruct (Nat.eq_dec j k) as [-> | D]; [rewrite (nth_upd_lt _ _ _ E) in H; injection H as <-; rewrite put_keys; eauto | rewrite nth_error_upd_other in H by auto; eauto]. }
      destruct (IH (upd g k (put t false m)) t (get t m) K') as (A & B & C). split; auto. split; [now rewrite B, upd_length |].
      intros j l l' E1 E2 u. destruct (Nat.eq_dec j k) as [-> | D].
      * rewrite E in E1. injection E1 as <-. rewrite (C k (put t false m) l' (nth_upd_lt _ _ _ E) E2 u), put_in by eauto. tauto.
      * rewrite (C j l l') by (auto; rewrite nth_error_upd_other; auto). intuition congruence.
    + destruct (IH g t sv K) as (A & B & C). split; auto. split; auto. intros j l l' E1 E2 u. rewrite (C j l l' E1 E2 u). split; [| tauto]. intros [H N]. split; auto. intros [-> [<- | X]]; [congruence | tauto].
Qed.
Lemma g_set_effect l : forall g, keyed g -> let g' := fst (g_set g l) in length g' = length g /\
  forall j m m', nth_error g j = Some m -> nth_error g' j = Some m' -> forall u, In (u, true) m' <-> In (u, true) m /\ ~ (exists ids sv, In (ids, u, sv) l /\ In j ids).
Proof.
  induction l as [| [[ids t] sv] l IH]; intros g K; cbn.
  - split; auto. intros j m m' E1 E2 u. replace m' with m by congruence. split; [intros H; split; auto; intros (? & ? & [] & _) | tauto].
  - destruct (g_trip_effect ids t sv K) as (A & B & C). destruct (g_trip g ids t sv) as [g1 sv1]. cbn in A, B, C. destruct (IH g1 A) as (D & E). destruct (g_set g1 l) as [g2 r2]. cbn in *.
    split; [congruence |]. intros j m m' E1 E2 u. assert (exists m1, nth_error g1 j = Some m1) as [m1 M1].
    { destruct (nth_error g1 j) eqn:X; eauto. apply nth_error_None in X. assert (nth_error g j <> None) by congruence. apply nth_error_Some in H. lia. }
    rewrite (E j m1 m' M1 E2 u), (C j m m1 E1 M1 u). split.
    + intros [[H N1] N2]. split; auto. intros (is & v & [X | X] & J); [injection X as -> -> ->; tauto |]. apply N2. eauto.
    + intros [H N]. split; [split; auto |].
      * intros [-> J]. apply N. eauto.
      * intros (is & v & X & J). apply N. eauto.
Qed.
Lemma mark_iso brs l : let l' := fst (fst (mark_lone brs l)) in length l' = length l /\
  forall i b b', nth_error l i = Some b -> nth_error l' i = Some b' -> u_near b' = u_near b /\ gen_states b' = gen_states b /\ (u_iso b' = true <-> u_iso b = true \/ (u_act b = true /\ lone brs b = true)).
Proof.
  induction l as [| b l IH]; cbn.
  - split; auto. intros [| i]; discriminate.
  - destruct (mark_lone brs l) as [[r sv] ok]. cbn in IH. destruct IH as [L I]. destruct (u_act b && lone brs b) eqn:E; cbn; (split; [now rewrite L |]); intros [| i] c c' E1 E2; cbn in *; eauto.
    + injection E1 as <-. injection E2 as <-. cbn. apply andb_prop in E as [E1 E2]. repeat split; auto.
    + injection E1 as <-. injection E2 as <-. repeat split; auto. intros [H | [H1 H2]]; auto. rewrite H1, H2 in E. discriminate.
Qed.
Lemma lone_cut s b : lone (s_brs s) b = true <-> cut_off s b.
Proof.
  unfold lone, cut_off. rewrite negb_true_iff. split.
  - intros E j f l J F L. destruct (n_on l) eqn:O; auto. exfalso. assert (X : existsb (fun j => match nth_error (s_brs s) j with Some f => existsb n_on (f_lines f) | None => false end) (u_near b) = true); [| congruence].
    apply existsb_exists. exists j. split; auto. rewrite F. apply existsb_exists. eauto.
  - intros H. apply not_true_iff_false. intros E. apply existsb_exists in E as (j & J & E). destruct (nth_error (s_brs s) j) as [f |] eqn:F; [| discriminate].
    apply existsb_exists in E as (l & L & O). rewrite (H j f l J F L) in O. discriminate.
Qed.
Lemma has_some_iff l : has_some l = true <-> exists x, In x l.
Proof. destruct l; cbn; split; try easy; eauto. intros [? []]. Qed.
Lemma lfound_located s l : one_branch (s_brs s) -> (lfound (s_brs s) l = true <-> located s (ELine l)).
Proof.
  intros O. unfold lfound. rewrite forallb_forall. cbn. split.
  - intros H a b t sv I. specialize (H _ I). cbn in H. apply has_some_iff in H as (j & J). apply local_in in J as (f & F & J). exists f. split; auto. eapply nth_error_In; eauto.
  - intros H [[[a b] t] sv] I. cbn. destruct (H a b t sv I) as (f & F & J). apply In_nth_error in F as (i & F). apply has_some_iff. exists i. eapply local_has; eauto.
Qed.
Lemma gfound_located s l : gfound (s_bus s) l = true <-> located s (EGen l).
Proof.
  unfold gfound. rewrite forallb_forall. cbn. split.
  - intros H i t sv I. specialize (H _ I). cbn in H. apply has_some_iff in H as (j & J). apply local_bus_in in J as (b & B & J). exists b. split; auto. eapply nth_error_In; eauto.
  - intros H [[i t] sv] I. cbn. destruct (H i t sv I) as (b & B & J). apply In_nth_error in B as (k & B). apply has_some_iff. exists k. apply local_bus_in. eauto.
Qed.
Lemma line_on_iff f t : line_on f t <-> In (t, true) (line_states f).
Proof.
  unfold line_on, line_states. rewrite in_map_iff. split.
  - intros (l & L & T & O). exists l. rewrite T, O. auto.
  - intros (l & E & L). exists l. injection E as -> ->. auto.
Qed.
Lemma keyed_labs s : tags_ok s -> keyed (labs (s_brs s)).
Proof.
  intros T j l E. unfold labs in E. rewrite nth_error_map in E. destruct (nth_error (s_brs s) j) as [f |] eqn:F; [| discriminate]. injection E as <-. unfold line_states. rewrite map_map. cbn.
  apply T. eapply nth_error_In; eauto.
Qed.
Lemma keyed_gabs s : ids_ok s -> keyed (gabs (s_bus s)).
Proof.
  intros T j l E. rewrite nth_gabs in E. destruct (nth_error (s_bus s) j) as [f |] eqn:F; [| discriminate]. injection E as <-. apply T. eapply nth_error_In; eauto.
Qed.
Lemma nth_same A B (f : A -> B) l l' i x : map f l = map f l' -> nth_error l i = Some x -> exists y, nth_error l' i = Some y /\ f y = f x.
Proof. intros E N. assert (X : nth_error (map f l) i = nth_error (map f l') i) by now rewrite E. rewrite !nth_error_map, N in X. destruct (nth_error l' i); [| discriminate]. injection X as X. eauto. Qed.

Theorem takes_out : forall s e, well_formed s -> tags_ok s -> ids_ok s ->
  exists s1 e1 ok, set_contingency s e = Ok (s1, e1, ok) /\ (ok = true <-> located s e) /\ length (s_brs s1) = length (s_brs s) /\ length (s_bus s1) = length (s_bus s) /\
    (forall i f f1, nth_error (s_brs s) i = Some f -> nth_error (s_brs s1) i = Some f1 -> forall t, line_on f1 t <-> line_on f t /\ ~ names_line e f t) /\
    (forall i b b1, nth_error (s_bus s) i = Some b -> nth_error (s_bus s1) i = Some b1 ->
       (forall t, gen_on b1 t <-> gen_on b t /\ ~ names_gen e b t) /\ (u_iso b1 = true <-> u_iso b = true \/ (u_act b = true /\ cut_off s1 b))).
Proof.
  intros s e (W1 & W2 & W3) T I.
  assert (Z : forall s0 i b b1, nth_error (s_bus s0) i = Some b -> nth_error (s_bus (fst (check_lone1 s0))) i = Some b1 ->
    gen_states b1 = gen_states b /\ (u_iso b1 = true <-> u_iso b = true \/ (u_act b = true /\ cut_off (fst (check_lone1 s0)) b))).
  { intros s0 i b b1 E1 E2. rewrite check_lone1_eq in *. cbn in E2. destruct (mark_iso (s_brs s0) (s_bus s0)) as [_ M]. destruct (M i b b1 E1 E2) as (M1 & M2 & M3). split; auto.
    rewrite M3, lone_cut. unfold cut_off. cbn. tauto. }
  assert (Y : forall s0, length (s_bus (fst (check_lone1 s0))) = length (s_bus s0)).
  { intros s0. rewrite check_lone1_eq. cbn. apply (mark_iso (s_brs s0) (s_bus s0)). }
  assert (X : forall s0, s_brs (fst (check_lone1 s0)) = s_brs s0) by (intros; now rewrite check_lone1_eq).
  destruct e as [l | l |]; unfold set_contingency.
  - destruct (set_gens_abs l W3) as (bs & l2 & k & A & B & C & E & F & H). rewrite A. cbn [obind]. do 3 eexists. split; [reflexivity |]. subst k. rewrite gfound_located. split; [tauto |].
    rewrite X, Y. cbn. split; auto. assert (LB : length bs = length (s_bus s)) by (apply (f_equal (@length _)) in C; unfold rest in C; now rewrite !map_length in C). split; auto. split.
    + intros i f f1 E1 E2 t. replace f1 with f by congruence. tauto.
    + intros i b b1 E1 E2. destruct (nth_same _ _ _ i (eq_sym C) E1) as (b0 & N0 & R0). destruct (Z (with_bus s bs) i b0 b1 N0 E2) as [Z1 Z2]. unfold stat0 in R0. injection R0 as R1 R2 R3 R4. split.
      * intros t. unfold gen_on. rewrite Z1. destruct (g_set_effect (map (gentry (s_bus s)) l) (keyed_gabs I)) as [_ G]. rewrite B in G. cbn [fst] in G.
        rewrite (G i (gen_states b) (gen_states b0)) by (rewrite nth_gabs, ?N0, ?E1; reflexivity). split; intros [P N]; split; auto; intros Q; apply N.
        -- destruct Q as (sv & Q). exists (local_bus (s_bus s) (u_id b)), sv. split; [apply in_map_iff; exists (u_id b, t, sv); auto |]. apply local_bus_in. eauto.
        -- destruct Q as (ids & sv & Q & J). apply in_map_iff in Q as ([[j t'] sv'] & Q1 & Q2). cbn in Q1. injection Q1 as <- -> ->. apply local_bus_in in J as (c & C1 & C2). exists sv. congruence.
      * rewrite Z2, R4, R1. unfold cut_off. rewrite R3. tauto.
  - pose proof (set_lines_abs l (s_brs s)) as P. destruct (set_lines (s_brs s) l) as [[brs l2] k]. destruct P as (A & B & C & E & F). do 3 eexists. split; [reflexivity |]. subst k. rewrite lfound_located by auto.
    split; [tauto |]. rewrite X, Y. cbn. split; [apply (f_equal (@length _)) in C; unfold ends in C; now rewrite !map_length in C |]. split; auto. split.
    + intros i f f1 E1 E2 t. rewrite !line_on_iff. destruct (g_set_effect (map (lentry (s_brs s)) l) (keyed_labs T)) as [_ G]. rewrite <- A in G.
      rewrite (G i (line_states f) (line_states f1)) by (unfold labs; rewrite nth_error_map, ?E1, ?E2; reflexivity). split; intros [P N]; split; auto; intros Q; apply N.
      * destruct Q as (a & b & sv & Q & J). exists (local_branch (s_brs s) a b), sv. split; [apply in_map_iff; exists (a, b, t, sv); auto |]. eapply local_has; eauto.
      * destruct Q as (ids & sv & Q & J). apply in_map_iff in Q as ([[[a b] t'] sv'] & Q1 & Q2). cbn in Q1. injection Q1 as <- -> ->. apply local_in in J as (g & G1 & G2). exists a, b, sv. split; auto. congruence.
    + intros i b b1 E1 E2. destruct (Z (with_brs s brs) i b b1 E1 E2) as [Z1 Z2]. split; [| exact Z2]. intros t. unfold gen_on. rewrite Z1. tauto.
  - do 3 eexists. split; [reflexivity |]. cbn. split; [easy |]. rewrite X, Y. split; auto. split; auto. split.
    + intros i f f1 E1 E2 t. replace f1 with f by congruence. tauto.
    + intros i b b1 E1 E2. destruct (Z s i b b1 E1 E2) as [Z1 Z2]. split; [| exact Z2]. intros t. unfold gen_on. rewrite Z1. tauto.
Qed.

(** ** Limit checks *)
Lemma forallb_ext_in' A (p q : A -> bool) l : (forall x, In x l -> p x = q x) -> forallb p l = forallb q l.
Proof. intros H. induction l as [| a l IH]; cbn; auto. rewrite H by now left. rewrite IH; auto. intros; apply H; now right. Qed.
From Verif Require Import PqSpec GAModel ParModel ParSpec.
From Verif Require PqProps ParProps.
Lemma flag_fold A (p : A -> bool) l : forall z, fold_left (fun ok b => if p b then false else ok) l z = true <-> z = true /\ forall b, In b l -> p b = false.
Proof.
  induction l as [| a l IH]; intros z; cbn; [intuition |]. rewrite IH. destruct (p a) eqn:E.
  - split; [intros [H _]; discriminate | intros [_ H]; rewrite (H a) in E by auto; discriminate].
  - split; intros [H1 H2]; split; auto. intros b [<- | H]; auto.
Qed.
Lemma voltage_ok_iff b : voltage_ok b = true <-> ~ off_limits b.
Proof. unfold voltage_ok, off_limits. destruct (Rlt_dec (u_vmax b) (vmag b)), (Rlt_dec (vmag b) (u_vmin b)); split; try easy; tauto. Qed.
Lemma voltage_okb b : voltage_ok b = negb (off_limitsb b).
Proof. unfold voltage_ok, off_limitsb. destruct (Rlt_dec (u_vmax b) (vmag b)); auto. destruct (Rlt_dec (vmag b) (u_vmin b)); auto. Qed.
Lemma check_voltage_iff w : check_voltage w = true <-> forall s b, In s w -> watched_bus s b -> ~ off_limits b.
Proof.
  unfold check_voltage. rewrite TaskProofs.check_true_spec. split.
  - intros H s b S (B & A & I). specialize (H _ (in_map _ _ _ S)). cbn in H. apply flag_fold in H as [_ H]. specialize (H b B). cbn in H. rewrite A, I in H. cbn in H. apply voltage_ok_iff. now apply negb_false_iff.
  - intros H x X. apply in_map_iff in X as (s & <- & S). apply flag_fold. split; auto. intros b B. destruct (u_act b) eqn:A, (u_ign b) eqn:I; cbn; auto. apply negb_false_iff, voltage_ok_iff. apply (H s); auto. repeat split; auto.
Qed.
Lemma viol_fold A (p : A -> bool) (f : A -> viol) l : forall s z, fold_left (fun st b => if p b then (with_viol (fst st) (s_viol (fst st) ++ [f b])%list, false) else st) l (s, z) =
  (with_viol s (s_viol s ++ map f (filter p l))%list, z && forallb (fun b => negb (p b)) l).
Proof.
  induction l as [| a l IH]; intros s z; cbn.
  - rewrite app_nil_r, andb_true_r. destruct s; reflexivity.
  - destruct (p a); cbn; rewrite IH; cbn.
    + rewrite <- app_assoc, andb_false_r. reflexivity.
    + reflexivity.
Qed.
Lemma voltage_area_eq area s : check_voltage_area1 area s =
  let p := fun b => u_act b && (negb (u_ign b) && (u_area b =? area)%Z) && off_limitsb b in
  (with_viol s (s_viol s ++ map (fun b => Viol true (u_id b) (-1) None) (filter p (s_bus s)))%list, forallb (fun b => negb (p b)) (s_bus s)).
Proof.
  unfold check_voltage_area1. cbn zeta. rewrite (@viol_fold fbus (fun b => u_act b && (negb (u_ign b) && (u_area b =? area)%Z) && negb (voltage_ok b)) (fun b => Viol true (u_id b) (-1) None)).
  assert (E : forall b, u_act b && (negb (u_ign b) && (u_area b =? area)%Z) && negb (voltage_ok b) = u_act b && (negb (u_ign b) && (u_area b =? area)%Z) && off_limitsb b) by (intros; now rewrite voltage_okb, negb_involutive).
  f_equal; [| cbn [andb]].
  - do 3 f_equal. apply filter_ext'. auto.
  - induction (s_bus s) as [| b l IH]; cbn; auto. now rewrite IH, E.
Qed.
Lemma off_limits_iff b : off_limitsb b = true <-> off_limits b.
Proof. unfold off_limitsb, off_limits. destruct (Rlt_dec (u_vmax b) (vmag b)), (Rlt_dec (vmag b) (u_vmin b)); split; try easy; tauto. Qed.

(** Lines *)
Lemma find_tag ls l : NoDup (map n_tag ls) -> In l ls -> find (tagged (n_tag l)) ls = Some l.
Proof.
  unfold tagged. induction ls as [| a ls IH]; cbn; intros N H; [destruct H |]. destruct H as [-> | H].
  - now rewrite String.eqb_refl.
  - inversion N as [| ? ? N1 N2]; subst. destruct (String.eqb (n_tag l) (n_tag a)) eqn:E; auto. apply String.eqb_eq in E. exfalso. apply N1. rewrite <- E. now apply in_map.
Qed.
Lemma rate_eq rb l : rate rb l = rating rb l.
Proof. unfold rate, rating. destruct rb, (n_B l); reflexivity. Qed.
Lemma above_eq rb l : above (rating rb l) (n_S l) = overloadedb rb l.
Proof. reflexivity. Qed.
Lemma overloaded_iff rb l : overloadedb rb l = true <-> overloaded rb l.
Proof.
  unfold overloadedb, overloaded. destruct (rating rb l) as [r |].
  - destruct (Rlt_dec 0 r); [destruct (Rlt_dec r (n_S l)) |]; split; try easy; [eauto | intros (r' & E & ? & ?); injection E as <-; tauto | intros (r' & E & ? & ?); injection E as <-; tauto].
  - split; [easy | intros (r & E & _); discriminate].
Qed.
Lemma check_lines_eq s : tags_ok s -> check_lines1 s =
  let p := fun l => negb (n_ign l) && overloadedb (s_rateB s) l in
  (with_viol s (s_viol s ++ flat_map (fun f => if f_act f then map (fun l => line_viol f (n_tag l)) (filter p (f_lines f)) else []) (s_brs s))%list,
   forallb (fun f => negb (f_act f) || forallb (fun l => negb (p l)) (f_lines f)) (s_brs s)).
Proof.
  intros T. unfold check_lines1. cbn zeta. set (rb := s_rateB s). unfold tags_ok in T.
  assert (G : forall brs s0 z, (forall f, In f brs -> NoDup (map n_tag (f_lines f))) ->
    fold_left (fun st f => if f_act f then fold_left (fun st l => if negb (get_ignore (f_lines f) (n_tag l)) && above (rate rb l) (power (f_lines f) (n_tag l))
        then (with_viol (fst st) (s_viol (fst st) ++ [line_viol f (n_tag l)])%list, false) else st) (f_lines f) st else st) brs (s0, z) =
    (with_viol s0 (s_viol s0 ++ flat_map (fun f => if f_act f then map (fun l => line_viol f (n_tag l)) (filter (fun l => negb (n_ign l) && overloadedb rb l) (f_lines f)) else []) brs)%list,
     z && forallb (fun f => negb (f_act f) || forallb (fun l => negb (negb (n_ign l) && overloadedb rb l)) (f_lines f)) brs)).
  { induction brs as [| f brs IH]; intros s0 z N; cbn [fold_left flat_map forallb].
    - rewrite app_nil_r, andb_true_r. destruct s0; reflexivity.
    - destruct (f_act f); cbn [negb orb].
      + rewrite (@viol_fold line (fun l => negb (get_ignore (f_lines f) (n_tag l)) && above (rate rb l) (power (f_lines f) (n_tag l))) (fun l => line_viol f (n_tag l))).
        rewrite IH by (intros; apply N; now right). cbn [s_viol with_viol s_bus s_brs s_sav s_rateB].
        assert (E : forall l, In l (f_lines f) -> negb (get_ignore (f_lines f) (n_tag l)) && above (rate rb l) (power (f_lines f) (n_tag l)) = negb (n_ign l) && overloadedb rb l).
        { intros l L. unfold get_ignore, power. rewrite !find_tag by (auto; apply N; now left). now rewrite rate_eq, above_eq. }
        assert (E2 : forallb (fun l => negb (negb (get_ignore (f_lines f) (n_tag l)) && above (rate rb l) (power (f_lines f) (n_tag l)))) (f_lines f) =
                     forallb (fun l => negb (negb (n_ign l) && overloadedb rb l)) (f_lines f)) by (apply forallb_ext_in'; intros l L; now rewrite E).
        rewrite E2, (filter_ext_in _ _ _ E), <- app_assoc, <- andb_assoc. reflexivity.
      + apply IH. intros; apply N; now right. }
  rewrite G by auto. reflexivity.
Qed.
Lemma lines_area_iff area w : (forall s, In s w -> tags_ok s) ->
  (check_lines_area area w = true <-> forall s f l, In s w -> watched_line s f l -> touches s area f -> ~ overloaded (s_rateB s) l).
Proof.
  intros T. unfold check_lines_area. rewrite TaskProofs.check_true_spec.
  assert (G : forall s, In s w -> (fold_left (fun ok f => if f_act f && in_area s area f then
        fold_left (fun ok l => if negb (get_ignore (f_lines f) (n_tag l)) && above (rate (s_rateB s) l) (power (f_lines f) (n_tag l)) then false else ok) (f_lines f) ok
      else ok) (s_brs s) true = true <-> forall f, In f (s_brs s) -> f_act f && in_area s area f = true -> forall l, In l (f_lines f) -> n_ign l = false -> overloadedb (s_rateB s) l = false)).
  { intros s S. assert (H : forall brs z, (forall f, In f brs -> NoDup (map n_tag (f_lines f))) -> (fold_left (fun ok f => if f_act f && in_area s area f then
        fold_left (fun ok l => if negb (get_ignore (f_lines f) (n_tag l)) && above (rate (s_rateB s) l) (power (f_lines f) (n_tag l)) then false else ok) (f_lines f) ok
      else ok) brs z = true <-> z = true /\ forall f, In f brs -> f_act f && in_area s area f = true -> forall l, In l (f_lines f) -> n_ign l = false -> overloadedb (s_rateB s) l = false)).
    { induction brs as [| f brs IH]; intros z N; cbn [fold_left]; [cbn; intuition |]. rewrite IH by (intros; apply N; now right). destruct (f_act f && in_area s area f) eqn:E.
      - rewrite (@flag_fold line (fun l => negb (get_ignore (f_lines f) (n_tag l)) && above (rate (s_rateB s) l) (power (f_lines f) (n_tag l)))).
        assert (X : forall l, In l (f_lines f) -> negb (get_ignore (f_lines f) (n_tag l)) && above (rate (s_rateB s) l) (power (f_lines f) (n_tag l)) = negb (n_ign l) && overloadedb (s_rateB s) l).
        { intros l L. unfold get_ignore, power. rewrite !find_tag by (auto; apply N; now left). now rewrite rate_eq, above_eq. }
        split.
        + intros [[Z H1] H2]. split; auto. intros g [<- | G] A l L I; eauto. specialize (H1 l L). rewrite X, I in H1 by auto. exact H1.
        + intros [Z H]. split; [split; auto |].
          * intros l L. rewrite X by auto. destruct (n_ign l) eqn:I; cbn; auto. apply (H f); auto. now left.
          * intros; eapply H; eauto. now right.
      - split; intros [Z H]; split; auto.
        + intros g [<- | G] A; [congruence | eauto].
        + intros; eapply H; eauto. now right. }
    rewrite H by (apply T; auto). tauto. }
  assert (IA : forall s f, in_area s area f = true <-> touches s area f).
  { intros s f. unfold in_area, touches, area_of. rewrite existsb_exists. split.
    - intros (i & [<- | [<- | []]] & E); destruct (nth_error (s_bus s) _) as [b |] eqn:N; try discriminate; apply Z.eqb_eq in E; eauto 6.
    - intros (i & b & I & N & E). exists i. split; [cbn; destruct I as [-> | ->]; auto |]. rewrite N. now apply Z.eqb_eq. }
  split.
  - intros H s f l S (F & A & L & I) TO O. apply overloaded_iff in O. specialize (H _ (in_map _ _ _ S)). cbn beta in H. rewrite (G s S) in H. apply IA in TO.
    rewrite (H f F) in O; auto; [discriminate |]. now rewrite A, TO.
  - intros H x X. apply in_map_iff in X as (s & <- & S). apply G; auto. intros f F E l L I. apply andb_prop in E as [E1 E2]. destruct (overloadedb (s_rateB s) l) eqn:O; auto. exfalso.
    apply overloaded_iff in O. apply IA in E2. apply (H s f l); auto. repeat split; auto.
Qed.

(** Ignoring *)
Lemma existsb_ext' A (p q : A -> bool) l : (forall x, p x = q x) -> existsb p l = existsb q l.
Proof. intros E. induction l; cbn; auto. now rewrite E, IHl. Qed.
Lemma set_ignore_tags ls t x : map n_tag (set_ignore ls t x) = map n_tag ls.
Proof. unfold set_ignore. rewrite map_map. apply map_ext. intros l. now destruct (tagged t l). Qed.
Lemma power_ign ls t x u : power (set_ignore ls t x) u = power ls u.
Proof.
  unfold power, set_ignore. induction ls as [| a l IH]; cbn; auto. unfold tagged in *. destruct (String.eqb t (n_tag a)); cbn; destruct (String.eqb u (n_tag a)); auto.
Qed.
Lemma ignore_fold r : forall ls, fold_left (fun ls l => if above (n_A l) (power ls (n_tag l)) then set_ignore ls (n_tag l) true else ls) r ls =
  map (fun l => if existsb (fun x => tagged (n_tag x) l && above (n_A x) (power ls (n_tag x))) r then with_lign l true else l) ls.
Proof.
  induction r as [| a r IH]; intros ls; cbn [fold_left existsb]; [now rewrite map_id |].
  destruct (above (n_A a) (power ls (n_tag a))) eqn:E; rewrite IH.
  - unfold set_ignore. rewrite map_map. apply map_ext. intros l. rewrite andb_true_r. fold (set_ignore ls (n_tag a) true). destruct (tagged (n_tag a) l) eqn:T; cbn [orb].
    + destruct (existsb _ _); reflexivity.
    + rewrite (@existsb_ext' _ _ (fun x => tagged (n_tag x) l && above (n_A x) (power ls (n_tag x)))); [reflexivity |]. intros x. now rewrite power_ign.
  - apply map_ext. intros l. now rewrite andb_false_r.
Qed.
Lemma ignore_branch_eq f : NoDup (map n_tag (f_lines f)) -> f_lines (ignore_branch f) = map (fun l => if overloadedb false l then with_lign l true else l) (f_lines f).
Proof.
  intros N. cbn. rewrite ignore_fold. apply map_ext_in. intros l L.
  assert (E : existsb (fun x => tagged (n_tag x) l && above (n_A x) (power (f_lines f) (n_tag x))) (f_lines f) = overloadedb false l); [| now rewrite E].
  apply eq_iff_eq_true. rewrite existsb_exists. split.
  - intros (x & X & E). apply andb_prop in E as [E1 E2]. unfold tagged in E1. apply String.eqb_eq in E1.
    assert (x = l) as -> by (pose proof (find_tag _ _ N X); pose proof (find_tag _ _ N L); congruence). unfold power in E2. rewrite find_tag in E2 by auto. exact E2.
  - intros O. exists l. split; auto. unfold tagged. rewrite String.eqb_refl. unfold power. rewrite find_tag by auto. exact O.
Qed.
Lemma clear_fold r : forall ls, fold_left (fun ls l => set_ignore ls (n_tag l) false) r ls = map (fun l => if existsb (fun x => tagged (n_tag x) l) r then with_lign l false else l) ls.
Proof.
  induction r as [| a r IH]; intros ls; cbn [fold_left existsb]; [now rewrite map_id |]. rewrite IH. unfold set_ignore. rewrite map_map. apply map_ext. intros l.
  destruct (tagged (n_tag a) l) eqn:T; cbn [orb]; [| reflexivity]. destruct (existsb _ _); reflexivity.
Qed.
Lemma clear_branch_eq f : fold_left (fun ls l => set_ignore ls (n_tag l) false) (f_lines f) (f_lines f) = map (fun l => with_lign l false) (f_lines f).
Proof.
  rewrite clear_fold. apply map_ext_in. intros l L. assert (E : existsb (fun x => tagged (n_tag x) l) (f_lines f) = true); [| now rewrite E].
  apply existsb_exists. exists l. split; auto. apply String.eqb_refl.
Qed.

(** ** Listed lines *)
Lemma mapO_ok A B (f : A -> outcome B) (g : A -> B) l : (forall x, In x l -> f x = Ok (g x)) -> mapO f l = Ok (map g l).
Proof. induction l as [| a l IH]; cbn; intros H; auto. rewrite H by now left. cbn. rewrite IH by (intros; apply H; now right). reflexivity. Qed.
Lemma mapO_some A B (f : A -> outcome B) l : (forall x, In x l -> exists y, f x = Ok y) -> exists ys, mapO f l = Ok ys /\ Forall2 (fun x y => f x = Ok y) l ys.
Proof.
  induction l as [| a l IH]; cbn; intros H; [eauto |]. destruct (H a) as [y Y]; [now left |]. destruct IH as (ys & E & F); [intros; apply H; now right |]. rewrite Y. cbn. rewrite E. cbn. eauto.
Qed.
Definition bad1 (t : string) (f : fbr) : bool := existsb (fun l => tagged t l && negb (n_ign l) && overloadedb false l) (f_lines f).
Definition single (s : proc) : Prop := forall f, In f (s_brs s) -> length (f_lines f) = 1%nat.
Lemma any_fails_ok tags t s ids : tags <> [] -> (forall x, In x tags -> x = t) -> single s -> (forall i, In i ids -> exists f, nth_error (s_brs s) i = Some f) ->
  any_fails tags t (s_brs s) ids = Ok (existsb (fun i => match nth_error (s_brs s) i with Some f => bad1 t f | None => false end) ids).
Proof.
  intros TN TE S. induction ids as [| i ids IH]; intros I; cbn; auto. destruct (I i) as [f F]; [now left |]. rewrite F, IH by (intros; apply I; now right).
  pose proof (S f (nth_error_In _ _ F)) as L. unfold bad1. destruct (f_lines f) as [| l [| ? ?]]; try discriminate. cbn. destruct tags as [| u tags]; [easy |]. rewrite (TE u) by now left. cbn.
  unfold get_ignore, power. cbn. destruct (tagged t l); cbn; [| reflexivity]. rewrite !orb_false_r. reflexivity.
Qed.
Lemma listed_ok b1 b2 tags t w : length b1 = length b2 -> length b1 = length tags -> (forall x, In x tags -> x = t) -> (forall s, In s w -> single s) ->
  check_listed b1 b2 tags w = Ok (let v := map (fun q => negb (existsb (fun s => existsb (fun i => match nth_error (s_brs s) i with Some f => bad1 t f | None => false end) (local_branch (s_brs s) (fst q) (snd q))) w)) (combine b1 b2)
    in (Some v, forallb (fun x => x) v)).
Proof.
  intros L1 L2 T S. unfold check_listed. rewrite (proj2 (Nat.eqb_eq _ _) L1), (proj2 (Nat.eqb_eq _ _) L2). cbn [andb].
  rewrite (@mapO_ok _ _ _ (fun q => negb (existsb (fun s => existsb (fun i => match nth_error (s_brs s) i with Some f => bad1 t f | None => false end) (local_branch (s_brs s) (fst (fst q)) (snd (fst q)))) w))).
  - cbn [obind]. cbn zeta.
    assert (E : forall (P : Z * Z -> bool) (l : list (Z * Z)) tg, length l = length tg -> map (fun q => P (fst q)) (combine l tg : list ((Z * Z) * string)) = map P l).
    { intros P. induction l as [| a l IH]; intros [| x tg] E; cbn; try discriminate; auto. now rewrite IH by (cbn in E; lia). }
    pose proof (E (fun q => negb (existsb (fun s => existsb (fun i => match nth_error (s_brs s) i with Some f => bad1 t f | None => false end) (local_branch (s_brs s) (fst q) (snd q))) w)) (combine b1 b2) tags) as E'.
    cbn beta in E'. rewrite E' by (rewrite combine_length; lia). reflexivity.
  - intros [[a b] u] I. assert (u = t) as -> by (apply T; eapply in_combine_r; eauto).
    rewrite (@mapO_ok _ _ _ (fun s => existsb (fun i => match nth_error (s_brs s) i with Some f => bad1 t f | None => false end) (local_branch (s_brs s) a b))).
    + cbn. f_equal. f_equal. clear. induction w as [| s w IH]; cbn; auto. now rewrite IH.
    + intros s H. apply any_fails_ok; auto. { apply in_combine_r in I. destruct tags; [destruct I | discriminate]. } intros i J. apply local_in in J as (f & F & _). eauto.
Qed.
Lemma bad_iff t s a b : one_branch (s_brs s) ->
  (existsb (fun i => match nth_error (s_brs s) i with Some f => bad1 t f | None => false end) (local_branch (s_brs s) a b) = true <->
   exists f l, In f (s_brs s) /\ joins f a b /\ In l (f_lines f) /\ n_tag l = t /\ n_ign l = false /\ overloaded false l).
Proof.
  intros O. rewrite existsb_exists. split.
  - intros (i & I & E). apply local_in in I as (f & F & J). rewrite F in E. unfold bad1 in E. apply existsb_exists in E as (l & L & E). apply andb_prop in E as [E E3]. apply andb_prop in E as [E1 E2].
    exists f, l. split; [eapply nth_error_In; eauto |]. split; auto. split; auto. split; [symmetry; now apply String.eqb_eq |]. split; [now apply negb_true_iff | now apply overloaded_iff].
  - intros (f & l & F & J & L & E1 & E2 & E3). apply In_nth_error in F as (i & F). exists i. split; [eapply local_has; eauto |]. rewrite F. unfold bad1. apply existsb_exists. exists l. split; auto.
    unfold tagged. rewrite E1, String.eqb_refl, E2. apply overloaded_iff in E3. now rewrite E3.
Qed.

(** ** Reactive limits *)
Definition violb (r : bool) : bool := r.
Lemma qlim_loop_ok sel bad l : (forall b, In b l -> sel b = true -> length (q_gst (u_q b)) = length (q_gens (u_q b)) /\ q_xc (u_q b) <> None) ->
  exists l' rs, qlim_loop sel bad l = Ok (l', forallb (fun r => negb (bad r)) rs) /\ length l' = length l /\
    (forall i b b', nth_error l i = Some b -> nth_error l' i = Some b' -> u_act b' = u_act b /\ u_id b' = u_id b /\
       (if sel b then exists r, chk_qlim (u_q b) = Ok (r, u_q b') else b' = b)) /\
    (forall r, In r rs <-> exists b q, In b l /\ sel b = true /\ chk_qlim (u_q b) = Ok (r, q)).
Proof.
  induction l as [| b l IH]; intros H; cbn.
  - exists [], []. cbn. split; auto. split; auto. split; [intros [| i]; discriminate |]. split; [intros [] | intros (? & ? & [] & _)].
  - destruct IH as (l' & rs & A & B & C & D); [intros; apply H; auto; now right |]. rewrite A. destruct (sel b) eqn:E.
    + destruct (H b) as [H1 H2]; auto; [now left |]. destruct (PqProps.C38_converts_exactly_beyond_limits H1 H2) as (r & q & Q & _). rewrite Q. cbn.
      exists (with_q b q :: l'), (r :: rs). cbn. split; auto. split; [now rewrite B |]. split.
      * intros [| i] c c' E1 E2; cbn in *; [| eauto]. injection E1 as <-. injection E2 as <-. rewrite E. cbn. repeat split; auto. eauto.
      * intros r'. rewrite D. split.
        -- intros [<- | (c & q' & C1 & C2 & C3)]; [exists b, q | exists c, q']; auto.
        -- intros (c & q' & [<- | C1] & C2 & C3); [left; congruence | right; eauto].
    + cbn. exists (b :: l'), rs. cbn. split; auto. split; [now rewrite B |]. split.
      * intros [| i] c c' E1 E2; cbn in *; [| eauto]. injection E1 as <-. injection E2 as <-. rewrite E. auto.
      * intros r'. rewrite D. split; intros (c & q' & C1 & C2 & C3); [eauto 6 |]. destruct C1 as [<- | C1]; [congruence | eauto].
Qed.
Lemma chk_result q r q' : length (q_gst q) = length (q_gens q) -> q_xc q <> None -> chk_qlim q = Ok (r, q') ->
  (r = true <-> q_violated q) /\ q_pv q' = (if r then false else q_pv q) /\ exists a v, q_xc q' = Some (a, v, q_pv q').
Proof.
  intros C X E. destruct (PqProps.C38_converts_exactly_beyond_limits C X) as (r0 & q0 & Q & A & B & D & _). rewrite E in Q. injection Q as -> ->. split; auto.
Qed.
Lemma F2_nth A B (P : A -> B -> Prop) l m : Forall2 P l m -> length l = length m /\ forall i x y, nth_error l i = Some x -> nth_error m i = Some y -> P x y.
Proof.
  induction 1 as [| a b l m H F [L I]]; cbn; [split; auto; intros [| i]; discriminate |]. split; [now rewrite L |]. intros [| i] x y E1 E2; cbn in *; [congruence | eauto].
Qed.
Lemma nth_len A B (l : list A) (m : list B) i x : length l = length m -> nth_error l i = Some x -> exists y, nth_error m i = Some y.
Proof. intros L E. destruct (nth_error m i) eqn:F; eauto. apply nth_error_None in F. assert (nth_error l i <> None) by congruence. apply nth_error_Some in H. lia. Qed.
Lemma qlim_all_ok sel bad w : checkable w -> exists w1 rs, qlim_all sel bad w = Ok (update_ghosts w1, TaskModel.check_true rs) /\ length w1 = length w /\
  (forall i s s1, nth_error w i = Some s -> nth_error w1 i = Some s1 -> s_brs s1 = s_brs s /\ length (s_bus s1) = length (s_bus s) /\
    forall j b b1, nth_error (s_bus s) j = Some b -> nth_error (s_bus s1) j = Some b1 -> u_act b1 = u_act b /\ u_id b1 = u_id b /\ (if sel b then exists r, chk_qlim (u_q b) = Ok (r, u_q b1) else b1 = b)) /\
  ((forall x, In x rs -> x = true) <-> forall s b r q, In s w -> In b (s_bus s) -> sel b = true -> chk_qlim (u_q b) = Ok (r, q) -> bad r = false).
Proof.
  intros K. unfold qlim_all. destruct (@mapO_some _ _ (fun s => obind (qlim_loop sel bad (s_bus s)) (fun y => Ok (with_bus s (fst y), snd y))) w) as (ys & E & F).
  { intros s S. destruct (@qlim_loop_ok sel bad (s_bus s)) as (l' & rs & A & _); [intros b B _; now apply (K s) |]. rewrite A. cbn. eauto. }
  rewrite E. cbn [obind]. exists (map fst ys), (map snd ys). apply F2_nth in F as [L F]. split; auto. split; [now rewrite map_length |]. split.
  - intros i s s1 N N1. rewrite nth_error_map in N1. destruct (nth_error ys i) as [y |] eqn:Y; [| discriminate]. injection N1 as <-. specialize (F i s y N Y). cbn beta in F.
    destruct (@qlim_loop_ok sel bad (s_bus s)) as (l' & rs & A & B & C & D); [intros b Hb _; apply (K s); auto; eapply nth_error_In; eauto |]. rewrite A in F. cbn in F. injection F as <-. cbn. auto.
  - split.
    + intros H s b r q S B Sb Q. apply In_nth_error in S as (i & S). destruct (nth_len _ _ _ L S) as (y & Y). specialize (F i s y S Y). cbn beta in F.
      destruct (@qlim_loop_ok sel bad (s_bus s)) as (l' & rs & A1 & A2 & A3 & A4); [intros c Hc _; apply (K s); auto; eapply nth_error_In; eauto |]. rewrite A1 in F. cbn in F. injection F as <-.
      assert (X : forallb (fun r => negb (bad r)) rs = true) by (apply H; apply (in_map snd) in Y as _ || (change (forallb (fun r => negb (bad r)) rs) with (snd (with_bus s l', forallb (fun r => negb (bad r)) rs)); apply in_map; eapply nth_error_In; eauto)).
      rewrite forallb_forall in X. apply negb_true_iff, X, A4. eauto.
    + intros H x X. apply in_map_iff in X as (y & <- & Y). apply In_nth_error in Y as (i & Y). destruct (nth_len _ _ _ (eq_sym L) Y) as (s & S). specialize (F i s y S Y). cbn beta in F.
      destruct (@qlim_loop_ok sel bad (s_bus s)) as (l' & rs & A1 & A2 & A3 & A4); [intros c Hc _; apply (K s); auto; eapply nth_error_In; eauto |]. rewrite A1 in F. cbn in F. injection F as <-. cbn.
      apply forallb_forall. intros r R. apply A4 in R as (b & q & B & Sb & Q). apply negb_true_iff. eapply H; eauto. eapply nth_error_In; eauto.
Qed.
Lemma NoDup_map_eq A B (f : A -> B) l x y : NoDup (map f l) -> In x l -> In y l -> f x = f y -> x = y.
Proof.
  induction l as [| a l IH]; cbn; intros N X Y E; [destruct X |]. inversion N as [| ? ? N1 N2]; subst. destruct X as [-> | X], Y as [-> | Y]; auto; exfalso; apply N1.
  - rewrite E. now apply in_map.
  - rewrite <- E. now apply in_map.
Qed.
Lemma in_flat w s b : In s w -> In b (s_bus s) -> In b (flat_map s_bus w).
Proof. intros S B. apply in_flat_map. eauto. Qed.
Theorem check_qlim_ok : forall w, checkable w -> owned_once w -> exists w' r, check_qlim w = Ok (w', r) /\ length w' = length w /\
  (r = true <-> forall s b, In s w -> In b (s_bus s) -> u_act b = true -> ~ q_violated (u_q b)) /\
  (forall i j s s' b b', nth_error w i = Some s -> nth_error w' i = Some s' -> nth_error (s_bus s) j = Some b -> nth_error (s_bus s') j = Some b' -> u_id b' = u_id b /\ u_act b' = u_act b /\
     forall so o, In so w -> In o (s_bus so) -> u_act o = true -> u_id o = u_id b -> (q_pv (u_q b') = true <-> q_pv (u_q o) = true /\ ~ q_violated (u_q o))).
Proof.
  intros w K [U OW]. destruct (@qlim_all_ok u_act (fun r => r) w K) as (w1 & rs & E & L & M & RS). unfold check_qlim. rewrite E. do 2 eexists. split; [reflexivity |].
  split; [unfold update_ghosts; now rewrite map_length |]. split.
  - rewrite TaskProofs.check_true_spec, RS. split.
    + intros H s b S B A V. destruct (K s b S B) as [K1 K2]. destruct (PqProps.C38_converts_exactly_beyond_limits K1 K2) as (r & q & Q & V' & _). specialize (H s b r q S B A Q). apply V' in V. congruence.
    + intros H s b r q S B A Q. destruct (K s b S B) as [K1 K2]. destruct (@chk_result _ _ _ K1 K2 Q) as [V _]. destruct r; auto. exfalso. apply (H s b S B A). tauto.
  - intros i j s s' b b' N N' B B'. unfold update_ghosts in N'. rewrite nth_error_map in N'. destruct (nth_error w1 i) as [s1 |] eqn:N1; [| discriminate]. injection N' as <-. cbn in B'. rewrite nth_error_map in B'.
    destruct (nth_error (s_bus s1) j) as [b1 |] eqn:B1; [| discriminate]. injection B' as B'. destruct (M i s s1 N N1) as (_ & _ & M1). destruct (M1 j b b1 B B1) as (A1 & A2 & A3).
    assert (T : forall so o q r, In so w -> In o (s_bus so) -> u_act o = true -> chk_qlim (u_q o) = Ok (r, q) -> (q_pv q = true <-> q_pv (u_q o) = true /\ ~ q_violated (u_q o)) /\ exists a v, q_xc q = Some (a, v, q_pv q)).
    { intros so o q r SO O AO Q. destruct (K so o SO O) as [K1 K2]. destruct (@chk_result _ _ _ K1 K2 Q) as (V & P & X). split; auto. rewrite P. destruct r; [split; [discriminate | intros [_ H]; exfalso; apply H; tauto] |]. split; [| tauto]. intros H. split; auto. intros W. apply V in W. discriminate. }
    assert (UQ : forall so o so' o', In so w -> In o (s_bus so) -> u_act o = true -> In so' w -> In o' (s_bus so') -> u_act o' = true -> u_id o = u_id o' -> o = o').
    { intros so o so' o' P1 P2 P3 P4 P5 P6 P7. refine (@NoDup_map_eq _ _ u_id _ _ _ U _ _ P7); apply filter_In; split; auto; [exact (in_flat _ _ _ P1 P2) | exact (in_flat _ _ _ P4 P5)]. }
    rewrite A1 in B'. destruct (u_act b) eqn:Ab.
    + subst b'. split; auto. split; [congruence |]. intros so o SO O AO IO. assert (o = b) as -> by (exact (UQ so o s b SO O AO (nth_error_In _ _ N) (nth_error_In _ _ B) Ab IO)). destruct A3 as (r & Q).
      apply (T s b (u_q b1) r); auto; eapply nth_error_In; eauto.
    + subst b1. destruct (owner w1 (u_id b)) as [o1 |] eqn:OE.
      * subst b'. cbn. split; auto. split; auto. intros so o SO O AO IO. unfold owner in OE. pose proof OE as OE2. apply find_some in OE as [OI OE]. apply andb_prop in OE as [O1 O2]. apply Z.eqb_eq in O2.
        apply in_flat_map in OI as (t1 & T1 & T2). apply In_nth_error in T1 as (k & T1). destruct (nth_len _ _ _ L T1) as (t & Tt). destruct (M k t t1 Tt T1) as (_ & LL & M2).
        apply In_nth_error in T2 as (m & T2). destruct (nth_len _ _ _ LL T2) as (c & C). destruct (M2 m c o1 C T2) as (C1 & C2 & C3). rewrite O1 in C1. rewrite <- C1 in C3. destruct C3 as (r & Q).
        assert (o = c) as -> by (refine (UQ so o t c SO O AO (nth_error_In _ _ Tt) (nth_error_In _ _ C) _ _); congruence). destruct (T so c (u_q o1) r SO O AO Q) as (P & a & v & X). rewrite X. exact P.
      * exfalso. destruct (OW s b) as (so & o & SO & O & AO & IO); [eapply nth_error_In; eauto | eapply nth_error_In; eauto |].
        apply In_nth_error in SO as (k & SO). destruct (nth_len _ _ _ (eq_sym L) SO) as (t1 & T1). destruct (M k so t1 SO T1) as (_ & LL & M2). apply In_nth_error in O as (m & O). destruct (nth_len _ _ _ (eq_sym LL) O) as (o1 & O1).
        destruct (M2 m o o1 O O1) as (C1 & C2 & _). unfold owner in OE. assert (OI : In o1 (flat_map s_bus w1)) by (apply in_flat_map; exists t1; split; eapply nth_error_In; eauto). pose proof (find_none _ _ OE o1 OI) as X. cbn beta in X. rewrite C1, C2, AO, IO, Z.eqb_refl in X. cbn in X. discriminate X.
Qed.


(** ** Recorded violations *)
Definition placed_at (n : nat) (v : list viol) : list (Z * viol) := combine (map Z.of_nat (seq n (length v))) v.
Arguments placed_at : simpl never.
Lemma combine_app' A B (a a' : list A) (b b' : list B) : length a = length b -> combine (a ++ a') (b ++ b') = (combine a b ++ combine a' b')%list.
Proof. revert b. induction a as [| x a IH]; intros [| y b] E; cbn in *; try discriminate; auto. now rewrite IH by lia. Qed.
Lemma placed_app n v v' : placed_at n (v ++ v') = (placed_at n v ++ placed_at (n + length v) v')%list.
Proof. unfold placed_at. rewrite app_length, seq_app, map_app, combine_app'; auto. now rewrite map_length, seq_length. Qed.
Lemma placed_seq sizes me v : placed sizes me v = placed_at (viol_offset sizes me) v.
Proof.
  unfold placed, placed_at. f_equal. unfold Prelude.iota. generalize (length v) as k, (viol_offset sizes me) as n. intros k n.
  assert (G : forall m, map (fun i => Z.of_nat (n + i)) (seq m k) = map Z.of_nat (seq (n + m) k)).
  { induction k as [| k IH]; intros m; cbn; auto. rewrite IH. now rewrite Nat.add_succ_r. }
  etransitivity; [exact (G 0%nat) |]. now rewrite Nat.add_0_r.
Qed.
Lemma placed_concat sizes w : (forall k s, nth_error w k = Some s -> s_viol s <> [] -> viol_offset sizes k = sumn (firstn k sizes)) -> sizes = map (fun s => length (s_viol s)) w ->
  concat (map (fun p => placed sizes (fst p) (s_viol (snd p))) (combine (Prelude.iota (length w)) w)) = placed_at 0 (concat (map s_viol w)).
Proof.
  intros H Z. assert (G : forall k r, skipn k w = r -> concat (map (fun p => placed sizes (fst p) (s_viol (snd p))) (combine (seq k (length r)) r)) = placed_at (sumn (firstn k sizes)) (concat (map s_viol r))).
  { intros k r. revert k. induction r as [| s r IH]; intros k E; [reflexivity |]. cbn [length seq combine map concat fst snd].
    assert (N : nth_error w k = Some s). { rewrite <- (firstn_skipn k w), E. assert (L : length (firstn k w) = k) by (apply firstn_length_le; destruct (le_lt_dec k (length w)); auto; rewrite skipn_all2 in E by lia; discriminate).
      rewrite nth_error_app2 by lia. now rewrite L, Nat.sub_diag. }
    assert (E' : skipn (S k) w = r). { clear - E. revert w E. induction k as [| k IH]; intros [| a w] E; cbn in *; try discriminate; [congruence |]. now apply IH. }
    rewrite (IH (S k) E'), placed_app, placed_seq.
    assert (F : sumn (firstn (S k) sizes) = (sumn (firstn k sizes) + length (s_viol s))%nat).
    { rewrite Z. clear - N. revert w N. induction k as [| k IH]; intros [| a w] N; cbn in N; try discriminate.
      - injection N as ->. cbn. lia.
      - cbn [map firstn]. specialize (IH w N). cbn [firstn sumn] in *. cbn. lia. }
    rewrite F. f_equal. destruct (s_viol s) as [| v l] eqn:V; [reflexivity |]. rewrite (H k s N) by congruence. reflexivity. }
  apply (G 0%nat w eq_refl).
Qed.
Lemma value_placed zero v : forall n i, (n <= i < n + length v)%nat -> value_at zero (placed_at n v) (Z.of_nat i) = nth (i - n) v zero.
Proof.
  unfold value_at, placed_at. induction v as [| x v IH]; intros n i H; cbn [length seq map combine added] in *; [lia |]. destruct (Z.of_nat n =? Z.of_nat i)%Z eqn:E.
  - apply Z.eqb_eq in E. replace i with n by lia. now rewrite Nat.sub_diag.
  - apply Z.eqb_neq in E. replace (i - n)%nat with (S (i - S n)) by lia. apply (IH (S n) i). lia.
Qed.
Lemma map_nth_all A (d : A) l : map (fun i => nth i l d) (Prelude.iota (length l)) = l.
Proof.
  unfold Prelude.iota. assert (G : forall p, map (fun i => nth i (p ++ l) d) (seq (length p) (length l)) = l).
  { induction l as [| x l IH]; intros p; cbn; auto. rewrite app_nth2, Nat.sub_diag by lia. cbn. f_equal. specialize (IH (p ++ [x])%list). rewrite app_length in IH. cbn in IH. rewrite Nat.add_1_r in IH.
    rewrite <- app_assoc in IH. exact IH. }
  apply (G []).
Qed.
Lemma extent_placed v : v <> [] -> extent (placed_at 0 v) = length v.
Proof.
  intros N. unfold extent, placed_at. assert (E : forall A B (a : list A) (b : list B), length a = length b -> map fst (combine a b) = a).
  { induction a as [| x a IH]; intros [| y b] E; cbn in *; try discriminate; auto. now rewrite IH by lia. }
  rewrite E by (now rewrite map_length, seq_length). assert (G : forall k n z, (z < Z.of_nat n)%Z -> fold_left Z.max (map Z.of_nat (seq n k)) z = (if (k =? 0)%nat then z else Z.of_nat (n + k - 1))).
  { induction k as [| k IH]; intros n z H; cbn [seq map fold_left Nat.eqb]; auto. rewrite Z.max_r by lia. rewrite IH by lia. destruct k; cbn [Nat.eqb]; f_equal; lia. }
  rewrite G by lia. destruct v as [| x v]; [easy |]. cbn [length Nat.eqb]. rewrite Nat2Z.id. lia.
Qed.
Lemma sum_concat w : sumn (map (fun s => length (s_viol s)) w) = length (concat (map s_viol w)).
Proof. induction w as [| s w IH]; cbn; auto. rewrite app_length. unfold sumn in *. cbn. now rewrite IH. Qed.
Theorem violations_ok : forall zero own s1 s2 w, (s_viol (nth 0 w (Proc [] [] [] [] false)) = [] \/ forall s, In s (tl w) -> s_viol s = []) -> (forall i, (own i < length w)%nat) ->
  Permutation s1 (sched_ops (length w)) -> barrier s1 -> Permutation s2 (sched_ops (length w)) -> barrier s2 ->
  get_violations zero own s1 s2 w = Ok (concat (map s_viol w)).
Proof.
  intros zero own s1 s2 w H O P1 B1 P2 B2. unfold get_violations. rewrite sum_concat. destruct (length (concat (map s_viol w)) =? 0)%nat eqn:E.
  - apply Nat.eqb_eq in E. destruct (concat (map s_viol w)); [reflexivity | discriminate].
  - apply Nat.eqb_neq in E. set (sizes := map (fun s => length (s_viol s)) w).
    assert (PC : concat (map (fun p => placed sizes (fst p) (s_viol (snd p))) (combine (Prelude.iota (length w)) w)) = placed_at 0 (concat (map s_viol w))).
    { apply placed_concat; auto. intros k s N V. unfold viol_offset. destruct w as [| s0 r]; [destruct k; discriminate |]. cbn in H. unfold sizes. cbn [map skipn]. destruct k as [| k]; [reflexivity |].
      cbn [Nat.sub firstn]. rewrite Nat.sub_0_r. destruct H as [H | H].
      - rewrite H. reflexivity.
      - exfalso. apply V, H. cbn in N. eapply nth_error_In; eauto. }
    set (ww := map (fun p => placed sizes (fst p) (s_viol (snd p))) (combine (Prelude.iota (length w)) w)) in *. set (v := concat (map s_viol w)) in *.
    assert (LW : length ww = length w). { unfold ww. rewrite map_length, combine_length. unfold Prelude.iota. rewrite seq_length. lia. }
    assert (V : v <> []) by (intros X; rewrite X in E; now apply E).
    destruct (@ParProps.C07_values_after_upload_partial viol zero own ww s1 s2) as (g & G1 & G2 & G3 & G4); rewrite ?LW, ?PC; auto.
    + apply Forall_forall. intros [z x] I. unfold placed_at in I. apply in_combine_l in I. apply in_map_iff in I as (n & <- & _). cbn. lia.
    + unfold placed_at. assert (X : forall A B (a : list A) (b : list B), length a = length b -> map fst (combine a b) = a).
      { induction a as [| x a IH]; intros [| y b] EE; cbn in *; try discriminate; auto. now rewrite IH by lia. }
      rewrite X by (now rewrite map_length, seq_length). apply FinFun.Injective_map_NoDup; [intros a b; lia | apply seq_NoDup].
    + unfold placed_at. destruct v; [easy | discriminate].
    + rewrite G1. cbn [obind]. rewrite G4, PC. rewrite extent_placed by auto. f_equal. etransitivity; [| apply (map_nth_all zero)]. apply map_ext_in. intros i I. apply in_iota in I.
      rewrite value_placed by lia. now rewrite Nat.sub_0_r.
Qed.

(** ** Areas *)
Local Arguments total : simpl never.
Lemma selected_eq area zone b : selected area zone b = belongsb area zone b.
Proof.
  unfold selected, belongsb. f_equal. destruct (0 <? zone)%Z eqn:E.
  - apply Z.ltb_lt in E. replace (zone <=? 0)%Z with false by (symmetry; apply Z.leb_gt; lia). cbn. apply Z.eqb_sym.
  - apply Z.ltb_ge in E. rewrite Z.eqb_refl. symmetry. apply orb_true_iff. left. now apply Z.leb_le.
Qed.
Lemma belongs_iff area zone b : belongsb area zone b = true <-> belongs area zone b.
Proof. unfold belongsb, belongs. rewrite andb_true_iff, orb_true_iff, Z.leb_le, !Z.eqb_eq. tauto. Qed.
Lemma fold_sum A (c : A -> bool) (f : A -> R) l : forall z, fold_left (fun acc p => if c p then acc + f p else acc) l z = z + total f (filter c l).
Proof. unfold total. induction l as [| a l IH]; intros z; cbn; [ring |]. rewrite IH. destruct (c a); cbn; ring. Qed.
Lemma bus_load_eq q : bus_load q = loaded_load q.
Proof. unfold bus_load, loaded_load. rewrite (@fold_sum _ (fun p => negb (l_st (snd p) =? 0)%Z) (fun p => fst (fst p))). unfold total. ring. Qed.
Lemma total_app A (f : A -> R) l m : total f (l ++ m)%list = total f l + total f m.
Proof. unfold total. induction l as [| a l IH]; cbn; [ring |]. rewrite IH. ring. Qed.
Lemma total_split A (f : A -> R) (p : A -> bool) l : total f l = total f (filter p l) + total f (filter (fun x => negb (p x)) l).
Proof. unfold total. induction l as [| a l IH]; cbn; [ring |]. rewrite IH. destruct (p a); cbn; ring. Qed.
Lemma filter_filter A (p q : A -> bool) l : filter p (filter q l) = filter q (filter p l).
Proof. induction l as [| a l IH]; cbn; auto. destruct (q a) eqn:E, (p a) eqn:F; cbn; rewrite ?E, ?F; rewrite IH; auto. Qed.
Theorem total_load_eq : forall area zone w, total_load area zone w =
  total (fun b => loaded_load (u_q b)) (filter (belongsb area zone) (active_buses w)) + total (fun b => loaded_load (u_q b)) (filter (belongsb area zone) (ghost_buses w)).
Proof.
  intros area zone w. unfold active_buses, ghost_buses. rewrite !(filter_filter (belongsb area zone)), <- total_split. unfold total_load.
  induction w as [| s w IH]; cbn; [reflexivity |]. rewrite filter_app, total_app, <- IH. unfold sumR. cbn. f_equal.
  rewrite (@fold_sum _ (selected area zone) (fun b => bus_load (u_q b))). rewrite Rplus_0_l. rewrite (@filter_ext' _ (selected area zone) (belongsb area zone)) by (intros; apply selected_eq).
  unfold total. f_equal. apply map_ext. intros; apply bus_load_eq.
Qed.
Definition add3 (x y : R * R * R) : R * R * R := let '(a, b, c) := x in let '(d, e, f) := y in (a + d, b + e, c + f).
Lemma bus_margin_eq q : bus_margin q = (total fst (gens_in_service q), total (fun p => g_pb (snd p)) (gens_in_service q), total (fun p => g_pt (snd p)) (gens_in_service q)).
Proof.
  unfold bus_margin, gens_in_service. generalize (combine (q_savePg q) (combine (q_gst q) (q_gens q))) as l. intros l.
  assert (G : forall z, fold_left (fun acc p => let '(t, lo, hi) := acc in let '(pg, (st, g)) := p in if negb (st =? 0)%Z then (t + pg, lo + g_pb g, hi + g_pt g) else acc) l z =
    add3 z (let m := map (fun p => (fst p, snd (snd p))) (filter (fun p => negb (fst (snd p) =? 0)%Z) l) in (total fst m, total (fun p => g_pb (snd p)) m, total (fun p => g_pt (snd p)) m))).
  { induction l as [| [pg [st g]] l IH]; intros [[t lo] hi]; cbn.
    - unfold total; cbn. (apply f_equal2; [apply f_equal2 |]); ring.
    - rewrite IH. cbn. destruct (negb (st =? 0)%Z); cbn; unfold total; cbn; (apply f_equal2; [apply f_equal2 |]); ring. }
  rewrite G. cbn. (apply f_equal2; [apply f_equal2 |]); ring.
Qed.
Theorem margins_eq : forall area zone s, let gs := flat_map (fun b => gens_in_service (u_q b)) (filter (belongsb area zone) (s_bus s)) in
  margins area zone s = (total fst gs, total (fun p => g_pb (snd p)) gs, total (fun p => g_pt (snd p)) gs).
Proof.
  intros area zone s. cbn zeta. unfold margins. generalize (s_bus s) as l. intros l.
  assert (G : forall z, fold_left (fun acc b => if selected area zone b then let '(t, lo, hi) := acc in let '(t', lo', hi') := bus_margin (u_q b) in (t + t', lo + lo', hi + hi') else acc) l z =
    add3 z (let gs := flat_map (fun b => gens_in_service (u_q b)) (filter (belongsb area zone) l) in (total fst gs, total (fun p => g_pb (snd p)) gs, total (fun p => g_pt (snd p)) gs))).
  { induction l as [| b l IH]; intros [[t lo] hi]; cbn [fold_left filter].
    - cbn. unfold total; cbn. (apply f_equal2; [apply f_equal2 |]); ring.
    - rewrite IH, selected_eq. destruct (belongsb area zone b); [| reflexivity]. rewrite bus_margin_eq. cbn [flat_map]. cbn zeta. rewrite !total_app. cbn. (apply f_equal2; [apply f_equal2 |]); ring. }
  rewrite G. cbn. (apply f_equal2; [apply f_equal2 |]); ring.
Qed.
(** Each element once *)
Lemma fold_upd A (key : A -> string) (c : A -> bool) (f : A -> A) l : (forall x, key (f x) = key x) -> forall pre, NoDup (map key (pre ++ l)) ->
  fold_left (fun m k => upd_first (fun x => String.eqb (key x) k && c x) f m) (map key l) (map (fun x => if c x then f x else x) pre ++ l)%list = map (fun x => if c x then f x else x) (pre ++ l).
Proof.
  intros K. induction l as [| a l IH]; intros pre N; cbn [map fold_left]; [now rewrite !app_nil_r |].
  assert (S : forall m r, ~ In (key a) (map key m) -> upd_first (fun x => String.eqb (key x) (key a) && c x) f (m ++ r)%list = (m ++ upd_first (fun x => String.eqb (key x) (key a) && c x) f r)%list).
  { induction m as [| b m IHm]; intros r H; cbn; auto. destruct (String.eqb (key b) (key a)) eqn:E; cbn in *; [apply String.eqb_eq in E; exfalso; apply H; auto |]. rewrite IHm; auto. }
  rewrite map_app in N. cbn in N. pose proof (NoDup_remove_2 _ _ _ N) as N2. rewrite in_app_iff in N2.
  rewrite S.
  - specialize (IH (pre ++ [a])%list). rewrite <- !app_assoc in IH. cbn [app] in IH. rewrite (map_app key) in IH. specialize (IH N). rewrite <- IH. f_equal. rewrite map_app. cbn [map]. rewrite <- app_assoc. cbn [app].
    f_equal. cbn [upd_first]. rewrite String.eqb_refl. cbn [andb]. destruct (c a); [reflexivity |]. f_equal. specialize (S l []). rewrite app_nil_r in S. rewrite S by tauto. cbn. apply app_nil_r.
  - rewrite map_map. intros I. apply N2. left. apply in_map_iff in I as (x & E & I). apply in_map_iff. exists x. split; auto. rewrite <- E. destruct (c x); auto.
Qed.
Lemma scale_gens_ok q v : okq q -> NoDup (map g_id (q_gens q)) ->
  exists q', scale_gens q (map g_id (q_gens q)) v = Ok q' /\ q_gst q' = q_gst q /\ q_lds q' = q_lds q /\
    q_gens q' = map (fun p => if (fst p =? 0)%Z then snd p else set_pg (snd p) (moved v (snd p))) (combine (q_gst q) (q_gens q)).
Proof.
  intros C N. set (F := fun p : Z * gen => (fst p, scale_gen v (snd p))). set (c := fun p : Z * gen => negb (fst p =? 0)%Z).
  assert (G : forall ids q0, okq q0 -> exists q', scale_gens q0 ids v = Ok q' /\ q_lds q' = q_lds q0 /\ okq q' /\
    combine (q_gst q') (q_gens q') = fold_left (fun m k => upd_first (fun x => String.eqb (g_id (snd x)) k && c x) F m) ids (combine (q_gst q0) (q_gens q0))).
  { induction ids as [| i ids IH]; intros q0 C0; cbn.
    - exists q0. auto.
    - unfold scale_generator at 1. rewrite aligned_ok by exact C0. cbn [obind].
      destruct (IH (unzip_gens q0 (upd_first (fun p => String.eqb (g_id (snd p)) i && negb (fst p =? 0)%Z) (fun p => (fst p, scale_gen v (snd p))) (combine (q_gst q0) (q_gens q0))))) as (q' & A & B & D & E).
      { unfold okq. cbn. now rewrite !map_length. }
      exists q'. split; [exact A |]. split; [rewrite B; reflexivity |]. split; auto. rewrite E. cbn [q_gst q_gens unzip_gens set_gens]. now rewrite combine_fs. }
  destruct (G (map g_id (q_gens q)) q C) as (q' & A & B & D & E). exists q'. split; auto.
  destruct (combine_split_l (q_gst q) (q_gens q) C) as [K1 K2]. destruct (combine_split_l (q_gst q') (q_gens q') D) as [K3 K4].
  pose proof (@fold_upd _ (fun p : Z * gen => g_id (snd p)) c F (combine (q_gst q) (q_gens q))) as FU.
  assert (KF : forall x, g_id (snd (F x)) = g_id (snd x)). { intros [z g]. unfold F. cbn. unfold scale_gen. now destruct (Rlt_dec 0 v). }
  assert (KM : map (fun p : Z * gen => g_id (snd p)) (combine (q_gst q) (q_gens q)) = map g_id (q_gens q)) by (rewrite <- K2 at 2; now rewrite map_map).
  specialize (FU KF []). cbn [app map] in FU. rewrite KM in FU. specialize (FU N). rewrite FU in E.
  split.
  - rewrite <- K3, E, map_map. transitivity (map fst (combine (q_gst q) (q_gens q))); [| exact K1]. apply map_ext. intros [z g]. unfold c, F. cbn. now destruct (negb (z =? 0)%Z).
  - split; auto. rewrite <- K4, E, map_map. apply map_ext. intros [z g]. unfold c, F. cbn. destruct (z =? 0)%Z; cbn; auto. unfold scale_gen, moved. now destruct (Rlt_dec 0 v).
Qed.
Lemma scale_loads_ok q v : NoDup (map l_id (q_lds q)) ->
  let q' := fold_left (fun q i => scale_load q i v) (map l_id (q_lds q)) q in
  q_gst q' = q_gst q /\ q_gens q' = q_gens q /\ q_lds q' = map (fun l => if (l_st l =? 1)%Z then set_ld l (v * l_pl l) (v * l_ql l) else l) (q_lds q).
Proof.
  intros N. cbn zeta. set (F := fun l : ld => set_ld l (v * l_pl l) (v * l_ql l)).
  assert (G : forall ids q0, let q' := fold_left (fun q i => scale_load q i v) ids q0 in q_gst q' = q_gst q0 /\ q_gens q' = q_gens q0 /\
    q_lds q' = fold_left (fun m k => upd_first (fun l => String.eqb (l_id l) k && on (l_st l)) F m) ids (q_lds q0)).
  { induction ids as [| i ids IH]; intros q0; cbn; auto. destruct (IH (scale_load q0 i v)) as (A & B & C). cbn in *. auto. }
  destruct (G (map l_id (q_lds q)) q) as (A & B & C). split; auto. split; auto. rewrite C.
  exact (@fold_upd _ l_id (fun l => on (l_st l)) F (q_lds q) (fun x => eq_refl) [] N).
Qed.

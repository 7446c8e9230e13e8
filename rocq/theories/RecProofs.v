(** Proofs about RecModel: what a record body stores. *)
From Verif Require Import Prelude StrModel StrProofs StrProofs2 DCModel DCSpec DCProofs RecModel RecSpec.
From Coq Require Import Ascii.
Open Scope nat_scope.

(** ** getValue *)
Lemma look_good d t s : slot_good s = true -> look d t s = find_key d t (slot_key s).
Proof.
  intros H. unfold look, get_value. rewrite slot_good_key by exact H. cbn [obind].
  destruct (find_key d t (slot_key s)); reflexivity.
Qed.

Definition expectation := (slot * dtype * option value)%type.
Definition e_slot (e : expectation) : slot := fst (fst e).
Definition somes (E : list expectation) : list (slot * value) :=
  flat_map (fun e => match snd e with Some v => [(e_slot e, v)] | None => [] end) E.
Fixpoint first_add (l : list (slot * value)) (s : slot) (t : dtype) : option value :=
  match l with
  | [] => None
  | (s', v) :: r => if slot_eq_dec s' s then if dtype_eq_dec (type_of v) t then Some v else first_add r s t
                    else first_add r s t
  end.

Lemma somes_app E1 E2 : somes (E1 ++ E2)%list = (somes E1 ++ somes E2)%list.
Proof. unfold somes. now rewrite flat_map_app. Qed.

Lemma add_all_app d a b : add_all d (a ++ b)%list = obind (add_all d a) (fun d' => add_all d' b).
Proof.
  revert d; induction a as [|[s v] a IH]; intros d; cbn [app add_all]; [reflexivity|].
  destruct (key_of s); cbn [obind]; auto.
Qed.

Lemma add_all_look l : forall d, (forall s v, In (s, v) l -> slot_good s = true) ->
  exists d', add_all d l = Ok d' /\
    forall s t, slot_good s = true ->
      look d' t s = match look d t s with Some w => Some w | None => first_add l s t end.
Proof.
  induction l as [|[s0 v0] l IH]; intros d H.
  - exists d. split; [reflexivity|]. intros s t _. cbn [first_add]. now destruct (look d t s).
  - cbn [add_all]. rewrite slot_good_key by (apply (H s0 v0); now left). cbn [obind].
    destruct (IH (add_key d (slot_key s0) v0)) as (d' & E & L); [intros s v Hs; apply (H s v); now right|].
    exists d'. split; [exact E|]. intros s t Hs. rewrite L by exact Hs. rewrite !look_good by exact Hs.
    assert (slot_good s0 = true) as H0 by (apply (H s0 v0); now left).
    rewrite find_add, slot_good_eqb by assumption. unfold dtype_eqb. cbn [first_add].
    destruct (slot_eq_dec s0 s) as [->|N]; cbn [andb]; [|reflexivity].
    destruct (dtype_eq_dec (type_of v0) t); [|reflexivity]. now destruct (find_key d t (slot_key s)).
Qed.

Lemma first_add_none l s t : (forall v, In (s, v) l -> type_of v = t -> False) -> first_add l s t = None.
Proof.
  induction l as [|[s0 v0] l IH]; intros H; cbn [first_add]; [reflexivity|].
  assert (first_add l s t = None) as X by (apply IH; intros v Hv; apply (H v); now right).
  destruct (slot_eq_dec s0 s) as [->|]; [|exact X]. destruct (dtype_eq_dec (type_of v0) t) as [T|]; [|exact X].
  exfalso. apply (H v0); [now left|exact T].
Qed.

Lemma in_somes E s v : In (s, v) (somes E) <-> exists t, In (s, t, Some v) E.
Proof.
  unfold somes. rewrite in_flat_map. split.
  - intros ([[s0 t0] o] & Hi & Hv). cbn in Hv. destruct o as [w|]; [|contradiction]. destruct Hv as [Hv|[]].
    inversion Hv; subst. now exists t0.
  - intros (t & H). exists (s, t, Some v). split; [exact H|]. now left.
Qed.

Lemma first_somes E s t v : NoDup (map e_slot E) -> (forall s t v, In (s, t, Some v) E -> type_of v = t) ->
  In (s, t, v) E -> first_add (somes E) s t = v.
Proof.
  induction E as [|[[s0 t0] v0] E IH]; intros Hn Ht Hi; [contradiction|].
  cbn [map e_slot fst] in Hn. apply NoDup_cons_iff in Hn. destruct Hn as [Hn Hn'].
  assert (forall s t v, In (s, t, Some v) E -> type_of v = t) as Ht' by (intros; eapply Ht; right; eassumption).
  destruct Hi as [Hi|Hi].
  - inversion Hi; subst. assert (first_add (somes E) s t = None) as X.
    { apply first_add_none. intros w Hw Hty. apply in_somes in Hw. destruct Hw as (t' & Hw). apply Hn.
      apply in_map_iff. exists (s, t', Some w). auto. }
    destruct v as [w|]; [|exact X]. cbn. destruct (slot_eq_dec s s) as [_|]; [|congruence].
    destruct (dtype_eq_dec (type_of w) t) as [_|Q]; [reflexivity|]. exfalso. apply Q. apply (Ht s t w). now left.
  - assert (s0 <> s) as Ns by (intros ->; apply Hn; apply in_map_iff; exists (s, t, v); auto).
    specialize (IH Hn' Ht' Hi). destruct v0 as [w|]; [|exact IH]. cbn.
    destruct (slot_eq_dec s0 s); [contradiction|exact IH].
Qed.

(** ** A sequence of devices in one collection *)
Section Seq.
Variable R : Type.
Variable E : R -> Z -> list expectation.
Variable N : list string.
Variable good : R -> Prop.
Hypothesis E_names : forall r n s t v, In (s, t, v) (E r n) ->
  In (slot_name s) N /\ match s with Indexed _ i => i = n | Plain _ => n = 0%Z end.
Hypothesis E_nodup : forall r n, good r -> NoDup (map e_slot (E r n)).
Hypothesis E_typed : forall r n s t v, In (s, t, Some v) (E r n) -> type_of v = t.
Hypothesis N_colon : forall x, In x N -> no_colon x = true.

Definition Stored (ms : list R) (d : dc) : Prop :=
  (forall i r s t v, nth_error ms i = Some r -> In (s, t, v) (E r (Z.of_nat i)) -> look d t s = v) /\
  (forall name i t, In name N -> (Z.of_nat (length ms) <= i <= 9999999)%Z -> look d t (Indexed name i) = None) /\
  (ms = [] -> forall name t, In name N -> look d t (Plain name) = None).

Lemma E_good r n s t v : (0 <= n <= 9999999)%Z -> In (s, t, v) (E r n) -> slot_good s = true.
Proof.
  intros Hn Hi. destruct (E_names _ _ _ _ _ Hi) as [H1 H2]. unfold slot_good. apply andb_true_iff. split; [|auto].
  destruct s as [x|x i]; cbn; [reflexivity|]. subst i. apply andb_true_iff. split; apply Z.leb_le; lia.
Qed.

Lemma stored_snoc ms r d : good r -> (length ms <= Z.to_nat 9999999) -> Stored ms d ->
  exists d', add_all d (somes (E r (Z.of_nat (length ms)))) = Ok d' /\ Stored (ms ++ [r]) d' /\
    (forall t s, slot_good s = true -> ~ In (slot_name s) N -> look d' t s = look d t s).
Proof.
  intros Hg Hlen (S1 & S2 & S3). set (n := Z.of_nat (length ms)).
  assert (0 <= n <= 9999999)%Z as Hn by (unfold n; lia).
  assert (forall s v, In (s, v) (somes (E r n)) -> exists t, In (s, t, Some v) (E r n)) as HI by (intros s v; apply in_somes).
  destruct (@add_all_look (somes (E r n)) d) as (d' & Ed & L).
  { intros s v Hs. destruct (HI _ _ Hs) as (t & Ht). exact (@E_good _ _ _ _ _ Hn Ht). }
  exists d'. split; [exact Ed|].
  assert (forall s t, slot_good s = true -> (forall t' v, In (s, t', v) (E r n) -> False) -> look d' t s = look d t s) as Same.
  { intros s t Hs Hno. rewrite L by exact Hs. rewrite first_add_none; [now destruct (look d t s)|].
    intros v Hv _. destruct (HI _ _ Hv) as (t' & Ht'). exact (Hno _ _ Ht'). }
  split; [split; [|split]|].
  - intros i r' s t v Hi Hin. destruct (Nat.lt_ge_cases i (length ms)) as [Hlt|Hge].
    + rewrite nth_error_app1 in Hi by exact Hlt. rewrite <- (S1 _ _ _ _ _ Hi Hin).
      assert (0 <= Z.of_nat i <= 9999999)%Z as Hi' by lia.
      apply Same; [exact (@E_good _ _ _ _ _ Hi' Hin)|]. intros t' w Hw.
      destruct (E_names _ _ _ _ _ Hin) as [_ A]. destruct (E_names _ _ _ _ _ Hw) as [_ B].
      destruct s as [x|x k]; unfold n in B; lia.
    + assert (i = length ms) as ->.
      { assert (i < length (ms ++ [r])) as X by (apply nth_error_Some; congruence). rewrite app_length in X. cbn in X. lia. }
      rewrite nth_error_app2, Nat.sub_diag in Hi by lia. cbn in Hi. inversion Hi; subst r'. fold n in Hin.
      rewrite L by exact (@E_good _ _ _ _ _ Hn Hin).
      assert (look d t s = None) as ->.
      { destruct (E_names _ _ _ _ _ Hin) as [A B]. destruct s as [x|x k].
        - apply S3; [|exact A]. destruct ms; [reflexivity|unfold n in B; cbn in B; lia].
        - subst k. apply S2; [exact A|]. unfold n. lia. }
      apply first_somes; auto. intros; eapply E_typed; eassumption.
  - intros name i t Hname Hi. rewrite app_length in Hi. cbn in Hi. rewrite Same.
    + apply S2; [exact Hname|]. lia.
    + unfold slot_good. apply andb_true_iff. split; [|auto]. cbn. apply andb_true_iff. split; apply Z.leb_le; lia.
    + intros t' v Hv. destruct (E_names _ _ _ _ _ Hv) as [_ B]. cbn in B. unfold n in B. lia.
  - intros X. destruct ms; discriminate X.
  - intros t s Hs Hnot. apply Same; [exact Hs|]. intros t' v Hv. apply Hnot. apply (E_names _ _ _ _ _ Hv).
Qed.

(** Entries outside N do not matter. *)
Lemma stored_other ms d d' : (forall t s, slot_good s = true -> In (slot_name s) N -> look d' t s = look d t s) ->
  (length ms <= Z.to_nat 10000000) -> Stored ms d -> Stored ms d'.
Proof.
  intros H Hlen (S1 & S2 & S3). split; [|split].
  - intros i r s t v Hi Hin. rewrite <- (S1 _ _ _ _ _ Hi Hin).
    assert (i < length ms) as X by (apply nth_error_Some; congruence).
    apply H; [|apply (E_names _ _ _ _ _ Hin)]. assert (0 <= Z.of_nat i <= 9999999)%Z as Y by lia. exact (@E_good _ _ _ _ _ Y Hin).
  - intros name i t Hname Hi. rewrite H; [now apply S2| |exact Hname]. unfold slot_good. apply andb_true_iff. split; [|auto].
    cbn. apply andb_true_iff. split; apply Z.leb_le; lia.
  - intros X name t Hname. rewrite H; [now apply S3| |exact Hname]. unfold slot_good. apply andb_true_iff. split; [reflexivity|auto].
Qed.
End Seq.

(** ** Bodies and layouts *)
Section Bodies.
Variable atof : str -> Z.
Notation expect := (expect atof).

Definition matches (c : nat) (it : item) (ss : list stmt) : Prop :=
  match it with
  | IBus n => ss = [SBus n]
  | ITag n req => ss = [STag c n (negb req)]
  | IInt n => ss = [SCol c n KInt]
  | IDbl n => ss = [SCol c n KDbl]
  | IBoth a b => ss = [SCol c a KDbl; SCol c b KDbl]
  | IFirst n => ss = [SFirst c n]
  | ICpx n => ss = [SCpx c n]
  | IOwner a f v => exists fb, ss = [SOwner c a f fb v]
  | IName n => ss = [SName c n]
  end.
Inductive compiles : list (nat * item) -> list stmt -> Prop :=
| C_nil : compiles [] []
| C_one c it s cols ss : matches c it [s] -> compiles cols ss -> compiles ((c, it) :: cols) (s :: ss)
| C_two c it s s' cols ss : matches c it [s; s'] -> compiles cols ss -> compiles ((c, it) :: cols) (s :: s' :: ss).

Definition all_expect (b : Z) (r : list str) (n : Z) (cols : list (nat * item)) : list expectation :=
  flat_map (fun ci => expect b r n (fst ci) (snd ci)) cols.

Lemma exec_app a b d o sw r n : exec atof (a ++ b)%list d o sw r n = obind (exec atof a d o sw r n) (fun d' => exec atof b d' o sw r n).
Proof.
  revert d; induction a as [|s a IH]; intros d; cbn [app exec]; [reflexivity|].
  destruct (adds_of atof s d o sw r n); cbn [obind]; auto. destruct (add_all d a0); cbn [obind]; auto.
Qed.
Lemma exec_one s d o sw r n l : adds_of atof s d o sw r n = Ok l -> exec atof [s] d o sw r n = add_all d l.
Proof. intros H. cbn [exec]. rewrite H. cbn [obind]. now destruct (add_all d l). Qed.

Definition nonblank (t : str) : Prop := exists c, In c t /\ c <> sp.
Lemma nonblank_false t : nonblank t -> is_blank t = false.
Proof.
  intros (c & H1 & H2). unfold is_blank, find_not, find_if. cbn. 
  induction t as [|a t IH]; [contradiction|]. cbn [findn].
  destruct (Ascii.eqb_spec a sp) as [->|Na]; cbn [negb]; [|reflexivity].
  destruct H1 as [H1|H1]; [congruence|]. specialize (IH H1). destruct (findn _ t) as [k|]; cbn [option_map]; [|discriminate IH].
  apply Z.eqb_neq. lia.
Qed.
Lemma find_quote t : (find_c qt1 t 0 =? -1)%Z = negb (existsb (Ascii.eqb qt1) t).
Proof.
  unfold find_c, find_if. cbn [Z.ltb Z.compare Z.to_nat skipn].
  induction t as [|a t IH]; [reflexivity|]. cbn [findn existsb]. rewrite (Ascii.eqb_sym qt1 a).
  destruct (Ascii.eqb a qt1); cbn [orb negb]; [reflexivity|]. rewrite <- IH. destruct (findn _ t) as [k|]; cbn [option_map]; [|reflexivity].
  transitivity false; [apply Z.eqb_neq; lia | symmetry; apply Z.eqb_neq; lia].
Qed.

Lemma exec_item c it ss d o sw r n : matches c it ss -> Forall nonblank r -> readable_at r c it ->
  exec atof ss d o sw r n = add_all d (somes (expect o r n c it)).
Proof.
  intros M Hb Hr. destruct it as [x|x req|x|x|x y|x|x|x f v|x]; cbn [matches] in M.
  - subst. apply exec_one. reflexivity.
  - subst. apply exec_one. cbn [adds_of RecSpec.expect somes flat_map snd]. destruct Hr as [H1 H2].
    destruct (nth_error r c) as [t|] eqn:En; cbn [bind_opt].
    + destruct (H2 t eq_refl) as (g & Eg). unfold tag_of. rewrite Eg. reflexivity.
    + destruct req; [|reflexivity]. exfalso. now apply H1.
  - subst. apply exec_one. cbn [adds_of RecSpec.expect somes flat_map snd]. cbn [readable_at] in Hr.
    destruct (nth_error r c) as [t|] eqn:En; cbn [bind_opt]; [|reflexivity].
    destruct (Hr t eq_refl) as (z & Ez). unfold int_of, conv. rewrite Ez. reflexivity.
  - subst. apply exec_one. cbn [adds_of RecSpec.expect somes flat_map snd]. destruct (nth_error r c); reflexivity.
  - subst. cbn [exec adds_of RecSpec.expect]. destruct (nth_error r c); [|reflexivity]. cbn [bind_opt dbl_of conv obind].
    unfold dbl_of. cbn [somes flat_map snd e_slot fst app add_all]. 
    destruct (key_of (Indexed x n)); cbn [obind]; auto. destruct (key_of (Indexed y n)); cbn [obind]; reflexivity.
  - subst. apply exec_one. cbn [adds_of RecSpec.expect somes flat_map snd]. destruct (nth_error r c); destruct (n =? 0)%Z; reflexivity.
  - subst. apply exec_one. cbn [adds_of RecSpec.expect somes flat_map snd]. destruct (nth_error r c); [|reflexivity].
    destruct (nth_error r (S c)); reflexivity.
  - destruct M as (fb & ->). apply exec_one. cbn [adds_of RecSpec.expect somes flat_map snd]. cbn [readable_at] in Hr.
    destruct (nth_error r c) as [t|] eqn:En; [|reflexivity]. destruct (Hr t eq_refl) as (z & Ez).
    rewrite nonblank_false by (eapply Forall_forall; [exact Hb | eapply nth_error_In; eassumption]).
    unfold int_of. rewrite Ez. cbn [bind_opt obind]. destruct (nth_error r (S c)) as [u|] eqn:Eu; [|rewrite Ez; reflexivity].
    rewrite nonblank_false by (eapply Forall_forall; [exact Hb | eapply nth_error_In; eassumption]). rewrite Ez. reflexivity.
  - subst. apply exec_one. cbn [adds_of RecSpec.expect somes flat_map snd]. cbn [readable_at] in Hr.
    destruct (nth_error r c) as [t|] eqn:En; [|reflexivity]. rewrite find_quote. unfold name_of. cbn [bind_opt].
    destruct (existsb (Ascii.eqb qt1) t) eqn:Ex; cbn [negb]; [|reflexivity].
    destruct (Hr t eq_refl) as (g & Eg).
    + apply existsb_exists in Ex. destruct Ex as (q & Hq & Eq). apply Ascii.eqb_eq in Eq. now subst.
    + rewrite Eg. reflexivity.
Qed.

Lemma exec_compiled cols ss : compiles cols ss -> forall d o sw r n, Forall nonblank r ->
  (forall c it, In (c, it) cols -> readable_at r c it) ->
  exec atof ss d o sw r n = add_all d (somes (all_expect o r n cols)).
Proof.
  induction 1 as [|c it s cols ss M _ IH|c it s s' cols ss M _ IH]; intros d o sw r n Hb Hr; [reflexivity|..];
    unfold all_expect; cbn [flat_map]; fold (all_expect o r n cols); rewrite somes_app, add_all_app; cbn [fst snd].
  - change (s :: ss) with ([s] ++ ss)%list. rewrite exec_app, (@exec_item c it) by (auto; apply Hr; now left).
    destruct (add_all d _); cbn [obind]; auto. apply IH; auto. intros; apply Hr; now right.
  - change (s :: s' :: ss) with ([s; s'] ++ ss)%list. rewrite exec_app, (@exec_item c it) by (auto; apply Hr; now left).
    destruct (add_all d _); cbn [obind]; auto. apply IH; auto. intros; apply Hr; now right.
Qed.

(** Facts about expectations. *)
Lemma expect_names b r n c it s t v : In (s, t, v) (expect b r n c it) ->
  In (slot_name s) (item_names it) /\ match s with Indexed _ i => i = n | Plain _ => n = 0%Z end.
Proof.
  destruct it as [x|x req|x|x|x y|x|x|x f w|x]; cbn [RecSpec.expect item_names];
    try (intros [H|[]]; inversion H; subst; split; [now left|reflexivity]).
  - intros [H|[H|[]]]; inversion H; subst; (split; [cbn; auto|reflexivity]).
  - destruct (Z.eqb_spec n 0); cbn [app]; [intros [H|[H|[]]]|intros [H|[]]]; inversion H; subst; (split; [cbn; auto|auto]).
  - intros [H|[H|[]]]; inversion H; subst; (split; [cbn; auto|reflexivity]).
Qed.
Lemma expect_typed b r n c it s t v : In (s, t, Some v) (expect b r n c it) -> type_of v = t.
Proof.
  assert (forall o, bind_opt o (dbl_of atof) = Some v -> type_of v = TDouble) as HD
    by (intros [u|] X; [|discriminate]; inversion X; reflexivity).
  assert (forall o, bind_opt o int_of = Some v -> type_of v = TInt) as HI.
  { intros [u|] X; [|discriminate]. cbn in X. unfold int_of in X. destruct (atoi u); inversion X; reflexivity. }
  assert (forall (o : option value) s0 t0, (s0, t0, o) = (s, t, Some v) -> s0 = s /\ t0 = t /\ o = Some v) as HP
    by (intros o s0 t0 X; inversion X; auto).
  destruct it as [x|x req|x|x|x y|x|x|x f w|x]; cbn [RecSpec.expect].
  - intros [H|[]]; inversion H; subst; reflexivity.
  - intros [H|[]]. apply HP in H. destruct H as (_ & <- & H). destruct (nth_error r c) as [u|]; [|discriminate]. cbn [bind_opt] in H.
    unfold tag_of in H. destruct (clean2char u); inversion H; reflexivity.
  - intros [H|[]]. apply HP in H. destruct H as (_ & <- & H). eapply HI; eassumption.
  - intros [H|[]]. apply HP in H. destruct H as (_ & <- & H). eapply HD; eassumption.
  - intros [H|[H|[]]]; apply HP in H; destruct H as (_ & <- & H); eapply HD; eassumption.
  - destruct (n =? 0)%Z; cbn [app]; [intros [H|[H|[]]]|intros [H|[]]]; apply HP in H; destruct H as (_ & <- & H); eapply HD; eassumption.
  - intros [H|[]]. apply HP in H. destruct H as (_ & <- & H). destruct (nth_error r c) as [u|]; [|discriminate]. cbn [bind_opt] in H.
    destruct (nth_error r (S c)); inversion H; reflexivity.
  - intros [H|[H|[]]]; apply HP in H; destruct H as (_ & <- & H); [eapply HI; eassumption|].
    destruct (nth_error r c) as [u|]; [|discriminate]. cbn [bind_opt] in H. destruct (nth_error r (S c)); inversion H; reflexivity.
  - intros [H|[]]. apply HP in H. destruct H as (_ & <- & H). destruct (nth_error r c) as [u|]; [|discriminate]. cbn [bind_opt] in H.
    unfold name_of in H. destruct (existsb _ u); [|discriminate]. destruct (trim_quotes _); inversion H; reflexivity.
Qed.
Lemma expect_nodup b r n c it : NoDup (item_names it) -> NoDup (map e_slot (expect b r n c it)).
Proof.
  destruct it as [x|x req|x|x|x y|x|x|x f w|x]; cbn [RecSpec.expect item_names map e_slot fst]; intros H;
    try (constructor; [now intros [] | constructor]).
  - constructor; [|constructor; [intros [] | constructor]]. intros [X|[]]. inversion X; subst. inversion H; subst. apply H2. now left.
  - destruct (n =? 0)%Z; cbn [app map e_slot fst].
    + constructor; [|constructor; [intros [] | constructor]]. intros [X|[]]. discriminate.
    + constructor; [intros [] | constructor].
  - constructor; [|constructor; [intros [] | constructor]]. intros [X|[]]. inversion X; subst. inversion H; subst. apply H2. now left.
Qed.
Lemma nodup_app {A} (a b : list A) : NoDup a -> NoDup b -> (forall x, In x a -> In x b -> False) -> NoDup (a ++ b)%list.
Proof.
  induction a as [|x a IH]; cbn [app]; intros Ha Hb Hd; [exact Hb|]. inversion Ha; subst. constructor.
  - rewrite in_app_iff. intros [X|X]; [contradiction|]. apply (Hd x); [now left|exact X].
  - apply IH; auto. intros y Hy. apply Hd. now right.
Qed.
Lemma nodup_app_inv {A} (a b : list A) : NoDup (a ++ b)%list -> NoDup a /\ NoDup b /\ (forall x, In x a -> In x b -> False).
Proof.
  induction a as [|x a IH]; cbn [app]; intros H; [split; [constructor|]; split; [exact H|]; intros ? []|].
  inversion H; subst. destruct (IH H3) as (A1 & A2 & A3). split; [constructor; auto; rewrite in_app_iff in H2; tauto|].
  split; [exact A2|]. intros y [->|Hy] Hb; [apply H2; rewrite in_app_iff; auto|]. exact (A3 y Hy Hb).
Qed.
Lemma all_expect_names b r n cols s t v : In (s, t, v) (all_expect b r n cols) ->
  In (slot_name s) (flat_map (fun ci => item_names (snd ci)) cols) /\ match s with Indexed _ i => i = n | Plain _ => n = 0%Z end.
Proof.
  unfold all_expect. rewrite in_flat_map. intros ([c it] & Hc & H). apply expect_names in H. destruct H as [H1 H2].
  split; [|exact H2]. rewrite in_flat_map. exists (c, it). auto.
Qed.
Lemma all_expect_typed b r n cols s t v : In (s, t, Some v) (all_expect b r n cols) -> type_of v = t.
Proof. unfold all_expect. rewrite in_flat_map. intros ([c it] & Hc & H). eapply expect_typed; exact H. Qed.
Lemma all_expect_nodup b r n cols : NoDup (flat_map (fun ci => item_names (snd ci)) cols) -> NoDup (map e_slot (all_expect b r n cols)).
Proof.
  induction cols as [|[c it] cols IH]; cbn [flat_map]; intros H; [constructor|].
  apply nodup_app_inv in H. destruct H as (H1 & H2 & H3). unfold all_expect. cbn [flat_map]. fold (all_expect b r n cols).
  rewrite map_app. apply nodup_app; [now apply expect_nodup | now apply IH|].
  intros s Hs1 Hs2. apply in_map_iff in Hs1, Hs2. destruct Hs1 as ([[s1 t1] v1] & <- & X1), Hs2 as ([[s2 t2] v2] & Es & X2).
  cbn in Es. subst s2. apply expect_names in X1. apply all_expect_names in X2. cbn [fst snd] in *.
  exact (H3 _ (proj1 X1) (proj1 X2)).
Qed.
End Bodies.

Lemma columns_names c0 its : flat_map (fun ci => item_names (snd ci)) (columns c0 its) = flat_map item_names its.
Proof. revert c0; induction its as [|it its IH]; intros c0; [reflexivity|]. cbn [columns flat_map snd]. now rewrite IH. Qed.

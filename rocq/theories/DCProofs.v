From Verif Require Import Prelude DCModel DCSpec.
From Coq Require Import Ascii.
Open Scope string_scope.

(** ** Decimal text *)
Fixpoint undigits (s : string) (acc : N) : N :=
  match s with EmptyString => acc | String c r => undigits r (acc * 10 + (N_of_ascii c - 48)) end.

Definition isdigit (c : ascii) : Prop := exists n, (n < 10)%N /\ c = digit n.
Fixpoint alldigits (s : string) : Prop :=
  match s with EmptyString => True | String c r => isdigit c /\ alldigits r end.

Lemma N_of_digit n : (n < 10)%N -> N_of_ascii (digit n) = (48 + n)%N.
Proof. intros H. unfold digit. apply N_ascii_embedding. lia. Qed.

Lemma undigits_app s1 s2 acc : undigits (s1 ++ s2) acc = undigits s2 (undigits s1 acc).
Proof. revert acc; induction s1; simpl; auto. Qed.

Ltac Zify.zify_post_hook ::= Z.div_mod_to_equations.

Lemma digits_spec fuel n acc : (n < 10 ^ N.of_nat fuel)%N -> (0 < fuel)%nat ->
  exists s, digits fuel n acc = s ++ acc /\ undigits s 0 = n /\ alldigits s /\ s <> "".
Proof.
  revert n acc; induction fuel as [|f IH]; intros n acc Hn Hf; [lia|].
  cbn [digits]. destruct (N.ltb_spec n 10).
  - exists (String (digit (n mod 10)) ""). rewrite N.mod_small by lia.
    repeat split; simpl; auto; try discriminate.
    + rewrite N_of_digit by lia. lia.
    + exists n; split; [lia|auto].
  - assert (Hd : (n / 10 < 10 ^ N.of_nat f)%N).
    { replace (N.of_nat (S f)) with (N.succ (N.of_nat f)) in Hn by lia.
      rewrite N.pow_succ_r' in Hn. apply N.div_lt_upper_bound; lia. }
    assert (Hf' : (0 < f)%nat).
    { destruct f; [|lia]. exfalso. simpl in Hd. change (10 ^ 0)%N with 1%N in Hd.
      assert (n / 10 <> 0)%N by (intro; lia). lia. }
    destruct (IH (n / 10)%N (String (digit (n mod 10)) acc) Hd Hf') as (s & E & U & A & _).
    exists (s ++ String (digit (n mod 10)) ""). repeat split.
    + rewrite E. clear. induction s; simpl; congruence.
    + rewrite undigits_app, U. cbn [undigits]. rewrite N_of_digit by (apply N.mod_lt; lia).
      pose proof (N.div_mod n 10 ltac:(lia)). lia.
    + clear - A. assert (B: alldigits (String (digit (n mod 10)) "")).
      { simpl; split; auto. exists (n mod 10)%N; split; [apply N.mod_lt; lia|auto]. }
      revert A. induction s; simpl; intros; auto. destruct A; auto. 
    + destruct s; simpl; discriminate.
Qed.

Lemma str_app_nil s : s ++ "" = s.
Proof. induction s; simpl; congruence. Qed.

Lemma digits_nil_spec n : (n < 10000000000)%N ->
  let s := digits 10 n "" in undigits s 0 = n /\ alldigits s /\ s <> "".
Proof.
  intros H. change 10000000000%N with (10 ^ N.of_nat 10)%N in H. destruct (@digits_spec 10 n "" H ltac:(lia)) as (s & E & U & A & B).
  cbv zeta. rewrite E, str_app_nil. auto.
Qed.

Lemma isdigit_not c : isdigit c -> c <> ":"%char /\ c <> "-"%char.
Proof.
  intros (n & Hn & E). apply (f_equal N_of_ascii) in E. rewrite N_of_digit in E by auto.
  split; intros ->; [change (N_of_ascii ":") with 58%N in E | change (N_of_ascii "-") with 45%N in E]; lia.
Qed.

Lemma is_int_bounds z : is_int z = true -> (-2147483648 <= z <= 2147483647)%Z.
Proof. unfold is_int; lia. Qed.

Lemma dec_pos_cases z : is_int z = true ->
  exists c s, dec z = (if (z <? 0)%Z then String "-" (String c s) else String c s) /\
    alldigits (String c s) /\ undigits (String c s) 0 = Z.to_N (Z.abs z).
Proof.
  intros H; apply is_int_bounds in H. unfold dec.
  destruct (Z.ltb_spec z 0).
  - destruct (@digits_nil_spec (Z.to_N (- z))) as (U & A & B); [lia|].
    destruct (digits 10 (Z.to_N (- z)) "") as [|c s]; [congruence|].
    exists c, s; repeat split; try apply A. rewrite U. f_equal; lia.
  - destruct (@digits_nil_spec (Z.to_N z)) as (U & A & B); [lia|].
    destruct (digits 10 (Z.to_N z) "") as [|c s]; [congruence|].
    exists c, s; repeat split; try apply A. rewrite U. f_equal; lia.
Qed.

Lemma dec_inj z1 z2 : is_int z1 = true -> is_int z2 = true -> dec z1 = dec z2 -> z1 = z2.
Proof.
  intros H1 H2 E.
  destruct (@dec_pos_cases z1 H1) as (c1 & s1 & E1 & A1 & U1).
  destruct (@dec_pos_cases z2 H2) as (c2 & s2 & E2 & A2 & U2).
  rewrite E1, E2 in E.
  destruct (Z.ltb_spec z1 0), (Z.ltb_spec z2 0).
  - injection E as -> ->. lia.
  - exfalso. injection E as E3 E4. destruct A2 as [A2 _]. apply isdigit_not in A2. destruct A2; congruence.
  - exfalso. injection E as E3 E4. destruct A1 as [A1 _]. apply isdigit_not in A1. destruct A1; congruence.
  - injection E as -> ->. lia.
Qed.

Lemma alldigits_no_colon s : alldigits s -> no_colon s = true.
Proof.
  induction s as [|c s IH]; simpl; auto. intros [H1 H2]. apply isdigit_not in H1.
  rewrite IH by auto. destruct (Ascii.eqb_spec c ":"); [tauto|auto].
Qed.

Lemma dec_no_colon z : is_int z = true -> no_colon (dec z) = true.
Proof.
  intros H. destruct (@dec_pos_cases z H) as (c & s & E & A & _). rewrite E.
  apply alldigits_no_colon in A. destruct (z <? 0)%Z; auto. 
Qed.

(** Splitting at the last colon. *)
Lemma app_colon_inj a b x y : no_colon x = true -> no_colon y = true ->
  a ++ String ":" x = b ++ String ":" y -> a = b /\ x = y.
Proof.
  intros Hx Hy. revert b; induction a as [|c a IH]; intros [|d b] E; simpl in E.
  - injection E as ->; auto.
  - injection E as <- E. exfalso. subst x. clear - Hx. induction b as [|e b IH]; simpl in Hx; [discriminate|].
    apply andb_prop in Hx. apply IH. apply Hx.
  - injection E as -> E. exfalso. subst y. clear - Hy. induction a as [|e a IH]; simpl in Hy; [discriminate|].
    apply andb_prop in Hy. apply IH. apply Hy.
  - injection E as -> E. destruct (IH b E) as [-> ->]. auto.
Qed.

Lemma str_app_assoc a b c : (a ++ b) ++ c = a ++ (b ++ c).
Proof. induction a; simpl; congruence. Qed.

Lemma digits_length_le fuel n acc k : (0 < k)%nat -> (k < fuel)%nat ->
  ((n < 10 ^ N.of_nat k)%N <-> (String.length (digits fuel n acc) <= k + String.length acc)%nat).
Proof.
  revert n acc k; induction fuel as [|f IH]; intros n acc k Hk Hf; [lia|].
  cbn [digits]. destruct (N.ltb_spec n 10).
  - simpl. split; intros; [lia|]. apply N.lt_le_trans with (10 ^ 1)%N; [lia|]. apply N.pow_le_mono_r; lia.
  - destruct (Nat.eq_dec k 1) as [->|Hk1].
    + split; intros Hlt; [change (10 ^ N.of_nat 1)%N with 10%N in Hlt; lia|]. exfalso.
      assert (forall fuel n acc, (String.length acc <= String.length (digits fuel n acc))%nat) as M.
      { clear. induction fuel as [|f IH]; simpl; intros; [lia|]. destruct (n <? 10)%N; simpl; [lia|].
        specialize (IH (n / 10)%N (String (digit (n mod 10)) acc)). simpl in IH. lia. }
      destruct f.
      * simpl in Hlt. lia.
      * cbn [digits] in Hlt. destruct (n / 10 <? 10)%N; simpl in Hlt; [lia|].
        match type of Hlt with (String.length (digits ?a ?b ?c) <= _)%nat => pose proof (M a b c) as M' end.
        simpl in M'. lia.
    + rewrite <- (Nat.succ_pred_pos k) by lia. set (j := Nat.pred k).
      assert (0 < j)%nat by (subst j; lia).
      replace (N.of_nat (S j)) with (N.succ (N.of_nat j)) by lia. rewrite N.pow_succ_r'.
      specialize (IH (n / 10)%N (String (digit (n mod 10)) acc) j ltac:(lia) ltac:(subst j; lia)).
      cbn [String.length] in IH.
      replace (S j + String.length acc)%nat with (j + S (String.length acc))%nat by lia.
      rewrite <- IH. split; intros.
      * apply N.div_lt_upper_bound; lia.
      * pose proof (N.div_mod n 10 ltac:(lia)). pose proof (N.mod_lt n 10 ltac:(lia)). nia.
Qed.

Lemma dec_length z : is_int z = true ->
  ((String.length (dec z) <= 7)%nat <-> (-999999 <= z <= 9999999)%Z).
Proof.
  intros H; apply is_int_bounds in H. unfold dec. destruct (Z.ltb_spec z 0).
  - cbn [String.length].
    pose proof (@digits_length_le 10 (Z.to_N (- z)) "" 6 ltac:(lia) ltac:(lia)) as D.
    change (10 ^ N.of_nat 6)%N with 1000000%N in D.
    change (6 + String.length "")%nat with 6%nat in D. lia.
  - pose proof (@digits_length_le 10 (Z.to_N z) "" 7 ltac:(lia) ltac:(lia)) as D.
    change (10 ^ N.of_nat 7)%N with 10000000%N in D.
    change (7 + String.length "")%nat with 7%nat in D. lia.
Qed.

(** ** Keys *)
Lemma key_of_indexed_inj n1 i1 n2 i2 : is_int i1 = true -> is_int i2 = true ->
  n1 ++ ":" ++ dec i1 = n2 ++ ":" ++ dec i2 -> n1 = n2 /\ i1 = i2.
Proof.
  intros H1 H2 E. simpl in E. apply app_colon_inj in E; try (apply dec_no_colon; auto).
  destruct E as [-> E]. split; auto. apply dec_inj; auto.
Qed.

Lemma no_colon_app a b : no_colon (a ++ b) = no_colon a && no_colon b.
Proof. induction a; simpl; auto. rewrite IHa. apply andb_assoc. Qed.

Lemma slot_ok_is_int n i : slot_ok (Indexed n i) = true -> is_int i = true.
Proof. unfold is_int; simpl; lia. Qed.

Lemma slot_ok_key s : slot_ok s = true ->
  key_of s = Ok (match s with Plain n => n | Indexed n i => n ++ ":" ++ dec i end).
Proof.
  destruct s as [n|n i]; auto. intros H. cbn [key_of].
  pose proof (@slot_ok_is_int n i H). pose proof (@dec_length i H0).
  simpl in H. destruct (Nat.leb_spec (String.length (dec i)) 7); auto. lia.
Qed.

Lemma key_of_ub n i : is_int i = true ->
  (key_of (Indexed n i) = UB <-> ~ (-999999 <= i <= 9999999)%Z).
Proof.
  intros H. pose proof (@dec_length i H). cbn [key_of].
  destruct (Nat.leb_spec (String.length (dec i)) 7); split; intros; try discriminate; try lia; auto.
Qed.

Lemma slot_good_inj s1 s2 : slot_good s1 = true -> slot_good s2 = true -> key_of s1 = key_of s2 -> s1 = s2.
Proof.
  unfold slot_good. intros H1 H2. apply andb_prop in H1, H2. destruct H1 as [A1 B1], H2 as [A2 B2].
  rewrite !slot_ok_key by auto.
  destruct s1 as [n1|n1 i1], s2 as [n2|n2 i2]; intros E; injection E as E; simpl in B1, B2.
  - congruence.
  - exfalso. subst n1. change (":" ++ dec i2) with (String ":" (dec i2)) in B1. rewrite no_colon_app in B1.
    simpl in B1. rewrite andb_false_r in B1. discriminate.
  - exfalso. subst n2. change (":" ++ dec i1) with (String ":" (dec i1)) in B2. rewrite no_colon_app in B2.
    simpl in B2. rewrite andb_false_r in B2. discriminate.
  - apply key_of_indexed_inj in E; [destruct E; congruence| |]; eapply slot_ok_is_int; eauto.
Qed.

Lemma slot_eq_dec (s1 s2 : slot) : {s1 = s2} + {s1 <> s2}.
Proof. decide equality; try apply string_dec; apply Z.eq_dec. Qed.
Lemma dtype_eq_dec (t1 t2 : dtype) : {t1 = t2} + {t1 <> t2}.
Proof. decide equality. Defined.

(** ** Maps *)
Lemma m_find_app {A} (m : smap A) k k' v : m_find m k = None ->
  m_find (m ++ [(k, v)])%list k' = if String.eqb k k' then Some v else m_find m k'.
Proof.
  induction m as [|[k0 v0] m IH]; simpl; intros H; auto.
  destruct (String.eqb_spec k0 k); [discriminate|]. rewrite IH by auto.
  destruct (String.eqb_spec k0 k'); auto. destruct (String.eqb_spec k k'); congruence.
Qed.

Lemma m_find_insert {A} (m : smap A) k k' v :
  m_find (m_insert m k v) k' =
  if String.eqb k k' then (match m_find m k with Some w => Some w | None => Some v end) else m_find m k'.
Proof.
  unfold m_insert. destruct (m_find m k) eqn:E.
  - destruct (String.eqb_spec k k'); congruence.
  - apply m_find_app; auto.
Qed.

Lemma m_find_assign {A} (m : smap A) k k' v :
  m_find (m_assign m k v) k' =
  if String.eqb k k' then (match m_find m k with Some w => Some v | None => None end) else m_find m k'.
Proof.
  induction m as [|[k0 v0] m IH]; simpl.
  - destruct (String.eqb k k'); auto.
  - destruct (String.eqb_spec k0 k); simpl.
    + subst. destruct (String.eqb_spec k k'); auto.
    + destruct (String.eqb_spec k0 k'); rewrite ?IH; auto.
      destruct (String.eqb_spec k k'); congruence.
Qed.

Definition dtype_eqb (a b : dtype) := if dtype_eq_dec a b then true else false.

Lemma find_add d k v t k' : find_key (add_key d k v) t k' =
  if String.eqb k k' && dtype_eqb (type_of v) t
  then (match find_key d t k with Some w => Some w | None => Some v end) else find_key d t k'.
Proof.
  destruct v, t; simpl; rewrite ?andb_false_r, ?andb_true_r; auto; rewrite m_find_insert;
    destruct (String.eqb k k'); auto;
    match goal with |- context [m_find ?m ?kk] => destruct (m_find m kk); auto end.
Qed.

Lemma find_set d k v t k' : find_key (fst (set_key d k v)) t k' =
  if String.eqb k k' && dtype_eqb (type_of v) t
  then (match find_key d t k with Some w => Some v | None => None end) else find_key d t k'.
Proof.
  destruct v, t; simpl; rewrite ?andb_false_r, ?andb_true_r; auto; rewrite m_find_assign;
    destruct (String.eqb k k'); auto;
    match goal with |- context [m_find ?m ?kk] => destruct (m_find m kk); auto end.
Qed.

Lemma set_flag d k v : snd (set_key d k v) = found (find_key d (type_of v) k).
Proof.
  destruct v; simpl; match goal with |- context [m_find ?m ?kk] => destruct (m_find m kk); auto end.
Qed.

(** ** Runs *)
Lemma run_calls_snoc d cs c :
  run_calls d (cs ++ [c])%list =
  obind (run_calls d cs) (fun '(d1, bs) => obind (run_call d1 c) (fun '(d2, b) => Ok (d2, (bs ++ [b])%list))).
Proof.
  revert d; induction cs as [|c0 cs IH]; intros d; simpl.
  - destruct (run_call d c) as [[d1 b]| |]; auto.
  - destruct (run_call d c0) as [[d1 b]| |]; simpl; auto. rewrite IH.
    destruct (run_calls d1 cs) as [[d2 bs]| |]; simpl; auto.
    destruct (run_call d2 c) as [[d3 b3]| |]; simpl; auto.
Qed.

Definition slot_key (s : slot) : string := match s with Plain n => n | Indexed n i => n ++ ":" ++ dec i end.

Lemma slot_good_key s : slot_good s = true -> key_of s = Ok (slot_key s).
Proof. unfold slot_good; intros H; apply andb_prop in H. apply slot_ok_key. tauto. Qed.

Lemma slot_good_eqb s1 s2 : slot_good s1 = true -> slot_good s2 = true ->
  String.eqb (slot_key s1) (slot_key s2) = if slot_eq_dec s1 s2 then true else false.
Proof.
  intros H1 H2. destruct (slot_eq_dec s1 s2) as [->|N]; [apply String.eqb_refl|].
  destruct (String.eqb_spec (slot_key s1) (slot_key s2)) as [E|E]; auto.
  exfalso; apply N. apply slot_good_inj; auto. rewrite !slot_good_key by auto. congruence.
Qed.

Lemma forallb_snoc {A} (f : A -> bool) l x : forallb f (l ++ [x])%list = forallb f l && f x.
Proof. rewrite forallb_app. simpl. rewrite andb_true_r. auto. Qed.

Lemma dc_refines cs : forallb call_good cs = true ->
  exists d bs, run_calls dc_empty cs = Ok (d, bs) /\
  forall s t, slot_good s = true -> exists r, find_key d t (slot_key s) = r /\ history s t cs r.
Proof.
  induction cs as [|c cs IH] using rev_ind; intros H.
  - exists dc_empty, []. split; auto. intros s t _. exists None. split; [destruct t; auto | constructor].
  - rewrite forallb_snoc in H. apply andb_prop in H. destruct H as [H1 H2].
    destruct (IH H1) as (d & bs & R & F).
    rewrite run_calls_snoc, R. cbn [obind].
    destruct c as [s0 v|s0 v|rhs]; cbn [call_good] in H2; try discriminate; cbn [run_call];
      rewrite slot_good_key by auto; cbn [obind].
    + eexists _, _; split; [reflexivity|]. intros s t Hs. destruct (F s t Hs) as (r & E & Hh).
      exists (find_key (add_key d (slot_key s0) v) t (slot_key s)); split; auto.
      rewrite find_add, slot_good_eqb by auto. unfold dtype_eqb.
      destruct (slot_eq_dec s0 s) as [->|N1]; [destruct (dtype_eq_dec (type_of v) t) as [T|T]|]; cbn [andb].
      * rewrite E. destruct r as [w|]; [apply h_add_again|apply h_add_first]; auto.
      * rewrite E. apply h_other_add; auto.
      * rewrite E. apply h_other_add; auto.
    + destruct (set_key d (slot_key s0) v) as [d' b] eqn:Es.
      eexists _, _; split; [reflexivity|]. intros s t Hs. destruct (F s t Hs) as (r & E & Hh).
      exists (find_key d' t (slot_key s)); split; auto.
      replace d' with (fst (set_key d (slot_key s0) v)) by (rewrite Es; auto).
      rewrite find_set, slot_good_eqb by auto. unfold dtype_eqb.
      destruct (slot_eq_dec s0 s) as [->|N1]; [destruct (dtype_eq_dec (type_of v) t) as [T|T]|]; cbn [andb].
      * rewrite E. destruct r as [w|]; [eapply h_set; eauto|apply h_set_missing; auto].
      * rewrite E. apply h_other_set; auto.
      * rewrite E. apply h_other_set; auto.
Qed.

(** The result determined by the history is unique, so the refinement pins the answer down. *)
Definition hstep (s : slot) (t : dtype) (c : call) (r0 : option value) : option value :=
  match c with
  | CAdd s' v => if slot_eq_dec s' s then if dtype_eq_dec (type_of v) t then
                   match r0 with Some w => Some w | None => Some v end else r0 else r0
  | CSet s' v => if slot_eq_dec s' s then if dtype_eq_dec (type_of v) t then
                   match r0 with Some w => Some v | None => None end else r0 else r0
  | CAssign _ => r0
  end.

Lemma history_snoc s t l r : history s t l r ->
  forall cs c, l = (cs ++ [c])%list -> exists r0, history s t cs r0 /\ r = hstep s t c r0.
Proof.
  destruct 1 as [|cs0 v H T|cs0 v w H T|cs0 v w H T|cs0 v H T|cs0 r s' v H T|cs0 r s' v H T]; intros cs c E;
  try (destruct (app_cons_not_nil _ _ _ E));
  apply app_inj_tail in E; destruct E as [-> <-]; eexists; (split; [exact H|]); cbn [hstep];
  repeat match goal with |- context [slot_eq_dec ?a ?b] => destruct (slot_eq_dec a b)
  | |- context [dtype_eq_dec ?a ?b] => destruct (dtype_eq_dec a b) end; auto; try tauto; congruence.
Qed.

Lemma history_fun s t cs r1 : history s t cs r1 -> forall r2, history s t cs r2 -> r1 = r2.
Proof.
  revert r1; induction cs as [|c cs IH] using rev_ind; intros r1 H1 r2 H2.
  - assert (G : forall l r, history s t l r -> l = [] -> r = None).
    { destruct 1; auto; intros E; symmetry in E; destruct (app_cons_not_nil _ _ _ E). }
    rewrite (G [] r1), (G [] r2); auto.
  - destruct (@history_snoc s t _ r1 H1 cs c eq_refl) as (a & Ha & ->).
    destruct (@history_snoc s t _ r2 H2 cs c eq_refl) as (b & Hb & ->).
    rewrite (IH a Ha b Hb). auto.
Qed.

Lemma dc_get_history cs s t old : forallb call_good cs = true -> slot_good s = true ->
  exists d bs r, run_calls dc_empty cs = Ok (d, bs) /\ history s t cs r /\
    (forall r', history s t cs r' -> r' = r) /\
    get_value d t s old = Ok (match r with Some v => (true, v) | None => (false, old) end).
Proof.
  intros H Hs. destruct (@dc_refines cs H) as (d & bs & R & F). destruct (F s t Hs) as (r & E & Hh).
  exists d, bs, r. split; [auto|]. split; [auto|]. split.
  - intros r' Hr'. eapply history_fun; eauto.
  - unfold get_value. rewrite slot_good_key by auto. cbn [obind]. rewrite E. destruct r; auto.
Qed.

Lemma dc_set_result cs s v : forallb call_good cs = true -> slot_good s = true ->
  exists d bs r, run_calls dc_empty cs = Ok (d, bs) /\ history s (type_of v) cs r /\
    exists d', run_call d (CSet s v) = Ok (d', match r with Some _ => true | None => false end).
Proof.
  intros H Hs. destruct (@dc_refines cs H) as (d & bs & R & F). destruct (F s (type_of v) Hs) as (r & E & Hh).
  exists d, bs, r. repeat split; auto. cbn [run_call]. rewrite slot_good_key by auto. cbn [obind].
  exists (fst (set_key d (slot_key s) v)).
  rewrite (surjective_pairing (set_key d (slot_key s) v)) at 1.
  rewrite set_flag, E. destruct r; auto.
Qed.

(** Copy assignment makes every later query answer like the source object. *)
Lemma dc_assign d rhs t s old d' b : run_call d (CAssign rhs) = Ok (d', b) ->
  get_value d' t s old = get_value rhs t s old.
Proof. cbn. intros E; injection E as <- _. unfold get_value. destruct (key_of s); auto; destruct t; auto. Qed.

(** Indexed entries share a key exactly when they are the same entry. *)
Lemma indexed_alias n1 i1 n2 i2 :
  slot_ok (Indexed n1 i1) = true -> slot_ok (Indexed n2 i2) = true ->
  (key_of (Indexed n1 i1) = key_of (Indexed n2 i2) <-> n1 = n2 /\ i1 = i2).
Proof.
  intros H1 H2. split; [|intros [-> ->]; auto].
  rewrite !slot_ok_key by auto. intros E; injection E as E. apply key_of_indexed_inj in E; auto;
  eapply slot_ok_is_int; eauto.
Qed.

Lemma plain_indexed_alias n m i : slot_ok (Indexed m i) = true ->
  (key_of (Plain n) = key_of (Indexed m i) <-> n = m ++ ":" ++ dec i).
Proof.
  intros H. rewrite (@slot_ok_key (Indexed m i)) by auto. cbn [key_of]. split; intros E; [injection E as ->|subst]; auto.
Qed.

Lemma plain_alias_refuted :
  exists n m i d, run_calls dc_empty [CAdd (Indexed m i) (VInt 7)] = Ok (d, [true]) /\
    Plain n <> Indexed m i /\ get_value d TInt (Plain n) (VInt 0) = Ok (true, VInt 7).
Proof.
  exists "LOAD:0", "LOAD", 0%Z. eexists. split; [vm_compute; reflexivity|]. split; [discriminate|vm_compute; reflexivity].
Qed.

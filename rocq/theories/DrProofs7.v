(** Proofs for the reading of dynamic model records: relays, records without trouble, lines. *)
From Verif Require Import Prelude DCModel DCSpec DCProofs StrModel DrModel DrTables DrModel2 DrSpec DrProofs DrProofs2 DrProofs3 DrProofs4 DrProofs5 DrProofs6.
From Coq Require Import Ascii.
Open Scope string_scope.

(** ** Lines *)
Lemma has_spec c s : has c s = true <-> In c s.
Proof.
  unfold has. rewrite existsb_exists. split; [intros (x & H & E); apply Ascii.eqb_eq in E; now subst | intros H; exists c; split; auto; apply Ascii.eqb_refl].
Qed.
Lemma before_spec r tail : ~ In slash r -> before slash (r ++ slash :: tail)%list = r.
Proof.
  induction r as [|x r IH]; intros H; cbn [app before]; [now rewrite Ascii.eqb_refl|]. destruct (Ascii.eqb_spec x slash) as [->|N]; [exfalso; apply H; left; auto|]. f_equal. apply IH. intros Q. apply H. right; auto.
Qed.
Lemma blank_spec l : forallb (Ascii.eqb sp) l = true <-> blank l.
Proof.
  rewrite forallb_forall. unfold blank. split; intros H c I; [specialize (H c I); apply Ascii.eqb_eq in H; auto | apply Ascii.eqb_eq; symmetry; apply (H c I)].
Qed.
Lemma cr_spec l : forallb (Ascii.eqb cr) l = true <-> (forall c, In c l -> c = ascii_of_nat 13).
Proof.
  rewrite forallb_forall. split; intros H c I; [specialize (H c I); apply Ascii.eqb_eq in H; auto | apply Ascii.eqb_eq; symmetry; apply (H c I)].
Qed.
Lemma drop_spaces l : exists n, l = (repeat sp n ++ drop_while (Ascii.eqb sp) l)%list.
Proof.
  induction l as [|x l (n & IH)]; [exists 0%nat; reflexivity|]. cbn [drop_while]. destruct (Ascii.eqb_spec sp x) as [<-|]; [exists (S n); cbn; now f_equal | exists 0%nat; reflexivity].
Qed.
Lemma drop_repeat n r : drop_while (Ascii.eqb sp) (repeat sp n ++ slash :: r)%list = (slash :: r)%list.
Proof. induction n; cbn; auto. Qed.
Lemma skipped_spec ext l : skipped ext l = true <-> ignored ext l.
Proof.
  unfold skipped, ignored. rewrite orb_true_iff, andb_true_iff, orb_true_iff, blank_spec, cr_spec. split.
  - intros [H|(-> & [H|H])]; auto. right. split; auto. right. destruct (drop_spaces l) as (n & E). destruct (drop_while (Ascii.eqb sp) l) as [|a [|b [|c r]]]; try discriminate.
    apply andb_true_iff in H as (H1 & H2). apply Ascii.eqb_eq in H1, H2. subst a b. exists n, c, r. exact E.
  - intros [H|(-> & [H|(n & c & r & ->)])]; auto. right. split; auto. right. change " "%char with sp. change "/"%char with slash. rewrite drop_repeat. now rewrite !Ascii.eqb_refl.
Qed.
Lemma scan_more ext init : forall a last lines, Forall (fun x => ~ slash_in x) init -> slash_in last ->
  scan ext (Some a) (init ++ last :: lines)%list = (let '(rs, b) := scan ext None lines in (before slash (a ++ concat init ++ last)%list :: rs, b)).
Proof.
  induction init as [|x init IH]; intros a last lines F L; cbn [app scan].
  - apply has_spec in L. change "/"%char with slash in L. rewrite L. reflexivity.
  - inversion F; subst. destruct (has slash x) eqn:Hx; [apply has_spec in Hx; contradiction|]. rewrite IH by auto. cbn [concat]. now rewrite <- !app_assoc.
Qed.
Lemma scan_file ext lines rs : dyr_file ext lines rs -> scan ext None lines = (rs, true).
Proof.
  induction 1 as [|x lines rs B _ IH|ls r lines rs R _ IH]; [reflexivity| |].
  - cbn [scan]. apply skipped_spec in B. rewrite B. exact IH.
  - destruct R as (init & last & tail & -> & F & C & N & L & H). rewrite <- app_assoc. cbn [app].
    assert (E : before slash (concat init ++ last)%list = r).
    { rewrite concat_app in C. cbn [concat] in C. rewrite app_nil_r in C. rewrite C. apply before_spec. exact N. }
    destruct init as [|x init]; cbn [app scan].
    + cbn [app] in H. destruct (skipped ext last) eqn:S; [exfalso; apply H; now apply skipped_spec|].
      apply has_spec in L. change "/"%char with slash in L. rewrite L, IH. cbn [concat app] in E. now rewrite E.
    + cbn [app] in H. inversion F; subst. destruct (skipped ext x) eqn:S; [exfalso; apply H; now apply skipped_spec|].
      destruct (has slash x) eqn:Hx; [apply has_spec in Hx; contradiction|]. rewrite scan_more by auto. rewrite IH. cbn [concat]. now rewrite <- app_assoc.
Qed.
Lemma counted_of d k n : counted d k n <-> count_of d k = n.
Proof.
  unfold counted, count_of, get_value. cbn [key_of obind]. destruct (find_key d TInt k) as [v|] eqn:E.
  - assert (exists z, v = VInt z) as (z & ->) by (cbn in E; destruct (m_find (p_ints d) k); inversion E; eauto). split.
    + intros [H|(_ & H)]; [specialize (H (VInt 0)); congruence | specialize (H (VInt 0)); congruence].
    + intros ->. left. auto.
  - split; [intros [H|(-> & H)]; auto; specialize (H (VInt 0)); congruence | intros <-; right; auto].
Qed.

Section Relays.
Variable atof : str -> Z.
Variable trunc : Z -> outcome Z.
(** ** Relays in getDS *)
Lemma ds_record_relay n r n' toks m l b d : ds_record atof trunc n r = Ok n' -> tokens r = Ok toks -> relay_record toks m l b -> bus_dc (n_buses n) b = Some d ->
  exists d' c, bus_dc (n_buses n') b = Some d' /\ assoc relay_class m = Some c /\ parse_relay atof trunc (c_parse c) toks d = Ok d'.
Proof.
  intros H T (L & M & B) Bd. apply model_of_name in M. apply bus_of_number in B.
  unfold ds_record in H. rewrite T in H. cbn [obind] in H. rewrite M in H. cbn [obind] in H.
  assert (N : on_generator m = false /\ on_bus m = true /\ (if String.eqb m "LVSHBL" then 0 else 3) = (if String.eqb m "FRQTPAT" then 3 else 0)) by (cbn in L; destruct L as [L|[L|[]]]; inversion L; subst; repeat split; reflexivity).
  destruct N as (N1 & N2 & N3). rewrite N1, N2, N3, B in H. cbn [obind] in H.
  destruct (at_bus_step _ _ _ _ H Bd) as (d' & B' & [(Q & _)|(_ & Q)]); [congruence|].
  destruct (relay_facts atof trunc L) as (c & A & _). exists d', c. split; auto. split; auto. unfold on_relay in Q. rewrite A in Q. exact Q.
Qed.
Lemma relay_value m l c toks d d' f : In (m, l) Layout.relay_models \/ In (m, l) Layout.branch_relay_models -> assoc relay_class m = Some c \/ c = branch_class /\ m = "DISTR1" -> parse_relay atof trunc (c_parse c) toks d = Ok d' -> (1 < length toks)%nat -> In f l -> (f_pos f < length toks)%nat ->
  exists v, reads atof toks f v /\ holds d' f (count_of d "RELAY_NUMBER") v.
Proof.
  intros L A H Le I Lp. assert (F : cls_facts atof trunc m l c).
  { destruct L as [L|L].
    - destruct (relay_facts atof trunc L) as (c' & A' & F & _). destruct A as [A|(_ & ->)]; [assert (c' = c) by congruence; now subst|]. cbn in L. destruct L as [L|[L|[]]]; discriminate L.
    - destruct (branch_facts atof trunc L) as (-> & F & _). destruct A as [A|(-> & _)]; auto. discriminate A. }
  destruct F as (_ & _ & _ & F4 & _). unfold parse_relay in H. destruct (next_relay d) as [(n & d1)| |] eqn:N; cbn [obind fst snd] in H; try discriminate.
  apply next_relay_spec in N as (-> & N1 & N2). eapply F4; eauto. unfold listed.
  assert (m = "LVSHBL" \/ m = "FRQTPAT" \/ m = "DISTR1") as M by (destruct L as [L|L]; [destruct L as [L|[L|L]]|destruct L as [L|L]]; try contradiction; inversion L; auto).
  destruct M as [-> | [-> | ->]]; cbn; intros Q; repeat (destruct Q as [Q|Q]; [discriminate Q|]); exact Q.
Qed.
Lemma count_eq d d' : find_key d' TInt "RELAY_NUMBER" = find_key d TInt "RELAY_NUMBER" -> count_of d' "RELAY_NUMBER" = count_of d "RELAY_NUMBER".
Proof. unfold count_of. now intros ->. Qed.
Lemma count_some d z : find_key d TInt "RELAY_NUMBER" = Some (VInt z) -> count_of d "RELAY_NUMBER" = z.
Proof. unfold count_of. now intros ->. Qed.
(** One record: relay entries below the count stay, the count grows by the relay records for the bus. *)
Lemma relay_step n r n' b d : ds_record atof trunc n r = Ok n' -> bus_dc (n_buses n) b = Some d -> no_distr r ->
  exists d', bus_dc (n_buses n') b = Some d' /\
    (forall a i t, In a rkeys -> small i -> (i < count_of d "RELAY_NUMBER")%Z -> find_key d' t (ikey a i) = find_key d t (ikey a i)) /\
    ((exists toks m l, tokens r = Ok toks /\ relay_record toks m l b) /\ count_of d' "RELAY_NUMBER" = (count_of d "RELAY_NUMBER" + 1)%Z \/
     (forall toks m l, tokens r = Ok toks -> ~ relay_record toks m l b) /\ count_of d' "RELAY_NUMBER" = count_of d "RELAY_NUMBER").
Proof.
  intros H B ND. destruct (@ds_record_step _ _ _ _ _ _ _ H B) as (d' & B' & S). exists d'. split; auto.
  assert (Rn : (exists toks m l, tokens r = Ok toks /\ relay_record toks m l b) -> exists toks m l c, tokens r = Ok toks /\ In (m, l) Layout.relay_models /\ assoc relay_class m = Some c /\ parse_relay atof trunc (c_parse c) toks d = Ok d').
  { intros (toks & m & l & T & R). destruct (@ds_record_relay _ _ _ _ _ _ _ _ H T R B) as (d2 & c & B2 & A & P). exists toks, m, l, c. assert (d2 = d') by congruence. subst. split; auto. split; [apply R | auto]. }
  assert (Dec : (exists toks m l, tokens r = Ok toks /\ relay_record toks m l b) \/ (forall toks m l, tokens r = Ok toks -> ~ relay_record toks m l b)).
  { destruct (tokens r) as [toks| |]; [|right; discriminate|right; discriminate]. destruct (model_of toks) as [m| |] eqn:M; [ | right; intros toks' m l E (_ & N & _); inversion E; subst; apply model_of_name in N; congruence ..].
    destruct (in_dec String.string_dec m (map fst Layout.relay_models)) as [I|I].
    - apply in_map_iff in I as ((m' & l) & E & I). cbn in E. subst m'. destruct (bus_of (if String.eqb m "FRQTPAT" then 3 else 0) toks) as [z| |] eqn:Bz; [destruct (Z.eq_dec z b) as [->|Nb]|..].
      + left. exists toks, m, l. split; auto. split; auto. split; [now apply model_of_name | now apply bus_of_number].
      + right. intros toks' m' l' E (_ & N & Q). inversion E; subst toks'. apply model_of_name in N. assert (m' = m) by congruence. subst m'. apply bus_of_number in Q. congruence.
      + right. intros toks' m' l' E (_ & N & Q). inversion E; subst toks'. apply model_of_name in N. assert (m' = m) by congruence. subst m'. apply bus_of_number in Q. congruence.
      + right. intros toks' m' l' E (_ & N & Q). inversion E; subst toks'. apply model_of_name in N. assert (m' = m) by congruence. subst m'. apply bus_of_number in Q. congruence.
    - right. intros toks' m' l' E (L & N & Q). inversion E; subst toks'. apply model_of_name in N. assert (m' = m) by congruence. subst m'. apply I. apply in_map_iff. exists (m, l'). auto. }
  destruct Dec as [Y|Nr].
  - destruct (Rn Y) as (toks & m & l & c & T & L & A & P). destruct (@relay_frame atof trunc m l c toks d d') as (Sm & C & F); auto. split.
    + intros a i t Ia Si Lt. apply F; [now apply ikey_plain|]. intros a' _ E. apply ikey_inj2 in E as (_ & ->); auto. lia.
    + left. split; auto. now apply count_some.
  - destruct S as [->|(toks & m & T & M & C)]; [split; auto|].
    destruct C as [(O & Bb & Hg)|[(c & A & Bb & P)|[(O & Bb & Hl)|(O & P)]]].
    + apply on_gen_cases in Hg as [->|(l & g & L & _ & Sg & F)]; auto. split.
      * intros a i t Ia Si _. apply F. intros a' Ha' E. apply ikey_inj2 in E as (-> & _); auto. apply rkeys_apart in Ia as (Na & _). apply Na. eapply in_gkeys; eauto.
      * right. split; auto. apply count_eq. apply F. intros a' _ E. symmetry in E. revert E. now apply ikey_plain.
    + exfalso. destruct (relay_listed _ A) as (l & L). apply (Nr toks m l T). split; auto. split; [now apply model_of_name|]. apply bus_of_number.
      destruct L as [L|[L|[]]]; inversion L; subst; exact Bb.
    + apply on_ld_cases in Hl as [->|(dev & l & g & _ & L & _ & Sg & F)]; auto. split.
      * intros a i t Ia Si _. apply F. intros a' Ha' E. apply ikey_inj2 in E as (-> & _); auto. apply rkeys_apart in Ia as (_ & Na & _). apply Na. eapply in_lkeys; eauto.
      * right. split; auto. apply count_eq. apply F. intros a' _ E. symmetry in E. revert E. now apply ikey_plain.
    + exfalso. unfold on_branch in O. apply mem_In in O. destruct O as [<-|[]]. apply (ND toks T). now apply model_of_name.
Qed.
Lemma relay_steps rs : forall n n' b d k, ds_records atof trunc n rs = Ok n' -> bus_dc (n_buses n) b = Some d -> (forall r, In r rs -> no_distr r) -> relays_for b rs k ->
  exists d', bus_dc (n_buses n') b = Some d' /\ count_of d' "RELAY_NUMBER" = (count_of d "RELAY_NUMBER" + Z.of_nat k)%Z /\
    (forall a i t, In a rkeys -> small i -> (i < count_of d "RELAY_NUMBER")%Z -> find_key d' t (ikey a i) = find_key d t (ikey a i)).
Proof.
  induction rs as [|r rs IH]; intros n n' b d k H B ND R; cbn [ds_records] in H; [inversion H; subst; inversion R; subst; exists d; repeat split; auto; lia|].
  destruct (ds_record atof trunc n r) as [n1| |] eqn:E; cbn [obind] in H; try discriminate.
  destruct (@relay_step _ _ _ _ _ E B ltac:(apply ND; left; auto)) as (d1 & B1 & K1 & C1).
  assert (X : exists k1, relays_for b rs k1 /\ (count_of d1 "RELAY_NUMBER" + Z.of_nat k1 = count_of d "RELAY_NUMBER" + Z.of_nat k)%Z /\ (count_of d "RELAY_NUMBER" <= count_of d1 "RELAY_NUMBER")%Z).
  { inversion R; subst; destruct C1 as [((toks' & m' & l' & T' & R') & C1)|(C0 & C1)]; try (exfalso; eapply C0; eauto; fail); try (exfalso; match goal with Z : forall _ _ _, words r _ -> _ |- _ => eapply Z; eauto end; fail); eexists; (split; [eauto|]); lia. }
  destruct X as (k1 & R1 & C2 & C3). destruct (IH _ _ _ _ _ H B1 ltac:(intros; apply ND; right; auto) R1) as (d2 & B2 & C4 & K2).
  exists d2. split; auto. split; [lia|]. intros a i t Ia Si Lt. rewrite K2 by (auto; lia). apply K1; auto.
Qed.
Lemma relay_file n pre r post n' toks m l b d k kp f : ds_records atof trunc n (pre ++ r :: post) = Ok n' -> bus_dc (n_buses n) b = Some d ->
  (forall r2, In r2 (pre ++ r :: post) -> no_distr r2) -> relays_for b pre k -> relays_for b post kp -> tokens r = Ok toks -> relay_record toks m l b -> In f l -> (f_pos f < length toks)%nat ->
  exists d' v, bus_dc (n_buses n') b = Some d' /\ count_of d' "RELAY_NUMBER" = (count_of d "RELAY_NUMBER" + Z.of_nat (k + 1 + kp))%Z /\ reads atof toks f v /\ holds d' f (count_of d "RELAY_NUMBER" + Z.of_nat k) v.
Proof.
  intros H B ND Rp Rq T R I Lp. apply ds_records_app in H as (n1 & H1 & H). cbn [ds_records] in H. destruct (ds_record atof trunc n1 r) as [n2| |] eqn:E; cbn [obind] in H; try discriminate.
  destruct (@relay_steps _ _ _ _ _ _ H1 B ltac:(intros; apply ND; apply in_or_app; auto) Rp) as (d1 & B1 & C1 & _).
  destruct (@ds_record_relay _ _ _ _ _ _ _ _ E T R B1) as (d2 & c & B2 & A & P). pose proof R as (L & M & _).
  destruct (@relay_frame atof trunc m l c toks d1 d2 ltac:(auto) P) as (Sm & C2 & _). apply count_some in C2.
  destruct (@relay_value m l c toks d1 d2 f ltac:(auto) ltac:(auto) P ltac:(eapply name_len; eauto) I Lp) as (v & V1 & V2).
  destruct (@relay_steps _ _ _ _ _ _ H B2 ltac:(intros; apply ND; apply in_or_app; right; right; auto) Rq) as (d3 & B3 & C3 & K3).
  exists d3, v. split; auto. split; [lia|]. split; auto. rewrite <- C1. apply holds_find in V2; auto. apply holds_find; auto.
  rewrite K3; auto; [|lia]. unfold rkeys, relay_keys. apply in_or_app. left. eapply in_keys; eauto.
Qed.

(** ** Records without trouble *)
Definition roomy (n : net) (k : nat) : Prop :=
  forall b d, bus_dc (n_buses n) b = Some d ->
    (count_of d "GENERATOR_NUMBER" <= 9999999)%Z /\ (count_of d "LOAD_NUMBER" <= 9999999)%Z /\
    (0 <= count_of d "RELAY_NUMBER")%Z /\ (count_of d "RELAY_NUMBER" + Z.of_nat k <= 9999999)%Z.
Lemma first_match_total d ik tag n : forall j, (-1 <= j)%Z -> (j + Z.of_nat n <= 9999999)%Z -> exists g, first_match d ik tag n j = Ok g /\ (-1 <= g <= 9999999)%Z.
Proof.
  induction n as [|n IH]; intros j J Le; cbn [first_match]; [exists (-1)%Z; split; auto; lia|].
  assert (S : small j) by (apply small_range; lia). destruct (IH (j + 1)%Z) as (g & G & Bd); [lia | lia|].
  unfold get_value. rewrite (@key_small _ _ S). cbn [obind]. destruct (find_key d TString (ikey ik j)) as [w|]; cbn [obind snd].
  - destruct w; eauto. destruct (String.eqb tag s); eauto. exists j. split; auto. lia.
  - destruct (String.eqb tag ""); eauto. exists j. split; auto. lia.
Qed.
Lemma matching_total d nk ik toks tag : (count_of d nk <= 9999999)%Z -> tag_of toks = Ok tag -> exists g, matching d nk ik toks = Ok g /\ small g.
Proof.
  intros C T. unfold matching. destruct (Z.ltb_spec 0 (count_of d nk)); [|exists (-1)%Z; split; auto; apply small_range; lia].
  rewrite T. cbn [obind]. unfold device_index. destruct (@first_match_total d ik tag (Z.to_nat (count_of d nk)) 0) as (g & G & B); [lia | lia|]. exists g. split; auto. apply small_range. lia.
Qed.
Lemma at_bus_total n b f : (forall d, bus_dc (n_buses n) b = Some d -> exists d', f d = Ok d') -> exists n', at_bus n b f = Ok n'.
Proof.
  intros H. unfold at_bus. destruct (bus_dc (n_buses n) b) as [d|]; eauto. destruct (H d eq_refl) as (d' & ->). cbn [obind]. eauto.
Qed.
Lemma ds_record_total n r k toks : tokens r = Ok toks -> readable atof toks -> roomy n (S k) -> exists n', ds_record atof trunc n r = Ok n'.
Proof.
  intros T R Ro. unfold ds_record. rewrite T. cbn [obind]. destruct R as [(m & l & b & tag & R & C)|[(m & l & b & R & C)|[(m & l & b & tag & R & C)|(m & M & N)]]].
  - destruct R as (L & M & B & Id). apply model_of_name in M. apply bus_of_number in B. apply tag_of_ident in Id. rewrite M. cbn [obind]. rewrite (@listed_on_generator _ _ L), B. cbn [obind].
    apply at_bus_total. intros d Bd. destruct (Ro b d Bd) as (R1 & _). unfold on_gen. destruct (@matching_total d "GENERATOR_NUMBER" "GENERATOR_ID" toks tag R1 Id) as (g & -> & S). cbn [obind].
    destruct (g >? -1)%Z; eauto. unfold gen_parse_class. destruct (String.eqb m "ESST4B"); eauto. destruct (gen_facts atof trunc L) as (c & A & (_ & _ & F3 & _) & _). rewrite A. eapply F3; eauto.
  - destruct R as (L & M & B). apply model_of_name in M. apply bus_of_number in B. rewrite M. cbn [obind].
    assert (N : on_generator m = false /\ on_bus m = true /\ (if String.eqb m "LVSHBL" then 0 else 3) = (if String.eqb m "FRQTPAT" then 3 else 0)) by (cbn in L; destruct L as [L|[L|[]]]; inversion L; subst; repeat split; reflexivity).
    destruct N as (N1 & N2 & N3). rewrite N1, N2, N3, B. cbn [obind]. apply at_bus_total. intros d Bd. destruct (Ro b d Bd) as (_ & _ & R0 & R1). unfold on_relay.
    destruct (relay_facts atof trunc L) as (c & A & (_ & _ & F3 & _) & _). rewrite A. unfold parse_relay.
    assert (exists d1, next_relay d = Ok (count_of d "RELAY_NUMBER", d1)) as (d1 & ->).
    { unfold next_relay, count_of in *. destruct (find_key d TInt "RELAY_NUMBER") as [[z| | | | | |]|]; eauto. destruct (is_int (z + 1)) eqn:Q; eauto. unfold is_int in Q. lia. }
    cbn [obind fst snd]. eapply F3; eauto. apply small_range. lia.
  - destruct (record_load_device R) as (m1 & M & O & LD). destruct R as (L & B & Id & _). apply bus_of_number in B. apply tag_of_ident in Id. rewrite M. cbn [obind].
    assert (N : on_generator m1 = false /\ on_bus m1 = false) by (unfold on_load in O; apply mem_In in O; cbn in O; destruct O as [<-|[<-|[<-|[]]]]; split; reflexivity).
    destruct N as (N1 & N2). rewrite N1, N2, O, B. cbn [obind]. apply at_bus_total. intros d Bd. destruct (Ro b d Bd) as (_ & R1 & _). unfold on_ld.
    destruct (@matching_total d "LOAD_NUMBER" "LOAD_ID" toks tag R1 Id) as (g & -> & S). cbn [obind]. rewrite LD. cbn [obind]. destruct (load_facts atof trunc L) as (c & A & (_ & _ & F3 & _) & _). rewrite A. eapply F3; eauto.
  - apply model_of_name in M. rewrite M. cbn [obind].
    assert (Q : forall x, mem m x = true -> (forall y, In y x -> In y known_models) -> False) by (intros x Hx Sub; apply mem_In in Hx; now apply N, Sub).
    assert (on_generator m = false) as ->. { destruct (on_generator m) eqn:O; auto. destruct (on_generator_listed m O) as (l & L). exfalso. apply N. unfold known_models. apply in_or_app. left. apply (in_map fst) in L. exact L. }
    assert (on_bus m = false) as ->. { destruct (on_bus m) eqn:O; auto. exfalso. apply (Q _ O). intros y Hy. unfold known_models. cbn. destruct Hy as [<-|[<-|[]]]; tauto. }
    assert (on_load m = false) as ->. { destruct (on_load m) eqn:O; auto. exfalso. apply (Q _ O). intros y Hy. unfold known_models. cbn. destruct Hy as [<-|[<-|[<-|[]]]]; tauto. }
    assert (on_branch m = false) as ->. { destruct (on_branch m) eqn:O; auto. exfalso. apply (Q _ O). intros y Hy. unfold known_models. cbn. destruct Hy as [<-|[]]; tauto. }
    eauto.
Qed.
Lemma readable_no_distr toks r : tokens r = Ok toks -> readable atof toks -> no_distr r.
Proof.
  intros T R toks' T' M. change (tokens r = Ok toks') in T'. assert (toks' = toks) by congruence. subst toks'. apply model_of_name in M.
  destruct R as [(m & l & b & tag & R & C)|[(m & l & b & R & C)|[(m & l & b & tag & R & C)|(m & M' & N)]]].
  - destruct R as (L & M' & _). apply model_of_name in M'. assert (m = "DISTR1") by congruence. subst. apply listed_on_generator in L. discriminate L.
  - destruct R as (L & M' & _). apply model_of_name in M'. assert (m = "DISTR1") by congruence. subst. cbn in L. destruct L as [L|[L|[]]]; discriminate L.
  - destruct (record_load_device R) as (m1 & M' & O & _). assert (m1 = "DISTR1") by congruence. subst. discriminate O.
  - apply model_of_name in M'. assert (m = "DISTR1") by congruence. subst. apply N. unfold known_models. rewrite !in_app_iff. cbn. tauto.
Qed.
Lemma ds_record_bus n r n' b d' : ds_record atof trunc n r = Ok n' -> bus_dc (n_buses n') b = Some d' -> exists d, bus_dc (n_buses n) b = Some d.
Proof.
  assert (At : forall b0 f, at_bus n b0 f = Ok n' -> bus_dc (n_buses n') b = Some d' -> exists d, bus_dc (n_buses n) b = Some d).
  { intros b0 f. unfold at_bus. destruct (bus_dc (n_buses n) b0) as [e|] eqn:E; [|intros H; inversion H; subst; eauto]. destruct (f e); cbn [obind]; try discriminate.
    intros H. inversion H; subst. cbn [n_buses]. rewrite bus_dc_set. destruct (Z.eqb_spec b b0) as [->|]; eauto. }
  unfold ds_record. intros H B. destruct (tokens r) as [toks| |]; cbn [obind] in H; try discriminate. destruct (model_of toks) as [m| |]; cbn [obind] in H; try discriminate.
  destruct (on_generator m); [destruct (bus_of 0 toks); cbn [obind] in H; try discriminate; eauto|].
  destruct (on_bus m); [destruct (bus_of _ toks); cbn [obind] in H; try discriminate; eauto|].
  destruct (on_load m); [destruct (bus_of 0 toks); cbn [obind] in H; try discriminate; eauto|].
  destruct (on_branch m); [|inversion H; subst; eauto].
  destruct (bus_of 0 toks) as [x| |]; cbn [obind] in H; try discriminate. destruct (bus_of 2 toks) as [y| |]; cbn [obind] in H; try discriminate.
  destruct (existsb _ _); [|inversion H; subst; eauto]. destruct (n_data n) as [b0|]; [|discriminate].
  destruct (bus_dc (n_buses n) b0) as [e|] eqn:E; [|discriminate]. destruct (parse_relay _ _ _ toks e); cbn [obind] in H; try discriminate. inversion H; subst. cbn [n_buses] in B. rewrite bus_dc_set in B.
  destruct (Z.eqb_spec b b0) as [->|]; eauto.
Qed.
Lemma roomy_step n r k n' : no_distr r -> roomy n (S k) -> ds_record atof trunc n r = Ok n' -> roomy n' k.
Proof.
  intros ND Ro H b d' B'. destruct (@ds_record_bus _ _ _ _ _ H B') as (d & B). destruct (Ro b d B) as (R1 & R2 & R3 & R4).
  destruct (@relay_step _ _ _ _ _ H B ND) as (d2 & B2 & _ & C). assert (d2 = d') by congruence. subst d2.
  destruct (@ds_record_step _ _ _ _ _ _ _ H B) as (d2 & B3 & S). assert (d2 = d') by congruence. subst d2.
  assert (I : same_ids d d') by (destruct S as [->|S]; [apply same_ids_refl | eapply step_ids; eauto]). destruct (I TInt) as ((I1 & I2) & _).
  unfold count_of in *. rewrite I1, I2. repeat split; auto; destruct C as [(_ & C)|(_ & C)]; lia.
Qed.
Lemma ds_records_total rs : forall n, roomy n (length rs) -> (forall r, In r rs -> exists toks, tokens r = Ok toks /\ readable atof toks) -> exists n', ds_records atof trunc n rs = Ok n'.
Proof.
  induction rs as [|r rs IH]; intros n Ro H; [cbn; eauto|]. cbn [ds_records length] in *. destruct (H r) as (toks & T & R); [left; auto|].
  destruct (@ds_record_total n r (length rs) toks T R Ro) as (n1 & E). rewrite E. cbn [obind]. apply IH; [|intros; apply H; right; auto]. eapply roomy_step; eauto. eapply readable_no_distr; eauto.
Qed.
End Relays.

(** Proofs for the reading of dynamic model records: files read by getDS. *)
From Verif Require Import Prelude DCModel DCSpec DCProofs StrModel DrModel DrTables DrModel2 DrSpec DrProofs DrProofs2 DrProofs3.
From Coq Require Import Ascii.
Open Scope string_scope.


(** ** Words *)
Lemma model_of_name toks m : model_of toks = Ok m <-> model_name toks 1 m.
Proof.
  unfold model_of, model_name, token. split.
  - destruct (nth_error toks 1) as [x|]; cbn [obind]; try discriminate. destruct (trim_quotes x) as [t| |] eqn:T; cbn [obind]; try discriminate.
    intros H. inversion H; subst. eauto.
  - intros (x & t & -> & T & ->). cbn [obind]. rewrite T. reflexivity.
Qed.
Lemma bus_of_number toks p z : bus_of p toks = Ok z <-> number toks p z.
Proof.
  unfold bus_of, number, token. split; [destruct (nth_error toks p); cbn [obind]; try discriminate; eauto | intros (x & -> & H); auto].
Qed.
Lemma tag_of_ident toks t : tag_of toks = Ok t <-> ident toks 2 t.
Proof.
  unfold tag_of, ident, token. split.
  - destruct (nth_error toks 2) as [x|]; cbn [obind]; try discriminate. destruct (clean2char x) as [u| |] eqn:T; cbn [obind]; try discriminate.
    intros H. inversion H; subst. eauto.
  - intros (x & u & -> & T & ->). cbn [obind]. rewrite T. reflexivity.
Qed.

(** ** Devices *)
Lemma get_plain d t k old v : get_value d t (Plain k) old = Ok (true, v) -> find_key d t k = Some v.
Proof. unfold get_value. cbn. destruct (find_key d t k); congruence. Qed.
Lemma get_indexed d t k i old v : get_value d t (Indexed k i) old = Ok (true, v) -> small i /\ find_key d t (ikey k i) = Some v.
Proof.
  unfold get_value, key_of, small, ikey. destruct (String.length (dec i) <=? 7)%nat eqn:L; cbn [obind]; [|discriminate]. apply Nat.leb_le in L.
  destruct (find_key d t (k ++ ":" ++ dec i)); [|congruence]. intros H. inversion H; subst. auto.
Qed.
Lemma get_of_find d t k i v : small i -> find_key d t (ikey k i) = Some v -> forall old, get_value d t (Indexed k i) old = Ok (true, v).
Proof. intros S H old. unfold get_value. rewrite (@key_small _ _ S). cbn [obind]. now rewrite H. Qed.
Lemma device_small d nk ik tag g : device d nk ik tag g -> small g.
Proof. intros (_ & _ & H & _). now apply (@get_indexed d TString ik g (VString "") (VString tag)) in H. Qed.

Lemma first_match_spec d ik tag n : forall j g, tag <> "" -> (j <= g < j + Z.of_nat n)%Z -> (0 <= j)%Z -> small g ->
  find_key d TString (ikey ik g) = Some (VString tag) ->
  (forall i, (j <= i < g)%Z -> find_key d TString (ikey ik i) <> Some (VString tag)) -> first_match d ik tag n j = Ok g.
Proof.
  induction n as [|n IH]; intros j g T H J S G A; [lia|]. cbn [first_match].
  assert (Sj : small j) by (apply small_range in S; apply small_range; lia).
  unfold get_value. rewrite (@key_small _ _ Sj). cbn [obind]. destruct (Z.eq_dec j g) as [->|N].
  - rewrite G. cbn [obind snd]. rewrite String.eqb_refl. reflexivity.
  - assert (R : first_match d ik tag n (j + 1) = Ok g) by (apply IH; auto; try lia; intros i Hi; apply A; lia).
    pose proof (A j ltac:(lia)) as Aj. destruct (find_key d TString (ikey ik j)) as [w|] eqn:F; cbn [obind snd].
    + destruct w; auto. destruct (String.eqb_spec tag s); [subst; congruence | auto].
    + destruct (String.eqb_spec tag ""); [contradiction | auto].
Qed.
Lemma first_match_hit d ik tag n : forall j g, first_match d ik tag n j = Ok g -> g = (-1)%Z \/ (small g /\ (find_key d TString (ikey ik g) = Some (VString tag) \/ find_key d TString (ikey ik g) = None)).
Proof.
  induction n as [|n IH]; intros j g H; cbn [first_match] in H; [inversion H; auto|].
  unfold get_value in H. destruct (String.length (dec j) <=? 7)%nat eqn:L.
  - apply Nat.leb_le in L. rewrite (@key_small _ j L) in H. cbn [obind] in H. destruct (find_key d TString (ikey ik j)) as [w|] eqn:Q; cbn [obind snd] in H.
    + destruct w; try (now apply IH in H). destruct (String.eqb_spec tag s); [|now apply IH in H]. inversion H; subst. right. split; auto.
    + destruct (String.eqb_spec tag ""); [|now apply IH in H]. inversion H; subst. auto.
  - unfold key_of in H. rewrite L in H. discriminate.
Qed.
Lemma matching_device d nk ik toks tag g : device d nk ik tag g -> tag_of toks = Ok tag -> matching d nk ik toks = Ok g.
Proof.
  intros Dv T. pose proof (device_small Dv) as S. destruct Dv as (NE & (n & Hn & B) & G & A).
  specialize (Hn (VInt 0)). apply get_plain in Hn. unfold matching, device_index, count_of. rewrite Hn, T.
  destruct (Z.ltb_spec 0 n); [|lia]. cbn [obind]. apply first_match_spec; auto; [lia | lia | |].
  - apply (@get_indexed _ _ _ _ (VString "") _ (G _)).
  - intros i Hi Q. apply (A i (VString "") ltac:(lia)). apply get_of_find; auto. apply small_range in S. apply small_range. lia.
Qed.
Lemma matching_back d nk ik toks tag g : device d nk ik tag g -> matching d nk ik toks = Ok g -> tag_of toks = Ok tag.
Proof.
  intros Dv H. destruct Dv as (NE & (n & Hn & B) & G & A). specialize (G (VString "")). apply get_indexed in G as (S & G).
  unfold matching in H. specialize (Hn (VInt 0)). apply get_plain in Hn. unfold count_of in H. rewrite Hn in H. destruct (Z.ltb_spec 0 n); [|lia].
  destruct (tag_of toks) as [t| |]; cbn [obind] in H; try discriminate. apply first_match_hit in H as [H|(_ & [H|H])]; [lia | congruence | congruence].
Qed.
(** Number and identifiers unchanged: the same device. *)
Definition same_ids (d d' : dc) : Prop :=
  forall t, (find_key d' t "GENERATOR_NUMBER" = find_key d t "GENERATOR_NUMBER" /\ find_key d' t "LOAD_NUMBER" = find_key d t "LOAD_NUMBER") /\
    forall j, small j -> find_key d' t (ikey "GENERATOR_ID" j) = find_key d t (ikey "GENERATOR_ID" j) /\ find_key d' t (ikey "LOAD_ID" j) = find_key d t (ikey "LOAD_ID" j).
Lemma same_ids_refl d : same_ids d d.
Proof. intros t. auto. Qed.
Lemma same_ids_trans a b c : same_ids a b -> same_ids b c -> same_ids a c.
Proof.
  intros H1 H2 t. destruct (H1 t) as ((A & B) & C), (H2 t) as ((A' & B') & C'). split; [split; congruence|].
  intros j S. destruct (C j S), (C' j S). split; congruence.
Qed.
Lemma device_move d d' nk ik tag g : (find_key d' TInt nk = find_key d TInt nk) -> (forall j, small j -> find_key d' TString (ikey ik j) = find_key d TString (ikey ik j)) ->
  device d nk ik tag g -> device d' nk ik tag g.
Proof.
  intros H1 H2 Dv. pose proof (device_small Dv) as S. destruct Dv as (NE & (n & Hn & B) & G & A). split; auto. split; [|split].
  - exists n. split; auto. intros old. specialize (Hn old). unfold get_value in *. cbn [key_of obind] in *. rewrite H1. exact Hn.
  - apply get_of_find; auto. rewrite H2 by auto. apply (@get_indexed _ _ _ _ (VString "") _ (G _)).
  - intros j old Hj Q. apply get_indexed in Q as (Sj & Q). rewrite H2 in Q by auto. apply (A j old Hj). now apply get_of_find.
Qed.
Lemma generator_move d d' tag g : same_ids d d' -> generator d tag g -> generator d' tag g.
Proof. intros H. apply device_move; [apply H | intros j S; now apply H]. Qed.
Lemma load_move d d' tag g : same_ids d d' -> load d tag g -> load d' tag g.
Proof. intros H. apply device_move; [apply H | intros j S; now apply H]. Qed.

(** ** One record *)
Definition gkeys := keys Layout.generator_models.
Definition rkeys := relay_keys.
Definition lkeys := keys Layout.load_models.
Lemma in_keys ls m (l : list field) f : In (m, l) ls -> In f l -> In (f_key f) (keys ls).
Proof. intros H I. unfold keys. apply in_flat_map. exists (m, l). split; auto. apply in_map, I. Qed.
Lemma not_id (ks : list string) a : disjoint ks id_keys = true -> In a ks -> a <> "GENERATOR_ID" /\ a <> "LOAD_ID".
Proof. intros D H. split; intros ->; apply (@disjoint_spec _ _ _ D H); unfold id_keys; [left | right; left]; reflexivity. Qed.
Lemma ids_apart_split : disjoint gkeys id_keys = true /\ disjoint lkeys id_keys = true /\ disjoint rkeys id_keys = true.
Proof. pose proof ids_apart as H. apply andb_prop in H as (H & C). apply andb_prop in H as (A & B). exact (conj A (conj B C)). Qed.
Lemma gkeys_apart a : In a gkeys -> ~ In a rkeys /\ ~ In a lkeys /\ a <> "GENERATOR_ID" /\ a <> "LOAD_ID".
Proof.
  intros H. split; [intros Q; exact (@disjoint_spec _ _ _ gen_relay_apart H Q)|]. split; [intros Q; exact (@disjoint_spec _ _ _ gen_load_apart H Q)|].
  apply (@not_id gkeys); [apply ids_apart_split | exact H].
Qed.
Lemma lkeys_apart a : In a lkeys -> ~ In a rkeys /\ ~ In a gkeys /\ a <> "GENERATOR_ID" /\ a <> "LOAD_ID".
Proof.
  intros H. split; [intros Q; exact (@disjoint_spec _ _ _ load_relay_apart H Q)|]. split; [intros Q; exact (@disjoint_spec _ _ _ gen_load_apart Q H)|].
  apply (@not_id lkeys); [apply ids_apart_split | exact H].
Qed.
Lemma rkeys_apart a : In a rkeys -> ~ In a gkeys /\ ~ In a lkeys /\ a <> "GENERATOR_ID" /\ a <> "LOAD_ID".
Proof.
  intros H. split; [intros Q; exact (@disjoint_spec _ _ _ gen_relay_apart Q H)|]. split; [intros Q; exact (@disjoint_spec _ _ _ load_relay_apart Q H)|].
  apply (@not_id rkeys); [apply ids_apart_split | exact H].
Qed.
Section Files.
Variable atof : str -> Z.
Variable trunc : Z -> outcome Z.

Lemma on_gen_cases m toks d d' : on_generator m = true -> on_gen atof trunc m toks d = Ok d' ->
  d' = d \/ exists l g, In (m, l) Layout.generator_models /\ matching d "GENERATOR_NUMBER" "GENERATOR_ID" toks = Ok g /\ small g /\
    forall t k, (forall a, In a (map f_key l) -> k <> ikey a g) -> find_key d' t k = find_key d t k.
Proof.
  intros O H. unfold on_gen in H. destruct (matching d _ _ toks) as [g| |] eqn:M; cbn [obind] in H; try discriminate.
  destruct (g >? -1)%Z; [|inversion H; auto]. unfold gen_parse_class in H. destruct (String.eqb m "ESST4B"); [inversion H; auto|].
  destruct (on_generator_listed m O) as (l & L). destruct (gen_facts atof trunc L) as (c & A & (F1 & F2 & _) & _). rewrite A in H.
  right. exists l, g. repeat (split; eauto). intros t k K. eapply F2; eauto. intros f I. apply K, in_map, I.
Qed.
Lemma load_device_listed dev c : assoc load_class dev = Some c -> exists l, In (dev, l) Layout.load_models.
Proof.
  intros H. unfold assoc in H. assert (Q : In dev (map fst load_class)).
  { revert H. generalize load_class. induction l as [|(a & x) l IH]; cbn; [discriminate|]. destruct (String.eqb_spec a dev); auto. }
  assert (P : forallb (fun x => existsb (fun p => String.eqb (fst p) x) Layout.load_models) (map fst load_class) = true) by (vm_compute; reflexivity).
  rewrite forallb_forall in P. specialize (P dev Q). apply existsb_exists in P as ((a & l) & I & E). apply String.eqb_eq in E. cbn in E. subst. eauto.
Qed.
Lemma on_ld_cases m toks d d' : on_ld atof trunc m toks d = Ok d' ->
  d' = d \/ exists dev l g, load_device m toks = Ok dev /\ In (dev, l) Layout.load_models /\ matching d "LOAD_NUMBER" "LOAD_ID" toks = Ok g /\ small g /\
    forall t k, (forall a, In a (map f_key l) -> k <> ikey a g) -> find_key d' t k = find_key d t k.
Proof.
  intros H. unfold on_ld in H. destruct (matching d _ _ toks) as [g| |] eqn:M; cbn [obind] in H; try discriminate.
  destruct (load_device m toks) as [dev| |] eqn:LD; cbn [obind] in H; try discriminate.
  destruct (assoc load_class dev) as [c|] eqn:A; [|inversion H; auto].
  destruct (@load_device_listed _ _ A) as (l & L). destruct (load_facts atof trunc L) as (c' & A' & (F1 & F2 & _) & _). rewrite A in A'. inversion A'; subst c'.
  right. exists dev, l, g. repeat (split; eauto). intros t k K. eapply F2; eauto. intros f I. apply K, in_map, I.
Qed.
Lemma next_relay_spec d n d1 : next_relay d = Ok (n, d1) ->
  n = count_of d "RELAY_NUMBER" /\ find_key d1 TInt "RELAY_NUMBER" = Some (VInt (n + 1)) /\ forall t k, k <> "RELAY_NUMBER" -> find_key d1 t k = find_key d t k.
Proof.
  unfold next_relay, count_of. destruct (find_key d TInt "RELAY_NUMBER") as [[x| | | | | |]|] eqn:Q; try (cbn in Q; destruct (m_find (p_ints d) "RELAY_NUMBER"); discriminate).
  - destruct (is_int (x + 1)); [|discriminate]. intros H. inversion H; subst. split; auto. split.
    + change (find_key (fst (set_key d "RELAY_NUMBER" (VInt (n + 1)))) TInt "RELAY_NUMBER" = Some (VInt (n + 1))). rewrite find_set. cbn [type_of]. rewrite Q. reflexivity.
    + intros t k K. change (find_key (fst (set_key d "RELAY_NUMBER" (VInt (n + 1)))) t k = find_key d t k). rewrite find_set. destruct (String.eqb_spec "RELAY_NUMBER" k); [congruence | reflexivity].
  - intros H. inversion H; subst. split; auto. split.
    + change (find_key (add_key d "RELAY_NUMBER" (VInt 1)) TInt "RELAY_NUMBER" = Some (VInt (0 + 1))). rewrite find_add. cbn [type_of]. rewrite Q. reflexivity.
    + intros t k K. change (find_key (add_key d "RELAY_NUMBER" (VInt 1)) t k = find_key d t k). rewrite find_add. destruct (String.eqb_spec "RELAY_NUMBER" k); [congruence | reflexivity].
Qed.
Lemma relay_listed m c : assoc relay_class m = Some c -> exists l, In (m, l) Layout.relay_models.
Proof.
  intros H. unfold assoc, relay_class in H. cbn [m_find] in H. destruct (String.eqb_spec "LVSHBL" m); [subst; eexists; left; reflexivity|].
  destruct (String.eqb_spec "FRQTPAT" m); [subst; eexists; right; left; reflexivity | discriminate].
Qed.
Lemma relay_frame m l c toks d d' : (In (m, l) Layout.relay_models /\ assoc relay_class m = Some c \/ In (m, l) Layout.branch_relay_models /\ c = branch_class) ->
  parse_relay atof trunc (c_parse c) toks d = Ok d' ->
  small (count_of d "RELAY_NUMBER") /\ find_key d' TInt "RELAY_NUMBER" = Some (VInt (count_of d "RELAY_NUMBER" + 1)) /\
  forall t k, k <> "RELAY_NUMBER" -> (forall a, In a (map f_key l) -> k <> ikey a (count_of d "RELAY_NUMBER")) -> find_key d' t k = find_key d t k.
Proof.
  intros L H. assert (F : cls_facts atof trunc m l c).
  { destruct L as [(L & A)|(L & ->)]; [destruct (relay_facts atof trunc L) as (c' & A' & F & _); rewrite A in A'; inversion A'; now subst | now destruct (branch_facts atof trunc L) as (_ & F & _)]. }
  destruct F as (F1 & F2 & _). unfold parse_relay in H. destruct (next_relay d) as [(n & d1)| |] eqn:N; cbn [obind fst snd] in H; try discriminate.
  apply next_relay_spec in N as (-> & N1 & N2). split; [eauto|]. split.
  - rewrite <- N1. eapply F2; eauto. intros f I E. symmetry in E. revert E. apply ikey_plain. reflexivity.
  - intros t k K1 K2. rewrite <- (N2 t k K1). eapply F2; eauto. intros f I. apply K2, in_map, I.
Qed.

(** The four ways in which a record may reach the data collection of bus [b]. *)
Definition step (r : str) (b : Z) (d d' : dc) : Prop :=
  exists toks m, tokens r = Ok toks /\ model_of toks = Ok m /\
    ((on_generator m = true /\ bus_of 0 toks = Ok b /\ on_gen atof trunc m toks d = Ok d') \/
     (exists c, assoc relay_class m = Some c /\ bus_of (if String.eqb m "LVSHBL" then 0 else 3) toks = Ok b /\ parse_relay atof trunc (c_parse c) toks d = Ok d') \/
     (on_load m = true /\ bus_of 0 toks = Ok b /\ on_ld atof trunc m toks d = Ok d') \/
     (on_branch m = true /\ parse_relay atof trunc (c_parse branch_class) toks d = Ok d')).
Lemma bus_dc_set l b d x : bus_dc (set_dc l b d) x = if (x =? b)%Z then match bus_dc l b with Some _ => Some d | None => None end else bus_dc l x.
Proof.
  induction l as [|(y & e) l IH]; cbn [set_dc bus_dc]; [now destruct (x =? b)%Z|].
  destruct (Z.eqb_spec y b) as [->|N]; cbn [bus_dc].
  - destruct (Z.eqb_spec b x), (Z.eqb_spec x b); try congruence; auto.
  - rewrite IH. destruct (Z.eqb_spec y x), (Z.eqb_spec x b); try congruence; auto.
Qed.
Lemma at_bus_step n b0 f n' b d : at_bus n b0 f = Ok n' -> bus_dc (n_buses n) b = Some d ->
  exists d', bus_dc (n_buses n') b = Some d' /\ ((b0 <> b /\ d' = d) \/ (b0 = b /\ f d = Ok d')).
Proof.
  unfold at_bus. intros H B. destruct (bus_dc (n_buses n) b0) as [e|] eqn:E.
  - destruct (f e) as [e'| |] eqn:Fe; cbn [obind] in H; try discriminate. inversion H; subst. cbn [n_buses]. rewrite bus_dc_set, E.
    destruct (Z.eqb_spec b b0) as [->|N]; [|eauto 6]. exists e'. split; auto. right. split; auto. congruence.
  - inversion H; subst. exists d. split; auto. left. split; auto. congruence.
Qed.
Lemma ds_record_step n r n' b d : ds_record atof trunc n r = Ok n' -> bus_dc (n_buses n) b = Some d ->
  exists d', bus_dc (n_buses n') b = Some d' /\ (d' = d \/ step r b d d').
Proof.
  unfold ds_record. intros H B. destruct (tokens r) as [toks| |] eqn:T; cbn [obind] in H; try discriminate.
  destruct (model_of toks) as [m| |] eqn:M; cbn [obind] in H; try discriminate.
  destruct (on_generator m) eqn:O1.
  { destruct (bus_of 0 toks) as [x| |] eqn:X; cbn [obind] in H; try discriminate. destruct (at_bus_step _ _ _ _ H B) as (d' & B' & S); exists d'; split; auto; destruct S as [(_ & ->)|(-> & Q)]; auto.
    right. exists toks, m. repeat (split; auto). }
  destruct (on_bus m) eqn:O2.
  { destruct (bus_of (if String.eqb m "LVSHBL" then 0 else 3) toks) as [x| |] eqn:X; cbn [obind] in H; try discriminate. destruct (at_bus_step _ _ _ _ H B) as (d' & B' & S); exists d'; split; auto; destruct S as [(_ & ->)|(-> & Q)]; auto.
    unfold on_relay in Q. destruct (assoc relay_class m) as [c|] eqn:A; [|inversion Q; auto]. right. exists toks, m. repeat (split; auto). right. left. eauto. }
  destruct (on_load m) eqn:O3.
  { destruct (bus_of 0 toks) as [x| |] eqn:X; cbn [obind] in H; try discriminate. destruct (at_bus_step _ _ _ _ H B) as (d' & B' & S); exists d'; split; auto; destruct S as [(_ & ->)|(-> & Q)]; auto.
    right. exists toks, m. repeat (split; auto 6). }
  destruct (on_branch m) eqn:O4; [|inversion H; subst; eauto].
  destruct (bus_of 0 toks) as [x| |]; cbn [obind] in H; try discriminate. destruct (bus_of 2 toks) as [y| |]; cbn [obind] in H; try discriminate.
  destruct (existsb _ _); [|inversion H; subst; eauto]. destruct (n_data n) as [b0|]; [|discriminate].
  destruct (bus_dc (n_buses n) b0) as [e|] eqn:E; [|discriminate]. destruct (parse_relay _ _ _ toks e) as [e'| |] eqn:P; cbn [obind] in H; try discriminate.
  inversion H; subst. cbn [n_buses]. rewrite bus_dc_set, E. destruct (Z.eqb_spec b b0) as [->|N]; [|eauto].
  exists e'. split; auto. right. assert (e = d) by congruence. subst e. exists toks, m. repeat (split; auto 7).
Qed.
Lemma step_relay r b d d' toks m : tokens r = Ok toks -> model_of toks = Ok m ->
  ((exists c, assoc relay_class m = Some c /\ bus_of (if String.eqb m "LVSHBL" then 0 else 3) toks = Ok b /\ parse_relay atof trunc (c_parse c) toks d = Ok d') \/
     (on_branch m = true /\ parse_relay atof trunc (c_parse branch_class) toks d = Ok d')) ->
  small (count_of d "RELAY_NUMBER") /\ forall t k, k <> "RELAY_NUMBER" -> (forall a, In a rkeys -> k <> ikey a (count_of d "RELAY_NUMBER")) -> find_key d' t k = find_key d t k.
Proof.
  intros _ _ [(c & A & _ & P)|(O & P)].
  - destruct (@relay_listed _ _ A) as (l & L). destruct (@relay_frame m l c toks d d') as (S & _ & F); auto. split; auto. intros t k K1 K2. apply F; auto.
    intros a Ha. apply K2. unfold rkeys, relay_keys. apply in_or_app. left. apply in_map_iff in Ha as (f & <- & I). eapply in_keys; eauto.
  - destruct (@relay_frame "DISTR1" Layout.distr1 branch_class toks d d') as (S & _ & F); auto; [right; split; auto; left; reflexivity|]. split; auto. intros t k K1 K2. apply F; auto.
    intros a Ha. apply K2. unfold rkeys, relay_keys. apply in_or_app. right. apply in_map_iff in Ha as (f & <- & I). eapply in_keys; eauto. left. reflexivity.
Qed.
Lemma step_ids r b d d' : step r b d d' -> same_ids d d'.
Proof.
  intros (toks & m & T & M & C).
  assert (K : forall (ks : list string) g, (forall a, In a ks -> a <> "GENERATOR_ID" /\ a <> "LOAD_ID") -> small g -> (forall t k, k <> "RELAY_NUMBER" -> (forall a, In a ks -> k <> ikey a g) -> find_key d' t k = find_key d t k) -> same_ids d d').
  { intros ks g A S H t. split; [split|].
    - apply H; [discriminate|]. intros a _ E. symmetry in E. revert E. now apply ikey_plain.
    - apply H; [discriminate|]. intros a _ E. symmetry in E. revert E. now apply ikey_plain.
    - intros j Sj. split; (apply H; [now apply ikey_plain|]); intros a Ha E; apply ikey_inj2 in E as (E & _); auto; apply A in Ha; destruct Ha; congruence. }
  destruct C as [(O & B & H)|[H|[(O & B & H)|H]]].
  - apply on_gen_cases in H as [->|(l & g & L & _ & S & F)]; auto using same_ids_refl. apply (K (map f_key l) g); auto.
    intros a Ha. apply in_map_iff in Ha as (f & <- & I). apply (@in_keys _ _ _ _ L) in I. apply gkeys_apart in I. tauto.
  - destruct (@step_relay r b d d' toks m T M (or_introl H)) as (S & F). apply (K rkeys (count_of d "RELAY_NUMBER")); auto. intros a Ha. apply rkeys_apart in Ha. tauto.
  - apply on_ld_cases in H as [->|(dev & l & g & _ & L & _ & S & F)]; auto using same_ids_refl. apply (K (map f_key l) g); auto.
    intros a Ha. apply in_map_iff in Ha as (f & <- & I). apply (@in_keys _ _ _ _ L) in I. apply lkeys_apart in I. tauto.
  - destruct (@step_relay r b d d' toks m T M (or_intror H)) as (S & F). apply (K rkeys (count_of d "RELAY_NUMBER")); auto. intros a Ha. apply rkeys_apart in Ha. tauto.
Qed.
(** An entry of a generator is changed only by a record for that generator whose model has the parameter. *)
Lemma step_gen_key r b d d' tag g a : step r b d d' -> generator d tag g -> In a gkeys ->
  (forall toks m l, tokens r = Ok toks -> generator_record toks m l b tag -> ~ In a (map f_key l)) ->
  forall t, find_key d' t (ikey a g) = find_key d t (ikey a g).
Proof.
  intros (toks & m & T & M & C) Dv A N t. pose proof (device_small Dv) as Sg. destruct (@gkeys_apart _ A) as (A1 & A2 & _).
  destruct C as [(O & B & H)|[H|[(O & B & H)|H]]].
  - apply on_gen_cases in H as [->|(l & g' & L & Mt & S & F)]; auto. apply F. intros a' Ha' E. apply ikey_inj2 in E as (-> & ->); auto.
    revert Ha'. apply (N toks m); auto. apply (@matching_back _ _ _ _ _ _ Dv) in Mt. repeat split; auto; [now apply model_of_name | now apply bus_of_number | now apply tag_of_ident].
  - destruct (@step_relay r b d d' toks m T M (or_introl H)) as (S & F). apply F; [now apply ikey_plain|]. intros a' Ha' E. apply ikey_inj2 in E as (-> & _); auto.
  - apply on_ld_cases in H as [->|(dev & l & g' & _ & L & _ & S & F)]; auto. apply F. intros a' Ha' E. apply ikey_inj2 in E as (-> & _); auto.
    apply A2. apply in_map_iff in Ha' as (f & <- & I). eapply in_keys; eauto.
  - destruct (@step_relay r b d d' toks m T M (or_intror H)) as (S & F). apply F; [now apply ikey_plain|]. intros a' Ha' E. apply ikey_inj2 in E as (-> & _); auto.
Qed.
Lemma load_device_record toks m dev l b tag : model_of toks = Ok m -> on_load m = true -> load_device m toks = Ok dev -> In (dev, l) Layout.load_models ->
  bus_of 0 toks = Ok b -> tag_of toks = Ok tag -> load_record toks dev l b tag.
Proof.
  intros M O LD L B T. split; auto. split; [now apply bus_of_number|]. split; [now apply tag_of_ident|]. apply model_of_name in M.
  unfold load_device in LD. destruct (String.eqb_spec m "USRLOD") as [->|N].
  - right. unfold token in LD. destruct (nth_error toks 3) as [x|] eqn:X; cbn [obind] in LD; try discriminate. destruct (trim_quotes x) as [t| |] eqn:Q; cbn [obind] in LD; try discriminate.
    destruct (mem (text t) ["ACMTBLU1"; "CMLDBLU1"]) eqn:Mm.
    + inversion LD; subst dev. apply mem_In in Mm. split; auto. split; auto. exists x, t. auto.
    + inversion LD; subst dev. exfalso. clear -L. cbn in L. repeat (destruct L as [L|L]; [discriminate L|]). exact L.
  - inversion LD; subst dev. left. split; auto. unfold on_load in O. apply mem_In in O. cbn in O. cbn. destruct O as [O|[O|[O|[]]]]; auto; congruence.
Qed.
Lemma record_load_device toks m l b tag : load_record toks m l b tag -> exists m1, model_of toks = Ok m1 /\ on_load m1 = true /\ load_device m1 toks = Ok m.
Proof.
  intros (L & _ & _ & [(I & M)|(I & M & x & t & X & Q & E)]).
  - exists m. split; [now apply model_of_name|]. destruct I as [<-|[<-|[]]]; split; reflexivity.
  - exists "USRLOD". split; [now apply model_of_name|]. split; [reflexivity|]. unfold load_device. rewrite String.eqb_refl. unfold token. rewrite X. cbn [obind]. rewrite Q. cbn [obind].
    change (text t) with (string_of_list_ascii t). rewrite <- E. apply mem_In in I. now rewrite I.
Qed.
Lemma step_load_key r b d d' tag g a : step r b d d' -> load d tag g -> In a lkeys ->
  (forall toks m l, tokens r = Ok toks -> load_record toks m l b tag -> ~ In a (map f_key l)) ->
  forall t, find_key d' t (ikey a g) = find_key d t (ikey a g).
Proof.
  intros (toks & m & T & M & C) Dv A N t. pose proof (device_small Dv) as Sg. destruct (@lkeys_apart _ A) as (A1 & A2 & _).
  destruct C as [(O & B & H)|[H|[(O & B & H)|H]]].
  - apply on_gen_cases in H as [->|(l & g' & L & Mt & S & F)]; auto. apply F. intros a' Ha' E. apply ikey_inj2 in E as (-> & _); auto.
    apply A2. apply in_map_iff in Ha' as (f & <- & I). eapply in_keys; eauto.
  - destruct (@step_relay r b d d' toks m T M (or_introl H)) as (S & F). apply F; [now apply ikey_plain|]. intros a' Ha' E. apply ikey_inj2 in E as (-> & _); auto.
  - apply on_ld_cases in H as [->|(dev & l & g' & LD & L & Mt & S & F)]; auto. apply F. intros a' Ha' E. apply ikey_inj2 in E as (-> & ->); auto.
    revert Ha'. apply (N toks dev); auto. apply (@matching_back _ _ _ _ _ _ Dv) in Mt. eapply load_device_record; eauto.
  - destruct (@step_relay r b d d' toks m T M (or_intror H)) as (S & F). apply F; [now apply ikey_plain|]. intros a' Ha' E. apply ikey_inj2 in E as (-> & _); auto.
Qed.

(** ** Many records *)
Lemma ds_records_app n a b n' : ds_records atof trunc n (a ++ b) = Ok n' <-> exists n1, ds_records atof trunc n a = Ok n1 /\ ds_records atof trunc n1 b = Ok n'.
Proof.
  revert n. induction a as [|r a IH]; intros n; cbn [app ds_records]; [split; [eauto | intros (n1 & E & H); inversion E; now subst]|].
  destruct (ds_record atof trunc n r); cbn [obind]; [apply IH | |]; split; try discriminate; intros (? & ? & _); discriminate.
Qed.
Lemma ds_records_ids rs : forall n n' b d, ds_records atof trunc n rs = Ok n' -> bus_dc (n_buses n) b = Some d -> exists d', bus_dc (n_buses n') b = Some d' /\ same_ids d d'.
Proof.
  induction rs as [|r rs IH]; intros n n' b d H B; cbn [ds_records] in H; [inversion H; subst; eauto using same_ids_refl|].
  destruct (ds_record atof trunc n r) as [n1| |] eqn:R; cbn [obind] in H; try discriminate.
  destruct (@ds_record_step _ _ _ _ _ R B) as (d1 & B1 & S). destruct (IH _ _ _ _ H B1) as (d2 & B2 & S2). exists d2. split; auto. eapply same_ids_trans; [|eauto].
  destruct S as [->|S]; [apply same_ids_refl | eapply step_ids; eauto].
Qed.
Lemma ds_records_gen_key rs : forall n n' b d tag g a, ds_records atof trunc n rs = Ok n' -> bus_dc (n_buses n) b = Some d -> generator d tag g -> In a gkeys ->
  (forall r toks m l, In r rs -> tokens r = Ok toks -> generator_record toks m l b tag -> ~ In a (map f_key l)) ->
  exists d', bus_dc (n_buses n') b = Some d' /\ same_ids d d' /\ forall t, find_key d' t (ikey a g) = find_key d t (ikey a g).
Proof.
  induction rs as [|r rs IH]; intros n n' b d tag g a H B Dv A N; cbn [ds_records] in H; [inversion H; subst; eauto using same_ids_refl|].
  destruct (ds_record atof trunc n r) as [n1| |] eqn:R; cbn [obind] in H; try discriminate.
  destruct (@ds_record_step _ _ _ _ _ R B) as (d1 & B1 & S).
  assert (I1 : same_ids d d1) by (destruct S as [->|S]; [apply same_ids_refl | eapply step_ids; eauto]).
  destruct (IH n1 n' b d1 tag g a H B1) as (d2 & B2 & S2 & F2); eauto using generator_move; [intros; eapply N; eauto; right; auto|].
  exists d2. split; auto. split; [eapply same_ids_trans; eauto|]. intros t. rewrite F2. destruct S as [->|S]; auto. eapply step_gen_key; eauto. intros; eapply N; eauto. left; auto.
Qed.
Lemma ds_records_load_key rs : forall n n' b d tag g a, ds_records atof trunc n rs = Ok n' -> bus_dc (n_buses n) b = Some d -> load d tag g -> In a lkeys ->
  (forall r toks m l, In r rs -> tokens r = Ok toks -> load_record toks m l b tag -> ~ In a (map f_key l)) ->
  exists d', bus_dc (n_buses n') b = Some d' /\ same_ids d d' /\ forall t, find_key d' t (ikey a g) = find_key d t (ikey a g).
Proof.
  induction rs as [|r rs IH]; intros n n' b d tag g a H B Dv A N; cbn [ds_records] in H; [inversion H; subst; eauto using same_ids_refl|].
  destruct (ds_record atof trunc n r) as [n1| |] eqn:R; cbn [obind] in H; try discriminate.
  destruct (@ds_record_step _ _ _ _ _ R B) as (d1 & B1 & S).
  assert (I1 : same_ids d d1) by (destruct S as [->|S]; [apply same_ids_refl | eapply step_ids; eauto]).
  destruct (IH n1 n' b d1 tag g a H B1) as (d2 & B2 & S2 & F2); eauto using load_move; [intros; eapply N; eauto; right; auto|].
  exists d2. split; auto. split; [eapply same_ids_trans; eauto|]. intros t. rewrite F2. destruct S as [->|S]; auto. eapply step_load_key; eauto. intros; eapply N; eauto. left; auto.
Qed.
End Files.

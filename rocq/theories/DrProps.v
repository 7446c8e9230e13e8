(** C58: dynamic model parameters of a .dyr file.
    [atof] is the reading of doubles, [trunc] the conversion of a double to int; both arbitrary. *)
From Verif Require Import Prelude DCModel DCSpec DCProofs StrModel DrModel DrTables DrModel2 DrSpec DrProofs DrProofs2 DrProofs3 DrProofs4 DrProofs5 DrProofs6 DrProofs7 DrProofs8 DrProofs9.
From Coq Require Import Ascii.
Open Scope string_scope.

Lemma get_ds_ok atof trunc buses branches lines rs n : dyr_file false lines rs -> get_ds atof trunc buses branches lines = Some (Ok n) ->
  ds_records atof trunc (Net buses branches None) rs = Ok n.
Proof. intros F H. unfold get_ds in H. rewrite (scan_file F) in H. destruct (ds_records _ _ _ rs); inversion H; subst; auto. Qed.
Lemma ds_vectors_ok atof trunc lines rs v : dyr_file true lines rs -> ds_vectors atof trunc lines = Some (Ok v) ->
  vec_records atof trunc (Vec [] [] [] []) rs = Ok v.
Proof. intros F H. unfold ds_vectors in H. rewrite (scan_file F) in H. destruct (vec_records _ _ _ rs); inversion H; subst; auto. Qed.

Section Claims.
Variable atof : str -> Z.
Variable trunc : Z -> outcome Z.

(** ** getDS *)
(** Every parameter of a generator record ends up in the data of the generator it names, unless a later record for the same
    generator has the same parameter.  Missing: ESST4B, and the parameters in [parse_wrong]. *)
Theorem C58_generator_parameters_partial :
  forall buses branches lines pre r post n toks m l b tag d g f,
  dyr_file false lines (pre ++ r :: post) -> get_ds atof trunc buses branches lines = Some (Ok n) -> words r toks ->
  generator_record toks m l b tag -> m <> "ESST4B" -> bus_dc buses b = Some d -> generator d tag g ->
  In f l -> (f_pos f < length toks)%nat -> ~ listed parse_wrong m f ->
  (forall r2 toks2 m2 l2, In r2 post -> words r2 toks2 -> generator_record toks2 m2 l2 b tag -> ~ In (f_key f) (map f_key l2)) ->
  exists d' v, bus_dc (n_buses n) b = Some d' /\ generator d' tag g /\ reads atof toks f v /\ holds d' f g v.
Proof. intros. eapply generator_value; eauto using get_ds_ok. Qed.

(** When the entry was not there before, only the parameters in [parse_wrong_first] are missing. *)
Theorem C58_generator_first_partial :
  forall buses branches lines pre r post n toks m l b tag d g f,
  dyr_file false lines (pre ++ r :: post) -> get_ds atof trunc buses branches lines = Some (Ok n) -> words r toks ->
  generator_record toks m l b tag -> m <> "ESST4B" -> bus_dc buses b = Some d -> generator d tag g ->
  In f l -> (f_pos f < length toks)%nat -> ~ listed parse_wrong_first m f ->
  (forall t old, get_value d t (Indexed (f_key f) g) old = Ok (false, old)) ->
  (forall r2 toks2 m2 l2, In r2 (pre ++ post) -> words r2 toks2 -> generator_record toks2 m2 l2 b tag -> ~ In (f_key f) (map f_key l2)) ->
  exists d' v, bus_dc (n_buses n) b = Some d' /\ generator d' tag g /\ reads atof toks f v /\ holds d' f g v.
Proof.
  intros buses branches lines pre r post n toks m l b tag d g f F H W R E B Dv I L Nw U N.
  eapply generator_value with (pre := pre) (post := post); eauto using get_ds_ok; [intros; eapply N; eauto; apply in_or_app; auto|].
  right. split; auto. split; [|intros; eapply N; eauto; apply in_or_app; auto]. intros t. pose proof (device_small Dv) as S.
  pose proof (U t (VInt 0)) as Ut. unfold get_value in Ut. rewrite (@key_small _ _ S) in Ut. cbn [obind] in Ut. destruct (find_key d t (ikey (f_key f) g)); [discriminate | reflexivity].
Qed.

(** The same for loads. *)
Theorem C58_load_parameters_partial :
  forall buses branches lines pre r post n toks m l b tag d g f,
  dyr_file false lines (pre ++ r :: post) -> get_ds atof trunc buses branches lines = Some (Ok n) -> words r toks ->
  load_record toks m l b tag -> bus_dc buses b = Some d -> load d tag g ->
  In f l -> (f_pos f < length toks)%nat -> ~ listed parse_wrong m f ->
  (forall r2 toks2 m2 l2, In r2 post -> words r2 toks2 -> load_record toks2 m2 l2 b tag -> ~ In (f_key f) (map f_key l2)) ->
  exists d' v, bus_dc (n_buses n) b = Some d' /\ load d' tag g /\ reads atof toks f v /\ holds d' f g v.
Proof. intros. eapply load_value; eauto using get_ds_ok. Qed.
Theorem C58_load_first_partial :
  forall buses branches lines pre r post n toks m l b tag d g f,
  dyr_file false lines (pre ++ r :: post) -> get_ds atof trunc buses branches lines = Some (Ok n) -> words r toks ->
  load_record toks m l b tag -> bus_dc buses b = Some d -> load d tag g ->
  In f l -> (f_pos f < length toks)%nat -> ~ listed parse_wrong_first m f ->
  (forall t old, get_value d t (Indexed (f_key f) g) old = Ok (false, old)) ->
  (forall r2 toks2 m2 l2, In r2 (pre ++ post) -> words r2 toks2 -> load_record toks2 m2 l2 b tag -> ~ In (f_key f) (map f_key l2)) ->
  exists d' v, bus_dc (n_buses n) b = Some d' /\ load d' tag g /\ reads atof toks f v /\ holds d' f g v.
Proof.
  intros buses branches lines pre r post n toks m l b tag d g f F H W R B Dv I L Nw U N.
  eapply load_value with (pre := pre) (post := post); eauto using get_ds_ok; [intros; eapply N; eauto; apply in_or_app; auto|].
  right. split; auto. split; [|intros; eapply N; eauto; apply in_or_app; auto]. intros t. pose proof (device_small Dv) as S.
  pose proof (U t (VInt 0)) as Ut. unfold get_value in Ut. rewrite (@key_small _ _ S) in Ut. cbn [obind] in Ut. destruct (find_key d t (ikey (f_key f) g)); [discriminate | reflexivity].
Qed.

(** Relays on buses are numbered in the order of their records, after those the bus has already.  Missing: files with
    records for relays on branches. *)
Theorem C58_relays_partial :
  forall buses branches lines pre r post n toks m l b d c k kp f,
  dyr_file false lines (pre ++ r :: post) -> get_ds atof trunc buses branches lines = Some (Ok n) ->
  (forall r2, In r2 (pre ++ r :: post) -> no_distr r2) -> words r toks -> relay_record toks m l b -> bus_dc buses b = Some d ->
  counted d "RELAY_NUMBER" c -> relays_for b pre k -> relays_for b post kp -> In f l -> (f_pos f < length toks)%nat ->
  exists d' v, bus_dc (n_buses n) b = Some d' /\ counted d' "RELAY_NUMBER" (c + Z.of_nat (k + 1 + kp)) /\
    reads atof toks f v /\ holds d' f (c + Z.of_nat k) v.
Proof.
  intros buses branches lines pre r post n toks m l b d c k kp f F H ND W R B C Rp Rq I L. apply counted_of in C. subst c.
  destruct (@relay_file atof trunc (Net buses branches None) pre r post n toks m l b d k kp f) as (d' & v & A & Q & V); eauto using get_ds_ok.
  exists d', v. split; auto. split; auto. now apply counted_of.
Qed.

(** A file of records that can be read is read to the end. *)
Theorem C58_returns :
  forall buses branches lines rs, dyr_file false lines rs ->
  (forall r, In r rs -> exists toks, words r toks /\ readable atof toks) ->
  (forall b d, bus_dc buses b = Some d -> exists ng nl nr, counted d "GENERATOR_NUMBER" ng /\ counted d "LOAD_NUMBER" nl /\ counted d "RELAY_NUMBER" nr /\
     (ng <= 9999999)%Z /\ (nl <= 9999999)%Z /\ (0 <= nr)%Z /\ (nr + Z.of_nat (length rs) <= 9999999)%Z) ->
  exists n, get_ds atof trunc buses branches lines = Some (Ok n).
Proof.
  intros buses branches lines rs F H Ro. destruct (@ds_records_total atof trunc rs (Net buses branches None)) as (n & E); auto.
  - intros b d B. destruct (Ro b d B) as (ng & nl & nr & C1 & C2 & C3 & L). apply counted_of in C1, C2, C3. subst. tauto.
  - exists n. unfold get_ds. now rewrite (scan_file F), E.
Qed.

(** Nothing else in the data of a bus changes. *)
Theorem C58_rest_unchanged :
  forall buses branches lines rs n b d s, dyr_file false lines rs -> get_ds atof trunc buses branches lines = Some (Ok n) ->
  bus_dc buses b = Some d -> elsewhere s ->
  exists d', bus_dc (n_buses n) b = Some d' /\ forall t old, get_value d' t s old = get_value d t s old.
Proof.
  intros buses branches lines rs n b d s F H B E. apply (@get_ds_ok _ _ _ _ _ _ _ F) in H.
  assert (K : forall k, key_of s = Ok k -> other_key k).
  { intros k K. destruct s as [k0|k0 i]; cbn [elsewhere] in E.
    - inversion K; subst k0. destruct E as (E1 & E2). apply other_plain; auto. intros c Hc ->. auto.
    - assert (S : small i) by (unfold small; cbn [key_of] in K; destruct (Nat.leb_spec (String.length (dec i)) 7); [auto | discriminate]).
      rewrite (@key_small _ _ S) in K. inversion K; subst k. split; [now apply ikey_plain|]. intros a j A Sj Q. apply ikey_inj2 in Q as (-> & _); auto. }
  destruct (key_of s) as [k| |] eqn:Q.
  - destruct (@ds_records_other atof trunc k rs (K k eq_refl) _ _ _ _ H B) as (d' & B' & G). exists d'. split; auto. intros t old. unfold get_value. rewrite Q. cbn [obind]. now rewrite G.
  - destruct (@ds_records_ids atof trunc _ _ _ _ _ H B) as (d' & B' & _). exists d'. split; auto. intros t old. unfold get_value. now rewrite Q.
  - destruct (@ds_records_ids atof trunc _ _ _ _ _ H B) as (d' & B' & _). exists d'. split; auto. intros t old. unfold get_value. now rewrite Q.
Qed.

(** The parameters of a generator change only through records for it.  (DISTR1 records, see below, cannot change them.) *)
Theorem C58_other_generators :
  forall buses branches lines rs n b d tag g m l f, dyr_file false lines rs -> get_ds atof trunc buses branches lines = Some (Ok n) ->
  bus_dc buses b = Some d -> generator d tag g -> In (m, l) Layout.generator_models -> In f l ->
  (forall r toks m2 l2, In r rs -> words r toks -> generator_record toks m2 l2 b tag -> ~ In (f_key f) (map f_key l2)) ->
  exists d', bus_dc (n_buses n) b = Some d' /\ generator d' tag g /\
    forall t old, get_value d' t (Indexed (f_key f) g) old = get_value d t (Indexed (f_key f) g) old.
Proof.
  intros buses branches lines rs n b d tag g m l f F H B Dv L I N. apply (@get_ds_ok _ _ _ _ _ _ _ F) in H.
  destruct (@ds_records_gen_key atof trunc rs _ _ _ _ tag g (f_key f) H B Dv) as (d' & B' & Sm & G); auto; [eapply in_keys; eauto|].
  exists d'. split; auto. split; [eapply generator_move; eauto|]. intros t old. unfold get_value. rewrite (@key_small _ _ (device_small Dv)). cbn [obind]. now rewrite G.
Qed.
(** The data of a bus that no record mentions stays as it is.  Missing: files with records for relays on branches. *)
Theorem C58_other_buses_partial :
  forall buses branches lines rs n b d, dyr_file false lines rs -> get_ds atof trunc buses branches lines = Some (Ok n) ->
  bus_dc buses b = Some d -> (forall r, In r rs -> no_distr r) -> (forall r toks, In r rs -> words r toks -> ~ mentions toks b) ->
  bus_dc (n_buses n) b = Some d.
Proof.
  intros buses branches lines rs n b d F H B ND N. apply (@get_ds_ok _ _ _ _ _ _ _ F) in H. eapply ds_records_idle; eauto.
  intros r toks p I T P Q. apply (N r toks I T). destruct P as [->| ->]; [left | right]; exact Q.
Qed.

(** ** getDSExternal *)
(** Records are read by one process and sent to the processes that hold a copy of the bus, in any order.  Every copy then
    has the parameters of the record, unless another record for the same generator has them too.  Missing: the parameters in
    [extern_wrong]; incomplete records. *)
Theorem C58_extern_generator_partial :
  forall lines pre r post v toks m l b tag gs rs ls d d' g f,
  dyr_file true lines (pre ++ r :: post) -> ds_vectors atof trunc lines = Some (Ok v) -> words r toks ->
  generator_record toks m l b tag -> complete atof toks l -> generator d tag g -> In f l -> ~ listed extern_wrong m f ->
  (forall r2 toks2 m2 l2, In r2 (pre ++ post) -> words r2 toks2 -> generator_record toks2 m2 l2 b tag -> ~ In (f_key f) (map f_key l2)) ->
  Permutation gs (for_bus b (v_gens v)) -> Permutation rs (for_bus b (v_relays v)) -> Permutation ls (for_bus b (v_loads v)) ->
  bus_copy gs rs ls d = Ok d' ->
  exists w, reads atof toks f w /\ holds d' f g w.
Proof. intros. eapply extern_generator; eauto using ds_vectors_ok. Qed.
Theorem C58_extern_load_partial :
  forall lines pre r post v toks m l b tag gs rs ls d d' g f,
  dyr_file true lines (pre ++ r :: post) -> ds_vectors atof trunc lines = Some (Ok v) -> words r toks ->
  load_record toks m l b tag -> complete atof toks l -> load d tag g -> In f l -> ~ listed extern_wrong m f ->
  (forall r2 toks2 m2 l2, In r2 (pre ++ post) -> words r2 toks2 -> load_record toks2 m2 l2 b tag -> ~ In (f_key f) (map f_key l2)) ->
  Permutation gs (for_bus b (v_gens v)) -> Permutation rs (for_bus b (v_relays v)) -> Permutation ls (for_bus b (v_loads v)) ->
  bus_copy gs rs ls d = Ok d' ->
  exists w, reads atof toks f w /\ holds d' f g w.
Proof. intros. eapply extern_load; eauto using ds_vectors_ok. Qed.
(** The relays of a bus are numbered without gaps in some order, and all parameters of a record have the same number. *)
Theorem C58_extern_relay :
  forall lines pre r post v toks m l b k gs rs ls d d' c,
  dyr_file true lines (pre ++ r :: post) -> ds_vectors atof trunc lines = Some (Ok v) -> words r toks ->
  relay_record toks m l b -> complete atof toks l -> relays_for b (pre ++ r :: post) k ->
  Permutation gs (for_bus b (v_gens v)) -> Permutation rs (for_bus b (v_relays v)) -> Permutation ls (for_bus b (v_loads v)) ->
  bus_copy gs rs ls d = Ok d' -> counted d "RELAY_NUMBER" c ->
  counted d' "RELAY_NUMBER" (c + Z.of_nat k) /\
  exists i, (c <= i < c + Z.of_nat k)%Z /\ forall f, In f l -> exists w, reads atof toks f w /\ holds d' f i w.
Proof.
  intros lines pre r post v toks m l b k gs rs ls d d' c F V W R Co Rk _ P _ Cp C. apply counted_of in C. subst c.
  destruct (@extern_relay atof trunc v pre r post toks m l b k gs rs ls d d') as (Q & X); eauto using ds_vectors_ok. split; auto. now apply counted_of.
Qed.
End Claims.

(** ** What goes wrong *)
(** Every parameter in the list parse_wrong is read incorrectly by getDS in some case, from a record that has it: GENROU
    XQ, GDFORM MP, REECA1 TIQ and REPCA1 FEMIN take the wrong word when the entry exists already; WSIEG1 GV5 then goes to
    GV4; REPCA1 BRCH_CKT is not padded to two characters; WSIEG1 IBLOCK is stored under PGV5; the first seven PSSSIM
    parameters are stored as double where the dictionary says int; ACMTBLU1 UVTR2 is stored as UVTR1; CMLDBLU1 RSB and LSB are
    dropped when they are the last word; GDFORM VFLAG and IEELBL A1 test for an entry of the wrong type. *)
Theorem C58_getds_parameters_refuted :
  forall m k, In (m, k) parse_wrong -> exists atof trunc d0 x r toks l f n d v,
  record_lines false [x] r /\ words r toks /\
  (generator_record toks m l 1 "1 " /\ generator d0 "1 " 0 \/ load_record toks m l 1 "1 " /\ load d0 "1 " 0) /\
  In f l /\ f_key f = k /\ (f_pos f < length toks)%nat /\
  get_ds atof trunc [(1%Z, d0)] [] [x] = Some (Ok n) /\ bus_dc (n_buses n) 1 = Some d /\ reads atof toks f v /\ ~ holds d f 0 v.
Proof.
  intros m k I. pose proof all_bad_get as H. rewrite forallb_forall in H. specialize (H _ I). apply existsb_exists in H as ((d0 & x) & _ & H).
  exists at0, tr0, d0, x. apply bad_get_spec. exact H.
Qed.
(** Those in parse_wrong_first are read incorrectly even when the entry is not there yet. *)
Theorem C58_getds_first_refuted :
  forall m k, In (m, k) parse_wrong_first -> exists atof trunc d0 x r toks l f n d v,
  (forall t old, get_value d0 t (Indexed k 0) old = Ok (false, old)) /\
  record_lines false [x] r /\ words r toks /\
  (generator_record toks m l 1 "1 " /\ generator d0 "1 " 0 \/ load_record toks m l 1 "1 " /\ load d0 "1 " 0) /\
  In f l /\ f_key f = k /\ (f_pos f < length toks)%nat /\
  get_ds atof trunc [(1%Z, d0)] [] [x] = Some (Ok n) /\ bus_dc (n_buses n) 1 = Some d /\ reads atof toks f v /\ ~ holds d f 0 v.
Proof.
  intros m k I. pose proof all_bad_first as H. rewrite forallb_forall in H. specialize (H _ I). apply existsb_exists in H as ((d0 & x) & _ & H).
  apply andb_prop in H as (U & H). apply bad_get_spec in H as (r & toks & l & f & n & d & v & H). exists at0, tr0, d0, x, r, toks, l, f, n, d, v. split; auto. now apply is_unset_spec.
Qed.
(** Every parameter in the list extern_wrong, except PSSSIM and DISTR1, is delivered incorrectly by getDSExternal in some case,
    from a complete record: WSIEG1 T3 gets the value of T2, CIM6BL X1 and E2, ACMTBLU1 NQ1 and NQ2, and CMLDBLU1 TTR1
    are mixed up, and CMLDBLU1 UVTR2 goes to VC2ON when the entry exists already. *)
Theorem C58_external_parameters_refuted :
  forall m k, In (m, k) extern_wrong -> m <> "PSSSIM" -> m <> "DISTR1" -> exists atof trunc d0 x r toks l f v d w,
  record_lines true [x] r /\ words r toks /\
  (generator_record toks m l 1 "1 " /\ generator d0 "1 " 0 \/ load_record toks m l 1 "1 " /\ load d0 "1 " 0) /\
  complete atof toks l /\ In f l /\ f_key f = k /\
  ds_vectors atof trunc [x] = Some (Ok v) /\
  bus_copy (for_bus 1 (v_gens v)) (for_bus 1 (v_relays v)) (for_bus 1 (v_loads v)) d0 = Ok d /\ reads atof toks f w /\ ~ holds d f 0 w.
Proof.
  intros m k I N1 N2. pose proof all_bad_ext as H. rewrite forallb_forall in H. assert (J : In (m, k) ext_wrong).
  { unfold ext_wrong. apply filter_In. split; auto. cbn. destruct (String.eqb_spec m "PSSSIM"); [congruence|]. destruct (String.eqb_spec m "DISTR1"); [congruence | reflexivity]. }
  specialize (H _ J). apply existsb_exists in H as ((d0 & x) & _ & H). exists at0, tr0, d0, x. apply bad_ext_spec. exact H.
Qed.
(** getDSExternal does store relays on branches with the branch, but DISTR1 ZONE3_TIME with a wrong value. *)
Theorem C58_distr1_zone3_refuted :
  exists x r toks f v d w, record_lines true [x] r /\ words r toks /\ model_name toks 1 "DISTR1" /\ number toks 0 1 /\ number toks 2 2 /\
  complete at0 toks Layout.distr1 /\ In f Layout.distr1 /\ f_key f = "RELAY_ZONE3_TIME" /\
  ds_vectors at0 tr0 [x] = Some (Ok v) /\ branch_copy (v_branches v) dc_empty = Ok d /\ counted d "RELAY_NUMBER" 1 /\ reads at0 toks f w /\ ~ holds d f 0 w.
Proof.
  exists (a_line "DISTR1" 0 60), (before slash (a_line "DISTR1" 0 60)). eexists. exists (nth 22 Layout.distr1 (Flag "")). eexists. eexists. exists (VDouble 24).
  split; [apply line_record; vm_compute; reflexivity|]. split; [vm_compute; reflexivity|]. split; [apply model_of_name; vm_compute; reflexivity|].
  split; [apply bus_of_number; vm_compute; reflexivity|]. split; [apply bus_of_number; vm_compute; reflexivity|]. split; [apply all_read_spec; vm_compute; reflexivity|].
  split; [apply nth_In; vm_compute; lia|]. split; [vm_compute; reflexivity|]. split; [vm_compute; reflexivity|]. split; [vm_compute; reflexivity|].
  split; [left; intros; vm_compute; reflexivity|]. split; [eexists; split; [vm_compute; reflexivity | vm_compute; reflexivity]|]. intros H. specialize (H (VDouble 0)). vm_compute in H. discriminate.
Qed.
(** getDS never stores the parameters of an ESST4B exciter (find_ds_par looks for "ESST4A"): with such records only, no
    data changes.  getDSExternal does store them. *)
Theorem C58_esst4b_refuted :
  forall atof trunc buses branches lines rs n, dyr_file false lines rs ->
  (forall r, In r rs -> exists toks, words r toks /\ model_name toks 1 "ESST4B") ->
  get_ds atof trunc buses branches lines = Some (Ok n) -> forall b, bus_dc (n_buses n) b = bus_dc buses b.
Proof.
  intros atof trunc buses branches lines rs n F H E b. apply (@get_ds_ok _ _ _ _ _ _ _ F) in E. clear F.
  change buses with (n_buses (Net buses branches None)). revert E. generalize (Net buses branches None) as n0. clear buses branches.
  induction rs as [|r rs IH]; intros n0 E; cbn [ds_records] in E; [inversion E; reflexivity|].
  destruct (ds_record atof trunc n0 r) as [n1| |] eqn:R; cbn [obind] in E; try discriminate. rewrite (IH ltac:(intros; apply H; right; auto) n1 E). clear E IH.
  destruct (H r ltac:(left; auto)) as (toks & T & M). apply model_of_name in M. unfold ds_record in R. change (tokens r = Ok toks) in T. rewrite T in R. cbn [obind] in R. rewrite M in R. cbn [obind] in R.
  change (on_generator "ESST4B") with true in R. cbn iota in R. destruct (bus_of 0 toks) as [x| |]; cbn [obind] in R; try discriminate.
  unfold at_bus in R. destruct (bus_dc (n_buses n0) x) as [d|] eqn:B; [|inversion R; reflexivity].
  unfold on_gen in R. destruct (matching d _ _ toks) as [g| |]; cbn [obind] in R; try discriminate. change (gen_parse_class "ESST4B") with (@None cls) in R.
  assert (Q : (if (g >? -1)%Z then Ok d else Ok d) = Ok d) by (destruct (g >? -1)%Z; reflexivity). cbn iota in R. rewrite Q in R. cbn [obind] in R. inversion R; subst. cbn [n_buses]. rewrite bus_dc_set, B.
  destruct (Z.eqb_spec b x) as [->|]; auto.
Qed.

Definition txt := list_ascii_of_string.
(** A DISTR1 record (relay on a branch): getDS uses a null pointer when no earlier record was for a bus of the network, and else
    stores the relay with the data of the bus of that earlier record, not with the branch. *)
Theorem C58_branch_relay_refuted :
  (forall atof trunc, get_ds atof trunc [(1%Z, one_bus); (2%Z, one_bus)] [(1%Z, 2%Z)] [txt "1,'DISTR1',2,'1',1/"] = Some UB) /\
  forall atof trunc, exists n d, get_ds atof trunc [(1%Z, one_bus); (2%Z, one_bus); (9%Z, one_bus)] [(1%Z, 2%Z)] [txt "9,'GENCLS',1,3,0/"; txt "1,'DISTR1',2,'1',1/"] = Some (Ok n) /\
    bus_dc (n_buses n) 9 = Some d /\ counted d "RELAY_NUMBER" 1 /\ bus_dc (n_buses n) 1 = Some one_bus /\ bus_dc (n_buses n) 2 = Some one_bus.
Proof.
  split; [intros; reflexivity|]. intros. eexists. eexists. split; [vm_compute; reflexivity|]. split; [vm_compute; reflexivity|].
  split; [left; intros; vm_compute; reflexivity | split; vm_compute; reflexivity].
Qed.
(** A file that ends inside a record, for instance without a last slash, is never read to the end. *)
Theorem C58_unfinished_refuted :
  forall atof trunc buses branches, get_ds atof trunc buses branches [txt "1 'GENCLS' 1 3.0 0.0"] = None /\
    ds_vectors atof trunc [txt "1 'GENCLS' 1 3.0 0.0"] = None.
Proof. intros. split; reflexivity. Qed.
(** getDSExternal skips comment lines; getDS takes one for an empty record and reads beyond its words. *)
Theorem C58_comment_refuted :
  forall atof trunc buses branches, get_ds atof trunc buses branches [txt "// machines"] = Some UB /\
    ds_vectors atof trunc [txt "// machines"] = Some (Ok (Vec [] [] [] [])).
Proof. intros. split; reflexivity. Qed.
(** A record without its last words: getDS leaves the entries unset, but getDSExternal puts whatever the memory of the struct holds
    into them.  A GENCLS record as PSS/E writes it, with H and D only, is such a record: the parser knows a third parameter. *)
Theorem C58_short_record_refuted :
  forall atof trunc, exists n v, get_ds atof trunc [(1%Z, one_bus)] [] [txt "1 'GENCLS' 1 3.0 0.0 /"] = Some (Ok n) /\
    ds_vectors atof trunc [txt "1 'GENCLS' 1 3.0 0.0 /"] = Some (Ok v) /\ bus_copy (for_bus 1 (v_gens v)) [] [] one_bus = UB.
Proof. intros. eexists. eexists. split; [vm_compute; reflexivity|]. split; [vm_compute; reflexivity | vm_compute; reflexivity]. Qed.
(** A load record whose identifier no load of the bus has: getDS stores its parameters under index -1. *)
Theorem C58_unmatched_load_refuted :
  forall atof trunc, exists n d, get_ds atof trunc [(1%Z, one_bus)] [] [txt "1 'CIM6BL' 7 2 /"] = Some (Ok n) /\
    bus_dc (n_buses n) 1 = Some d /\ holds d (Param 3 "LOAD_IT" TInt) (-1) (VInt 2).
Proof. intros. eexists. eexists. split; [vm_compute; reflexivity|]. split; [vm_compute; reflexivity|]. intros old. vm_compute. reflexivity. Qed.
(** A USRLOD record for a device nobody knows is ignored by getDS; getDSExternal compares a name never assigned. *)
Theorem C58_unknown_load_refuted :
  forall atof trunc, exists n v, get_ds atof trunc [(1%Z, one_bus)] [] [txt "1 'USRLOD' 1 'OTHER' 12 /"] = Some (Ok n) /\ n_buses n = [(1%Z, one_bus)] /\
    ds_vectors atof trunc [txt "1 'USRLOD' 1 'OTHER' 12 /"] = Some (Ok v) /\ bus_copy [] [] (for_bus 1 (v_loads v)) one_bus = UB.
Proof. intros. eexists. eexists. split; [vm_compute; reflexivity|]. split; [vm_compute; reflexivity|]. split; [vm_compute; reflexivity | vm_compute; reflexivity]. Qed.
(** An identifier of more than two characters overflows the three-byte field of the struct. *)
Theorem C58_long_identifier_refuted :
  forall atof trunc, ds_vectors atof trunc [txt "1 'GENCLS' 'ABC' 3.0 0.0 /"] = Some UB.
Proof. intros. reflexivity. Qed.
(** A GDFORM record replaces the generator's power limits from the network file by its own. *)
Theorem C58_gdform_limits_refuted :
  exists n d, get_ds at0 tr0 [(1%Z, add_key one_bus "GENERATOR_PMAX:0" (VDouble 250))] [] [txt "1 'GDFORM' 1 1 2 3 4 5 6 1 0 /"] = Some (Ok n) /\
    bus_dc (n_buses n) 1 = Some d /\ holds d (Param 9 "GENERATOR_PMAX" TDouble) 0 (VDouble 1).
Proof. eexists. eexists. split; [vm_compute; reflexivity|]. split; [vm_compute; reflexivity|]. intros old. vm_compute. reflexivity. Qed.

(** ** The hypotheses can be met *)
Definition file : list str :=
  [txt "1 'GENCLS' 1 "; txt "   3 0 1/ classical"; txt " "; txt "1,'LVSHBL',1,2,3,4,5,6,7,8,9,10,11,12,13/"; txt "1,'IEELBL',1,1,2,3,4,5,6,7,8,9,10,11,12,13,14/"].
Definition records : list str :=
  [txt "1 'GENCLS' 1    3 0 1"; txt "1,'LVSHBL',1,2,3,4,5,6,7,8,9,10,11,12,13"; txt "1,'IEELBL',1,1,2,3,4,5,6,7,8,9,10,11,12,13,14"].
Lemma file_records ext : dyr_file ext file records.
Proof.
  change file with ([txt "1 'GENCLS' 1 "; txt "   3 0 1/ classical"] ++ txt " " :: [txt "1,'LVSHBL',1,2,3,4,5,6,7,8,9,10,11,12,13/"] ++ [txt "1,'IEELBL',1,1,2,3,4,5,6,7,8,9,10,11,12,13,14/"] ++ [])%list.
  apply DF_record; [|apply DF_ignored; [|apply DF_record; [|apply DF_record; [|constructor]]]].
  - exists [txt "1 'GENCLS' 1 "], (txt "   3 0 1/ classical"), (txt " classical"). split; [reflexivity|]. split.
    + constructor; [|constructor]. intros H. apply has_spec in H. vm_compute in H. discriminate.
    + split; [reflexivity|]. split; [intros H; apply has_spec in H; vm_compute in H; discriminate|]. split; [apply has_spec; vm_compute; reflexivity|].
      intros H. apply skipped_spec in H. destruct ext; vm_compute in H; discriminate.
  - left. intros c [<-|[]]. reflexivity.
  - apply (@line_record ext (txt "1,'LVSHBL',1,2,3,4,5,6,7,8,9,10,11,12,13/")); [reflexivity | destruct ext; reflexivity].
  - apply (@line_record ext (txt "1,'IEELBL',1,1,2,3,4,5,6,7,8,9,10,11,12,13,14/")); [reflexivity | destruct ext; reflexivity].
Qed.
Lemma gencls_listed : In ("GENCLS", Layout.gencls) Layout.generator_models.
Proof. unfold Layout.generator_models. do 6 right. left. reflexivity. Qed.
Example C58_file_nonvacuous :
  dyr_file false file records /\
  (exists n, get_ds at0 tr0 [(1%Z, one_bus)] [] file = Some (Ok n)) /\
  (exists toks, words (txt "1 'GENCLS' 1    3 0 1") toks /\ generator_record toks "GENCLS" Layout.gencls 1 "1 ") /\
  (exists toks, words (txt "1,'LVSHBL',1,2,3,4,5,6,7,8,9,10,11,12,13") toks /\ relay_record toks "LVSHBL" Layout.lvshbl 1) /\
  (exists toks, words (txt "1,'IEELBL',1,1,2,3,4,5,6,7,8,9,10,11,12,13,14") toks /\ load_record toks "IEELBL" Layout.ieelbl 1 "1 ") /\
  generator one_bus "1 " 0 /\ load one_bus "1 " 0 /\ counted one_bus "RELAY_NUMBER" 0.
Proof.
  split; [apply file_records|]. split; [eexists; vm_compute; reflexivity|]. split.
  { eexists. split; [vm_compute; reflexivity|]. apply is_gen_spec; [exact gencls_listed | vm_compute; reflexivity]. }
  split. { eexists. split; [vm_compute; reflexivity|]. split; [left; reflexivity|]. split; [apply model_of_name; vm_compute; reflexivity | apply bus_of_number; vm_compute; reflexivity]. }
  split. { eexists. split; [vm_compute; reflexivity|]. apply is_load_spec; [right; left; reflexivity | vm_compute; reflexivity]. }
  split; [apply is_device_spec; reflexivity|]. split; [apply is_device_spec; reflexivity|]. right. split; reflexivity.
Qed.
Example C58_external_nonvacuous :
  exists v d, dyr_file true file records /\ ds_vectors at0 tr0 file = Some (Ok v) /\ length (for_bus 1 (v_gens v)) = 1%nat /\ length (for_bus 1 (v_relays v)) = 1%nat /\
    bus_copy (for_bus 1 (v_gens v)) (for_bus 1 (v_relays v)) (for_bus 1 (v_loads v)) one_bus = Ok d.
Proof. eexists. eexists. split; [apply file_records|]. split; [vm_compute; reflexivity|]. split; [vm_compute; reflexivity|]. split; vm_compute; reflexivity. Qed.
Example C58_returns_nonvacuous : forall r, In r records -> exists toks, words r toks /\ readable at0 toks.
Proof.
  intros r [<-|[<-|[<-|[]]]].
  - eexists. split; [vm_compute; reflexivity|]. left. exists "GENCLS", Layout.gencls, 1%Z, "1 ". split; [apply is_gen_spec; [exact gencls_listed | vm_compute; reflexivity] | apply all_read_spec; vm_compute; reflexivity].
  - eexists. split; [vm_compute; reflexivity|]. right. left. exists "LVSHBL", Layout.lvshbl, 1%Z. split; [|apply all_read_spec; vm_compute; reflexivity].
    split; [left; reflexivity|]. split; [apply model_of_name; vm_compute; reflexivity | apply bus_of_number; vm_compute; reflexivity].
  - eexists. split; [vm_compute; reflexivity|]. right. right. left. exists "IEELBL", Layout.ieelbl, 1%Z, "1 ". split; [apply is_load_spec; [right; left; reflexivity | vm_compute; reflexivity] | apply all_read_spec; vm_compute; reflexivity].
Qed.

Print Assumptions C58_generator_parameters_partial.
Print Assumptions C58_generator_first_partial.
Print Assumptions C58_load_parameters_partial.
Print Assumptions C58_load_first_partial.
Print Assumptions C58_relays_partial.
Print Assumptions C58_returns.
Print Assumptions C58_rest_unchanged.
Print Assumptions C58_other_generators.
Print Assumptions C58_other_buses_partial.
Print Assumptions C58_extern_generator_partial.
Print Assumptions C58_extern_load_partial.
Print Assumptions C58_extern_relay.
Print Assumptions C58_getds_parameters_refuted.
Print Assumptions C58_getds_first_refuted.
Print Assumptions C58_external_parameters_refuted.
Print Assumptions C58_esst4b_refuted.

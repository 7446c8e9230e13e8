(** Proofs for the reading of dynamic model records: values after getDS, and the structs of getDSExternal. *)
From Verif Require Import Prelude DCModel DCSpec DCProofs StrModel DrModel DrTables DrModel2 DrSpec DrProofs DrProofs2 DrProofs3 DrProofs4.
From Coq Require Import Ascii.
Open Scope string_scope.

Definition xnames (rs : list (row fsrc)) : list string := map (@add_to fsrc) rs ++ map (@set_to fsrc) rs.
(** All steps of [st] that assign [f] assign [x]. *)
Definition only_src (st : list srow) (f : string) (x : src) : bool := forallb (fun r => negb (String.eqb (s_field r) f) || src_eqb (s_src r) x) st.
Definition sets_always (st : list srow) (f : string) : bool := existsb (fun r => String.eqb (s_field r) f && match s_guard r with None => true | Some _ => false end) st.
Definition x_ok (l : list field) (c : cls) : bool := forallb (fun a => existsb (fun f => String.eqb a (f_key f)) l) (xnames (c_extract c)).
Definition gen_x_ok : bool := forallb (fun p => match assoc gen_class (fst p) with
  | Some c => x_ok (snd p) c && only_src (c_store c) "bus_id" (I 0) && only_src (c_store c) "gen_id" (Tag 2) && only_src (c_store c) "model" (Up 1)
  | None => false end) Layout.generator_models.
Definition relay_x_ok : bool := forallb (fun p => match assoc relay_class (fst p) with Some c => x_ok (snd p) c | None => false end) Layout.relay_models
  && forallb (fun p => x_ok (snd p) branch_class) Layout.branch_relay_models.
Definition load_pos (m : string) : nat := if mem m ["CIM6BL"; "IEELBL"] then 1 else 3.
Definition load_x_ok : bool := forallb (fun p => match assoc load_class (fst p) with
  | Some c => x_ok (snd p) c && only_src (c_store c) "bus_id" (I 0) && only_src (c_store c) "id" (Tag 2) && only_src (c_store c) "model" (Up (load_pos (fst p))) && sets_always (c_store c) "model"
  | None => false end) Layout.load_models.
Lemma all_x_ok : gen_x_ok && relay_x_ok && load_x_ok = true.
Proof. vm_compute. reflexivity. Qed.

Section Values.
Variable atof : str -> Z.
Variable trunc : Z -> outcome Z.

(** ** getDS: the record itself *)
Lemma name_len toks p m : model_name toks p m -> (p < length toks)%nat.
Proof. intros (x & t & H & _). apply nth_error_Some. congruence. Qed.
Lemma ds_record_generator n r n' toks m l b tag d g : ds_record atof trunc n r = Ok n' -> tokens r = Ok toks -> generator_record toks m l b tag -> m <> "ESST4B" ->
  bus_dc (n_buses n) b = Some d -> generator d tag g ->
  exists d' c, bus_dc (n_buses n') b = Some d' /\ assoc gen_class m = Some c /\ parse atof trunc (c_parse c) toks g d = Ok d'.
Proof.
  intros H T (L & M & B & Id) E Bd Dv. apply model_of_name in M. apply bus_of_number in B. apply tag_of_ident in Id.
  unfold ds_record in H. rewrite T in H. cbn [obind] in H. rewrite M in H. cbn [obind] in H. rewrite (@listed_on_generator _ _ L), B in H. cbn [obind] in H.
  destruct (at_bus_step _ _ _ _ H Bd) as (d' & B' & [(Q & _)|(_ & Q)]); [congruence|].
  destruct (gen_facts atof trunc L) as (c & A & _). exists d', c. split; auto. split; auto.
  unfold on_gen in Q. rewrite (@matching_device _ _ _ _ _ _ Dv Id) in Q. cbn [obind] in Q.
  assert (g > -1)%Z by (destruct Dv as (_ & (n0 & _ & G) & _); lia). destruct (Z.gtb_spec g (-1)); [|lia].
  unfold gen_parse_class in Q. destruct (String.eqb_spec m "ESST4B"); [contradiction|]. rewrite A in Q. exact Q.
Qed.
Lemma ds_record_load n r n' toks m l b tag d g : ds_record atof trunc n r = Ok n' -> tokens r = Ok toks -> load_record toks m l b tag ->
  bus_dc (n_buses n) b = Some d -> load d tag g ->
  exists d' c, bus_dc (n_buses n') b = Some d' /\ assoc load_class m = Some c /\ parse atof trunc (c_parse c) toks g d = Ok d'.
Proof.
  intros H T R Bd Dv. destruct (record_load_device R) as (m1 & M & O & LD). destruct R as (L & B & Id & _).
  apply bus_of_number in B. apply tag_of_ident in Id. unfold ds_record in H. rewrite T in H. cbn [obind] in H. rewrite M in H. cbn [obind] in H.
  assert (N : on_generator m1 = false /\ on_bus m1 = false) by (unfold on_load in O; apply mem_In in O; cbn in O; destruct O as [<-|[<-|[<-|[]]]]; split; reflexivity).
  destruct N as (N1 & N2). rewrite N1, N2, O, B in H. cbn [obind] in H.
  destruct (at_bus_step _ _ _ _ H Bd) as (d' & B' & [(Q & _)|(_ & Q)]); [congruence|].
  destruct (load_facts atof trunc L) as (c & A & _). exists d', c. split; auto. split; auto.
  unfold on_ld in Q. rewrite (@matching_device _ _ _ _ _ _ Dv Id) in Q. cbn [obind] in Q. rewrite LD in Q. cbn [obind] in Q. rewrite A in Q. exact Q.
Qed.

Lemma generator_value n pre r post n' toks m l b tag d g f : ds_records atof trunc n (pre ++ r :: post) = Ok n' -> bus_dc (n_buses n) b = Some d ->
  tokens r = Ok toks -> generator_record toks m l b tag -> m <> "ESST4B" -> generator d tag g -> In f l -> (f_pos f < length toks)%nat ->
  (forall r2 toks2 m2 l2, In r2 post -> tokens r2 = Ok toks2 -> generator_record toks2 m2 l2 b tag -> ~ In (f_key f) (map f_key l2)) ->
  (~ listed parse_wrong m f \/ ~ listed parse_wrong_first m f /\ (forall t, find_key d t (ikey (f_key f) g) = None) /\
     forall r2 toks2 m2 l2, In r2 pre -> tokens r2 = Ok toks2 -> generator_record toks2 m2 l2 b tag -> ~ In (f_key f) (map f_key l2)) ->
  exists d' v, bus_dc (n_buses n') b = Some d' /\ generator d' tag g /\ reads atof toks f v /\ holds d' f g v.
Proof.
  intros H B T R E Dv I L N W. apply ds_records_app in H as (n1 & H1 & H). cbn [ds_records] in H. destruct (ds_record atof trunc n1 r) as [n2| |] eqn:Rr; cbn [obind] in H; try discriminate.
  pose proof R as (Lm & M & _). assert (A : In (f_key f) gkeys) by (eapply in_keys; eauto). pose proof (device_small Dv) as Sg.
  destruct (@ds_records_ids atof trunc _ _ _ _ _ H1 B) as (d1 & B1 & S1). pose proof (generator_move S1 Dv) as Dv1.
  destruct (@ds_record_generator _ _ _ _ _ _ _ _ _ _ Rr T R E B1 Dv1) as (d2 & c & B2 & Ac & P).
  destruct (@ds_records_ids atof trunc [r] n1 n2 b d1) as (d2' & B2' & S2); [cbn [ds_records]; rewrite Rr; reflexivity | auto |]. assert (d2' = d2) by congruence. subst d2'.
  pose proof (generator_move S2 Dv1) as Dv2.
  destruct (@ds_records_gen_key atof trunc post n2 n' b d2 tag g (f_key f) H B2 Dv2 A N) as (d3 & B3 & S3 & F3).
  destruct (gen_facts atof trunc Lm) as (c' & Ac' & (F1 & F2 & _ & F4 & F5) & _). assert (c' = c) by congruence. subst c'.
  assert (V : exists v, reads atof toks f v /\ holds d2 f g v).
  { destruct W as [W|(W & Fr & Np)]; [eapply F4; eauto; eapply name_len; eauto|]. eapply F5; eauto; [eapply name_len; eauto|].
    destruct (@ds_records_gen_key atof trunc pre n n1 b d tag g (f_key f) H1 B Dv A Np) as (d1' & B1' & _ & F0). intros t. replace d1 with d1' by congruence. rewrite F0. apply Fr. }
  destruct V as (v & V1 & V2). exists d3, v. split; auto. split; [eapply generator_move; eauto|]. split; auto. apply holds_find in V2; auto. apply holds_find; auto. rewrite F3. exact V2.
Qed.
Lemma load_value n pre r post n' toks m l b tag d g f : ds_records atof trunc n (pre ++ r :: post) = Ok n' -> bus_dc (n_buses n) b = Some d ->
  tokens r = Ok toks -> load_record toks m l b tag -> load d tag g -> In f l -> (f_pos f < length toks)%nat ->
  (forall r2 toks2 m2 l2, In r2 post -> tokens r2 = Ok toks2 -> load_record toks2 m2 l2 b tag -> ~ In (f_key f) (map f_key l2)) ->
  (~ listed parse_wrong m f \/ ~ listed parse_wrong_first m f /\ (forall t, find_key d t (ikey (f_key f) g) = None) /\
     forall r2 toks2 m2 l2, In r2 pre -> tokens r2 = Ok toks2 -> load_record toks2 m2 l2 b tag -> ~ In (f_key f) (map f_key l2)) ->
  exists d' v, bus_dc (n_buses n') b = Some d' /\ load d' tag g /\ reads atof toks f v /\ holds d' f g v.
Proof.
  intros H B T R Dv I L N W. apply ds_records_app in H as (n1 & H1 & H). cbn [ds_records] in H. destruct (ds_record atof trunc n1 r) as [n2| |] eqn:Rr; cbn [obind] in H; try discriminate.
  pose proof R as (Lm & _ & _ & M). assert (A : In (f_key f) lkeys) by (eapply in_keys; eauto). pose proof (device_small Dv) as Sg.
  assert (Le : (1 < length toks)%nat) by (destruct M as [(_ & M)|(_ & M & _)]; eapply name_len; eauto).
  destruct (@ds_records_ids atof trunc _ _ _ _ _ H1 B) as (d1 & B1 & S1). pose proof (load_move S1 Dv) as Dv1.
  destruct (@ds_record_load _ _ _ _ _ _ _ _ _ _ Rr T R B1 Dv1) as (d2 & c & B2 & Ac & P).
  destruct (@ds_records_ids atof trunc [r] n1 n2 b d1) as (d2' & B2' & S2); [cbn [ds_records]; rewrite Rr; reflexivity | auto |]. assert (d2' = d2) by congruence. subst d2'.
  pose proof (load_move S2 Dv1) as Dv2.
  destruct (@ds_records_load_key atof trunc post n2 n' b d2 tag g (f_key f) H B2 Dv2 A N) as (d3 & B3 & S3 & F3).
  destruct (load_facts atof trunc Lm) as (c' & Ac' & (F1 & F2 & _ & F4 & F5) & _). assert (c' = c) by congruence. subst c'.
  assert (V : exists v, reads atof toks f v /\ holds d2 f g v).
  { destruct W as [W|(W & Fr & Np)]; [eapply F4; eauto|]. eapply F5; eauto.
    destruct (@ds_records_load_key atof trunc pre n n1 b d tag g (f_key f) H1 B Dv A Np) as (d1' & B1' & _ & F0). intros t. replace d1 with d1' by congruence. rewrite F0. apply Fr. }
  destruct V as (v & V1 & V2). exists d3, v. split; auto. split; [eapply load_move; eauto|]. split; auto. apply holds_find in V2; auto. apply holds_find; auto. rewrite F3. exact V2.
Qed.

(** ** The struct way *)
Lemma xframe s idx rs l d d' t k : small idx -> forallb (fun a => existsb (fun f => String.eqb a (f_key f)) l) (xnames rs) = true -> extract rs s idx d = Ok d' ->
  (forall a, In a (map f_key l) -> k <> ikey a idx) -> find_key d' t k = find_key d t k.
Proof.
  intros Sm N H K. assert (K' : forall a, In a (xnames rs) -> k <> ikey a idx).
  { intros a Ha. rewrite forallb_forall in N. specialize (N a Ha). apply existsb_exists in N as (f & I & E). apply String.eqb_eq in E. subst a. apply K, in_map, I. }
  clear N K. revert d H. unfold extract. induction rs as [|r rs IH]; cbn [run_rows]; intros d H; [congruence|].
  destruct (run_row (feval s) 0 idx d r) as [d1| |] eqn:E; try discriminate. cbn [obind] in H.
  rewrite (IH ltac:(intros a Ha; apply K'; unfold xnames in *; cbn; right; apply in_or_app; cbn; apply in_app_or in Ha as [Ha|Ha]; auto) d1 H).
  assert (A : k <> ikey (add_to r) idx) by (apply K'; unfold xnames; cbn; auto).
  assert (B : k <> ikey (set_to r) idx) by (apply K'; unfold xnames; cbn; right; apply in_or_app; cbn; auto).
  unfold run_row in E. destruct (passes _ _); [|congruence]. rewrite (@key_small _ _ Sm) in E. cbn [obind] in E.
  destruct (find_key d (look_type r) (ikey (look r) idx)).
  - destruct (feval s (set_src r)) as [w| |]; cbn [obind] in E; try discriminate. unfold run_call in E. rewrite (@key_small _ _ Sm) in E. cbn [obind] in E. assert (E' : d1 = fst (set_key d (ikey (set_to r) idx) w)) by congruence. rewrite E', find_set.
    destruct (String.eqb_spec (ikey (set_to r) idx) k); cbn; auto. now subst.
  - destruct (feval s (add_src r)) as [w| |]; cbn [obind] in E; try discriminate. unfold run_call in E. rewrite (@key_small _ _ Sm) in E. cbn [obind] in E. cbn [fst] in E. assert (E' : d1 = add_key d (ikey (add_to r) idx) w) by congruence. rewrite E', find_add.
    destruct (String.eqb_spec (ikey (add_to r) idx) k); cbn; auto. now subst.
Qed.
Lemma store_keeps cap toks f x v rs : only_src rs f x = true -> eval atof trunc toks x = Ok v -> forall s s', store atof trunc cap rs toks s = Ok s' -> fget s f = Some v -> fget s' f = Some v.
Proof.
  intros O E. induction rs as [|r rs IH]; cbn [store]; intros s s' H G; [congruence|]. cbn in O. apply andb_true_iff in O as (O1 & O2). specialize (IH O2).
  destruct (passes _ _); cbn [obind] in H; [|eauto]. destruct (eval atof trunc toks (s_src r)) as [w| |] eqn:W; cbn [obind] in H; try discriminate.
  unfold put_field in H. destruct (fits _ _ _); cbn [obind] in H; try discriminate. apply (IH _ _ H). unfold fget. cbn [m_find].
  destruct (String.eqb_spec (s_field r) f); auto. cbn in O1. apply src_eqb_eq in O1. rewrite O1 in W. congruence.
Qed.
Lemma store_sets cap toks f x rs : only_src rs f x = true -> sets_always rs f = true -> forall s s', store atof trunc cap rs toks s = Ok s' -> exists v, eval atof trunc toks x = Ok v /\ fget s' f = Some v.
Proof.
  induction rs as [|r rs IH]; intros O Se s s' H; [discriminate|]. cbn [store] in H. cbn in O, Se. apply andb_true_iff in O as (O1 & O2).
  destruct (String.eqb (s_field r) f && match s_guard r with None => true | Some _ => false end) eqn:Q.
  - apply andb_true_iff in Q as (Q & G). rewrite Q in O1. cbn in O1. apply src_eqb_eq in O1. destruct (s_guard r); [discriminate|]. cbn [passes] in H.
    destruct (eval atof trunc toks (s_src r)) as [w| |] eqn:W; cbn [obind] in H; try discriminate. unfold put_field in H. destruct (fits _ _ _); cbn [obind] in H; try discriminate.
    exists w. rewrite O1 in W. split; auto. eapply (@store_keeps cap toks f x); eauto. unfold fget. cbn [m_find]. now rewrite Q.
  - destruct (if passes (s_guard r) (length toks) then _ else _) as [s1| |]; cbn [obind] in H; try discriminate. eapply IH; eauto.
Qed.
(** What find_ds_vector makes of a record. *)
Definition gen_struct (r : str) (s : struct) : Prop :=
  exists toks m c l b tag s0, tokens r = Ok toks /\ generator_record toks m l b tag /\ assoc gen_class m = Some c /\
    store atof trunc 7 (c_store c) toks s0 = Ok s /\ fget s "bus_id" = Some (VInt b) /\ fget s "gen_id" = Some (VString tag) /\ fget s "model" = Some (VString m).
Definition load_struct (r : str) (s : struct) : Prop :=
  exists toks b tag, tokens r = Ok toks /\ fget s "bus_id" = Some (VInt b) /\ fget s "id" = Some (VString tag) /\
    (fget s "model" = None \/ exists m c l s0, load_record toks m l b tag /\ assoc load_class m = Some c /\
      store atof trunc 8 (c_store c) toks s0 = Ok s /\ fget s "model" = Some (VString m)).
Lemma gen_x m l : In (m, l) Layout.generator_models -> forall c, assoc gen_class m = Some c ->
  x_ok l c = true /\ only_src (c_store c) "bus_id" (I 0) = true /\ only_src (c_store c) "gen_id" (Tag 2) = true /\ only_src (c_store c) "model" (Up 1) = true.
Proof.
  intros H c A. pose proof all_x_ok as X. apply andb_prop in X as (X & _). apply andb_prop in X as (X & _). unfold gen_x_ok in X. rewrite forallb_forall in X. specialize (X _ H). cbn [fst snd] in X. rewrite A in X.
  rewrite !andb_true_iff in X. tauto.
Qed.
Lemma load_x m l : In (m, l) Layout.load_models -> forall c, assoc load_class m = Some c ->
  x_ok l c = true /\ only_src (c_store c) "bus_id" (I 0) = true /\ only_src (c_store c) "id" (Tag 2) = true /\ only_src (c_store c) "model" (Up (load_pos m)) = true /\ sets_always (c_store c) "model" = true.
Proof.
  intros H c A. pose proof all_x_ok as X. apply andb_prop in X as (_ & X). unfold load_x_ok in X. rewrite forallb_forall in X. specialize (X _ H). cbn [fst snd] in X. rewrite A in X.
  rewrite !andb_true_iff in X. tauto.
Qed.
Lemma relay_x m l : In (m, l) Layout.relay_models -> forall c, assoc relay_class m = Some c -> x_ok l c = true.
Proof.
  intros H c A. pose proof all_x_ok as X. apply andb_prop in X as (X & _). apply andb_prop in X as (_ & X). unfold relay_x_ok in X. apply andb_true_iff in X as (X & _). rewrite forallb_forall in X. specialize (X _ H). cbn [fst snd] in X. rewrite A in X. exact X.
Qed.
Lemma bus_eval toks p b : bus_of p toks = Ok b -> eval atof trunc toks (I p) = Ok (VInt b).
Proof. unfold bus_of. cbn [eval]. destruct (token toks p); cbn [obind]; try discriminate. now intros ->. Qed.
Lemma tag_eval toks t : tag_of toks = Ok t -> eval atof trunc toks (Tag 2) = Ok (VString t).
Proof. unfold tag_of. cbn [eval]. destruct (token toks 2) as [s| |]; cbn [obind]; try discriminate. destruct (clean2char s); cbn [obind]; try discriminate. congruence. Qed.
Lemma model_eval toks m : model_of toks = Ok m -> eval atof trunc toks (Up 1) = Ok (VString m).
Proof. unfold model_of. cbn [eval]. destruct (token toks 1) as [s| |]; cbn [obind]; try discriminate. destruct (trim_quotes s); cbn [obind]; try discriminate. congruence. Qed.
Lemma put_field_ok cap s f v s' : put_field cap s f v = Ok s' -> s' = ((f, v) :: s)%list.
Proof. unfold put_field. destruct (fits cap f v); congruence. Qed.

Lemma vec_gens v r v' : vec_record atof trunc v r = Ok v' ->
  (v_gens v' = v_gens v /\ (forall toks m l b tag, tokens r = Ok toks -> ~ generator_record toks m l b tag)) \/ exists s, v_gens v' = (v_gens v ++ [s])%list /\ gen_struct r s.
Proof.
  unfold vec_record. intros H. destruct (tokens r) as [toks| |] eqn:T; cbn [obind] in H; try discriminate.
  destruct (model_of toks) as [m| |] eqn:M; cbn [obind] in H; try discriminate.
  destruct (on_generator m) eqn:O.
  - right. destruct (bus_of 0 toks) as [b| |] eqn:B; cbn [obind] in H; try discriminate. destruct (tag_of toks) as [tag| |] eqn:Tg; cbn [obind] in H; try discriminate.
    destruct (put_field 7 _ _ _) as [s1| |] eqn:P; cbn [obind] in H; try discriminate. apply put_field_ok in P.
    destruct (on_generator_listed m O) as (l & L). destruct (gen_facts atof trunc L) as (c & A & _). rewrite A in H.
    destruct (store _ _ _ _ _ _) as [s| |] eqn:St; cbn [obind] in H; try discriminate. inversion H; subst v'. exists s. split; auto.
    destruct (@gen_x _ _ L c A) as (_ & X1 & X2 & X3).
    exists toks, m, c, l, b, tag, (("model", VString m) :: s1)%list. split; auto. split; [split; auto; split; [now apply model_of_name|]; split; [now apply bus_of_number | now apply tag_of_ident]|]. split; auto. split; auto. subst s1.
    split; [|split].
    + eapply (@store_keeps 7 toks "bus_id" (I 0)); eauto using bus_eval.
    + eapply (@store_keeps 7 toks "gen_id" (Tag 2)); eauto using tag_eval.
    + eapply (@store_keeps 7 toks "model" (Up 1)); eauto using model_eval.
  - left. split.
    + destruct (on_bus m).
      { destruct (bus_of _ toks); cbn [obind] in H; try discriminate. destruct (match assoc relay_class m with Some _ => _ | None => _ end); cbn [obind] in H; try discriminate. inversion H; auto. }
      destruct (on_load m).
      { destruct (bus_of 0 toks); cbn [obind] in H; try discriminate. destruct (tag_of toks); cbn [obind] in H; try discriminate. destruct (put_field _ _ _ _); cbn [obind] in H; try discriminate.
        destruct (load_device m toks) as [dev| |]; cbn [obind] in H; try discriminate. destruct (match assoc load_class dev with Some _ => _ | None => _ end); cbn [obind] in H; try discriminate. inversion H; auto. }
      destruct (on_branch m); [|inversion H; auto].
      destruct (bus_of 0 toks); cbn [obind] in H; try discriminate. destruct (bus_of 3 toks); cbn [obind] in H; try discriminate. destruct (store _ _ _ _ _ _); cbn [obind] in H; try discriminate. inversion H; auto.
    + intros toks' m' l b tag E (L & N & _). inversion E; subst toks'. apply model_of_name in N. assert (m' = m) by congruence. subst. apply listed_on_generator in L. congruence.
Qed.
Lemma vec_loads v r v' : vec_record atof trunc v r = Ok v' ->
  (v_loads v' = v_loads v /\ (forall toks m l b tag, tokens r = Ok toks -> ~ load_record toks m l b tag)) \/ exists s, v_loads v' = (v_loads v ++ [s])%list /\ load_struct r s.
Proof.
  unfold vec_record. intros H. destruct (tokens r) as [toks| |] eqn:T; cbn [obind] in H; try discriminate.
  destruct (model_of toks) as [m| |] eqn:M; cbn [obind] in H; try discriminate.
  assert (NL : on_load m = false -> forall toks' m' l b tag, Ok toks = Ok toks' -> ~ load_record toks' m' l b tag).
  { intros O toks' m' l b tag E R. inversion E; subst toks'. destruct (record_load_device R) as (m1 & M1 & O1 & _). congruence. }
  destruct (on_generator m) eqn:O1.
  { left. split; [|apply NL; clear -O1; destruct (on_load m) eqn:Q; auto; unfold on_load in Q; apply mem_In in Q; destruct Q as [<-|[<-|[<-|[]]]]; discriminate O1].
    destruct (bus_of 0 toks); cbn [obind] in H; try discriminate. destruct (tag_of toks); cbn [obind] in H; try discriminate. destruct (put_field _ _ _ _); cbn [obind] in H; try discriminate.
    destruct (match assoc gen_class m with Some _ => _ | None => _ end); cbn [obind] in H; try discriminate. inversion H; auto. }
  destruct (on_bus m) eqn:O2.
  { left. split; [|apply NL; clear -O2; destruct (on_load m) eqn:Q; auto; unfold on_load in Q; apply mem_In in Q; destruct Q as [<-|[<-|[<-|[]]]]; discriminate O2].
    destruct (bus_of _ toks); cbn [obind] in H; try discriminate. destruct (match assoc relay_class m with Some _ => _ | None => _ end); cbn [obind] in H; try discriminate. inversion H; auto. }
  destruct (on_load m) eqn:O3.
  { right. destruct (bus_of 0 toks) as [b| |] eqn:B; cbn [obind] in H; try discriminate. destruct (tag_of toks) as [tag| |] eqn:Tg; cbn [obind] in H; try discriminate.
    destruct (put_field 8 _ _ _) as [s1| |] eqn:P; cbn [obind] in H; try discriminate. apply put_field_ok in P.
    destruct (load_device m toks) as [dev| |] eqn:LD; cbn [obind] in H; try discriminate.
    destruct (assoc load_class dev) as [c|] eqn:A.
    - destruct (store _ _ _ _ _ _) as [s| |] eqn:St; cbn [obind] in H; try discriminate. inversion H; subst v'. exists s. split; auto.
      destruct (@load_device_listed _ _ A) as (l & L). destruct (@load_x _ _ L c A) as (_ & X1 & X2 & X3 & X4). subst s1.
      exists toks, b, tag. split; auto. split; [|split].
      + eapply (@store_keeps 8 toks "bus_id" (I 0)); eauto using bus_eval.
      + eapply (@store_keeps 8 toks "id" (Tag 2)); eauto using tag_eval.
      + right. exists dev, c, l, [("id", VString tag); ("bus_id", VInt b)]. pose proof (@load_device_record _ _ _ _ _ _ M O3 LD L B Tg) as R. repeat (split; auto).
        destruct (@store_sets 8 toks "model" _ _ X3 X4 _ _ St) as (w & W & G). rewrite G. f_equal.
        destruct R as (_ & _ & _ & [(I & N)|(I & _ & x & t & N & Tq & E)]).
        * assert (load_pos dev = 1) as Lp by (destruct I as [<-|[<-|[]]]; reflexivity). rewrite Lp in W. apply model_of_name in N. rewrite (@model_eval _ _ N) in W. congruence.
        * assert (load_pos dev = 3) as Lp by (destruct I as [<-|[<-|[]]]; reflexivity). rewrite Lp in W. cbn [eval] in W. unfold token in W. rewrite N in W. cbn [obind] in W. rewrite Tq in W. cbn [obind] in W.
          assert (Cp : map upper_c t = t).
          { assert (t = list_ascii_of_string dev) as -> by (rewrite E; now rewrite list_ascii_of_string_of_list_ascii). destruct I as [<-|[<-|[]]]; reflexivity. }
          rewrite Cp in W. change (text t) with (string_of_list_ascii t) in W. rewrite <- E in W. congruence.
    - cbn [obind] in H. inversion H; subst v'. exists s1. split; auto. subst s1. exists toks, b, tag. repeat (split; auto). }
  left. split; [|now apply NL].
  destruct (on_branch m); [|inversion H; auto].
  destruct (bus_of 0 toks); cbn [obind] in H; try discriminate. destruct (bus_of 3 toks); cbn [obind] in H; try discriminate. destruct (store _ _ _ _ _ _); cbn [obind] in H; try discriminate. inversion H; auto.
Qed.
End Values.

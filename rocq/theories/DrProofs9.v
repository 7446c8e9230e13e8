(** Proofs for the reading of dynamic model records: what getDS leaves alone, and witnesses for the parameters it gets
    wrong. *)
From Verif Require Import Prelude DCModel DCSpec DCProofs StrModel DrModel DrTables DrModel2 DrSpec DrProofs DrProofs2 DrProofs3 DrProofs4 DrProofs5 DrProofs6 DrProofs7 DrProofs8.
From Coq Require Import Ascii.
Open Scope string_scope.

(** ** Entries no record may change *)
Definition other_key (k : string) : Prop := k <> "RELAY_NUMBER" /\ forall a i, In a documented -> small i -> k <> ikey a i.
Lemma in_documented ls m (l : list field) a : (forall p, In p ls -> In p (Layout.generator_models ++ Layout.relay_models ++ Layout.branch_relay_models ++ Layout.load_models)%list) -> In (m, l) ls -> In a (map f_key l) -> In a documented.
Proof. intros H L A. unfold documented. apply in_flat_map. exists (m, l). split; auto. Qed.
Lemma rkeys_documented a : In a rkeys -> In a documented.
Proof.
  unfold rkeys, relay_keys, keys. intros H. apply in_app_or in H as [H|H]; apply in_flat_map in H as ((m & l) & L & A); (eapply in_documented; [|exact L|exact A]);
    intros p Hp; rewrite !in_app_iff; auto.
Qed.
Lemma other_plain k : (forall c, In c (list_ascii_of_string k) -> c <> ":"%char) -> k <> "RELAY_NUMBER" -> other_key k.
Proof.
  intros H N. split; auto. intros a i _ _ ->. apply (H ":"%char); auto. unfold ikey. clear H N.
  induction a as [|x a IH]; [cbn; auto|]. cbn [append list_ascii_of_string]. right. exact IH.
Qed.
Section Frame.
Variable atof : str -> Z.
Variable trunc : Z -> outcome Z.
Lemma step_other r b d d' k : step atof trunc r b d d' -> other_key k -> forall t, find_key d' t k = find_key d t k.
Proof.
  intros (toks & m & T & M & C) (K1 & K2) t. destruct C as [(O & B & H)|[H|[(O & B & H)|H]]].
  - apply on_gen_cases in H as [->|(l & g & L & _ & S & F)]; auto. apply F. intros a A. apply K2; auto. eapply in_documented; [|exact L|exact A]. intros p Hp; rewrite !in_app_iff; auto.
  - destruct (@step_relay atof trunc r b d d' toks m T M (or_introl H)) as (S & F). apply F; auto. intros a A. apply K2; auto using rkeys_documented.
  - apply on_ld_cases in H as [->|(dev & l & g & _ & L & _ & S & F)]; auto. apply F. intros a A. apply K2; auto. eapply in_documented; [|exact L|exact A]. intros p Hp; rewrite !in_app_iff; auto.
  - destruct (@step_relay atof trunc r b d d' toks m T M (or_intror H)) as (S & F). apply F; auto. intros a A. apply K2; auto using rkeys_documented.
Qed.
Lemma ds_records_other k rs : other_key k -> forall n n' b d, ds_records atof trunc n rs = Ok n' -> bus_dc (n_buses n) b = Some d ->
  exists d', bus_dc (n_buses n') b = Some d' /\ forall t, find_key d' t k = find_key d t k.
Proof.
  intros K. induction rs as [|r rs IH]; intros n n' b d H B; cbn [ds_records] in H.
  - inversion H; subst. eauto.
  - destruct (ds_record atof trunc n r) as [n1| |] eqn:E; cbn [obind] in H; try discriminate.
    destruct (@ds_record_step atof trunc _ _ _ _ _ E B) as (d1 & B1 & S1). destruct (IH _ _ _ _ H B1) as (d2 & B2 & F2).
    exists d2. split; auto. intros t. rewrite F2. destruct S1 as [->|S1]; auto. eapply step_other; eauto.
Qed.
(** A bus for which there is no record keeps its data collection, if no record is for a branch. *)
Lemma ds_records_idle rs : forall n n' b d, ds_records atof trunc n rs = Ok n' -> bus_dc (n_buses n) b = Some d -> (forall r, In r rs -> no_distr r) ->
  (forall r toks p, In r rs -> tokens r = Ok toks -> p = 0%nat \/ p = 3%nat -> ~ number toks p b) -> bus_dc (n_buses n') b = Some d.
Proof.
  induction rs as [|r rs IH]; intros n n' b d H B ND N; cbn [ds_records] in H; [inversion H; now subst|].
  destruct (ds_record atof trunc n r) as [n1| |] eqn:E; cbn [obind] in H; try discriminate.
  destruct (@ds_record_step atof trunc _ _ _ _ _ E B) as (d1 & B1 & S1).
  assert (d1 = d).
  { destruct S1 as [->|(toks & m & T & M & C)]; auto. exfalso. pose proof (N r toks) as Nr. assert (I : In r (r :: rs)) by (left; auto).
    destruct C as [(_ & Bo & _)|[(c & _ & Bo & _)|[(_ & Bo & _)|(O & _)]]].
    - apply bus_of_number in Bo. apply (Nr 0%nat I T (or_introl eq_refl) Bo).
    - apply bus_of_number in Bo. destruct (String.eqb m "LVSHBL"); [apply (Nr 0%nat I T (or_introl eq_refl) Bo) | exact (Nr 3%nat I T (or_intror eq_refl) Bo)].
    - apply bus_of_number in Bo. apply (Nr 0%nat I T (or_introl eq_refl) Bo).
    - unfold on_branch in O. apply mem_In in O. destruct O as [<-|[]]. apply (ND r I toks T). now apply model_of_name. }
  subst d1. eapply IH; eauto; intros; [apply ND; right; auto | eapply N; eauto; right; auto].
Qed.
End Frame.

(** ** Witnesses *)
Definition at0 (s : str) : Z := match atoi s with Ok z => z | _ => 0%Z end.
Definition tr0 (z : Z) : outcome Z := Ok z.
Fixpoint nums (base p n : nat) : string :=
  match n with O => "/" | 1 => dec (Z.of_nat (base + p)) ++ " /" | S n' => dec (Z.of_nat (base + p)) ++ "," ++ nums base (S p) n' end.
(** A record for bus 1 of [n] words; word p is the number base + p. *)
Definition a_line (m : string) (base n : nat) : str :=
  list_ascii_of_string (if mem m ["ACMTBLU1"; "CMLDBLU1"] then "1,'USRLOD',1,'" ++ m ++ "'," ++ nums base 4 (n - 4)
                        else if String.eqb m "DISTR1" then "1,'DISTR1',2," ++ nums base 3 (n - 3)
                        else "1,'" ++ m ++ "',1," ++ nums base 3 (n - 3)).
(** A bus with one generator and one load. *)
Definition one_bus : dc := add_key (add_key (add_key (add_key dc_empty "GENERATOR_NUMBER" (VInt 1)) "LOAD_NUMBER" (VInt 1)) "GENERATOR_ID:0" (VString "1 ")) "LOAD_ID:0" (VString "1 ").
Definition value_eqb (a b : value) : bool :=
  match a, b with
  | VInt x, VInt y | VLong x, VLong y | VFloat x, VFloat y | VDouble x, VDouble y => (x =? y)%Z
  | VBool x, VBool y => Bool.eqb x y
  | VString x, VString y => String.eqb x y
  | VComplex a b, VComplex c e => ((a =? c) && (b =? e))%Z
  | _, _ => false
  end.
Lemma value_eqb_refl a : value_eqb a a = true.
Proof. destruct a; cbn; rewrite ?Z.eqb_refl, ?String.eqb_refl, ?Bool.eqb_reflx; reflexivity. Qed.
Definition all_models := (Layout.generator_models ++ Layout.relay_models ++ Layout.branch_relay_models ++ Layout.load_models)%list.
Definition the_field (ls : list (string * list field)) (p : string * string) : option (list field * field) :=
  match find (fun q => String.eqb (fst q) (fst p)) ls with
  | Some (_, l) => match find (fun f => String.eqb (f_key f) (snd p)) l with Some f => Some (l, f) | None => None end
  | None => None end.
Lemma the_field_spec ls m k l f : the_field ls (m, k) = Some (l, f) -> In (m, l) ls /\ In f l /\ f_key f = k.
Proof.
  unfold the_field. cbn [fst snd]. destruct (find _ ls) as [(a & l')|] eqn:F; [|discriminate]. destruct (find _ l') as [f'|] eqn:G; [|discriminate].
  intros H. inversion H; subst. apply find_some in F as (F1 & F2), G as (G1 & G2). apply String.eqb_eq in F2, G2. cbn in F2. now subst.
Qed.
(** The value of the field in the record, if the collection does not hold it at index 0. *)
Definition missed (d : dc) (f : field) (toks : list str) : bool :=
  match eval at0 tr0 toks (f_src f), find_key d (f_type f) (ikey (f_key f) 0) with Ok v, Some w => negb (value_eqb v w) | Ok v, None => true | _, _ => false end.
Lemma missed_spec d f toks : plain_type f = true -> missed d f toks = true -> exists v, reads at0 toks f v /\ ~ holds d f 0 v.
Proof.
  unfold missed. intros P H. destruct (eval at0 tr0 toks (f_src f)) as [v| |] eqn:E; try discriminate. exists v. split; [now apply (@reads_eval at0 tr0)|].
  intros Hh. apply holds_find in Hh; [|vm_compute; lia]. rewrite Hh in H. now rewrite value_eqb_refl in H.
Qed.
Definition is_device (d : dc) (nk ik : string) : bool :=
  match find_key d TInt nk, find_key d TString (ikey ik 0) with Some (VInt n), Some (VString t) => (n =? 1)%Z && String.eqb t "1 " | _, _ => false end.
Lemma is_device_spec d nk ik : is_device d nk ik = true -> device d nk ik "1 " 0.
Proof.
  unfold is_device. destruct (find_key d TInt nk) as [[n| | | | | |]|] eqn:N; try discriminate. destruct (find_key d TString (ikey ik 0)) as [[ | | |t| | |]|] eqn:I; try discriminate.
  intros H. apply andb_prop in H as (H1 & H2). apply Z.eqb_eq in H1. apply String.eqb_eq in H2. subst. split; [discriminate|]. split.
  - exists 1%Z. split; [|lia]. intros old. unfold get_value. cbn [key_of obind]. now rewrite N.
  - split; [|intros; lia]. apply get_of_find; auto. vm_compute. lia.
Qed.
Definition at_word {A} (o : outcome A) (p : A -> bool) : bool := match o with Ok x => p x | _ => false end.
Lemma at_word_spec {A} (o : outcome A) p : at_word o p = true -> exists x, o = Ok x /\ p x = true.
Proof. destruct o; cbn; try discriminate. eauto. Qed.
Definition is_gen (toks : list str) (m : string) : bool :=
  at_word (model_of toks) (String.eqb m) && at_word (bus_of 0 toks) (Z.eqb 1) && at_word (tag_of toks) (String.eqb "1 ").
Definition is_load (toks : list str) (m : string) : bool :=
  at_word (model_of toks) (fun m1 => on_load m1 && at_word (load_device m1 toks) (String.eqb m)) && at_word (bus_of 0 toks) (Z.eqb 1) && at_word (tag_of toks) (String.eqb "1 ").
Lemma is_gen_spec toks m l : In (m, l) Layout.generator_models -> is_gen toks m = true -> generator_record toks m l 1 "1 ".
Proof.
  intros L H. apply andb_prop in H as (H & H3). apply andb_prop in H as (H1 & H2). apply at_word_spec in H1 as (x & A & E). apply at_word_spec in H2 as (y & B & E2). apply at_word_spec in H3 as (z & C & E3).
  apply String.eqb_eq in E, E3. apply Z.eqb_eq in E2. subst. split; auto. split; [now apply model_of_name|]. split; [now apply bus_of_number | now apply tag_of_ident].
Qed.
Lemma is_load_spec toks m l : In (m, l) Layout.load_models -> is_load toks m = true -> load_record toks m l 1 "1 ".
Proof.
  intros L H. apply andb_prop in H as (H & H3). apply andb_prop in H as (H1 & H2). apply at_word_spec in H1 as (x & A & E). apply at_word_spec in H2 as (y & B & E2). apply at_word_spec in H3 as (z & C & E3).
  apply andb_prop in E as (O & E). apply at_word_spec in E as (dev & Dv & E). apply String.eqb_eq in E, E3. apply Z.eqb_eq in E2. subst. eapply load_device_record; eauto.
Qed.
Lemma line_record ext x : has slash x = true -> skipped ext x = false -> record_lines ext [x] (before slash x).
Proof.
  intros H S. apply has_spec in H. apply in_split in H as (u & w & H). assert (exists a c, x = (a ++ slash :: c)%list /\ ~ In slash a) as (a & c & -> & N).
  { clear S. revert u H. induction x as [|y x IH]; intros u H; [destruct u; discriminate|]. destruct (ascii_dec y slash) as [->|Ny]; [exists [], x; auto|].
    destruct u as [|y' u]; cbn in H; inversion H; subst; [congruence|]. destruct (IH u eq_refl) as (a & c & E & N). exists (y' :: a)%list, c. rewrite E. split; auto. intros [Q|Q]; auto. }
  rewrite before_spec; auto. exists [], (a ++ slash :: c)%list, c. repeat split; auto.
  - cbn. now rewrite app_nil_r.
  - apply in_or_app. right. left. reflexivity.
  - intros Q. apply skipped_spec in Q. congruence.
Qed.
(** One line for bus 1 with data [d0], read by getDS. *)
Definition bad_get (d0 : dc) (x : str) (p : string * string) : bool :=
  has slash x && negb (skipped false x) &&
  at_word (tokens (before slash x)) (fun toks =>
    match get_ds at0 tr0 [(1%Z, d0)] [] [x] with
    | Some (Ok n) => match bus_dc (n_buses n) 1 with
        | Some d =>
            (match the_field Layout.generator_models p with Some (l, f) => is_gen toks (fst p) && is_device d0 "GENERATOR_NUMBER" "GENERATOR_ID" && (f_pos f <? length toks)%nat && plain_type f && missed d f toks | None => false end) ||
            (match the_field Layout.load_models p with Some (l, f) => is_load toks (fst p) && is_device d0 "LOAD_NUMBER" "LOAD_ID" && (f_pos f <? length toks)%nat && plain_type f && missed d f toks | None => false end)
        | None => false end
    | _ => false end).
Lemma andb_true_split a b : a && b = true -> a = true /\ b = true.
Proof. apply andb_prop. Qed.
Lemma bad_get_spec d0 x m k : bad_get d0 x (m, k) = true -> exists r toks l f n d v,
  record_lines false [x] r /\ words r toks /\
  (generator_record toks m l 1 "1 " /\ generator d0 "1 " 0 \/ load_record toks m l 1 "1 " /\ load d0 "1 " 0) /\
  In f l /\ f_key f = k /\ (f_pos f < length toks)%nat /\
  get_ds at0 tr0 [(1%Z, d0)] [] [x] = Some (Ok n) /\ bus_dc (n_buses n) 1 = Some d /\ reads at0 toks f v /\ ~ holds d f 0 v.
Proof.
  unfold bad_get. intros H. apply andb_prop in H as (H & T). apply andb_prop in H as (H1 & H2). apply negb_true_iff in H2. apply at_word_spec in T as (toks & T & Q).
  destruct (get_ds _ _ _ _ _) as [[n| |]|]; try discriminate. destruct (bus_dc (n_buses n) 1) as [d|] eqn:B; [|discriminate].
  exists (before slash x), toks. apply orb_prop in Q as [Q|Q].
  - destruct (the_field Layout.generator_models (m, k)) as [(l & f)|] eqn:F; [|discriminate]. apply the_field_spec in F as (F1 & F2 & F3).
    apply andb_prop in Q as (Q & Q5). apply andb_prop in Q as (Q & Q4). apply andb_prop in Q as (Q & Q3). apply andb_prop in Q as (Q1 & Q2). destruct (@missed_spec _ _ _ Q4 Q5) as (v & V1 & V2).
    exists l, f, n, d, v. split; [now apply line_record|]. split; [exact T|]. split; [left; split; [now apply is_gen_spec | now apply is_device_spec]|]. apply Nat.ltb_lt in Q3. repeat (split; auto).
  - destruct (the_field Layout.load_models (m, k)) as [(l & f)|] eqn:F; [|discriminate]. apply the_field_spec in F as (F1 & F2 & F3).
    apply andb_prop in Q as (Q & Q5). apply andb_prop in Q as (Q & Q4). apply andb_prop in Q as (Q & Q3). apply andb_prop in Q as (Q1 & Q2). destruct (@missed_spec _ _ _ Q4 Q5) as (v & V1 & V2).
    exists l, f, n, d, v. split; [now apply line_record|]. split; [exact T|]. split; [right; split; [now apply is_load_spec | now apply is_device_spec]|]. apply Nat.ltb_lt in Q3. repeat (split; auto).
Qed.
(** The data of bus 1 after getDS has read a line with other numbers. *)
Definition after (m : string) : dc :=
  match get_ds at0 tr0 [(1%Z, one_bus)] [] [a_line m 50 150] with Some (Ok n) => match bus_dc (n_buses n) 1 with Some d => d | None => one_bus end | _ => one_bus end.
Definition pos_in (p : string * string) : nat := match the_field all_models p with Some (_, f) => f_pos f | None => 0 end.
Definition tries (p : string * string) : list (dc * str) :=
  [(one_bus, a_line (fst p) 0 150); (one_bus, a_line (fst p) 0 (S (pos_in p))); (after (fst p), a_line (fst p) 0 150);
   (add_key one_bus (ikey (snd p) 0) (VInt 7), a_line (fst p) 0 150); (add_key one_bus (ikey (snd p) 0) (VDouble 7), a_line (fst p) 0 150);
   (add_key one_bus "GOVERNOR_GV5:0" (VDouble 7), a_line (fst p) 0 150)].
Lemma all_bad_get : forallb (fun p => existsb (fun y => bad_get (fst y) (snd y) p) (tries p)) parse_wrong = true.
Proof. vm_cast_no_check (eq_refl true). Qed.
Definition types := [TInt; TLong; TBool; TString; TFloat; TDouble; TComplex].
Definition is_unset (d : dc) (k : string) : bool := forallb (fun t => match find_key d t (ikey k 0) with None => true | _ => false end) types.
Lemma is_unset_spec d k : is_unset d k = true -> forall t old, get_value d t (Indexed k 0) old = Ok (false, old).
Proof.
  intros H t old. unfold is_unset in H. rewrite forallb_forall in H. assert (In t types) as I by (destruct t; cbn; auto 9). specialize (H t I).
  unfold get_value. rewrite key_small by (vm_compute; lia). cbn [obind]. destruct (find_key d t (ikey k 0)); [discriminate | reflexivity].
Qed.
Lemma all_bad_first : forallb (fun p => existsb (fun y => is_unset (fst y) (snd p) && bad_get (fst y) (snd y) p) (tries p)) parse_wrong_first = true.
Proof. vm_cast_no_check (eq_refl true). Qed.

(** One line brought to bus 1 by getDSExternal. *)
Definition all_read (toks : list str) (l : list field) : bool := forallb (fun f => plain_type f && at_word (eval at0 tr0 toks (f_src f)) (fun _ => true)) l.
Lemma all_read_spec toks l : all_read toks l = true -> complete at0 toks l.
Proof.
  intros H. unfold all_read in H. rewrite forallb_forall in H. apply Forall_forall. intros f I. specialize (H f I). apply andb_prop in H as (P & H). apply at_word_spec in H as (v & E & _).
  exists v. now apply (@reads_eval at0 tr0).
Qed.
Definition bad_ext (d0 : dc) (x : str) (p : string * string) : bool :=
  has slash x && negb (skipped true x) &&
  at_word (tokens (before slash x)) (fun toks =>
    match ds_vectors at0 tr0 [x] with
    | Some (Ok v) => at_word (bus_copy (for_bus 1 (v_gens v)) (for_bus 1 (v_relays v)) (for_bus 1 (v_loads v)) d0) (fun d =>
            (match the_field Layout.generator_models p with Some (l, f) => is_gen toks (fst p) && is_device d0 "GENERATOR_NUMBER" "GENERATOR_ID" && all_read toks l && plain_type f && missed d f toks | None => false end) ||
            (match the_field Layout.load_models p with Some (l, f) => is_load toks (fst p) && is_device d0 "LOAD_NUMBER" "LOAD_ID" && all_read toks l && plain_type f && missed d f toks | None => false end))
    | _ => false end).
Lemma bad_ext_spec d0 x m k : bad_ext d0 x (m, k) = true -> exists r toks l f v d w,
  record_lines true [x] r /\ words r toks /\
  (generator_record toks m l 1 "1 " /\ generator d0 "1 " 0 \/ load_record toks m l 1 "1 " /\ load d0 "1 " 0) /\
  complete at0 toks l /\ In f l /\ f_key f = k /\
  ds_vectors at0 tr0 [x] = Some (Ok v) /\ bus_copy (for_bus 1 (v_gens v)) (for_bus 1 (v_relays v)) (for_bus 1 (v_loads v)) d0 = Ok d /\ reads at0 toks f w /\ ~ holds d f 0 w.
Proof.
  unfold bad_ext. intros H. apply andb_prop in H as (H & T). apply andb_prop in H as (H1 & H2). apply negb_true_iff in H2. apply at_word_spec in T as (toks & T & Q).
  destruct (ds_vectors _ _ _) as [[v| |]|]; try discriminate. apply at_word_spec in Q as (d & B & Q).
  exists (before slash x), toks. apply orb_prop in Q as [Q|Q].
  - destruct (the_field Layout.generator_models (m, k)) as [(l & f)|] eqn:F; [|discriminate]. apply the_field_spec in F as (F1 & F2 & F3).
    apply andb_prop in Q as (Q & Q5). apply andb_prop in Q as (Q & Q4). apply andb_prop in Q as (Q & Q3). apply andb_prop in Q as (Q1 & Q2). destruct (@missed_spec _ _ _ Q4 Q5) as (w & V1 & V2).
    exists l, f, v, d, w. split; [now apply line_record|]. split; [exact T|]. split; [left; split; [now apply is_gen_spec | now apply is_device_spec]|]. apply all_read_spec in Q3. repeat (split; auto).
  - destruct (the_field Layout.load_models (m, k)) as [(l & f)|] eqn:F; [|discriminate]. apply the_field_spec in F as (F1 & F2 & F3).
    apply andb_prop in Q as (Q & Q5). apply andb_prop in Q as (Q & Q4). apply andb_prop in Q as (Q & Q3). apply andb_prop in Q as (Q1 & Q2). destruct (@missed_spec _ _ _ Q4 Q5) as (w & V1 & V2).
    exists l, f, v, d, w. split; [now apply line_record|]. split; [exact T|]. split; [right; split; [now apply is_load_spec | now apply is_device_spec]|]. apply all_read_spec in Q3. repeat (split; auto).
Qed.
Definition after_ext (m : string) : dc :=
  match ds_vectors at0 tr0 [a_line m 50 150] with Some (Ok v) => match bus_copy (v_gens v) (v_relays v) (v_loads v) one_bus with Ok d => d | _ => one_bus end | _ => one_bus end.
Definition xtries (p : string * string) : list (dc * str) := [(one_bus, a_line (fst p) 0 150); (after_ext (fst p), a_line (fst p) 0 150)].
Definition ext_wrong : list (string * string) := filter (fun p => negb (mem (fst p) ["PSSSIM"; "DISTR1"])) extern_wrong.
Lemma all_bad_ext : forallb (fun p => existsb (fun y => bad_ext (fst y) (snd y) p) (xtries p)) ext_wrong = true.
Proof. vm_cast_no_check (eq_refl true). Qed.

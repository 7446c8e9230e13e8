(** Properties of the RAW record loops (C21, C22, C44, C45). *)
From Verif Require Import Prelude StrModel DCModel DCSpec RecModel RecSpec RecProofs RecProofs2 RecProofs3 RecProofs4.
From Coq Require Import Ascii.
Open Scope nat_scope.

(** ** C45: a section is its records up to the terminating line *)
(** Whatever the parser does with a record, the section handles exactly the records of the lines before the first
    terminating line, in order, skipping comment lines, and leaves the stream after that line. *)
Theorem C45_section_is_its_records_partial :
  forall D (step : D -> list str -> outcome D) ls rs, reads ls rs ->
  forall fuel d d' term rest, test_end term = false -> steps step rs d = Ok d' -> length ls < fuel ->
    parse fuel step (ls ++ term :: rest)%list d = Some (Ok (d', rest)).
Proof. intros D step ls rs H. exact (parse_reads step H). Qed.
Print Assumptions C45_section_is_its_records_partial.
Example C45_nonvacuous :
  reads [s_ "// loads"; s_ " 1, 'A ', 1"; s_ "2 B 0"] [[s_ "1"; s_ "'A '"; s_ "1"]; [s_ "2"; s_ "B"; s_ "0"]] /\
  test_end (s_ "0 / END OF LOAD DATA") = false /\
  parse 9 (fun (d : list (list str)) r => Ok (d ++ [r])%list)
    [s_ "// loads"; s_ " 1, 'A ', 1"; s_ "2 B 0"; s_ "0 / END OF LOAD DATA"; s_ "next"] []
  = Some (Ok ([[s_ "1"; s_ "'A '"; s_ "1"]; [s_ "2"; s_ "B"; s_ "0"]], [s_ "next"])).
Proof. split; [apply records_reads; vm_compute; reflexivity|]. split; vm_compute; reflexivity. Qed.

(** A load, shunt or generator section that is not terminated before the end of the file never ends: at the end of the
    file the loop goes on with empty lines. *)
Theorem C45_unterminated_section_refuted :
  forall atof dv names bmap ls rs bs bs', zfind bmap 0%Z = None -> reads ls rs ->
    steps (dev_record atof dv names bmap) rs bs = Ok bs' ->
    forall fuel, parse fuel (dev_record atof dv names bmap) ls bs = None.
Proof.
  intros atof dv names bmap ls rs bs bs' H0 R S. apply (@parse_unended _ _ _ _ R) with (d' := bs'); [|exact S].
  intros d. unfold dev_record. cbn [field0 obind]. change (get_bus_index (sfind names) (s_ "0")) with (Ok 0%Z). cbn [obind].
  destruct (dv_skip_negative dv && (0 <? 0)%Z); [reflexivity|]. now rewrite H0.
Qed.
Print Assumptions C45_unterminated_section_refuted.
Example C45_unterminated_nonvacuous :
  reads [s_ " 1, 'A ', 1"] [[s_ "1"; s_ "'A '"; s_ "1"]] /\ zfind [(1%Z, 0)] 0%Z = None /\
  exists bs', steps (dev_record (fun _ => 0%Z) load33 [] [(1%Z, 0)]) [[s_ "1"; s_ "'A '"; s_ "1"]] [dc_empty] = Ok bs'.
Proof.
  split; [apply records_reads; vm_compute; reflexivity|]. split; [reflexivity|]. eexists. vm_compute. reflexivity.
Qed.

(** ** C44: the bus section *)
Theorem C44_bus_section :
  forall atof sbase case_id start ls rs, reads ls rs -> Forall bus_readable rs ->
  exists b,
    (* one collection per record, in file order, holding exactly its fields *)
    Forall2 (holds_bus atof sbase case_id) rs (bu_data b) /\
    (* a bus number finds the first record with this number *)
    (forall z, zfind (bu_map b) z = first_at (has_number z) rs) /\
    (* a name finds the first record with this name *)
    (forall n, sfind (bu_names b) n = bind_opt (first_at (has_text n) rs) (fun i => option_map Z.abs (number_at rs i))) /\
    bu_max b = largest start rs /\
    forall fuel term rest, test_end term = false -> length ls < fuel ->
      parse fuel (bus_record atof sbase case_id) (ls ++ term :: rest)%list (Build_buses [] [] [] 0 start) = Some (Ok (b, rest)).
Proof.
  intros atof sbase case_id start ls rs R F. destruct (bus_steps atof sbase case_id start F) as (b & Eb & I1 & _ & I2 & I3 & I4).
  exists b. repeat (split; [assumption|]). intros fuel term rest T L. eapply parse_reads; eassumption.
Qed.
Print Assumptions C44_bus_section.
Definition ex_buses : list str := [s_ "1,'ALPHA       ', 138.0, 3, 1, 1, 7"; s_ "// second"; s_ "12,'BETA', 69.0, 1"; s_ "-4 'GAMMA' 13.8 1"].
Definition ex_bus_records : list (list str) :=
  [[s_ "1"; s_ "'ALPHA       '"; s_ "138.0"; s_ "3"; s_ "1"; s_ "1"; s_ "7"]; [s_ "12"; s_ "'BETA'"; s_ "69.0"; s_ "1"];
   [s_ "-4"; s_ "'GAMMA'"; s_ "13.8"; s_ "1"]].
Example C44_nonvacuous :
  reads ex_buses ex_bus_records /\ Forall bus_readable ex_bus_records /\
  first_at (has_number 12) ex_bus_records = Some 1 /\ first_at (has_text (s_ "GAMMA")) ex_bus_records = Some 2 /\
  largest 0 ex_bus_records = 12%Z.
Proof.
  split; [apply records_reads; vm_compute; reflexivity|].
  split; [|repeat split; vm_compute; reflexivity].
  unfold ex_bus_records. repeat (constructor; [apply bus_readableb_ok; vm_compute; reflexivity|]). constructor.
Qed.
(** A bus with a negative number is stored under it, but every reference is made positive: nothing can be attached. *)
Theorem C44_negative_bus_refuted :
  (exists b, parse 9 (bus_record (fun _ => 0%Z) 0%Z 0%Z) (ex_buses ++ [s_ "0"]) (Build_buses [] [] [] 0 0) = Some (Ok (b, [])) /\
             zfind (bu_map b) (-4)%Z = Some 2 /\ zfind (bu_map b) 4%Z = None) /\
  (forall names, get_bus_index names (s_ "-4") = Ok 4%Z).
Proof. split; [|reflexivity]. eexists. split; [vm_compute; reflexivity|]. split; reflexivity. Qed.
Print Assumptions C44_negative_bus_refuted.

(** ** C22: devices on buses *)
Theorem C22_load_section :
  forall atof names bmap bs ls rs, bus_map_ok bmap (length bs) ->
    Forall (fresh ("LOAD_NUMBER" :: flat_map item_names load_layout)) bs -> reads ls rs -> attachable load_layout names bmap rs ->
  exists bs', attached atof load_layout "LOAD_NUMBER" names bmap rs bs bs' /\
    forall fuel term rest, test_end term = false -> length ls < fuel ->
      parse fuel (dev_record atof load33 names bmap) (ls ++ term :: rest)%list bs = Some (Ok (bs', rest)).
Proof. intros atof names bmap bs ls rs. apply (@dev_section atof load33 _ names bmap bs ls rs load_compiles); vm_compute; reflexivity. Qed.
Print Assumptions C22_load_section.
Theorem C22_fixed_shunt_section :
  forall atof names bmap bs ls rs, bus_map_ok bmap (length bs) ->
    Forall (fresh ("SHUNT_NUMBER" :: flat_map item_names shunt_layout)) bs -> reads ls rs -> attachable shunt_layout names bmap rs ->
  exists bs', attached atof shunt_layout "SHUNT_NUMBER" names bmap rs bs bs' /\
    forall fuel term rest, test_end term = false -> length ls < fuel ->
      parse fuel (dev_record atof fixed_shunt33 names bmap) (ls ++ term :: rest)%list bs = Some (Ok (bs', rest)).
Proof. intros atof names bmap bs ls rs. apply (@dev_section atof fixed_shunt33 _ names bmap bs ls rs shunt_compiles); vm_compute; reflexivity. Qed.
Print Assumptions C22_fixed_shunt_section.
Theorem C22_generator_section_33 :
  forall atof one zero names bmap bs ls rs, bus_map_ok bmap (length bs) ->
    Forall (fresh ("GENERATOR_NUMBER" :: flat_map item_names (gen33_layout one zero))) bs -> reads ls rs ->
    attachable (gen33_layout one zero) names bmap rs ->
  exists bs', attached atof (gen33_layout one zero) "GENERATOR_NUMBER" names bmap rs bs bs' /\
    forall fuel term rest, test_end term = false -> length ls < fuel ->
      parse fuel (dev_record atof (gen33 one zero) names bmap) (ls ++ term :: rest)%list bs = Some (Ok (bs', rest)).
Proof.
  intros atof one zero names bmap bs ls rs.
  apply (@dev_section atof (gen33 one zero) _ names bmap bs ls rs (gen33_compiles one zero)); vm_compute; reflexivity.
Qed.
Print Assumptions C22_generator_section_33.
Theorem C22_generator_section_34 :
  forall atof one zero names bmap bs ls rs, bus_map_ok bmap (length bs) ->
    Forall (fresh ("GENERATOR_NUMBER" :: flat_map item_names (gen34_layout one zero))) bs -> reads ls rs ->
    attachable (gen34_layout one zero) names bmap rs ->
  exists bs', attached atof (gen34_layout one zero) "GENERATOR_NUMBER" names bmap rs bs bs' /\
    forall fuel term rest, test_end term = false -> length ls < fuel ->
      parse fuel (dev_record atof (gen34 one zero) names bmap) (ls ++ term :: rest)%list bs = Some (Ok (bs', rest)).
Proof.
  intros atof one zero names bmap bs ls rs.
  apply (@dev_section atof (gen34 one zero) _ names bmap bs ls rs (gen34_compiles one zero)); vm_compute; reflexivity.
Qed.
Print Assumptions C22_generator_section_34.
Theorem C22_generator_section_35 :
  forall atof one zero names bmap bs ls rs, bus_map_ok bmap (length bs) ->
    Forall (fresh ("GENERATOR_NUMBER" :: flat_map item_names (gen35_layout one zero))) bs -> reads ls rs ->
    attachable (gen35_layout one zero) names bmap rs ->
  exists bs', attached atof (gen35_layout one zero) "GENERATOR_NUMBER" names bmap rs bs bs' /\
    forall fuel term rest, test_end term = false -> length ls < fuel ->
      parse fuel (dev_record atof (gen35 one zero) names bmap) (ls ++ term :: rest)%list bs = Some (Ok (bs', rest)).
Proof.
  intros atof one zero names bmap bs ls rs.
  apply (@dev_section atof (gen35 one zero) _ names bmap bs ls rs (gen35_compiles one zero)); vm_compute; reflexivity.
Qed.
Print Assumptions C22_generator_section_35.
(** A file with a bus section followed by a load section: the hypotheses on the buses hold. *)
Theorem C22_after_bus_section :
  forall atof sbase case_id start lb rb tb ll rl tl rest fuel,
    reads lb rb -> Forall bus_readable rb -> test_end tb = false -> reads ll rl -> test_end tl = false ->
    length lb < fuel -> length ll < fuel ->
  exists b, parse fuel (bus_record atof sbase case_id) (lb ++ tb :: ll ++ tl :: rest)%list (Build_buses [] [] [] 0 start)
              = Some (Ok (b, (ll ++ tl :: rest)%list)) /\
    (attachable load_layout (bu_names b) (bu_map b) rl ->
     exists bs', attached atof load_layout "LOAD_NUMBER" (bu_names b) (bu_map b) rl (bu_data b) bs' /\
       parse fuel (dev_record atof load33 (bu_names b) (bu_map b)) (ll ++ tl :: rest)%list (bu_data b) = Some (Ok (bs', rest))).
Proof.
  intros atof sbase case_id start lb rb tb ll rl tl rest fuel R1 F T1 R2 T2 L1 L2.
  destruct (bus_steps atof sbase case_id start F) as (b & Eb & I). exists b. split; [eapply parse_reads; eassumption|]. intros A.
  destruct (@C22_load_section atof (bu_names b) (bu_map b) (bu_data b) ll rl) as (bs' & H1 & H2); auto.
  - eapply bus_map_good; exact I.
  - destruct I as [I _]. clear -I. induction I as [|r d rs ds H _ IH]; constructor; [|exact IH].
    eapply bus_fresh; [exact H|]. intros x Hx Hy. revert x Hx Hy.
    assert (forallb (fun x => negb (existsb (String.eqb x) ("BUS_NUMBER" :: "CASE_SBASE" :: "CASE_ID" :: "BUS_NAME" :: map (fun x => snd (fst x)) bus_layout)%string))
      ("LOAD_NUMBER" :: flat_map item_names load_layout)%string = true) as X by (vm_compute; reflexivity).
    rewrite forallb_forall in X. intros x Hx Hy. specialize (X x Hx). apply negb_true_iff in X.
    assert (existsb (String.eqb x) ("BUS_NUMBER" :: "CASE_SBASE" :: "CASE_ID" :: "BUS_NAME" :: map (fun x => snd (fst x)) bus_layout)%string = true); [|congruence].
    apply existsb_exists. exists x. split; [exact Hy|apply String.eqb_refl].
  - exists bs'. auto.
Qed.
Print Assumptions C22_after_bus_section.
Definition ex_loads : list str := [s_ "12, '1', 1, 1, 1, 5.0, 1.0"; s_ "'ALPHA', 'A', 1"; s_ "99, '1', 1"; s_ "12 '2' 0"].
Definition ex_load_records : list (list str) :=
  [[s_ "12"; s_ "'1'"; s_ "1"; s_ "1"; s_ "1"; s_ "5.0"; s_ "1.0"]; [s_ "'ALPHA'"; s_ "'A'"; s_ "1"]; [s_ "99"; s_ "'1'"; s_ "1"];
   [s_ "12"; s_ "'2'"; s_ "0"]].
Definition ex_names : list (str * Z) := [(s_ "ALPHA", 1); (s_ "BETA", 12); (s_ "GAMMA", 4)]%Z.
Definition ex_bmap : list (Z * nat) := [(1%Z, 0); (12%Z, 1); ((-4)%Z, 2)].
Example C22_nonvacuous :
  bus_map_ok ex_bmap 3 /\ reads ex_loads ex_load_records /\ attachable load_layout ex_names ex_bmap ex_load_records /\
  filter (names_bus ex_names 12) ex_load_records =
    [[s_ "12"; s_ "'1'"; s_ "1"; s_ "1"; s_ "1"; s_ "5.0"; s_ "1.0"]; [s_ "12"; s_ "'2'"; s_ "0"]] /\
  Forall (fresh ("LOAD_NUMBER" :: flat_map item_names load_layout)) [dc_empty; dc_empty; dc_empty] /\
  exists b, parse 9 (bus_record (fun _ => 0%Z) 0%Z 0%Z) (ex_buses ++ s_ "0" :: ex_loads ++ [s_ "0"]) (Build_buses [] [] [] 0 0)
              = Some (Ok (b, (ex_loads ++ [s_ "0"])%list)) /\ bu_map b = ex_bmap /\ bu_names b = ex_names.
Proof.
  split; [|split; [|split; [|split; [|split]]]].
  - split.
    + intros b l. unfold ex_bmap. cbn [zfind]. destruct (1 =? b)%Z; [intros H; inversion H; lia|]. destruct (12 =? b)%Z; [intros H; inversion H; lia|].
      destruct (-4 =? b)%Z; [intros H; inversion H; lia|discriminate].
    + intros b b' l. unfold ex_bmap. cbn [zfind].
      destruct (Z.eqb_spec 1 b), (Z.eqb_spec 1 b'), (Z.eqb_spec 12 b), (Z.eqb_spec 12 b'), (Z.eqb_spec (-4) b), (Z.eqb_spec (-4) b');
        intros H1 H2; inversion H1; inversion H2; subst; congruence.
  - apply records_reads; vm_compute; reflexivity.
  - apply attachableb_ok; vm_compute; reflexivity.
  - vm_compute. reflexivity.
  - repeat constructor; intros t s Hs _; now apply look_empty.
  - eexists. split; [vm_compute; reflexivity|]. split; reflexivity.
Qed.
(** A blank owner field of a generator record is read as owner 0, not as the owner of the bus, and its fraction as
    atof("0"), not as 1.0: splitPSSELine replaces blank fields before isBlank is asked. *)
Theorem C22_blank_owner_refuted :
  forall atof one zero,
    exists bs', parse 3 (dev_record atof (gen33 one zero) [] [(1%Z, 0)])
      [s_ "1,'1 ',1.0,0.0,9.9,-9.9,1.0,0,100.0,0.0,1.0,0.0,0.0,1.0,1,100.0,9.9,0.0,,"; s_ "0"]
      [add_key dc_empty "BUS_OWNER" (VInt 7)] = Some (Ok (bs', [])) /\
    option_map (fun d => (look d TInt (Indexed "GENERATOR_OWNER1" 0), look d TDouble (Indexed "GENERATOR_OFRAC1" 0))) (nth_error bs' 0)
      = Some (Some (VInt 0), Some (VDouble (atof (s_ "0")))).
Proof. intros. eexists. split; vm_compute; reflexivity. Qed.
Print Assumptions C22_blank_owner_refuted.

(** ** C21: branches *)
Theorem C21_branch_section_33_partial :
  forall atof zero names ls rs, reads ls rs -> length rs <= Z.to_nat 9999999 ->
    (forall r, In r rs -> ends_of names r <> None /\ readable branch33_layout 2 r) ->
  exists b,
    length (br_data b) = length (first_pairs [] (all_ends names rs)) /\
    (forall l q d, nth_error (first_pairs [] (all_ends names rs)) l = Some q -> nth_error (br_data b) l = Some d ->
       holds_branch atof zero branch33_layout names l q (filter (joins names q) rs) d) /\
    forall fuel term rest, test_end term = false -> length ls < fuel ->
      parse fuel (branch_record atof (branch33 zero) names) (ls ++ term :: rest)%list (Build_branches [] [] 0) = Some (Ok (b, rest)).
Proof.
  intros atof zero names ls rs. apply branch_section; [apply branch33_compiles|reflexivity|vm_compute; reflexivity|vm_compute; reflexivity|].
  intros n H. cbn in H. repeat (destruct H as [H|H]; [discriminate|]). exact H.
Qed.
Print Assumptions C21_branch_section_33_partial.
Theorem C21_branch_section_34_partial :
  forall atof zero names ls rs, reads ls rs -> length rs <= Z.to_nat 9999999 ->
    (forall r, In r rs -> ends_of names r <> None /\ readable branch34_layout 2 r) ->
  exists b,
    length (br_data b) = length (first_pairs [] (all_ends names rs)) /\
    (forall l q d, nth_error (first_pairs [] (all_ends names rs)) l = Some q -> nth_error (br_data b) l = Some d ->
       holds_branch atof zero branch34_layout names l q (filter (joins names q) rs) d) /\
    forall fuel term rest, test_end term = false -> length ls < fuel ->
      parse fuel (branch_record atof (branch34 zero) names) (ls ++ term :: rest)%list (Build_branches [] [] 0) = Some (Ok (b, rest)).
Proof.
  intros atof zero names ls rs. apply branch_section; [apply branch34_compiles|reflexivity|vm_compute; reflexivity|vm_compute; reflexivity|].
  intros n H. cbn in H. repeat (destruct H as [H|H]; [discriminate|]). exact H.
Qed.
Print Assumptions C21_branch_section_34_partial.
(** What the grouping means: every pair of ends occurs exactly once, as first written. *)
Theorem C21_pairs_once :
  forall ps, apart (first_pairs [] ps) /\
    (forall p, In p ps -> exists q, In q (first_pairs [] ps) /\ same_ends p q = true) /\
    (forall q, In q (first_pairs [] ps) -> In q ps).
Proof.
  induction ps as [|p ps IH] using rev_ind.
  - split; [intros [|i] j p q Hi; discriminate Hi|]. split; intros p [].
  - rewrite first_pairs_snoc. cbn [app]. destruct IH as (A & B & C). destruct (existsb (same_ends p) (first_pairs [] ps)) eqn:E.
    + rewrite app_nil_r. split; [exact A|]. split.
      * intros x Hx. apply in_app_iff in Hx. destruct Hx as [Hx|[<-|[]]]; [auto|]. apply existsb_exists in E. exact E.
      * intros q Hq. apply in_app_iff. auto.
    + split; [apply apart_snoc; assumption|]. split.
      * intros x Hx. apply in_app_iff in Hx. destruct Hx as [Hx|[<-|[]]].
        -- destruct (B x Hx) as (q & Hq & S). exists q. split; [apply in_app_iff; auto|exact S].
        -- exists p. split; [apply in_app_iff; right; now left|apply same_ends_refl].
      * intros q Hq. apply in_app_iff in Hq. apply in_app_iff. destruct Hq as [Hq|[<-|[]]]; auto. right. now left.
Qed.
Print Assumptions C21_pairs_once.
Definition ex_branches : list str :=
  [s_ "1, 12, '1', 0.1, 0.2, 0.3"; s_ "12, 'GAMMA', '1'"; s_ "12, 1, '2', 0.4"; s_ "1 12 '3' 0.5"].
Definition ex_branch_records : list (list str) :=
  [[s_ "1"; s_ "12"; s_ "'1'"; s_ "0.1"; s_ "0.2"; s_ "0.3"]; [s_ "12"; s_ "'GAMMA'"; s_ "'1'"]; [s_ "12"; s_ "1"; s_ "'2'"; s_ "0.4"];
   [s_ "1"; s_ "12"; s_ "'3'"; s_ "0.5"]].
Example C21_nonvacuous :
  reads ex_branches ex_branch_records /\
  (forall r, In r ex_branch_records -> ends_of ex_names r <> None /\ readable branch33_layout 2 r) /\
  first_pairs [] (all_ends ex_names ex_branch_records) = [(1, 12); (12, 4)]%Z /\
  map (is_reversed ex_names (1, 12)%Z) (filter (joins ex_names (1, 12)%Z) ex_branch_records) = [false; true; false].
Proof.
  split; [apply records_reads; vm_compute; reflexivity|]. split; [|split; vm_compute; reflexivity].
  intros r [<-|[<-|[<-|[<-|[]]]]]; (split; [vm_compute; discriminate|apply readableb_ok; vm_compute; reflexivity]).
Qed.
(** Ends written with unknown names are all number -1: branches to different unknown buses are merged. *)
Theorem C21_unknown_names_refuted :
  all_ends [] [[s_ "1"; s_ "'ALPHA'"; s_ "'1'"]; [s_ "1"; s_ "'BETA'"; s_ "'1'"]] = [(1, -1); (1, -1)]%Z /\
  first_pairs [] [(1, -1); (1, -1)]%Z = [(1, -1)]%Z.
Proof. split; vm_compute; reflexivity. Qed.
Print Assumptions C21_unknown_names_refuted.
(** The owner fractions F1-F4, documented as real, are stored as truncated whole numbers: getValue with a double finds
    nothing. *)
Theorem C21_owner_fraction_refuted :
  forall atof zero, exists b,
    parse 3 (branch_record atof (branch33 zero) [])
      [s_ "1,2,'1 ',0.0,0.1,0.0,1.0,1.0,1.0,0.0,0.0,0.0,0.0,1,1,0.0,1,0.7"; s_ "0"] (Build_branches [] [] 0) = Some (Ok (b, [])) /\
    option_map (fun d => (look d TDouble (Indexed "BRANCH_F1" 0), look d TInt (Indexed "BRANCH_F1" 0))) (nth_error (br_data b) 0)
      = Some (None, Some (VInt 0)).
Proof. intros. eexists. split; vm_compute; reflexivity. Qed.
Print Assumptions C21_owner_fraction_refuted.

From Verif Require Import Prelude GAModel GAProofs StrModel StrSpec StrProofs StrProofs2 StrProofs3 DCModel DCSpec DCProofs RecModel RecSpec
  RecProofs RecProofs2 RecProofs4 XpModel XpSpec XpProofs XpProofs2 XpProofs3.
From Coq Require Import Ascii.
Open Scope nat_scope.

Lemma current_plain d ty s : List.find (fun p => String.eqb (fst p) (slot_name s)) solved = None -> current d ty s = look d ty s.
Proof. intros H. unfold current. now rewrite H. Qed.
Lemma current_solved d ty name n j : List.find (fun p => String.eqb (fst p) name) solved = Some (name, n) ->
  current d ty (Indexed name j) = match look d ty (Indexed n j) with Some v => Some v | None => look d ty (Indexed name j) end.
Proof. intros H. unfold current. cbn [slot_name renamed]. now rewrite H. Qed.
Lemma in_col atof b r n c it cols e : In (c, it) cols -> In e (expect atof b r n c it) -> In e (all_expect atof b r n cols).
Proof. intros H1 H2. unfold all_expect. apply in_flat_map. exists (c, it). auto. Qed.
Lemma lit_plain s : plain_text (s_ s) -> tok_ok (s_ s).
Proof. apply plain_tok. Qed.
Ltac plain := apply plain_textb; [discriminate|vm_compute; reflexivity].
Ltac pick := (left; reflexivity) + (right; pick).
Ltac known := repeat match goal with
  | H : atoi ?t = Ok _ |- context [atoi ?t] => rewrite H
  | H : clean2char ?t = Ok _ |- context [clean2char ?t] => rewrite H end.
Ltac same := unfold int_of, tag_of, dbl_of; cbn [bind_opt]; known; rewrite ?string_of_list_ascii_of_string; reflexivity.
Ltac hit := cbn [expect nth_error bind_opt app width Nat.add]; first
  [ solve [left; same] | solve [right; left; same] | solve [apply in_or_app; right; left; same] ].
Ltac locate := eapply in_col; [pick|hit].
Ltac cases I := repeat (let J := fresh in destruct I as [J|I]; [inversion J; subst; clear J|]); [..|now destruct I].
Ltac readable_case := cbn [readable_at nth_error];
  first [ exact Logic.I
        | split; [intros _; discriminate|let E := fresh in intros ? E; inversion E; subst; eexists; eassumption]
        | let E := fresh in intros ? E; inversion E; subst; eexists; eassumption ].

Section D.
Variable atof : str -> Z.
Variable fmt : Z -> str.
Hypothesis fmt_plain : forall x, plain_text (fmt x).
Notation reread := (reread atof fmt).

Definition device_ok (layout : list item) (entries : list (string * dtype)) (d : dc) (b : Z) (j : nat) (t : str) (r : list str) : Prop :=
  record_line t r /\ (forall names, bus_of names r = Some b) /\ readable layout 0 r /\
  forall name ty, In (name, ty) entries ->
    In (Indexed name (Z.of_nat j), ty, option_map reread (current d ty (Indexed name (Z.of_nat j))))
       (all_expect atof b r (Z.of_nat j) (columns 0 layout)).

Lemma bus_of_dec names b r : (1 <= b <= 2147483647)%Z -> bus_of names (s_ (dec b) :: r) = Some b.
Proof.
  intros H. unfold bus_of. pose proof (bus_index_number (sfind names) 0 0 (pos_is_int H)) as X. cbn [repeat app] in X.
  rewrite app_nil_r in X. rewrite X by lia. f_equal. lia.
Qed.
Lemma fmt_tok x : tok_ok (fmt x).
Proof. apply plain_tok, fmt_plain. Qed.
Lemma dec_tok z : tok_ok (s_ (dec z)).
Proof. apply plain_tok, dec_plain. Qed.

Variables (p : place) (b : Z).
Hypothesis Hb : (1 <= b <= 2147483647)%Z.
Notation d := (pl_data p).
Variable j : nat.
Hypothesis Hj : j <= Z.to_nat 9999999.
Notation jz := (Z.of_nat j).
Lemma goodj name : no_colon name = true -> slot_good (slot_of (At name) jz) = true.
Proof. intros H. apply good_at; [lia|exact H]. Qed.
Ltac good := first [apply goodj; vm_compute; reflexivity | apply good_of; vm_compute; reflexivity].
Ltac printed := first
  [ apply print_lit
  | eapply print_int; [good|eassumption]
  | eapply print_tag; [good|eassumption]
  | eapply print_dbl; [good|eassumption]
  | eapply print_cpx; [good|eassumption]
  | eassumption ].
Ltac all_printed := eapply eq_trans; [repeat (eapply pieces_cons; [printed|]); apply pieces_nil|reflexivity].
Ltac ints H n := let z := fresh "z" in let L := fresh "L" in let A := fresh "A" in
  destruct (@int_entry d (Indexed n jz) (H n TInt ltac:(cbn; tauto))) as (z & L & A).
Ltac dbls H n := let x := fresh "x" in let L := fresh "L" in
  destruct (@dbl_entry d (Indexed n jz) (H n TDouble ltac:(cbn; tauto))) as (x & L).
Ltac tags H n := let g := fresh "g" in let L := fresh "L" in let T := fresh "T" in let A := fresh "A" in
  destruct (@tag_entry d (Indexed n jz) (H n TString ltac:(cbn; tauto))) as (g & L & T & A).
Ltac cpxs H n := let x := fresh "x" in let y := fresh "y" in let L := fresh "L" in
  destruct (@cpx_entry d (Indexed n jz) (H n TComplex ltac:(cbn; tauto))) as (x & y & L).
Ltac tok := first [assumption | apply fmt_tok | apply dec_tok | apply plain_tok; assumption | apply plain_tok; plain].
Ltac toks := repeat (constructor; [cbn [snd]; tok|]); constructor.
Ltac nonblanks := repeat (constructor; [apply tok_nonblank; tok|]); constructor.

Lemma load_device : complete d b "LOAD_NUMBER" "LOAD_BUSNUMBER" load_entries -> has_power d jz -> j < devices d "LOAD_NUMBER" ->
  exists t r, device_line fmt load_skip (fun _ _ => Ok load33_line) p j = Ok [Build_text_line (pl_global p) j t] /\
    device_ok load_layout (("LOAD_BUSNUMBER", TInt) :: load_entries)%string d b j t r.
Proof.
  intros C P Hn. destruct (C j Hn) as (L0 & H). clear C.
  tags H "LOAD_ID"%string. ints H "LOAD_STATUS"%string. ints H "LOAD_AREA"%string. ints H "LOAD_ZONE"%string.
  dbls H "LOAD_PL"%string. dbls H "LOAD_QL"%string. dbls H "LOAD_IP"%string. dbls H "LOAD_IQ"%string. dbls H "LOAD_YP"%string.
  dbls H "LOAD_YQ"%string.
  destruct (@print_int_any fmt d (pl_orig p) jz 1 (At "LOAD_OWNER") (Of "BUS_OWNER") 1%Z) as (ow & Pow & Eow); [good|good|].
  set (tk := [(1, quote (s_ g)); (1, s_ (dec z)); (1, s_ (dec z0)); (1, s_ (dec z1)); (1, fmt x); (1, fmt x0); (1, fmt x1);
              (1, fmt x2); (1, fmt x3); (1, fmt x4); (1, ow); (1, s_ "1"); (1, s_ "0")]).
  assert (pieces fmt d (pl_orig p) jz load33_line = Ok (map render ((0, s_ (dec b)) :: tk))) as E.
  { unfold load33_line, tk. all_printed. }
  exists (commas (map render ((0, s_ (dec b)) :: tk))), (map snd ((0, s_ (dec b)) :: tk)). split.
  - unfold device_line. assert (load_skip d jz = Ok false) as ->.
    { unfold load_skip. rewrite !key_good by good. cbn [obind slot_of]. rewrite L4, L5. now rewrite (P x x0). }
    cbn [obind]. unfold line_of. rewrite E. reflexivity.
  - split; [|split; [|split]].
    + apply (@record_of_tokens b (1, quote (s_ g))); [exact Hb|]. toks.
    + intros names. apply bus_of_dec. exact Hb.
    + split; [cbn [map snd tk]; unfold tk; cbn [map snd]; nonblanks|]. intros c it I. cbn in I. unfold tk. cbn [map snd].
      cases I; readable_case.
    + intros name ty I. cbn in I. unfold tk. cbn [map snd]. cases I; rewrite current_plain by reflexivity;
        (match goal with L : look d _ _ = Some _ |- context [look d _ _] => rewrite L end); cbn [option_map XpSpec.reread];
        locate.
Qed.

Ltac in_entry := match goal with L : look d _ _ = Some _ |- context [look d _ _] => rewrite L end;
  cbn [option_map XpSpec.reread]; locate.

Lemma shunt_device : complete d b "SHUNT_NUMBER" "SHUNT_BUSNUMBER" shunt_entries -> j < devices d "SHUNT_NUMBER" ->
  exists t r, device_line fmt (fun _ _ => Ok false) (fun _ _ => Ok shunt33_line) p j = Ok [Build_text_line (pl_global p) j t] /\
    device_ok shunt_layout (("SHUNT_BUSNUMBER", TInt) :: shunt_entries)%string d b j t r.
Proof.
  intros C Hn. destruct (C j Hn) as (L0 & H). clear C.
  tags H "SHUNT_ID"%string. ints H "SHUNT_STATUS"%string. dbls H "BUS_SHUNT_GL"%string. dbls H "BUS_SHUNT_BL"%string.
  set (tk := [(1, quote (s_ g)); (1, s_ (dec z)); (1, fmt x); (1, fmt x0)]).
  assert (pieces fmt d (pl_orig p) jz shunt33_line = Ok (map render ((0, s_ (dec b)) :: tk))) as E.
  { unfold shunt33_line, tk. all_printed. }
  exists (commas (map render ((0, s_ (dec b)) :: tk))), (map snd ((0, s_ (dec b)) :: tk)). split.
  - unfold device_line. cbn [obind]. unfold line_of. rewrite E. reflexivity.
  - split; [|split; [|split]].
    + apply (@record_of_tokens b (1, quote (s_ g))); [exact Hb|]. toks.
    + intros names. apply bus_of_dec. exact Hb.
    + split; [unfold tk; cbn [map snd]; nonblanks|]. intros c it I. cbn in I. unfold tk. cbn [map snd]. cases I; readable_case.
    + intros name ty I. cbn in I. unfold tk. cbn [map snd]. cases I; rewrite current_plain by reflexivity; in_entry.
Qed.

Lemma gen_device one zero : complete d b "GENERATOR_NUMBER" "GENERATOR_BUSNUMBER" gen_entries -> j < devices d "GENERATOR_NUMBER" ->
  exists t r, device_line fmt (fun _ _ => Ok false) (fun _ _ => Ok gen33_line) p j = Ok [Build_text_line (pl_global p) j t] /\
    device_ok (gen33_layout one zero) (("GENERATOR_BUSNUMBER", TInt) :: gen_entries)%string d b j t r.
Proof.
  intros C Hn. destruct (C j Hn) as (L0 & H). clear C.
  tags H "GENERATOR_ID"%string. dbls H "GENERATOR_PG"%string. dbls H "GENERATOR_QG"%string. dbls H "GENERATOR_QMAX"%string.
  dbls H "GENERATOR_QMIN"%string. dbls H "GENERATOR_VS"%string. ints H "GENERATOR_IREG"%string. dbls H "GENERATOR_MBASE"%string.
  cpxs H "GENERATOR_ZSOURCE"%string. dbls H "GENERATOR_GTAP"%string. ints H "GENERATOR_STAT"%string. dbls H "GENERATOR_RMPCT"%string.
  dbls H "GENERATOR_PMAX"%string. dbls H "GENERATOR_PMIN"%string.
  ints H "GENERATOR_OWNER1"%string. dbls H "GENERATOR_OFRAC1"%string. ints H "GENERATOR_OWNER2"%string. dbls H "GENERATOR_OFRAC2"%string.
  ints H "GENERATOR_OWNER3"%string. dbls H "GENERATOR_OFRAC3"%string. ints H "GENERATOR_OWNER4"%string. dbls H "GENERATOR_OFRAC4"%string.
  ints H "GENERATOR_WMOD"%string. dbls H "GENERATOR_WPF"%string.
  destruct (@print_any fmt fmt_plain d (pl_orig p) jz (At "GENERATOR_RT") (s_ "0.000000")) as (rt & Prt & Ert); [good|plain|].
  destruct (@print_any fmt fmt_plain d (pl_orig p) jz (At "GENERATOR_XT") (s_ "0.000000")) as (xt & Pxt & Ext); [good|plain|].
  destruct (@print_over fmt d (pl_orig p) jz "GENERATOR_PG" "GENERATOR_PF_PG" (s_ "0.000000") x) as (pg & Epg & Cpg); [good|good|assumption|].
  destruct (@print_over fmt d (pl_orig p) jz "GENERATOR_QG" "GENERATOR_PF_QG" (s_ "0.000000") x0) as (qg & Eqg & Cqg); [good|good|assumption|].
  eassert (exists tk, pieces fmt d (pl_orig p) jz gen33_line = Ok (map render ((0, s_ (dec b)) :: (1, quote (s_ g)) :: tk)) /\ tk = _) as (tk & E & Etk).
  { eexists. split; [|reflexivity]. unfold gen33_line. eapply eq_trans; [repeat (eapply pieces_cons; [printed|]); apply pieces_nil|].
    cbn [app]. f_equal. cbn [map]. f_equal. f_equal. symmetry. instantiate (1 := [(1, fmt pg); (1, fmt qg); (1, fmt x1); (1, fmt x2); (1, fmt x3); (0, s_ (dec z)); (1, fmt x4); (1, fmt x5); (1, fmt y); (1, rt); (1, xt);
       (1, fmt x6); (0, s_ (dec z0)); (1, fmt x7); (1, fmt x8); (1, fmt x9); (1, s_ (dec z1)); (1, fmt x10); (1, s_ (dec z2)); (1, fmt x11);
       (1, s_ (dec z3)); (1, fmt x12); (1, s_ (dec z4)); (1, fmt x13); (1, s_ (dec z5)); (1, fmt x14)]). reflexivity. }
  subst tk.
  match type of E with _ = Ok (map render (?a :: ?r)) => set (tk := r) in E end.
  exists (commas (map render ((0, s_ (dec b)) :: tk))), (map snd ((0, s_ (dec b)) :: tk)). split.
  - unfold device_line. cbn [obind]. unfold line_of. rewrite E. reflexivity.
  - split; [|split; [|split]].
    + unfold tk. apply (@record_of_tokens b (1, quote (s_ g))); [exact Hb|]. toks.
    + intros names. apply bus_of_dec. exact Hb.
    + split; [unfold tk; cbn [map snd]; nonblanks|]. intros c it I. cbn in I. unfold tk. cbn [map snd]. cases I; readable_case.
    + intros name ty I. cbn in I. unfold tk. cbn [map snd].
      cases I; first
        [ rewrite current_plain by reflexivity; in_entry
        | rewrite (@current_solved d TDouble "GENERATOR_PG" "GENERATOR_PF_PG" jz) by reflexivity; rewrite <- Cpg; cbn [option_map XpSpec.reread]; locate
        | rewrite (@current_solved d TDouble "GENERATOR_QG" "GENERATOR_PF_QG" jz) by reflexivity; rewrite <- Cqg; cbn [option_map XpSpec.reread]; locate ].
Qed.

(** ** Lines *)
Definition line_ok (ends : Z * Z) (t : str) (r : list str) : Prop :=
  record_line t r /\ (forall names, ends_of names r = Some ends) /\ readable branch33_layout 2 r /\
  forall name ty, In (name, ty) line_entries ->
    In (Indexed name jz, ty, option_map reread (current d ty (Indexed name jz))) (all_expect atof 0 r jz (columns 2 branch33_layout)).

Lemma line_device a : branch_ok d -> branch_ends d = Some (b, a) -> (1 <= a <= 2147483647)%Z -> j < devices d "BRANCH_NUM_ELEMENTS" ->
  exists t r, device_line fmt line_skip line_srcs p j = Ok [Build_text_line (pl_global p) j t] /\ line_ok (b, a) t r.
Proof.
  intros (_ & _ & B) En Ha Hn. destruct (B j Hn) as (S1 & _ & (tap & Ltap & Ztap) & W1 & Ow & H). clear B.
  assert (look d TInt (Plain "BRANCH_FROMBUS") = Some (VInt b) /\ look d TInt (Plain "BRANCH_TOBUS") = Some (VInt a)) as (Lf & Lt).
  { unfold branch_ends in En. destruct (look d TInt (Plain "BRANCH_FROMBUS")) as [[]|]; try discriminate.
    destruct (look d TInt (Plain "BRANCH_TOBUS")) as [[]|]; try discriminate. inversion En. auto. }
  tags H "BRANCH_CKT"%string. dbls H "BRANCH_R"%string. dbls H "BRANCH_X"%string. dbls H "BRANCH_B"%string. dbls H "BRANCH_RATING_A"%string.
  dbls H "BRANCH_RATING_B"%string. dbls H "BRANCH_RATING_C"%string. dbls H "BRANCH_SHUNT_ADMTTNC_G1"%string.
  dbls H "BRANCH_SHUNT_ADMTTNC_B1"%string. dbls H "BRANCH_SHUNT_ADMTTNC_G2"%string. dbls H "BRANCH_SHUNT_ADMTTNC_B2"%string.
  ints H "BRANCH_STATUS"%string. ints H "BRANCH_METER"%string. dbls H "BRANCH_LENGTH"%string.
  set (tk := [(1, s_ (dec a)); (1, quote (s_ g)); (1, fmt x); (1, fmt x0); (1, fmt x1); (1, fmt x2); (1, fmt x3); (1, fmt x4); (1, fmt x5);
    (1, fmt x6); (1, fmt x7); (1, fmt x8); (0, s_ (dec z)); (0, s_ (dec z0)); (1, fmt x9)]).
  assert (pieces fmt d (pl_orig p) jz (line33_line true) = Ok (map render ((0, s_ (dec b)) :: tk))) as E.
  { assert (forall o f, In (o, f) [("BRANCH_O1", "BRANCH_F1"); ("BRANCH_O2", "BRANCH_F2"); ("BRANCH_O3", "BRANCH_F3"); ("BRANCH_O4", "BRANCH_F4")]%string ->
      print fmt d (pl_orig p) jz (XOwn o f) = Ok []) as X.
    { intros o f I. pose proof (Ow o f I) as O. cbn in I. cases I; (apply print_own; [good|good|exact O]). }
    unfold line33_line, tk. cbn [app]. eapply eq_trans; [|reflexivity]. eapply eq_trans.
    - do 16 (eapply pieces_cons; [printed|]). do 4 (eapply pieces_cons; [apply X; cbn; tauto|]). apply pieces_nil.
    - reflexivity. }
  exists (commas (map render ((0, s_ (dec b)) :: tk))), (map snd ((0, s_ (dec b)) :: tk)). split.
  - unfold device_line. assert (line_skip d jz = Ok false) as ->.
    { unfold line_skip. rewrite !key_good by good. cbn [obind slot_of]. rewrite Ltap, W1, Ztap. reflexivity. }
    cbn [obind]. unfold line_srcs. rewrite key_good by good. cbn [obind slot_of]. rewrite S1. cbn [obind]. unfold line_of. rewrite E. reflexivity.
  - split; [|split; [|split]].
    + apply (@record_of_tokens b (1, s_ (dec a))); [exact Hb|]. toks.
    + intros names. pose proof (@bus_of_dec names b [] Hb) as X1. pose proof (@bus_of_dec names a [] Ha) as X2. unfold bus_of in X1, X2.
      unfold tk. cbn [map snd ends_of]. destruct (get_bus_index (sfind names) (s_ (dec b))); inversion X1; subst.
      destruct (get_bus_index (sfind names) (s_ (dec a))); inversion X2; subst. reflexivity.
    + split; [unfold tk; cbn [map snd]; nonblanks|]. intros c it I. cbn in I. unfold tk. cbn [map snd]. cases I; readable_case.
    + intros name ty I. cbn in I. unfold tk. cbn [map snd]. cases I; rewrite current_plain by reflexivity; in_entry.
Qed.
End D.

From Verif Require Import Prelude GAModel GAProofs StrModel StrSpec StrProofs StrProofs2 StrProofs3 DCModel DCSpec DCProofs RecModel RecSpec
  RecProofs RecProofs2 RecProofs3 RecProofs4 RecProps XpModel XpSpec XpProofs XpProofs2 XpProofs3 XpProofs4 XpProofs5 XpProofs6 XpProofs7.
From Coq Require Import Ascii.
Open Scope nat_scope.

Definition base_names : list string :=
  ("BUS_NUMBER" :: "CASE_SBASE" :: "CASE_ID" :: "BUS_NAME" :: map (fun x => snd (fst x)) bus_layout)%string.
Lemma disjoint_names (a b : list string) : forallb (fun x => negb (existsb (String.eqb x) b)) a = true ->
  forall x, In x a -> ~ In x b.
Proof.
  intros H x Hx Hy. rewrite forallb_forall in H. specialize (H x Hx). apply negb_true_iff in H.
  assert (existsb (String.eqb x) b = true); [|congruence]. apply existsb_exists. exists x. split; [exact Hy|apply String.eqb_refl].
Qed.
Lemma first_at_nth {A} (f : A -> bool) l i x : nth_error l i = Some x -> f x = true ->
  (forall k y, nth_error l k = Some y -> f y = true -> k = i) -> first_at f l = Some i.
Proof.
  intros Hi Hf U. destruct (first_at f l) as [k|] eqn:E.
  - destruct (first_at_some _ _ E) as (y & Hy & Fy). f_equal. eapply U; eassumption.
  - exfalso. pose proof (first_at_none _ _ x E (nth_error_In _ _ Hi)). congruence.
Qed.

Section Main.
Variables (atof : str -> Z) (fmt fmtg : Z -> str) (one zero : Z).
Hypothesis fmt_plain : forall x, plain_text (fmt x).
Hypothesis fmtg_plain : forall x, plain_text (fmtg x).
Variables (dist : nat -> list nat) (ord1 ord2 : list text_line -> list text_line).
Hypothesis Hdist : distributes dist.
Hypothesis Hord1 : reorders ord1.
Hypothesis Hord2 : reorders ord2.
Variables buses branches : list (list place).
Hypothesis HB : exportable_buses buses.
Hypothesis HL : exportable_branches branches.

Lemma bus_num p : In p (actives buses) -> exists b name, num p = b /\
    (1 <= b <= 2147483647)%Z /\ look (pl_data p) TInt (Plain "BUS_NUMBER") = Some (VInt b) /\
    look (pl_data p) TString (Plain "BUS_NAME") = Some (VString name) /\ name_text (s_ name) /\
    (forall n ty, In (n, ty) bus_entries -> exists v, look (pl_data p) ty (Plain n) = Some v /\ writable v) /\
    complete (pl_data p) b "LOAD_NUMBER" "LOAD_BUSNUMBER" load_entries /\
    (forall j, j < devices (pl_data p) "LOAD_NUMBER" -> has_power (pl_data p) (Z.of_nat j)) /\
    complete (pl_data p) b "SHUNT_NUMBER" "SHUNT_BUSNUMBER" shunt_entries /\
    complete (pl_data p) b "GENERATOR_NUMBER" "GENERATOR_BUSNUMBER" gen_entries.
Proof.
  intros Hp. destruct HB as (_ & _ & H & _). destruct (H p Hp) as (b & name & H1 & H2 & R). exists b, name. split.
  - unfold num. now rewrite H2.
  - auto.
Qed.
Lemma fewL : few "LOAD_NUMBER" (actives buses).
Proof. apply HB. Qed.
Lemma fewS : few "SHUNT_NUMBER" (actives buses).
Proof. apply HB. Qed.
Lemma fewG : few "GENERATOR_NUMBER" (actives buses).
Proof. apply HB. Qed.
Lemma fewB : few "BRANCH_NUM_ELEMENTS" (actives branches).
Proof. apply HL. Qed.
Lemma few_one count ps p : few count ps -> In p ps -> forall j, j < devices (pl_data p) count -> j <= Z.to_nat 9999999.
Proof. unfold few. intros F Hp j Hj. pose proof (sumn_in (fun p => devices (pl_data p) count) ps p Hp). cbn beta in *. lia. Qed.

Lemma bus_written p : In p (actives buses) -> written (bus_lines fmt) 1 (fun j r => exists t name,
    look (pl_data p) TString (Plain "BUS_NAME") = Some (VString name) /\ bus_spec atof fmt (pl_data p) (num p) name t r) p.
Proof.
  intros Hp. destruct (bus_num p Hp) as (b & name & Eb & Hb & L0 & L1 & Hn & He & _).
  destruct (@bus_line atof fmt fmt_plain p b name Hb L0 L1 Hn He) as (t & r & E & S). subst b.
  apply (@written_lines _ 1 (fun _ => t)); [exact E|]. intros j _. exists r. split; [apply S|]. eauto.
Qed.
Lemma load_written p : In p (actives buses) -> written (load_lines fmt) (devices (pl_data p) "LOAD_NUMBER") (fun j r => exists t,
    device_ok atof fmt load_layout (("LOAD_BUSNUMBER", TInt) :: load_entries)%string (pl_data p) (num p) j t r) p.
Proof.
  intros Hp. destruct (bus_num p Hp) as (b & name & Eb & Hb & L0 & L1 & Hn & _ & Cl & Pw & _). subst b.
  rewrite <- how_many_devices by reflexivity. apply device_lines_written. intros j Hj. rewrite how_many_devices in Hj by reflexivity.
  destruct (@load_device atof fmt fmt_plain p (num p) Hb j) as (t & r & E & D); auto.
  { eapply few_one; [apply fewL|exact Hp|exact Hj]. }
  exists t, r. split; [exact E|]. split; [apply D|eauto].
Qed.
Lemma shunt_written p : In p (actives buses) -> written (shunt_lines fmt) (devices (pl_data p) "SHUNT_NUMBER") (fun j r => exists t,
    device_ok atof fmt shunt_layout (("SHUNT_BUSNUMBER", TInt) :: shunt_entries)%string (pl_data p) (num p) j t r) p.
Proof.
  intros Hp. destruct (bus_num p Hp) as (b & name & Eb & Hb & L0 & L1 & Hn & _ & _ & _ & Cs & _). subst b.
  rewrite <- how_many_devices by reflexivity. apply device_lines_written. intros j Hj. rewrite how_many_devices in Hj by reflexivity.
  destruct (@shunt_device atof fmt fmt_plain p (num p) Hb j) as (t & r & E & D); auto.
  { eapply few_one; [apply fewS|exact Hp|exact Hj]. }
  exists t, r. split; [exact E|]. split; [apply D|eauto].
Qed.
Lemma gen_written p : In p (actives buses) -> written (gen_lines fmt) (devices (pl_data p) "GENERATOR_NUMBER") (fun j r => exists t,
    device_ok atof fmt (gen33_layout one zero) (("GENERATOR_BUSNUMBER", TInt) :: gen_entries)%string (pl_data p) (num p) j t r) p.
Proof.
  intros Hp. destruct (bus_num p Hp) as (b & name & Eb & Hb & L0 & L1 & Hn & _ & _ & _ & _ & Cg). subst b.
  rewrite <- how_many_devices by reflexivity. apply device_lines_written. intros j Hj. rewrite how_many_devices in Hj by reflexivity.
  destruct (@gen_device atof fmt fmt_plain p (num p) Hb j) with (one := one) (zero := zero) as (t & r & E & D); auto.
  { eapply few_one; [apply fewG|exact Hp|exact Hj]. }
  exists t, r. split; [exact E|]. split; [apply D|eauto].
Qed.
Lemma branch_ends_of p : In p (actives branches) -> branch_ends (pl_data p) = Some (ends p) /\
  (1 <= fst (ends p) <= 2147483647)%Z /\ (1 <= snd (ends p) <= 2147483647)%Z.
Proof.
  intros Hp. destruct HL as (_ & _ & H & _). destruct (H p Hp) as ((a & b & E & Ha & Hb) & _). unfold ends. rewrite E. auto.
Qed.
Lemma line_written p : In p (actives branches) -> written (line_lines fmt) (devices (pl_data p) "BRANCH_NUM_ELEMENTS")
   (fun j r => exists t, line_ok atof fmt p j (ends p) t r) p.
Proof.
  intros Hp. destruct (branch_ends_of p Hp) as (E & Ha & Hb). pose proof (proj1 (proj2 (proj2 HL)) p Hp) as K.
  rewrite <- how_many_devices by reflexivity. apply device_lines_written. intros j Hj. rewrite how_many_devices in Hj by reflexivity.
  destruct (ends p) as (a, b) eqn:Ee. cbn [fst snd] in *.
  destruct (@line_device atof fmt fmt_plain p a Ha j) with (a := b) as (t & r & El & D); auto.
  { eapply few_one; [apply fewB|exact Hp|exact Hj]. }
  exists t, r. split; [exact El|]. split; [apply D|eauto].
Qed.

Lemma block_written lines (count : place -> nat) (Q : place -> nat -> list str -> Prop) procs sorted :
  Permutation sorted (actives procs) -> in_order by_index sorted ->
  (forall p, In p (actives procs) -> written lines (count p) (Q p) p) ->
  write_block dist ord1 ord2 lines procs = Ok (block_text lines sorted).
Proof.
  intros P O W. unfold block_text. apply write_block_ok; auto. intros p Hp. destruct (W p Hp) as (W1 & W2 & W3 & _). auto.
Qed.

Theorem export_import p0 ps sb :
  hd [] buses = p0 :: ps -> look (pl_data p0) TDouble (Plain "CASE_SBASE") = Some (VDouble sb) ->
  look (pl_data p0) TDouble (Plain "CASE_ID") = None ->
  exists sorted sortedl file,
    Permutation sorted (actives buses) /\ in_order by_index sorted /\
    Permutation sortedl (actives branches) /\ in_order by_index sortedl /\
    export33 fmt fmtg dist ord1 ord2 buses branches = Ok file /\
    forall rest, exists b ds br, import33 atof one zero (file ++ rest) = Ok (b, ds, br, rest) /\
      Forall2 (fun p d' => same_bus atof fmt (pl_data p) d' /\
                           look d' TDouble (Plain "CASE_SBASE") = Some (VDouble (atof (sp :: sp :: fmtg sb)))) sorted ds /\
      Forall2 (fun p d' => same_branch atof fmt (pl_data p) d') sortedl (br_data br).
Proof.
  intros H0 H1 H2. destruct (@sortable (actives buses)) as (sorted & P & O); [apply HB|].
  destruct (@sortable (actives branches)) as (sortedl & Pl & Ol); [apply HL|].
  assert (forall p, In p sorted -> In p (actives buses)) as In1 by (intros p; apply Permutation_in; exact P).
  assert (forall p, In p sortedl -> In p (actives branches)) as In2 by (intros p; apply Permutation_in; exact Pl).
  set (l1 := block_text (bus_lines fmt) sorted). set (l2 := block_text (load_lines fmt) sorted).
  set (l3 := block_text (shunt_lines fmt) sorted). set (l4 := block_text (gen_lines fmt) sorted).
  set (l5 := block_text (line_lines fmt) sortedl).
  set (t1 := s_ "0 / END BUS DATA, BEGIN LOAD DATA"). set (t2 := s_ "0 / END LOAD DATA, BEGIN FIXED SHUNT DATA").
  set (t3 := s_ "0 / END FIXED SHUNT DATA, BEGIN GENERATOR DATA"). set (t4 := s_ "0 / END GENERATOR DATA, BEGIN LINE DATA").
  set (t5 := s_ "0 / END LINE DATA, BEGIN TRANSFORMER DATA").
  exists sorted, sortedl, (header fmtg (hd [] buses) ++ l1 ++ t1 :: l2 ++ t2 :: l3 ++ t3 :: l4 ++ t4 :: l5 ++ [t5])%list.
  do 4 (split; [assumption|]). split.
  { unfold export33.
    rewrite (@block_written _ _ _ _ _ P O bus_written). cbn [obind]. rewrite (@block_written _ _ _ _ _ P O load_written). cbn [obind].
    rewrite (@block_written _ _ _ _ _ P O shunt_written). cbn [obind]. rewrite (@block_written _ _ _ _ _ P O gen_written). cbn [obind].
    rewrite (@block_written _ _ _ _ _ Pl Ol line_written). cbn [obind]. reflexivity. }
  intros rest.
  assert (NoDup sorted) as N1.
  { apply (NoDup_map_inv pl_global). eapply Permutation_NoDup; [apply Permutation_map, Permutation_sym; exact P|apply HB]. }
  assert (NoDup sortedl) as N2.
  { apply (NoDup_map_inv pl_global). eapply Permutation_NoDup; [apply Permutation_map, Permutation_sym; exact Pl|apply HL]. }
  assert (forall p q, In p sorted -> In q sorted -> num p = num q -> p = q) as Inj.
  { intros p q Hp Hq E. destruct HB as (_ & N & _).
    assert (NoDup (map (fun p => look (pl_data p) TInt (Plain "BUS_NUMBER")) sorted)) as N'.
    { eapply Permutation_NoDup; [apply Permutation_map, Permutation_sym; exact P|exact N]. }
    destruct (bus_num p (In1 p Hp)) as (b & n & Eb & _ & L & _). destruct (bus_num q (In1 q Hq)) as (b' & n' & Eb' & _ & L' & _).
    assert (look (pl_data p) TInt (Plain "BUS_NUMBER") = look (pl_data q) TInt (Plain "BUS_NUMBER")) as El by congruence.
    clear -N' Hp Hq El. induction sorted as [|x l IH]; [destruct Hp|]. cbn [map] in N'. inversion N' as [|? ? M1 M2]; subst.
    destruct Hp as [<-|Hp], Hq as [<-|Hq]; auto.
    - exfalso. apply M1. rewrite El. exact (in_map (fun p => look (pl_data p) TInt (Plain "BUS_NUMBER")) _ _ Hq).
    - exfalso. apply M1. rewrite <- El. exact (in_map (fun p => look (pl_data p) TInt (Plain "BUS_NUMBER")) _ _ Hp). }
  assert (forall count, few count (actives buses) -> sumn (map (fun p => devices (pl_data p) count) sorted) <= Z.to_nat 9999999) as Few.
  { intros count F. rewrite (sumn_perm _ P). exact F. }
  (* header *)
  set (file := (header fmtg (hd [] buses) ++ l1 ++ t1 :: l2 ++ t2 :: l3 ++ t3 :: l4 ++ t4 :: l5 ++ [t5])%list).
  assert (file ++ rest = header fmtg (hd [] buses) ++ (l1 ++ t1 :: (l2 ++ t2 :: (l3 ++ t3 :: (l4 ++ t4 :: (l5 ++ t5 :: rest))))))%list as Ef.
  { unfold file. repeat (rewrite <- !app_assoc; cbn [app]). reflexivity. }
  unfold import33. set (fuel := S (length (file ++ rest))).
  assert (length l1 < fuel /\ length l2 < fuel /\ length l3 < fuel /\ length l4 < fuel /\ length l5 < fuel) as (F1 & F2 & F3 & F4 & F5).
  { unfold fuel. rewrite Ef. repeat (rewrite !app_length; cbn [length]). lia. }
  rewrite Ef, (@header_read atof fmt fmtg fmtg_plain _ _ _ _ _ H0 H1 H2). cbn [obind]. set (sbase := atof (sp :: sp :: fmtg sb)).
  (* buses *)
  assert (forall p, In p sorted -> written (bus_lines fmt) 1 (fun j r => exists t name,
    look (pl_data p) TString (Plain "BUS_NAME") = Some (VString name) /\ bus_spec atof fmt (pl_data p) (num p) name t r) p) as Wb
    by (intros p Hp; apply bus_written; auto).
  pose proof (@block_reads (bus_lines fmt) (fun _ => 1) _ sorted Wb) as Rb. set (rb := block_recs (bus_lines fmt) sorted) in *.
  assert (Forall2 (fun p r => exists t name, look (pl_data p) TString (Plain "BUS_NAME") = Some (VString name) /\
            bus_spec atof fmt (pl_data p) (num p) name t r) sorted rb) as Frb.
  { unfold rb, block_recs. clear -Wb. induction sorted as [|p l IH]; [constructor|]. cbn [flat_map].
    destruct (Wb p (or_introl eq_refl)) as (_ & _ & _ & Ln & _ & X). destruct (recs (bus_lines fmt) p) as [|r [|]] eqn:Er;
      unfold recs in Er; pose proof (f_equal (@length _) Er) as El; rewrite map_length, Ln in El; try discriminate.
    cbn [app]. constructor; [|apply IH; intros q Hq; apply Wb; now right]. apply (X 0 r eq_refl). }
  assert (Forall bus_readable rb) as Br.
  { clear -Frb. induction Frb as [|p r l m (t & n & _ & S) _ IH]; constructor; [apply S|exact IH]. }
  destruct (bus_steps atof sbase 0%Z (-1)%Z Br) as (b & Eb & Ib). pose proof (bus_map_good Ib) as Mg. destruct Ib as (I1 & _ & I3 & _).
  pose proof (parse_reads (bus_record atof sbase 0%Z) Rb) as Pb. specialize (Pb fuel (Build_buses [] [] [] 0 (-1)) b t1 (l2 ++ t2 :: (l3 ++ t3 :: (l4 ++ t4 :: (l5 ++ t5 :: rest))))%list eq_refl Eb F1).
  fold l1 in Pb. rewrite Pb. cbn [run obind].
  assert (length sorted = length (bu_data b)) as Lb by (rewrite (Forall2_len Frb); exact (Forall2_len I1)).
  assert (forall l p, nth_error sorted l = Some p -> zfind (bu_map b) (num p) = Some l) as Hz.
  { intros l p Hp. rewrite I3. assert (forall k q, nth_error sorted k = Some q -> exists r, nth_error rb k = Some r /\ bus_number r = Some (num q)) as X.
    { intros k q Hq. destruct (nth_error rb k) as [r|] eqn:Er.
      - destruct (Forall2_at _ Frb Hq Er) as (t & n & _ & S). exists r. split; [reflexivity|apply S].
      - apply nth_error_None in Er. rewrite <- (Forall2_len Frb) in Er. assert (k < length sorted) by (apply nth_error_Some; congruence). lia. }
    destruct (X l p Hp) as (r & Hr & Nr). apply (@first_at_nth _ _ _ _ r Hr); [unfold has_number; rewrite Nr; apply Z.eqb_refl|].
    intros k y Hy Fy. unfold has_number in Fy. destruct (nth_error sorted k) as [q|] eqn:Eq.
    - destruct (X k q Eq) as (r' & Hr' & Nr'). rewrite Hr' in Hy. inversion Hy; subst. rewrite Nr' in Fy. apply Z.eqb_eq in Fy.
      assert (q = p) by (apply Inj; [eapply nth_error_In; exact Eq|eapply nth_error_In; exact Hp|exact Fy]). subst q.
      eapply NoDup_nth_error; [exact N1|apply nth_error_Some; congruence|congruence].
    - apply nth_error_None in Eq. rewrite (Forall2_len Frb) in Eq. assert (k < length rb) by (apply nth_error_Some; congruence). lia. }
  assert (forall L, forallb (fun x => negb (existsb (String.eqb x) base_names)) L = true -> Forall (fresh L) (bu_data b)) as Fr0.
  { intros L HL0. apply Forall_forall. intros d Hd. apply In_nth_error in Hd as (l & Hl).
    destruct (nth_error rb l) as [r|] eqn:Er.
    - eapply bus_fresh; [exact (Forall2_at _ I1 Er Hl)|]. exact (disjoint_names _ _ HL0).
    - apply nth_error_None in Er. rewrite (Forall2_len I1) in Er. assert (l < length (bu_data b)) by (apply nth_error_Some; congruence). lia. }
  (* loads *)
  set (NL := ("LOAD_NUMBER" :: flat_map item_names load_layout)%string).
  set (NS := ("SHUNT_NUMBER" :: flat_map item_names shunt_layout)%string).
  set (NG := ("GENERATOR_NUMBER" :: flat_map item_names (gen33_layout one zero))%string).
  assert (forall p, In p sorted -> (1 <= num p <= 2147483647)%Z) as Hnum.
  { intros p Hp. destruct (bus_num p (In1 p Hp)) as (z & n & -> & Hz0 & _). exact Hz0. }
  destruct (@dev_chain atof fmt load33 load_layout "LOAD_NUMBER" (("LOAD_BUSNUMBER", TInt) :: load_entries)%string (load_lines fmt) sorted
              (bu_names b) (bu_map b) (bu_data b)) as (d2 & Ld2 & P2 & S2); auto.
  { apply load_compiles. } { intros p Hp. split; [now apply Hnum|apply load_written; auto]. } { apply Few. apply fewL. }
  fold l2 in P2. rewrite P2; [|reflexivity|exact F2]. cbn [run obind].
  (* shunts *)
  assert (forall (bs bs' : list dc) (L L' : list string), length bs' = length bs -> length bs = length sorted ->
    (forall l p d0 d', nth_error sorted l = Some p -> nth_error bs l = Some d0 -> nth_error bs' l = Some d' ->
       forall t s, slot_good s = true -> ~ In (slot_name s) L -> look d' t s = look d0 t s) ->
    (forall x, In x L' -> ~ In x L) -> Forall (fresh L') bs -> Forall (fresh L') bs') as Keep.
  { intros bs bs' L L' E1 E2 H D F. apply Forall_forall. intros d' Hd. apply In_nth_error in Hd as (l & Hl).
    assert (l < length bs') by (apply nth_error_Some; congruence).
    destruct (nth_error sorted l) as [p|] eqn:Ep; [|apply nth_error_None in Ep; lia].
    destruct (nth_error bs l) as [d0|] eqn:Ed; [|apply nth_error_None in Ed; lia].
    intros t s G I. rewrite (H l p d0 d' Ep Ed Hl t s G (D _ I)). rewrite Forall_forall in F. apply (F d0); auto. eapply nth_error_In; exact Ed. }
  destruct (@dev_chain atof fmt fixed_shunt33 shunt_layout "SHUNT_NUMBER" (("SHUNT_BUSNUMBER", TInt) :: shunt_entries)%string (shunt_lines fmt) sorted
              (bu_names b) (bu_map b) d2) as (d3 & Ld3 & P3 & S3); auto.
  { apply shunt_compiles. } { intros p Hp. split; [now apply Hnum|apply shunt_written; auto]. } { apply Few. apply fewS. } { congruence. } { now rewrite Ld2. }
  { refine (Keep (bu_data b) d2 NL NS Ld2 _ _ _ _); [congruence|intros l p d0 d' A1 A2 A3; now apply (S2 l p d0 d')| |].
    - apply disjoint_names. vm_compute. reflexivity.
    - apply Fr0. vm_compute. reflexivity. }
  fold l3 in P3. rewrite P3; [|reflexivity|exact F3]. cbn [run obind].
  (* generators *)
  destruct (@dev_chain atof fmt (gen33 one zero) (gen33_layout one zero) "GENERATOR_NUMBER" (("GENERATOR_BUSNUMBER", TInt) :: gen_entries)%string
              (gen_lines fmt) sorted (bu_names b) (bu_map b) d3) as (d4 & Ld4 & P4 & S4); auto.
  { apply gen33_compiles. } { intros p Hp. split; [now apply Hnum|apply gen_written; auto]. } { apply Few. apply fewG. } { congruence. } { now rewrite Ld3, Ld2. }
  { refine (Keep d2 d3 NS NG Ld3 _ _ _ _); [congruence|intros l p d0 d' A1 A2 A3; now apply (S3 l p d0 d')| |].
    - apply disjoint_names. vm_compute. reflexivity.
    - refine (Keep (bu_data b) d2 NL NG Ld2 _ _ _ _); [congruence|intros l p d0 d' A1 A2 A3; now apply (S2 l p d0 d')| |].
      + apply disjoint_names. vm_compute. reflexivity.
      + apply Fr0. vm_compute. reflexivity. }
  fold l4 in P4. rewrite P4; [|reflexivity|exact F4]. cbn [run obind].
  (* lines *)
  destruct (@branch_chain atof fmt zero (bu_names b) sortedl) as (br & Fbr & P5); auto.
  { intros p Hp. split; [apply line_written; auto|]. destruct HL as (_ & _ & H & _). apply (H p (In2 p Hp)). }
  { intros p Hp. apply branch_ends_of. auto. }
  { intros p q Hp Hq E. destruct HL as (_ & H & _). apply (H p q (ends p) (ends q)); auto; apply branch_ends_of; auto. }
  { rewrite (sumn_perm _ Pl). apply fewB. }
  fold l5 in P5. rewrite P5; [|reflexivity|exact F5]. cbn [run obind]. exists b, d4, br. split; [reflexivity|]. split; [|exact Fbr].
  apply Forall2_nth; [congruence|]. intros l p d' Hp Hd4.
  assert (l < length sorted) as Hll by (apply nth_error_Some; congruence).
  destruct (nth_error (bu_data b) l) as [d1|] eqn:Hd1; [|apply nth_error_None in Hd1; lia].
  destruct (nth_error d2 l) as [e2|] eqn:Hd2; [|apply nth_error_None in Hd2; lia].
  destruct (nth_error d3 l) as [e3|] eqn:Hd3; [|apply nth_error_None in Hd3; lia].
  destruct (nth_error rb l) as [r|] eqn:Hr; [|apply nth_error_None in Hr; rewrite <- (Forall2_len Frb) in Hr; lia].
  destruct (S2 l p d1 e2 Hp Hd1 Hd2) as (D2 & K2). destruct (S3 l p e2 e3 Hp Hd2 Hd3) as (D3 & K3). destruct (S4 l p e3 d' Hp Hd3 Hd4) as (D4 & K4).
  destruct (Forall2_at _ Frb Hp Hr) as (t & name & Lname & (_ & _ & Sn & Stx & Scol)).
  destruct (Forall2_at _ I1 Hr Hd1) as (B1 & B2 & _ & B4 & B5 & _).
  assert (forall ty s, slot_good s = true -> ~ In (slot_name s) NL -> ~ In (slot_name s) NS -> ~ In (slot_name s) NG -> look d' ty s = look d1 ty s) as K.
  { intros ty s G X1 X2 X3. rewrite K4, K3, K2 by assumption. reflexivity. }
  assert (forall ty n, In n base_names -> look d' ty (Plain n) = look d1 ty (Plain n)) as KB.
  { intros ty n Hn. apply K; [|revert n Hn; apply disjoint_names; vm_compute; reflexivity..].
    assert (forallb no_colon base_names = true) as NC by (vm_compute; reflexivity). rewrite forallb_forall in NC. exact (NC n Hn). }
  assert (forall (entries : list (string * dtype)) L, forallb (fun x => negb (existsb (String.eqb x) L)) (map fst entries) = true ->
     forall n ty, In (n, ty) entries -> ~ In n L) as Sep.
  { intros en L H n ty Hn. apply (disjoint_names _ _ H). apply in_map_iff. exists (n, ty). auto. }
  assert (forall (d d' e : dc) count entries, (forall t s, slot_good s = true -> In (slot_name s) (count :: map fst entries) -> look d' t s = look e t s) ->
     no_colon count = true -> forallb no_colon (map fst entries) = true -> devices d count <= Z.to_nat 9999999 ->
     same_devices atof fmt d e count entries -> same_devices atof fmt d d' count entries) as Carry.
  { intros d dd e count en H C1 C2 Ld (X1 & X2). split.
    - unfold devices at 1. rewrite H; [exact X1|exact C1|now left].
    - intros j n ty Hj Hn. assert (In n (map fst en)) as Hn' by (apply in_map_iff; exists (n, ty); auto).
      rewrite H; [apply X2; auto| |right; exact Hn']. rewrite forallb_forall in C2.
      apply (@good_at n (Z.of_nat j)); [lia|auto]. }
  assert (forall count, few count (actives buses) -> devices (pl_data p) count <= Z.to_nat 9999999) as One.
  { intros count F. pose proof (sumn_in (fun p => devices (pl_data p) count) sorted p (nth_error_In _ _ Hp)). cbn beta in *. specialize (Few count F). lia. }
  split; [|rewrite KB by (cbn; tauto); exact B2]. split; [|split; [|split]].
  - destruct (bus_num p (In1 p (nth_error_In _ _ Hp))) as (z & n & Ez & _ & L0 & _).
    intros nm ty Hn. destruct Hn as [Hn|[Hn|Hn]].
    + inversion Hn; subst. rewrite KB by (cbn; tauto). rewrite B1, Sn. rewrite current_plain by reflexivity. rewrite L0. reflexivity.
    + inversion Hn; subst. rewrite KB by (cbn; tauto). rewrite B4, Stx. rewrite current_plain by reflexivity. rewrite Lname. cbn [option_map XpSpec.reread].
      now rewrite string_of_list_ascii_of_string.
    + assert (exists c k, In (c, nm, k) bus_layout /\ kind_type k = ty) as (c & k & Hc & <-).
      { cbn in Hn. cases Hn; eexists _, _; (split; [pick|reflexivity]). }
      rewrite KB; [rewrite B5 with (c := c) by exact Hc; now apply Scol|]. unfold base_names. do 4 right. apply in_map_iff. exists (c, nm, k). auto.
  - eapply Carry; [|reflexivity|reflexivity|apply One; apply fewL|exact D2]. intros ty s G I. rewrite K4, K3; auto.
    + revert I. apply disjoint_names. vm_compute. reflexivity.
    + revert I. apply disjoint_names. vm_compute. reflexivity.
  - eapply Carry; [|reflexivity|reflexivity|apply One; apply fewS|exact D3]. intros ty s G I. apply K4; auto.
    revert I. apply disjoint_names. vm_compute. reflexivity.
  - exact D4.
Qed.
End Main.

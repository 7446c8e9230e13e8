(** Properties of the transformer section of a RAW case (C25 three windings, C51 two windings). *)
From Coq Require Import Reals Lra.
From Coquelicot Require Import Complex.
From Verif Require Import Prelude StrModel RecModel RecSpec XfModel YbSpec XfSpec XfProofs XfProofs2 XfProofs3.
Open Scope R_scope.

(** ** The section *)
(** A section of readable records, with comments between them, is read to its terminating line and adds exactly what each record says, one
    after the other ([one], XfSpec): a three-winding record a star of three branches around a new bus, a two-winding record one element.
    Missing: impedances given on another base than the case's (C25_base_refuted), zero bases (C25_zero_base_refuted), the ratings of windings
    2 and 3 in versions 34 and 35 (C25_ratings_refuted). *)
Theorem C25_star_partial :
  forall atof names bmap sbase v buses brs bm mx ls rs term rest fuel,
    xreads names ls rs -> Forall (readable (case_base atof sbase) v names bmap) rs -> test_end term = false -> (length ls < fuel)%nat ->
    buses_ok bmap buses -> map_ok bm (length brs) ->
    exists s', xf_parse atof names bmap sbase fuel v (ls ++ term :: rest)%list buses brs bm mx = Some (Ok (s', rest)) /\
      all_of (one atof names bmap sbase (star_of atof sbase) v) rs (XState buses brs bm (Z.of_nat (length brs)) mx) s'.
Proof.
  intros atof names bmap sbase v buses brs bm mx ls rs term rest fuel R F T L B M.
  exact (@xf_loop_reads atof names bmap sbase v (case_base atof sbase) (star_of atof sbase) ls rs (fun r1 r2 => @star_values_case atof sbase r1 r2) R F
    fuel (XState buses brs bm (Z.of_nat (length brs)) mx) term rest T L B M).
Qed.
Print Assumptions C25_star_partial.

(** The same whatever the bases, as long as they are not zero: the star is that of the impedances as they are written. *)
Theorem C25_star_as_given :
  forall atof names bmap sbase v buses brs bm mx ls rs term rest fuel,
    xreads names ls rs -> Forall (readable (bases_nonzero atof) v names bmap) rs -> test_end term = false -> (length ls < fuel)%nat ->
    buses_ok bmap buses -> map_ok bm (length brs) ->
    exists s', xf_parse atof names bmap sbase fuel v (ls ++ term :: rest)%list buses brs bm mx = Some (Ok (s', rest)) /\
      all_of (one atof names bmap sbase (star_as_given atof) v) rs (XState buses brs bm (Z.of_nat (length brs)) mx) s'.
Proof.
  intros atof names bmap sbase v buses brs bm mx ls rs term rest fuel R F T L B M.
  exact (@xf_loop_reads atof names bmap sbase v (bases_nonzero atof) (star_as_given atof) ls rs (fun r1 r2 => @star_values_given atof sbase r1 r2) R F
    fuel (XState buses brs bm (Z.of_nat (length brs)) mx) term rest T L B M).
Qed.
Print Assumptions C25_star_as_given.

(** The elements stored for a pair of buses after the section: those stored before, then the two-winding transformers between the two buses, in
    whichever order these are written, in file order, each with its own data ([two_element]: tag, the fields of lines 1 and 3 under their
    names, and a ratio and impedance that behave at both terminals like the two-winding transformer described).
    Missing: impedances on the case base while SBASE1-2 is another base (C51_case_base_refuted), winding voltages not given in per unit of the
    bus voltage or in kV with the bus voltage as nominal voltage (C51_nominal_voltage_refuted), the side of the ratio for a reversed pair
    (C51_reversed_refuted), magnetizing admittance (C51_magnetizing_refuted), ratings in versions 34, 35 (C51_ratings_refuted). *)
Theorem C51_two_windings_partial :
  forall atof names bmap sbase v buses brs bm mx ls rs term rest fuel,
    xreads names ls rs -> Forall (readable (bases_nonzero atof) v names bmap) rs -> test_end term = false -> (length ls < fuel)%nat ->
    buses_ok bmap buses -> map_ok bm (length brs) -> map_one bm ->
    exists s', xf_parse atof names bmap sbase fuel v (ls ++ term :: rest)%list buses brs bm mx = Some (Ok (s', rest)) /\
      forall a c, exists es, elements s' a c = (elements (XState buses brs bm (Z.of_nat (length brs)) mx) a c ++ es)%list /\
        Forall2 (fun x e => match x with X2 r1 r2 r3 r4 => two_element atof sbase v r1 r2 r3 r4 e | X3 _ _ _ _ _ => False end)
                (filter (joins2 names a c) rs) es.
Proof.
  intros atof names bmap sbase v buses brs bm mx ls rs term rest fuel R F T L B M O.
  destruct (@C25_star_as_given atof names bmap sbase v buses brs bm mx ls rs term rest fuel R F T L B M) as (s' & E & A). exists s'. split; [exact E|].
  intros a c. exact (elements_all a c A O M).
Qed.
Print Assumptions C51_two_windings_partial.

Definition ex_atof (t : str) : R := if str_eqb t (s_ "100") then 100 else if str_eqb t (s_ "50") then 50 else if str_eqb t (s_ "0") then 0 else 1.
Definition ex_lines (b : string) : list str :=
  [s_ "// transformers"; s_ "1, 2, 3, 'T1', 1, 2, 1, 0, 0, 2, 'NAME', 2"; s_ ("1,1," ++ b ++ ",1,1,100,1,1,100,1.0,0.0"); s_ "1.05,0,30,10,20,30"; s_ "1.0,0,0,10,20,30";
   s_ "1.0,0,0,11,21,31"; s_ "2, 1, 0, 'T2', 1, 2, 1, 0, 0, 2, 'N', 1"; s_ "1,1,50"; s_ "1.1,0,0,10,20,30,0,0,1.1,0.9,1.1,0.9,33,0,0,0"; s_ "1.02, 0"].
Definition ex_three (b : string) : xrec :=
  X3 (map s_ ["1"; "2"; "3"; "'T1'"; "1"; "2"; "1"; "0"; "0"; "2"; "'NAME'"; "2"]%string) (map s_ ["1"; "1"; b; "1"; "1"; "100"; "1"; "1"; "100"; "1.0"; "0.0"]%string)
     (map s_ ["1.05"; "0"; "30"; "10"; "20"; "30"]%string) (map s_ ["1.0"; "0"; "0"; "10"; "20"; "30"]%string) (map s_ ["1.0"; "0"; "0"; "11"; "21"; "31"]%string).
Definition ex_two : xrec :=
  X2 (map s_ ["2"; "1"; "0"; "'T2'"; "1"; "2"; "1"; "0"; "0"; "2"; "'N'"; "1"]%string) (map s_ ["1"; "1"; "50"]%string)
     (map s_ ["1.1"; "0"; "0"; "10"; "20"; "30"; "0"; "0"; "1.1"; "0.9"; "1.1"; "0.9"; "33"; "0"; "0"; "0"]%string) (map s_ ["1.02"; "0"]%string).
Definition ex_bmap : list (Z * nat) := [(1%Z, 0%nat); (2%Z, 1%nat); (3%Z, 2%nat)].
Definition ex_buses : list entries := let b := [("BUS_AREA", XI 4); ("BUS_OWNER", XI 5)]%string in [b; b; b].
Definition ex_brs : list xbranch := [XBranch [("BRANCH_FROMBUS", XI 1); ("BRANCH_TOBUS", XI 2)]%string [[("BRANCH_R", XR (Some 1))]%string]].
Definition ex_map : list ((Z * Z) * nat) := [((1%Z, 2%Z), 0%nat)].
Ltac by_compute := repeat (apply conj); vm_compute; reflexivity.
Lemma ex_reads b : In b ["100"; "50"; "0"]%string -> xreads [] (ex_lines b) [ex_three b; ex_two].
Proof.
  intro H. apply xr_comment; [by_compute|].
  eapply xr_three with (k := 3%Z); [by_compute|exists (s_ "3"); by_compute|discriminate| | | | |].
  1: cbn [In] in H; decompose [or] H; subst; try contradiction; by_compute.
  1-3: by_compute.
  eapply xr_two; [by_compute|exists (s_ "0"); by_compute|by_compute|by_compute|by_compute|constructor].
Qed.
Lemma ex_readable (base : list str -> list str -> Prop) b : base (match ex_three b with X3 r1 _ _ _ _ => r1 | X2 r1 _ _ _ => r1 end) (match ex_three b with X3 _ r2 _ _ _ => r2 | X2 r1 _ _ _ => r1 end) ->
  Forall (readable base V33 [] ex_bmap) [ex_three b; ex_two].
Proof.
  intro H. constructor; [|constructor; [|constructor]].
  - right. split; [|exact H]. split; [cbn; lia|]. split; [eexists (s_ "'T1'"), _; split; [reflexivity|vm_compute; reflexivity]|]. split; [cbn; lia|].
    split; [exists 2%Z, (s_ "2"); by_compute|].
    split; [cbn [In]; intros r [<-|[<-|[<-|[]]]]; cbn; lia|].
    exists 1%Z, 2%Z, 3%Z. repeat apply conj; [exists (s_ "1"); by_compute|exists (s_ "2"); by_compute|exists (s_ "3"); by_compute| | |]; discriminate.
  - split; [|split; [exists 2%Z, (s_ "2"); by_compute|exists 1%Z, (s_ "1"); by_compute]].
    split; [cbn; lia|]. split; [apply ints_okb_ok; vm_compute; reflexivity|]. split; [eexists (s_ "'T2'"), _; split; [reflexivity|vm_compute; reflexivity]|].
    split; [cbn; lia|]. split; [cbn; lia|]. split; [apply ints_okb_ok; vm_compute; reflexivity|]. cbn; lia.
Qed.
Lemma ex_buses_ok : buses_ok ex_bmap ex_buses.
Proof.
  intros o l H. unfold ex_bmap in H. cbn [zfind] in H.
  repeat match type of H with (if ?c then _ else _) = _ => destruct c; [inversion H; subst; do 3 eexists; repeat split; reflexivity|] end. discriminate.
Qed.
Lemma ex_map_ok : map_ok ex_map (length ex_brs) /\ map_one ex_map.
Proof.
  unfold ex_map, ex_brs. split; [|split].
  - intros p l. cbn [pfind length]. destruct (_ && _)%bool; intro H; inversion H. lia.
  - intros a c l. cbn [pfind fst snd]. destruct ((1 =? a)%Z && (2 =? c)%Z) eqn:E; [|discriminate]. intros _ _. apply andb_true_iff in E.
    rewrite !Z.eqb_eq in E. destruct E; subst. reflexivity.
  - intros [p1 p2] [q1 q2] l. cbn [pfind fst snd]. destruct ((1 =? p1)%Z && (2 =? p2)%Z) eqn:E; [|discriminate].
    destruct ((1 =? q1)%Z && (2 =? q2)%Z) eqn:E2; [|discriminate]. apply andb_true_iff in E, E2. rewrite !Z.eqb_eq in E, E2. destruct E, E2; subst. reflexivity.
Qed.
Lemma ex_bases b : In b ["100"; "50"]%string -> forall r1, bases_nonzero ex_atof r1 (match ex_three b with X3 _ r2 _ _ _ => r2 | X2 r1 _ _ _ => r1 end).
Proof.
  intros H r1 c Hc. cbn [In] in H, Hc. decompose [or] H; try contradiction; subst; decompose [or] Hc; try contradiction; subst;
  unfold val, ex_atof; cbn [ex_three map nth_error]; match goal with |- (if ?x then _ else _) <> 0 => let v := eval vm_compute in x in change x with v end; cbv iota; try lra;
  match goal with |- (if ?x then _ else _) <> 0 => let v := eval vm_compute in x in change x with v end; cbv iota; lra.
Qed.
Example C25_nonvacuous :
  xreads [] (ex_lines "100") [ex_three "100"; ex_two] /\ Forall (readable (case_base ex_atof 100) V33 [] ex_bmap) [ex_three "100"; ex_two] /\
  Forall (readable (bases_nonzero ex_atof) V33 [] ex_bmap) [ex_three "50"; ex_two] /\ buses_ok ex_bmap ex_buses /\
  map_ok ex_map (length ex_brs) /\ map_one ex_map /\ test_end (s_ "0 / END") = false /\ filter (joins2 [] 1 2) [ex_three "100"; ex_two] = [ex_two].
Proof.
  split; [apply ex_reads; cbn; auto|]. split; [|split; [|split; [exact ex_buses_ok|split; [apply ex_map_ok|split; [apply ex_map_ok|split; vm_compute; reflexivity]]]]].
  - apply ex_readable. split; [lra|]. intros c Hc. split; [now apply (@ex_bases "100" (or_introl eq_refl) [])|]. right.
    split; [exists (s_ "2"); by_compute|]. cbn [In] in Hc. decompose [or] Hc; try contradiction; subst; unfold val, ex_atof; cbn [ex_three map nth_error];
    match goal with |- (if ?x then _ else _) = _ => let v := eval vm_compute in x in change x with v end; reflexivity.
  - apply ex_readable. apply ex_bases. cbn; auto.
Qed.

(** ** C25: what is missing *)
(** Impedances given on the base of a pair of windings (CZ = 2) are not converted to the case base: the sum of the branches 1 and 2 is the
    impedance as written, here on 50 MVA, in a case on 100 MVA. *)
Theorem C25_base_refuted :
  exists s' b1 b2 e1 e2 r_1 r_2,
    xf_parse ex_atof [] ex_bmap 100 20 V33 (ex_lines "50" ++ [s_ "0"])%list ex_buses ex_brs ex_map 3 = Some (Ok (s', [])) /\
    nth_error (x_br s') 1 = Some b1 /\ nth_error (x_br s') 2 = Some b2 /\ xb_elems b1 = [e1] /\ xb_elems b2 = [e2] /\
    xget e1 "BRANCH_R"%string = Some (XR (Some r_1)) /\ xget e2 "BRANCH_R"%string = Some (XR (Some r_2)) /\
    code (match ex_three "50" with X3 r1 _ _ _ _ => r1 | X2 r1 _ _ _ => r1 end) 5 2 /\
    r_1 + r_2 = 1 /\ on_case 100 2 1 50 = 2.
Proof.
  destruct (@C25_star_as_given ex_atof [] ex_bmap 100 V33 ex_buses ex_brs ex_map 3 (ex_lines "50") [ex_three "50"; ex_two] (s_ "0") [] 20) as (s' & E & A).
  - apply ex_reads. cbn; auto.
  - apply ex_readable. apply ex_bases. cbn; auto.
  - reflexivity.
  - cbn; lia.
  - exact ex_buses_ok.
  - apply ex_map_ok.
  - inversion A as [|x rs s s1 s2 P A1]; subst. clear A. inversion A1 as [|x rs s s1' s2 P2 A2]; subst. clear A1. inversion A2; subst. clear A2.
    destruct P as [[C0 _]|P].
    { exfalso. destruct C0 as (t & Et & Ea). cbn in Et. inversion Et; subst. vm_compute in Ea. discriminate. }
    destruct P as (? & ? & ? & ? & ? & ? & bus & b1 & b2 & b3 & p1 & p2 & p3 & _ & _ & _ & _ & _ & _ & Em & _ & _ & _ & _ & _ & _ & _ & _ & _ & Er & S & W1 & W2 & W3).
    destruct S as (z1 & z2 & z3 & -> & -> & -> & S12 & _ & _).
    destruct W1 as (_ & _ & e1 & X1 & _ & R1 & _). destruct W2 as (_ & _ & e2 & Y2 & _ & R2 & _).
    assert (K : nth_error (x_br s') 1 = Some b1 /\ nth_error (x_br s') 2 = Some b2).
    { destruct P2 as (o1 & o2 & e & B1 & B2 & _ & _ & _ & H). apply bus_field_ok in B1. apply bus_field_ok in B2.
      vm_compute in B1. vm_compute in B2. inversion B1; subst o1. inversion B2; subst o2. rewrite Em in H. cbn [x_map] in H.
      destruct H as [(p & l & b & Hp & Hl & Hb & Ex & _)|(_ & N & _)]; [|vm_compute in N; discriminate].
      assert (l = 0%nat). { destruct Hp as [->|[-> _]]; vm_compute in Hl; inversion Hl; reflexivity. } subst l.
      rewrite Ex, Er. split; rewrite nth_error_upd_other by lia; reflexivity. }
    destruct K as [K1 K2].
    exists s', b1, b2, e1, e2, (fst z1), (fst z2). repeat (split; [eassumption|]).
    split; [exists (s_ "2"); by_compute|]. split.
    + pose proof (f_equal fst S12) as Q. cbn [fst Cplus] in Q. rewrite Q. cbn [fst].
      unfold val, ex_atof. cbn [ex_three map nth_error].
      repeat match goal with |- (if ?x then _ else _) = _ => let v := eval vm_compute in x in change x with v; cbv iota end. reflexivity.
    + unfold on_case. change (2 =? 1)%Z with false. cbv iota. destruct (Req_EM_T 50 0); lra.
Qed.
Print Assumptions C25_base_refuted.

(** A zero base, which the format allows as the default, makes the impedance of a branch not finite. *)
Theorem C25_zero_base_refuted :
  forall atof names bmap sbase v l1 l2 l3 l4 l5 st r1 r2 r3 r4 r5 k s,
    record_line l1 r1 -> bus_field names r1 2 k -> k <> 0%Z -> inner_line l2 r2 -> inner_line l3 r3 -> inner_line l4 r4 -> inner_line l5 r5 ->
    readable3 v bmap names r1 r2 r3 r4 r5 -> buses_ok bmap (x_bus s) -> ~ code r1 11 0 -> val atof r2 2 = 0 -> sbase <> 0 ->
    exists s' b1 e1, xf_record atof names bmap sbase v l1 (l2 :: l3 :: l4 :: l5 :: st) s = go_on st s' /\
      nth_error (x_br s') (length (x_br s)) = Some b1 /\ xb_elems b1 = [e1] /\
      xget e1 "BRANCH_R"%string = Some (XR None) /\ xget e1 "BRANCH_X"%string = Some (XR None).
Proof.
  intros atof names bmap sbase v l1 l2 l3 l4 l5 st r1 r2 r3 r4 r5 k s R1 B3 Hk I2 I3 I4 I5 Hr Hb Hn Hz Hs.
  destruct (@record_three atof names bmap sbase v (fun _ _ p1 _ _ => p1 = (None, None)) l1 l2 l3 l4 l5 st r1 r2 r3 r4 r5 k s) as (s' & E & O); auto.
  { unfold star_values. rewrite Hz. unfold correct, fdiv. destruct (Req_EM_T 0 sbase); [congruence|]. destruct (Req_EM_T 0 0); [reflexivity|contradiction]. }
  destruct O as [[C0 _]|O]; [contradiction|].
  destruct O as (? & ? & ? & ? & ? & ? & bus & b1 & b2 & b3 & p1 & p2 & p3 & _ & _ & _ & _ & _ & _ & _ & _ & _ & _ & _ & _ & _ & _ & _ & _ & Er & S & W1 & _).
  destruct W1 as (_ & _ & e1 & X1 & _ & Rr & Rx & _). subst p1. exists s', b1, e1. repeat split; auto.
  rewrite Er, nth_error_app2, Nat.sub_diag by lia. reflexivity.
Qed.
Print Assumptions C25_zero_base_refuted.

(** A winding on a bus that is not in the case is not reported: the position used for it was never set. *)
Theorem C25_unknown_bus_refuted :
  forall atof names bmap sbase v l1 l2 st r1 r2 o1 o2 k stat s,
    record_line l1 r1 -> inner_line l2 r2 -> bus_field names r1 0 o1 -> bus_field names r1 1 o2 -> bus_field names r1 2 k -> k <> 0%Z ->
    (4 <= length r2)%nat -> code r1 11 stat -> stat <> 0%Z -> (zfind bmap o1 = None \/ zfind bmap o2 = None \/ zfind bmap k = None) ->
    xf_record atof names bmap sbase v l1 (l2 :: st) s = UB.
Proof.
  intros atof names bmap sbase v l1 l2 st r1 r2 o1 o2 k stat s (_ & _ & S1) I2 B1 B2 B3 Hk L2 Hs Hn H.
  unfold xf_record. rewrite S1. cbn [obind]. rewrite (bus_field_ok B1), (bus_field_ok B2), (bus_field_ok B3). cbn [obind]. apply Z.eqb_neq in Hk. rewrite Hk.
  unfold three. rewrite (read_inner _ _ _ I2), (code_int Hs). cbn [obind].
  assert (X : (length r2 <? 4)%nat = false) by (apply Nat.ltb_ge; lia). apply Z.eqb_neq in Hn. rewrite X, Hn. cbn [orb]. unfold bus_at.
  destruct (zfind bmap o1); [|reflexivity]. cbn [obind]. destruct (zfind bmap o2); [|reflexivity]. cbn [obind].
  destruct (zfind bmap k); [|reflexivity]. destruct H as [H|[H|H]]; discriminate.
Qed.
Print Assumptions C25_unknown_bus_refuted.

(** A comment line inside a record drops the record, and the line after the comment is taken for the first line of a new one. *)
Theorem C25_comment_refuted :
  forall atof names bmap sbase v l1 c l2 st r1 o1 o2 k s,
    record_line l1 r1 -> bus_field names r1 0 o1 -> bus_field names r1 1 o2 -> bus_field names r1 2 k -> check_comment c = true ->
    xf_record atof names bmap sbase v l1 (c :: l2 :: st) s = Ok (l2, st, s).
Proof.
  intros atof names bmap sbase v l1 c l2 st r1 o1 o2 k s (_ & _ & S1) B1 B2 B3 Hc.
  unfold xf_record. rewrite S1. cbn [obind]. rewrite (bus_field_ok B1), (bus_field_ok B2), (bus_field_ok B3). cbn [obind].
  unfold two, three, read_line. cbn [next_line]. rewrite Hc. cbn [next_line]. destruct (k =? 0)%Z; reflexivity.
Qed.
Print Assumptions C25_comment_refuted.

(** ** C51: what is missing *)
(** In versions 34 and 35 a two-winding transformer has no rating under the names the limit checks read (C49), and in version 35 no twelfth one. *)
Theorem C51_ratings_refuted :
  forall atof sbase v r1 r2 r3 r4 e, readable2 v r1 r2 r3 r4 -> two_elem atof sbase v r1 r2 r3 r4 = Ok e -> v <> V33 ->
    xget e "BRANCH_RATING_A"%string = None /\ xget e "BRANCH_RATING_B"%string = None /\ xget e "BRANCH_RATING_C"%string = None /\
    (v = V35 -> xget e "BRANCH_RATE12"%string = None).
Proof.
  intros atof sbase v r1 r2 r3 r4 e Hr He Hv. destruct v; [contradiction| |].
  - split; [|split; [|split; [|intro K; discriminate K]]]; apply (two_elem_absent _ _ _ Hr He); reflexivity.
  - split; [|split; [|split; [|intros _]]]; apply (two_elem_absent _ _ _ Hr He); reflexivity.
Qed.
Print Assumptions C51_ratings_refuted.
(** Nothing marks an element whose pair of buses is stored in the other order: its ratio is then taken to be at the other bus. *)
Theorem C51_reversed_refuted :
  forall atof names sbase v r1 r2 r3 r4 s o1 o2 l b,
    readable2 v r1 r2 r3 r4 -> bus_field names r1 0 o1 -> bus_field names r1 1 o2 -> pfind (x_map s) (o1, o2) = None -> pfind (x_map s) (o2, o1) = Some l ->
    nth_error (x_br s) l = Some b ->
    exists e, two_elem atof sbase v r1 r2 r3 r4 = Ok e /\ two_slot s o1 o2 = (s, l) /\ xget e "BRANCH_SWITCHED"%string = None.
Proof.
  intros atof names sbase v r1 r2 r3 r4 s o1 o2 l b Hr B1 B2 P1 P2 Hb. destruct (two_elem_ok atof sbase Hr) as (e & E & _). exists e. split; [exact E|].
  split; [unfold two_slot; rewrite P1, P2; reflexivity|]. apply (two_elem_absent _ _ _ Hr E); destruct v; reflexivity.
Qed.
Print Assumptions C51_reversed_refuted.
(** The magnetizing admittance is not stored as the shunt at the first bus. *)
Theorem C51_magnetizing_refuted :
  forall atof sbase v r1 r2 r3 r4 e, readable2 v r1 r2 r3 r4 -> two_elem atof sbase v r1 r2 r3 r4 = Ok e ->
    xget e "BRANCH_SHUNT_ADMTTNC_G1"%string = None /\ xget e "BRANCH_SHUNT_ADMTTNC_B1"%string = None.
Proof. intros atof sbase v r1 r2 r3 r4 e Hr He. split; apply (two_elem_absent _ _ _ Hr He); destruct v; reflexivity. Qed.
Print Assumptions C51_magnetizing_refuted.
(** Impedances given on the case base (CZ = 1) are converted as if they were on the base SBASE1-2. *)
Theorem C51_case_base_refuted :
  forall atof sbase v r1 r2 r3 r4 e, readable2 v r1 r2 r3 r4 -> two_elem atof sbase v r1 r2 r3 r4 = Ok e ->
    code r1 4 1 -> code r1 5 1 -> val atof r4 0 = 1 -> val atof r2 2 <> sbase -> val atof r2 2 <> 0 -> val atof r2 0 <> 0 ->
    exists r, xget e "BRANCH_R"%string = Some (XR (Some r)) /\ r <> on_case sbase 1 (val atof r2 0) (val atof r2 2).
Proof.
  intros atof sbase v r1 r2 r3 r4 e Hr He Hcw Hcz Hw H1 H2 H3. destruct (two_elem_mid _ _ Hr Hcw He) as (_ & A & _). cbv zeta in A.
  unfold windvs in A. change (1 =? 2)%Z with false in A. cbv iota in A. cbn [snd] in A. rewrite Hw in A. unfold to_case, fmul, fdiv in A.
  destruct (Req_EM_T (val atof r2 2) sbase); [contradiction|]. destruct (Req_EM_T (val atof r2 2) 0); [contradiction|].
  eexists. split; [exact A|]. unfold on_case. change (1 =? 1)%Z with true. cbv iota. intro E. apply H1.
  assert (X : val atof r2 0 * sbase = val atof r2 0 * val atof r2 2). { rewrite <- E at 2. field. exact H2. }
  apply Rmult_eq_reg_l in X; auto.
Qed.
Print Assumptions C51_case_base_refuted.
(** With winding voltages in kV (CW = 2) and the nominal voltage left at its default 0 (meaning the voltage of the bus) the ratio is not finite. *)
Theorem C51_nominal_voltage_refuted :
  forall atof sbase v r1 r2 r3 r4 e, readable2 v r1 r2 r3 r4 -> two_elem atof sbase v r1 r2 r3 r4 = Ok e ->
    code r1 4 2 -> val atof r3 1 = 0 -> xget e "BRANCH_TAP"%string = Some (XR None).
Proof.
  intros atof sbase v r1 r2 r3 r4 e Hr He Hcw Hn. destruct (two_elem_mid _ _ Hr Hcw He) as (A & _). cbv zeta in A.
  rewrite A. unfold windvs. change (2 =? 2)%Z with true. cbv iota. cbn [fst snd]. rewrite Hn. unfold fdiv at 2. destruct (Req_EM_T 0 0); [reflexivity|contradiction].
Qed.
Print Assumptions C51_nominal_voltage_refuted.
Example C51_nonvacuous :
  match ex_two with
  | X2 r1 r2 r3 r4 => readable2 V33 r1 r2 r3 r4 /\ code r1 4 1 /\ code r1 5 2 /\
      val ex_atof r3 0 <> 0 /\ val ex_atof r4 0 <> 0 /\ val ex_atof r2 2 = 50 /\ pfind ex_map (2, 1)%Z = None /\ pfind ex_map (1, 2)%Z = Some 0%nat
  | _ => False end.
Proof.
  pose proof (@ex_readable (fun _ _ => True) "100" I) as F. inversion F as [|? ? _ F2]; subst. inversion F2 as [|? ? H _]; subst. destruct H as (H & _).
  split; [exact H|]. split; [exists (s_ "1"); by_compute|]. split; [exists (s_ "2"); by_compute|].
  unfold val, ex_atof. cbn [ex_two map nth_error]. repeat split; try reflexivity;
  repeat match goal with |- context [if ?x then _ else _] => let v := eval vm_compute in x in change x with v; cbv iota end; lra.
Qed.

(** In versions 34 and 35 the branches of windings 2 and 3 have no ratings. *)
Theorem C25_ratings_refuted :
  forall atof names bmap sbase v l1 l2 l3 l4 l5 st r1 r2 r3 r4 r5 k s,
    v <> V33 -> record_line l1 r1 -> bus_field names r1 2 k -> k <> 0%Z -> inner_line l2 r2 -> inner_line l3 r3 -> inner_line l4 r4 -> inner_line l5 r5 ->
    readable3 v bmap names r1 r2 r3 r4 r5 -> buses_ok bmap (x_bus s) -> ~ code r1 11 0 ->
    exists s' b1 b2 b3 e2 e3, xf_record atof names bmap sbase v l1 (l2 :: l3 :: l4 :: l5 :: st) s = go_on st s' /\
      x_br s' = (x_br s ++ [b1; b2; b3])%list /\ xb_elems b2 = [e2] /\ xb_elems b3 = [e3] /\
      forall e name, In e [e2; e3] -> In name ["BRANCH_RATING_A"; "BRANCH_RATING_B"; "BRANCH_RATING_C"]%string -> xget e name = None.
Proof.
  intros atof names bmap sbase v l1 l2 l3 l4 l5 st r1 r2 r3 r4 r5 k s Hv (_ & _ & S1) B3 Hk I2 I3 I4 I5
    (L1 & (t & tag & Et & Eg) & L2 & (stat & Hs) & Lw & (o1 & o2 & o3 & Q1 & Q2 & Q3 & N1 & N2 & N3)) Hb H0.
  rewrite (bus_field_fun B3 Q3) in Hk. unfold xf_record. rewrite S1. cbn [obind].
  rewrite (bus_field_ok Q1), (bus_field_ok Q2), (bus_field_ok Q3). cbn [obind]. apply Z.eqb_neq in Hk. rewrite Hk.
  unfold three. rewrite (read_inner _ _ _ I2), (code_int Hs). cbn [obind].
  assert (X : (length r2 <? 4)%nat = false) by (apply Nat.ltb_ge; lia). rewrite X. cbn [orb].
  destruct (stat =? 0)%Z eqn:E0. { apply Z.eqb_eq in E0. subst. contradiction. }
  unfold bus_at. destruct (zfind bmap o1) as [i1|] eqn:F1; [|contradiction]. destruct (zfind bmap o2) as [i2|]; [|contradiction].
  destruct (zfind bmap o3) as [i3|]; [|contradiction]. cbn [obind]. destruct (Hb _ _ F1) as (d & a & w & Ed & Ea & Ew).
  unfold bus_entry. rewrite Ed, Ea, Ew. cbn [obind]. rewrite !num_ok by lia. cbn [obind]. unfold col at 1. rewrite Et. cbn [obind]. rewrite Eg. cbn [obind].
  rewrite (read_inner _ _ _ I3), (winding_ok atof v r3 (Lw r3 ltac:(cbn; auto))). cbn [obind].
  rewrite (read_inner _ _ _ I4), (winding_ok atof v r4 (Lw r4 ltac:(cbn; auto))). cbn [obind].
  rewrite (read_inner _ _ _ I5), (winding_ok atof v r5 (Lw r5 ltac:(cbn; auto))). cbn [obind].
  match goal with |- exists s' b1 b2 b3 e2 e3, go_on st ?S = _ /\ _ => exists S; set (s' := S) end.
  assert (Hbr : exists b1 b2 b3 e2 e3, x_br s' = (x_br s ++ [b1; b2; b3])%list /\ xb_elems b2 = [e2] /\ xb_elems b3 = [e3] /\
      forall e name, In e [e2; e3] -> In name ["BRANCH_RATING_A"; "BRANCH_RATING_B"; "BRANCH_RATING_C"]%string -> xget e name = None).
  { unfold s'. rewrite ?br_set, ?br_push, ?br_set, ?br_push, ?br_set, ?br_push. cbn [x_br]. rewrite three_upds.
    do 5 eexists. split; [reflexivity|]. split; [reflexivity|]. split; [reflexivity|].
    intros e name [<-|[<-|[]]] Hn; rewrite star_get; cbn [In] in Hn; decompose [or] Hn; try contradiction; subst name; destruct v; try contradiction; reflexivity. }
  destruct Hbr as (b1 & b2 & b3 & e2 & e3 & Hbr). exists b1, b2, b3, e2, e3. split; [reflexivity|exact Hbr].
Qed.
Print Assumptions C25_ratings_refuted.

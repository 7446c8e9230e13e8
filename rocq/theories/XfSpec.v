(** Specification of the transformer section of a RAW case (C25, C51): what the PSS/E format says a record means.
    From the model it uses only the types of its state, the lookup [xget] and the field readers of C23 and C43. *)
From Verif Require Import Prelude StrModel RecModel RecSpec XfModel YbSpec.
From Coq Require Import Reals.
From Coquelicot Require Import Complex.
Open Scope R_scope.

(** ** Records
    A two-winding transformer takes four lines, a three-winding one five; the third field of the first line tells them apart.  [X2] and [X3]
    hold the fields of these lines. *)
Inductive xrec := X2 (r1 r2 r3 r4 : list str) | X3 (r1 r2 r3 r4 r5 : list str).
Definition inner_line (l : str) (r : list str) : Prop := check_comment l = false /\ split_of (clean_comment l) = Ok r.
Definition bus_field (names : list (str * Z)) (r : list str) (c : nat) (o : Z) : Prop :=
  exists t, nth_error r c = Some t /\ get_bus_index (sfind names) t = Ok o.
(** Lines and the records in them; comments stand between records, not inside. *)
Inductive xreads (names : list (str * Z)) : list str -> list xrec -> Prop :=
| xr_nil : xreads names [] []
| xr_comment l ls rs : comment_line l -> xreads names ls rs -> xreads names (l :: ls) rs
| xr_two l1 l2 l3 l4 ls r1 r2 r3 r4 rs : record_line l1 r1 -> bus_field names r1 2 0 ->
    inner_line l2 r2 -> inner_line l3 r3 -> inner_line l4 r4 -> xreads names ls rs ->
    xreads names (l1 :: l2 :: l3 :: l4 :: ls) (X2 r1 r2 r3 r4 :: rs)
| xr_three l1 l2 l3 l4 l5 ls r1 r2 r3 r4 r5 rs k : record_line l1 r1 -> bus_field names r1 2 k -> k <> 0%Z ->
    inner_line l2 r2 -> inner_line l3 r3 -> inner_line l4 r4 -> inner_line l5 r5 -> xreads names ls rs ->
    xreads names (l1 :: l2 :: l3 :: l4 :: l5 :: ls) (X3 r1 r2 r3 r4 r5 :: rs).

(** ** The fields of a line, in the order of the format, and the names under which they are stored. *)
Inductive field := FSkip | FInt (names : list string) | FDbl (names : list string).
(** I,J,K,CKT,CW,CZ,CM,MAG1,MAG2,NMETR,'NAME',STAT,O1,F1,...,O4,F4 *)
Definition layout1 : list field :=
  [FSkip; FSkip; FSkip; FSkip; FInt ["TRANSFORMER_CW"]; FInt ["TRANSFORMER_CZ"]; FInt ["TRANSFORMER_CM"]; FDbl ["TRANSFORMER_MAG1"];
   FDbl ["TRANSFORMER_MAG2"; "BRANCH_B"]; FInt ["TRANSFORMER_NMETR"]; FSkip; FInt ["BRANCH_STATUS"]; FInt ["BRANCH_O1"]; FInt ["BRANCH_F1"];
   FInt ["BRANCH_O2"]; FInt ["BRANCH_F2"]; FInt ["BRANCH_O3"]; FInt ["BRANCH_F3"]; FInt ["BRANCH_O4"]; FInt ["BRANCH_F4"]]%string.
(** Version 33: WINDV1,NOMV1,ANG1,RATA1,RATB1,RATC1,COD1,CONT1,RMA1,RMI1,VMA1,VMI1,NTP1,TAB1,CR1,CX1,CNXA1.
    Version 34 has twelve ratings; version 35 has NODE1 after CONT1. *)
Definition rates : list field :=
  [FDbl ["BRANCH_RATE1"]; FDbl ["BRANCH_RATE2"]; FDbl ["BRANCH_RATE3"]; FDbl ["BRANCH_RATE4"]; FDbl ["BRANCH_RATE5"]; FDbl ["BRANCH_RATE6"];
   FDbl ["BRANCH_RATE7"]; FDbl ["BRANCH_RATE8"]; FDbl ["BRANCH_RATE9"]; FDbl ["BRANCH_RATE10"]; FDbl ["BRANCH_RATE11"]]%string.
Definition limits : list field :=
  [FDbl ["TRANSFORMER_RMA"]; FDbl ["TRANSFORMER_RMI"]; FDbl ["TRANSFORMER_VMA"]; FDbl ["TRANSFORMER_VMI"]]%string.
Definition tables : list field :=
  [FInt ["TRANSFORMER_NTP"]; FInt ["TRANSFORMER_TAB"]; FDbl ["TRANSFORMER_CR"]; FDbl ["TRANSFORMER_CX"]; FDbl ["TRANSFORMER_CNXA"]]%string.
Definition layout3 (v : version) : list field :=
  ([FSkip; FSkip; FDbl ["BRANCH_SHIFT"; "TRANSFORMER_ANG1"]] ++
  match v with
  | V33 => [FDbl ["BRANCH_RATING_A"]; FDbl ["BRANCH_RATING_B"]; FDbl ["BRANCH_RATING_C"]; FInt ["TRANSFORMER_CODE1"]; FSkip] ++ limits ++ tables
  | V34 => rates ++ [FDbl ["BRANCH_RATE12"]; FInt ["TRANSFORMER_CODE1"]; FSkip] ++ limits
  | V35 => rates ++ [FSkip; FInt ["TRANSFORMER_CODE1"]; FSkip; FSkip] ++ limits ++ tables
  end)%list%string.
Definition holds (atof : str -> R) (layout : list field) (r : list str) (e : entries) : Prop :=
  forall c f name, nth_error layout c = Some f ->
    match f with
    | FSkip => True
    | FInt ns => In name ns -> match nth_error r c with
                               | Some t => exists z, atoi t = Ok z /\ xget e name = Some (XI z) | None => xget e name = None end
    | FDbl ns => In name ns -> match nth_error r c with
                               | Some t => xget e name = Some (XR (Some (atof t))) | None => xget e name = None end
    end.
Definition ints_ok (layout : list field) (r : list str) : Prop :=
  forall c ns t, nth_error layout c = Some (FInt ns) -> nth_error r c = Some t -> exists z, atoi t = Ok z.
Definition tag_ok (r : list str) : Prop := exists t g, nth_error r 3 = Some t /\ clean2char t = Ok g.
Definition tag_entry (r : list str) (e : entries) : Prop :=
  exists t g, nth_error r 3 = Some t /\ clean2char t = Ok g /\ xget e "BRANCH_CKT"%string = Some (XS g).

(** ** Electrical meaning
    The number in field [c]; 0 if there is none. *)
Definition val (atof : str -> R) (r : list str) (c : nat) : R := match nth_error r c with Some t => atof t | None => 0 end.
Definition code (r : list str) (c : nat) (z : Z) : Prop := exists t, nth_error r c = Some t /\ atoi t = Ok z.
(** Off-nominal turns ratio of a winding on the voltage base [kv] of its bus: CW = 1 given in per unit of that base, 2 in kV, 3 in per unit of
    the winding's nominal voltage. *)
Definition ratio (cw : Z) (w nomv kv : R) : R :=
  if (cw =? 1)%Z then w else if (cw =? 2)%Z then w / kv else w * nomv / kv.
(** Impedance on the case base: CZ = 1 given on the case base, 2 on the base of the pair of windings (0: the case base). *)
Definition on_case (sbase : R) (cz : Z) (z sb : R) : R :=
  if (cz =? 1)%Z then z else if Req_EM_T sb 0 then z else z * sbase / sb.
(** Two ideal transformers, with turns ratios [a1] (complex: the phase shift is in winding 1) and [t2], and the impedance [z] between them:
    voltages v and currents j into the device at its two buses. *)
Definition two_winding (a1 : C) (t2 : R) (z : C) (v1 v2 j1 j2 : C) : Prop :=
  exists u1 u2 i : C, (a1 * u1 = v1 /\ t2 * u2 = v2 /\ z * i = u1 - u2 /\ Cconj a1 * j1 = i /\ t2 * j2 = - i)%C.
Definition phasor (t deg : R) : C := (t * cos (deg * PI / 180), t * sin (deg * PI / 180)).
(** The stored ratio, shift, resistance and reactance of an element describe, as an ideal transformer at the from bus and a series impedance
    (YbSpec.two_port, the meaning they have in the admittance matrix, C35), the two-winding transformer with the given data. *)
Definition behaves_as (e : entries) (a1 : C) (t2 : R) (z : C) : Prop :=
  exists tap deg r x, xget e "BRANCH_TAP"%string = Some (XR (Some tap)) /\ xget e "BRANCH_SHIFT"%string = Some (XR (Some deg)) /\
    xget e "BRANCH_R"%string = Some (XR (Some r)) /\ xget e "BRANCH_X"%string = Some (XR (Some x)) /\ tap <> 0 /\
    forall v1 v2 j1 j2, two_port (phasor tap deg) (r, x) 0 v1 v2 j1 j2 <-> two_winding a1 t2 z v1 v2 j1 j2.

(** ** A two-winding record *)
Definition readable2 (v : version) (r1 r2 r3 r4 : list str) : Prop :=
  (12 <= length r1)%nat /\ ints_ok layout1 r1 /\ tag_ok r1 /\ (3 <= length r2)%nat /\
  (match v with V33 => 16 | V34 => 19 | V35 => 20 end <= length r3)%nat /\ ints_ok (layout3 v) r3 /\ (2 <= length r4)%nat.
Definition two_element (atof : str -> R) (sbase : R) (v : version) (r1 r2 r3 r4 : list str) (e : entries) : Prop :=
  tag_entry r1 e /\ holds atof layout1 r1 e /\ holds atof (layout3 v) r3 e /\
  forall cw cz kv1 kv2, code r1 4 cw -> code r1 5 cz ->
    let n1 := val atof r3 1 in let n2 := val atof r4 1 in let sb := val atof r2 2 in
    let t1 := ratio cw (val atof r3 0) n1 kv1 in let t2 := ratio cw (val atof r4 0) n2 kv2 in
    let z := (on_case sbase cz (val atof r2 0) sb, on_case sbase cz (val atof r2 1) sb) : C in
    (cw = 1 \/ cw = 2 /\ n1 = kv1 /\ n2 = kv2)%Z -> (cz = 2 \/ cz = 1 /\ (sb = sbase \/ sb = 0%R))%Z ->
    kv1 <> 0 -> kv2 <> 0 -> t1 <> 0 -> t2 <> 0 -> z <> 0%C -> sbase <> 0 ->
    behaves_as e (phasor t1 (val atof r3 2)) t2 z.
(** It becomes one more element of the branch between its two buses, in whichever order that was written, or a new branch. *)
Definition one_two (atof : str -> R) (names : list (str * Z)) (sbase : R) (v : version) (r1 r2 r3 r4 : list str) (s s' : xstate) : Prop :=
  exists o1 o2 e, bus_field names r1 0 o1 /\ bus_field names r1 1 o2 /\ two_element atof sbase v r1 r2 r3 r4 e /\
    x_bus s' = x_bus s /\ x_max s' = x_max s /\
    ((exists p l b, (p = (o1, o2) \/ p = (o2, o1) /\ pfind (x_map s) (o1, o2) = None) /\ pfind (x_map s) p = Some l /\
        nth_error (x_br s) l = Some b /\ x_br s' = upd (x_br s) l (XBranch (xb_own b) (xb_elems b ++ [e])%list) /\ x_map s' = x_map s) \/
     (pfind (x_map s) (o1, o2) = None /\ pfind (x_map s) (o2, o1) = None /\
      exists own, x_br s' = (x_br s ++ [XBranch own [e]])%list /\ xget own "BRANCH_FROMBUS"%string = Some (XI o1) /\
        xget own "BRANCH_TOBUS"%string = Some (XI o2) /\ x_map s' = (x_map s ++ [((o1, o2), length (x_br s))])%list)).

(** ** A three-winding record *)
(** Status 0: out of service; 1: in service; 2, 3, 4: only winding 2, 3, 1 out of service. *)
Definition winding_on (stat : Z) (k : nat) : Prop :=
  stat = 1%Z \/ stat = 2%Z /\ k <> 2%nat \/ stat = 3%Z /\ k <> 3%nat \/ stat = 4%Z /\ k <> 1%nat.
Definition readable3 (v : version) (bmap : list (Z * nat)) (names : list (str * Z)) (r1 r2 r3 r4 r5 : list str) : Prop :=
  (12 <= length r1)%nat /\ tag_ok r1 /\ (9 <= length r2)%nat /\ (exists stat, code r1 11 stat) /\
  (forall r, In r [r3; r4; r5] -> match v with V33 => 6 | _ => 15 end <= length r)%nat /\
  (exists o1 o2 o3, bus_field names r1 0 o1 /\ bus_field names r1 1 o2 /\ bus_field names r1 2 o3 /\
     zfind bmap o1 <> None /\ zfind bmap o2 <> None /\ zfind bmap o3 <> None).
(** The branch of winding [k], between the winding's bus and the star bus: own ratio, shift, ratings (with versions 34 and 35 of winding 1
    only, see C25_ratings_refuted) and status, magnetizing admittance at winding 1. *)
Definition winding_branch (atof : str -> R) (v : version) (r1 rw : list str) (k : nat) (from star : Z) (stat : Z) (z : option R * option R)
    (b : xbranch) : Prop :=
  xget (xb_own b) "BRANCH_FROMBUS"%string = Some (XI from) /\ xget (xb_own b) "BRANCH_TOBUS"%string = Some (XI star) /\
  exists e, xb_elems b = [e] /\ tag_entry r1 e /\
    xget e "BRANCH_R"%string = Some (XR (fst z)) /\ xget e "BRANCH_X"%string = Some (XR (snd z)) /\
    xget e "BRANCH_B"%string = Some (XR (Some 0)) /\
    xget e "BRANCH_TAP"%string = Some (XR (Some (val atof rw 0))) /\ xget e "BRANCH_SHIFT"%string = Some (XR (Some (val atof rw 2))) /\
    (v = V33 \/ k = 1%nat ->
       xget e "BRANCH_RATING_A"%string = Some (XR (Some (val atof rw 3))) /\
       xget e "BRANCH_RATING_B"%string = Some (XR (Some (val atof rw 4))) /\
       xget e "BRANCH_RATING_C"%string = Some (XR (Some (val atof rw 5)))) /\
    xget e "BRANCH_SHUNT_ADMTTNC_G1"%string = Some (XR (Some (if (k =? 1)%nat then val atof r1 7 else 0))) /\
    xget e "BRANCH_SHUNT_ADMTTNC_B1"%string = Some (XR (Some (if (k =? 1)%nat then val atof r1 8 else 0))) /\
    xget e "BRANCH_SHUNT_ADMTTNC_G2"%string = Some (XR (Some 0)) /\ xget e "BRANCH_SHUNT_ADMTTNC_B2"%string = Some (XR (Some 0)) /\
    (winding_on stat k -> xget e "BRANCH_STATUS"%string = Some (XI 1)) /\
    (~ winding_on stat k -> xget e "BRANCH_STATUS"%string = Some (XI 0)).
(** The bases of the three pairs are usable and the impedances already on the case base. *)
Definition case_base (atof : str -> R) (sbase : R) (r1 r2 : list str) : Prop :=
  sbase <> 0 /\ forall c, In c [2; 5; 8]%nat -> val atof r2 c <> 0 /\ (code r1 5 1 \/ code r1 5 2 /\ val atof r2 c = sbase).
(** The star: with the third winding open the impedance between two buses is the sum of two branches; it is the given one.
    [z c]: the impedance between the pair of windings whose fields in line 2 start at column c. *)
Definition star (z : nat -> C) (p1 p2 p3 : option R * option R) : Prop :=
  exists z1 z2 z3 : C, p1 = (Some (fst z1), Some (snd z1)) /\ p2 = (Some (fst z2), Some (snd z2)) /\ p3 = (Some (fst z3), Some (snd z3)) /\
  (z1 + z2 = z 0%nat /\ z2 + z3 = z 3%nat /\ z3 + z1 = z 6%nat)%C.
Definition star_of (atof : str -> R) (sbase : R) (r1 r2 : list str) (p1 p2 p3 : option R * option R) : Prop :=
  forall cz, code r1 5 cz ->
  star (fun c => (on_case sbase cz (val atof r2 c) (val atof r2 (c + 2)), on_case sbase cz (val atof r2 (S c)) (val atof r2 (c + 2)))) p1 p2 p3.
(** The same without conversion. *)
Definition star_as_given (atof : str -> R) (r1 r2 : list str) (p1 p2 p3 : option R * option R) : Prop :=
  star (fun c => (val atof r2 c, val atof r2 (S c))) p1 p2 p3.
Definition bases_nonzero (atof : str -> R) (r1 r2 : list str) : Prop := forall c, In c [2; 5; 8]%nat -> val atof r2 c <> 0.
(** Status 0: nothing is added.  Otherwise a new bus, numbered one more than the largest number so far, with area and owner of the first bus, and
    three branches to it. *)
Definition one_three (atof : str -> R) (names : list (str * Z)) (bmap : list (Z * nat))
    (P : list str -> list str -> option R * option R -> option R * option R -> option R * option R -> Prop) (v : version)
    (r1 r2 r3 r4 r5 : list str) (s s' : xstate) : Prop :=
  (code r1 11 0 /\ s' = s) \/
  (exists stat o1 o2 o3 l bus1 bus b1 b2 b3 p1 p2 p3,
     code r1 11 stat /\ stat <> 0%Z /\ bus_field names r1 0 o1 /\ bus_field names r1 1 o2 /\ bus_field names r1 2 o3 /\
     x_max s' = (x_max s + 1)%Z /\ x_map s' = x_map s /\
     x_bus s' = (x_bus s ++ [bus])%list /\ xget bus "BUS_NUMBER"%string = Some (XI (x_max s')) /\ xget bus "BUS_TYPE"%string = Some (XI 1) /\
     zfind bmap o1 = Some l /\ nth_error (x_bus s) l = Some bus1 /\
     xget bus "BUS_AREA"%string = xget bus1 "BUS_AREA"%string /\ xget bus "BUS_OWNER"%string = xget bus1 "BUS_OWNER"%string /\
     xget bus "BUS_VOLTAGE_MAG"%string = Some (XR (Some 1)) /\ xget bus "BUS_VOLTAGE_ANG"%string = Some (XR (Some 0)) /\
     x_br s' = (x_br s ++ [b1; b2; b3])%list /\ P r1 r2 p1 p2 p3 /\
     winding_branch atof v r1 r3 1 o1 (x_max s') stat p1 b1 /\ winding_branch atof v r1 r4 2 o2 (x_max s') stat p2 b2 /\
     winding_branch atof v r1 r5 3 o3 (x_max s') stat p3 b3).

(** ** The section *)
Definition readable (base : list str -> list str -> Prop) (v : version) (names : list (str * Z)) (bmap : list (Z * nat)) (x : xrec) : Prop :=
  match x with
  | X2 r1 r2 r3 r4 => readable2 v r1 r2 r3 r4 /\ (exists o1, bus_field names r1 0 o1) /\ (exists o2, bus_field names r1 1 o2)
  | X3 r1 r2 r3 r4 r5 => (code r1 11 0 /\ forall c, (c < 3)%nat -> exists o, bus_field names r1 c o) \/
                         readable3 v bmap names r1 r2 r3 r4 r5 /\ base r1 r2
  end.
Definition one (atof : str -> R) (names : list (str * Z)) (bmap : list (Z * nat)) (sbase : R)
    (P : list str -> list str -> option R * option R -> option R * option R -> option R * option R -> Prop) (v : version) (x : xrec)
  : xstate -> xstate -> Prop :=
  match x with
  | X2 r1 r2 r3 r4 => one_two atof names sbase v r1 r2 r3 r4
  | X3 r1 r2 r3 r4 r5 => one_three atof names bmap P v r1 r2 r3 r4 r5
  end.
Inductive all_of (P : xrec -> xstate -> xstate -> Prop) : list xrec -> xstate -> xstate -> Prop :=
| ao_nil s : all_of P [] s s
| ao_cons x rs s s1 s2 : P x s s1 -> all_of P rs s1 s2 -> all_of P (x :: rs) s s2.
(** The buses and branches read before: every known bus has an area and an owner, and the map of branches points into the list. *)
Definition buses_ok (bmap : list (Z * nat)) (buses : list entries) : Prop :=
  forall o l, zfind bmap o = Some l -> exists d a w, nth_error buses l = Some d /\
    xget d "BUS_AREA"%string = Some a /\ xget d "BUS_OWNER"%string = Some w.
Definition map_ok (m : list ((Z * Z) * nat)) (n : nat) : Prop := forall p l, pfind m p = Some l -> (l < n)%nat.

(** The elements stored for a pair of buses, however it is written. *)
Definition elements (s : xstate) (a c : Z) : list entries :=
  match pfind (x_map s) (a, c) with
  | Some l => match nth_error (x_br s) l with Some b => xb_elems b | None => [] end
  | None => match pfind (x_map s) (c, a) with
            | Some l => match nth_error (x_br s) l with Some b => xb_elems b | None => [] end
            | None => []
            end
  end.
Definition joins2 (names : list (str * Z)) (a c : Z) (x : xrec) : bool :=
  match x with
  | X2 r1 _ _ _ => match ends_of names r1 with Some p => same_ends p (a, c) | None => false end
  | X3 _ _ _ _ _ => false
  end.
(** No pair occurs in both orders, and different pairs have different branches. *)
Definition map_one (m : list ((Z * Z) * nat)) : Prop :=
  (forall a c l, pfind m (a, c) = Some l -> a <> c -> pfind m (c, a) = None) /\
  (forall p q l, pfind m p = Some l -> pfind m q = Some l -> p = q).

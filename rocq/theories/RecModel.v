(** Model of the record loops of the RAW parsers
    (/repo/src/parser/block_parsers: bus_parser33.cpp, load_parser33.cpp, fixed_shunt_parser33.cpp,
    generator_parser33.cpp, generator_parser34.cpp, generator_parser35.cpp, branch_parser33.cpp, branch_parser34.cpp)
    and of the line source they read (/repo/src/stream/input_stream.cpp).
    A record body in these files is a straight line of addValue calls guarded by the number of fields; it is
    represented by the list of its statements, which [exec] runs in order.  atof is a parameter; its results are bit
    patterns as in DCModel.  p_busMap, p_nameMap and p_branchMap are association lists in insertion order (insert keeps
    an existing entry). *)
From Verif Require Import Prelude StrModel DCModel.
From Coq Require Import Ascii.
Open Scope nat_scope.

(** ** Lines.  input_stream.cpp:81-100 nextLine for a file whose lines all end with a newline (the other cases are
    modelled in StreamModel): past the end getline clears the string the first time and then leaves it alone. *)
Definition next_line (st : list str) : str * list str :=
  match st with l :: r => (l, r) | [] => ([], []) end.

(** ** Maps *)
Fixpoint zfind {A} (m : list (Z * A)) (k : Z) : option A :=
  match m with [] => None | (k', v) :: r => if (k' =? k)%Z then Some v else zfind r k end.
Fixpoint sfind (m : list (str * Z)) (k : str) : option Z :=
  match m with [] => None | (k', v) :: r => if str_eqb k' k then Some v else sfind r k end.
Fixpoint pfind (m : list ((Z * Z) * nat)) (k : Z * Z) : option nat :=
  match m with
  | [] => None
  | (k', v) :: r => if ((fst k' =? fst k) && (snd k' =? snd k))%Z then Some v else pfind r k
  end.

Section Rec.
Variable atof : str -> Z.

Inductive kind := KInt | KDbl.
Definition conv (k : kind) (t : str) : outcome value :=
  match k with KInt => obind (atoi t) (fun z => Ok (VInt z)) | KDbl => Ok (VDouble (atof t)) end.

(** Statements of a record body; [n] is the number of devices already stored, [c] a column of the split line. *)
Inductive stmt :=
| SBus (name : string)                  (* addValue(name, o_idx, n) *)
| SSwitched (name : string)             (* addValue(name, switched, n) *)
| STag (c : nat) (name : string) (guard : bool)
    (* [if (nstr > c)] { tag = clean2Char(split_line[c]); addValue(name, tag.c_str(), n) } *)
| SCol (c : nat) (name : string) (k : kind)
    (* if (nstr > c) addValue(name, ato?(split_line[c].c_str()), n) *)
| SFirst (c : nat) (name : string)
    (* if (nstr > c) { if (n == 0) addValue(name, atof(split_line[c])); addValue(name, atof(split_line[c]), n) } *)
| SCpx (c : nat) (name : string)
    (* if (nstr > c + 1) addValue(name, ComplexType(atof(split_line[c]), atof(split_line[c + 1])), n) *)
| SOwner (c : nat) (name fname : string) (from_bus : bool) (dflt : Z)
    (* if (nstr > c) { owner = isBlank(split_line[c]) ? (from_bus ? BUS_OWNER, 0 if absent : 0) : atoi(split_line[c]);
                       addValue(name, owner, n);
                       frac = dflt; if (nstr > c + 1 && !isBlank(split_line[c + 1])) frac = atof(split_line[c + 1]);
                       addValue(fname, frac, n) } *)
| SName (c : nat) (name : string)
    (* if (nstr > c && split_line[c] contains a single quote) addValue(name, trimQuotes(trim(split_line[c])), n) *)
| SZero (name : string) (v : Z).        (* addValue(name, 0.0, n); v is the bit pattern of 0.0 *)

(** The addValue calls a statement makes: [o] the bus number, [sw] the flag of a reversed branch. *)
Definition adds_of (s : stmt) (d : dc) (o : Z) (sw : bool) (r : list str) (n : Z) : outcome (list (slot * value)) :=
  match s with
  | SBus name => Ok [(Indexed name n, VInt o)]
  | SSwitched name => Ok [(Indexed name n, VBool sw)]
  | STag c name guard =>
    match nth_error r c with
    | Some t => obind (clean2char t) (fun g => Ok [(Indexed name n, VString (string_of_list_ascii g))])
    | None => if guard then Ok [] else UB
    end
  | SCol c name k =>
    match nth_error r c with
    | Some t => obind (conv k t) (fun v => Ok [(Indexed name n, v)])
    | None => Ok []
    end
  | SFirst c name =>
    match nth_error r c with
    | Some t => Ok ((if (n =? 0)%Z then [(Plain name, VDouble (atof t))] else []) ++ [(Indexed name n, VDouble (atof t))])%list
    | None => Ok []
    end
  | SCpx c name =>
    match nth_error r c, nth_error r (S c) with
    | Some a, Some b => Ok [(Indexed name n, VComplex (atof a) (atof b))]
    | _, _ => Ok []
    end
  | SOwner c name fname from_bus dflt =>
    match nth_error r c with
    | Some t =>
      obind (if is_blank t then Ok (if from_bus then match find_key d TInt "BUS_OWNER" with Some (VInt z) => z | _ => 0%Z end
                                    else 0%Z)
             else atoi t) (fun owner =>
      let frac := match nth_error r (S c) with Some u => if is_blank u then dflt else atof u | None => dflt end in
      Ok [(Indexed name n, VInt owner); (Indexed fname n, VDouble frac)])
    | None => Ok []
    end
  | SName c name =>
    match nth_error r c with
    | Some t => if (find_c qt1 t 0 =? -1)%Z then Ok []
                else obind (trim_quotes (trim t)) (fun g => Ok [(Indexed name n, VString (string_of_list_ascii g))])
    | None => Ok []
    end
  | SZero name v => Ok [(Indexed name n, VDouble v)]
  end.

Fixpoint add_all (d : dc) (l : list (slot * value)) : outcome dc :=
  match l with
  | [] => Ok d
  | (s, v) :: r => obind (key_of s) (fun k => add_all (add_key d k v) r)
  end.
Fixpoint exec (ss : list stmt) (d : dc) (o : Z) (sw : bool) (r : list str) (n : Z) : outcome dc :=
  match ss with
  | [] => Ok d
  | s :: rest => obind (adds_of s d o sw r n) (fun l => obind (add_all d l) (fun d' => exec rest d' o sw r n))
  end.

(** ** Devices on buses *)
Record device := { dv_count : string; dv_skip_negative : bool; dv_body : list stmt }.

(** load_parser33.cpp:59-128 *)
Definition load33 : device := Build_device "LOAD_NUMBER" true
  [SBus "LOAD_BUSNUMBER"; STag 1 "LOAD_ID" true; SCol 2 "LOAD_STATUS" KInt; SCol 3 "LOAD_AREA" KInt;
   SCol 4 "LOAD_ZONE" KInt; SFirst 5 "LOAD_PL"; SFirst 6 "LOAD_QL"; SCol 7 "LOAD_IP" KDbl; SCol 8 "LOAD_IQ" KDbl;
   SCol 9 "LOAD_YP" KDbl; SCol 10 "LOAD_YQ" KDbl].
(** fixed_shunt_parser33.cpp:58-104 *)
Definition fixed_shunt33 : device := Build_device "SHUNT_NUMBER" false
  [SBus "SHUNT_BUSNUMBER"; STag 1 "SHUNT_ID" true; SCol 2 "SHUNT_STATUS" KInt; SFirst 3 "BUS_SHUNT_GL";
   SFirst 4 "BUS_SHUNT_BL"].
(** The owner pairs, generator_parser33.cpp:149-212; [one] and [zero] are the bit patterns of 1.0 and 0.0. *)
Definition owners (c : nat) (one zero : Z) : list stmt :=
  [SOwner c "GENERATOR_OWNER1" "GENERATOR_OFRAC1" true one;
   SOwner (c + 2) "GENERATOR_OWNER2" "GENERATOR_OFRAC2" false zero;
   SOwner (c + 4) "GENERATOR_OWNER3" "GENERATOR_OFRAC3" false zero;
   SOwner (c + 6) "GENERATOR_OWNER4" "GENERATOR_OFRAC4" false zero].
(** generator_parser33.cpp:79-222 *)
Definition gen33_body (one zero : Z) : list stmt :=
  ([SBus "GENERATOR_BUSNUMBER"; STag 1 "GENERATOR_ID" false; SCol 2 "GENERATOR_PG" KDbl; SCol 3 "GENERATOR_QG" KDbl;
   SCol 4 "GENERATOR_QMAX" KDbl; SCol 5 "GENERATOR_QMIN" KDbl; SCol 6 "GENERATOR_VS" KDbl; SCol 7 "GENERATOR_IREG" KInt;
   SCol 8 "GENERATOR_MBASE" KDbl; SCpx 9 "GENERATOR_ZSOURCE"; SCpx 11 "GENERATOR_XTRAN"; SCol 13 "GENERATOR_GTAP" KDbl;
   SCol 14 "GENERATOR_STAT" KInt; SCol 15 "GENERATOR_RMPCT" KDbl; SCol 16 "GENERATOR_PMAX" KDbl;
   SCol 17 "GENERATOR_PMIN" KDbl] ++ owners 18 one zero ++ [SCol 26 "GENERATOR_WMOD" KInt; SCol 27 "GENERATOR_WPF" KDbl])%list.
Definition gen33 (one zero : Z) : device := Build_device "GENERATOR_NUMBER" false (gen33_body one zero).
(** generator_parser34.cpp:79-226 *)
Definition gen34 (one zero : Z) : device := Build_device "GENERATOR_NUMBER" false
  (gen33_body one zero ++ [SCol 28 "GENERATOR_NREG" KInt])%list.
(** generator_parser35.cpp:79-230 *)
Definition gen35 (one zero : Z) : device := Build_device "GENERATOR_NUMBER" false
  ([SBus "GENERATOR_BUSNUMBER"; STag 1 "GENERATOR_ID" false; SCol 2 "GENERATOR_PG" KDbl; SCol 3 "GENERATOR_QG" KDbl;
   SCol 4 "GENERATOR_QMAX" KDbl; SCol 5 "GENERATOR_QMIN" KDbl; SCol 6 "GENERATOR_VS" KDbl; SCol 7 "GENERATOR_IREG" KInt;
   SCol 8 "GENERATOR_NREG" KInt; SCol 9 "GENERATOR_MBASE" KDbl; SCpx 10 "GENERATOR_ZSOURCE"; SCpx 12 "GENERATOR_XTRAN";
   SCol 14 "GENERATOR_GTAP" KDbl; SCol 15 "GENERATOR_STAT" KInt; SCol 16 "GENERATOR_RMPCT" KDbl;
   SCol 17 "GENERATOR_PMAX" KDbl; SCol 18 "GENERATOR_PMIN" KDbl; SCol 19 "GENERATOR_BASLOD" KDbl]
   ++ owners 20 one zero ++ [SCol 28 "GENERATOR_WMOD" KInt; SCol 29 "GENERATOR_WPF" KDbl])%list.

(** The common frame of these parsers, e.g. load_parser33.cpp:59-80 and 132-139: bus number, known bus, number of
    devices, the body, the new number. *)
Definition count_of (d : dc) (name : string) : Z := match find_key d TInt name with Some (VInt z) => z | _ => 0%Z end.
Definition bump (d : dc) (name : string) (n : Z) : dc :=
  if (n =? 0)%Z then add_key d name (VInt 1) else fst (set_key d name (VInt (n + 1))).
Definition field0 (r : list str) : outcome str := match r with t :: _ => Ok t | [] => UB end.
Definition dev_record (dv : device) (names : list (str * Z)) (bmap : list (Z * nat)) (bs : list dc) (r : list str)
  : outcome (list dc) :=
  obind (field0 r) (fun t => obind (get_bus_index (sfind names) t) (fun o =>
  if dv_skip_negative dv && (o <? 0)%Z then Ok bs
  else match zfind bmap o with
       | None => Ok bs
       | Some l =>
         match nth_error bs l with
         | None => UB
         | Some d => let n := count_of d (dv_count dv) in
                     obind (exec (dv_body dv) d o false r n) (fun d' => Ok (upd bs l (bump d' (dv_count dv) n)))
         end
       end)).

(** ** Branches *)
(** branch_parser33.cpp:114-215; [zero] is the bit pattern of 0.0. *)
Definition branch33 (zero : Z) : list stmt :=
  [SSwitched "BRANCH_SWITCHED"; STag 2 "BRANCH_CKT" false; SCol 3 "BRANCH_R" KDbl; SCol 4 "BRANCH_X" KDbl;
   SCol 5 "BRANCH_B" KDbl; SCol 6 "BRANCH_RATING_A" KDbl; SCol 7 "BRANCH_RATING_B" KDbl; SCol 8 "BRANCH_RATING_C" KDbl;
   SCol 9 "BRANCH_SHUNT_ADMTTNC_G1" KDbl; SCol 10 "BRANCH_SHUNT_ADMTTNC_B1" KDbl; SCol 11 "BRANCH_SHUNT_ADMTTNC_G2" KDbl;
   SCol 12 "BRANCH_SHUNT_ADMTTNC_B2" KDbl; SCol 13 "BRANCH_STATUS" KInt; SCol 14 "BRANCH_METER" KInt;
   SCol 15 "BRANCH_LENGTH" KDbl; SCol 16 "BRANCH_O1" KInt; SCol 17 "BRANCH_F1" KInt; SCol 18 "BRANCH_O2" KInt;
   SCol 19 "BRANCH_F2" KInt; SCol 20 "BRANCH_O3" KInt; SCol 21 "BRANCH_F3" KInt; SCol 22 "BRANCH_O4" KInt;
   SCol 23 "BRANCH_F4" KInt; SZero "BRANCH_TAP" zero; SZero "BRANCH_SHIFT" zero].
(** branch_parser34.cpp:114-251 *)
Definition branch34 (zero : Z) : list stmt :=
  [SSwitched "BRANCH_SWITCHED"; STag 2 "BRANCH_CKT" false; SCol 3 "BRANCH_R" KDbl; SCol 4 "BRANCH_X" KDbl;
   SCol 5 "BRANCH_B" KDbl; SName 6 "BRANCH_NAME";
   SCol 7 "BRANCH_RATE1" KDbl; SCol 7 "BRANCH_RATING_A" KDbl; SCol 8 "BRANCH_RATE2" KDbl; SCol 8 "BRANCH_RATING_B" KDbl;
   SCol 9 "BRANCH_RATE3" KDbl; SCol 9 "BRANCH_RATING_C" KDbl; SCol 10 "BRANCH_RATE4" KDbl; SCol 11 "BRANCH_RATE5" KDbl;
   SCol 12 "BRANCH_RATE6" KDbl; SCol 13 "BRANCH_RATE7" KDbl; SCol 14 "BRANCH_RATE8" KDbl; SCol 15 "BRANCH_RATE9" KDbl;
   SCol 16 "BRANCH_RATE10" KDbl; SCol 17 "BRANCH_RATE11" KDbl; SCol 18 "BRANCH_RATE12" KDbl;
   SCol 19 "BRANCH_SHUNT_ADMTTNC_G1" KDbl; SCol 20 "BRANCH_SHUNT_ADMTTNC_B1" KDbl; SCol 21 "BRANCH_SHUNT_ADMTTNC_G2" KDbl;
   SCol 22 "BRANCH_SHUNT_ADMTTNC_B2" KDbl; SCol 23 "BRANCH_STATUS" KInt; SCol 24 "BRANCH_METER" KInt;
   SCol 25 "BRANCH_LENGTH" KDbl; SCol 26 "BRANCH_O1" KInt; SCol 27 "BRANCH_F1" KInt; SCol 28 "BRANCH_O2" KInt;
   SCol 29 "BRANCH_F2" KInt; SCol 30 "BRANCH_O3" KInt; SCol 31 "BRANCH_F3" KInt; SCol 32 "BRANCH_O4" KInt;
   SCol 33 "BRANCH_F4" KInt; SZero "BRANCH_TAP" zero; SZero "BRANCH_SHIFT" zero].

(** State of the branch loop: p_branchData, p_branchMap and the counter index of branch_parser33.cpp:49. *)
Record branches := { br_data : list dc; br_map : list ((Z * Z) * nat); br_index : nat }.
(** p_branchData[l]->getValue(BRANCH_NUM_ELEMENTS,&nelems): the variable would be unset if the entry were missing. *)
Definition nelems_of (ds : list dc) (l : nat) : outcome Z :=
  match nth_error ds l with
  | Some d => match find_key d TInt "BRANCH_NUM_ELEMENTS" with Some (VInt z) => Ok z | _ => UB end
  | None => UB
  end.
(** branch_parser33.cpp:67-96: position, number of elements and flag of the branch a pair belongs to. *)
Definition branch_slot (b : branches) (a c : Z) : outcome (branches * nat * Z * bool) :=
  match pfind (br_map b) (a, c) with
  | Some l => obind (nelems_of (br_data b) l) (fun n => Ok (b, l, n, false))
  | None =>
    match pfind (br_map b) (c, a) with
    | Some l => obind (nelems_of (br_data b) l) (fun n => Ok (b, l, n, true))
    | None => Ok (Build_branches (br_data b ++ [add_key dc_empty "BRANCH_NUM_ELEMENTS" (VInt 0)])%list (br_map b)
                    (br_index b), length (br_data b), 0%Z, false)
    end
  end.
(** :98-112, the entries of a new branch. *)
Definition new_branch (b : branches) (l : nat) (a c : Z) : outcome branches :=
  match nth_error (br_data b) l with
  | None => UB
  | Some d =>
    let d1 := add_key d "BRANCH_INDEX" (VInt (Z.of_nat (br_index b))) in
    let d2 := add_key d1 "BRANCH_FROMBUS" (VInt a) in
    let d3 := add_key d2 "BRANCH_TOBUS" (VInt c) in
    Ok (Build_branches (upd (br_data b) l d3)
          (match pfind (br_map b) (a, c) with Some _ => br_map b | None => br_map b ++ [((a, c), br_index b)] end)%list
          (S (br_index b)))
  end.
(** One record, :64-218. *)
Definition branch_record (body : list stmt) (names : list (str * Z)) (b : branches) (r : list str) : outcome branches :=
  match r with
  | t1 :: t2 :: _ =>
    obind (get_bus_index (sfind names) t1) (fun a => obind (get_bus_index (sfind names) t2) (fun c =>
    obind (branch_slot b a c) (fun '(b1, l, n, sw) =>
    obind (if (n =? 0)%Z then new_branch b1 l a c else Ok b1) (fun b2 =>
    match nth_error (br_data b2) l with
    | None => UB
    | Some d => obind (exec body d a sw r n) (fun d' =>
                Ok (Build_branches (upd (br_data b2) l (fst (set_key d' "BRANCH_NUM_ELEMENTS" (VInt (n + 1)))))
                                   (br_map b2) (br_index b2)))
    end))))
  | _ => UB
  end.

(** ** Buses *)
(** bus_parser33.cpp:52-55, 69-121: one record; state p_busData, p_busMap, p_nameMap, index, *p_maxBusIndex. *)
Record buses := { bu_data : list dc; bu_map : list (Z * nat); bu_names : list (str * Z); bu_index : nat; bu_max : Z }.
Definition bus_cols : list (nat * string * kind) :=
  [(2, "BUS_BASEKV", KDbl); (3, "BUS_TYPE", KInt); (4, "BUS_AREA", KInt); (5, "BUS_ZONE", KInt); (6, "BUS_OWNER", KInt);
   (7, "BUS_VOLTAGE_MAG", KDbl); (8, "BUS_VOLTAGE_ANG", KDbl); (9, "BUS_VOLTAGE_MAX", KDbl);
   (10, "BUS_VOLTAGE_MIN", KDbl)]%string.
Fixpoint add_cols (cols : list (nat * string * kind)) (r : list str) (d : dc) : outcome dc :=
  match cols with
  | [] => Ok d
  | (c, name, k) :: rest =>
    match nth_error r c with
    | Some t => obind (conv k t) (fun v => add_cols rest r (add_key d name v))
    | None => add_cols rest r d
    end
  end.
Definition bus_record (sbase : Z) (case_id : Z) (b : buses) (r : list str) : outcome buses :=
  match r with
  | t0 :: t1 :: _ =>
    obind (atoi t0) (fun o => obind (check_string t1) (fun '(_, name) =>
    if (o =? -2147483648)%Z then UB else
    let d1 := add_key dc_empty "BUS_NUMBER" (VInt o) in
    let d2 := add_key d1 "CASE_SBASE" (VDouble sbase) in
    let d3 := add_key d2 "CASE_ID" (VInt case_id) in
    let d4 := add_key d3 "BUS_NAME" (VString (string_of_list_ascii name)) in
    obind (add_cols bus_cols r d4) (fun d5 =>
    Ok (Build_buses (bu_data b ++ [d5])%list
          (match zfind (bu_map b) o with Some _ => bu_map b | None => bu_map b ++ [(o, bu_index b)] end)%list
          (match sfind (bu_names b) name with Some _ => bu_names b | None => bu_names b ++ [(name, Z.abs o)] end)%list
          (S (bu_index b)) (Z.max (bu_max b) o)))))
  | _ => UB
  end.

(** ** The section loop, e.g. load_parser33.cpp:47-57 and 141-142.  splitPSSELine gets fuel for every line
    (StrProofs2).  None: not finished after [fuel] iterations. *)
Definition split_of (line : str) : outcome (list str) :=
  match split_line (S (length line)) line with Some o => o | None => UB end.
Fixpoint section {D} (fuel : nat) (step : D -> list str -> outcome D) (line : str) (st : list str) (d : D)
  : option (outcome (D * list str)) :=
  match fuel with
  | O => None
  | S f =>
    if test_end line then
      let '(line', st') := next_line st in
      if check_comment line then section f step line' st' d
      else match obind (split_of (clean_comment line)) (step d) with
           | Ok d' => section f step line' st' d'
           | Throw => Some Throw
           | UB => Some UB
           end
    else Some (Ok (d, st))
  end.
Definition parse {D} (fuel : nat) (step : D -> list str -> outcome D) (st : list str) (d : D) :=
  section fuel step (fst (next_line st)) (snd (next_line st)) d.
End Rec.

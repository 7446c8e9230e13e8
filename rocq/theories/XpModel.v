(** Model of the PSS/E version 33 export (/repo/src/export): PSSE33Export.hpp, base_export.hpp and
    data_blocks/export_bus33.hpp, export_load33.hpp, export_fxshnt33.hpp, export_gen33.hpp, export_line33.hpp; and of the
    header parser that reads the result back (/repo/src/parser/block_parsers/case_parser33.cpp).
    A line of the file is its text without the newline.  The buffer sizes (MAX_STRING_SIZE, text_line::text) are not
    modelled.  "%f" and the output of a double with << are parameters; "%d" is [dec] of DCModel.  Bit patterns of
    doubles as in DCModel. *)
From Verif Require Import Prelude GAModel StrModel DCModel RecModel.
From Coq Require Import Ascii.
Open Scope nat_scope.

(** ** writeDataBlock, base_export.hpp:67-183 *)
(** text_line, base_export.hpp:30-36. *)
Record text_line := { tl_global : nat; tl_device : nat; tl_text : str }.

(** :73-78 gmax: one more than the largest global index, 0 without lines; p_comm.max. *)
Definition local_gmax (ls : list text_line) : nat := fold_right (fun l m => Nat.max (S (tl_global l)) m) 0 ls.
Definition gmax (procs : list (list text_line)) : nat := fold_right (fun ls m => Nat.max (local_gmax ls) m) 0 procs.
(** NGA_Scatter_acc of ones, :100-102; accumulates of different processes are atomic and happen in the order [ev]. *)
Fixpoint scatter_acc (g : list nat) (ev : list text_line) : outcome (list nat) :=
  match ev with
  | [] => Ok g
  | l :: r => if tl_global l <? length g then scatter_acc (upd g (tl_global l) (nth (tl_global l) g 0 + 1)) r else UB
  end.
(** The blocks of an array on the processes (NGA_Distribution, NGA_Access): consecutive blocks of the given sizes. *)
Fixpoint cut {A} (sizes : list nat) (g : list A) : list (list A) :=
  match sizes with [] => [] | n :: r => firstn n g :: cut r (skipn n g) end.
(** :117-126 offsets[i] = offsets[i-1] + ptr[i-1]. *)
Fixpoint local_offsets (o : nat) (ptr : list nat) : list nat :=
  match ptr with [] => [] | x :: r => o :: local_offsets (o + x) r end.
(** :127-141 every process adds the totals of the processes before it. *)
Definition global_offsets (blocks : list (list nat)) : list nat :=
  let block_sizes := map sumn blocks in
  concat (map (fun me => map (fun x => x + sumn (firstn me block_sizes)) (local_offsets 0 (nth me blocks [])))
              (iota (length blocks))).
(** :152-160 position of a line: NGA_Gather of the offset of its global index, plus its device index. *)
Fixpoint positions (off : list nat) (ls : list text_line) : outcome (list (nat * str)) :=
  match ls with
  | [] => Ok []
  | l :: r => match nth_error off (tl_global l) with
              | None => UB
              | Some o => obind (positions off r) (fun ws => Ok ((o + tl_device l, tl_text l) :: ws))
              end
  end.
(** The whole function.  [dist n] are the block sizes of a new array of [n] cells on the processes; [ev1], [ev2] the
    orders in which the accumulates and the puts of all processes take effect.  The result is what rank 0 writes. *)
Definition write_data_block (dist : nat -> list nat) (procs : list (list text_line)) (ev1 ev2 : list text_line)
  : outcome (list str) :=
  let gm := gmax procs in
  if gm =? 0 then Ok []
  else obind (scatter_acc (repeat 0 gm) ev1) (fun cnt =>
       let blocks := cut (dist gm) cnt in
       let off := global_offsets blocks in
       let total := sumn (map sumn blocks) in
       obind (positions off ev2) (fun ws =>
       obind (ga_scatter (ga_new str total) ws) (fun g =>
       obind (oall (map (fun p => ga_get g (offset (dist total) p) (nth p (dist total) 0)) (iota (length (dist total)))))
             (fun r => Ok (concat r))))).

(** ** The text of a record *)
Section Xp.
Variable fmt : Z -> str.   (* "%f" *)
Variable fmtg : Z -> str.  (* fout << double *)

(** Where a value is looked for: with the device index or without. *)
Inductive ref := At (name : string) | Of (name : string).
Definition slot_of (r : ref) (j : Z) : slot := match r with At n => Indexed n j | Of n => Plain n end.
(** data->getValue on a variable; the variable keeps its content if there is no entry. *)
Definition ask (d : dc) (t : dtype) (r : ref) (j : Z) : outcome (option value) :=
  obind (key_of (slot_of r j)) (fun k => Ok (find_key d t k)).
(** [if (!data->getValue(a,..)) data->getValue(b,..)] and so on. *)
Fixpoint ask_first (d : dc) (t : dtype) (rs : list ref) (j : Z) : outcome (option value) :=
  match rs with
  | [] => Ok None
  | r :: rest => obind (ask d t r j) (fun v => match v with Some x => Ok (Some x) | None => ask_first d t rest j end)
  end.

(** One or two fields of a line.  The number of blanks before an int is 0 or 1.  A default is what the variable is set
    to before the call; a variable without default keeps what it had, which is not modelled (UB). *)
Inductive dflt := Const (z : Z) | Original | NoDflt.
Inductive src :=
| XInt (blank : nat) (rs : list ref) (df : dflt)        (* "%d" or " %d"; Original: getOriginalBusIndex(i) *)
| XTag (name : string) (df : option str)                (* " '%s'" *)
| XDbl (rs : list ref) (df : option str)                (* " %f"; the default as it is printed *)
| XOver (name over : string) (df : str)                 (* if (getValue(name)) getValue(over) *)
| XCpx (name : string) (re im : str)                    (* " %f, %f" *)
| XName (name : string)                                 (* " %s" or " '%s'", export_bus33.hpp:87-92 *)
| XLit (t : str)                                        (* text of the format *)
| XOwn (name fname : string).                           (* export_line33.hpp:151-155: both found or nothing *)
Definition blanks (n : nat) : str := repeat sp n.
Definition quote (s : str) : str := qt1 :: (s ++ [qt1])%list.
Definition print (d : dc) (orig : Z) (j : Z) (x : src) : outcome (list str) :=
  match x with
  | XInt b rs df =>
    obind (ask_first d TInt rs j) (fun v =>
    match v, df with
    | Some (VInt z), _ => Ok [(blanks b ++ s_ (dec z))%list]
    | _, Const z => Ok [(blanks b ++ s_ (dec z))%list]
    | _, Original => Ok [(blanks b ++ s_ (dec orig))%list]
    | _, NoDflt => UB
    end)
  | XTag name df =>
    obind (ask d TString (At name) j) (fun v =>
    match v, df with
    | Some (VString s), _ => Ok [(blanks 1 ++ quote (s_ s))%list]
    | _, Some s => Ok [(blanks 1 ++ quote s)%list]
    | _, None => UB
    end)
  | XDbl rs df =>
    obind (ask_first d TDouble rs j) (fun v =>
    match v, df with
    | Some (VDouble x), _ => Ok [(blanks 1 ++ fmt x)%list]
    | _, Some s => Ok [(blanks 1 ++ s)%list]
    | _, None => UB
    end)
  | XOver name over df =>
    obind (ask d TDouble (At name) j) (fun v =>
    match v with
    | Some (VDouble x) =>
      obind (ask d TDouble (At over) j) (fun w =>
      match w with Some (VDouble y) => Ok [(blanks 1 ++ fmt y)%list] | _ => Ok [(blanks 1 ++ fmt x)%list] end)
    | _ => Ok [(blanks 1 ++ df)%list]
    end)
  | XCpx name re im =>
    obind (ask d TComplex (At name) j) (fun v =>
    match v with
    | Some (VComplex x y) => Ok [(blanks 1 ++ fmt x)%list; (blanks 1 ++ fmt y)%list]
    | _ => Ok [(blanks 1 ++ re)%list; (blanks 1 ++ im)%list]
    end)
  | XName name =>
    obind (ask d TString (Of name) j) (fun v =>
    let s := match v with Some (VString s) => s_ s | _ => [] end in
    Ok [(blanks 1 ++ (if (find_c qt1 s 0 =? -1)%Z then quote s else s))%list])
  | XLit t => Ok [t]
  | XOwn name fname =>
    obind (ask d TInt (At name) j) (fun v =>
    match v with
    | Some (VInt z) => obind (ask d TDouble (At fname) j) (fun w =>
                       match w with
                       | Some (VDouble x) => Ok [(blanks 1 ++ s_ (dec z))%list; (blanks 1 ++ fmt x)%list]
                       | _ => Ok []
                       end)
    | _ => Ok []
    end)
  end.
(** Every field but the last is followed by a comma. *)
Fixpoint commas (ps : list str) : str :=
  match ps with [] => [] | [p] => p | p :: r => (p ++ ","%char :: commas r)%list end.
Definition pieces (d : dc) (orig j : Z) (xs : list src) : outcome (list str) :=
  obind (oall (map (print d orig j) xs)) (fun l => Ok (concat l)).
Definition line_of (d : dc) (orig j : Z) (xs : list src) : outcome str :=
  obind (pieces d orig j xs) (fun ps => Ok (commas ps)).

(** ** The records *)
(** export_bus33.hpp:83-135 *)
Definition bus33_line : list src :=
  [XInt 0 [Of "BUS_NUMBER"] NoDflt; XName "BUS_NAME"; XDbl [Of "BUS_BASEKV"] (Some (s_ "0.000000"));
   XInt 1 [Of "BUS_TYPE"] (Const 1); XInt 1 [Of "BUS_AREA"] (Const 1); XInt 1 [Of "BUS_ZONE"] (Const 1);
   XInt 1 [Of "BUS_OWNER"] (Const 1); XDbl [Of "BUS_PF_VMAG"; Of "BUS_VOLTAGE_MAG"] (Some (s_ "1.000000"));
   XDbl [Of "BUS_PF_VANG"; Of "BUS_VOLTAGE_ANG"] (Some (s_ "0.000000")); XDbl [Of "BUS_VOLTAGE_MAX"] (Some (s_ "1.100000"));
   XDbl [Of "BUS_VOLTAGE_MIN"] (Some (s_ "0.900000")); XLit (s_ " 1.1"); XLit (s_ " 0.9")].
(** export_load33.hpp:78-133; pl and ql have no default. *)
Definition load33_line : list src :=
  [XInt 0 [At "LOAD_BUSNUMBER"] Original; XTag "LOAD_ID" None; XInt 1 [At "LOAD_STATUS"] (Const 1);
   XInt 1 [At "LOAD_AREA"; Of "BUS_AREA"] (Const 1); XInt 1 [At "LOAD_ZONE"; Of "BUS_ZONE"] (Const 1);
   XDbl [At "LOAD_PL"] None; XDbl [At "LOAD_QL"] None; XDbl [At "LOAD_IP"] (Some (s_ "0.000000"));
   XDbl [At "LOAD_IQ"] (Some (s_ "0.000000")); XDbl [At "LOAD_YP"] (Some (s_ "0.000000"));
   XDbl [At "LOAD_YQ"] (Some (s_ "0.000000")); XInt 1 [At "LOAD_OWNER"; Of "BUS_OWNER"] (Const 1);
   XLit (s_ " 1"); XLit (s_ " 0")].
(** export_fxshnt33.hpp:77-96 *)
Definition shunt33_line : list src :=
  [XInt 0 [At "SHUNT_BUSNUMBER"] Original; XTag "SHUNT_ID" (Some (s_ "1 ")); XInt 1 [At "SHUNT_STATUS"] (Const 1);
   XDbl [At "BUS_SHUNT_GL"] (Some (s_ "0.000000")); XDbl [At "BUS_SHUNT_BL"] (Some (s_ "0.000000"))].
(** export_gen33.hpp:78-190 *)
Definition gen33_line : list src :=
  [XInt 0 [At "GENERATOR_BUSNUMBER"] Original; XTag "GENERATOR_ID" None; XOver "GENERATOR_PG" "GENERATOR_PF_PG" (s_ "0.000000");
   XOver "GENERATOR_QG" "GENERATOR_PF_QG" (s_ "0.000000"); XDbl [At "GENERATOR_QMAX"] (Some (s_ "9999.000000"));
   XDbl [At "GENERATOR_QMIN"] (Some (s_ "-9999.000000")); XDbl [At "GENERATOR_VS"] (Some (s_ "1.000000"));
   XInt 0 [At "GENERATOR_IREG"] (Const 0); XDbl [At "GENERATOR_MBASE"; Of "CASE_SBASE"] (Some (s_ "100.000000"));
   XCpx "GENERATOR_ZSOURCE" (s_ "0.000000") (s_ "1.000000"); XDbl [At "GENERATOR_RT"] (Some (s_ "0.000000"));
   XDbl [At "GENERATOR_XT"] (Some (s_ "0.000000")); XDbl [At "GENERATOR_GTAP"] (Some (s_ "1.000000"));
   XInt 0 [At "GENERATOR_STAT"] (Const 1); XDbl [At "GENERATOR_RMPCT"] (Some (s_ "100.000000"));
   XDbl [At "GENERATOR_PMAX"] (Some (s_ "9999.000000")); XDbl [At "GENERATOR_PMIN"] (Some (s_ "-9999.000000"));
   XInt 1 [At "GENERATOR_OWNER1"] Original; XDbl [At "GENERATOR_OFRAC1"] (Some (s_ "1.000000"));
   XInt 1 [At "GENERATOR_OWNER2"] (Const 0); XDbl [At "GENERATOR_OFRAC2"] (Some (s_ "1.000000"));
   XInt 1 [At "GENERATOR_OWNER3"] (Const 0); XDbl [At "GENERATOR_OFRAC3"] (Some (s_ "1.000000"));
   XInt 1 [At "GENERATOR_OWNER4"] (Const 0); XDbl [At "GENERATOR_OFRAC4"] (Some (s_ "1.000000"));
   XInt 1 [At "GENERATOR_WMOD"] (Const 0); XDbl [At "GENERATOR_WPF"] (Some (s_ "1.000000"))].
(** export_line33.hpp:85-171; [sw] the result of reading BRANCH_SWITCHED into an int (:87-93). *)
Definition line33_line (sw : bool) : list src :=
  ([XInt 0 [Of (if sw then "BRANCH_FROMBUS" else "BRANCH_TOBUS")%string] NoDflt;
    XInt 1 [Of (if sw then "BRANCH_TOBUS" else "BRANCH_FROMBUS")%string] NoDflt;
    XTag "BRANCH_CKT" (Some (s_ " 1")); XDbl [At "BRANCH_R"] None; XDbl [At "BRANCH_X"] None;
    XDbl [At "BRANCH_B"] (Some (s_ "0.000000")); XDbl [At "BRANCH_RATING_A"] None;
    XDbl [At "BRANCH_RATING_B"] (Some (s_ "0.000000")); XDbl [At "BRANCH_RATING_C"] (Some (s_ "0.000000"));
    XDbl [At "BRANCH_SHUNT_ADMTTNC_G1"] (Some (s_ "0.000000")); XDbl [At "BRANCH_SHUNT_ADMTTNC_B1"] (Some (s_ "0.000000"));
    XDbl [At "BRANCH_SHUNT_ADMTTNC_G2"] (Some (s_ "0.000000")); XDbl [At "BRANCH_SHUNT_ADMTTNC_B2"] (Some (s_ "0.000000"));
    XInt 0 [At "BRANCH_STATUS"] (Const 1); XInt 0 [At "BRANCH_METER"] (Const 1);
    XDbl [At "BRANCH_LENGTH"] (Some (s_ "0.000000"))]
   ++ [XOwn "BRANCH_O1" "BRANCH_F1"; XOwn "BRANCH_O2" "BRANCH_F2"; XOwn "BRANCH_O3" "BRANCH_F3"; XOwn "BRANCH_O4" "BRANCH_F4"])%list.

(** ** Blocks *)
(** A bus or branch as the exporter sees it on one process: getActiveBus, getGlobalBusIndex, getOriginalBusIndex,
    getBusData (and the same for branches, without original index). *)
Record place := { pl_active : bool; pl_global : nat; pl_orig : Z; pl_data : dc }.

(** A double is 0.0 or -0.0; is 1.0. *)
Definition dbl_zero (x : Z) : bool := ((x =? 0) || (x =? 9223372036854775808))%Z.
Definition dbl_one (x : Z) : bool := (x =? 4607182418800017408)%Z.

(** The loop over the devices of a bus: count, skip, record.  [skip] is asked before the line is stored. *)
Definition how_many (d : dc) (count : string) : nat :=
  match find_key d TInt count with Some (VInt z) => Z.to_nat z | _ => 0 end.
Definition device_line (skip : dc -> Z -> outcome bool) (xs : dc -> Z -> outcome (list src)) (p : place) (j : nat)
  : outcome (list text_line) :=
  obind (skip (pl_data p) (Z.of_nat j)) (fun b =>
  if b then Ok []
  else obind (xs (pl_data p) (Z.of_nat j)) (fun l =>
       obind (line_of (pl_data p) (pl_orig p) (Z.of_nat j) l) (fun t => Ok [Build_text_line (pl_global p) j t]))).
Definition device_lines (count : string) skip xs (p : place) : outcome (list text_line) :=
  obind (oall (map (device_line skip xs p) (iota (how_many (pl_data p) count)))) (fun l => Ok (concat l)).
Definition block_lines (lines : place -> outcome (list text_line)) (ps : list place) : outcome (list text_line) :=
  obind (oall (map (fun p => if pl_active p then lines p else Ok []) ps)) (fun l => Ok (concat l)).

(** export_bus33.hpp:77-142: one line per bus, device index 0. *)
Definition bus_lines (p : place) : outcome (list text_line) :=
  obind (line_of (pl_data p) (pl_orig p) 0 bus33_line) (fun t => Ok [Build_text_line (pl_global p) 0 t]).
(** export_load33.hpp:103-110: pl and ql have no default; the record is dropped if both are zero. *)
Definition load_skip (d : dc) (j : Z) : outcome bool :=
  obind (ask d TDouble (At "LOAD_PL") j) (fun v => obind (ask d TDouble (At "LOAD_QL") j) (fun w =>
  match v, w with Some (VDouble x), Some (VDouble y) => Ok (dbl_zero x && dbl_zero y) | _, _ => UB end)).
Definition load_lines : place -> outcome (list text_line) :=
  device_lines "LOAD_NUMBER" load_skip (fun _ _ => Ok load33_line).
Definition shunt_lines : place -> outcome (list text_line) :=
  device_lines "SHUNT_NUMBER" (fun _ _ => Ok false) (fun _ _ => Ok shunt33_line).
Definition gen_lines : place -> outcome (list text_line) :=
  device_lines "GENERATOR_NUMBER" (fun _ _ => Ok false) (fun _ _ => Ok gen33_line).
(** export_line33.hpp:81-84: transformers are left out; tap_ratio has no default. *)
Definition line_skip (d : dc) (j : Z) : outcome bool :=
  obind (ask d TDouble (At "BRANCH_TAP") j) (fun v =>
  obind (ask d TDouble (At "TRANSFORMER_WINDV1") j) (fun w1 =>
  obind (ask d TDouble (At "TRANSFORMER_WINDV2") j) (fun w2 =>
  match v with
  | Some (VDouble t) =>
    let is_xform := match w1, w2 with Some _, Some _ => true | _, _ => false end in
    Ok (negb (negb is_xform && (dbl_zero t || dbl_one t)))
  | _ => UB
  end))).
Definition line_srcs (d : dc) (j : Z) : outcome (list src) :=
  obind (ask d TInt (At "BRANCH_SWITCHED") j) (fun v =>
  Ok (line33_line (match v with Some (VInt z) => (z =? 1)%Z | _ => true end))).
Definition line_lines : place -> outcome (list text_line) :=
  device_lines "BRANCH_NUM_ELEMENTS" line_skip line_srcs.

(** export_xform33.hpp:77-84: the elements that export_line33.hpp leaves out. *)
Definition xform_skip (d : dc) (j : Z) : outcome bool := obind (line_skip d j) (fun b => Ok (negb b)).
(** export_xform33.hpp:88-258: the four lines of a transformer, as one text with line ends.  Simplified: a value of the
    second line without entry is UB (the variable keeps the value printed before it). *)
Definition xform33_lines (sw : bool) : list (list src) :=
  let zero := Some (s_ "0.000000") in
  [[XInt 0 [Of (if sw then "BRANCH_FROMBUS" else "BRANCH_TOBUS")%string] NoDflt;
    XInt 1 [Of (if sw then "BRANCH_TOBUS" else "BRANCH_FROMBUS")%string] NoDflt; XLit (s_ " 0");
    XTag "BRANCH_CKT" (Some (s_ " 1")); XLit (s_ " 1"); XLit (s_ " 1"); XLit (s_ " 1");
    XDbl [At "TRANSFORMER_MAG1"] zero; XDbl [At "TRANSFORMER_MAG2"] zero; XInt 1 [At "TRANSFORMER_NMETR"] (Const 2);
    XLit (s_ " '            '"); XInt 1 [At "BRANCH_STATUS"] (Const 1);
    XInt 1 [At "BRANCH_O1"] (Const 1); XDbl [At "BRANCH_F1"] zero; XInt 1 [At "BRANCH_O2"] (Const 0); XDbl [At "BRANCH_F2"] zero;
    XInt 1 [At "BRANCH_O3"] (Const 0); XDbl [At "BRANCH_F3"] zero; XInt 1 [At "BRANCH_O4"] (Const 0); XDbl [At "BRANCH_F4"] zero;
    XLit (s_ "'            '")];
   [XDbl [At "TRANSFORMER_R1_2"; At "BRANCH_R"] None; XDbl [At "TRANSFORMER_X1_2"; At "BRANCH_X"] None;
    XDbl [At "TRANSFORMER_SBASE1_2"; Of "CASE_SBASE"] None; XLit []];
   [XDbl [At "TRANSFORMER_WINDV1"; At "BRANCH_TAP"] None; XDbl [At "TRANSFORMER_NOMV1"] zero; XDbl [At "TRANSFORMER_ANG1"] zero;
    XDbl [At "BRANCH_RATING_A"] zero; XDbl [At "BRANCH_RATING_B"] zero; XDbl [At "BRANCH_RATING_C"] zero;
    XInt 1 [At "TRANSFORMER_CODE1"] (Const 0); XInt 1 [At "TRANSFORMER_CONT1"] (Const 0);
    XDbl [At "TRANSFORMER_RMA"] (Some (s_ "1.100000")); XDbl [At "TRANSFORMER_RMI"] (Some (s_ "0.900000"));
    XDbl [At "TRANSFORMER_VMA"] (Some (s_ "1.100000")); XDbl [At "TRANSFORMER_VMI"] (Some (s_ "0.900000"));
    XInt 1 [At "TRANSFORMER_NTP"] (Const 33); XInt 1 [At "TRANSFORMER_TAB"] (Const 0); XDbl [At "TRANSFORMER_CR"] zero;
    XDbl [At "TRANSFORMER_CX"] zero; XDbl [At "TRANSFORMER_CNXA"] zero];
   [XDbl [At "TRANSFORMER_WINDV2"] (Some (s_ "1.000000")); XDbl [At "TRANSFORMER_NOMV2"] zero]].
Fixpoint ends_joined (ls : list str) : str := match ls with [] => [] | [l] => l | l :: r => (l ++ lf :: ends_joined r)%list end.
Definition xform_line (p : place) (j : nat) : outcome (list text_line) :=
  obind (xform_skip (pl_data p) (Z.of_nat j)) (fun b =>
  if b then Ok []
  else obind (ask (pl_data p) TInt (At "BRANCH_SWITCHED") (Z.of_nat j)) (fun v =>
       obind (oall (map (line_of (pl_data p) (pl_orig p) (Z.of_nat j))
                        (xform33_lines (match v with Some (VInt z) => (z =? 1)%Z | _ => true end)))) (fun ls =>
       Ok [Build_text_line (pl_global p) j (ends_joined ls)]))).
Definition xform_lines (p : place) : outcome (list text_line) :=
  obind (oall (map (xform_line p) (iota (how_many (pl_data p) "BRANCH_NUM_ELEMENTS")))) (fun l => Ok (concat l)).

(** One block written by all processes.  [ord] is the order in which the operations of the processes take effect. *)
Definition write_block (dist : nat -> list nat) (ord1 ord2 : list text_line -> list text_line)
    (lines : place -> outcome (list text_line)) (procs : list (list place)) : outcome (list str) :=
  obind (oall (map (block_lines lines) procs)) (fun tls =>
  write_data_block dist tls (ord1 (concat tls)) (ord2 (concat tls))).

(** export_bus33.hpp:68-75, 143-147: written by rank 0 from its first bus.  case_id is a double: the entry stored as int
    by the parser is not found. *)
Definition header (rank0 : list place) : list str :=
  let sbase := match rank0 with
               | [] => s_ "0"
               | p :: _ => match find_key (pl_data p) TDouble "CASE_SBASE" with Some (VDouble x) => fmtg x | _ => s_ "100" end
               end in
  let case_id := match rank0 with
                 | [] => s_ "0"
                 | p :: _ => match find_key (pl_data p) TDouble "CASE_ID" with Some (VDouble x) => fmtg x | _ => s_ "0" end
                 end in
  [(case_id ++ s_ ",  " ++ sbase ++ s_ ",  33, 0, 0, 60.0")%list; []; s_ "/ BEGIN BUS DATA"].

(** PSSE33Export.hpp:68-95, up to the first line of the transformer block; the later blocks are not modelled. *)
Definition export33 (dist : nat -> list nat) (ord1 ord2 : list text_line -> list text_line)
    (buses branches : list (list place)) : outcome (list str) :=
  obind (write_block dist ord1 ord2 bus_lines buses) (fun b1 =>
  obind (write_block dist ord1 ord2 load_lines buses) (fun b2 =>
  obind (write_block dist ord1 ord2 shunt_lines buses) (fun b3 =>
  obind (write_block dist ord1 ord2 gen_lines buses) (fun b4 =>
  obind (write_block dist ord1 ord2 line_lines branches) (fun b5 =>
  Ok (header (hd [] buses) ++ b1 ++ s_ "0 / END BUS DATA, BEGIN LOAD DATA" :: b2
      ++ s_ "0 / END LOAD DATA, BEGIN FIXED SHUNT DATA" :: b3
      ++ s_ "0 / END FIXED SHUNT DATA, BEGIN GENERATOR DATA" :: b4
      ++ s_ "0 / END GENERATOR DATA, BEGIN LINE DATA" :: b5
      ++ [s_ "0 / END LINE DATA, BEGIN TRANSFORMER DATA"])%list))))).
End Xp.

(** ** Reading back *)
Section Back.
Variable atof : str -> Z.
(** case_parser33.cpp:50-86: case id and base power; None as in [section]: not finished. *)
Fixpoint case_record (st : list str) : outcome (Z * Z * list str) :=
  match st with
  | [] => UB
  | line :: r =>
    if check_comment line then case_record r
    else match split_on ","%char (clean_comment line) with
         | t0 :: t1 :: _ => obind (atoi t0) (fun id => Ok (id, atof t1, snd (next_line (snd (next_line r)))))
         | _ => UB
         end
  end.
(** PTI33_parser.hpp:212-251 on the reading process: header, buses, loads, fixed shunts, generators, lines.  [one] and
    [zero] are the bit patterns of 1.0 and 0.0. *)
Definition run {D} (o : option (outcome (D * list str))) : outcome (D * list str) :=
  match o with Some x => x | None => UB end.
Definition import33 (one zero : Z) (file : list str) : outcome (buses * list dc * branches * list str) :=
  let fuel := S (length file) in
  obind (case_record file) (fun '(id, sbase, st0) =>
  obind (run (parse fuel (bus_record atof sbase id) st0 (Build_buses [] [] [] 0 (-1)))) (fun '(b, st1) =>
  obind (run (parse fuel (dev_record atof load33 (bu_names b) (bu_map b)) st1 (bu_data b))) (fun '(d2, st2) =>
  obind (run (parse fuel (dev_record atof fixed_shunt33 (bu_names b) (bu_map b)) st2 d2)) (fun '(d3, st3) =>
  obind (run (parse fuel (dev_record atof (gen33 one zero) (bu_names b) (bu_map b)) st3 d3)) (fun '(d4, st4) =>
  obind (run (parse fuel (branch_record atof (branch33 zero) (bu_names b)) st4 (Build_branches [] [] 0))) (fun '(br, st5) =>
  Ok (b, d4, br, st5))))))).
End Back.

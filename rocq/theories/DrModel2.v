(** Reading of .dyr files: BasePTIParser (/repo/src/parser/base_pti_parser.hpp). *)
From Verif Require Import Prelude DCModel StrModel DrModel DrTables.
From Coq Require Import Ascii.
Open Scope string_scope.

(** ** From lines to records *)
Definition has (c : ascii) (s : str) : bool := existsb (fun x => Ascii.eqb x c) s.
(** record.find('/'), record.erase(idx,...), :1537-1538, 1796-1797. *)
Fixpoint before (c : ascii) (s : str) : str :=
  match s with [] => [] | x :: r => if Ascii.eqb x c then [] else x :: before c r end.
(** Lines skipped at the start of a record: blank ones (:1526-1527, 1777-1779); find_ds_vector ([ext] = true) also skips
    lines of carriage returns and comments that have at least one character after the two slashes (:1778-1785). *)
Definition skipped (ext : bool) (l : str) : bool :=
  forallb (Ascii.eqb sp) l ||
  (ext && (forallb (Ascii.eqb cr) l ||
           match drop_while (Ascii.eqb sp) l with a :: b :: _ :: _ => Ascii.eqb a slash && Ascii.eqb b slash | _ => false end)).
(** The outer loop with the inner one that appends lines until one contains a slash (:1524-1538, 1775-1797).  [acc] is
    the record begun.  When the file ends inside a record the inner loop never ends: std::getline leaves [line] without
    a slash for ever.  Result: the records and whether the loop ends. *)
Fixpoint scan (ext : bool) (acc : option str) (lines : list str) : list str * bool :=
  match lines with
  | [] => ([], match acc with None => true | Some _ => false end)
  | l :: rest =>
      match acc with
      | None =>
          if skipped ext l then scan ext None rest
          else if has slash l then let '(rs, b) := scan ext None rest in (before slash l :: rs, b)
          else scan ext (Some l) rest
      | Some a =>
          let a' := (a ++ l)%list in
          if has slash l then let '(rs, b) := scan ext None rest in (before slash a' :: rs, b)
          else scan ext (Some a') rest
      end
  end.
(** splitPSSELine, :120-144: the same text as base_block_parser.cpp:197-223 (C23 proves that it ends). *)
Definition tokens (r : str) : outcome (list str) :=
  match split_line (S (length r)) r with Some o => o | None => UB end.
(** sval, :1542-1546, 1800-1803. *)
Definition model_of (toks : list str) : outcome string :=
  obind (token toks 1) (fun s => obind (trim_quotes s) (fun t => Ok (text (map upper_c t)))).

(** ** Dispatch on the model name *)
Definition mem (s : string) (l : list string) : bool := existsb (String.eqb s) l.
(** :1443-1459 onGenerator. *)
Definition on_generator (m : string) : bool :=
  mem m ["GENCLS"; "GENSAL"; "GENROU"; "GDFORM"; "REGCA1"; "REECA1"; "REPCA1"; "REPCTA1"; "REGCB1"; "REGCC1"; "WSIEG1";
         "EXDC1"; "EXDC2"; "IEEET1"; "SEXS"; "GAST"; "HYGOV"; "ESST1A"; "ESST4B"; "GGOV1"; "WSHYGP"; "TGOV1"; "PSSSIM";
         "WTDTA1"; "WTARA1"; "WTPTA1"; "WTTQA1"].
(** :1462-1468 onBus, :1471-1477 onBranch, :1480-1487 onLoad. *)
Definition on_bus (m : string) : bool := mem m ["LVSHBL"; "FRQTPAT"].
Definition on_branch (m : string) : bool := mem m ["DISTR1"].
Definition on_load (m : string) : bool := mem m ["CIM6BL"; "USRLOD"; "IEELBL"].

(** A class: its three tables. *)
Record cls := Cls { c_parse : list (row src); c_store : list srow; c_extract : list (row fsrc) }.
Definition assoc {A} (l : list (string * A)) (m : string) : option A := m_find l m.
(** The classes for devices on generators under the name getDSExternal and find_ds_vector give them (:1085-1166,
    1826-1905). *)
Definition gen_class : list (string * cls) :=
  [("GENCLS", Cls gencls_parse gencls_store gencls_extract);
   ("GENSAL", Cls gensal_parse gensal_store gensal_extract);
   ("GENROU", Cls genrou_parse genrou_store genrou_extract);
   ("GDFORM", Cls gdform_parse gdform_store gdform_extract);
   ("REGCA1", Cls regca1_parse regca1_store regca1_extract);
   ("REGCB1", Cls regcb1_parse regcb1_store regcb1_extract);
   ("REGCC1", Cls regcc1_parse regcc1_store regcc1_extract);
   ("REECA1", Cls reeca1_parse reeca1_store reeca1_extract);
   ("REPCA1", Cls repca1_parse repca1_store repca1_extract);
   ("REPCTA1", Cls repca1_parse repca1_store repca1_extract);
   ("WSIEG1", Cls wsieg1_parse wsieg1_store wsieg1_extract);
   ("EXDC1", Cls exdc1_parse exdc1_store exdc1_extract);
   ("EXDC2", Cls exdc1_parse exdc1_store exdc1_extract);
   ("IEEET1", Cls ieeet1_parse ieeet1_store ieeet1_extract);
   ("SEXS", Cls sexs_parse sexs_store sexs_extract);
   ("ESST1A", Cls esst1a_parse esst1a_store esst1a_extract);
   ("ESST4B", Cls esst4b_parse esst4b_store esst4b_extract);
   ("GGOV1", Cls ggov1_parse ggov1_store ggov1_extract);
   ("TGOV1", Cls tgov1_parse tgov1_store tgov1_extract);
   ("GAST", Cls gast_parse gast_store gast_extract);
   ("HYGOV", Cls hygov_parse hygov_store hygov_extract);
   ("WSHYGP", Cls wshygp_parse wshygp_store wshygp_extract);
   ("PSSSIM", Cls psssim_parse psssim_store psssim_extract);
   ("WTDTA1", Cls wtdta1_parse wtdta1_store wtdta1_extract);
   ("WTARA1", Cls wtara1_parse wtara1_store wtara1_extract);
   ("WTPTA1", Cls wtpta1_parse wtpta1_store wtpta1_extract);
   ("WTTQA1", Cls wttqa1_parse wttqa1_store wttqa1_extract)].
(** find_ds_par (:1591-1673) tests for "ESST4A" where the other functions have "ESST4B"; onGenerator lets only
    "ESST4B" come that far, so there is no class for it. *)
Definition gen_parse_class (m : string) : option cls := if String.eqb m "ESST4B" then None else assoc gen_class m.
Definition relay_class : list (string * cls) :=
  [("LVSHBL", Cls lvshbl_parse lvshbl_store lvshbl_extract); ("FRQTPAT", Cls frqtpat_parse frqtpat_store frqtpat_extract)].
Definition branch_class : cls := Cls distr1_parse distr1_store distr1_extract.
(** Loads: the model name, or for USRLOD the name in token 3, not converted to upper case (:1733-1750, 1937-1953). *)
Definition load_class : list (string * cls) :=
  [("CIM6BL", Cls cim6bl_parse cim6bl_store cim6bl_extract); ("IEELBL", Cls ieelbl_parse ieelbl_store ieelbl_extract);
   ("ACMTBLU1", Cls acmtblu1_parse acmtblu1_store acmtblu1_extract);
   ("CMLDBLU1", Cls cmldblu1_parse cmldblu1_store cmldblu1_extract)].
Definition load_device (m : string) (toks : list str) : outcome string :=
  if String.eqb m "USRLOD"
  then obind (token toks 3) (fun s => obind (trim_quotes s) (fun t =>
         Ok (if mem (text t) ["ACMTBLU1"; "CMLDBLU1"] then text t else "")))
  else Ok m.

(** The device at a bus with an identifier (:1566-1583, 1067-1082 and the same for loads): the first of the [count] entries whose
    identifier equals [tag]; -1 if there is none.  An entry without identifier leaves t_id empty. *)
Fixpoint first_match (d : dc) (id_key tag : string) (n : nat) (j : Z) : outcome Z :=
  match n with
  | O => Ok (-1)%Z
  | S n' =>
      obind (get_value d TString (Indexed id_key j) (VString "")) (fun p =>
        match snd p with
        | VString t => if String.eqb tag t then Ok j else first_match d id_key tag n' (j + 1)
        | _ => first_match d id_key tag n' (j + 1)
        end)
  end.
Definition count_of (d : dc) (k : string) : Z := match find_key d TInt k with Some (VInt n) => n | _ => 0%Z end.
Definition device_index (d : dc) (num_key id_key tag : string) : outcome Z :=
  first_match d id_key tag (Z.to_nat (count_of d num_key)) 0.

Section Files.
Variable atof : str -> Z.
Variable trunc : Z -> outcome Z.

(** clean2Char(split_line[2]). *)
Definition tag_of (toks : list str) : outcome string :=
  obind (token toks 2) (fun s => obind (clean2char s) (fun t => Ok (text t))).
Definition bus_of (i : nat) (toks : list str) : outcome Z := obind (token toks i) atoi.

(** ** getDS (:366-394), on process 0 before the network is distributed *)
(** Data collections of the buses by original number (p_busMap, C02), the pairs in p_branchMap, and the bus whose
    collection the variable [data] of find_ds_par points to. *)
Record net := Net { n_buses : list (Z * dc); n_branches : list (Z * Z); n_data : option Z }.
Fixpoint bus_dc (l : list (Z * dc)) (b : Z) : option dc :=
  match l with [] => None | (x, d) :: r => if (x =? b)%Z then Some d else bus_dc r b end.
Fixpoint set_dc (l : list (Z * dc)) (b : Z) (d : dc) : list (Z * dc) :=
  match l with [] => [] | (x, e) :: r => if (x =? b)%Z then (x, d) :: r else (x, e) :: set_dc r b d end.
(** The tag is only computed when there are generators (:1570-1572). *)
Definition matching (d : dc) (num_key id_key : string) (toks : list str) : outcome Z :=
  if (0 <? count_of d num_key)%Z then obind (tag_of toks) (device_index d num_key id_key) else Ok (-1)%Z.
(** The body of the loop for one bus's data collection. *)
Definition on_gen (m : string) (toks : list str) (d : dc) : outcome dc :=
  obind (matching d "GENERATOR_NUMBER" "GENERATOR_ID" toks) (fun g =>
    if (g >? -1)%Z then match gen_parse_class m with Some c => parse atof trunc (c_parse c) toks g d | None => Ok d end
    else Ok d).
Definition on_relay (m : string) (toks : list str) (d : dc) : outcome dc :=
  match assoc relay_class m with Some c => parse_relay atof trunc (c_parse c) toks d | None => Ok d end.
(** For loads parse is called even when no load matches, with index -1 (:1730-1750). *)
Definition on_ld (m : string) (toks : list str) (d : dc) : outcome dc :=
  obind (matching d "LOAD_NUMBER" "LOAD_ID" toks) (fun l =>
  obind (load_device m toks) (fun dev =>
    match assoc load_class dev with Some c => parse atof trunc (c_parse c) toks l d | None => Ok d end)).
Definition at_bus (n : net) (b : Z) (f : dc -> outcome dc) : outcome net :=
  match bus_dc (n_buses n) b with
  | None => Ok n
  | Some d => obind (f d) (fun d' => Ok (Net (set_dc (n_buses n) b d') (n_branches n) (Some b)))
  end.
(** :1540-1764, one record.  A DISTR1 record looks up the branch but its parse is given [data], which still points to the bus of an earlier
    record, or to nothing (:1752-1764). *)
Definition ds_record (n : net) (r : str) : outcome net :=
  obind (tokens r) (fun toks =>
  obind (model_of toks) (fun m =>
    if on_generator m then obind (bus_of 0 toks) (fun b => at_bus n b (on_gen m toks))
    else if on_bus m then obind (bus_of (if String.eqb m "LVSHBL" then 0 else 3) toks) (fun b => at_bus n b (on_relay m toks))
    else if on_load m then obind (bus_of 0 toks) (fun b => at_bus n b (on_ld m toks))
    else if on_branch m then
      obind (bus_of 0 toks) (fun f => obind (bus_of 2 toks) (fun t =>
        if existsb (fun p => (fst p =? f)%Z && (snd p =? t)%Z) (n_branches n) then
          match n_data n with
          | None => UB
          | Some b => match bus_dc (n_buses n) b with
                      | None => UB
                      | Some d => obind (parse_relay atof trunc (c_parse branch_class) toks d) (fun d' => Ok (Net (set_dc (n_buses n) b d') (n_branches n) (Some b)))
                      end
          end
        else Ok n))
    else Ok n)).
Fixpoint ds_records (n : net) (rs : list str) : outcome net :=
  match rs with [] => Ok n | r :: t => obind (ds_record n r) (fun n' => ds_records n' t) end.
(** None: getDS does not return. *)
Definition get_ds (buses : list (Z * dc)) (branches : list (Z * Z)) (lines : list str) : option (outcome net) :=
  let '(rs, ends) := scan false None lines in
  match ds_records (Net buses branches None) rs with
  | Ok n => if ends then Some (Ok n) else None
  | o => Some o
  end.

(** ** getDSExternal (:1016-1258), after the network is distributed *)
(** The four vectors of structs. *)
Record vectors := Vec { v_gens : list struct; v_relays : list struct; v_loads : list struct; v_branches : list struct }.
(** find_ds_vector, :1805-1964, one record: the struct and the vector it is appended to.  The names of models on generators and
    relays have at most 7 characters and fit; those of loads at most 8. *)
Definition vec_record (v : vectors) (r : str) : outcome vectors :=
  obind (tokens r) (fun toks =>
  obind (model_of toks) (fun m =>
    if on_generator m then
      obind (bus_of 0 toks) (fun b => obind (tag_of toks) (fun t =>
      obind (put_field 7 [("bus_id", VInt b)] "gen_id" (VString t)) (fun s =>
      obind (match assoc gen_class m with
             | Some c => store atof trunc 7 (c_store c) toks (("model", VString m) :: s)
             | None => Ok s end) (fun s => Ok (Vec (v_gens v ++ [s]) (v_relays v) (v_loads v) (v_branches v))))))
    else if on_bus m then
      obind (bus_of (if String.eqb m "LVSHBL" then 0 else 3) toks) (fun b =>
      obind (match assoc relay_class m with
             | Some c => store atof trunc 7 (c_store c) toks [("bus_id", VInt b)]
             | None => Ok [] end) (fun s => Ok (Vec (v_gens v) (v_relays v ++ [s]) (v_loads v) (v_branches v))))
    else if on_load m then
      obind (bus_of 0 toks) (fun b => obind (tag_of toks) (fun t =>
      obind (put_field 8 [("bus_id", VInt b)] "id" (VString t)) (fun s =>
      obind (load_device m toks) (fun dev =>
      obind (match assoc load_class dev with Some c => store atof trunc 8 (c_store c) toks s | None => Ok s end) (fun s =>
        Ok (Vec (v_gens v) (v_relays v) (v_loads v ++ [s]) (v_branches v)))))))
    else if on_branch m then
      obind (bus_of 0 toks) (fun f => obind (bus_of 3 toks) (fun t =>
      obind (store atof trunc 7 (c_store branch_class) toks [("to_bus", VInt t); ("from_bus", VInt f)]) (fun s =>
        Ok (Vec (v_gens v) (v_relays v) (v_loads v) (v_branches v ++ [s])))))
    else Ok v)).
Fixpoint vec_records (v : vectors) (rs : list str) : outcome vectors :=
  match rs with [] => Ok v | r :: t => obind (vec_record v r) (fun v' => vec_records v' t) end.
(** find_ds_vector on process 0.  None: does not return. *)
Definition ds_vectors (lines : list str) : option (outcome vectors) :=
  let '(rs, ends) := scan true None lines in
  match vec_records (Vec [] [] [] []) rs with
  | Ok v => if ends then Some (Ok v) else None
  | o => Some o
  end.

(** The structs keyed by bus_id that distributeBusValues brings to the copies of bus [b] (:1042-1048, 1162-1168,
    1211-1217); the order of arrival is not fixed (C20). *)
Definition for_bus (b : Z) (ss : list struct) : list struct :=
  filter (fun s => match fget s "bus_id" with Some (VInt z) => (z =? b)%Z | _ => false end) ss.
(** What a copy of a bus does with a struct that HashDistribution (C20) brings to it, :1056-1170; strcmp with a model never
    assigned is undefined. *)
Definition str_field (s : struct) (f : string) : outcome string :=
  match fget s f with Some (VString t) => Ok t | _ => UB end.
Definition gen_arrives (d : dc) (s : struct) : outcome dc :=
  obind (if (0 <? count_of d "GENERATOR_NUMBER")%Z
         then obind (str_field s "gen_id") (device_index d "GENERATOR_NUMBER" "GENERATOR_ID") else Ok (-1)%Z) (fun g =>
    if (g >? -1)%Z then
      obind (str_field s "model") (fun m =>
        match assoc gen_class m with Some c => extract (c_extract c) s g d | None => Ok d end)
    else Ok d).
(** :1184-1198. *)
Definition relay_arrives (d : dc) (s : struct) : outcome dc :=
  obind (str_field s "model") (fun m =>
    match assoc relay_class m with Some c => extract_relay (c_extract c) s d | None => Ok d end).
(** :1213-1223, on a copy of a branch. *)
Definition branch_arrives (d : dc) (s : struct) : outcome dc :=
  obind (str_field s "model") (fun m => if String.eqb m "DISTR1" then extract_relay (c_extract branch_class) s d else Ok d).
(** :1236-1281. *)
Definition load_arrives (d : dc) (s : struct) : outcome dc :=
  obind (if (0 <? count_of d "LOAD_NUMBER")%Z
         then obind (str_field s "id") (device_index d "LOAD_NUMBER" "LOAD_ID") else Ok (-1)%Z) (fun l =>
    if (l >? -1)%Z then
      obind (str_field s "model") (fun m =>
        match assoc load_class m with Some c => extract (c_extract c) s l d | None => Ok d end)
    else Ok d).
Fixpoint arrivals (f : dc -> struct -> outcome dc) (d : dc) (ss : list struct) : outcome dc :=
  match ss with [] => Ok d | s :: t => obind (f d s) (fun d' => arrivals f d' t) end.
(** A copy of a bus: generators, then relays, then loads, each in the order of arrival. *)
Definition bus_copy (gs rs ls : list struct) (d : dc) : outcome dc :=
  obind (arrivals gen_arrives d gs) (fun d => obind (arrivals relay_arrives d rs) (fun d => arrivals load_arrives d ls)).
Definition branch_copy (bs : list struct) (d : dc) : outcome dc := arrivals branch_arrives d bs.
End Files.

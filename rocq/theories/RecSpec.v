(** What is read from RAW records, stated on the fields of the records and on the answers of getValue. *)
From Verif Require Import Prelude StrModel DCModel DCSpec RecModel.
From Coq Require Import Ascii.
Open Scope nat_scope.

(** The answer of getValue. *)
Definition look (d : dc) (t : dtype) (s : slot) : option value :=
  match get_value d t s (VInt 0) with Ok (true, v) => Some v | _ => None end.

(** The fields of a record in file order, with the names and types they are stored under. *)
Inductive item :=
| IBus (name : string)                    (* bus reference, stored as number *)
| ITag (name : string) (required : bool)  (* two character tag *)
| IInt (name : string)
| IDbl (name : string)
| IBoth (name1 name2 : string)            (* real, stored under two names *)
| IFirst (name : string)                  (* real; the first device is also stored without index *)
| ICpx (name : string)                    (* two fields: real and imaginary part *)
| IOwner (name fname : string) (dflt : Z) (* two fields: owner and fraction, with a default fraction *)
| IName (name : string).                  (* quoted text *)
Definition width (it : item) : nat := match it with ICpx _ | IOwner _ _ _ => 2 | _ => 1 end.
Definition item_names (it : item) : list string :=
  match it with
  | IBus n | ITag n _ | IInt n | IDbl n | IFirst n | ICpx n | IName n => [n]
  | IBoth n1 n2 | IOwner n1 n2 _ => [n1; n2]
  end.
(** The column of every item. *)
Fixpoint columns (c : nat) (its : list item) : list (nat * item) :=
  match its with [] => [] | it :: r => (c, it) :: columns (c + width it) r end.

Section Spec.
Variable atof : str -> Z.
Definition bind_opt {A B} (o : option A) (f : A -> option B) : option B := match o with Some a => f a | None => None end.
Definition int_of (t : str) : option value := match atoi t with Ok z => Some (VInt z) | _ => None end.
Definition dbl_of (t : str) : option value := Some (VDouble (atof t)).
Definition tag_of (t : str) : option value :=
  match clean2char t with Ok g => Some (VString (string_of_list_ascii g)) | _ => None end.
Definition name_of (t : str) : option value :=
  if existsb (Ascii.eqb qt1) t
  then match trim_quotes (trim t) with Ok g => Some (VString (string_of_list_ascii g)) | _ => None end else None.

(** What device number [n] on bus [b], read from record [r], is stored as. *)
Definition expect (b : Z) (r : list str) (n : Z) (c : nat) (it : item) : list (slot * dtype * option value) :=
  match it with
  | IBus name => [(Indexed name n, TInt, Some (VInt b))]
  | ITag name _ => [(Indexed name n, TString, bind_opt (nth_error r c) tag_of)]
  | IInt name => [(Indexed name n, TInt, bind_opt (nth_error r c) int_of)]
  | IDbl name => [(Indexed name n, TDouble, bind_opt (nth_error r c) dbl_of)]
  | IBoth n1 n2 => [(Indexed n1 n, TDouble, bind_opt (nth_error r c) dbl_of); (Indexed n2 n, TDouble, bind_opt (nth_error r c) dbl_of)]
  | IFirst name => ((if (n =? 0)%Z then [(Plain name, TDouble, bind_opt (nth_error r c) dbl_of)] else [])
                    ++ [(Indexed name n, TDouble, bind_opt (nth_error r c) dbl_of)])%list
  | ICpx name => [(Indexed name n, TComplex, bind_opt (nth_error r c) (fun x => bind_opt (nth_error r (S c)) (fun y =>
                     Some (VComplex (atof x) (atof y)))))]
  | IOwner name fname dflt =>
    [(Indexed name n, TInt, bind_opt (nth_error r c) int_of);
     (Indexed fname n, TDouble, bind_opt (nth_error r c) (fun _ =>
        match nth_error r (S c) with Some u => dbl_of u | None => Some (VDouble dflt) end))]
  | IName name => [(Indexed name n, TString, bind_opt (nth_error r c) name_of)]
  end.

(** Records whose fields can be converted: the tag is there if required and not blank, whole numbers are in the range
    of int, no field is blank. *)
Definition readable_at (r : list str) (c : nat) (it : item) : Prop :=
  match it with
  | ITag _ req => (req = true -> nth_error r c <> None) /\ (forall t, nth_error r c = Some t -> exists g, clean2char t = Ok g)
  | IInt _ | IOwner _ _ _ => forall t, nth_error r c = Some t -> exists z, atoi t = Ok z
  | IName _ => forall t, nth_error r c = Some t -> In qt1 t -> exists g, trim_quotes (trim t) = Ok g
  | _ => True
  end.
Definition readable (its : list item) (c0 : nat) (r : list str) : Prop :=
  Forall (fun t => exists c, In c t /\ c <> sp) r /\ (forall c it, In (c, it) (columns c0 its) -> readable_at r c it).
End Spec.

(** ** Layouts of the sections (PSS/E RAW, versions 33 to 35) *)
Definition load_layout : list item :=
  [IBus "LOAD_BUSNUMBER"; ITag "LOAD_ID" false; IInt "LOAD_STATUS"; IInt "LOAD_AREA"; IInt "LOAD_ZONE"; IFirst "LOAD_PL";
   IFirst "LOAD_QL"; IDbl "LOAD_IP"; IDbl "LOAD_IQ"; IDbl "LOAD_YP"; IDbl "LOAD_YQ"].
Definition shunt_layout : list item :=
  [IBus "SHUNT_BUSNUMBER"; ITag "SHUNT_ID" false; IInt "SHUNT_STATUS"; IFirst "BUS_SHUNT_GL"; IFirst "BUS_SHUNT_BL"].
Definition owner_layout (one zero : Z) : list item :=
  [IOwner "GENERATOR_OWNER1" "GENERATOR_OFRAC1" one; IOwner "GENERATOR_OWNER2" "GENERATOR_OFRAC2" zero;
   IOwner "GENERATOR_OWNER3" "GENERATOR_OFRAC3" zero; IOwner "GENERATOR_OWNER4" "GENERATOR_OFRAC4" zero].
Definition gen33_layout (one zero : Z) : list item :=
  ([IBus "GENERATOR_BUSNUMBER"; ITag "GENERATOR_ID" true; IDbl "GENERATOR_PG"; IDbl "GENERATOR_QG"; IDbl "GENERATOR_QMAX";
   IDbl "GENERATOR_QMIN"; IDbl "GENERATOR_VS"; IInt "GENERATOR_IREG"; IDbl "GENERATOR_MBASE"; ICpx "GENERATOR_ZSOURCE";
   ICpx "GENERATOR_XTRAN"; IDbl "GENERATOR_GTAP"; IInt "GENERATOR_STAT"; IDbl "GENERATOR_RMPCT"; IDbl "GENERATOR_PMAX";
   IDbl "GENERATOR_PMIN"] ++ owner_layout one zero ++ [IInt "GENERATOR_WMOD"; IDbl "GENERATOR_WPF"])%list.
Definition gen34_layout (one zero : Z) : list item := (gen33_layout one zero ++ [IInt "GENERATOR_NREG"])%list.
Definition gen35_layout (one zero : Z) : list item :=
  ([IBus "GENERATOR_BUSNUMBER"; ITag "GENERATOR_ID" true; IDbl "GENERATOR_PG"; IDbl "GENERATOR_QG"; IDbl "GENERATOR_QMAX";
   IDbl "GENERATOR_QMIN"; IDbl "GENERATOR_VS"; IInt "GENERATOR_IREG"; IInt "GENERATOR_NREG"; IDbl "GENERATOR_MBASE";
   ICpx "GENERATOR_ZSOURCE"; ICpx "GENERATOR_XTRAN"; IDbl "GENERATOR_GTAP"; IInt "GENERATOR_STAT"; IDbl "GENERATOR_RMPCT";
   IDbl "GENERATOR_PMAX"; IDbl "GENERATOR_PMIN"; IDbl "GENERATOR_BASLOD"] ++ owner_layout one zero
   ++ [IInt "GENERATOR_WMOD"; IDbl "GENERATOR_WPF"])%list.
(** From the third field on; the first two are the ends. *)
Definition branch33_layout : list item :=
  [ITag "BRANCH_CKT" true; IDbl "BRANCH_R"; IDbl "BRANCH_X"; IDbl "BRANCH_B"; IDbl "BRANCH_RATING_A"; IDbl "BRANCH_RATING_B";
   IDbl "BRANCH_RATING_C"; IDbl "BRANCH_SHUNT_ADMTTNC_G1"; IDbl "BRANCH_SHUNT_ADMTTNC_B1"; IDbl "BRANCH_SHUNT_ADMTTNC_G2";
   IDbl "BRANCH_SHUNT_ADMTTNC_B2"; IInt "BRANCH_STATUS"; IInt "BRANCH_METER"; IDbl "BRANCH_LENGTH"; IInt "BRANCH_O1";
   IInt "BRANCH_F1"; IInt "BRANCH_O2"; IInt "BRANCH_F2"; IInt "BRANCH_O3"; IInt "BRANCH_F3"; IInt "BRANCH_O4"; IInt "BRANCH_F4"].
Definition branch34_layout : list item :=
  [ITag "BRANCH_CKT" true; IDbl "BRANCH_R"; IDbl "BRANCH_X"; IDbl "BRANCH_B"; IName "BRANCH_NAME";
   IBoth "BRANCH_RATE1" "BRANCH_RATING_A"; IBoth "BRANCH_RATE2" "BRANCH_RATING_B"; IBoth "BRANCH_RATE3" "BRANCH_RATING_C";
   IDbl "BRANCH_RATE4"; IDbl "BRANCH_RATE5"; IDbl "BRANCH_RATE6"; IDbl "BRANCH_RATE7"; IDbl "BRANCH_RATE8";
   IDbl "BRANCH_RATE9"; IDbl "BRANCH_RATE10"; IDbl "BRANCH_RATE11"; IDbl "BRANCH_RATE12";
   IDbl "BRANCH_SHUNT_ADMTTNC_G1"; IDbl "BRANCH_SHUNT_ADMTTNC_B1"; IDbl "BRANCH_SHUNT_ADMTTNC_G2";
   IDbl "BRANCH_SHUNT_ADMTTNC_B2"; IInt "BRANCH_STATUS"; IInt "BRANCH_METER"; IDbl "BRANCH_LENGTH"; IInt "BRANCH_O1";
   IInt "BRANCH_F1"; IInt "BRANCH_O2"; IInt "BRANCH_F2"; IInt "BRANCH_O3"; IInt "BRANCH_F3"; IInt "BRANCH_O4"; IInt "BRANCH_F4"].

(** ** Buses and devices *)
(** The bus a record refers to in its first field (C43). *)
Definition bus_of (names : list (str * Z)) (r : list str) : option Z :=
  match r with t :: _ => match get_bus_index (sfind names) t with Ok b => Some b | _ => None end | [] => None end.
Definition names_bus (names : list (str * Z)) (b : Z) (r : list str) : bool :=
  match bus_of names r with Some x => (x =? b)%Z | None => false end.
(** Every bus number has its own position in the list of buses. *)
Definition bus_map_ok (bmap : list (Z * nat)) (n : nat) : Prop :=
  (forall b l, zfind bmap b = Some l -> l < n) /\
  (forall b b' l, zfind bmap b = Some l -> zfind bmap b' = Some l -> b = b').
(** Nothing stored yet under the given names. *)
Definition fresh (names : list string) (d : dc) : Prop :=
  forall t s, slot_good s = true -> In (slot_name s) names -> look d t s = None.
(** [d'] is [d] with the devices read from the records [rs], in this order, on bus [b]. *)
Definition holds_devices (atof : str -> Z) (its : list item) (b : Z) (rs : list (list str)) (d d' : dc) : Prop :=
  (forall i r c it s t v, nth_error rs i = Some r -> In (c, it) (columns 0 its) ->
     In (s, t, v) (expect atof b r (Z.of_nat i) c it) -> look d' t s = v) /\
  (forall name i t, In name (flat_map item_names its) -> (Z.of_nat (length rs) <= i <= 9999999)%Z -> look d' t (Indexed name i) = None).
Definition counter (rs : list (list str)) : option value :=
  match rs with [] => None | _ => Some (VInt (Z.of_nat (length rs))) end.

(** ** Branches *)
Definition ends_of (names : list (str * Z)) (r : list str) : option (Z * Z) :=
  match r with
  | t1 :: t2 :: _ => match get_bus_index (sfind names) t1, get_bus_index (sfind names) t2 with
                     | Ok a, Ok b => Some (a, b) | _, _ => None end
  | _ => None
  end.
Definition same_ends (p q : Z * Z) : bool :=
  ((fst p =? fst q) && (snd p =? snd q) || (fst p =? snd q) && (snd p =? fst q))%Z.
(** The pairs of ends without repetition, each as it is first written. *)
Fixpoint first_pairs (seen : list (Z * Z)) (ps : list (Z * Z)) : list (Z * Z) :=
  match ps with
  | [] => []
  | p :: r => if existsb (same_ends p) seen then first_pairs seen r else p :: first_pairs (p :: seen) r
  end.

(** ** Lines and records *)
(** A line that is a record, and its fields (C23). *)
Definition record_line (l : str) (r : list str) : Prop :=
  test_end l = true /\ check_comment l = false /\ split_of (clean_comment l) = Ok r.
Definition comment_line (l : str) : Prop := test_end l = true /\ check_comment l = true.
Inductive reads : list str -> list (list str) -> Prop :=
| rd_nil : reads [] []
| rd_comment l ls rs : comment_line l -> reads ls rs -> reads (l :: ls) rs
| rd_record l ls r rs : record_line l r -> reads ls rs -> reads (l :: ls) (r :: rs).
(** The records handled one after the other. *)
Fixpoint steps {D} (step : D -> list str -> outcome D) (rs : list (list str)) (d : D) : outcome D :=
  match rs with [] => Ok d | r :: rest => obind (step d r) (steps step rest) end.

(** ** Branches by ends *)
Definition pair_eqb (p q : Z * Z) : bool := ((fst p =? fst q) && (snd p =? snd q))%Z.
Definition is_reversed (names : list (str * Z)) (q : Z * Z) (r : list str) : bool :=
  match ends_of names r with Some p => negb (pair_eqb p q) | None => false end.
Definition joins (names : list (str * Z)) (q : Z * Z) (r : list str) : bool :=
  match ends_of names r with Some p => same_ends p q | None => false end.
Definition all_ends (names : list (str * Z)) (rs : list (list str)) : list (Z * Z) :=
  flat_map (fun r => match ends_of names r with Some p => [p] | None => [] end) rs.
(** [d] is branch number [l] between the ends [q], with one element per record of [rs], in this order. *)
Definition holds_branch (atof : str -> Z) (zero : Z) (its : list item) (names : list (str * Z)) (l : nat) (q : Z * Z)
    (rs : list (list str)) (d : dc) : Prop :=
  look d TInt (Plain "BRANCH_INDEX") = Some (VInt (Z.of_nat l)) /\
  look d TInt (Plain "BRANCH_FROMBUS") = Some (VInt (fst q)) /\
  look d TInt (Plain "BRANCH_TOBUS") = Some (VInt (snd q)) /\
  look d TInt (Plain "BRANCH_NUM_ELEMENTS") = Some (VInt (Z.of_nat (length rs))) /\
  (forall i r, nth_error rs i = Some r ->
     look d TBool (Indexed "BRANCH_SWITCHED" (Z.of_nat i)) = Some (VBool (is_reversed names q r)) /\
     look d TDouble (Indexed "BRANCH_TAP" (Z.of_nat i)) = Some (VDouble zero) /\
     look d TDouble (Indexed "BRANCH_SHIFT" (Z.of_nat i)) = Some (VDouble zero) /\
     (forall c it b s t v, In (c, it) (columns 2 its) -> In (s, t, v) (expect atof b r (Z.of_nat i) c it) -> look d t s = v)) /\
  (forall name i t, In name ("BRANCH_SWITCHED" :: "BRANCH_TAP" :: "BRANCH_SHIFT" :: flat_map item_names its)%string ->
     (Z.of_nat (length rs) <= i <= 9999999)%Z -> look d t (Indexed name i) = None) /\
  (forall t s, slot_good s = true ->
     ~ In (slot_name s) ("BRANCH_INDEX" :: "BRANCH_FROMBUS" :: "BRANCH_TOBUS" :: "BRANCH_NUM_ELEMENTS" ::
                         "BRANCH_SWITCHED" :: "BRANCH_TAP" :: "BRANCH_SHIFT" :: flat_map item_names its)%string -> look d t s = None).

(** ** Buses *)
Definition bus_layout : list (nat * string * kind) :=
  [(2, "BUS_BASEKV", KDbl); (3, "BUS_TYPE", KInt); (4, "BUS_AREA", KInt); (5, "BUS_ZONE", KInt); (6, "BUS_OWNER", KInt);
   (7, "BUS_VOLTAGE_MAG", KDbl); (8, "BUS_VOLTAGE_ANG", KDbl); (9, "BUS_VOLTAGE_MAX", KDbl);
   (10, "BUS_VOLTAGE_MIN", KDbl)]%string.
Definition kind_type (k : kind) : dtype := match k with KInt => TInt | KDbl => TDouble end.
Definition kind_of (atof : str -> Z) (k : kind) (t : str) : option value := match k with KInt => int_of t | KDbl => dbl_of atof t end.
(** Number and name in a bus record. *)
Definition bus_number (r : list str) : option Z :=
  match r with t :: _ => match atoi t with Ok z => Some z | _ => None end | [] => None end.
Definition bus_text (r : list str) : option str :=
  match r with _ :: t :: _ => match check_string t with Ok (_, n) => Some n | _ => None end | _ => None end.
Definition bus_readable (r : list str) : Prop :=
  (exists z, bus_number r = Some z /\ z <> (-2147483648)%Z) /\ bus_text r <> None /\
  forall c name t, In (c, name, KInt) bus_layout -> nth_error r c = Some t -> exists z, atoi t = Ok z.
(** [d] holds exactly the fields of the record [r]. *)
Definition holds_bus (atof : str -> Z) (sbase case_id : Z) (r : list str) (d : dc) : Prop :=
  look d TInt (Plain "BUS_NUMBER") = option_map VInt (bus_number r) /\
  look d TDouble (Plain "CASE_SBASE") = Some (VDouble sbase) /\
  look d TInt (Plain "CASE_ID") = Some (VInt case_id) /\
  look d TString (Plain "BUS_NAME") = option_map (fun n => VString (string_of_list_ascii n)) (bus_text r) /\
  (forall c name k, In (c, name, k) bus_layout ->
     look d (kind_type k) (Plain name) = bind_opt (nth_error r c) (kind_of atof k)) /\
  (forall t s, slot_good s = true ->
     ~ In (slot_name s) ("BUS_NUMBER" :: "CASE_SBASE" :: "CASE_ID" :: "BUS_NAME" :: map (fun x => snd (fst x)) bus_layout)%string ->
     look d t s = None).
(** The first position with a property. *)
Fixpoint first_at {A} (f : A -> bool) (l : list A) : option nat :=
  match l with [] => None | x :: r => if f x then Some 0 else option_map S (first_at f r) end.
Definition has_number (b : Z) (r : list str) : bool := match bus_number r with Some z => (z =? b)%Z | None => false end.
Definition has_text (n : str) (r : list str) : bool := match bus_text r with Some m => str_eqb m n | None => false end.
Definition largest (start : Z) (rs : list (list str)) : Z :=
  fold_left (fun m r => match bus_number r with Some z => Z.max m z | None => m end) rs start.

(** ** Devices of a section *)
(** [bs'] is [bs] with the devices of the records [rs] attached to their buses: bus number [b], stored at position [l],
    has the records naming it, in this order, and their number; nothing else changes. *)
Definition attached (atof : str -> Z) (its : list item) (count : string) (names : list (str * Z)) (bmap : list (Z * nat))
    (rs : list (list str)) (bs bs' : list dc) : Prop :=
  length bs' = length bs /\
  forall l d d', nth_error bs l = Some d -> nth_error bs' l = Some d' ->
    (forall b, zfind bmap b = Some l -> (0 <= b)%Z ->
       holds_devices atof its b (filter (names_bus names b) rs) d d' /\
       look d' TInt (Plain count) = counter (filter (names_bus names b) rs) /\
       (forall t s, slot_good s = true -> ~ In (slot_name s) (count :: flat_map item_names its) -> look d' t s = look d t s)) /\
    ((forall b, zfind bmap b <> Some l) -> d' = d).
(** Records that can be attached: the bus field can be read, and so can the others if the bus is known. *)
Definition attachable (its : list item) (names : list (str * Z)) (bmap : list (Z * nat)) (rs : list (list str)) : Prop :=
  length rs <= Z.to_nat 9999999 /\
  forall r, In r rs -> exists b, bus_of names r = Some b /\ (zfind bmap b <> None -> readable its 0 r).
Definition number_at (rs : list (list str)) (i : nat) : option Z := bind_opt (nth_error rs i) bus_number.
(** Different positions have different ends. *)
Definition apart (fp : list (Z * Z)) : Prop :=
  forall i j p q, nth_error fp i = Some p -> nth_error fp j = Some q -> same_ends p q = true -> i = j.

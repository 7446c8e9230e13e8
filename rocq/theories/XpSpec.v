(** What an exported case is: the order of its records, and the data read back from it. *)
From Verif Require Import Prelude GAModel StrModel StrSpec DCModel DCSpec RecModel RecSpec XpModel.
From Coq Require Import Ascii.
Open Scope nat_scope.

(** ** Order of the lines *)
(** Lines are written by increasing global index and, for one global index, by increasing device index. *)
Definition before (a b : text_line) : Prop :=
  tl_global a < tl_global b \/ (tl_global a = tl_global b /\ tl_device a < tl_device b).
Definition in_order {A} (lt : A -> A -> Prop) (l : list A) : Prop :=
  forall i j a b, i < j -> nth_error l i = Some a -> nth_error l j = Some b -> lt a b.
(** The devices of every global index are numbered 0, 1, 2, ... without gap. *)
Definition numbered (ls : list text_line) : Prop :=
  forall g, exists n, Permutation (map tl_device (filter (fun l => tl_global l =? g) ls)) (iota n).
(** A distribution of arrays on the processes. *)
Definition distributes (dist : nat -> list nat) : Prop := forall n, sumn (dist n) = n.
Definition reorders {A} (ord : list A -> list A) : Prop := forall l, Permutation (ord l) l.
Definition actives (procs : list (list place)) : list place := filter pl_active (concat procs).

(** ** Data *)
(** Text without blanks, separators, quotes and line ends: what "%d" and "%f" print, and identifiers. *)
Definition plain_char (c : ascii) : Prop :=
  c <> sp /\ c <> tab /\ c <> ","%char /\ c <> "/"%char /\ c <> qt1 /\ c <> qt2 /\ c <> cr /\ c <> lf.
Definition plain_text (t : str) : Prop := t <> [] /\ Forall plain_char t.
(** Names of buses that come back: no quote, comma, tab or line end; empty, or of at least two characters without
    surrounding blanks. *)
Definition name_text (t : str) : Prop :=
  lacks qt1 t /\ lacks ","%char t /\ lacks tab t /\ lacks lf t /\
  (t = [] \/ (2 <= length t /\ (exists c r, t = c :: r /\ c <> sp) /\ exists u c, t = (u ++ [c])%list /\ c <> sp)).
(** Values that can be written: ints of the type, identifiers of plain text in their two character form. *)
Definition writable (v : value) : Prop :=
  match v with
  | VInt z => is_int z = true
  | VString s => exists i, plain_text i /\ s_ s = canonical i
  | VDouble _ | VComplex _ _ => True
  | _ => False
  end.

(** The entries of a record. *)
Definition bus_entries : list (string * dtype) :=
  [("BUS_BASEKV", TDouble); ("BUS_TYPE", TInt); ("BUS_AREA", TInt); ("BUS_ZONE", TInt); ("BUS_OWNER", TInt);
   ("BUS_VOLTAGE_MAG", TDouble); ("BUS_VOLTAGE_ANG", TDouble); ("BUS_VOLTAGE_MAX", TDouble); ("BUS_VOLTAGE_MIN", TDouble)].
Definition load_entries : list (string * dtype) :=
  [("LOAD_ID", TString); ("LOAD_STATUS", TInt); ("LOAD_AREA", TInt); ("LOAD_ZONE", TInt); ("LOAD_PL", TDouble);
   ("LOAD_QL", TDouble); ("LOAD_IP", TDouble); ("LOAD_IQ", TDouble); ("LOAD_YP", TDouble); ("LOAD_YQ", TDouble)].
Definition shunt_entries : list (string * dtype) :=
  [("SHUNT_ID", TString); ("SHUNT_STATUS", TInt); ("BUS_SHUNT_GL", TDouble); ("BUS_SHUNT_BL", TDouble)].
(** Without GENERATOR_XTRAN. *)
Definition gen_entries : list (string * dtype) :=
  [("GENERATOR_ID", TString); ("GENERATOR_PG", TDouble); ("GENERATOR_QG", TDouble); ("GENERATOR_QMAX", TDouble);
   ("GENERATOR_QMIN", TDouble); ("GENERATOR_VS", TDouble); ("GENERATOR_IREG", TInt); ("GENERATOR_MBASE", TDouble);
   ("GENERATOR_ZSOURCE", TComplex); ("GENERATOR_GTAP", TDouble); ("GENERATOR_STAT", TInt); ("GENERATOR_RMPCT", TDouble);
   ("GENERATOR_PMAX", TDouble); ("GENERATOR_PMIN", TDouble); ("GENERATOR_OWNER1", TInt); ("GENERATOR_OFRAC1", TDouble);
   ("GENERATOR_OWNER2", TInt); ("GENERATOR_OFRAC2", TDouble); ("GENERATOR_OWNER3", TInt); ("GENERATOR_OFRAC3", TDouble);
   ("GENERATOR_OWNER4", TInt); ("GENERATOR_OFRAC4", TDouble); ("GENERATOR_WMOD", TInt); ("GENERATOR_WPF", TDouble)].
(** Without the owners. *)
Definition line_entries : list (string * dtype) :=
  [("BRANCH_CKT", TString); ("BRANCH_R", TDouble); ("BRANCH_X", TDouble); ("BRANCH_B", TDouble); ("BRANCH_RATING_A", TDouble);
   ("BRANCH_RATING_B", TDouble); ("BRANCH_RATING_C", TDouble); ("BRANCH_SHUNT_ADMTTNC_G1", TDouble);
   ("BRANCH_SHUNT_ADMTTNC_B1", TDouble); ("BRANCH_SHUNT_ADMTTNC_G2", TDouble); ("BRANCH_SHUNT_ADMTTNC_B2", TDouble);
   ("BRANCH_STATUS", TInt); ("BRANCH_METER", TInt); ("BRANCH_LENGTH", TDouble)].

(** A solved value replaces the one it was computed from. *)
Definition solved : list (string * string) :=
  [("GENERATOR_PG", "GENERATOR_PF_PG"); ("GENERATOR_QG", "GENERATOR_PF_QG"); ("BUS_VOLTAGE_MAG", "BUS_PF_VMAG");
   ("BUS_VOLTAGE_ANG", "BUS_PF_VANG")]%string.
Definition renamed (n : string) (s : slot) : slot := match s with Plain _ => Plain n | Indexed _ i => Indexed n i end.
Definition current (d : dc) (ty : dtype) (s : slot) : option value :=
  match List.find (fun p => String.eqb (fst p) (slot_name s)) solved with
  | Some (_, n) => match look d ty (renamed n s) with Some v => Some v | None => look d ty s end
  | None => look d ty s
  end.
Definition devices (d : dc) (count : string) : nat :=
  match look d TInt (Plain count) with Some (VInt z) => Z.to_nat z | _ => 0 end.

Section Data.
Variable atof : str -> Z.
Variable fmt : Z -> str.
(** A real number comes back as what atof makes of its printed text. *)
Definition reread (v : value) : value :=
  match v with VDouble x => VDouble (atof (fmt x)) | VComplex x y => VComplex (atof (fmt x)) (atof (fmt y)) | _ => v end.

(** [d] has complete records of the devices counted by [count] on bus [b]. *)
Definition complete (d : dc) (b : Z) (count busname : string) (entries : list (string * dtype)) : Prop :=
  forall j, j < devices d count ->
    look d TInt (Indexed busname (Z.of_nat j)) = Some (VInt b) /\
    forall name ty, In (name, ty) entries -> exists v, look d ty (Indexed name (Z.of_nat j)) = Some v /\ writable v.
(** The load has some constant power. *)
Definition has_power (d : dc) (j : Z) : Prop :=
  forall x y, look d TDouble (Indexed "LOAD_PL" j) = Some (VDouble x) -> look d TDouble (Indexed "LOAD_QL" j) = Some (VDouble y) ->
    dbl_zero x && dbl_zero y = false.
Definition bus_ok (d : dc) : Prop :=
  exists b name,
    (1 <= b <= 2147483647)%Z /\ look d TInt (Plain "BUS_NUMBER") = Some (VInt b) /\
    look d TString (Plain "BUS_NAME") = Some (VString name) /\ name_text (s_ name) /\
    (forall n ty, In (n, ty) bus_entries -> exists v, look d ty (Plain n) = Some v /\ writable v) /\
    complete d b "LOAD_NUMBER" "LOAD_BUSNUMBER" load_entries /\
    (forall j, j < devices d "LOAD_NUMBER" -> has_power d (Z.of_nat j)) /\
    complete d b "SHUNT_NUMBER" "SHUNT_BUSNUMBER" shunt_entries /\
    complete d b "GENERATOR_NUMBER" "GENERATOR_BUSNUMBER" gen_entries.
(** Numbers of devices of the whole case fit the index text of DataCollection. *)
Definition few (count : string) (ps : list place) : Prop :=
  sumn (map (fun p => devices (pl_data p) count) ps) <= Z.to_nat 9999999.
Definition exportable_buses (buses : list (list place)) : Prop :=
  NoDup (map pl_global (actives buses)) /\
  NoDup (map (fun p => look (pl_data p) TInt (Plain "BUS_NUMBER")) (actives buses)) /\
  (forall p, In p (actives buses) -> bus_ok (pl_data p)) /\
  few "LOAD_NUMBER" (actives buses) /\ few "SHUNT_NUMBER" (actives buses) /\ few "GENERATOR_NUMBER" (actives buses).

(** Lines only: elements that are not reversed, with a tap ratio of zero and without winding data. *)
Definition branch_ends (d : dc) : option (Z * Z) :=
  match look d TInt (Plain "BRANCH_FROMBUS"), look d TInt (Plain "BRANCH_TOBUS") with
  | Some (VInt a), Some (VInt b) => Some (a, b) | _, _ => None end.
Definition branch_ok (d : dc) : Prop :=
  (exists a b, branch_ends d = Some (a, b) /\ (1 <= a <= 2147483647)%Z /\ (1 <= b <= 2147483647)%Z) /\
  0 < devices d "BRANCH_NUM_ELEMENTS" /\
  forall j, j < devices d "BRANCH_NUM_ELEMENTS" ->
    look d TInt (Indexed "BRANCH_SWITCHED" (Z.of_nat j)) = None /\
    look d TBool (Indexed "BRANCH_SWITCHED" (Z.of_nat j)) = Some (VBool false) /\
    (exists x, look d TDouble (Indexed "BRANCH_TAP" (Z.of_nat j)) = Some (VDouble x) /\ dbl_zero x = true) /\
    look d TDouble (Indexed "TRANSFORMER_WINDV1" (Z.of_nat j)) = None /\
    (forall k n, In (k, n) [("BRANCH_O1", "BRANCH_F1"); ("BRANCH_O2", "BRANCH_F2"); ("BRANCH_O3", "BRANCH_F3"); ("BRANCH_O4", "BRANCH_F4")]%string ->
       look d TDouble (Indexed n (Z.of_nat j)) = None) /\
    forall name ty, In (name, ty) line_entries -> exists v, look d ty (Indexed name (Z.of_nat j)) = Some v /\ writable v.
Definition exportable_branches (branches : list (list place)) : Prop :=
  NoDup (map pl_global (actives branches)) /\
  (forall p q a b, In p (actives branches) -> In q (actives branches) -> branch_ends (pl_data p) = Some a ->
     branch_ends (pl_data q) = Some b -> same_ends a b = true -> p = q) /\
  (forall p, In p (actives branches) -> branch_ok (pl_data p)) /\ few "BRANCH_NUM_ELEMENTS" (actives branches).

(** ** What comes back *)
Definition same_devices (d d' : dc) (count : string) (entries : list (string * dtype)) : Prop :=
  devices d' count = devices d count /\
  forall j name ty, j < devices d count -> In (name, ty) entries ->
    look d' ty (Indexed name (Z.of_nat j)) = option_map reread (current d ty (Indexed name (Z.of_nat j))).
Definition same_bus (d d' : dc) : Prop :=
  (forall name ty, In (name, ty) (("BUS_NUMBER", TInt) :: ("BUS_NAME", TString) :: bus_entries)%string ->
     look d' ty (Plain name) = option_map reread (current d ty (Plain name))) /\
  same_devices d d' "LOAD_NUMBER" (("LOAD_BUSNUMBER", TInt) :: load_entries)%string /\
  same_devices d d' "SHUNT_NUMBER" (("SHUNT_BUSNUMBER", TInt) :: shunt_entries)%string /\
  same_devices d d' "GENERATOR_NUMBER" (("GENERATOR_BUSNUMBER", TInt) :: gen_entries)%string.
Definition same_branch (d d' : dc) : Prop :=
  branch_ends d' = branch_ends d /\ same_devices d d' "BRANCH_NUM_ELEMENTS" line_entries /\
  forall j, j < devices d "BRANCH_NUM_ELEMENTS" -> look d' TBool (Indexed "BRANCH_SWITCHED" (Z.of_nat j)) = Some (VBool false).
End Data.
Definition by_index (a b : place) : Prop := pl_global a < pl_global b.

(** Model of gridpack::component::DataCollection
    (/repo/src/component/data_collection.hpp, data_collection.cpp). *)
From Verif Require Import Prelude.
From Coq Require Import Ascii.
Open Scope string_scope.

(** ** Decimal text of an int, as produced by sprintf("%d") (data_collection.cpp:102, 113, ...).
    [digits f n] is the decimal text of [n] provided [f] digits suffice; an int needs at most 10. *)
Definition digit (n : N) : ascii := ascii_of_N (48 + n).

Fixpoint digits (fuel : nat) (n : N) (acc : string) : string :=
  match fuel with
  | O => acc
  | S f => let acc' := String (digit (n mod 10)) acc in
           if (n <? 10)%N then acc' else digits f (n / 10) acc'
  end.

Definition dec (z : Z) : string :=
  if (z <? 0)%Z then String "-" (digits 10 (Z.to_N (- z)) EmptyString)
  else digits 10 (Z.to_N z) EmptyString.

(** The value range of the C++ type int (32 bits). *)
Definition is_int (z : Z) : bool := ((-2147483648 <=? z) && (z <=? 2147483647))%Z.

(** ** std::map<std::string,T> restricted to the operations used here: find, insert (which keeps an
    existing entry), and assignment through an iterator.  Association list, keys kept distinct. *)
Definition smap (A : Type) := list (string * A).

Fixpoint m_find {A} (m : smap A) (k : string) : option A :=
  match m with
  | [] => None
  | (k', v) :: r => if String.eqb k' k then Some v else m_find r k
  end.

(** std::map::insert: no effect when the key is present. *)
Definition m_insert {A} (m : smap A) (k : string) (v : A) : smap A :=
  match m_find m k with Some _ => m | None => (m ++ [(k, v)])%list end.

(** [it->second = value] for the iterator found for key [k]. *)
Fixpoint m_assign {A} (m : smap A) (k : string) (v : A) : smap A :=
  match m with
  | [] => []
  | (k', v') :: r => if String.eqb k' k then (k', v) :: r else (k', v') :: m_assign r k v
  end.

(** ** The object: seven maps (data_collection.hpp, private members).
    Floating point values are opaque here and are carried as bit patterns (Z). *)
Record dc := {
  p_ints : smap Z;
  p_longs : smap Z;
  p_bools : smap bool;
  p_strings : smap string;
  p_floats : smap Z;
  p_doubles : smap Z;
  p_complexType : smap (Z * Z)
}.

(** Constructor, data_collection.cpp:13. *)
Definition dc_empty : dc := Build_dc [] [] [] [] [] [] [].

(** A typed value, one constructor per C++ overload. *)
Inductive value :=
| VInt (z : Z) | VLong (z : Z) | VBool (b : bool) | VString (s : string)
| VFloat (bits : Z) | VDouble (bits : Z) | VComplex (re im : Z).

Inductive dtype := TInt | TLong | TBool | TString | TFloat | TDouble | TComplex.

(** How a call names its entry: plain overloads or overloads with the extra index argument. *)
Inductive slot := Plain (name : string) | Indexed (name : string) (idx : Z).

(** Key construction, data_collection.cpp:97-107 and the 20 other indexed overloads: [char buf[8]] receives
    the decimal text and its terminating NUL, so text longer than 7 characters overflows the buffer. *)
Definition key_of (s : slot) : outcome string :=
  match s with
  | Plain n => Ok n
  | Indexed n i => if (String.length (dec i) <=? 7)%nat then Ok (n ++ ":" ++ dec i) else UB
  end.

(** addValue on a constructed key, data_collection.cpp:46-175. *)
Definition add_key (d : dc) (k : string) (v : value) : dc :=
  match v with
  | VInt z => Build_dc (m_insert (p_ints d) k z) (p_longs d) (p_bools d) (p_strings d) (p_floats d) (p_doubles d) (p_complexType d)
  | VLong z => Build_dc (p_ints d) (m_insert (p_longs d) k z) (p_bools d) (p_strings d) (p_floats d) (p_doubles d) (p_complexType d)
  | VBool b => Build_dc (p_ints d) (p_longs d) (m_insert (p_bools d) k b) (p_strings d) (p_floats d) (p_doubles d) (p_complexType d)
  | VString s => Build_dc (p_ints d) (p_longs d) (p_bools d) (m_insert (p_strings d) k s) (p_floats d) (p_doubles d) (p_complexType d)
  | VFloat f => Build_dc (p_ints d) (p_longs d) (p_bools d) (p_strings d) (m_insert (p_floats d) k f) (p_doubles d) (p_complexType d)
  | VDouble f => Build_dc (p_ints d) (p_longs d) (p_bools d) (p_strings d) (p_floats d) (m_insert (p_doubles d) k f) (p_complexType d)
  | VComplex a b => Build_dc (p_ints d) (p_longs d) (p_bools d) (p_strings d) (p_floats d) (p_doubles d) (m_insert (p_complexType d) k (a, b))
  end.

(** setValue on a constructed key, data_collection.cpp:183-466: assign if present, else return false. *)
Definition found {A} (o : option A) : bool := match o with Some _ => true | None => false end.

Definition set_key (d : dc) (k : string) (v : value) : dc * bool :=
  match v with
  | VInt z => (Build_dc (m_assign (p_ints d) k z) (p_longs d) (p_bools d) (p_strings d) (p_floats d) (p_doubles d) (p_complexType d), found (m_find (p_ints d) k))
  | VLong z => (Build_dc (p_ints d) (m_assign (p_longs d) k z) (p_bools d) (p_strings d) (p_floats d) (p_doubles d) (p_complexType d), found (m_find (p_longs d) k))
  | VBool b => (Build_dc (p_ints d) (p_longs d) (m_assign (p_bools d) k b) (p_strings d) (p_floats d) (p_doubles d) (p_complexType d), found (m_find (p_bools d) k))
  | VString s => (Build_dc (p_ints d) (p_longs d) (p_bools d) (m_assign (p_strings d) k s) (p_floats d) (p_doubles d) (p_complexType d), found (m_find (p_strings d) k))
  | VFloat f => (Build_dc (p_ints d) (p_longs d) (p_bools d) (p_strings d) (m_assign (p_floats d) k f) (p_doubles d) (p_complexType d), found (m_find (p_floats d) k))
  | VDouble f => (Build_dc (p_ints d) (p_longs d) (p_bools d) (p_strings d) (p_floats d) (m_assign (p_doubles d) k f) (p_complexType d), found (m_find (p_doubles d) k))
  | VComplex a b => (Build_dc (p_ints d) (p_longs d) (p_bools d) (p_strings d) (p_floats d) (p_doubles d) (m_assign (p_complexType d) k (a, b)), found (m_find (p_complexType d) k))
  end.

(** Lookup in the map of a type. *)
Definition find_key (d : dc) (t : dtype) (k : string) : option value :=
  match t with
  | TInt => option_map VInt (m_find (p_ints d) k)
  | TLong => option_map VLong (m_find (p_longs d) k)
  | TBool => option_map VBool (m_find (p_bools d) k)
  | TString => option_map VString (m_find (p_strings d) k)
  | TFloat => option_map VFloat (m_find (p_floats d) k)
  | TDouble => option_map VDouble (m_find (p_doubles d) k)
  | TComplex => option_map (fun c => VComplex (fst c) (snd c)) (m_find (p_complexType d) k)
  end.

(** getValue, data_collection.cpp:476-757: the returned flag and the caller's variable after the call
    ([old] is its content before). *)
Definition get_value (d : dc) (t : dtype) (s : slot) (old : value) : outcome (bool * value) :=
  obind (key_of s) (fun k =>
    match find_key d t k with Some v => Ok (true, v) | None => Ok (false, old) end).

(** Updating calls: addValue and setValue, and copy assignment from another object (operator=,
    data_collection.cpp:27-39). *)
Inductive call := CAdd (s : slot) (v : value) | CSet (s : slot) (v : value) | CAssign (rhs : dc).

Definition assign_dc (rhs : dc) : dc :=
  Build_dc (p_ints rhs) (p_longs rhs) (p_bools rhs) (p_strings rhs) (p_floats rhs) (p_doubles rhs) (p_complexType rhs).

(** One call: the new object and the value returned ([true] stands for void). *)
Definition run_call (d : dc) (c : call) : outcome (dc * bool) :=
  match c with
  | CAdd s v => obind (key_of s) (fun k => Ok (add_key d k v, true))
  | CSet s v => obind (key_of s) (fun k => Ok (set_key d k v))
  | CAssign rhs => Ok (assign_dc rhs, true)
  end.

Fixpoint run_calls (d : dc) (cs : list call) : outcome (dc * list bool) :=
  match cs with
  | [] => Ok (d, [])
  | c :: r => obind (run_call d c) (fun '(d', b) =>
              obind (run_calls d' r) (fun '(d'', bs) => Ok (d'', b :: bs)))
  end.

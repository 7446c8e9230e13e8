(** Model of the transformer section of a RAW case
    (/repo/src/parser/block_parsers/transformer_parser33.cpp, transformer_parser34.cpp, transformer_parser35.cpp and their headers).
    Simplifications: numbers are exact reals, [None] standing for a double that is not finite (or was computed from one); atof is a parameter.
    A branch is its own entries and the list of its elements, an entry NAME:i of the DataCollection being the entry NAME of element i and
    BRANCH_NUM_ELEMENTS the length of that list (the key encoding is the subject of DCModel and RecModel).  addValue keeps an existing entry
    (DCModel.m_insert).  Messages and the name of the star bus are left out. *)
From Verif Require Import Prelude StrModel RecModel.
From Coq Require Import Reals.
Open Scope R_scope.

Inductive xval := XI (z : Z) | XR (r : option R) | XS (s : str) | XB (b : bool).
Definition entries := list (string * xval).
(** DataCollection lookup and addValue, data_collection.cpp:46-175. *)
Fixpoint xget (d : entries) (k : string) : option xval :=
  match d with [] => None | (k', v) :: r => if String.eqb k' k then Some v else xget r k end.
Definition xadd (d : entries) (k : string) (v : xval) : entries :=
  match xget d k with Some _ => d | None => (d ++ [(k, v)])%list end.
Fixpoint xadds (d : entries) (l : entries) : entries :=
  match l with [] => d | (k, v) :: r => xadds (xadd d k v) r end.

Record xbranch := XBranch { xb_own : entries; xb_elems : list entries }.
(** p_busData, p_branchData, p_branchMap, the local counter index (transformer_parser33.cpp:63) and p_maxBusIndex. *)
Record xstate := XState { x_bus : list entries; x_br : list xbranch; x_map : list ((Z * Z) * nat); x_index : Z; x_max : Z }.

Inductive version := V33 | V34 | V35.

(** Double arithmetic on finite numbers; a zero divisor gives an infinity or NaN. *)
Definition fmul (a b : option R) : option R := match a, b with Some x, Some y => Some (x * y) | _, _ => None end.
Definition fdiv (a b : option R) : option R :=
  match a, b with Some x, Some y => if Req_EM_T y 0 then None else Some (x / y) | _, _ => None end.

Section Xf.
Variable atof : str -> R.
Variable names : list (str * Z).       (* p_nameMap *)
Variable bmap : list (Z * nat).        (* p_busMap *)
Variable sbase : R.                    (* p_case_sbase *)

(** An access split_line[c] without a test of the size. *)
Definition col (r : list str) (c : nat) : outcome str := match nth_error r c with Some t => Ok t | None => UB end.
Definition num (r : list str) (c : nat) : outcome R := obind (col r c) (fun t => Ok (atof t)).
Definition int_ (r : list str) (c : nat) : outcome Z := obind (col r c) atoi.

(** What the rest of the loop body continues with: the next line to examine, the stream and the state. *)
Definition where_ : Type := (str * list str * xstate)%type.

(** The block
      stream.nextLine(line); if (check_comment(line)) { stream.nextLine(line); continue; }
      cleanComment(line); split_lineN = splitPSSELine(line);
    of transformer_parser33.cpp:84-91, 213-220, 252-259, 290-297, 332-357. *)
Definition read_line (st : list str) (s : xstate) (k : list str -> list str -> outcome where_) : outcome where_ :=
  let (l, st1) := next_line st in
  if check_comment l then let (l2, st2) := next_line st1 in Ok (l2, st2, s)
  else obind (split_of (clean_comment l)) (fun r => k r st1).
(** stream.nextLine(line) at the end of the loop body, :697, or repeated :96-99. *)
Definition go_on (st : list str) (s : xstate) : outcome where_ := let (l, st1) := next_line st in Ok (l, st1, s).
Definition drop_line (st : list str) : list str := snd (next_line st).

(** parse3WindXForm: transformer_parser33.hpp:66-76 reads windv, ang and three ratings, transformer_parser34.hpp:65-85 and
    transformer_parser35.hpp twelve ratings. *)
Fixpoint nums (r : list str) (c n : nat) : outcome (list R) :=
  match n with O => Ok [] | S m => obind (num r c) (fun x => obind (nums r (S c) m) (fun l => Ok (x :: l))) end.
Definition rate_count (v : version) : nat := match v with V33 => 3 | _ => 12 end%nat.
Definition winding (v : version) (r : list str) : outcome (R * R * list R) :=
  obind (num r 0) (fun windv => obind (num r 2) (fun ang => obind (nums r 3 (rate_count v)) (fun rates => Ok (windv, ang, rates)))).

(** The addValue calls for the ratings: transformer_parser33.cpp:231-233; transformer_parser34.cpp:232-246. *)
Definition rate_names : list string :=
  ["BRANCH_RATE1"; "BRANCH_RATE2"; "BRANCH_RATE3"; "BRANCH_RATE4"; "BRANCH_RATE5"; "BRANCH_RATE6"; "BRANCH_RATE7"; "BRANCH_RATE8";
   "BRANCH_RATE9"; "BRANCH_RATE10"; "BRANCH_RATE11"; "BRANCH_RATE12"]%string.
Definition abc_names : list string := ["BRANCH_RATING_A"; "BRANCH_RATING_B"; "BRANCH_RATING_C"]%string.
Definition rate_entries (v : version) (rates : list R) : entries :=
  let l := map (fun x => XR (Some x)) rates in
  match v with V33 => combine abc_names l | _ => combine abc_names l ++ combine rate_names l end%list.

(** One winding branch of a three-winding transformer: transformer_parser33.cpp:224-250 (262-288, 300-321); [rates] are the ratings put
    into this collection. *)
Definition star_own (index from star : Z) : entries :=
  [("BRANCH_INDEX", XI index); ("BRANCH_FROMBUS", XI from); ("BRANCH_TOBUS", XI star)]%string.
Definition star_elem (tag : str) (r x : option R) (rates : entries) (windv ang g1 b1 : R) (on : bool) : entries :=
  xadds []
   ([("BRANCH_CKT", XS tag); ("BRANCH_R", XR r); ("BRANCH_X", XR x); ("BRANCH_B", XR (Some 0))] ++ rates ++
    [("BRANCH_TAP", XR (Some windv)); ("BRANCH_SHIFT", XR (Some ang)); ("BRANCH_SWITCHED", XB false);
     ("BRANCH_SHUNT_ADMTTNC_G1", XR (Some g1)); ("BRANCH_SHUNT_ADMTTNC_B1", XR (Some b1));
     ("BRANCH_SHUNT_ADMTTNC_G2", XR (Some 0)); ("BRANCH_SHUNT_ADMTTNC_B2", XR (Some 0)); ("BRANCH_STATUS", XI (if on then 1 else 0))])%list%string.
Definition zmem (z : Z) (l : list Z) : bool := existsb (Z.eqb z) l.

(** transformer_parser33.cpp:192-203: if (sbXY != p_case_sbase && sbXY == 0.0) r = r*p_case_sbase/sbXY. *)
Definition correct (r sb : R) : option R :=
  if Req_EM_T sb sbase then Some r else if Req_EM_T sb 0 then fdiv (Some (r * sbase)) (Some sb) else Some r.

(** The position of a bus, transformer_parser33.cpp:103-123: the index stays unset when the bus is unknown and is then used, :138-159. *)
Definition bus_at (o : Z) : outcome nat := match zfind bmap o with Some l => Ok l | None => UB end.
Definition bus_entry (s : xstate) (l : nat) (k : string) : outcome xval :=
  match nth_error (x_bus s) l with
  | Some d => match xget d k with Some v => Ok v | None => UB end
  | None => UB
  end.

(** Three windings, transformer_parser33.cpp:81-321 (transformer_parser34.cpp and 35: the same with other ratings). *)
Definition push_br (s : xstate) (b : xbranch) : xstate :=
  XState (x_bus s) (x_br s ++ [b])%list (x_map s) (x_index s) (x_max s).
(** Fill the collection pushed last. *)
Definition set_br (s : xstate) (i : nat) (b : xbranch) : xstate := XState (x_bus s) (upd (x_br s) i b) (x_map s) (x_index s) (x_max s).
Definition empty_branch : xbranch := XBranch [] [].
Definition three (v : version) (r1 : list str) (o1 o2 o3 : Z) (st : list str) (s : xstate) : outcome where_ :=
  read_line st s (fun r2 st =>
  obind (int_ r1 11) (fun stat =>
  if ((length r2 <? 4)%nat || (stat =? 0)%Z)%bool then go_on (drop_line (drop_line (drop_line st))) s
  else
  obind (bus_at o1) (fun l1 => obind (bus_at o2) (fun l2 => obind (bus_at o3) (fun l3 =>
  (* :130-161, the new bus *)
  let star := (x_max s + 1)%Z in
  obind (bus_entry s l1 "BUS_AREA") (fun area => obind (bus_entry s l1 "BUS_OWNER") (fun owner =>
  let bus := [("BUS_NUMBER", XI star); ("BUS_BASEKV", XR (Some 0)); ("BUS_TYPE", XI 1); ("BUS_AREA", area); ("BUS_OWNER", owner);
              ("BUS_VOLTAGE_MAG", XR (Some 1)); ("BUS_VOLTAGE_ANG", XR (Some 0))]%string in
  let s0 := XState (x_bus s ++ [bus])%list (x_br s) (x_map s) (x_index s) star in
  (* :163-203 *)
  obind (num r1 7) (fun mag1 => obind (num r1 8) (fun mag2 => obind (obind (col r1 3) clean2char) (fun tag =>
  obind (num r2 0) (fun r12 => obind (num r2 1) (fun x12 => obind (num r2 2) (fun sb12 =>
  obind (num r2 3) (fun r23 => obind (num r2 4) (fun x23 => obind (num r2 5) (fun sb23 =>
  obind (num r2 6) (fun r31 => obind (num r2 7) (fun x31 => obind (num r2 8) (fun sb31 =>
  let r_1 := correct (/ 2 * (r12 + r31 - r23)) sb12 in let x_1 := correct (/ 2 * (x12 + x31 - x23)) sb12 in
  let r_2 := correct (/ 2 * (r12 + r23 - r31)) sb23 in let x_2 := correct (/ 2 * (x12 + x23 - x31)) sb23 in
  let r_3 := correct (/ 2 * (r23 + r31 - r12)) sb31 in let x_3 := correct (/ 2 * (x23 + x31 - x12)) sb31 in
  let i := length (x_br s) in
  (* :205-250 *)
  let s1 := push_br s0 empty_branch in
  read_line st s1 (fun r3 st =>
  obind (winding v r3) (fun '(windv1, ang1, rates1) =>
  let e1 more := XBranch (star_own (Z.of_nat i) o1 star)
     [star_elem tag r_1 x_1 (rate_entries v rates1 ++ more)%list windv1 ang1 mag1 mag2 (zmem stat [1; 2; 3]%Z)] in
  (* :252-288; in versions 34 and 35 the ratings go to the first collection, transformer_parser34.cpp:282-296 *)
  let s2 := push_br (set_br s1 i (e1 [])) empty_branch in
  read_line st s2 (fun r4 st =>
  obind (winding v r4) (fun '(windv2, ang2, rates2) =>
  let own2 := match v with V33 => rate_entries v rates2 | _ => [] end in
  let more2 := match v with V33 => [] | _ => rate_entries v rates2 end in
  let s3 := push_br (set_br (set_br s2 i (e1 more2)) (i + 1) (XBranch (star_own (Z.of_nat i + 1) o2 star)
     [star_elem tag r_2 x_2 own2 windv2 ang2 0 0 (zmem stat [1; 3; 4]%Z)])) empty_branch in
  (* :290-321 *)
  read_line st s3 (fun r5 st =>
  obind (winding v r5) (fun '(windv3, ang3, rates3) =>
  let own3 := match v with V33 => rate_entries v rates3 | _ => [] end in
  let more3 := match v with V33 => [] | _ => rate_entries v rates3 end in
  let s4 := set_br (set_br s3 i (e1 (more2 ++ more3)%list)) (i + 2) (XBranch (star_own (Z.of_nat i + 2) o3 star)
     [star_elem tag r_3 x_3 own3 windv3 ang3 0 0 (zmem stat [1; 2; 4]%Z)]) in
  go_on st s4))))))))))))))))))))))))).

(** ** Two windings *)
Inductive xkind := KI | KD.
(** addValue(name, ato?(split_line[c].c_str()), nelems), the access guarded by [if (ntoken > c)] or not. *)
Record item := Item { it_name : string; it_kind : xkind; it_col : nat; it_guard : bool }.
Fixpoint items (r : list str) (l : list item) : outcome entries :=
  match l with
  | [] => Ok []
  | it :: rest =>
    match nth_error r (it_col it) with
    | None => if it_guard it then items r rest else UB
    | Some t =>
      obind (match it_kind it with KI => obind (atoi t) (fun z => Ok (XI z)) | KD => Ok (XR (Some (atof t))) end) (fun x =>
      obind (items r rest) (fun es => Ok ((it_name it, x) :: es)))
    end
  end.
(** transformer_parser33.cpp:419-524. *)
Definition line1_items : list item :=
  [Item "TRANSFORMER_CW" KI 4 false; Item "TRANSFORMER_CZ" KI 5 false; Item "TRANSFORMER_CM" KI 6 false;
   Item "TRANSFORMER_MAG1" KD 7 false; Item "TRANSFORMER_MAG2" KD 8 false; Item "BRANCH_B" KD 8 false;
   Item "BRANCH_STATUS" KI 11 false; Item "TRANSFORMER_NMETR" KI 9 false;
   Item "BRANCH_O1" KI 12 true; Item "BRANCH_F1" KI 13 true; Item "BRANCH_O2" KI 14 true; Item "BRANCH_F2" KI 15 true;
   Item "BRANCH_O3" KI 16 true; Item "BRANCH_F3" KI 17 true; Item "BRANCH_O4" KI 18 true; Item "BRANCH_F4" KI 19 true]%string%nat.
(** transformer_parser33.cpp:592-692; transformer_parser34.cpp:628-702; transformer_parser35.cpp:627-747. *)
Definition line3_items (v : version) : list item :=
  ([Item "BRANCH_SHIFT" KD 2 false; Item "TRANSFORMER_ANG1" KD 2 false] ++
  match v with
  | V33 =>
    [Item "BRANCH_RATING_A" KD 3 false; Item "BRANCH_RATING_B" KD 4 false; Item "BRANCH_RATING_C" KD 5 false;
     Item "TRANSFORMER_CODE1" KI 6 false; Item "TRANSFORMER_RMA" KD 8 false; Item "TRANSFORMER_RMI" KD 9 false;
     Item "TRANSFORMER_VMA" KD 10 false; Item "TRANSFORMER_VMI" KD 11 false; Item "TRANSFORMER_NTP" KI 12 false;
     Item "TRANSFORMER_TAB" KI 13 false; Item "TRANSFORMER_CR" KD 14 false; Item "TRANSFORMER_CX" KD 15 false;
     Item "TRANSFORMER_CNXA" KD 16 true]
  | V34 =>
    [Item "BRANCH_RATE1" KD 3 false; Item "BRANCH_RATE2" KD 4 false; Item "BRANCH_RATE3" KD 5 false; Item "BRANCH_RATE4" KD 6 false;
     Item "BRANCH_RATE5" KD 7 false; Item "BRANCH_RATE6" KD 8 false; Item "BRANCH_RATE7" KD 9 false; Item "BRANCH_RATE8" KD 10 false;
     Item "BRANCH_RATE9" KD 11 false; Item "BRANCH_RATE10" KD 12 false; Item "BRANCH_RATE11" KD 13 false; Item "BRANCH_RATE12" KD 14 false;
     Item "TRANSFORMER_CODE1" KI 15 false; Item "TRANSFORMER_RMA" KD 17 false; Item "TRANSFORMER_RMI" KD 18 false;
     Item "TRANSFORMER_VMA" KD 19 true; Item "TRANSFORMER_VMI" KD 20 true]
  | V35 =>
    [Item "BRANCH_RATE1" KD 3 false; Item "BRANCH_RATE2" KD 4 false; Item "BRANCH_RATE3" KD 5 false; Item "BRANCH_RATE4" KD 6 false;
     Item "BRANCH_RATE5" KD 7 false; Item "BRANCH_RATE6" KD 8 false; Item "BRANCH_RATE7" KD 9 false; Item "BRANCH_RATE8" KD 10 false;
     Item "BRANCH_RATE9" KD 11 false; Item "BRANCH_RATE10" KD 12 false; Item "BRANCH_RATE11" KD 13 false; Item "BRANCH_RATE11" KD 14 false;
     Item "TRANSFORMER_CODE1" KI 15 false; Item "TRANSFORMER_RMA" KD 18 false; Item "TRANSFORMER_RMI" KD 19 false;
     Item "TRANSFORMER_VMA" KD 20 true; Item "TRANSFORMER_VMI" KD 21 true; Item "TRANSFORMER_NTP" KI 22 true;
     Item "TRANSFORMER_TAB" KI 23 true; Item "TRANSFORMER_CR" KD 24 true; Item "TRANSFORMER_CX" KD 25 true; Item "TRANSFORMER_CNXA" KD 26 true]
  end)%nat%list%string.
(** rval * windv2 * windv2, then to the case base, transformer_parser33.cpp:563-570. *)
Definition to_case (r sb2 : R) (windv2 : option R) : option R :=
  let z := fmul (fmul (Some r) windv2) windv2 in
  if Req_EM_T sb2 sbase then z else if Req_EM_T sb2 0 then z else fdiv (fmul z (Some sbase)) (Some sb2).
(** The element, transformer_parser33.cpp:413-692. *)
Definition two_elem (v : version) (r1 r2 r3 r4 : list str) : outcome entries :=
  obind (obind (col r1 3) clean2char) (fun tag =>
  obind (int_ r1 4) (fun cw =>
  obind (items r1 line1_items) (fun l1 =>
  obind (num r2 2) (fun sb2 => obind (num r3 0) (fun w1 => obind (num r4 0) (fun w2 =>
  obind (if (cw =? 2)%Z then obind (num r3 1) (fun n1 => obind (num r4 1) (fun n2 => Ok (fdiv (Some w1) (Some n1), fdiv (Some w2) (Some n2))))
         else Ok (Some w1, Some w2)) (fun '(windv1, windv2) =>
  obind (num r2 0) (fun r => obind (num r2 1) (fun x => obind (items r3 (line3_items v)) (fun l3 =>
  Ok (xadds [] (("BRANCH_CKT", XS tag) :: l1 ++
       [("TRANSFORMER_SBASE1_2", XR (Some sb2)); ("BRANCH_TAP", XR (fdiv windv1 windv2)); ("TRANSFORMER_WINDV1", XR windv1);
        ("TRANSFORMER_WINDV2", XR windv2); ("TRANSFORMER_R1_2", XR (Some r)); ("BRANCH_R", XR (to_case r sb2 windv2));
        ("TRANSFORMER_X1_2", XR (Some x)); ("BRANCH_X", XR (to_case x sb2 windv2))] ++ l3)%list%string))))))))))).
(** The branch of the pair, transformer_parser33.cpp:358-411. *)
Definition two_slot (s : xstate) (o1 o2 : Z) : xstate * nat :=
  match pfind (x_map s) (o1, o2) with
  | Some l => (s, l)
  | None =>
    match pfind (x_map s) (o2, o1) with
    | Some l => (s, l)
    | None =>
      let l := length (x_br s) in
      (XState (x_bus s)
         (x_br s ++ [XBranch [("BRANCH_INDEX", XI (x_index s)); ("BRANCH_FROMBUS", XI o1); ("BRANCH_TOBUS", XI o2)]%string []])%list
         (x_map s ++ [((o1, o2), l)])%list (x_index s + 1)%Z (x_max s), l)
    end
  end.
(** transformer_parser33.cpp:330-695. *)
Definition two (v : version) (r1 : list str) (o1 o2 : Z) (st : list str) (s : xstate) : outcome where_ :=
  read_line st s (fun r2 st => read_line st s (fun r3 st => read_line st s (fun r4 st =>
  obind (two_elem v r1 r2 r3 r4) (fun e =>
  let (s1, l) := two_slot s o1 o2 in
  match nth_error (x_br s1) l with
  | None => UB
  | Some b => go_on st (set_br s1 l (XBranch (xb_own b) (xb_elems b ++ [e])%list))
  end)))).

(** One pass of the loop, transformer_parser33.cpp:67-697, on a line that is not the end and not a comment. *)
Definition xf_record (v : version) (line : str) (st : list str) (s : xstate) : outcome where_ :=
  obind (split_of (clean_comment line)) (fun r1 =>
  obind (obind (col r1 0) (get_bus_index (sfind names))) (fun o1 =>
  obind (obind (col r1 1) (get_bus_index (sfind names))) (fun o2 =>
  obind (obind (col r1 2) (get_bus_index (sfind names))) (fun k =>
  if (k =? 0)%Z then two v r1 o1 o2 st s else three v r1 o1 o2 k st s)))).
(** The loop; None: not finished after [fuel] passes. *)
Fixpoint xf_loop (fuel : nat) (v : version) (line : str) (st : list str) (s : xstate) : option (outcome (xstate * list str)) :=
  match fuel with
  | O => None
  | S f =>
    if test_end line then
      if check_comment line then let (l, st1) := next_line st in xf_loop f v l st1 s
      else match xf_record v line st s with
           | Ok (l, st1, s1) => xf_loop f v l st1 s1
           | Throw => Some Throw
           | UB => Some UB
           end
    else Some (Ok (s, st))
  end.
(** parse, transformer_parser33.cpp:48-67; buses and branches as the sections before left them, [mx] the largest bus number. *)
Definition xf_parse (fuel : nat) (v : version) (st : list str) (buses : list entries) (brs : list xbranch) (bm : list ((Z * Z) * nat)) (mx : Z)
  : option (outcome (xstate * list str)) :=
  let (l, st1) := next_line st in
  xf_loop fuel v l st1 (XState buses brs bm (Z.of_nat (length brs)) mx).
End Xf.

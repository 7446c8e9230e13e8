(** Lists of contingencies for real time path rating: /repo/src/applications/rtpr/rtpr_driver.cpp createGeneratorContingencies,
    createBranchContingencies, findWatchedGenerators, getTieLines (the gathering).  Strings are lists of characters (StrModel.v), the
    global vector is that of ParModel.v. *)
From Verif Require Import Prelude GAModel ParModel StrModel.

(** The part of the data of a bus that is read: BUS_AREA, BUS_ZONE, GENERATOR_NUMBER and, for each generator, GENERATOR_STAT and
    GENERATOR_ID (of a branch: BRANCH_NUM_ELEMENTS, BRANCH_STATUS, BRANCH_CKT); None: there is no such value *)
Record unit_data := UnitD { u_stat : option Z; u_id : option str }.
Record bus_data := BusD { d_active : bool; d_index : Z; d_area : option Z; d_zone : option Z; d_units : option (list unit_data) }.

(** rtpr_driver.cpp:195-205: the name of a unit, cut to two characters; a status that is missing is zero, a name that is missing is the
    empty string *)
Definition unit_tag (u : unit_data) : outcome str :=
  obind (clean2char (match u_id u with Some s => s | None => [] end)) (fun t => Ok (firstn 2 t)).
Definition unit_on (u : unit_data) : bool := match u_stat u with Some s => negb (s =? 0)%Z | None => false end.
(** rtpr_driver.cpp:193-207, 296-310: the entries of one bus or branch, [key] its number(s) *)
Definition unit_entries {K} (key : K) (us : list unit_data) : outcome (list (K * str)) :=
  oall (map (fun u => obind (unit_tag u) (fun t => Ok (key, t))) (filter unit_on us)).
(** A variable that is assigned if there is a value and keeps what it had otherwise *)
Definition assigned (v : option Z) (old : option Z) : option Z := match v with Some x => Some x | None => old end.
(** rtpr_driver.cpp:178-211: the loop over the buses of a process.  iarea and izone are declared outside of the loop without
    a value: [ia], [iz] are what they hold, None: nothing yet; comparing them then is undefined *)
Fixpoint local_gens (area zone : Z) (ia iz : option Z) (bs : list bus_data) : outcome (list (Z * str)) :=
  match bs with
  | [] => Ok []
  | b :: r =>
      if d_active b then
        let ia' := assigned (d_area b) ia in
        let iz' := if (0 <? zone)%Z then assigned (d_zone b) iz else Some zone in
        match ia' with
        | None => UB
        | Some a =>
          if (a =? area)%Z then
            match iz' with
            | None => UB
            | Some z =>
              obind (if (z =? zone)%Z then match d_units b with Some us => unit_entries (d_index b) us | None => Ok [] end else Ok []) (fun l =>
              obind (local_gens area zone ia' iz' r) (fun l' => Ok (l ++ l')%list))
            end
          else local_gens area zone ia' iz' r
        end
      else local_gens area zone ia iz r
  end.

(** The data of a branch that is read: BUS_AREA and BUS_ZONE of its two buses, BRANCH_NUM_ELEMENTS, BRANCH_STATUS, BRANCH_CKT *)
Record branch_data := BranchD { b_active : bool; b_from : Z; b_to : Z; b_area1 : option Z; b_area2 : option Z;
  b_zone1 : option Z; b_zone2 : option Z; b_lines : option (list unit_data) }.
(** A comparison with a variable that may hold nothing *)
Definition equals (v : option Z) (x : Z) : outcome bool := match v with Some y => Ok (x =? y)%Z | None => UB end.
(** C++ && : the second comparison is made only if the first one holds *)
Definition and_then (a b : outcome bool) : outcome bool := obind a (fun x => if x then b else Ok false).
(** rtpr_driver.cpp:279-313: the loop over the branches of a process; area1, area2, zone1 and zone2 live outside of the loop as well *)
Fixpoint local_lines (area zone : Z) (a1 a2 z1 z2 : option Z) (bs : list branch_data) : outcome (list (Z * Z * str)) :=
  match bs with
  | [] => Ok []
  | b :: r =>
      if b_active b then
        let a1' := assigned (b_area1 b) a1 in
        let a2' := assigned (b_area2 b) a2 in
        let z1' := if (0 <? zone)%Z then assigned (b_zone1 b) z1 else Some zone in
        let z2' := if (0 <? zone)%Z then assigned (b_zone2 b) z2 else Some zone in
        obind (and_then (equals a1' area) (and_then (equals a2' area) (and_then (equals z1' zone) (equals z2' zone)))) (fun here =>
        obind (if here then match b_lines b with Some us => unit_entries (b_from b, b_to b) us | None => Ok [] end else Ok []) (fun l =>
        obind (local_lines area zone a1' a2' z1' z2' r) (fun l' => Ok (l ++ l')%list)))
      else local_lines area zone a1 a2 z1 z2 r
  end.

(** rtpr_driver.cpp:212-241, 314-344 (and 485-513, 577-603): the lists of all processes are put into a global vector, those of process p after
    those of the processes before it, and every process reads all of it.  If there are none the function returns at once. *)
Section Gather.
  Context {A : Type} (zero : A) (own : nat -> nat).
  Definition offset_of (ls : list (list A)) (p : nat) : nat := sumn (map (@length A) (firstn p ls)).
  Definition indexed (ls : list (list A)) : list (list (Z * A)) :=
    map (fun p => combine (map (fun i => Z.of_nat (offset_of ls p + i)) (iota (length (nth p ls [])))) (nth p ls [])) (iota (length ls)).
  Definition gather (ls : list (list A)) (s1 s2 : sched) : outcome (list A) :=
    if sumn (map (@length A) ls) =? 0 then Ok [] else obind (gv_upload zero own (indexed ls) s1 s2) (fun g => gv_getAllData g).
End Gather.

(** rtpr_driver.cpp:242-254: contingency i of the list: its number (the name is GenCTG followed by the number), bus and generator; the
    name of the generator is cleaned again *)
Record contingency := Ctg { c_number : nat; c_bus : Z; c_gen : str }.
Definition make_ctgs (buses : list Z) (tags : list str) : outcome (list contingency) :=
  oall (map (fun e => obind (clean2char (snd (snd e))) (fun t => Ok (Ctg (S (fst e)) (fst (snd e)) t))) (combine (iota (length buses)) (combine buses tags))).
(** rtpr_driver.cpp:164-256 createGeneratorContingencies on all processes; [sb1], [sb2], [st1], [st2]: the order in which things happen
    while the two vectors are uploaded *)
Definition gen_ctgs (own : nat -> nat) (area zone : Z) (procs : list (list bus_data)) (sb1 sb2 st1 st2 : sched) : outcome (list contingency) :=
  obind (oall (map (local_gens area zone None None) procs)) (fun ls =>
  obind (gather 0%Z own (map (map fst) ls) sb1 sb2) (fun buses =>
  obind (gather [] own (map (map snd) ls) st1 st2) (fun tags =>
  make_ctgs buses tags))).

(** rtpr_driver.cpp:345-358: the same for branches, LineCTG followed by the number *)
Record line_contingency := LCtg { lc_number : nat; lc_from : Z; lc_to : Z; lc_ckt : str }.
Definition make_line_ctgs (from to : list Z) (tags : list str) : outcome (list line_contingency) :=
  oall (map (fun e => obind (clean2char (snd (snd e))) (fun t => Ok (LCtg (S (fst e)) (fst (fst (snd e))) (snd (fst (snd e))) t)))
    (combine (iota (length from)) (combine (combine from to) tags))).
(** rtpr_driver.cpp:266-361 createBranchContingencies on all processes *)
Definition line_ctgs (own : nat -> nat) (area zone : Z) (procs : list (list branch_data)) (f1 f2 t1 t2 k1 k2 : sched) : outcome (list line_contingency) :=
  obind (oall (map (local_lines area zone None None None None) procs)) (fun ls =>
  obind (gather 0%Z own (map (map (fun e => fst (fst e))) ls) f1 f2) (fun from =>
  obind (gather 0%Z own (map (map (fun e => snd (fst e))) ls) t1 t2) (fun to =>
  obind (gather [] own (map (map snd) ls) k1 k2) (fun tags =>
  make_line_ctgs from to tags)))).
(** rtpr_driver.cpp:523-603 findWatchedGenerators: the same loop and joining into the caller's two lists [old], which are emptied only
    after the return that is taken when there is no generator *)
Definition watched (own : nat -> nat) (area zone : Z) (procs : list (list bus_data)) (old : list Z * list str) (sb1 sb2 st1 st2 : sched) :
  outcome (list Z * list str) :=
  obind (oall (map (local_gens area zone None None) procs)) (fun ls =>
  if sumn (map (@length _) ls) =? 0 then Ok old else
  obind (gather 0%Z own (map (map fst) ls) sb1 sb2) (fun buses =>
  obind (gather [] own (map (map snd) ls) st1 st2) (fun tags => Ok (buses, tags)))).

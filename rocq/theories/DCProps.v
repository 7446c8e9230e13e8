(** C01, C02: DataCollection. *)
From Verif Require Import Prelude DCModel DCSpec DCProofs.
Open Scope string_scope.

(** C01.  After any sequence of addValue/setValue calls, getValue answers as the history of calls on exactly
    that entry and type prescribes; a failed getValue leaves the caller's variable untouched. *)
Theorem C01_get_after_any_history :
  forall (cs : list call) (s : slot) (t : dtype) (old : value),
  forallb call_good cs = true -> slot_good s = true ->
  exists d bs r, run_calls dc_empty cs = Ok (d, bs) /\
    history s t cs r /\ (forall r', history s t cs r' -> r' = r) /\
    get_value d t s old = Ok (match r with Some v => (true, v) | None => (false, old) end).
Proof. exact dc_get_history. Qed.
Print Assumptions C01_get_after_any_history.

Theorem C01_set_reports_presence :
  forall (cs : list call) (s : slot) (v : value),
  forallb call_good cs = true -> slot_good s = true ->
  exists d bs r, run_calls dc_empty cs = Ok (d, bs) /\ history s (type_of v) cs r /\
    exists d', run_call d (CSet s v) = Ok (d', match r with Some _ => true | None => false end).
Proof. exact dc_set_result. Qed.
Print Assumptions C01_set_reports_presence.

Theorem C01_assignment_copies_everything :
  forall d rhs t s old d' b, run_call d (CAssign rhs) = Ok (d', b) ->
  get_value d' t s old = get_value rhs t s old.
Proof. exact dc_assign. Qed.
Print Assumptions C01_assignment_copies_everything.

Example C01_nonvacuous :
  forallb call_good [CAdd (Plain "BUS_NUMBER") (VInt 3); CAdd (Plain "BUS_NUMBER") (VInt 4);
    CAdd (Indexed "LOAD_PL" 2) (VDouble 5); CSet (Indexed "LOAD_PL" 2) (VDouble 6)] = true
  /\ slot_good (Indexed "LOAD_PL" 2) = true.
Proof. split; reflexivity. Qed.

(** C02.  Indexed entries never alias each other. *)
Theorem C02_indexed_entries_never_alias :
  forall n1 i1 n2 i2, slot_ok (Indexed n1 i1) = true -> slot_ok (Indexed n2 i2) = true ->
  (key_of (Indexed n1 i1) = key_of (Indexed n2 i2) <-> n1 = n2 /\ i1 = i2).
Proof. exact indexed_alias. Qed.
Print Assumptions C02_indexed_entries_never_alias.

(** The access is undefined behaviour exactly for indices whose text does not fit the buffer. *)
Theorem C02_indexed_access_safe_range :
  forall n i, is_int i = true -> (key_of (Indexed n i) = UB <-> ~ (-999999 <= i <= 9999999)%Z).
Proof. exact key_of_ub. Qed.
Print Assumptions C02_indexed_access_safe_range.

Theorem C02_plain_name_alias :
  forall n m i, slot_ok (Indexed m i) = true -> (key_of (Plain n) = key_of (Indexed m i) <-> n = m ++ ":" ++ dec i).
Proof. exact plain_indexed_alias. Qed.
Print Assumptions C02_plain_name_alias.

(** Finding: a plain name can read an indexed entry. *)
Theorem C02_plain_name_alias_refuted :
  exists n m i d, run_calls dc_empty [CAdd (Indexed m i) (VInt 7)] = Ok (d, [true]) /\
    Plain n <> Indexed m i /\ get_value d TInt (Plain n) (VInt 0) = Ok (true, VInt 7).
Proof. exact plain_alias_refuted. Qed.
Print Assumptions C02_plain_name_alias_refuted.

Example C02_nonvacuous : slot_ok (Indexed "GENERATOR_PG" 12) = true /\ is_int 10000000 = true
  /\ key_of (Indexed "A" 10000000) = UB /\ key_of (Indexed "A" (-12)) = Ok "A:-12".
Proof. repeat split; reflexivity. Qed.

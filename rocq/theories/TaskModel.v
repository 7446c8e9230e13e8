(** Model of gridpack::parallel::TaskManager (/repo/src/parallel/task_manager.hpp),
    Communicator::divide (/repo/src/parallel/communicator.cpp:184-212) and
    BaseFactory::checkTrue / checkTrueSomewhere (/repo/src/factory/base_factory.hpp:409-451). *)
From Verif Require Import Prelude.
Open Scope Z_scope.

(** The shared counter is a one element Global Array of C ints (task_manager.hpp:42-49, 61-68), hence 32 bit
    two's complement arithmetic. *)
Definition wrap32 (z : Z) : Z := (z + 2147483648) mod 4294967296 - 2147483648.

(** One TaskManager.  [counts] is p_task_count of each rank.  Simplification: [ntasks] is stored once;
    [set] is called collectively with one value. *)
Record tm := { counter : Z; ntasks : Z; counts : list nat }.

(** set(ntasks), task_manager.hpp:84-89. *)
Definition tm_set (n : Z) (nprocs : nat) : tm :=
  {| counter := 0; ntasks := n; counts := repeat 0%nat nprocs |}.

(** NGA_Read_inc: atomically returns the old value and adds [inc]. *)
Definition read_inc (s : tm) (inc : Z) : Z * tm :=
  (counter s, {| counter := wrap32 (counter s + inc); ntasks := ntasks s; counts := counts s |}).

Definition bump (l : list nat) (r : nat) : list nat :=
  match nth_error l r with Some c => upd l r (S c) | None => l end.

(** A call; the interleaving of all ranks' calls is a list of calls ordered by the atomic operation on the
    counter.  [NextGroup rs]: all members [rs] of a communicator call nextTask(comm,next), [rs]'s head is the
    communicator's rank 0. *)
Inductive tcall := Next (r : nat) | NextGroup (rs : list nat) | Cancel (r : nat).

(** Second half of nextTask, task_manager.hpp:102-110 and 134-141: compare with p_ntasks. *)
Definition answer (s : tm) (v : Z) : bool * Z := if v <? ntasks s then (true, v) else (false, -1).

Definition count_if (b : bool) (s : tm) (rs : list nat) : tm :=
  if b then {| counter := counter s; ntasks := ntasks s; counts := fold_left bump rs (counts s) |} else s.

(** GA_Pgroup_igop(...,"+") over the values of the members. *)
Definition igop_plus (vs : list Z) : Z := fold_right (fun x acc => wrap32 (x + acc)) 0 vs.

Definition tstep (s : tm) (c : tcall) : tm * list (nat * (bool * Z)) :=
  match c with
  | Next r =>                                                   (* task_manager.hpp:98-110 *)
      let '(v, s1) := read_inc s 1 in
      let a := answer s1 v in (count_if (fst a) s1 [r], [(r, a)])
  | NextGroup [] => (s, [])
  | NextGroup (r0 :: rs) =>                                     (* task_manager.hpp:122-142 *)
      let '(v, s1) := read_inc s 1 in
      let total := igop_plus (v :: map (fun _ => 0) rs) in
      let a := answer s1 total in
      (count_if (fst a) s1 (r0 :: rs), map (fun r => (r, a)) (r0 :: rs))
  | Cancel r => (snd (read_inc s (ntasks s)), [])               (* task_manager.hpp:150-153 *)
  end.

Fixpoint trun (s : tm) (cs : list tcall) : tm * list (list (nat * (bool * Z))) :=
  match cs with
  | [] => (s, [])
  | c :: r => let '(s1, a) := tstep s c in let '(s2, al) := trun s1 r in (s2, a :: al)
  end.

(** ** Communicator::divide, communicator.cpp:184-212.  C++ integer division truncates; division by zero is UB. *)
Definition cdiv (a b : Z) : outcome Z := if b =? 0 then UB else Ok (Z.quot a b).
Definition cmod (a b : Z) : outcome Z := if b =? 0 then UB else Ok (Z.rem a b).

(** The loop over i = 0..me (lines 204-210), [k] iterations already done. *)
Fixpoint color_loop (steps : nat) (i : Z) (color nlarge nsize : Z) : outcome Z :=
  match steps with
  | O => Ok color
  | S st =>
      obind (if i <? nlarge * nsize then cmod i nsize else cmod (i - nlarge * nsize) (nsize - 1)) (fun m =>
        color_loop st (i + 1) (if m =? 0 then color + 1 else color) nlarge nsize)
  end.

Definition nlarge_of (nprocs nsize : Z) : outcome Z :=
  obind (cdiv nprocs nsize) (fun q =>
  let ngrp := if q * nsize <? nprocs then q + 1 else q in
  let nl0 := if nprocs <? ngrp * nsize then nprocs - (ngrp * nsize - nprocs) else nprocs in
  obind (cdiv nl0 nsize) (fun nl1 =>
  Ok (if nsize <? nprocs - nl1 * nsize then nl1 + 1 else nl1))).

Definition divide_color (nprocs nsize : Z) (me : nat) : outcome Z :=
  obind (nlarge_of nprocs nsize) (fun nl => color_loop (S me) 0 0 nl nsize).

(** ** checkTrue and checkTrueSomewhere: the result every rank computes from the flags of all ranks. *)
Definition flag_int (b : bool) : Z := if b then 1 else 0.
Definition check_true (flags : list bool) : bool :=
  fold_right Z.add 0 (map flag_int flags) =? Z.of_nat (length flags).
Definition check_true_somewhere (flags : list bool) : bool :=
  0 <? fold_right Z.add 0 (map flag_int flags).

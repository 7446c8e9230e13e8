(** Independent specification of the timer in terms of the calls made. *)
From Verif Require Import Prelude TimerModel.
Open Scope nat_scope.

(** The titles named in createCategory calls, first occurrences only, in order. *)
Fixpoint titles (seen : list string) (cs : list call) : list string :=
  match cs with
  | [] => seen
  | Create s :: r => titles (if in_dec string_dec s seen then seen else seen ++ [s])%list r
  | _ :: r => titles seen r
  end.
(** The start and stop calls made while timing is enabled. *)
Fixpoint enabled (flag : bool) (cs : list call) : list call :=
  match cs with
  | [] => []
  | Config f :: r => enabled f r
  | Create _ :: r => enabled flag r
  | c :: r => if flag then c :: enabled flag r else enabled flag r
  end.
Definition starts (h : nat) (cs : list call) : nat :=
  length (filter (fun c => match c with Start i _ => (i =? Z.of_nat h)%Z | _ => false end) (enabled true cs)).
Definition stops (h : nat) (cs : list call) : nat :=
  length (filter (fun c => match c with Stop i _ => (i =? Z.of_nat h)%Z | _ => false end) (enabled true cs)).
(** The calls of one category. *)
Definition of_category (h : nat) (cs : list call) : list call :=
  filter (fun c => match c with Start i _ => (i =? Z.of_nat h)%Z | Stop i _ => (i =? Z.of_nat h)%Z | _ => false end) (enabled true cs).
(** Properly paired calls: intervals (from, to). *)
Definition paired (h : nat) (ivs : list (Z * Z)) : list call :=
  flat_map (fun iv => [Start (Z.of_nat h) (fst iv); Stop (Z.of_nat h) (snd iv)]) ivs.
Definition total (ivs : list (Z * Z)) : Z := fold_right (fun iv s => snd iv - fst iv + s)%Z 0%Z ivs.
(** The titles of the createCategory calls, in order. *)
Definition created (cs : list call) : list string := flat_map (fun c => match c with Create s => [s] | _ => [] end) cs.

(** What users of the task manager rely on: a queue of tasks. *)
From Verif Require Import Prelude TaskModel.
Open Scope Z_scope.

(** The tasks 0, 1, ..., n-1. *)
Definition tasks (n : nat) : list Z := map Z.of_nat (iota n).

(** An ideal task queue: each call takes the next remaining task; cancel drops the rest; every member of a
    calling group receives the group's answer. *)
Fixpoint ideal (queue : list Z) (cs : list tcall) : list (list (nat * (bool * Z))) :=
  match cs with
  | [] => []
  | c :: r =>
    let members := match c with Next p => [p] | NextGroup ps => ps | Cancel _ => [] end in
    match c, members with
    | Cancel _, _ => [] :: ideal [] r
    | _, [] => [] :: ideal queue r
    | _, _ =>
      match queue with
      | [] => map (fun p => (p, (false, -1))) members :: ideal [] r
      | t :: q => map (fun p => (p, (true, t))) members :: ideal q r
      end
    end
  end.

Definition is_cancel (c : tcall) : bool := match c with Cancel _ => true | _ => false end.
Definition cancels (cs : list tcall) : nat := length (filter is_cancel cs).

(** All increments of the shared counter fit in an int. *)
Definition no_overflow (n : nat) (cs : list tcall) : bool :=
  Z.of_nat n * Z.of_nat (cancels cs) + Z.of_nat (length cs) + Z.of_nat n <? 2147483648.

(** The tasks given out, in order. *)
Definition given (answers : list (list (nat * (bool * Z)))) : list Z :=
  flat_map (fun a => match a with (_, (true, t)) :: _ => [t] | _ => [] end) answers.

Definition asks (c : tcall) : bool := match c with Next _ => true | NextGroup (_ :: _) => true | _ => false end.

(** Number of successful answers received by rank [p]. *)
Definition successes (p : nat) (answers : list (list (nat * (bool * Z)))) : nat :=
  length (filter (fun a => Nat.eqb (fst a) p && fst (snd a)) (concat answers)).

(** The ranks that divide() puts into group (colour) [g]. *)
Definition group_members (P n : Z) (g : Z) : list nat :=
  filter (fun me => match divide_color P n me with Ok c => c =? g | _ => false end) (iota (Z.to_nat P)).

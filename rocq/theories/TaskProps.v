(** C03, C04, C09, C16: task distribution, communicator division, global flags. *)
From Verif Require Import Prelude TaskModel TaskSpec TaskProofs.
Open Scope Z_scope.

(** C03/C04.  Under every interleaving of single, group and cancel calls the task manager answers like an
    ideal queue of tasks; every member of a group receives the group's answer. *)
Theorem C03_refines_task_queue :
  forall (n P : nat) (cs : list tcall), no_overflow n cs = true ->
  snd (trun (tm_set (Z.of_nat n) P) cs) = ideal (tasks n) cs.
Proof. exact task_refines. Qed.
Print Assumptions C03_refines_task_queue.

(** Each task is handed out at most once, only valid tasks are handed out, and once there have been at
    least n calls every task has been handed out. *)
Theorem C03_every_task_exactly_once :
  forall (n P : nat) (cs : list tcall), no_overflow n cs = true -> cancels cs = 0%nat ->
  let g := given (snd (trun (tm_set (Z.of_nat n) P) cs)) in
  NoDup g /\ (forall t, In t g -> 0 <= t < Z.of_nat n) /\
  ((n <= length (filter asks cs))%nat -> forall t, 0 <= t < Z.of_nat n -> In t g).
Proof. exact exactly_once. Qed.
Print Assumptions C03_every_task_exactly_once.

Theorem C03_false_only_when_exhausted :
  forall n P cs1 c cs2 p v,
  no_overflow n (cs1 ++ c :: cs2) = true -> cancels (cs1 ++ c :: cs2) = 0%nat ->
  (exists a, nth_error (snd (trun (tm_set (Z.of_nat n) P) (cs1 ++ c :: cs2))) (length cs1) = Some a /\
             In (p, (false, v)) a) ->
  v = -1 /\ given (snd (trun (tm_set (Z.of_nat n) P) cs1)) = tasks n.
Proof. exact false_means_exhausted. Qed.
Print Assumptions C03_false_only_when_exhausted.

Theorem C03_cancel_stops_distribution :
  forall n P cs1 r cs2, no_overflow n (cs1 ++ Cancel r :: cs2) = true ->
  forall a p x, In a (skipn (S (length cs1)) (snd (trun (tm_set (Z.of_nat n) P) (cs1 ++ Cancel r :: cs2)))) ->
  In (p, x) a -> x = (false, -1).
Proof. exact cancel_stops. Qed.
Print Assumptions C03_cancel_stops_distribution.

(** printStats reports for each process the number of tasks it received. *)
Theorem C03_statistics_exact :
  forall n P cs p, (p < P)%nat ->
  nth p (counts (fst (trun (tm_set n P) cs))) 0%nat = successes p (snd (trun (tm_set n P) cs)).
Proof. exact stats_exact. Qed.
Print Assumptions C03_statistics_exact.

(** Finding: without the overflow condition cancel can make the manager hand out negative tasks
    (one million tasks, 2148 processes calling cancel). *)
Theorem C03_cancel_overflow_refuted :
  exists n P cs1 r cs2 a p v,
  In a (skipn (S (length cs1)) (snd (trun (tm_set (Z.of_nat n) P) (cs1 ++ Cancel r :: cs2)))) /\
  In (p, (true, v)) a /\ v < 0.
Proof. exact cancel_refuted. Qed.
Print Assumptions C03_cancel_overflow_refuted.

Example C03_nonvacuous : no_overflow 3 [Next 0; Next 1; Next 0; Next 1; Next 0] = true
  /\ snd (trun (tm_set 3 2) [Next 0; Next 1; Next 0; Next 1]) =
     [[(0%nat, (true, 0))]; [(1%nat, (true, 1))]; [(0%nat, (true, 2))]; [(1%nat, (false, -1))]].
Proof. split; reflexivity. Qed.

(** C04.  A group call gives all members one answer, and the tasks given to successive callers (groups or
    single processes) are 0,1,2,... without repetition. *)
Theorem C04_group_tasks_in_order :
  forall n P cs, no_overflow n cs = true -> cancels cs = 0%nat ->
  given (snd (trun (tm_set (Z.of_nat n) P) cs)) = tasks (Nat.min (length (filter asks cs)) n).
Proof. exact given_run. Qed.
Print Assumptions C04_group_tasks_in_order.

Theorem C04_members_agree :
  forall n P cs i rs a p1 x1 p2 x2, no_overflow n cs = true ->
  nth_error cs i = Some (NextGroup rs) ->
  nth_error (snd (trun (tm_set (Z.of_nat n) P) cs)) i = Some a ->
  map fst a = rs /\ (In (p1, x1) a -> In (p2, x2) a -> x1 = x2).
Proof. exact members_agree. Qed.
Print Assumptions C04_members_agree.

Example C04_nonvacuous :
  snd (trun (tm_set 2 4) [NextGroup [0; 1]%nat; NextGroup [2; 3]%nat; NextGroup [0; 1]%nat]) =
  [[(0%nat, (true, 0)); (1%nat, (true, 0))]; [(2%nat, (true, 1)); (3%nat, (true, 1))];
   [(0%nat, (false, -1)); (1%nat, (false, -1))]].
Proof. reflexivity. Qed.

(** C09. *)
Theorem C09_divide_contiguous_groups :
  forall P n, 0 < P -> 0 < n ->
  (forall me1 me2, Z.of_nat me1 < P -> Z.of_nat me2 < P ->
     exists c1 c2, divide_color P n me1 = Ok c1 /\ divide_color P n me2 = Ok c2 /\
       (c1 = c2 <-> Z.of_nat me1 / n = Z.of_nat me2 / n)) /\
  (forall g, Z.of_nat (length (group_members P n g)) <= n).
Proof. exact divide_groups. Qed.
Print Assumptions C09_divide_contiguous_groups.

(** Group g consists of n consecutive ranks (fewer only in the last group). *)
Theorem C09_divide_group_members :
  forall P n g, 0 < P -> 0 < n -> 1 <= g -> (g - 1) * n < P ->
  group_members P n g = seq (Z.to_nat ((g - 1) * n)) (Z.to_nat (Z.min n (P - (g - 1) * n))).
Proof. exact group_members_seq. Qed.
Print Assumptions C09_divide_group_members.

Example C09_nonvacuous : group_members 7 3 2 = [3; 4; 5]%nat /\ group_members 7 3 3 = [6]%nat
  /\ divide_color 4 0 0 = UB.
Proof. repeat split; reflexivity. Qed.

(** C16. *)
Theorem C16_check_true_is_conjunction :
  forall flags, check_true flags = true <-> (forall b, In b flags -> b = true).
Proof. exact check_true_spec. Qed.
Print Assumptions C16_check_true_is_conjunction.

Theorem C16_check_true_somewhere_is_disjunction :
  forall flags, check_true_somewhere flags = true <-> In true flags.
Proof. exact check_true_somewhere_spec. Qed.
Print Assumptions C16_check_true_somewhere_is_disjunction.

Example C16_nonvacuous : check_true [true; true; true] = true /\ check_true [true; false; true] = false
  /\ check_true_somewhere [false; true] = true.
Proof. repeat split; reflexivity. Qed.

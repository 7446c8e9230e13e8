(** C63: the shuffler over Global Arrays.  [routable] and [delivered] are the specification of the MPI shuffler (ParSpec.v). *)
From Coq Require Import Ascii.
From Verif Require Import Prelude GAModel ParModel ParSpec ParProofs GsModel GsProofs3.

(** For every serialisation that can be read back (whatever follows it) and never is empty, all lists of things and destinations in
    range, and every schedule: the call never fails; when all ranks have returned, every rank holds its own things followed by those
    the other ranks sent to it, by rank; until then some rank can go on. *)
Theorem C63_ga_shuffler : forall (T : Type) (ser : list T -> list ascii) (unser : list ascii -> option (list T)),
  (forall v pad, unser (ser v ++ pad)%list = Some v) -> (forall v, ser v <> []) ->
  forall (w : list (list T * list Z)) (sched : list nat), routable w = true ->
  match ga_call ser unser w sched with
  | Ok (inl r) => r = map (delivered w) (iota (length w))
  | Ok (inr s) =>
      (returned s = true -> things s = map (delivered w) (iota (length w))) /\
      (returned s = false -> exists q s', gstep unser s q = Some (Ok s'))
  | _ => False
  end.
Proof. intros T ser unser H1 H2 w sched H. now apply ga_call_ok. Qed.
Print Assumptions C63_ga_shuffler.

(** Whatever happened so far, the call returns on all ranks once every rank has been given enough turns. *)
Theorem C63_returns : forall (T : Type) (ser : list T -> list ascii) (unser : list ascii -> option (list T)),
  (forall v pad, unser (ser v ++ pad)%list = Some v) -> (forall v, ser v <> []) ->
  forall (w : list (list T * list Z)) (sched : list nat), routable w = true ->
  exists m, forall k, m <= k ->
    match ga_call ser unser w (sched ++ concat (repeat (iota (length w)) k)) with
    | Ok (inl _) => True
    | Ok (inr s) => returned s = true
    | _ => False
    end.
Proof. intros T ser unser H1 H2 w sched H. now apply ga_call_returns. Qed.
Print Assumptions C63_returns.

(** The two shufflers can be exchanged: when all ranks have returned they hold what the MPI shuffler gives them, and nothing is lost
    or duplicated. *)
Theorem C63_same_as_mpi : forall (T : Type) (ser : list T -> list ascii) (unser : list ascii -> option (list T)),
  (forall v pad, unser (ser v ++ pad)%list = Some v) -> (forall v, ser v <> []) ->
  forall (w : list (list T * list Z)) (sched : list nat) s, routable w = true ->
  ga_call ser unser w sched = Ok (inr s) -> returned s = true ->
  shuffle w = Ok (things s) /\ Permutation (concat (things s)) (concat (map fst w)).
Proof.
  intros T ser unser H1 H2 w sched s H E R. pose proof (ga_call_ok ser unser H1 H2 w sched H) as X. rewrite E in X. destruct X as [X _].
  rewrite (X R). split; [now apply shuffle_correct|now apply delivered_conserves].
Qed.
Print Assumptions C63_same_as_mpi.

(** A destination that is not a rank is an access outside an array, on two processes or more. *)
Theorem C63_bad_destination : forall (T : Type) (ser : list T -> list ascii) (unser : list ascii -> option (list T))
    (w : list (list T * list Z)) (sched : list nat) p d,
  2 <= length w -> forallb (fun x => length (fst x) =? length (snd x)) w = true ->
  p < length w -> In d (snd (nth p w ([], []))) -> ~ (0 <= d < Z.of_nat (length w))%Z -> ga_call ser unser w sched = UB.
Proof.
  intros T ser unser w sched p d H2 Hl Hp Hin Hd. pose proof (@shuffle_bad_destination T w p d H2 Hl Hp Hin Hd) as S.
  unfold shuffle in S. unfold ga_call, ga_start. destruct (negb _); [reflexivity|].
  destruct (length w <=? 1); [discriminate|]. destruct (sumn _ =? 0); [discriminate|].
  cbv zeta in S |- *. destruct (oall _); [discriminate|discriminate|reflexivity].
Qed.
Print Assumptions C63_bad_destination.

(** Numbers in unary, with an end mark: a serialisation as the theorems ask for. *)
Definition unary (v : list nat) : list ascii := (flat_map (fun x => repeat "1"%char x ++ ["0"%char]) v ++ ["."%char])%list.
Fixpoint read_unary (x : nat) (s : list ascii) : option (list nat) :=
  match s with
  | "1"%char :: r => read_unary (S x) r
  | "0"%char :: r => option_map (cons x) (read_unary 0 r)
  | "."%char :: _ => Some []
  | _ => None
  end.
Example C63_serialisation_nonvacuous :
  (forall v pad, read_unary 0 (unary v ++ pad)%list = Some v) /\ (forall v, unary v <> []).
Proof.
  split.
  - unfold unary. intros v pad. rewrite <- app_assoc. cbn [app]. induction v as [|x v IH]; [reflexivity|].
    cbn [flat_map]. rewrite <- !app_assoc. cbn [app].
    assert (G : forall k y, read_unary y (repeat "1"%char k ++ "0"%char :: flat_map (fun x0 : nat => repeat "1"%char x0 ++ ["0"%char]) v ++ "."%char :: pad)%list = Some ((y + k) :: v)).
    { induction k as [|k IHk]; intros y; cbn [repeat app read_unary].
      - rewrite IH. cbn. now rewrite Nat.add_0_r.
      - rewrite IHk. f_equal. f_equal. lia. }
    exact (G x 0).
  - intros v H. destruct (flat_map (fun x : nat => repeat "1"%char x ++ ["0"%char])%list v) eqn:E; unfold unary in H; rewrite E in H; discriminate.
Qed.

(** Three ranks; rank 2 runs ahead as far as it can, then 0, then 1, then turns. *)
Definition world3 : list (list nat * list Z) := [([1; 2; 3], [1; 0; 2]%Z); ([4; 5], [1; 0]%Z); ([6], [0%Z])].
Example C63_nonvacuous :
  routable world3 = true /\
  exists s, ga_call unary (read_unary 0) world3 (repeat 2 30 ++ repeat 0 30 ++ repeat 1 30 ++ concat (repeat [2; 1; 0] 40))%list = Ok (inr s) /\
    returned s = true /\ things s = [[2; 5; 6]; [4; 1]; [3]] /\ map (delivered world3) (iota 3) = things s.
Proof. split; [reflexivity|]. eexists. split; [vm_compute; reflexivity|]. vm_compute. auto. Qed.
(** Before the turns nobody has returned, and rank 1 has read from rank 0 only. *)
Example C63_running_nonvacuous :
  exists s, ga_call unary (read_unary 0) world3 (repeat 2 30 ++ repeat 0 30 ++ repeat 1 30)%list = Ok (inr s) /\
    returned s = false /\ things s = [[2]; [4; 1]; []].
Proof. eexists. split; [vm_compute; reflexivity|]. vm_compute. auto. Qed.

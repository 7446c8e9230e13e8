(** C10, C13, C14: the distributed network. *)
From Verif Require Import Prelude GAModel ParModel NetModel NetSpec NetProofs NetProofs2 NetProofs3 NetProofs4.

(** Supplies the result of a computation as the witness of an existential. *)
Ltac run_witness := match goal with |- exists x, ?e = Ok x /\ _ =>
  let r := eval vm_compute in e in match r with Ok ?v => exists v end end.

(** * C10 *)
(** Whatever the external partitioner answers, whatever block sizes GA chooses and whatever order the
    concurrent scatters take effect in, every rank ends up holding what [holds] requires. *)
Theorem C10_partition_distributes : forall (B R : Type) (nets : list (net B R)) dist ord1 ord2 part,
  fresh nets -> answer_ok nets part -> all_branches nets <> [] ->
  length dist = length nets -> sumn dist = length (all_buses nets) ->
  Permutation ord1 (map (fun b => (b_glob b, b_orig b)) (all_buses nets)) ->
  Permutation ord2 (combine (map (@b_glob B) (all_buses nets)) (concat part)) ->
  exists nets', partition nets dist ord1 ord2 part = Ok nets' /\ length nets' = length nets /\
    forall p, p < length nets -> holds nets part p (at_rank nets' p).
Proof. exact @partition_holds. Qed.
Print Assumptions C10_partition_distributes.

(** Over all ranks, every bus and every branch is active exactly once. *)
Theorem C10_active_exactly_once : forall (B R : Type) (nets : list (net B R)) dist ord1 ord2 part nets',
  fresh nets -> answer_ok nets part -> all_branches nets <> [] ->
  length dist = length nets -> sumn dist = length (all_buses nets) ->
  Permutation ord1 (map (fun b => (b_glob b, b_orig b)) (all_buses nets)) ->
  Permutation ord2 (combine (map (@b_glob B) (all_buses nets)) (concat part)) ->
  partition nets dist ord1 ord2 part = Ok nets' ->
  Permutation (map bus_core (filter (@b_active B) (all_buses nets'))) (map bus_core (all_buses nets)) /\
  Permutation (map branch_core (filter (@r_active R) (all_branches nets'))) (map branch_core (all_branches nets)).
Proof.
  intros B R nets dist ord1 ord2 part nets' Hf Ha Hb H1 H2 H3 H4 HP.
  destruct (@partition_holds B R nets dist ord1 ord2 part Hf Ha Hb H1 H2 H3 H4) as (n2 & E & L & HH).
  rewrite HP in E. injection E as <-. exact (@active_once B R nets nets' part Hf Ha L HH).
Qed.
Print Assumptions C10_active_exactly_once.

(** A network of three buses and two lines read on rank 0: bus 10 stays, buses 20 and 30 go to rank 1. *)
Definition ex_bus (o g : Z) : bus Z := Bus true o g [] o false.
Definition ex_branch (a b : Z) : branch Z := Branch true (-1) a b (-1) (-1) (-1) (-1) (a * 100 + b)%Z.
Definition ex_nets : list (net Z Z) :=
  [Net [ex_bus 10 0; ex_bus 20 1; ex_bus 30 2] [ex_branch 10 20; ex_branch 30 10] (-1) [] []; Net [] [] (-1) [] []].
Definition ex_part : list (list Z) := [[0; 1; 1]; []]%Z.
Definition ex_ord1 : list (Z * Z) := [(0, 10); (1, 20); (2, 30)]%Z.
Definition ex_ord2 : list (Z * Z) := [(0, 0); (1, 1); (2, 1)]%Z.

Example C10_nonvacuous :
  fresh ex_nets /\ answer_ok ex_nets ex_part /\ all_branches ex_nets <> [] /\
  length [2; 1] = length ex_nets /\ sumn [2; 1] = length (all_buses ex_nets) /\
  Permutation ex_ord1 (map (fun b => (b_glob b, b_orig b)) (all_buses ex_nets)) /\
  Permutation ex_ord2 (combine (map (@b_glob Z) (all_buses ex_nets)) (concat ex_part)).
Proof.
  split; [|split; [|split; [discriminate|split; [reflexivity|split; [reflexivity|split; apply Permutation_refl]]]]].
  - unfold fresh. split; [repeat constructor|]. split; [repeat constructor|]. split.
    + repeat constructor; simpl; intuition discriminate.
    + split; [apply Permutation_refl|]. apply Forall_forall. simpl. intros r [<-|[<-|[]]]; simpl; tauto.
  - unfold answer_ok. split; [reflexivity|]. split.
    + intros [|[|p]]; try reflexivity. unfold at_rank. simpl. destruct p; reflexivity.
    + apply Forall_forall. simpl. intros d [<-|[<-|[<-|[]]]]; lia.
Qed.

(** Finding: a process may hold several ghost copies of one bus, because the duplicates found by std::unique
    are not erased (graph_partitioner_implementation.cpp:476-479).  Here rank 1 holds bus 10 twice, and only
    the last copy has neighbours. *)
Theorem C10_one_ghost_per_bus_refuted :
  exists nets', partition ex_nets [2; 1] ex_ord1 ex_ord2 ex_part = Ok nets' /\
    map (fun b => (b_orig b, b_active b, b_nbr b)) (n_buses (at_rank nets' 1)) =
      [(20%Z, true, [0]); (30%Z, true, [1]); (10%Z, false, []); (10%Z, false, [0; 1])].
Proof. run_witness. split; vm_compute; reflexivity. Qed.
Print Assumptions C10_one_ghost_per_bus_refuted.

(** Finding: a branch that names a bus missing from the network is attached to the bus with global index 0
    without any message. *)
Theorem C10_unknown_end_refuted :
  exists nets', partition [Net [ex_bus 10 0; ex_bus 20 1] [ex_branch 20 77] (-1)%Z [] []] [2]
                  [(0, 10); (1, 20)]%Z [(0, 0); (1, 0)]%Z [[0; 0]%Z] = Ok nets' /\
    map (fun r => (r_o2 r, r_g2 r, r_l2 r)) (n_branches (at_rank nets' 0)) = [(77, 0, 0)]%Z.
Proof. run_witness. split; vm_compute; reflexivity. Qed.
Print Assumptions C10_unknown_end_refuted.

(** * C13 *)
(** clean keeps exactly the active buses and branches, in order, and renumbers the local references. *)
Theorem C13_clean_keeps_active : forall (B R : Type) (n : net B R),
  n_buses (clean n) = map (renumbered_bus n) (filter (@b_active B) (n_buses n)) /\
  n_branches (clean n) = map (renumbered_branch n) (filter (@r_active R) (n_branches n)).
Proof. exact @clean_spec. Qed.
Print Assumptions C13_clean_keeps_active.

(** A renumbered reference points to the same object; a reference to a removed bus becomes -1. *)
Theorem C13_references_preserved : forall (B R : Type) (n : net B R),
  (forall i b, zget (n_buses n) i = Some b -> b_active b = true ->
     zget (n_buses (clean n)) (new_pos_z (@b_active B) (n_buses n) i) = Some (renumbered_bus n b)) /\
  (forall j k, new_pos (@r_active R) (n_branches n) j = Some k ->
     exists r, nth_error (n_branches n) j = Some r /\ r_active r = true /\
       nth_error (n_branches (clean n)) k = Some (renumbered_branch n r)) /\
  (forall i, (forall b, zget (n_buses n) i = Some b -> b_active b = false) ->
     new_pos_z (@b_active B) (n_buses n) i = (-1)%Z).
Proof. intros B R n. exact (conj (@clean_bus_ref B R n) (conj (@clean_branch_ref B R n) (@clean_inactive_end B R n))). Qed.
Print Assumptions C13_references_preserved.

Theorem C13_reference_bus_preserved : forall (B R : Type) (n : net B R) b,
  zget (n_buses n) (n_ref n) = Some b -> b_active b = true ->
  zget (n_buses (clean n)) (n_ref (clean n)) = Some (renumbered_bus n b).
Proof. exact @clean_ref. Qed.
Print Assumptions C13_reference_bus_preserved.

(** Finding: when the reference bus is a ghost, clean makes local bus 0 the reference bus. *)
Definition ex_ghost_ref : net Z Z :=
  Net [ex_bus 10 0; Bus false 20 1 [0] 20%Z true] [Branch true 0 10 20 0 1 0 1 7%Z] 1 [] [].
Theorem C13_reference_bus_refuted :
  option_map (@b_ref Z) (zget (n_buses ex_ghost_ref) (n_ref ex_ghost_ref)) = Some true /\
  option_map (@b_orig Z) (zget (n_buses (clean ex_ghost_ref)) (n_ref (clean ex_ghost_ref))) = Some 10%Z.
Proof. split; reflexivity. Qed.
Print Assumptions C13_reference_bus_refuted.

(** Finding: the map from original bus numbers is not refreshed, so a look-up after clean names the wrong local
    bus. *)
Definition ex_stale : net Z Z := set_map (Net [Bus false 10 0 [] 10%Z false; ex_bus 20 1; ex_bus 30 2] [] (-1) [] []).
Theorem C13_lookup_after_clean_refuted :
  get_local_bus_indices ex_stale 20 = [1] /\
  get_local_bus_indices (clean ex_stale) 20 = [1] /\
  option_map (@b_orig Z) (nth_error (n_buses (clean ex_stale)) 1) = Some 30%Z.
Proof. repeat split; reflexivity. Qed.
Print Assumptions C13_lookup_after_clean_refuted.

Definition ex_clean : net Z Z :=
  Net [Bus false 10 0 [0] 10%Z false; Bus true 20 1 [0; 1] 20%Z true; Bus true 30 2 [1] 30%Z false]
      [Branch false 0 10 20 0 1 0 1 7%Z; Branch true 1 20 30 1 2 1 2 8%Z] 1 [] [].
Example C13_nonvacuous :
  zget (n_buses ex_clean) (n_ref ex_clean) = Some (Bus true 20 1 [0; 1] 20%Z true) /\
  clean ex_clean = Net [Bus true 20 1 [0] 20%Z true; Bus true 30 2 [0] 30%Z false] [Branch true 1 20 30 1 2 0 1 8%Z]%Z 0%Z [] [].
Proof. split; reflexivity. Qed.

(** * C14 *)
(** After the index set-up, the neighbour queries agree with the branch list. *)
Theorem C14_neighbour_queries : forall (B R : Type) (n : net B R), self_contained n ->
  exists n', setup n = Ok n' /\
    map (@b_glob B) (n_buses n') = map (@b_glob B) (n_buses n) /\
    map bus_core (n_buses n') = map bus_core (n_buses n) /\
    map branch_core (n_branches n') = map branch_core (n_branches n) /\
    forall i b, nth_error (n_buses n) i = Some b ->
      get_connected_branches n' (Z.of_nat i) = Ok (incident (n_branches n) (b_glob b)) /\
      exists ks, get_connected_buses n' (Z.of_nat i) = Ok ks /\
        Forall2 (other_end n' (b_glob b)) (incident (n_branches n) (b_glob b)) ks.
Proof. exact @setup_queries. Qed.
Print Assumptions C14_neighbour_queries.

Example C14_nonvacuous :
  let n : net Z Z := Net [ex_bus 10 0; ex_bus 20 1; ex_bus 30 2]
     [Branch true 0 10 20 0 1 (-1) (-1) 5%Z; Branch true 1 30 10 2 0 (-1) (-1) 6%Z; Branch true 2 10 20 0 1 (-1) (-1) 7%Z]%Z (-1)%Z [] [] in
  self_contained n /\ exists n', setup n = Ok n' /\
    get_connected_branches n' 0 = Ok [0; 1; 2] /\ get_connected_buses n' 0 = Ok [1; 2; 1]%Z.
Proof.
  split.
  - split; [repeat constructor; simpl; intuition discriminate|].
    apply Forall_forall. simpl. intros r [<-|[<-|[<-|[]]]]; simpl; tauto.
  - run_witness. repeat split; vm_compute; reflexivity.
Qed.

(** C65: copying a network into one with other components. *)
From Verif Require Import Prelude GAModel ParModel NetModel ClnModel ClnSpec ClnProofs ClnProofs2.

(** C65: the copy of a network whose branches have their ends answers every question as the original does: every accessor with every
    index, neighbours, reference bus, data.  Lookups by original index find exactly the right buses and branches.  Its components
    are new ones, and it does not matter what was in the target before. *)
Theorem C65_clone : forall B R B' R' D (nb : B') (nr : R') (nd : D) (o : dnet B R D), linked o ->
  exists n : dnet B' R' D, (forall t, clone nb nr nd o t = Ok n) /\ same_answers o n /\ finds n /\
    (forall b, In b (n_buses (d_net n)) -> fst (b_obj b) = nb) /\ (forall r, In r (n_branches (d_net n)) -> fst (r_obj r) = nr) /\
    (* the global indices of the ends of a branch are those of the buses at its ends *)
    (forall r, In r (n_branches (d_net n)) -> at_bus (d_net n) (r_l1 r) b_glob = Ok (r_g1 r) /\ at_bus (d_net n) (r_l2 r) b_glob = Ok (r_g2 r)) /\
    (* only the reference bus is marked as one *)
    (forall i b, nth_error (n_buses (d_net n)) i = Some b -> b_ref b = (n_ref (d_net n) =? Z.of_nat i)%Z).
Proof.
  intros B R B' R' D nb nr nd o H. exists (the_copy nb nr o). split; [intros t; now apply clone_eq|]. split; [apply copy_same|].
  split; [apply set_map_finds|]. split; [|split; [|split]].
  - intros b Hb. apply In_nth_error in Hb as [i Hi]. cbn in Hi. rewrite copy_nth in Hi. destruct (nth_error (n_buses (d_net o)) i); [|discriminate]. now injection Hi as <-.
  - intros r Hr. cbn in Hr. apply in_map_iff in Hr as (r0 & <- & _). reflexivity.
  - intros r Hr. cbn [the_copy d_net set_map n_branches] in Hr. apply in_map_iff in Hr as (r0 & <- & Hr0). cbn [rconv r_l1 r_l2 r_g1 r_g2].
    destruct (H r0 Hr0) as [H1 H2]. rewrite !(sa_glob (copy_same nb nr o)). split; now apply at_end.
  - intros i b Hi. cbn in Hi. rewrite copy_nth in Hi. destruct (nth_error (n_buses (d_net o)) i); [|discriminate]. injection Hi as <-. cbn.
    now destruct (n_ref (d_net o) =? Z.of_nat i)%Z.
Qed.
Print Assumptions C65_clone.

(** A network in which a branch lacks an end (for example one that was not partitioned) cannot be copied: an exception is thrown. *)
Theorem C65_unlinked_throws : forall B R B' R' D (nb : B') (nr : R') (nd : D) (o : dnet B R D) t, ~ linked o -> clone nb nr nd o t = Throw.
Proof.
  intros B R B' R' D nb nr nd o t H.
  assert (Dec : forall i, {end_ok (d_net o) i} + {~ end_ok (d_net o) i}).
  { intros i. unfold end_ok. destruct (Z_le_dec 0 i); [|right; lia]. destruct (Z_lt_dec i (Z.of_nat (length (n_buses (d_net o))))); [left; lia|right; lia]. }
  assert (X : exists r, In r (n_branches (d_net o)) /\ (~ end_ok (d_net o) (r_l1 r) \/ ~ end_ok (d_net o) (r_l2 r))).
  { destruct (Forall_Exists_dec (fun r => end_ok (d_net o) (r_l1 r) /\ end_ok (d_net o) (r_l2 r))
      (fun r => match Dec (r_l1 r), Dec (r_l2 r) with left a, left b => left (conj a b) | right a, _ => right (fun c => a (proj1 c)) | _, right b => right (fun c => b (proj2 c)) end)
      (n_branches (d_net o))) as [F|E].
    - exfalso. apply H. intros r Hr. rewrite Forall_forall in F. exact (F r Hr).
    - apply Exists_exists in E as (r & Hr & Hn). exists r. split; [exact Hr|]. destruct (Dec (r_l1 r)); [destruct (Dec (r_l2 r))|]; tauto. }
  destruct X as (r & Hr & Hb). eapply clone_bad; eassumption.
Qed.
Print Assumptions C65_unlinked_throws.

(** After the network was partitioned, every process can copy its part. *)
Theorem C65_partitioned : forall B R D (nets nets' : list (net (B * D) (R * D))) dist ord1 ord2 part n d,
  partition nets dist ord1 ord2 part = Ok nets' -> In n nets' -> linked (DNet n d).
Proof. intros. eapply partition_linked; eassumption. Qed.
Print Assumptions C65_partitioned.

(** A copy can be copied, and copies of copies answer as the original does. *)
Theorem C65_copy_of_copy : forall B R B' R' D (nb : B') (nr : R') (nd : D) (o : dnet B R D) n t, linked o -> clone nb nr nd o t = Ok n -> linked n.
Proof.
  intros B R B' R' D nb nr nd o n t H E. rewrite clone_eq in E by exact H. injection E as <-. intros r Hr. cbn [d_net set_map n_branches n_buses] in *.
  apply in_map_iff in Hr as (r0 & <- & Hr0). rewrite copy_len. exact (H r0 Hr0).
Qed.
Print Assumptions C65_copy_of_copy.

(** Copying a network into itself is not refused: it is emptied first, and everything is lost without an exception. *)
Theorem C65_clone_into_itself_refuted : forall B R D (nb : B) (nr : R) (nd : D) (n : dnet B R D),
  exists n', clone_self nb nr nd n = Ok n' /\ n_buses (d_net n') = [] /\ n_branches (d_net n') = [].
Proof. intros. eexists. split; [reflexivity|]. auto. Qed.

(** Clearing a network forgets its buses and branches but neither the lookups nor the network data: the indices of buses that are no
    longer there are still returned (base_network.hpp:1611-1712 resets neither p_busMap, p_branchMap nor p_network_data). *)
Theorem C65_clear_keeps_lookups_refuted : forall B R D (n : dnet B R D),
  n_buses (d_net (clear_dnet n)) = [] /\ d_data (clear_dnet n) = d_data n /\
  (forall idx, get_local_bus_indices (d_net (clear_dnet n)) idx = get_local_bus_indices (d_net n) idx) /\
  (forall i j, get_local_branch_indices (d_net (clear_dnet n)) i j = get_local_branch_indices (d_net n) i j).
Proof. intros. repeat split. Qed.

(** Not vacuous: three buses, one of them a ghost, two branches with a reference bus; and one with a branch whose ends are not set. *)
Definition sample : dnet unit unit nat :=
  DNet (Net [Bus true 10 0 [0] (tt, 5) false; Bus true 20 1 [0; 1] (tt, 6) true; Bus false 30 2 [1] (tt, 7) false]
            [Branch true 0 10 20 0 1 0 1 (tt, 8); Branch false 1 20 30 1 2 1 2 (tt, 9)] 1 [] []) 4.
Example C65_nonvacuous : linked sample /\ exists n, clone true false 0 sample (DNet empty_net 0) = Ok n /\
  get_local_bus_indices (d_net n) 30 = [2] /\ get_local_branch_indices (d_net n) 30 20 = [1] /\ get_connected_buses (d_net n) 1 = Ok [0%Z; 2%Z].
Proof.
  split; [intros r [<-|[<-|[]]]; cbn; lia|]. eexists. split; [vm_compute; reflexivity|]. vm_compute. auto.
Qed.
Example C65_unlinked_nonvacuous : ~ linked (DNet (Net [Bus true 1 0 [] (tt, 0) false] [Branch true 0 1 1 0 0 (-1) (-1) (tt, 0)] (-1) [] []) 0).
Proof. intros H. specialize (H _ (or_introl eq_refl)). cbn in H. lia. Qed.
(** Three buses and two lines read on one process and partitioned over two. *)
Definition to_split : list (net (unit * nat) (unit * nat)) :=
  [Net [Bus true 10 0 [] (tt, 1) false; Bus true 20 1 [] (tt, 2) false; Bus true 30 2 [] (tt, 3) false]
       [Branch true (-1) 10 20 (-1) (-1) (-1) (-1) (tt, 4); Branch true (-1) 30 10 (-1) (-1) (-1) (-1) (tt, 5)] (-1) [] []; Net [] [] (-1) [] []].
Example C65_partitioned_nonvacuous : exists a b, partition to_split [2; 1] [(0, 10); (1, 20); (2, 30)]%Z [(0, 0); (1, 1); (2, 1)]%Z [[0; 1; 1]; []]%Z = Ok [a; b] /\
  length (n_buses b) = 4 /\ length (n_branches b) = 2.
Proof. eexists _, _. split; [vm_compute; reflexivity|]. split; vm_compute; reflexivity. Qed.

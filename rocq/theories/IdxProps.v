(** C11, C12, C15, C41: global indices, matrix-vector indices and ghost exchange. *)
From Verif Require Import Prelude GAModel ParModel ParSpec NetModel NetSpec NetProofs3 NetProps IdxModel IdxSpec IdxProofs IdxProofs2.

(** * C11 *)
(** With [flag] true the active buses of the whole network, in rank order then local order, get the indices
    0, 1, 2, ...; so do the active branches; ghosts get the index of their owner; nothing else changes.  With
    [flag] false the active indices stay and only the ghosts are made to agree.  For every order in which the
    concurrent operations take effect. *)
Theorem C11_reset_global_indices : forall (B R : Type) flag (nets : list (net B R)) ob orr,
  0 < length nets -> orders_ok (length nets) ob -> orders_ok (length nets) orr -> owners_ok nets ->
  exists nets', reset_global_indices flag nets ob orr = Ok nets' /\ length nets' = length nets /\
    (forall p, same_but_indices (at_rank nets p) (at_rank nets' p)) /\
    ghosts_agree nets' /\
    (flag = true ->
       map (@b_glob B) (active_buses nets') = map Z.of_nat (iota (length (active_buses nets))) /\
       map (@r_glob R) (active_branches nets') = map Z.of_nat (iota (length (active_branches nets)))) /\
    (flag = false -> active_buses nets' = active_buses nets /\ active_branches nets' = active_branches nets).
Proof. exact @reset_nets. Qed.
Print Assumptions C11_reset_global_indices.

Definition ex_orders : xorders :=
  let l := [(1, 0); (0, 0); (0, 1); (1, 1)] in XOrders l (rev l) l l (rev l) l.
Definition ex_reset : list (net Z Z) :=
  [Net [Bus true 10 5 [] 1%Z false; Bus false 30 6 [] 2%Z false] [Branch true 4 10 30 5 6 0 1 3%Z]%Z (-1)%Z [] [];
   Net [Bus true 30 6 [] 2%Z false; Bus false 10 5 [] 1%Z false; Bus true 20 9 [] 4%Z true]
       [Branch false 4 10 30 5 6 1 0 3%Z; Branch true 8 30 20 6 9 0 2 5%Z]%Z (-1)%Z [] []].
Example C11_nonvacuous :
  orders_ok 2 ex_orders /\ owners_ok ex_reset /\
  exists nets', reset_global_indices true ex_reset ex_orders ex_orders = Ok nets' /\
    map (fun n => map (@b_glob Z) (n_buses n)) nets' = [[0; 1]; [1; 0; 2]]%Z /\
    map (fun n => map (@r_glob Z) (n_branches n)) nets' = [[0]; [0; 1]]%Z.
Proof.
  assert (H : Permutation [(1, 0); (0, 0); (0, 1); (1, 1)] (all_pairs 2)) by (apply perm_swap with (l := [(0, 1); (1, 1)]) || (cbn; 
    etransitivity; [apply perm_swap|]; apply perm_skip; apply perm_swap)).
  assert (H' : Permutation (rev [(1, 0); (0, 0); (0, 1); (1, 1)]) (all_pairs 2)) by (rewrite <- Permutation_rev; exact H).
  split; [repeat split; assumption|]. split.
  - unfold owners_ok. cbn. split; [|split; [|split; [|split; [|split]]]].
    + repeat constructor; cbn; intuition lia.
    + intros b Hb. intuition (subst; cbn; auto).
    + repeat constructor; cbn; intuition congruence.
    + intros b Hb. intuition (subst; cbn; auto).
    + apply Forall_forall. cbn. intros b Hb. intuition (subst; cbn; lia).
    + apply Forall_forall. intros r [<-|[<-|[<-|[]]]]; unfold pair_key_ok; cbn; lia.
  - run_witness. split; [vm_compute; reflexivity|split; vm_compute; reflexivity].
Qed.

(** Finding: the global indices of the end buses stored with a branch are not brought up to date. *)
Theorem C11_branch_ends_stale_refuted :
  exists nets', reset_global_indices true ex_reset ex_orders ex_orders = Ok nets' /\
    map (fun n => map (fun r => (r_g1 r, r_g2 r)) (n_branches n)) nets' = [[(5, 6)]; [(5, 6); (6, 9)]]%Z /\
    map (fun n => map (@b_glob Z) (n_buses n)) nets' = [[0; 1]; [1; 0; 2]]%Z.
Proof. run_witness. split; [vm_compute; reflexivity|split; vm_compute; reflexivity]. Qed.
Print Assumptions C11_branch_ends_stale_refuted.

(** * C12 *)
(** The bus update succeeds and copies the owner's buffer to every ghost, whatever order the scattered elements
    take effect in. *)
Theorem C12_bus_update : forall (T : Type) (w : list (list (cell T))) ord,
  exchangeable w -> Permutation ord (sent w) -> exists w', bus_exchange w ord = Ok w' /\ updated w w'.
Proof. exact @exchange_ok. Qed.
Print Assumptions C12_bus_update.

(** A global index outside 0..N-1 is reported before anything is exchanged. *)
Theorem C12_illegal_index_throws : forall (T : Type) (w : list (list (cell T))) ord c,
  In c (concat w) -> ~ (0 <= c_idx c < Z.of_nat (length (filter c_act (concat w))))%Z ->
  bus_exchange w ord = Throw.
Proof. exact @exchange_throws. Qed.
Print Assumptions C12_illegal_index_throws.

Definition ex_cells : list (list (cell Z)) :=
  [[(true, 1, 100); (false, 2, 0); (true, 0, 200)]; [(false, 0, 0); (true, 2, 300); (false, 1, 0); (false, 0, 7)]]%Z.
Example C12_nonvacuous :
  exchangeable ex_cells /\
  bus_exchange ex_cells (rev (sent ex_cells)) =
    Ok [[(true, 1, 100); (false, 2, 300); (true, 0, 200)]; [(false, 0, 200); (true, 2, 300); (false, 1, 100); (false, 0, 200)]]%Z.
Proof.
  split; [|vm_compute; reflexivity]. split.
  - cbn. apply perm_swap.
  - apply Forall_forall. cbn. intros c Hc. intuition (subst; cbn; auto).
Qed.

(** * C41 *)
(** On one process the branch update does what the bus update does; on several the copy phase would, but the
    initialisation writes past a buffer of one element first. *)
Theorem C41_branch_update_partial : forall (T : Type) (w : list (list (cell T))) ord,
  exchangeable w -> Permutation ord (sent w) ->
  (length w <= 1 -> exists w', branch_exchange w ord = Ok w' /\ updated w w') /\
  (exists w', update (length (filter c_act (concat w))) w ord = Ok w' /\ updated w w').
Proof.
  intros T w ord Hx HO. split; [intros Hl; rewrite (@branch_exchange_one T w ord Hl); exact (@exchange_ok T w ord Hx HO)|exact (@update_ok T w ord Hx HO)].
Qed.
Print Assumptions C41_branch_update_partial.

(** Finding: on several processes the update of branches always writes outside the arrays initBranchUpdate allocates. *)
Theorem C41_branch_update_refuted : forall (T : Type) (w : list (list (cell T))) ord,
  1 < length w -> branch_exchange w ord = UB.
Proof. exact @branch_exchange_ub. Qed.
Print Assumptions C41_branch_update_refuted.
Example C41_nonvacuous : exchangeable ex_cells /\ branch_exchange ex_cells (sent ex_cells) = UB /\
  branch_exchange [concat ex_cells] (sent ex_cells) =
    Ok [[(true, 1, 100); (false, 2, 300); (true, 0, 200); (false, 0, 200); (true, 2, 300); (false, 1, 100); (false, 0, 200)]]%Z.
Proof. split; [apply C12_nonvacuous|split; vm_compute; reflexivity]. Qed.

(** * C15 *)
(** One function from global bus indices to matrix indices explains all processes: it numbers the active buses
    0, 1, 2, ... in rank order then local order; every bus, ghost or not, has the index of its global number;
    every branch has the indices of the buses at its two local ends. *)
Theorem C15_set_components : forall (B R : Type) (nets : list (net B R)) ord,
  indexed nets ->
  (forall n r, In n nets -> In r (n_branches n) ->
     (0 <= r_l1 r < Z.of_nat (length (n_buses n)) /\ 0 <= r_l2 r < Z.of_nat (length (n_buses n)))%Z) ->
  Permutation ord (concat (new_indices (map (@n_buses B R) nets))) ->
  exists (idx : Z -> Z) res, set_components nets ord = Ok res /\
    map idx (map (@b_glob B) (active_buses nets)) = map Z.of_nat (iota (length (active_buses nets))) /\
    Forall2 (fun n mv => fst mv = map (fun b => idx (b_glob b)) (n_buses n) /\
                         Forall2 (fun r ab => zget (fst mv) (r_l1 r) = Some (fst ab) /\ zget (fst mv) (r_l2 r) = Some (snd ab))
                                 (n_branches n) (snd mv)) nets res.
Proof. exact @set_components_spec. Qed.
Print Assumptions C15_set_components.

(** Every network that comes out of partition meets these conditions. *)
Theorem C15_after_partition : forall (B R : Type) (nets nets' : list (net B R)) dist ord1 ord2 part ord,
  fresh nets -> answer_ok nets part -> all_branches nets <> [] ->
  length dist = length nets -> sumn dist = length (all_buses nets) ->
  Permutation ord1 (map (fun b => (b_glob b, b_orig b)) (all_buses nets)) ->
  Permutation ord2 (combine (map (@b_glob B) (all_buses nets)) (concat part)) ->
  partition nets dist ord1 ord2 part = Ok nets' ->
  Permutation ord (concat (new_indices (map (@n_buses B R) nets'))) ->
  exists (idx : Z -> Z) res, set_components nets' ord = Ok res /\
    map idx (map (@b_glob B) (active_buses nets')) = map Z.of_nat (iota (length (all_buses nets))) /\
    Forall2 (fun n mv => fst mv = map (fun b => idx (b_glob b)) (n_buses n) /\
                         Forall2 (fun r ab => zget (fst mv) (r_l1 r) = Some (fst ab) /\ zget (fst mv) (r_l2 r) = Some (snd ab))
                                 (n_branches n) (snd mv)) nets' res.
Proof.
  intros B R nets nets' dist ord1 ord2 part ord Hf Ha Hb H1 H2 H3 H4 HP HO.
  destruct (@partition_holds B R nets dist ord1 ord2 part Hf Ha Hb H1 H2 H3 H4) as (n2 & E & L & HH).
  rewrite HP in E. injection E as <-.
  destruct (@partitioned_indexed B R nets nets' part Hf Ha L HH) as [HI HE].
  destruct (@set_components_spec B R nets' ord HI HE HO) as (idx & res & E & M & F).
  destruct (@C10_active_exactly_once B R nets dist ord1 ord2 part nets' Hf Ha Hb H1 H2 H3 H4 HP) as [HC _].
  apply Permutation_length in HC. rewrite !map_length in HC. unfold active_buses in M |- *. rewrite HC in M. eauto.
Qed.
Print Assumptions C15_after_partition.

Definition ex_parted : list (net Z Z) :=
  [Net [Bus true 10 2 [0] 1%Z false; Bus false 30 1 [0] 2%Z false] [Branch true 0 10 30 2 1 0 1 3%Z]%Z (-1)%Z [] [];
   Net [Bus true 30 1 [0] 2%Z false; Bus false 10 2 [0] 1%Z false; Bus true 20 0 [] 4%Z true]
       [Branch false 0 10 30 2 1 1 0 3%Z; Branch true 1 30 20 1 0 0 2 5%Z]%Z (-1)%Z [] []].
Example C15_nonvacuous :
  indexed ex_parted /\
  set_components ex_parted (rev (concat (new_indices (map (@n_buses Z Z) ex_parted)))) =
    Ok [([0; 1], [(0, 1)]); ([1; 0; 2], [(0, 1); (1, 2)])]%Z.
Proof.
  split; [split|vm_compute; reflexivity].
  - cbn. etransitivity; [apply perm_swap|]. etransitivity; [apply perm_skip, perm_swap|]. apply perm_swap.
  - cbn. intros b Hb. intuition (subst; cbn; auto).
Qed.

(** C19, C42: generalised mappers. *)
From Verif Require Import Prelude GAModel NetModel NetSpec NetProofs3 NetProps IdxModel IdxSpec IdxProofs2 GenModel GenSpec GenProofs GenProofs2.

(** * C19 *)
(** One function per kind of component explains the indices of all processes, ghosts included; the indices of the
    active components of a process are exactly the slab of the process, each once, and the slabs follow each
    other.  [bsz], [rsz]: matrixNumRows, matrixNumCols or vectorNumElements. *)
Theorem C19_index_ranges : forall (B R : Type) (bsz : B -> nat) (rsz : R -> nat) (nets : list (net B R)),
  indexed nets -> branch_indexed nets -> Forall wired nets ->
  exists offs, oall (map (rank_offsets bsz rsz) nets) = Ok offs /\
    forall ordB ordR, Permutation ordB (flat_map (bus_puts bsz rsz nets offs) (iota (length nets))) ->
      Permutation ordR (flat_map (branch_puts bsz rsz nets offs) (iota (length nets))) ->
      exists (fb fr : Z -> nat),
        gen_indices bsz rsz nets ordB ordR =
          Ok (map (fun n => (map (fun b => fb (b_glob b)) (n_buses n), map (fun r => fr (r_glob r)) (n_branches n))) nets) /\
        forall q, q < length nets ->
          Permutation (ranges bsz rsz fb fr (at_rank nets q))
                      (seq (sumn (map (elements bsz rsz) (firstn q nets))) (elements bsz rsz (at_rank nets q))).
Proof. exact @gen_indices_ok. Qed.
Print Assumptions C19_index_ranges.

(** Every network that comes out of partition, without self loops and with branch indices 0..M-1, qualifies. *)
Theorem C19_after_partition : forall (B R : Type) (nets nets' : list (net B R)) dist ord1 ord2 part,
  fresh nets -> answer_ok nets part -> all_branches nets <> [] ->
  length dist = length nets -> sumn dist = length (all_buses nets) ->
  Permutation ord1 (map (fun b => (b_glob b, b_orig b)) (all_buses nets)) ->
  Permutation ord2 (combine (map (@b_glob B) (all_buses nets)) (concat part)) ->
  Permutation (map (@r_glob R) (all_branches nets)) (map Z.of_nat (iota (length (all_branches nets)))) ->
  Forall (fun r => r_o1 r <> r_o2 r) (all_branches nets) ->
  partition nets dist ord1 ord2 part = Ok nets' ->
  indexed nets' /\ branch_indexed nets' /\ Forall wired nets'.
Proof.
  intros B R nets nets' dist ord1 ord2 part Hf Ha Hb H1 H2 H3 H4 HG HS HP.
  destruct (@partition_holds B R nets dist ord1 ord2 part Hf Ha Hb H1 H2 H3 H4) as (n2 & E & L & HH).
  rewrite HP in E. injection E as <-. split; [|split].
  - apply (@partitioned_indexed B R nets nets' part Hf Ha L HH).
  - exact (@partitioned_branch_indexed B R nets nets' part Hf Ha L HH HG).
  - apply Forall_forall. intros n Hn. apply In_nth with (d := Net [] [] (-1)%Z [] []) in Hn as (p & Hp & <-). rewrite L in Hp.
    apply (@partitioned_wired B R nets part p (nth p nets' (Net [] [] (-1)%Z [] [])) Hf (HH p Hp)); auto.
    eapply Permutation_NoDup; [apply Permutation_sym, HG|]. apply FinFun.Injective_map_NoDup; [intros x y; apply Nat2Z.inj|apply seq_NoDup].
Qed.
Print Assumptions C19_after_partition.

(** Network to vector: every active component finds its values at its indices, so pushing the vector back changes
    nothing. *)
Theorem C19_network_vector_network : forall (V : Type) (v0 : V) (w : list (gproc V)) len own ord,
  slabbed w len -> holds_element (length w) len own ->
  Permutation ord (flat_map (fun q => map (pair q) (gen_loads (sumn (map len (iota q))) (len q) (nth q w (GProc [] [])))) (iota (length w))) ->
  exists x, set_elems own (sumn (map len (iota (length w)))) (fun _ => v0) ord = Ok x /\ map_to_network x w = w.
Proof.
  intros V v0 w len own ord Hs Ho HO. destruct (@gen_vector_ok V w len Hs v0 own ord Ho HO) as (x & E & H).
  exists x. split; [exact E|exact (@unload_same V w x H)].
Qed.
Print Assumptions C19_network_vector_network.

(** Vector to network to vector. *)
Theorem C19_vector_network_vector : forall (V : Type) (w : list (gproc V)) len v0 own ord x,
  slabbed w len -> holds_element (length w) len own ->
  Permutation ord (flat_map (fun q => map (pair q) (gen_loads (sumn (map len (iota q))) (len q) (nth q (map_to_network x w) (GProc [] [])))) (iota (length w))) ->
  exists x', set_elems own (sumn (map len (iota (length w)))) (fun _ => v0) ord = Ok x' /\
    forall i, i < sumn (map len (iota (length w))) -> x' i = x i.
Proof. exact @vector_round. Qed.
Print Assumptions C19_vector_network_vector.

(** Three buses and two branches on two processes; sizes are the objects. *)
Definition ex_gen : list (net nat nat) :=
  [Net [Bus true 10 2 [0] 2 false; Bus false 30 1 [0] 1 false] [Branch true 1 10 30 2 1 0 1 3%nat]%Z (-1)%Z [] [];
   Net [Bus true 30 1 [0; 1] 1 false; Bus false 10 2 [0] 2 false; Bus true 20 0 [1] 0 true]
       [Branch false 1 10 30 2 1 1 0 3%nat; Branch true 0 30 20 1 0 0 2 1%nat]%Z (-1)%Z [] []].
Example C19_nonvacuous :
  indexed ex_gen /\ branch_indexed ex_gen /\ Forall wired ex_gen /\
  exists offs, oall (map (rank_offsets (fun s => s) (fun s => s)) ex_gen) = Ok offs /\
    gen_indices (fun s => s) (fun s => s) ex_gen (flat_map (bus_puts (fun s => s) (fun s => s) ex_gen offs) [1; 0])
                (flat_map (branch_puts (fun s => s) (fun s => s) ex_gen offs) [0; 1]) =
      Ok [([0; 5], [2]); ([5; 0; 7], [2; 6])].
Proof.
  split; [|split; [|split]].
  - split; [cbn|cbn; intros b Hb; intuition (subst; cbn; auto)]. etransitivity; [apply perm_swap|]. etransitivity; [apply perm_skip, perm_swap|]. apply perm_swap.
  - split; [cbn; apply perm_swap|cbn; intros b Hb; intuition (subst; cbn; auto)].
  - repeat apply Forall_cons; [split|split|constructor].
    + intros r [<-|[]]. split; [discriminate|]. eexists _, _. split; [reflexivity|]. split; [reflexivity|]. cbn. auto.
    + intros [|[|i]] b E; cbn in E; try discriminate; [injection E as <-; reflexivity|injection E as <-; reflexivity|destruct i; discriminate].
    + intros r [<-|[<-|[]]]; (split; [discriminate|]; eexists _, _; split; [reflexivity|]; split; [reflexivity|]; cbn; auto).
    + intros [|[|[|i]]] b E; cbn in E; try discriminate; try (injection E as <-; reflexivity). destruct i; discriminate.
  - eexists. split; [vm_compute; reflexivity|vm_compute; reflexivity].
Qed.

Definition ex_gw : list (gproc Z) :=
  [GProc [GComp true [0; 1] [10; 11]%Z; GComp false [5] [0]%Z] [GComp true [2; 3; 4] [12; 13; 14]%Z];
   GProc [GComp true [5] [15]%Z; GComp false [0; 1] [0; 0]%Z; GComp true [] []%Z] [GComp false [2; 3; 4] [0; 0; 0]%Z; GComp true [6] [16]%Z]].
Example C19_vector_nonvacuous :
  slabbed ex_gw (fun q => match q with 0 => 5 | _ => 2 end) /\
  holds_element 2 (fun q => match q with 0 => 5 | _ => 2 end) (fun i => if i <? 5 then 0 else 1).
Proof.
  split; [split|].
  - intros [|[|q]] Hq; cbn in *; try lia; apply Permutation_refl.
  - intros p c [<-|[<-|[]]] Hc; cbn in Hc; intuition (subst; reflexivity).
  - intros [|[|q]] i Hq Hi; [| |lia]; destruct (Nat.ltb_spec i 5); auto; cbn in Hi; lia.
Qed.

(** Finding: a branch that ends twice at the same bus is counted twice when offsets are given out: the indices run past
    the size announced for the matrix, and a later bus gets an index outside it. *)
Definition ex_loop : net nat nat :=
  Net [Bus true 1 0 [0; 0] 1 false; Bus true 2 1 [] 1 false] [Branch true 0 1 1 0 0 0 0 2%nat]%Z (-1)%Z [] [].
Theorem C19_self_loop_refuted :
  rank_offsets (fun s => s) (fun s => s) ex_loop = Ok ([0; 5], [3]) /\ gen_size (fun s => s) (fun s => s) ex_loop = 4.
Proof. split; vm_compute; reflexivity. Qed.
Print Assumptions C19_self_loop_refuted.

(** * C42 *)
(** A value a branch supplies is inserted by exactly one process, the one that owns its row, unless its column lies
    in the range of the branch's own row indices.  [b q] is the copy of the branch on process [q]; copies agree on
    everything but the active flag. *)
Theorem C42_branch_values_inserted_once_partial : forall (V : Type) (P : nat) (len : nat -> nat) (b : nat -> gbr V) (e : (nat * nat) * V) vals row ncols,
  (forall q, q < P -> gb_vals (b q) = vals /\ gb_row (b q) = row /\ gb_ncols (b q) = ncols) ->
  In e vals -> fst (fst e) < sumn (map len (iota P)) ->
  (ncols = 0 \/ snd (fst e) < row 0 \/ row (ncols - 1) < snd (fst e)) ->
  exists q, q < P /\ In e (load_branch (sumn (map len (iota q))) (len q) (b q)) /\
    forall q', q' < P -> In e (load_branch (sumn (map len (iota q'))) (len q') (b q')) -> q' = q.
Proof. exact @branch_inserted_once. Qed.
Print Assumptions C42_branch_values_inserted_once_partial.

(** Finding: a branch between buses of two processes, with one row and one column of its own (index 1): its value in the
    row of the far bus and its own column is inserted by nobody. *)
Theorem C42_branch_value_lost_refuted : exists (b : nat -> gbr Z) (e : (nat * nat) * Z),
  (forall q, q < 2 -> gb_vals (b q) = [e; ((1, 1), 7%Z)] /\ gb_row (b q) = S /\ gb_ncols (b q) = 1) /\
  gb_act (b 0) = true /\ gb_act (b 1) = false /\
  (* rows 0 and 1 belong to process 0, row 2 to process 1 *)
  load_branch 0 2 (b 0) = [((1, 1), 7%Z)] /\ load_branch 2 1 (b 1) = [].
Proof.
  exists (fun q => GBr (q =? 0) S 1 [((2, 1), 5%Z); ((1, 1), 7%Z)]), ((2, 1), 5%Z).
  repeat split; vm_compute; reflexivity.
Qed.
Print Assumptions C42_branch_value_lost_refuted.
Example C42_nonvacuous :
  let b q := GBr (q =? 0) S 1 [((2, 0), 5%Z)] in
  (forall q, q < 2 -> gb_vals (b q) = [((2, 0), 5%Z)] /\ gb_row (b q) = S /\ gb_ncols (b q) = 1) /\
  load_branch 0 2 (b 0) = [] /\ load_branch 2 1 (b 1) = [((2, 0), 5%Z)].
Proof. cbn zeta. repeat split; vm_compute; reflexivity. Qed.

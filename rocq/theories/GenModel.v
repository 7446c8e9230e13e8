(** Model of the generalised mappers /repo/src/mapper/gen_matrix_map.hpp and gen_vector_map.hpp on a distributed
    network ([NetModel]): sizes, offsets, index assignment, loading. *)
From Verif Require Import Prelude GAModel ParModel NetModel IdxModel.

Section Gen.
  Context {B R : Type}.
  Notation bus := (bus B). Notation branch := (branch R). Notation net := (net B R).
  (** matrixNumRows, matrixNumCols or vectorNumElements of a component.  The row and column code of GenMatrixMap
      and the code of GenVectorMap differ only in which of these they call, and the two counters never mix. *)
  Variables (bsz : B -> nat) (rsz : R -> nat).

  (** gen_matrix_map.hpp:213-232, gen_vector_map.hpp:204-221: elements contributed by one process. *)
  Definition gen_size (n : net) : nat :=
    sumn (map (fun b => bsz (b_obj b)) (filter (@b_active B) (n_buses n))) +
    sumn (map (fun r => rsz (r_obj r)) (filter (@r_active R) (n_branches n))).

  (** gen_matrix_map.hpp:195-203 isLocalBranch; getBranchEndpoints and getActiveBus throw on an illegal index. *)
  Definition is_local (n : net) (j : nat) : outcome bool :=
    match nth_error (n_branches n) j with
    | None => Throw
    | Some r => match zget (n_buses n) (r_l1 r) with
                | None => Throw
                | Some b1 => if b_active b1
                             then match zget (n_buses n) (r_l2 r) with None => Throw | Some b2 => Ok (b_active b2) end
                             else Ok false
                end
    end.

  (** :290-312 of setOffsets: the branches at bus [i].  State: branch offsets, counter. *)
  Definition visit_branch (n : net) (i j : nat) (st : list nat * nat) : outcome (list nat * nat) :=
    obind (is_local n j) (fun loc =>
    match nth_error (n_branches n) j with
    | None => Throw
    | Some r => if (if loc then (r_l1 r =? Z.of_nat i)%Z else r_active r)
                then Ok (upd (fst st) j (snd st), snd st + rsz (r_obj r)) else Ok st
    end).
  Fixpoint visit_branches (n : net) (i : nat) (js : list nat) (st : list nat * nat) : outcome (list nat * nat) :=
    match js with [] => Ok st | j :: r => obind (visit_branch n i j st) (visit_branches n i r) end.

  (** :282-314: the buses from local index [i] on; the first component collects the bus offsets. *)
  Fixpoint visit_buses (n : net) (i : nat) (bs : list bus) (st : list nat * nat) : outcome (list nat * (list nat * nat)) :=
    match bs with
    | [] => Ok ([], st)
    | b :: r => if b_active b
                then obind (visit_branches n i (b_nbr b) (fst st, snd st + bsz (b_obj b))) (fun st' =>
                     obind (visit_buses n (S i) r st') (fun x => Ok (snd st :: fst x, snd x)))
                else obind (visit_buses n (S i) r st) (fun x => Ok (0 :: fst x, snd x))
    end.
  Definition rank_offsets (n : net) : outcome (list nat * list nat) :=
    obind (visit_buses n 0 (n_buses n) (repeat 0 (length (n_branches n)), 0)) (fun x => Ok (fst x, fst (snd x))).

  (** :333-364: what process [q] scatters. *)
  Definition gen_start (nets : list net) (q : nat) : nat := sumn (map gen_size (firstn q nets)).
  Definition bus_puts (nets : list net) (offs : list (list nat * list nat)) (q : nat) : list (Z * nat) :=
    map (fun x => (b_glob (fst x), snd x + gen_start nets q))
        (filter (fun x => b_active (fst x)) (combine (n_buses (nth_net nets q)) (fst (nth q offs ([], []))))).
  Definition branch_puts (nets : list net) (offs : list (list nat * list nat)) (q : nat) : list (Z * nat) :=
    map (fun x => (r_glob (fst x), snd x + gen_start nets q))
        (filter (fun x => r_active (fst x)) (combine (n_branches (nth_net nets q)) (snd (nth q offs ([], []))))).

  (** setOffsets and setIndices (:261-557).  The result: for every process, the first index of each bus and of each
      branch, ghosts included; a component of size s gets the indices offset .. offset+s-1 (:505-540).  The arrays
      have the total number of active buses (branches) (:371-394) and are zeroed. *)
  Definition gen_indices (nets : list net) (ordB ordR : list (Z * nat)) : outcome (list (list nat * list nat)) :=
    obind (oall (map rank_offsets nets)) (fun _ =>
    obind (zscatter (repeat (Some 0) (sumn (map (fun n => length (filter (@b_active B) (n_buses n))) nets))) ordB) (fun gB =>
    obind (zscatter (repeat (Some 0) (sumn (map (fun n => length (filter (@r_active R) (n_branches n))) nets))) ordR) (fun gR =>
    oall (map (fun n => obind (zgather gB (map (@b_glob B) (n_buses n))) (fun ob =>
                        obind (zgather gR (map (@r_glob R) (n_branches n))) (fun orr => Ok (ob, orr)))) nets)))).
End Gen.

(** ** Vector loading and unloading, gen_vector_map.hpp *)
Section GenVec.
  Context {V : Type}.
  (** A component as the vector code sees it: active, indices it was given (vectorSetElementIndex), values. *)
  Record gcomp := GComp { gc_act : bool; gc_idx : list nat; gc_vals : list V }.
  (** Buses and branches of one process. *)
  Record gproc := GProc { gp_buses : list gcomp; gp_brs : list gcomp }.

  (** :464-484 loadBusData (flag false: setElement). *)
  Definition load_buses (p : gproc) : list (nat * V) :=
    flat_map (fun c => combine (gc_idx c) (gc_vals c)) (filter gc_act (gp_buses p)).
  (** :491-513 loadBranchData: only indices of the own slab, [lo <= idx < lo + len]. *)
  Definition load_brs (lo len : nat) (p : gproc) : list (nat * V) :=
    filter (fun e => (lo <=? fst e) && (fst e <? lo + len))
           (flat_map (fun c => combine (gc_idx c) (gc_vals c)) (filter gc_act (gp_brs p))).
  Definition gen_loads (lo len : nat) (p : gproc) : list (nat * V) := (load_buses p ++ load_brs lo len p)%list.
  (** :112-120 mapToVector: zero, then the insertions of all processes in some order; an index outside the vector is
      an error.  Entries of other processes are dropped ([own], see MapModel.add_elems). *)
  Fixpoint set_elems (own : nat -> nat) (total : nat) (x : nat -> V) (ord : list (nat * (nat * V))) : outcome (nat -> V) :=
    match ord with
    | [] => Ok x
    | (q, (i, v)) :: r =>
        if i <? total
        then set_elems own total (if own i =? q then (fun k => if k =? i then v else x k) else x) r
        else Throw
    end.
  (** :137-167 mapToNetwork: every active component gets the elements at its indices. *)
  Definition unload (x : nat -> V) (c : gcomp) : gcomp :=
    if gc_act c then GComp (gc_act c) (gc_idx c) (map x (gc_idx c)) else c.
  Definition map_to_network (x : nat -> V) (w : list gproc) : list gproc :=
    map (fun p => GProc (map (unload x) (gp_buses p)) (map (unload x) (gp_brs p))) w.
End GenVec.
Arguments gcomp V : clear implicits.
Arguments gproc V : clear implicits.

(** ** Matrix loading, gen_matrix_map.hpp *)
Section GenMat.
  Context {V : Type}.
  (** A branch on one process: active, own row indices (matrixGetRowIndex), number of columns, elements
      (matrixGetValues). *)
  Record gbr := GBr { gb_act : bool; gb_row : nat -> nat; gb_ncols : nat; gb_vals : list ((nat * nat) * V) }.
  (** :671-715 loadBranchData on the process owning the rows [lo <= row < lo + len].  [rmin] and [rmax] are row indices,
      although columns are compared with them. *)
  Definition load_branch (lo len : nat) (b : gbr) : list ((nat * nat) * V) :=
    filter (fun e =>
      (lo <=? fst (fst e)) && (fst (fst e) <? lo + len) &&
      (if 0 <? gb_ncols b
       then if (gb_row b 0 <=? snd (fst e)) && (snd (fst e) <=? gb_row b (gb_ncols b - 1)) then gb_act b else true
       else true)) (gb_vals b).
End GenMat.
Arguments gbr V : clear implicits.

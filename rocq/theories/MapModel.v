(** Model of the matrix and vector mappers (/repo/src/mapper/full_map.hpp, bus_vector_map.hpp).  Ranks are the
    positions of a list of processes; a phase that all processes run concurrently takes the order in which the
    one-sided operations of all processes take effect as an argument.  Block sizes and indices are natural
    numbers (the code's ints; sizes are never negative in the components). *)
From Verif Require Import Prelude GAModel.

(** A bus as the mapper sees it: active here, MatVec index, matrixDiagSize (None: returns false),
    matrixDiagValues (None: returns false). *)
Record mbus (V : Type) := MBus { mb_act : bool; mb_idx : nat; mb_diag : option (nat * nat); mb_vals : option (list V) }.
(** A branch: MatVec indices of its ends, matrixForwardSize/Values, matrixReverseSize/Values. *)
Record mbr (V : Type) := MBr { mr_i : nat; mr_j : nat; mr_fwd : option (nat * nat); mr_fvals : option (list V);
                               mr_rev : option (nat * nat); mr_rvals : option (list V) }.
Record mproc (V : Type) := MProc { mp_buses : list (mbus V); mp_brs : list (mbr V) }.

(** PETSc matrices and vectors, by their values. *)
Definition mat (V : Type) := (nat * nat) -> V.

Section Full.
  Context {V : Type}.
  Variable v0 : V.
  Notation mbus := (mbus V). Notation mbr := (mbr V). Notation mproc := (mproc V).

  (** full_map.hpp:415-424 *)
  Definition active_idx (p : mproc) : list nat := map (@mb_idx V) (filter (@mb_act V) (mp_buses p)).

  (** One size written to a block size array, if it is positive (:572-581, :649-658, :679-688). *)
  Definition pos_entry (k s : nat) : list (nat * nat) := if 0 <? s then [(k, s)] else [].

  (** :544-621 loadBusArrays: every local bus, ghosts included.  Simplified: p_maxcol, a storage hint for the
      matrix library, is left out. *)
  Definition bus_I (p : mproc) : list (nat * nat) :=
    flat_map (fun b => match mb_diag b with Some s => pos_entry (mb_idx b) (fst s) | None => [] end) (mp_buses p).
  Definition bus_J (p : mproc) : list (nat * nat) :=
    flat_map (fun b => match mb_diag b with Some s => pos_entry (mb_idx b) (snd s) | None => [] end) (mp_buses p).
  (** :633-661 loadForwardBranchArrays and :663-691 loadReverseBranchArrays, every local branch. *)
  Definition br_I (p : mproc) : list (nat * nat) :=
    (flat_map (fun r => match mr_fwd r with Some s => pos_entry (mr_i r) (fst s) | None => [] end) (mp_brs p) ++
     flat_map (fun r => match mr_rev r with Some s => pos_entry (mr_j r) (fst s) | None => [] end) (mp_brs p))%list.
  Definition br_J (p : mproc) : list (nat * nat) :=
    (flat_map (fun r => match mr_fwd r with Some s => pos_entry (mr_j r) (snd s) | None => [] end) (mp_brs p) ++
     flat_map (fun r => match mr_rev r with Some s => pos_entry (mr_i r) (snd s) | None => [] end) (mp_brs p))%list.

  (** :469-508 setupIndexingArrays: zeroed array, bus sizes, synchronisation, branch sizes.  [o1], [o2]: the order
      in which the elements scattered by all processes take effect. *)
  Definition block_sizes (n : nat) (o1 o2 : list (nat * nat)) : outcome (garray nat) :=
    obind (ga_scatter (repeat (Some 0) n) o1) (fun g => ga_scatter g o2).

  (** :749-757: smallest and largest MatVec index of the active buses of a process. *)
  Definition row_range (n : nat) (p : mproc) : nat * nat :=
    fold_left (fun m k => (Nat.min (fst m) k, Nat.max (snd m) k)) (active_idx p) (n, 0).

  (** :760-764: without active buses nRows is 1 - p_totalBuses: negative array sizes throw, a get of an empty
      range is outside the contract of the library. *)
  Definition rank_sizes (n : nat) (g : garray nat) (p : mproc) : outcome (list nat) :=
    let r := row_range n p in
    if snd r <? fst r then (if S (snd r) <? fst r then Throw else UB)
    else ga_get g (fst r) (S (snd r) - fst r).

  (** :855-862: running offsets of the blocks of one process. *)
  Definition offsets_from (start : nat) (sizes : list nat) : list nat :=
    map (fun i => start + sumn (firstn i sizes)) (iota (length sizes)).

  (** :802-807 and :864-868: what every process puts into the offset array. *)
  Definition offset_puts (n : nat) (w : list mproc) (sizes : list (list nat)) : list (nat * list nat) :=
    map (fun q => (fst (row_range n (nth q w (MProc [] []))),
                   offsets_from (sumn (map sumn (firstn q sizes))) (nth q sizes [])))
        (iota (length w)).

  (** A block to be inserted: indices of its row and column bus, size, values. *)
  Record contrib := Contrib { ct_row : nat; ct_col : nat; ct_size : nat * nat; ct_vals : option (list V) }.
  (** :894-905 setBusOffsets and :939-965 loadBusData visit the same buses in the same order. *)
  Definition bus_contribs (p : mproc) : list contrib :=
    flat_map (fun b => match mb_diag b with Some s => [Contrib (mb_idx b) (mb_idx b) s (mb_vals b)] | None => [] end)
             (filter (@mb_act V) (mp_buses p)).
  Definition in_range (r : nat * nat) (k : nat) : bool := (fst r <=? k) && (k <=? snd r).
  (** :1054-1080 setBranchOffsets and :1125-1190 loadBranchData visit the same branches in the same order: forward
      if the first end is in the row range of the process, reverse if the second end is. *)
  Definition br_contribs (r : nat * nat) (p : mproc) : list contrib :=
    flat_map (fun b => ((match mr_fwd b with
                         | Some s => if in_range r (mr_i b) then [Contrib (mr_i b) (mr_j b) s (mr_fvals b)] else []
                         | None => []
                         end) ++
                        (match mr_rev b with
                         | Some s => if in_range r (mr_j b) then [Contrib (mr_j b) (mr_i b) s (mr_rvals b)] else []
                         | None => []
                         end))%list) (mp_brs p).

  (** The elements of one block, column after column (:948-960, :1136-1148, :1165-1179). *)
  Definition block_elems (oi oj : nat) (s : nat * nat) (vals : list V) : list ((nat * nat) * V) :=
    flat_map (fun k => map (fun j => ((oi + j, oj + k), nth (k * fst s + j) vals v0)) (iota (fst s))) (iota (snd s)).

  (** loadBusData / loadBranchData: the [jcnt]-th offsets belong to the [jcnt]-th contribution.  [cap] is the
      length of the value buffer, p_maxIBlock*p_maxJBlock; the buffer is zeroed before the component fills it. *)
  Fixpoint load_data (cap : nat) (cs : list contrib) (oi oj : list nat) : outcome (list ((nat * nat) * V)) :=
    match cs, oi, oj with
    | [], _, _ => Ok []
    | c :: r, a :: oi', b :: oj' =>
        if cap <? fst (ct_size c) * snd (ct_size c) then UB
        else match ct_vals c with
             | None => load_data cap r oi' oj'
             | Some vs => if cap <? length vs then UB
                          else obind (load_data cap r oi' oj') (fun es => Ok (block_elems a b (ct_size c) vs ++ es)%list)
             end
    | _, _, _ => UB
    end.

  (** Everything one process inserts, :931-969 then :1114-1197. *)
  Definition rank_elems (n cap : nat) (offI offJ : garray nat) (p : mproc) : outcome (list ((nat * nat) * V)) :=
    let load cs := obind (ga_gather offI (map ct_row cs)) (fun oi =>
                   obind (ga_gather offJ (map ct_col cs)) (fun oj => load_data cap cs oi oj)) in
    obind (load (bus_contribs p)) (fun e1 =>
    obind (load (br_contribs (row_range n p) p)) (fun e2 => Ok (e1 ++ e2)%list)).

  (** The constructor: rows and columns owned by every process, offset arrays, buffer size.  [oI1] ... [oJ2] and
      [opI], [opJ] are the orders of the concurrent scatters and puts. *)
  Record fmap := FMap { fm_rows : list nat; fm_cols : list nat; fm_offI : garray nat; fm_offJ : garray nat; fm_cap : nat }.
  Definition full_map (w : list mproc) (oI1 oI2 oJ1 oJ2 : list (nat * nat))
                      (opI opJ : list nat) : outcome fmap :=
    let n := sumn (map (fun p => length (active_idx p)) w) in
    obind (block_sizes n oI1 oI2) (fun gI =>
    obind (block_sizes n oJ1 oJ2) (fun gJ =>
    obind (oall (map (rank_sizes n gI) w)) (fun sI =>
    obind (oall (map (rank_sizes n gJ) w)) (fun sJ =>
    obind (ga_puts (repeat (Some 0) n) (map (fun q => nth q (offset_puts n w sI) (0, [])) opI)) (fun offI =>
    obind (ga_puts (repeat (Some 0) n) (map (fun q => nth q (offset_puts n w sJ) (0, [])) opJ)) (fun offJ =>
    Ok (FMap (map sumn sI) (map sumn sJ) offI offJ
             (fold_left Nat.max (concat sI) 0 * fold_left Nat.max (concat sJ) 0)))))))).
  Definition map_elems (w : list mproc) (m : fmap) : outcome (list (list ((nat * nat) * V))) :=
    oall (map (rank_elems (sumn (map (fun p => length (active_idx p)) w)) (fm_cap m) (fm_offI m) (fm_offJ m)) w).

  (** Matrix insertions: an element outside the matrix is an error of the library, which the matrix class turns into
      an exception.  [f old new]: setElement or addElement. *)
  Fixpoint insert_elems (f : V -> V -> V) (rows cols : nat) (m : mat V) (es : list ((nat * nat) * V)) : outcome (mat V) :=
    match es with
    | [] => Ok m
    | ((i, j), v) :: r =>
        if (i <? rows) && (j <? cols)
        then insert_elems f rows cols (fun ij => if (fst ij =? i) && (snd ij =? j) then f (m ij) v else m ij) r
        else Throw
    end.
  (** mapToMatrix (:102-139), overwriteMatrix (:304-311), incrementMatrix (:328-335); [ord]: the order in which the
      insertions of all processes take effect. *)
  Definition load_matrix (f : V -> V -> V) (m : fmap) (a : mat V) (ord : list ((nat * nat) * V)) : outcome (mat V) :=
    insert_elems f (sumn (fm_rows m)) (sumn (fm_cols m)) a ord.
  Definition map_to_matrix (m : fmap) (ord : list ((nat * nat) * V)) : outcome (mat V) :=
    load_matrix (fun _ v => v) m (fun _ => v0) ord.

  (** :354-407 check: [ok] is uninitialised until the first branch is compared, and is overwritten by every
      comparison (the first argument is its value before the loop).  Forward compares the second size of bus 1 with
      the first size of the branch.  [sz k]: what matrixDiagSize leaves in the two zeroed variables for the bus with
      MatVec index [k]. *)
  Definition check_map (ok0 : bool) (sz : nat -> nat * nat) (r : nat * nat) (p : mproc) : bool :=
    fold_left (fun ok b =>
      let ok1 := match mr_fwd b with
                 | Some s => if in_range r (mr_i b)
                             then (snd (sz (mr_i b)) =? fst s) && (fst (sz (mr_j b)) =? snd s) else ok
                 | None => ok end in
      match mr_rev b with
      | Some s => if in_range r (mr_j b)
                  then (fst (sz (mr_i b)) =? snd s) && (snd (sz (mr_j b)) =? fst s) else ok1
      | None => ok1 end) (mp_brs p) ok0.
End Full.
Arguments Contrib {V}.

(** ** Bus vector map *)
Section Vec.
  Context {V : Type}.
  Variables (vadd : V -> V -> V) (v0 : V).
  (** A bus: active, vectorSize (None: returns false), the values vectorValues writes (its return value is
      ignored; None: it writes nothing). *)
  Record vbus := VBus { vb_act : bool; vb_size : option nat; vb_vals : option (list V) }.

  (** bus_vector_map.hpp:403-440 contributions: contributing buses with their sizes, in local order. *)
  Definition contributing (bs : list vbus) : list (nat * option (list V)) :=
    flat_map (fun b => match vb_size b with Some s => [(s, vb_vals b)] | None => [] end) (filter vb_act bs).
  Definition num_values (bs : list vbus) : nat := sumn (map fst (contributing bs)).
  (** getLocalOffset (:289-293), as filled in contributions :411-426. *)
  Fixpoint local_offsets (cnt : nat) (bs : list vbus) : list (Z * nat) :=
    match bs with
    | [] => []
    | b :: r => match vb_act b, vb_size b with
                | true, Some s => (Z.of_nat cnt, s) :: local_offsets (cnt + s) r
                | _, _ => ((-1)%Z, 0) :: local_offsets cnt r
                end
    end.

  (** :446-483 setBusIndexArrays: first index of the process, offsets of the contributing buses, indices of all its
      values. *)
  Definition vec_start (w : list (list vbus)) (q : nat) : nat := sumn (map num_values (firstn q w)).
  Fixpoint bus_offsets (jcnt : nat) (sizes : list nat) : list nat :=
    match sizes with [] => [] | s :: r => jcnt :: bus_offsets (jcnt + s) r end.
  Definition vec_indices (w : list (list vbus)) (q : nat) : list nat :=
    map (fun i => vec_start w q + i) (iota (num_values (nth q w []))).

  (** :301-341 loadBusData: every contributing bus must fill exactly its part of the buffer.  Simplified: writing fewer
      or more values than vectorSize announced is undefined. *)
  Definition load_bus (w : list (list vbus)) (q : nat) : outcome (list (nat * V)) :=
    let cs := contributing (nth q w []) in
    obind (oall (map (fun so => match snd so with
                                | Some vs => if length vs =? fst so then Ok vs else UB
                                | None => UB
                                end) cs)) (fun vs =>
    Ok (combine (concat (map (fun os => map (fun j => fst os + j) (iota (snd os)))
                             (combine (bus_offsets (vec_start w q) (map fst cs)) (map fst cs))))
                (concat vs))).

  (** Vector::addElements by all processes, in any order [ord].  The library is told to drop entries that
      belong to other processes (petsc_vector_wrapper.cpp:71): [owner i] is the process holding entry [i]. *)
  Fixpoint add_elems (own : nat -> nat) (total : nat) (x : nat -> V) (ord : list (nat * (nat * V))) : outcome (nat -> V) :=
    match ord with
    | [] => Ok x
    | (q, (i, v)) :: r =>
        if i <? total
        then add_elems own total (if own i =? q then (fun k => if k =? i then vadd (x k) v else x k) else x) r
        else Throw
    end.
  (** The process that holds entry [i] when process [q] holds num_values entries (Vector(comm, p_numValues)). *)
  Fixpoint owner_of (counts : list nat) (q i : nat) : nat :=
    match counts with [] => q | c :: r => if i <? c then q else owner_of r (S q) (i - c) end.
  (** :82-102 mapToVector into a new vector, or :156-172 into an existing one, which is zeroed first. *)
  Definition map_to_vector (w : list (list vbus)) (ord : list (nat * (nat * V))) : outcome (nat -> V) :=
    add_elems (owner_of (map num_values w) 0) (sumn (map num_values w)) (fun _ => v0) ord.

  (** :218-240 mapToBus: the values handed to setValues of every contributing bus (its part of the buffer). *)
  Fixpoint split_sizes (sizes : list nat) (vals : list V) : list (list V) :=
    match sizes with [] => [] | s :: r => firstn s vals :: split_sizes r (skipn s vals) end.
  Definition map_to_bus (w : list (list vbus)) (x : nat -> V) (q : nat) : list (list V) :=
    split_sizes (map fst (contributing (nth q w []))) (map x (vec_indices w q)).
End Vec.
Arguments vbus V : clear implicits.

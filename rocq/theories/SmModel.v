(** Model of GenSlabMap (/repo/src/mapper/gen_slab_map.hpp): components supply rows of a dense matrix.  Offsets and indices (setOffsets :369-516, setIndices :523-579) are the
    text of gen_matrix_map.hpp with slabSize instead of matrixNumRows: [gen_indices] of [GenModel] with the number of rows as size. *)
From Verif Require Import Prelude GAModel ParModel NetModel IdxModel GenModel.
Open Scope nat_scope.

(** ** The constructor: getDimensions *)
(** :303-307, :315-319 one component of slabSize (rows, columns): nCols and okCols. *)
Definition col_step (st : nat * bool) (d : nat * nat) : nat * bool :=
  let n := if (fst st =? 0) && (0 <? fst d) then snd d else fst st in
  (n, if (0 <? fst d) && negb (snd d =? n) then false else snd st).
(** :293-321 [ds]: the sizes of the active buses, then of the active branches, of one process. *)
Definition col_scan (ds : list (nat * nat)) : nat * bool := fold_left col_step ds (0, true).
(** What becomes of a process in the constructor: it throws; it waits in the sums over all processes of setOffsets (:459) for a process that has thrown; or it gets through
    with this p_nColumns. *)
Inductive fate := Raised | Waiting | Built (ncols : nat).
(** :330-348 minimum and maximum over the processes (of which there is at least one); process 0 alone throws. *)
Definition construct (dss : list (list (nat * nat))) : list fate :=
  let scans := map col_scan dss in
  let los := map (fun s : nat * bool => if snd s then Z.of_nat (fst s) else (-1)%Z) scans in
  let his := map (fun s : nat * bool => Z.of_nat (fst s)) scans in
  if (fold_left Z.min los (hd 0%Z los) =? fold_left Z.max his (hd 0%Z his))%Z
  then map (fun s => Built (fst s)) scans
  else map (fun q => if q =? 0 then Raised else Waiting) (iota (length dss)).

(** The sizes [col_scan] sees on the process with the part [n] of the network; [bsz] and [rsz] are slabSize. *)
Definition slab_dims {B R : Type} (bsz : B -> nat * nat) (rsz : R -> nat * nat) (n : net B R) : list (nat * nat) :=
  (map (fun b => bsz (b_obj b)) (filter (@b_active B) (n_buses n)) ++ map (fun r => rsz (r_obj r)) (filter (@r_active R) (n_branches n)))%list.

Section Slab.
Context {V : Type}.

(** ** Loading *)
(** :596-607 the elements of one component, with the rows it supplies.  A row has [ncols] numbers; the case that a component supplies less is not modelled. *)
Definition slab_cells (ncols : nat) (c : gcomp (list V)) : list ((nat * nat) * V) :=
  flat_map (fun iv => map (fun kv => ((fst iv, fst kv), snd kv)) (combine (iota ncols) (snd iv))) (combine (gc_idx c) (gc_vals c)).
(** :586-615 loadBusData and :622-653 loadBranchData of the process with the rows lo .. lo+len-1; both with setElement, since [flag] is false in every call. *)
Definition slab_loads (ncols lo len : nat) (p : gproc (list V)) : list ((nat * nat) * V) :=
  (flat_map (slab_cells ncols) (filter gc_act (gp_buses p)) ++
   filter (fun e => (lo <=? fst (fst e)) && (fst (fst e) <? lo + len)) (flat_map (slab_cells ncols) (filter gc_act (gp_brs p))))%list.
(** A dense matrix: number of rows and columns, and the elements. *)
Record dense := Dense { d_rows : nat; d_cols : nat; d_at : nat -> nat -> V }.
(** setElement by the processes in some order, then ready (:88-90); an index outside the matrix is an error.  Elements of other processes are dropped, as in [GenModel]. *)
Fixpoint set_cells (own : nat -> nat) (m : dense) (ord : list (nat * ((nat * nat) * V))) : outcome dense :=
  match ord with
  | [] => Ok m
  | (q, ((i, k), v)) :: r =>
      if (i <? d_rows m) && (k <? d_cols m)
      then set_cells own (if own i =? q then Dense (d_rows m) (d_cols m) (fun a b => if (a =? i) && (b =? k) then v else d_at m a b) else m) r
      else Throw
  end.
(** :76-93 mapToMatrix: createDense with the local rows and the number of columns of the whole matrix; PETSc refuses to choose local and global size both, which happens when
    a process has no rows (petsc_matrix_implementation.hpp:138-143). *)
Definition create (zero : V) (lens : list nat) (ncols : nat) : outcome dense :=
  if forallb (fun l => 0 <? l) lens then Ok (Dense (sumn lens) ncols (fun _ _ => zero)) else Throw.
Definition map_to_matrix (zero : V) (own : nat -> nat) (lens : list nat) (ncols : nat) (ord : list (nat * ((nat * nat) * V))) : outcome dense :=
  obind (create zero lens ncols) (fun m => set_cells own m ord).
(** :101-119 intMapToMatrix: the constructor of the matrix takes the number of columns for the local one, so that the matrix has it once for every process
    (petsc_matrix_wrapper.cpp:148-152). *)
Definition int_map_to_matrix (zero : V) (own : nat -> nat) (lens : list nat) (ncols : nat) (ord : list (nat * ((nat * nat) * V))) : outcome dense :=
  set_cells own (Dense (sumn lens) (length lens * ncols) (fun _ _ => zero)) ord.
(** :127-135 mapToMatrix into a matrix that exists *)
Definition remap (zero : V) (own : nat -> nat) (m : dense) (ord : list (nat * ((nat * nat) * V))) : outcome dense :=
  set_cells own (Dense (d_rows m) (d_cols m) (fun _ _ => zero)) ord.

(** ** getRowBlock, petsc_matrix_implementation.hpp:488-560 with one library element per element *)
Fixpoint insert_by {X} (key : X -> nat) (x : X) (l : list X) : list X :=
  match l with [] => [x] | y :: r => if key x <=? key y then x :: l else y :: insert_by key x r end.
Fixpoint sort_by {X} (key : X -> nat) (l : list X) : list X :=
  match l with [] => [] | x :: r => insert_by key x (sort_by key r) end.
(** ISSortPermutation *)
Definition sort_perm (rows : list nat) : list nat := map snd (sort_by fst (combine rows (iota (length rows)))).
(** ISInvertPermutation *)
Fixpoint position (i : nat) (h : list nat) : nat :=
  match h with [] => 0 | j :: r => if j =? i then 0 else S (position i r) end.
Definition invert (h : list nat) : list nat := map (fun i => position i h) (iota (length h)).
(** The sorted rows are fetched, then taken in the order asked for; the result is the caller's array, one row after the other with as many numbers as the matrix has
    columns.  A row outside the matrix is an error. *)
Definition row_block (m : dense) (rows : list nat) : outcome (list V) :=
  let sub := map (fun i => map (d_at m i) (iota (d_cols m))) (sort_by (fun i => i) rows) in
  if forallb (fun i => i <? d_rows m) rows
  then Ok (flat_map (fun j => nth j sub []) (invert (sort_perm rows)))
  else Throw.

(** ** mapToNetwork, :151-215 *)
(** The caller's array has room for p_nColumns numbers for each row; row i is taken to start at i * p_nColumns. *)
Definition slab_rows (ncols : nat) (m : dense) (rows : list nat) : outcome (list (list V)) :=
  obind (row_block m rows) (fun x =>
  if length x =? ncols * length rows
  then Ok (map (fun i => firstn ncols (skipn (i * ncols) x)) (iota (length rows)))
  else UB).
(** :177-184 the pointer into the rows advances by the number of rows of each active component *)
Fixpoint give (cs : list (gcomp (list V))) (rows : list (list V)) : list (gcomp (list V)) :=
  match cs with
  | [] => []
  | c :: r => if gc_act c
              then GComp true (gc_idx c) (firstn (length (gc_idx c)) rows) :: give r (skipn (length (gc_idx c)) rows)
              else c :: give r rows
  end.
Definition slab_unload (ncols : nat) (m : dense) (cs : list (gcomp (list V))) : outcome (list (gcomp (list V))) :=
  obind (slab_rows ncols m (flat_map gc_idx (filter gc_act cs))) (fun rows => Ok (give cs rows)).
(** Buses, then branches, on every process. *)
Definition slab_to_network (ncols : nat) (m : dense) (w : list (gproc (list V))) : outcome (list (gproc (list V))) :=
  oall (map (fun p => obind (slab_unload ncols m (gp_buses p)) (fun bs => obind (slab_unload ncols m (gp_brs p)) (fun rs => Ok (GProc bs rs)))) w).
End Slab.
Arguments dense V : clear implicits.

(** The components of all processes after the constructor, as [GenModel]'s [gproc]: each has the row indices that follow its offset ([offs]: the result of gen_indices), and
    supplies the rows [bval] or [rval] of its object. *)
Definition slab_world {B R V : Type} (bval : B -> list (list V)) (rval : R -> list (list V)) (nets : list (net B R)) (offs : list (list nat * list nat)) : list (gproc (list V)) :=
  map (fun no => GProc (map (fun x => GComp (b_active (fst x)) (seq (snd x) (length (bval (b_obj (fst x))))) (bval (b_obj (fst x)))) (combine (n_buses (fst no)) (fst (snd no))))
                       (map (fun x => GComp (r_active (fst x)) (seq (snd x) (length (rval (r_obj (fst x))))) (rval (r_obj (fst x)))) (combine (n_branches (fst no)) (snd (snd no)))))
      (combine nets offs).

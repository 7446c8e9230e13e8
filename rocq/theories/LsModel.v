(** The linear solvers: src/math/linear_solver_implementation.hpp, the PETSc part of them in
    src/math/petsc/petsc_linear_solver_implementation.hpp and
    src/math/petsc/petsc_linear_matrix_solver_impl.hpp.

    The library solver (KSPSolve with its preconditioner) is a parameter: a function from the
    coefficient matrix, the right hand side and the initial guess ([None]: the zero vector) to a
    solution or to nothing (KSPGetConvergedReason < 0, or an error code).
    Simplifications: all processes run the same calls, so the objects that every process keeps for
    itself in serial mode (matrix, right hand side, solution, buffer) are kept once; the type of the
    numbers is a parameter; taking the address of the first element of an empty array that is not read
    is harmless; when the library gives up, what it leaves in the solution vector is not kept (it could
    only be a later initial guess). *)
From Verif Require Import Prelude.

Section Solver.
Variables F M : Type.
Variable ksp : M -> list F -> option (list F) -> option (list F).

(** A distributed vector: the elements of every process (petsc_vector_implementation.hpp 60-110). *)
Definition dvec := list (list F).

(** Vector::getAllElements (petsc_vector_wrapper.cpp 193-230). *)
Definition all_elements (v : dvec) : list F := concat v.

(** Elements lo to hi-1 of a local vector: getElementRange (vector_implementation.hpp 121-126). *)
Definition range (l : list F) (lo hi : nat) : list F := firstn (hi - lo) (skipn lo l).

(** setElementRange(lo, hi, x), elements lo to hi-1 (vector_implementation.hpp 105-110). *)
Definition set_range (l : list F) (lo hi : nat) (x : list F) : list F :=
  firstn lo l ++ firstn (hi - lo) x ++ skipn hi l.

(** ForceSerial (and more than one process), SerialMatrixConstant, InitialGuessZero
    (linear_solver_implementation.hpp 149-155). *)
Record options := Options { o_serial : bool; o_const : bool; o_zero : bool }.

(** p_configure: "SerialOnly has no effect unless parallel" (linear_solver_implementation.hpp 149-155). *)
Definition configure (nproc : nat) (force const zero : bool) : options :=
  Options (force && (1 <? nproc)) const zero.

(** What KSPSetOperators was given: PETSc keeps a reference to the matrix, so [Live] is the matrix the
    solver was built with, whatever it holds now, and [Copy] is a gathered copy of it. *)
Inductive operators := Live | Copy (A : M).

(** p_serialMatrix, p_serialRHS, p_serialSolution, the size of p_valueBuffer
    (linear_solver_implementation.hpp 118-139), the operators of p_KSP and p_matrixSet
    (petsc_linear_solver_implementation.hpp 77-80). *)
Record solver := Solver
  { s_matrix : option M; s_rhs : option (list F); s_sol : option (list F); s_buf : nat;
    s_ops : option operators; s_set : bool }.

(** The constructors (linear_solver_implementation.hpp 56-69, petsc_linear_solver_implementation.hpp 50-56). *)
Definition new_solver : solver := Solver None None None 0 None false.

(** p_resolveImpl (petsc_linear_solver_implementation.hpp 138-172): without operators KSPSolve fails; a
    negative reason is an exception.  KSPSetInitialGuessNonzero at 95-99. *)
Definition resolve_impl (o : options) (A : M) (s : solver) (b x : list F) : outcome (list F) :=
  match s_ops s with
  | None => Throw
  | Some op =>
      let A' := match op with Live => A | Copy A' => A' end in
      match ksp A' b (if o_zero o then None else Some x) with Some y => Ok y | None => Throw end
  end.

(** KSPSetOperators in p_solveImpl (petsc_linear_solver_implementation.hpp 121-126). *)
Definition set_operators (o : options) (op : operators) (s : solver) : solver :=
  if s_set s && o_const o then s
  else Solver (s_matrix s) (s_rhs s) (s_sol s) (s_buf s) (Some op) true.

(** Make the buffer and collect the right hand side (linear_solver_implementation.hpp 193-203).
    BOOST_ASSERT in p_serialSolutionDist and the use of element 0 of the buffer need a buffer that is
    not empty; a right hand side longer than the buffer is written past its end.  An index past the
    end of the local vector is refused by VecSetValues. *)
Definition prep_rhs (b : dvec) (s : solver) : solver * outcome (list F) :=
  let n := length (all_elements b) in
  let buf := if s_buf s =? 0 then n else s_buf s in
  match s_rhs s with
  | None =>
      let r := all_elements b in
      (Solver (s_matrix s) (Some r) (s_sol s) buf (s_ops s) (s_set s), if buf =? 0 then UB else Ok r)
  | Some old =>
      if (buf =? 0) || (buf <? n) then (s, UB)
      else if length old <? n - 1 then (s, Throw)
      else
        let r := set_range old 0 (n - 1) (all_elements b) in
        (Solver (s_matrix s) (Some r) (s_sol s) buf (s_ops s) (s_set s), Ok r)
  end.

(** Collect the initial guess (linear_solver_implementation.hpp 206-217). *)
Definition prep_sol (o : options) (r : list F) (x : dvec) (s : solver) : solver * outcome (list F) :=
  let put y := Solver (s_matrix s) (s_rhs s) (Some y) (s_buf s) (s_ops s) (s_set s) in
  let n := length (all_elements x) in
  match s_sol s with
  | None => let y := if o_zero o then r else all_elements x in (put y, Ok y)
  | Some old =>
      if o_zero o then (s, Ok old)
      else if s_buf s <? n then (s, UB)
      else if length old <? n - 1 then (s, Throw)
      else let y := set_range old 0 (n - 1) (all_elements x) in (put y, Ok y)
  end.

(** p_serialSolutionDist (linear_solver_implementation.hpp 221-229): every process copies the elements
    of its own range.  [lo] is the start of the range of the first process of the list. *)
Fixpoint distribute (y : list F) (lo : nat) (x : dvec) : outcome dvec :=
  match x with
  | [] => Ok []
  | p :: ps =>
      let hi := lo + length p in
      if length y <? hi then Throw
      else obind (distribute y hi ps) (fun r => Ok (range y lo hi :: r))
  end.

(** The common part of solve and resolve in serial mode (linear_solver_implementation.hpp 245-254 and
    269-278); [pre] is p_solveImpl's KSPSetOperators, or nothing. *)
Definition serial_part (o : options) (A : M) (pre : solver -> solver) (s : solver) (b x : dvec) : solver * outcome dvec :=
  match prep_rhs b s with
  | (s1, Ok r) =>
      match prep_sol o r x s1 with
      | (s2, Ok y) =>
          let s3 := pre s2 in
          match resolve_impl o A s3 r y with
          | Ok z =>
              (Solver (s_matrix s3) (s_rhs s3) (Some z) (s_buf s3) (s_ops s3) (s_set s3),
               distribute z 0 x)
          | Throw => (s3, Throw)
          | UB => (s3, UB)
          end
      | (s2, Throw) => (s2, Throw)
      | (s2, UB) => (s2, UB)
      end
  | (s1, Throw) => (s1, Throw)
  | (s1, UB) => (s1, UB)
  end.

(** The solution of the library put back on the processes that hold [x]; KSPSolve works in place. *)
Definition direct_part (o : options) (A : M) (s : solver) (b x : dvec) : solver * outcome dvec :=
  match resolve_impl o A s (all_elements b) (all_elements x) with
  | Ok z => (s, distribute z 0 x)
  | Throw => (s, Throw)
  | UB => (s, UB)
  end.

(** p_solve(b, x) (linear_solver_implementation.hpp 232-262): the outcome is the content of [x]
    afterwards. *)
Definition solve (o : options) (A : M) (s : solver) (b x : dvec) : solver * outcome dvec :=
  if o_serial o then
    let m := match s_matrix s with
             | None => A
             | Some m => if o_const o then m else A
             end in
    let s' := Solver (Some m) (s_rhs s) (s_sol s) (s_buf s) (s_ops s) (s_set s) in
    serial_part o A (set_operators o (Copy m)) s' b x
  else direct_part o A (set_operators o Live s) b x.

(** p_resolve (linear_solver_implementation.hpp 265-285). *)
Definition resolve (o : options) (A : M) (s : solver) (b x : dvec) : solver * outcome dvec :=
  if o_serial o then serial_part o A (fun t => t) s b x else direct_part o A s b x.

(** A dense matrix: the rows of every process.  column(B, j, b) (C52). *)
Definition dmat := list (list (list F)).
Variable z0 : F.
Definition column (B : dmat) (j : nat) : dvec := map (map (fun row => nth j row z0)) B.

(** X.zero() and a Vector with the rows of B. *)
Definition zero_like (B : dmat) : dvec := map (map (fun _ => z0)) B.

(** The loop over columns of p_solve(B) (linear_solver_implementation.hpp 303-315), from column [j] on,
    [k] columns left. *)
Fixpoint solve_columns (o : options) (A : M) (s : solver) (B : dmat) (j k : nat) : solver * outcome (list dvec) :=
  match k with
  | 0 => (s, Ok [])
  | S k' =>
      match (if j =? 0 then solve o A s (column B j) (zero_like B) else resolve o A s (column B j) (zero_like B)) with
      | (s', Ok X) =>
          match solve_columns o A s' B (S j) k' with
          | (s'', Ok Xs) => (s'', Ok (X :: Xs))
          | e => e
          end
      | (s', Throw) => (s', Throw)
      | (s', UB) => (s', UB)
      end
  end.

(** Element (i, j) of the local rows of process p of the result is element i of process p of the j-th
    solution (linear_solver_implementation.hpp 312-317). *)
Definition local_rows (p : nat) (nloc : nat) (Xs : list dvec) : list (list F) :=
  map (fun i => map (fun X => nth i (nth p X []) z0) Xs) (iota nloc).
Definition assemble (B : dmat) (Xs : list dvec) : dmat :=
  map (fun p => local_rows p (length (nth p B [])) Xs) (iota (length B)).

(** p_solve(B) (linear_solver_implementation.hpp 288-319), [cols] = B.cols(). *)
Definition solve_matrix (o : options) (A : M) (s : solver) (B : dmat) (cols : nat) : solver * outcome dmat :=
  match solve_columns o A s B 0 cols with
  | (s', Ok Xs) => (s', Ok (assemble B Xs))
  | (s', Throw) => (s', Throw)
  | (s', UB) => (s', UB)
  end.

(** The calls on one solver, and changes of the coefficient matrix between them.  The last number of
    SolveAll is B.cols(). *)
Inductive call := Solve (b x : dvec) | Resolve (b x : dvec) | SolveAll (B : dmat) (cols : nat) | SetMatrix (A : M).
Inductive result := RVec (x : dvec) | RMat (X : dmat).

Definition omap {T U} (f : T -> U) (r : outcome T) : outcome U := obind r (fun x => Ok (f x)).

(** One call: the new state of the solver and what the caller sees. *)
Definition perform (o : options) (A : M) (s : solver) (c : call) : M * solver * option (outcome result) :=
  match c with
  | Solve b x => let (s', r) := solve o A s b x in (A, s', Some (omap RVec r))
  | Resolve b x => let (s', r) := resolve o A s b x in (A, s', Some (omap RVec r))
  | SolveAll B cols => let (s', r) := solve_matrix o A s B cols in (A, s', Some (omap RMat r))
  | SetMatrix A' => (A', s, None)
  end.

(** A program; an exception may be caught and the program go on, undefined behaviour may not. *)
Fixpoint run (o : options) (A : M) (s : solver) (cs : list call) : list (outcome result) :=
  match cs with
  | [] => []
  | c :: cs' =>
      match perform o A s c with
      | (A', s', None) => run o A' s' cs'
      | (_, _, Some UB) => [UB]
      | (A', s', Some r) => r :: run o A' s' cs'
      end
  end.
End Solver.
Arguments Solve {F M} b x.
Arguments Resolve {F M} b x.
Arguments SolveAll {F M} B cols.
Arguments SetMatrix {F M} A.
Arguments RVec {F} x.
Arguments RMat {F} X.
Arguments Live {M}.
Arguments new_solver {F M}.

(** LinearMatrixSolver (linear_matrix_solver_implementation.hpp 47-55,
    petsc_linear_matrix_solver_impl.hpp 222-278): a copy of the matrix is made by the constructor, it is
    factored by the first solve and the factor kept.  [lu] is MatLUFactorSymbolic and -Numeric,
    [msolve] is MatMatSolve. *)
Section MatrixSolver.
Variables M K D : Type.
Variable lu : M -> option K.
Variable msolve : K -> D -> option D.

Record msolver := MSolver { ms_A : M; ms_factor : option K }.

(** The constructor: p_A(A.clone()). *)
Definition new_msolver (A : M) : msolver := MSolver A None.

(** p_solve: p_factor (222-246) unless p_factored, MatMatSolve (248-278). *)
Definition msolver_solve (s : msolver) (B : D) : msolver * outcome D :=
  match ms_factor s with
  | Some k => (s, match msolve k B with Some X => Ok X | None => Throw end)
  | None =>
      match lu (ms_A s) with
      | None => (s, Throw)
      | Some k => (MSolver (ms_A s) (Some k), match msolve k B with Some X => Ok X | None => Throw end)
      end
  end.

Inductive mcall := MSolve (B : D) | MSetMatrix (A : M).

(** A program; changes of the matrix do not reach the copy. *)
Fixpoint mrun (s : msolver) (cs : list mcall) : list (outcome D) :=
  match cs with
  | [] => []
  | MSetMatrix _ :: cs' => mrun s cs'
  | MSolve B :: cs' => let (s', r) := msolver_solve s B in r :: mrun s' cs'
  end.
End MatrixSolver.
Arguments MSolve {M D} B.
Arguments MSetMatrix {M D} A.

(** Model of complex matrices and vectors on top of a math library built for real numbers
    (/repo/src/math: value_transfer.hpp, complex_operators.hpp, fallback_matrix_methods.hpp,
    fallback_matrix_operations.hpp, vector_implementation.cpp/.hpp,
    petsc/petsc_matrix_implementation.hpp, petsc/petsc_matrix.cpp, petsc/petsc_matrix_operations.cpp,
    petsc/petsc_vector_implementation.hpp, petsc/petsc_vector.cpp).

    In that build ComplexType values are not PetscScalar, so the implementation classes have
    useLibrary = false and elementSize = 2 (petsc_types.hpp): a complex vector element is two
    consecutive real elements and a complex matrix element is a 2 x 2 block of real elements.

    Simplifications: scalars are real numbers instead of doubles; a matrix is seen as a whole (the
    loops over the locally owned rows of all processes together run over all rows; the ownership
    ranges start at even real rows because the constructors multiply the local sizes by
    elementSize); the library accepts new nonzero positions without a limit on preallocation;
    int overflow of index products is not modelled. *)
From Coq Require Import Reals Lra.
From Coquelicot Require Import Complex.
From Verif Require Import Prelude.
Local Open Scope nat_scope.

(** * The real library (PETSc): what the calls used by GridPACK do *)

(** One row of a sparse matrix: column numbers with values, columns increasing. *)
Definition rrow := list (nat * R).

Inductive imode := INS | ADD.          (* INSERT_VALUES, ADD_VALUES *)

Definition imode_eqb (a b : imode) : bool :=
  match a, b with INS, INS => true | ADD, ADD => true | _, _ => false end.

(** A PETSc Mat: sizes, rows, whether it is assembled, and the insert mode of the values set since
    the last assembly. *)
Record rmat := mkMat {
  m_nr : nat; m_nc : nat; m_rows : list rrow; m_asm : bool; m_mode : option imode }.

(** A PETSc Vec: the local array of every process, in rank order. *)
Definition rvec := list (list R).

Definition row_of (rows : list rrow) (i : nat) : rrow := nth i rows [].

Fixpoint rfind (j : nat) (r : rrow) : option R :=
  match r with
  | [] => None
  | (k, v) :: t => if j =? k then Some v else rfind j t
  end.

Definition oval (o : option R) : R := match o with Some v => v | None => 0%R end.

(** Value of an element: positions that are not stored are zero. *)
Definition rget (rows : list rrow) (i j : nat) : R := oval (rfind j (row_of rows i)).

Definition put_val (md : imode) (x : R) (o : option R) : R :=
  match md with INS => x | ADD => (oval o + x)%R end.

(** Store or add one value in a row, keeping the columns increasing. *)
Fixpoint rput (md : imode) (j : nat) (x : R) (r : rrow) : rrow :=
  match r with
  | [] => [(j, put_val md x None)]
  | (k, v) :: t =>
      if j <? k then (j, put_val md x None) :: (k, v) :: t
      else if j =? k then (k, put_val md x (Some v)) :: t
      else (k, v) :: rput md j x t
  end.

Definition mput (md : imode) (rows : list rrow) (e : nat * nat * R) : list rrow :=
  let '(i, j, x) := e in upd rows i (rput md j x (row_of rows i)).

(** MatSetValues: the values are row-major; it is an error to mix the two insert modes without an
    assembly in between, and to address a position outside the matrix.  The matrix is not assembled
    afterwards. *)
Definition mat_set_values (M : rmat) (is js : list nat) (xs : list R) (md : imode) : outcome rmat :=
  let conflict := match m_mode M with Some md' => negb (imode_eqb md md') | None => false end in
  if conflict then Throw
  else if forallb (fun i => i <? m_nr M) is && forallb (fun j => j <? m_nc M) js then
    Ok (mkMat (m_nr M) (m_nc M)
              (fold_left (mput md) (combine (list_prod is js) xs) (m_rows M)) false (Some md))
  else Throw.

(** MatGetValues: only for an assembled matrix. *)
Definition mat_get_values (M : rmat) (is js : list nat) : outcome (list R) :=
  if m_asm M then
    if forallb (fun i => i <? m_nr M) is && forallb (fun j => j <? m_nc M) js then
      Ok (map (fun ij => rget (m_rows M) (fst ij) (snd ij)) (list_prod is js))
    else Throw
  else Throw.

(** MatAssemblyBegin, MatAssemblyEnd (petsc_matrix_wrapper.cpp, ready). *)
Definition mat_assemble (M : rmat) : rmat :=
  mkMat (m_nr M) (m_nc M) (m_rows M) true None.

(** MatZeroEntries: keeps the stored positions; refused while set values await assembly. *)
Definition mat_zero_entries (M : rmat) : outcome rmat :=
  match m_mode M with
  | Some _ => Throw
  | None => Ok (mkMat (m_nr M) (m_nc M) (map (map (fun e => (fst e, 0%R))) (m_rows M)) (m_asm M) None)
  end.

(** MatShift: adds to the diagonal; a missing diagonal position is stored. *)
Definition mat_shift (M : rmat) (a : R) : outcome rmat :=
  if m_asm M then
    if m_nr M <=? m_nc M then
      Ok (mkMat (m_nr M) (m_nc M)
                (map (fun i => rput ADD i a (row_of (m_rows M) i)) (iota (m_nr M))) true None)
    else Throw
  else Throw.

Definition same_pattern (A B : list rrow) : bool :=
  (length A =? length B) &&
  forallb (fun p => if list_eq_dec Nat.eq_dec (map fst (fst p)) (map fst (snd p)) then true else false)
          (combine A B).

(** MatCopy(B, A, SAME_NONZERO_PATTERN): copies the value arrays; undefined when the stored positions
    differ. *)
Definition mat_copy_same (B A : rmat) : outcome rmat :=
  if m_asm B && m_asm A then
    if same_pattern (m_rows A) (m_rows B) then
      Ok (mkMat (m_nr A) (m_nc A) (m_rows B) true None)
    else UB
  else Throw.

Definition row_put_all (md : imode) (src dst : rrow) : rrow :=
  fold_left (fun r e => rput md (fst e) (snd e) r) src dst.

Definition zero_row (r : rrow) : rrow := map (fun e => (fst e, 0%R)) r.

(** MatCopy(B, A, DIFFERENT_NONZERO_PATTERN): A is zeroed, then the values of B are set. *)
Definition mat_copy_diff (B A : rmat) : outcome rmat :=
  if m_asm B then
    match m_mode A with
    | Some _ => Throw
    | None =>
        if (m_nr A =? m_nr B) && (m_nc A =? m_nc B) then
          Ok (mkMat (m_nr A) (m_nc A)
                    (map (fun i => row_put_all INS (row_of (m_rows B) i) (zero_row (row_of (m_rows A) i)))
                         (iota (m_nr A))) true None)
        else Throw
    end
  else Throw.

(** MatAXPY(A, 1, B, DIFFERENT_NONZERO_PATTERN). *)
Definition mat_axpy1 (A B : rmat) : outcome rmat :=
  if m_asm A && m_asm B then
    if (m_nr A =? m_nr B) && (m_nc A =? m_nc B) then
      Ok (mkMat (m_nr A) (m_nc A)
                (map (fun i => row_put_all ADD (row_of (m_rows B) i) (row_of (m_rows A) i))
                     (iota (m_nr A))) true None)
    else Throw
  else Throw.

Definition rsum (l : list R) : R := fold_right Rplus 0%R l.

Definition row_dot (r : rrow) (x : list R) : R :=
  rsum (map (fun e => (snd e * nth (fst e) x 0)%R) r).

(** Cut an array into consecutive pieces of the given lengths. *)
Fixpoint split_as {A} (ls : list nat) (x : list A) : list (list A) :=
  match ls with
  | [] => []
  | n :: t => firstn n x :: split_as t (skipn n x)
  end.

Definition vsize {A} (v : list (list A)) : nat := length (concat v).

(** MatMult(A, x, y): y keeps its distribution. *)
Definition mat_mult (A : rmat) (x y : rvec) : outcome rvec :=
  if m_asm A then
    if (vsize x =? m_nc A) && (vsize y =? m_nr A) then
      Ok (split_as (map (@length R) y)
                   (map (fun i => row_dot (row_of (m_rows A) i) (concat x)) (iota (m_nr A))))
    else Throw
  else Throw.

(** MatMultTranspose(A, x, y). *)
Definition mat_mult_transpose (A : rmat) (x y : rvec) : outcome rvec :=
  if m_asm A then
    if (vsize x =? m_nr A) && (vsize y =? m_nc A) then
      Ok (split_as (map (@length R) y)
                   (map (fun j => rsum (map (fun i => (rget (m_rows A) i j * nth i (concat x) 0)%R)
                                            (iota (m_nr A)))) (iota (m_nc A))))
    else Throw
  else Throw.

(** MatTranspose. *)
Definition mat_transpose (A : rmat) : outcome rmat :=
  if m_asm A then
    Ok (mkMat (m_nc A) (m_nr A)
              (map (fun j => flat_map (fun i => match rfind j (row_of (m_rows A) i) with
                                                | Some v => [(i, v)]
                                                | None => []
                                                end) (iota (m_nr A))) (iota (m_nc A))) true None)
  else Throw.

(** MatMatMult: row i of the product accumulates the rows of B picked by row i of A. *)
Definition mm_row (ra : rrow) (B : list rrow) : rrow :=
  fold_left (fun acc e =>
               row_put_all ADD (map (fun f => (fst f, (snd e * snd f)%R)) (row_of B (fst e))) acc) ra [].

Definition mat_mat_mult (A B : rmat) : outcome rmat :=
  if m_asm A && m_asm B then
    if m_nc A =? m_nr B then
      Ok (mkMat (m_nr A) (m_nc B)
                (map (fun i => mm_row (row_of (m_rows A) i) (m_rows B)) (iota (m_nr A))) true None)
    else Throw
  else Throw.

(** MatGetColumnVector. *)
Definition mat_column (A : rmat) (c : nat) (y : rvec) : outcome rvec :=
  if m_asm A then
    if (c <? m_nc A) && (vsize y =? m_nr A) then
      Ok (split_as (map (@length R) y) (map (fun i => rget (m_rows A) i c) (iota (m_nr A))))
    else Throw
  else Throw.

(** First position of process [p] in a distributed vector. *)
Definition voff {A} (v : list (list A)) (p : nat) : nat := sumn (map (@length A) (firstn p v)).
Definition vlen {A} (v : list (list A)) (p : nat) : nat := length (nth p v []).

Definition vput (md : imode) (p : nat) (v : rvec) (e : nat * R) : rvec :=
  let '(i, x) := e in
  if (voff v p <=? i) && (i <? voff v p + vlen v p) then
    let a := nth p v [] in
    let k := i - voff v p in
    upd v p (upd a k (match md with INS => x | ADD => (nth k a 0 + x)%R end))
  else v.                              (* VEC_IGNORE_OFF_PROC_ENTRIES, petsc_vector_wrapper.cpp:71 *)

(** VecSetValues called on process [p]. *)
Definition vec_set_values (v : rvec) (p : nat) (is : list nat) (xs : list R) (md : imode) : outcome rvec :=
  if forallb (fun i => i <? vsize v) is then Ok (fold_left (vput md p) (combine is xs) v) else Throw.

(** VecGetValues called on process [p]: only local positions. *)
Definition vec_get_values (v : rvec) (p : nat) (is : list nat) : outcome (list R) :=
  if forallb (fun i => (voff v p <=? i) && (i <? voff v p + vlen v p)) is then
    Ok (map (fun i => nth (i - voff v p) (nth p v []) 0%R) is)
  else Throw.

(** * GridPACK: moving values between complex and real arrays (value_transfer.hpp) *)

(** ValueTransfer<ComplexType, RealType>::p_copy (value_transfer.hpp:208-217), also reached through
    ValueTransferToLibrary. *)
Definition to_library (l : list C) : list R := flat_map (fun z => [fst z; snd z]) l.

(** ValueTransfer<RealType, ComplexType>::p_copy (value_transfer.hpp:198-206), also reached through
    ValueTransferFromLibrary: steps of two while the index is below the size, so an odd size reads
    past the source and writes past the target of size/2 elements. *)
Fixpoint from_library (l : list R) : outcome (list C) :=
  match l with
  | [] => Ok []
  | [_] => UB
  | a :: b :: t => obind (from_library t) (fun r => Ok ((a, b) :: r))
  end.

(** MatrixValueTransferToLibrary<ComplexType, RealType>::p_copy (value_transfer.hpp:407-419). *)
Definition matrix_to_library (l : list C) : list R :=
  flat_map (fun z => [fst z; (- snd z)%R; snd z; fst z]) l.

(** MatrixValueTransferFromLibrary<RealType, ComplexType>::p_copy (value_transfer.hpp:477-486),
    for the single block of p_getElement (its size argument is 1, so the loop runs once). *)
Definition matrix_from_library (p : list R) : C := (nth 0 p 0%R, (- nth 1 p 0)%R).

Definition elementSize := 2.

(** ** Elementwise operators (complex_operators.hpp:150-300, 529-558) *)
Definition cexp (z : C) : C := ((exp (fst z) * cos (snd z))%R, (exp (fst z) * sin (snd z))%R).
Definition op_set (v : C) (x : C) : C := v.                       (* setvalue, 153-159 *)
Definition op_add (v : C) (x : C) : C := Cplus x v.               (* addvalue, 164-170 *)
Definition op_mul (f : C) (x : C) : C := Cmult x f.               (* multiplyvalue, 176-182 *)
Definition op_abs (x : C) : C := RtoC (Cmod x).                   (* absvalue, 203-209 *)
Definition op_exp (x : C) : C := cexp x.                          (* exponential, 214-218 *)
Definition op_recip (x : C) : C := Cdiv (RtoC 1) x.               (* reciprocal, 223-230 *)
Definition op_conj (x : C) : C := (fst x, (- snd x)%R).           (* conjugate_value, 248-253 *)
Definition op_real (x : C) : C := RtoC (fst x).                   (* real_value, 271-276 *)
Definition op_imag (x : C) : C := RtoC (snd x).                   (* imaginary_value, 294-299 *)
Definition op_mul2 (x y : C) : C := Cmult x y.                    (* multiplyvalue2, 532-536 *)
Definition op_div2 (x y : C) : C := Cdiv x y.                     (* dividevalue2, 541-545 *)
Definition op_scale_add2 (a x y : C) : C := Cplus x (Cmult a y).  (* scaleAdd2, 550-558 *)

(** unary_operation<ComplexType, RealType> (complex_operators.hpp:116-127): an odd size reads and
    writes past the array. *)
Fixpoint unary_operation (op : C -> C) (x : list R) : outcome (list R) :=
  match x with
  | [] => Ok []
  | [_] => UB
  | a :: b :: t =>
      let z := op (a, b) in
      obind (unary_operation op t) (fun r => Ok (fst z :: snd z :: r))
  end.

(** binary_operation<ComplexType, RealType> (complex_operators.hpp:487-500). *)
Fixpoint binary_operation (op : C -> C -> C) (x y : list R) : outcome (list R) :=
  match x, y with
  | [], _ => Ok []
  | a :: b :: t, c :: d :: u =>
      let z := op (a, b) (c, d) in
      obind (binary_operation op t u) (fun r => Ok (fst z :: snd z :: r))
  | _, _ => UB
  end.

(** accumulator_operation<ComplexType, RealType> (complex_operators.hpp:345-355) with accum
    starting at zero (314-316). *)
Fixpoint accumulator_operation (op : R -> C -> R) (acc : R) (x : list R) : outcome R :=
  match x with
  | [] => Ok acc
  | [_] => UB
  | a :: b :: t => accumulator_operation op (op acc (a, b)) t
  end.

Definition acc_l1 (acc : R) (x : C) : R := (acc + Cmod x)%R.                    (* 374-379 *)
Definition acc_l2 (acc : R) (x : C) : R := (acc + Cmod x * Cmod x)%R.           (* 397-403 *)
Definition acc_inf (acc : R) (x : C) : R := Rmax acc (Cmod x).                  (* 422-428 *)

Fixpoint omap {A B} (f : A -> outcome B) (l : list A) : outcome (list B) :=
  match l with
  | [] => Ok []
  | a :: t => obind (f a) (fun b => obind (omap f t) (fun r => Ok (b :: r)))
  end.

Fixpoint ofold {A S} (f : S -> A -> outcome S) (l : list A) (s : S) : outcome S :=
  match l with
  | [] => Ok s
  | a :: t => obind (f s a) (ofold f t)
  end.

(** * Matrices (petsc_matrix_implementation.hpp) *)

(** Constructors (69-111) and createDense (126-165): sizes are multiplied by elementSize; a dense
    matrix stores every position. *)
Definition mat_new (rows cols : nat) : rmat :=
  mkMat (rows * elementSize) (cols * elementSize) (repeat [] (rows * elementSize)) false None.
Definition mat_new_dense (rows cols : nat) : rmat :=
  mkMat (rows * elementSize) (cols * elementSize)
        (repeat (map (fun j => (j, 0%R)) (iota (cols * elementSize))) (rows * elementSize)) false None.

Definition mat_rows (M : rmat) : nat := m_nr M / elementSize.      (* p_rows, 311-314 *)
Definition mat_cols (M : rmat) : nat := m_nc M / elementSize.      (* p_cols, 323-326 *)

Definition block_idx (i : nat) : list nat := map (fun ii => i * elementSize + ii) (iota elementSize).

(** p_setElement (335-363), p_addElement (375-378). *)
Definition set_element (M : rmat) (i j : nat) (x : C) (md : imode) : outcome rmat :=
  mat_set_values M (block_idx i) (block_idx j) (matrix_to_library [x]) md.

(** p_setElements, p_addElements (366-372, 381-387), as a list of (i, j, x). *)
Definition set_elements (M : rmat) (md : imode) (l : list (nat * nat * C)) : outcome rmat :=
  ofold (fun M e => let '(i, j, x) := e in set_element M i j x md) l M.

(** p_getElement (390-410). *)
Definition get_element (M : rmat) (i j : nat) : outcome C :=
  obind (mat_get_values M (block_idx i) (block_idx j)) (fun px => Ok (matrix_from_library px)).

(** p_applyOperation (185-248): even rows of the matrix; the row as pairs of reals, conjugated, the
    operator applied, and the results set as elements of a copy whose values are then copied back. *)
Definition apply_row (op : C -> C) (A : rmat) (tmp : rmat) (i : nat) : outcome rmat :=
  let row := row_of (m_rows A) i in
  obind (from_library (map snd row)) (fun rvals =>
    let vals := map op (map op_conj rvals) in
    set_elements tmp INS
      (map (fun k => (i / elementSize,
                      nth (k * elementSize) (map fst row) 0 / elementSize,
                      nth k vals (RtoC 0))) (iota (length vals)))).

Definition apply_operation (op : C -> C) (A : rmat) : outcome rmat :=
  if m_asm A then                                     (* MatDuplicate, MatGetRow *)
    obind (ofold (apply_row op A) (map (fun k => k * 2) (iota (m_nr A / 2))) A) (fun tmp =>
      mat_copy_same (mat_assemble tmp) A)
  else Throw.

Definition m_scale (x : C) (A : rmat) := apply_operation (op_mul x) A.      (* p_scale, 424-440 *)
Definition m_real (A : rmat) := apply_operation op_real A.                  (* p_real, 571-580 *)
Definition m_imaginary (A : rmat) := apply_operation op_imag A.             (* p_imaginary, 583-591 *)
Definition m_conjugate (A : rmat) := apply_operation op_conj A.             (* p_conjugate, 594-602 *)
Definition m_zero (A : rmat) := mat_zero_entries A.                         (* p_zero, 621-624 *)

(** p_addDiagonal (443-458) through fallback::addDiagonal (fallback_matrix_methods.hpp:38-48). *)
Definition m_add_diagonal (x : C) (A : rmat) : outcome rmat :=
  obind (set_elements A ADD (map (fun i => (i, i, x)) (iota (mat_rows A)))) (fun B => Ok (mat_assemble B)).

(** p_identity (461-484). *)
Definition m_identity (A : rmat) : outcome rmat :=
  if negb (m_asm A) then
    obind (set_elements A INS (map (fun i => (i, i, RtoC 1)) (iota (mat_rows A))))
          (fun B => Ok (mat_assemble B))
  else
    obind (mat_zero_entries A) (fun B => mat_shift B 1%R).

(** fallback::norm2 (fallback_matrix_methods.hpp:52-73) through p_norm2 (605-618); [owned] is the
    number of rows of each process. *)
Definition m_norm2 (owned : list nat) (A : rmat) : outcome R :=
  let local lo n :=
    ofold (fun acc ij => obind (get_element A (fst ij) (snd ij)) (fun v => Ok (acc_l2 acc v)))
          (list_prod (seq lo n) (iota (mat_cols A))) 0%R in
  obind (omap (fun p => local (sumn (firstn p owned)) (nth p owned 0)) (iota (length owned)))
        (fun parts => Ok (sqrt (rsum parts))).

(** p_getRowBlock (488-568): the even real rows, through a sorted copy of the index set and the
    inverse of the sort permutation. *)
Fixpoint ins_key (e : nat * nat) (l : list (nat * nat)) : list (nat * nat) :=
  match l with
  | [] => [e]
  | f :: t => if fst e <=? fst f then e :: f :: t else f :: ins_key e t
  end.
Definition sort_keys (l : list (nat * nat)) : list (nat * nat) := fold_right ins_key [] l.

Fixpoint index_of (i : nat) (l : list nat) : nat :=
  match l with [] => 0 | x :: t => if i =? x then 0 else S (index_of i t) end.

Definition get_row_block (A : rmat) (rows : list nat) : outcome (list C) :=
  if m_asm A then
    let ncol := mat_cols A * elementSize in
    let ridx := map (fun r => r * elementSize) rows in
    if forallb (fun r => r <? m_nr A) ridx then
      let perm := map snd (sort_keys (combine ridx (iota (length ridx)))) in  (* ISSortPermutation *)
      let sub := map (row_of (m_rows A)) (map fst (sort_keys (combine ridx (iota (length ridx))))) in
      obind (omap (fun i =>
                     let cval := map (fun j => rget sub (index_of i perm) j) (iota ncol) in
                     obind (unary_operation op_conj cval) from_library) (iota (length rows)))
            (fun blocks => Ok (concat blocks))
    else Throw
  else Throw.

(** * Operations on whole matrices (petsc_matrix.cpp, petsc_matrix_operations.cpp) *)

Definition compatible (A B : rmat) : bool :=                       (* matrix.hpp:448-459 *)
  (mat_rows A =? mat_rows B) && (mat_cols A =? mat_cols B).

Definition m_clone (A : rmat) : outcome rmat := if m_asm A then Ok A else Throw.   (* p_clone, 669-674 *)
Definition m_equate (A B : rmat) : outcome rmat :=                 (* petsc_matrix.cpp:170-184 *)
  if compatible A B then mat_copy_diff B A else Throw.
Definition m_add (A B : rmat) : outcome rmat :=                    (* petsc_matrix.cpp:197-212 *)
  if compatible A B then mat_axpy1 A B else Throw.

(** transpose, the version that makes its result (petsc_matrix_operations.cpp:83-142). *)
Definition m_transpose (A : rmat) : outcome rmat := obind (mat_transpose A) m_conjugate.

Definition m_multiply (A B : rmat) : outcome rmat := mat_mat_mult A B.      (* 400-421 *)

(** * Vectors (petsc_vector_implementation.hpp) *)

Definition vec_new (local : list nat) : rvec := map (fun n => repeat 0%R (n * elementSize)) local.  (* 70-73 *)

Definition vec_size (v : rvec) : nat := vsize v / elementSize.              (* p_size, 129-132 *)
Definition vec_lo (v : rvec) (p : nat) : nat := voff v p / elementSize.     (* p_localIndexRange, 141-147 *)
Definition vec_hi (v : rvec) (p : nat) : nat := (voff v p + vlen v p) / elementSize.

(** p_setOrAddElements (167-197), p_setOrAddElement (149-164) for one element. *)
Definition v_set_elements (v : rvec) (p : nat) (is : list nat) (xs : list C) (md : imode) : outcome rvec :=
  vec_set_values v p (flat_map (fun i => [i * elementSize; i * elementSize + 1]) is) (to_library xs) md.

(** p_getElements (244-262). *)
Definition v_get_elements (v : rvec) (p : nat) (is : list nat) : outcome (list C) :=
  obind (vec_get_values v p (flat_map (fun i => [i * elementSize; i * elementSize + 1]) is)) from_library.

(** p_getAllElements (265-272): every process gets the whole vector. *)
Definition v_get_all (v : rvec) : outcome (list C) := from_library (concat v).

(** p_applyOperation (97-109), each process on its local array. *)
Definition v_apply (op : C -> C) (v : rvec) : outcome rvec := omap (unary_operation op) v.

Definition v_zero (v : rvec) : rvec := map (map (fun _ => 0%R)) v.          (* p_zero, 275-278 *)
Definition v_fill (x : C) (v : rvec) := v_apply (op_set x) v.               (* p_fill, 281-297 *)
Definition v_scale (x : C) (v : rvec) := v_apply (op_mul x) v.              (* p_scale, 300-316 *)
Definition v_abs (v : rvec) := v_apply op_abs v.                            (* p_abs, 362-370 *)
Definition v_conjugate (v : rvec) := v_apply op_conj v.                     (* p_conjugate, 373-381 *)
Definition v_exp (v : rvec) := v_apply op_exp v.                            (* p_exp, 384-392 *)
Definition v_reciprocal (v : rvec) := v_apply op_recip v.                   (* p_reciprocal, 395-403 *)
Definition v_add_value (x : C) (v : rvec) := v_apply (op_add x) v.          (* petsc_vector.cpp:137-160 *)

(** VectorImplementation::p_real, p_imaginary (vector_implementation.cpp:19-33, 45-59): every process
    reads its range, changes it and sets it again. *)
Definition v_range_map (op : C -> C) (v : rvec) : outcome rvec :=
  ofold (fun w p =>
           let is := seq (vec_lo w p) (vec_hi w p - vec_lo w p) in
           obind (v_get_elements w p is) (fun x => v_set_elements w p is (map op x) INS))
        (iota (length v)) v.
Definition v_real (v : rvec) := v_range_map op_real v.
Definition v_imaginary (v : rvec) := v_range_map op_imag v.

(** p_norm1, p_norm2, p_normInfinity (319-359): local accumulation, then a sum or maximum over the
    processes. *)
Definition v_norm1 (v : rvec) : outcome R :=
  obind (omap (accumulator_operation acc_l1 0%R) v) (fun l => Ok (rsum l)).
Definition v_norm2 (v : rvec) : outcome R :=
  obind (omap (accumulator_operation acc_l2 0%R) v) (fun l => Ok (sqrt (rsum l))).
Definition v_norm_inf (v : rvec) : outcome R :=
  obind (omap (accumulator_operation acc_inf 0%R) v) (fun l => Ok (fold_right Rmax 0%R l)).

(** VectorT::add, elementMultiply, elementDivide through applyBinaryOperator
    (petsc_vector.cpp:32-53, 108-130, 197-241), with p_checkCompatible: equal sizes.  The local
    sizes are only asserted; [binary_operation] is UB when the second local array is shorter. *)
Definition v_binary (op : C -> C -> C) (v w : rvec) : outcome rvec :=
  if vec_size v =? vec_size w then
    omap (fun p => binary_operation op (nth p v []) (nth p w [])) (iota (length v))
  else Throw.
Definition v_add (v w : rvec) (scale : C) := v_binary (op_scale_add2 scale) v w.
Definition v_element_multiply (v w : rvec) := v_binary op_mul2 v w.
Definition v_element_divide (v w : rvec) := v_binary op_div2 v w.

(** VectorT::equate (petsc_vector.cpp:176-189): VecCopy needs the same distribution. *)
Definition v_equate (v w : rvec) : outcome rvec :=
  if list_eq_dec Nat.eq_dec (map (@length R) v) (map (@length R) w) then Ok w else Throw.

(** * Matrices with vectors *)

Definition mv_multiply (A : rmat) (x y : rvec) : outcome rvec := mat_mult A x y.     (* 328-351 *)

Definition mv_transpose_multiply (A : rmat) (x y : rvec) : outcome rvec :=          (* 165-179 *)
  mat_mult_transpose A x y.

(** column (205-227): the sizes must agree, then the even real column. *)
Definition mv_column (A : rmat) (c : nat) (y : rvec) : outcome rvec :=
  if vec_size y =? mat_rows A then mat_column A (c * elementSize) y else Throw.

(** The processes set elements of their own rows: position [i] is set by its owner. *)
Definition v_set_own (v : rvec) (i : nat) (x : C) : outcome rvec :=
  ofold (fun w p => if (vec_lo v p <=? i) && (i <? vec_hi v p)
                    then v_set_elements w p [i] [x] INS else Ok w) (iota (length v)) v.
Definition v_get_own (v : rvec) (i : nat) : outcome C :=
  obind (v_get_all v) (fun l => match nth_error l i with Some x => Ok x | None => Throw end).

(** diagonal into a vector (249-281) through fallback::diagonal (fallback_matrix_operations.hpp:39-50). *)
Definition mv_diagonal (A : rmat) (d : rvec) : outcome rvec :=
  if mat_rows A =? mat_cols A then
    if vec_size d =? mat_rows A then
      ofold (fun d i => obind (get_element A i i) (fun x => v_set_own d i x)) (iota (mat_rows A)) d
    else Throw
  else Throw.

(** A new diagonal matrix from a vector (293-314) through fallback::diagonal (62-79). *)
Definition mv_diagonal_matrix (x : rvec) (dense : bool) : outcome rmat :=
  let n := vec_size x in
  obind (ofold (fun M i => obind (v_get_own x i) (fun v => set_element M i i v INS)) (iota n)
               (if dense then mat_new_dense n n else mat_new n n)) (fun M => Ok (mat_assemble M)).

(** addDiagonalVector (petsc_matrix.cpp:225-241) through fallback::addDiagonal (147-159). *)
Definition mv_add_diagonal (A : rmat) (x : rvec) : outcome rmat :=
  obind (ofold (fun M i => obind (v_get_own x i) (fun v => set_element M i i v ADD))
               (iota (vec_size x)) A) (fun M => Ok (mat_assemble M)).

(** multiplyDiagonal (petsc_matrix.cpp:254-277) through fallback::multiplyDiagonal (114-136): all
    products first, then all sets. *)
Definition mv_multiply_diagonal (A : rmat) (x : rvec) : outcome rmat :=
  obind (omap (fun i => obind (v_get_own x i) (fun v =>
                        obind (get_element A i i) (fun w => Ok (i, i, Cmult v w)))) (iota (vec_size x)))
        (fun l => obind (set_elements A INS l) (fun M => Ok (mat_assemble M))).

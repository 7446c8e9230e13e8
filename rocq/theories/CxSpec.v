(** Specification for complex linear algebra on a library for real numbers: what a program using the
    matrix and vector API computes, in terms of complex numbers only. *)
From Coq Require Import Reals Lra.
From Coquelicot Require Import Complex.
From Verif Require Import Prelude CxModel.
Local Open Scope nat_scope.

(** ** Mathematical matrices and vectors *)

(** A matrix of complex numbers: rows, columns and entries. *)
Record amat := mkA { a_m : nat; a_n : nat; a_f : nat -> nat -> C }.

(** A distributed vector of complex numbers: number of elements on each process, and the elements. *)
Record avec := mkAV { v_layout : list nat; v_elems : list C }.

Fixpoint csum (n : nat) (f : nat -> C) : C :=
  match n with 0 => RtoC 0 | S k => Cplus (csum k f) (f k) end.

Definition ccat (v : list C) (i : nat) : C := nth i v (RtoC 0).

Definition tabulate (n : nat) (f : nat -> C) : list C := map f (iota n).

(** ** Programs: calls of the matrix and vector API, each followed by ready() *)
Inductive cmd :=
| NewM (m n : nat) (dense : bool) (l : list (nat * nat * C))   (* construct, setElements, ready *)
| IdentM (n : nat) (dense : bool)                              (* construct, identity *)
| SetM (r : nat) (l : list (nat * nat * C))
| AddM (r : nat) (l : list (nat * nat * C))
| ScaleM (r : nat) (x : C)
| RealM (r : nat)
| ImagM (r : nat)
| ConjM (r : nat)
| ZeroM (r : nat)
| AddDiagM (r : nat) (x : C)
| EquateM (r s : nat)
| AddMM (r s : nat)
| CloneM (s : nat)
| TransM (s : nat)                       (* new matrix: the transpose *)
| MulMM (s t : nat)                      (* new matrix: the product *)
| NewV (layout : list nat)
| SetV (v p : nat) (l : list (nat * C))  (* setElements called on process p *)
| AddV (v p : nat) (l : list (nat * C))
| ZeroV (v : nat)
| FillV (v : nat) (x : C)
| ScaleV (v : nat) (x : C)
| AddValV (v : nat) (x : C)
| AbsV (v : nat)
| RealV (v : nat)
| ImagV (v : nat)
| ConjV (v : nat)
| ExpV (v : nat)
| RecipV (v : nat)
| AddVV (v w : nat) (x : C)              (* v := v + x * w *)
| MulVV (v w : nat)
| DivVV (v w : nat)
| EquateV (v w : nat)
| MulMV (r x y : nat)                    (* y := r x *)
| ColMV (r c y : nat)                    (* y := column c of r *)
| DiagMV (r y : nat)                     (* y := diagonal of r *)
| DiagNew (x : nat) (dense : bool)       (* new matrix with diagonal x *)
| AddDiagMV (r x : nat)
| MulDiagMV (r x : nat).

(** *** What the program computes in complex arithmetic.  [None]: the arguments do not fit (unknown
    object, index or size out of range, division by zero), about which nothing is claimed. *)
Definition astate := (list amat * list avec)%type.

Definition in_range (m n : nat) (l : list (nat * nat * C)) : bool :=
  forallb (fun e => (fst (fst e) <? m) && (snd (fst e) <? n)) l.

Definition aset (f : nat -> nat -> C) (e : nat * nat * C) : nat -> nat -> C :=
  fun i j => if (i =? fst (fst e)) && (j =? snd (fst e)) then snd e else f i j.
Definition aadd (f : nat -> nat -> C) (e : nat * nat * C) : nat -> nat -> C :=
  fun i j => if (i =? fst (fst e)) && (j =? snd (fst e)) then Cplus (f i j) (snd e) else f i j.

(** Process [p] owns the positions from the sum of the sizes before it; it can only change those. *)
Definition owns (layout : list nat) (p i : nat) : bool :=
  (sumn (firstn p layout) <=? i) && (i <? sumn (firstn p layout) + nth p layout 0).
Definition vset (layout : list nat) (p : nat) (z : list C) (e : nat * C) : list C :=
  if owns layout p (fst e) then upd z (fst e) (snd e) else z.
Definition vadd (layout : list nat) (p : nat) (z : list C) (e : nat * C) : list C :=
  if owns layout p (fst e) then upd z (fst e) (Cplus (ccat z (fst e)) (snd e)) else z.

Definition nonzero (z : C) : bool := if Ceq_dec z (RtoC 0) then false else true.

Definition cconj (z : C) : C := (Re z, (- Im z)%R).
Definition cexp_spec (z : C) : C := Cmult (RtoC (exp (Re z))) (cos (Im z), sin (Im z)).

Definition with_m (s : astate) (r : nat) (k : amat -> option amat) : option astate :=
  match nth_error (fst s) r with
  | Some A => match k A with Some B => Some (upd (fst s) r B, snd s) | None => None end
  | None => None
  end.
Definition new_m (s : astate) (A : amat) : option astate := Some (fst s ++ [A], snd s).
Definition with_v (s : astate) (v : nat) (k : avec -> option avec) : option astate :=
  match nth_error (snd s) v with
  | Some z => match k z with Some y => Some (fst s, upd (snd s) v y) | None => None end
  | None => None
  end.
Definition each (A : amat) (g : C -> C) : option amat :=
  Some (mkA (a_m A) (a_n A) (fun i j => g (a_f A i j))).
Definition eachv (z : avec) (g : C -> C) : option avec := Some (mkAV (v_layout z) (map g (v_elems z))).
Definition pairv (z w : avec) (g : C -> C -> C) : option avec :=
  if list_eq_dec Nat.eq_dec (v_layout z) (v_layout w) then
    Some (mkAV (v_layout z) (map (fun p => g (fst p) (snd p)) (combine (v_elems z) (v_elems w))))
  else None.
Definition zerof (i j : nat) : C := RtoC 0.

Definition astep (s : astate) (c : cmd) : option astate :=
  match c with
  | NewM m n _ l => if in_range m n l then new_m s (mkA m n (fold_left aset l zerof)) else None
  | IdentM n _ => new_m s (mkA n n (fun i j => if i =? j then RtoC 1 else RtoC 0))
  | SetM r l => with_m s r (fun A => if in_range (a_m A) (a_n A) l
                                     then Some (mkA (a_m A) (a_n A) (fold_left aset l (a_f A))) else None)
  | AddM r l => with_m s r (fun A => if in_range (a_m A) (a_n A) l
                                     then Some (mkA (a_m A) (a_n A) (fold_left aadd l (a_f A))) else None)
  | ScaleM r x => with_m s r (fun A => each A (fun z => Cmult x z))
  | RealM r => with_m s r (fun A => each A (fun z => RtoC (Re z)))
  | ImagM r => with_m s r (fun A => each A (fun z => RtoC (Im z)))
  | ConjM r => with_m s r (fun A => each A cconj)
  | ZeroM r => with_m s r (fun A => each A (fun _ => RtoC 0))
  | AddDiagM r x => with_m s r (fun A => if a_m A <=? a_n A then
        Some (mkA (a_m A) (a_n A) (fun i j => if i =? j then Cplus (a_f A i j) x else a_f A i j)) else None)
  | EquateM r q => match nth_error (fst s) q with
      | Some B => with_m s r (fun A => if (a_m A =? a_m B) && (a_n A =? a_n B) then Some B else None)
      | None => None end
  | AddMM r q => match nth_error (fst s) q with
      | Some B => with_m s r (fun A => if (a_m A =? a_m B) && (a_n A =? a_n B)
          then Some (mkA (a_m A) (a_n A) (fun i j => Cplus (a_f A i j) (a_f B i j))) else None)
      | None => None end
  | CloneM q => match nth_error (fst s) q with Some B => new_m s B | None => None end
  | TransM q => match nth_error (fst s) q with
      | Some B => new_m s (mkA (a_n B) (a_m B) (fun i j => a_f B j i)) | None => None end
  | MulMM q t => match nth_error (fst s) q, nth_error (fst s) t with
      | Some A, Some B => if a_n A =? a_m B
          then new_m s (mkA (a_m A) (a_n B) (fun i j => csum (a_n A) (fun k => Cmult (a_f A i k) (a_f B k j))))
          else None
      | _, _ => None end
  | NewV layout => Some (fst s, snd s ++ [mkAV layout (repeat (RtoC 0) (sumn layout))])
  | SetV v p l => with_v s v (fun z => if forallb (fun e => fst e <? length (v_elems z)) l
        then Some (mkAV (v_layout z) (fold_left (vset (v_layout z) p) l (v_elems z))) else None)
  | AddV v p l => with_v s v (fun z => if forallb (fun e => fst e <? length (v_elems z)) l
        then Some (mkAV (v_layout z) (fold_left (vadd (v_layout z) p) l (v_elems z))) else None)
  | ZeroV v => with_v s v (fun z => eachv z (fun _ => RtoC 0))
  | FillV v x => with_v s v (fun z => eachv z (fun _ => x))
  | ScaleV v x => with_v s v (fun z => eachv z (fun y => Cmult x y))
  | AddValV v x => with_v s v (fun z => eachv z (fun y => Cplus x y))
  | AbsV v => with_v s v (fun z => eachv z (fun y => RtoC (Cmod y)))
  | RealV v => with_v s v (fun z => eachv z (fun y => RtoC (Re y)))
  | ImagV v => with_v s v (fun z => eachv z (fun y => RtoC (Im y)))
  | ConjV v => with_v s v (fun z => eachv z cconj)
  | ExpV v => with_v s v (fun z => eachv z cexp_spec)
  | RecipV v => with_v s v (fun z => if forallb nonzero (v_elems z) then eachv z Cinv else None)
  | AddVV v w x => match nth_error (snd s) w with
      | Some y => with_v s v (fun z => pairv z y (fun a b => Cplus a (Cmult x b))) | None => None end
  | MulVV v w => match nth_error (snd s) w with
      | Some y => with_v s v (fun z => pairv z y Cmult) | None => None end
  | DivVV v w => match nth_error (snd s) w with
      | Some y => with_v s v (fun z => if forallb nonzero (v_elems y) then pairv z y Cdiv else None)
      | None => None end
  | EquateV v w => match nth_error (snd s) w with
      | Some y => with_v s v (fun z => if list_eq_dec Nat.eq_dec (v_layout z) (v_layout y)
                                       then Some y else None) | None => None end
  | MulMV r x y => match nth_error (fst s) r, nth_error (snd s) x with
      | Some A, Some u => with_v s y (fun z =>
          if (a_n A =? length (v_elems u)) && (a_m A =? length (v_elems z))
          then Some (mkAV (v_layout z)
                 (tabulate (a_m A) (fun i => csum (a_n A) (fun k => Cmult (a_f A i k) (ccat (v_elems u) k)))))
          else None)
      | _, _ => None end
  | ColMV r c y => match nth_error (fst s) r with
      | Some A => with_v s y (fun z => if (c <? a_n A) && (a_m A =? length (v_elems z))
          then Some (mkAV (v_layout z) (tabulate (a_m A) (fun i => a_f A i c))) else None)
      | None => None end
  | DiagMV r y => match nth_error (fst s) r with
      | Some A => with_v s y (fun z => if (a_m A =? a_n A) && (a_m A =? length (v_elems z))
          then Some (mkAV (v_layout z) (tabulate (a_m A) (fun i => a_f A i i))) else None)
      | None => None end
  | DiagNew x _ => match nth_error (snd s) x with
      | Some u => new_m s (mkA (length (v_elems u)) (length (v_elems u))
                               (fun i j => if i =? j then ccat (v_elems u) i else RtoC 0))
      | None => None end
  | AddDiagMV r x => match nth_error (snd s) x with
      | Some u => with_m s r (fun A =>
          if (length (v_elems u) <=? a_m A) && (length (v_elems u) <=? a_n A)
          then Some (mkA (a_m A) (a_n A)
                 (fun i j => if (i =? j) && (i <? length (v_elems u))
                             then Cplus (a_f A i j) (ccat (v_elems u) i) else a_f A i j))
          else None)
      | None => None end
  | MulDiagMV r x => match nth_error (snd s) x with
      | Some u => with_m s r (fun A =>
          if (length (v_elems u) <=? a_m A) && (length (v_elems u) <=? a_n A)
          then Some (mkA (a_m A) (a_n A)
                 (fun i j => if (i =? j) && (i <? length (v_elems u))
                             then Cmult (ccat (v_elems u) i) (a_f A i j) else a_f A i j))
          else None)
      | None => None end
  end.

Fixpoint arun (p : list cmd) (s : astate) : option astate :=
  match p with
  | [] => Some s
  | c :: t => match astep s c with Some s' => arun t s' | None => None end
  end.

(** *** The same program on the real library: each command calls the modelled code. *)
Definition rstate := (list rmat * list rvec)%type.

Definition rwith_m (s : rstate) (r : nat) (k : rmat -> outcome rmat) : outcome rstate :=
  match nth_error (fst s) r with
  | Some A => obind (k A) (fun B => Ok (upd (fst s) r B, snd s))
  | None => UB
  end.
Definition rnew_m (s : rstate) (o : outcome rmat) : outcome rstate :=
  obind o (fun A => Ok (fst s ++ [A], snd s)).
Definition rwith_v (s : rstate) (v : nat) (k : rvec -> outcome rvec) : outcome rstate :=
  match nth_error (snd s) v with
  | Some z => obind (k z) (fun y => Ok (fst s, upd (snd s) v y))
  | None => UB
  end.
Definition ready (o : outcome rmat) : outcome rmat := obind o (fun M => Ok (mat_assemble M)).
Definition get_m (s : rstate) (r : nat) : outcome rmat :=
  match nth_error (fst s) r with Some A => Ok A | None => UB end.
Definition get_v (s : rstate) (v : nat) : outcome rvec :=
  match nth_error (snd s) v with Some A => Ok A | None => UB end.

Definition blank (m n : nat) (dense : bool) : rmat := if dense then mat_new_dense m n else mat_new m n.

Definition rstep (s : rstate) (c : cmd) : outcome rstate :=
  match c with
  | NewM m n d l => rnew_m s (ready (set_elements (blank m n d) INS l))
  | IdentM n d => rnew_m s (m_identity (blank n n d))
  | SetM r l => rwith_m s r (fun A => ready (set_elements A INS l))
  | AddM r l => rwith_m s r (fun A => ready (set_elements A ADD l))
  | ScaleM r x => rwith_m s r (m_scale x)
  | RealM r => rwith_m s r m_real
  | ImagM r => rwith_m s r m_imaginary
  | ConjM r => rwith_m s r m_conjugate
  | ZeroM r => rwith_m s r m_zero
  | AddDiagM r x => rwith_m s r (m_add_diagonal x)
  | EquateM r q => obind (get_m s q) (fun B => rwith_m s r (fun A => m_equate A B))
  | AddMM r q => obind (get_m s q) (fun B => rwith_m s r (fun A => m_add A B))
  | CloneM q => obind (get_m s q) (fun B => rnew_m s (m_clone B))
  | TransM q => obind (get_m s q) (fun B => rnew_m s (m_transpose B))
  | MulMM q t => obind (get_m s q) (fun A => obind (get_m s t) (fun B => rnew_m s (m_multiply A B)))
  | NewV layout => Ok (fst s, snd s ++ [vec_new layout])
  | SetV v p l => rwith_v s v (fun z => v_set_elements z p (map fst l) (map snd l) INS)
  | AddV v p l => rwith_v s v (fun z => v_set_elements z p (map fst l) (map snd l) ADD)
  | ZeroV v => rwith_v s v (fun z => Ok (v_zero z))
  | FillV v x => rwith_v s v (v_fill x)
  | ScaleV v x => rwith_v s v (v_scale x)
  | AddValV v x => rwith_v s v (v_add_value x)
  | AbsV v => rwith_v s v v_abs
  | RealV v => rwith_v s v v_real
  | ImagV v => rwith_v s v v_imaginary
  | ConjV v => rwith_v s v v_conjugate
  | ExpV v => rwith_v s v v_exp
  | RecipV v => rwith_v s v v_reciprocal
  | AddVV v w x => obind (get_v s w) (fun y => rwith_v s v (fun z => v_add z y x))
  | MulVV v w => obind (get_v s w) (fun y => rwith_v s v (fun z => v_element_multiply z y))
  | DivVV v w => obind (get_v s w) (fun y => rwith_v s v (fun z => v_element_divide z y))
  | EquateV v w => obind (get_v s w) (fun y => rwith_v s v (fun z => v_equate z y))
  | MulMV r x y => obind (get_m s r) (fun A => obind (get_v s x) (fun u =>
                     rwith_v s y (fun z => mv_multiply A u z)))
  | ColMV r c y => obind (get_m s r) (fun A => rwith_v s y (fun z => mv_column A c z))
  | DiagMV r y => obind (get_m s r) (fun A => rwith_v s y (fun z => mv_diagonal A z))
  | DiagNew x d => obind (get_v s x) (fun u => rnew_m s (mv_diagonal_matrix u d))
  | AddDiagMV r x => obind (get_v s x) (fun u => rwith_m s r (fun A => mv_add_diagonal A u))
  | MulDiagMV r x => obind (get_v s x) (fun u => rwith_m s r (fun A => mv_multiply_diagonal A u))
  end.

Definition rrun (p : list cmd) (s : rstate) : outcome rstate := ofold rstep p s.

(** ** What the user sees of a matrix or vector *)

(** Largest of a list of non-negative numbers, zero for the empty list. *)
Definition is_largest (l : list R) (x : R) : Prop :=
  (forall y, In y l -> (y <= x)%R) /\ (l = [] -> x = 0%R) /\ (l <> [] -> In x l).

Definition total (l : list R) : R := fold_right Rplus 0%R l.

Definition sees_m (M : rmat) (A : amat) : Prop :=
  mat_rows M = a_m A /\ mat_cols M = a_n A /\
  (forall i j, i < a_m A -> j < a_n A -> get_element M i j = Ok (a_f A i j)) /\
  (forall rows, Forall (fun r => r < a_m A) rows ->
     get_row_block M rows = Ok (flat_map (fun r => tabulate (a_n A) (a_f A r)) rows)) /\
  (forall owned, sumn owned = a_m A ->
     m_norm2 owned M =
     Ok (sqrt (total (map (fun ij => (Cmod (a_f A (fst ij) (snd ij)) * Cmod (a_f A (fst ij) (snd ij)))%R)
                          (list_prod (iota (a_m A)) (iota (a_n A))))))).

Definition sees_v (v : rvec) (z : avec) : Prop :=
  vec_size v = length (v_elems z) /\
  v_get_all v = Ok (v_elems z) /\
  (forall p, p < length (v_layout z) ->
     vec_lo v p = sumn (firstn p (v_layout z)) /\
     vec_hi v p = sumn (firstn p (v_layout z)) + nth p (v_layout z) 0) /\
  (forall p i, p < length (v_layout z) -> owns (v_layout z) p i = true ->
     v_get_elements v p [i] = Ok [ccat (v_elems z) i]) /\
  v_norm1 v = Ok (total (map Cmod (v_elems z))) /\
  v_norm2 v = Ok (sqrt (total (map (fun x => (Cmod x * Cmod x)%R) (v_elems z)))) /\
  (exists x, v_norm_inf v = Ok x /\ is_largest (map Cmod (v_elems z)) x).

Definition sees (s : rstate) (a : astate) : Prop :=
  Forall2 sees_m (fst s) (fst a) /\ Forall2 sees_v (snd s) (snd a).

(** What a user of the linear solvers relies on.  Of the solver only the calls and their results are used. *)
From Verif Require Import Prelude LsModel.

Section Spec.
Variables F M : Type.
Variable z0 : F.
(** [solves A b x]: x is accepted as a solution of A x = b.  [gives_up A b]: for some initial guess the library finds none. *)
Variable solves : M -> list F -> list F -> Prop.
Variable gives_up : M -> list F -> Prop.

Notation dvec := (list (list F)).
Notation dmat := (list (list (list F))).

(** The number of elements on every process. *)
Definition layout (T : Type) (v : list (list T)) : list nat := map (@length T) v.

(** Column j of a matrix over all processes. *)
Definition col (B : dmat) (j : nat) : list F := map (fun row => nth j row z0) (concat B).

(** The result of solving A x = b on processes with the layout of x. *)
Definition vec_answer (A : M) (b : list F) (lay : list nat) (r : outcome (result F)) : Prop :=
  (exists y, r = Ok (RVec y) /\ layout y = lay /\ solves A b (concat y)) \/
  (r = Throw /\ gives_up A b).

(** The result of solving A X = B, column j of B being [rhs j]: a matrix with as many rows on every process as
    B, with [cols] columns, each the solution for its right hand side. *)
Definition mat_answer (A : M) (rhs : nat -> list F) (lay : list nat) (cols : nat) (r : outcome (result F)) : Prop :=
  (exists X, r = Ok (RMat X) /\ layout X = lay /\ (forall row, In row (concat X) -> length row = cols) /\
             (forall j, j < cols -> solves A (rhs j) (col X j))) \/
  (r = Throw /\ exists j, j < cols /\ gives_up A (rhs j)).

(** Calls with vectors on the processes as the matrix needs them. *)
Definition good_call (lay : list nat) (c : call F M) : Prop :=
  match c with
  | Solve b x | Resolve b x => layout b = lay /\ layout x = lay
  | SolveAll B cols => layout B = lay /\ (forall row, In row (concat B) -> length row = cols)
  | SetMatrix _ => True
  end.

(** resolve may be used after a solve and "only if the coefficient matrix has not changed". *)
Inductive phase := Unsolved | Solved | Changed.

(** The results of a program are right: every solve, and every resolve where it may be used, answers for
    the present matrix and the given right hand sides; resolve before any solve is refused. *)
Fixpoint right (A : M) (ph : phase) (cs : list (call F M)) (rs : list (outcome (result F))) : Prop :=
  match cs with
  | [] => rs = []
  | SetMatrix A' :: cs' => right A' (match ph with Unsolved => Unsolved | _ => Changed end) cs' rs
  | Solve b x :: cs' =>
      match rs with
      | r :: rs' => vec_answer A (concat b) (layout x) r /\ right A Solved cs' rs'
      | [] => False
      end
  | Resolve b x :: cs' =>
      match rs with
      | r :: rs' =>
          match ph with
          | Unsolved => r = Throw
          | Solved => vec_answer A (concat b) (layout x) r
          | Changed => r <> UB
          end /\ right A ph cs' rs'
      | [] => False
      end
  | SolveAll B cols :: cs' =>
      match rs with
      | r :: rs' => mat_answer A (col B) (layout B) cols r /\ right A (if cols =? 0 then ph else Solved) cs' rs'
      | [] => False
      end
  end.

(** What happens in serial mode instead: every right hand side gets the last element of the very first
    one; the matrix is the one of the last solve, or of the first if it is declared constant. *)
Definition with_last (b : list F) (e : F) : list F := removelast b ++ [e].
Definition last_of (first : option F) (b : list F) : F :=
  match first with Some e => e | None => last b z0 end.
Definition used (const : bool) (A : M) (m : option M) : M :=
  match m with Some A0 => if const then A0 else A | None => A end.

Fixpoint serial_right (const : bool) (A : M) (m : option M) (first : option F) (cs : list (call F M)) (rs : list (outcome (result F))) : Prop :=
  match cs with
  | [] => rs = []
  | SetMatrix A' :: cs' => serial_right const A' m first cs' rs
  | Solve b x :: cs' =>
      match rs with
      | r :: rs' =>
          let e := last_of first (concat b) in
          vec_answer (used const A m) (with_last (concat b) e) (layout x) r /\
          serial_right const A (Some (used const A m)) (Some e) cs' rs'
      | [] => False
      end
  | Resolve b x :: cs' =>
      match rs with
      | r :: rs' =>
          let e := last_of first (concat b) in
          match m with
          | None => r = Throw
          | Some A0 => vec_answer A0 (with_last (concat b) e) (layout x) r
          end /\ serial_right const A m (Some e) cs' rs'
      | [] => False
      end
  | SolveAll B cols :: cs' =>
      match rs with
      | r :: rs' =>
          let e := last_of first (col B 0) in
          mat_answer (used const A m) (fun j => with_last (col B j) e) (layout B) cols r /\
          (if cols =? 0 then serial_right const A m first cs' rs'
           else serial_right const A (Some (used const A m)) (Some e) cs' rs')
      | [] => False
      end
  end.

(** The right hand sides of a program. *)
Definition rhs_of (c : call F M) : list (list F) :=
  match c with
  | Solve b _ | Resolve b _ => [concat b]
  | SolveAll B cols => map (col B) (iota cols)
  | SetMatrix _ => []
  end.
Definition changes (c : call F M) : bool := match c with SetMatrix _ => true | _ => false end.

(** Calls that differ only in the elements of x (the initial guess). *)
Definition but_guess (c c' : call F M) : Prop :=
  match c, c' with
  | Solve b x, Solve b' x' | Resolve b x, Resolve b' x' => b = b' /\ layout x = layout x'
  | SolveAll B cols, SolveAll B' cols' => B = B' /\ cols = cols'
  | SetMatrix A, SetMatrix A' => A = A'
  | _, _ => False
  end.
(** The coefficient matrix after a program. *)
Definition final (A : M) (cs : list (call F M)) : M :=
  fold_left (fun A c => match c with SetMatrix A' => A' | _ => A end) cs A.
End Spec.

(** The library solver is sound: what it returns is accepted and has the right length. *)
Definition sound (F M : Type) (ksp : M -> list F -> option (list F) -> option (list F)) (solves : M -> list F -> list F -> Prop) : Prop :=
  forall A b g y, ksp A b g = Some y -> solves A b y /\ length y = length b.
Definition fails (F M : Type) (ksp : M -> list F -> option (list F) -> option (list F)) (A : M) (b : list F) : Prop :=
  exists g, ksp A b g = None.

(** The right hand sides of a program with a matrix solver. *)
Definition mrhs_of (M D : Type) (cs : list (mcall M D)) : list D :=
  flat_map (fun c => match c with MSolve B => [B] | MSetMatrix _ => [] end) cs.

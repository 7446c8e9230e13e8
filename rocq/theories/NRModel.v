(** Model of the Newton-Raphson solver: math/newton_raphson_solver_implementation.hpp, math/nonlinear_solver_implementation.hpp. *)
From Verif Require Import Prelude.
From Coq Require Import Floats.SpecFloat.

(** Doubles are IEEE 754 values (SpecFloat of the standard library), so comparisons with a NaN are as in C++.
    newton_raphson_solver_implementation.hpp:138 1.0e+30, the nearest double. *)
Definition big_double : spec_float := S754_finite false 7105427357601002 47.

Section NR.
  (** [V] vectors, [M] matrices, [L] linear solver objects, [W] whatever else the callbacks of the user read and change. *)
  Variables V M L W : Type.
  (** Vector operations of VectorT: clone followed by zero, scale by -1, add, norm2. *)
  Variables (vzero_like vneg : V -> V) (vadd : V -> V -> V) (norm2 : V -> spec_float).
  (** nonlinear_solver_functions.hpp: the builders get the estimate and write F and J; they may throw. *)
  Variable fn : W -> V -> V -> outcome (W * V).
  Variable jac : W -> V -> M -> outcome (W * M).
  (** LinearSolverT: constructed (and configured) on a matrix; solve reads the matrix it was constructed on, which is the
      Jacobian object of the solver, so the current Jacobian is passed; the initial value of the unknown is passed too. *)
  Variable lnew : M -> outcome L.
  Variable lsolve : L -> M -> V -> V -> outcome (L * V).

  (** nonlinear_solver_implementation.hpp:112-134 and newton_raphson_solver_implementation.hpp:131 the data of a solver and the
      vector of the user that p_X points to (160-165). The member p_functionTolerance is never read. *)
  Record solver := Solver { s_w : W; s_J : M; s_F : V; s_ls : option L; s_X : V }.

  (** newton_raphson_solver_implementation.hpp:144-157 one pass of the loop; the second component is stol. The line
      printed (158-164) and ftol, used only there, are left out. *)
  Definition nr_body (s : solver) : outcome (solver * spec_float) :=
    obind (fn (s_w s) (s_X s) (s_F s)) (fun '(w1, f) =>
    let f := vneg f in
    obind (jac w1 (s_X s) (s_J s)) (fun '(w2, j) =>
    obind (match s_ls s with Some l => Ok l | None => lnew j end) (fun l =>
    obind (lsolve l j f (vzero_like (s_X s))) (fun '(l', dx) =>
    Ok (Solver w2 j f (Some l') (vadd (s_X s) dx), norm2 dx))))).

  (** newton_raphson_solver_implementation.hpp:143-165 the loop; [None] when the fuel is used up. The loop returns the number
      of passes as well (printed by the code). *)
  Fixpoint nr_loop (fuel : nat) (tol : spec_float) (maxit : Z) (s : solver) (stol : spec_float) (iter : Z)
    : option (outcome (solver * Z)) :=
    match fuel with
    | O => None
    | S k =>
        if SFltb tol stol && (iter <? maxit)%Z then
          match nr_body s with
          | Ok (s', st) => nr_loop k tol maxit s' st (iter + 1)
          | Throw => Some Throw
          | UB => Some UB
          end
        else Some (Ok (s, iter))
    end.

  (** newton_raphson_solver_implementation.hpp:135-142 p_solve on the vector [x]. *)
  Definition nr_solve (fuel : nat) (tol : spec_float) (maxit : Z) (s : solver) (x : V) : option (outcome (solver * Z)) :=
    nr_loop fuel tol maxit (Solver (s_w s) (s_J s) (s_F s) (s_ls s) x) big_double 0.
End NR.
Arguments Solver {V M L W}.

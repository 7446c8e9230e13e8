(** Specification of the Newton-Raphson iteration. *)
From Verif Require Import Prelude NRModel.
From Coq Require Import Floats.SpecFloat.

Section NRSpec.
  Variables V M L W : Type.
  Variables (vzero_like vneg : V -> V) (vadd : V -> V -> V) (norm2 : V -> spec_float).
  Variable fn : W -> V -> V -> outcome (W * V).
  Variable jac : W -> V -> M -> outcome (W * M).
  Variable lnew : M -> outcome L.
  Variable lsolve : L -> M -> V -> V -> outcome (L * V).

  (** What an iteration leaves behind besides the estimate: state of the callbacks, last Jacobian and right hand side,
      linear solver if there is one. *)
  Record scene := Scene { sc_w : W; sc_J : M; sc_F : V; sc_ls : option L }.

  (** [correction a x b dx]: at the estimate [x] the linear solver answers [dx] to the system  J(x) dx = -F(x). *)
  Inductive correction (a : scene) (x : V) (b : scene) (dx : V) : Prop :=
  | Correction w1 f w2 j l l' :
      fn (sc_w a) x (sc_F a) = Ok (w1, f) ->
      jac w1 x (sc_J a) = Ok (w2, j) ->
      (sc_ls a = Some l \/ (sc_ls a = None /\ lnew j = Ok l)) ->
      lsolve l j (vneg f) (vzero_like x) = Ok (l', dx) ->
      b = Scene w2 j (vneg f) (Some l') -> correction a x b dx.

  (** [chain a x ds b]: starting from [x] the corrections [ds] are computed one after the other, each at the sum of
      the initial guess and the corrections before it. *)
  Inductive chain : scene -> V -> list V -> scene -> Prop :=
  | chain_nil a x : chain a x [] a
  | chain_cons a x d b ds c : correction a x b d -> chain b (vadd x d) ds c -> chain a x (d :: ds) c.

  (** No correction can be computed: one of the callbacks or the linear solver throws. *)
  Definition stuck (a : scene) (x : V) : Prop := forall b d, ~ correction a x b d.

  Definition scene_of (s : solver V M L W) : scene := Scene (s_w s) (s_J s) (s_F s) (s_ls s).
End NRSpec.
Arguments Scene {V M L W}.

(** The tolerance is met, in the sense of the test in the code: the norm is not greater than the tolerance. *)
Definition not_greater (norm tol : spec_float) : Prop := SFltb tol norm = false.

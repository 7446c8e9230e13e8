(** C32: the Newton-Raphson solver. *)
From Verif Require Import Prelude NRModel NRSpec NRProofs.
From Coq Require Import Floats.SpecFloat.
Open Scope Z_scope.

(** solve always ends (apart from what the callbacks and the linear solver do): the fuel of the model is never used up. *)
Theorem C32_terminates :
  forall (V M L W : Type) vz vneg vadd norm2 fn jac lnew lsolve tol maxit (s : solver V M L W) (x : V),
  exists r, forall fuel, (Z.to_nat maxit < fuel)%nat ->
    nr_solve vz vneg vadd norm2 fn jac lnew lsolve fuel tol maxit s x = Some r.
Proof.
  intros. destruct (@loop_ends V M L W vz vneg vadd norm2 fn jac lnew lsolve tol maxit (S (Z.to_nat maxit))
    (Solver (s_w s) (s_J s) (s_F s) (s_ls s) x) big_double 0%Z) as (r & Hr); [lia|lia|].
  exists r. intros fuel Hf. unfold nr_solve. eapply loop_more; [exact Hr|lia].
Qed.
Print Assumptions C32_terminates.

(** When solve returns, the vector is the initial guess plus corrections, each of them the linear solver's answer to
    J(x) dx = -F(x) at the sum so far; there are at most as many as the limit, all but the last are greater than the tolerance,
    and the last one is not, unless the limit is reached. *)
Theorem C32_on_return :
  forall (V M L W : Type) vz vneg vadd norm2 fn jac lnew lsolve fuel tol maxit (s : solver V M L W) (x : V) s' n,
  nr_solve vz vneg vadd norm2 fn jac lnew lsolve fuel tol maxit s x = Some (Ok (s', n)) ->
  exists ds, chain vz vneg vadd fn jac lnew lsolve (scene_of s) x ds (scene_of s') /\
    s_X s' = fold_left vadd ds x /\ n = Z.of_nat (length ds) /\ (Z.of_nat (length ds) <= Z.max 0 maxit)%Z /\
    (forall p d q, ds = (p ++ d :: q)%list -> q <> [] -> SFltb tol (norm2 d) = true) /\
    (forall p d, ds = (p ++ [d])%list -> not_greater (norm2 d) tol \/ Z.of_nat (length ds) = maxit) /\
    (ds = [] <-> not_greater big_double tol \/ (maxit <= 0)%Z).
Proof.
  intros * H. apply loop_ok in H. destruct H as (ds & A & B & C & D & E). exists ds.
  split; [exact A|]. split; [exact B|]. rewrite Z.add_0_l in C. split; [exact C|].
  destruct ds as [|d0 ds].
  - split; [cbn [length]; lia|]. split; [intros [|] ? ? X; discriminate|]. split; [intros [|] ? X; discriminate|].
    split; [|reflexivity]. intros _. now apply D.
  - destruct E as (E1 & E2 & E3 & E4); [discriminate|]. split; [lia|]. split; [exact E3|].
    split; [intros p d X; destruct (E4 p d X); [now left|right; lia]|].
    split; [discriminate|]. intros [X|X]; [unfold not_greater in X; congruence|cbn [length] in *; lia].
Qed.
Print Assumptions C32_on_return.
(** Not greater means at most, except for a NaN. *)
Theorem C32_within_tolerance_partial :
  forall norm tol, norm <> S754_nan -> tol <> S754_nan -> not_greater norm tol -> SFleb norm tol = true.
Proof. intros. now apply not_greater_le. Qed.
Print Assumptions C32_within_tolerance_partial.

(** An exception leaves solve only when a callback or the linear solver threw at the current estimate, before the limit and
    with all corrections so far greater than the tolerance. *)
Theorem C32_exception :
  forall (V M L W : Type) vz vneg vadd norm2 fn jac lnew lsolve fuel tol maxit (s : solver V M L W) (x : V) r,
  nr_solve vz vneg vadd norm2 fn jac lnew lsolve fuel tol maxit s x = Some r -> (forall p, r <> Ok p) ->
  exists ds b, chain vz vneg vadd fn jac lnew lsolve (scene_of s) x ds b /\
    stuck vz vneg fn jac lnew lsolve b (fold_left vadd ds x) /\ (Z.of_nat (length ds) < maxit)%Z /\
    (forall d, In d ds -> SFltb tol (norm2 d) = true).
Proof.
  intros * H N. apply loop_throw in H; [|exact N]. destruct H as (ds & b & A & B & C & D). exists ds, b.
  split; [exact A|]. split; [exact B|]. split; [lia|exact D].
Qed.
Print Assumptions C32_exception.

(** If the linear systems are solved exactly and the function is affine, the result is a root. *)
Theorem C32_affine_root :
  forall (V M L W : Type) vz vneg vadd norm2 fn jac lnew lsolve fuel tol maxit (s : solver V M L W) (x : V) s' n
         (f : V -> V) (mul : M -> V -> V) (zero : V),
  (forall y, vadd y (vneg y) = zero) ->
  (forall w y b w' r, fn w y b = Ok (w', r) -> r = f y) ->
  (forall w y j w' r, jac w y j = Ok (w', r) -> forall d, f (vadd y d) = vadd (f y) (mul r d)) ->
  (forall l j b x0 l' d, lsolve l j b x0 = Ok (l', d) -> mul j d = b) ->
  nr_solve vz vneg vadd norm2 fn jac lnew lsolve fuel tol maxit s x = Some (Ok (s', n)) -> (0 < n)%Z -> f (s_X s') = zero.
Proof.
  intros * HV HF HJ HL H Hn. apply C32_on_return in H. destruct H as (ds & A & B & C & _). rewrite B.
  eapply affine_root; eauto. intros ->. cbn in C. lia.
Qed.
Print Assumptions C32_affine_root.

(** A concrete problem: integers, F(x) = 3x - 12, the norm a float that is 1 for a non-zero correction and 0 for 0. *)
Definition ex_norm (d : Z) : spec_float := if (d =? 0)%Z then S754_zero false else S754_finite false 1 0.
Definition ex_solve (tol : spec_float) (maxit : Z) :=
  nr_solve (fun _ => 0) Z.opp Z.add ex_norm (fun w x _ => Ok (w, 3 * x - 12)) (fun w _ _ => Ok (w, 3)) (fun j : Z => Ok j)
    (fun l j b _ => Ok (l, b / j)) 9 tol maxit (Solver tt 0 0 None 0) 1.
Example C32_nonvacuous :
  ex_solve (S754_finite false 1 (-1)) 5 = Some (Ok (Solver tt 3 0 (Some 3) 4, 2)) /\
  ex_solve (S754_finite false 1 (-1)) 1 = Some (Ok (Solver tt 3 9 (Some 3) 4, 1)).
Proof. split; vm_compute; reflexivity. Qed.

(** Findings. A correction that is not a number ends the loop at once and silently: solve returns normally after the
    first of many allowed iterations with a norm that is not within any tolerance. *)
Theorem C32_nan_refuted :
  exists norm2, (exists s', nr_solve (fun _ => 0) Z.opp Z.add norm2 (fun w x _ => Ok (w, 3 * x - 12)) (fun w _ _ => Ok (w, 3))
      (fun j : Z => Ok j) (fun l j b _ => Ok (l, b / j)) 99 (S754_finite false 1 (-1)) 50 (Solver tt 0 0 None 0) 1 = Some (Ok (s', 1))) /\
    forall d, SFleb (norm2 d) (S754_finite false 1 (-1)) = false.
Proof. exists (fun _ => S754_nan). split; [eexists; vm_compute; reflexivity|reflexivity]. Qed.
Print Assumptions C32_nan_refuted.
(** A tolerance of 1e30 or more means that nothing is computed at all, although the guess is no root. *)
Theorem C32_loose_tolerance_refuted :
  exists s', ex_solve big_double 50 = Some (Ok (s', 0)) /\ s_X s' = 1 /\ 3 * s_X s' - 12 <> 0.
Proof. eexists. split; [vm_compute; reflexivity|]. split; [reflexivity|discriminate]. Qed.
Print Assumptions C32_loose_tolerance_refuted.

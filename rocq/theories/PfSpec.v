(** Specification of the power flow equations (C36) in complex numbers, and of block sizes (C37). *)
From Verif Require Import Prelude PfModel.
From Coq Require Import Reals.
From Coquelicot Require Import Complex Derive.
Open Scope R_scope.

(** The voltage at a bus from magnitude and angle, and the injected current: admittance of the bus and of the branches at its two ends. *)
Definition phasor (v a : R) : C := (v * cos a, v * sin a).
Open Scope C_scope.
Definition current (n : pnet) (V : nat -> C) (k : nat) : C :=
  ((p_G (getb n k), p_B (getb n k)) : C) * V k +
  fold_right Cplus 0 (map (fun b => (if (r_1 b =? k)%nat then ((r_Gf b, r_Bf b) : C) * V (r_2 b) else 0) +
                                    (if (r_2 b =? k)%nat then ((r_Gr b, r_Br b) : C) * V (r_1 b) else 0)) (prs n)).
(** The complex power into the network at a bus, and its mismatch: component 0 is the real, component 1 the reactive mismatch. *)
Definition power (n : pnet) (th v : nat -> R) (k : nat) : C :=
  let V := fun i => phasor (v i) (th i) in V k * Cconj (current n V k).
Open Scope R_scope.
Definition mismatch (n : pnet) (th v : nat -> R) (k c : nat) : R :=
  if (c =? 0)%nat then Re (power n th v k) - p_P0 (getb n k) else Im (power n th v k) - p_Q0 (getb n k).
Definition bump (f : nat -> R) (m : nat) (x : R) : nat -> R := fun i => if (i =? m)%nat then x else f i.
(** The state of the buses *)
Definition angle (n : pnet) (k : nat) : R := p_a (getb n k).
Definition magn (n : pnet) (k : nat) : R := p_v (getb n k).

(** Unknowns and equations of a bus: the angle and the real power at a PV bus, angle and magnitude, real and reactive power otherwise. *)
Definition unknowns (n : pnet) (k : nat) : nat := if p_pv (getb n k) then 1 else 2.
(** The Jacobian as it is assembled from the blocks (columns one after the other, see C17): row (k,c), column (m,d). *)
Definition jac (n : pnet) (k c m d : nat) : R :=
  let at_ := fun l => nth (d * unknowns n k + c) l 0 in
  (if (k =? m)%nat then at_ (diag_jac n k) else 0) +
  fold_right Rplus 0 (map (fun b => (if (r_1 b =? k)%nat && (r_2 b =? m)%nat then at_ (fwd_jac n b) else 0) +
                                    (if (r_2 b =? k)%nat && (r_1 b =? m)%nat then at_ (rev_jac n b) else 0)) (prs n)).

(** Branches join two different existing buses; branches that are not active carry nothing. *)
Definition wf_net (n : pnet) : Prop := forall b, In b (prs n) -> r_1 b <> r_2 b /\ (r_1 b < length (pbs n))%nat /\ (r_2 b < length (pbs n))%nat.
Definition inactive_zero (n : pnet) : Prop := forall b, In b (prs n) -> r_act b = false -> r_Gf b = 0 /\ r_Bf b = 0 /\ r_Gr b = 0 /\ r_Br b = 0.
(** A bus that takes part in the equations. *)
Definition solved (n : pnet) (k : nat) : Prop := (k < length (pbs n))%nat /\ p_iso (getb n k) = false /\ p_ref (getb n k) = false.

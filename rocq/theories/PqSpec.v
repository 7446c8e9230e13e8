(** Specification for reactive limits (C38), voltage angles (C39) and participation, scaling and resetting of power (C40). *)
From Verif Require Import Prelude PqModel.
From Coq Require Import Reals.
Open Scope R_scope.

(** The generators and loads in service (status 1) and totals over them. *)
Definition gens_on (u : qbus) : list gen := map snd (filter (fun p => (fst p =? 1)%Z) (combine (q_gst u) (q_gens u))).
Definition loads_on (u : qbus) : list ld := filter (fun l => (l_st l =? 1)%Z) (q_lds u).
Definition total A (f : A -> R) (l : list A) : R := fold_right Rplus 0 (map f l).
(** Every generator has a status. *)
Definition consistent (u : qbus) : Prop := length (q_gst u) = length (q_gens u).
(** The reactive power the generators of the bus have to deliver: what flows into the network plus the load. *)
Definition required (u : qbus) : R := q_Qi u * q_sb u + total l_ql (loads_on u).
(** The net injection of generators and loads, in per unit, and what setSBus makes of it. *)
Definition injection (u : qbus) : R * R :=
  ((total g_pg (gens_on u) - total l_pl (loads_on u)) / q_sb u, (total g_qg (gens_on u) - total l_ql (loads_on u)) / q_sb u).
Definition specified (u : qbus) : option (R * R) := match set_sbus u with Ok u' => Some (q_P0 u', q_Q0 u') | _ => None end.

(** The angle without wrapping: loads and resets set it, corrections are subtracted. *)
Definition track (s : R * R) (o : op) : R * R :=
  let '(a, a0) := s in
  match o with
  | OLoad d => (b_ang d * PI / 180, b_ang d * PI / 180)
  | OSetValues x _ => (a - x, a0)
  | OResetVoltage | OResetPower => (a0, a0)
  | _ => (a, a0)
  end.
Definition unwrapped (os : list op) : R := fst (fold_left track os (0, 0)).

(** A generator within its real power limits. *)
Definition within_limits (g : gen) : Prop := g_pb g <= g_pg g <= g_pt g.
(** Calls that do not set powers from outside: no load and no setGeneratorRealPower or setGeneratorStatus; scale factors between -1 and 1. *)
Definition only_scaling (o : op) : Prop :=
  match o with OLoad _ | OSetPg _ _ | OGeneratorStatus _ _ => False | OScaleGen _ v => -1 <= v <= 1 | _ => True end.
Definition no_load (o : op) : Prop := match o with OLoad _ => False | _ => True end.
(** Calls of a solution step: they change neither statuses nor generators. *)
Definition solving (o : op) : Prop :=
  match o with OSetValues _ _ | OResetVoltage | OGetVoltage | OSetSBus | ORhs _ | OChkQlim => True | _ => False end.

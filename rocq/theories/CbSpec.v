(** Specification of linear control blocks with transfer function (b0 s + b1)/(a0 s + a1). *)
From Verif Require Import Prelude CbModel.
From Coq Require Import Reals.
From Coquelicot Require Import Coquelicot.
Open Scope R_scope.

Definition inside (lo v hi : R) : Prop := lo <= v <= hi.

(** Every block a program can have after giving it the transfer function: limits set, states initialised, assigned (the member x is
    public) and updated in any order, and outputs taken. *)
Inductive made (a0 a1 b0 b1 : R) : cblock -> Prop :=
| made_set c c' : setcoeffs c a0 a1 b0 b1 = Ok c' -> made a0 a1 b0 b1 c'
| made_xlim c lo hi : made a0 a1 b0 b1 c -> made a0 a1 b0 b1 (setxlimits c lo hi)
| made_dxlim c lo hi : made a0 a1 b0 b1 c -> made a0 a1 b0 b1 (setdxlimits c lo hi)
| made_ylim c lo hi : made a0 a1 b0 b1 c -> made a0 a1 b0 b1 (setylimits c lo hi)
| made_assign c x : made a0 a1 b0 b1 c -> made a0 a1 b0 b1 (set_x c x)
| made_init c u y c' : made a0 a1 b0 b1 c -> cb_init c u y = Ok c' -> made a0 a1 b0 b1 c'
| made_init_u c u c' y : made a0 a1 b0 b1 c -> init_given_u c u = Ok (c', y) -> made a0 a1 b0 b1 c'
| made_init_y c u c' y : made a0 a1 b0 b1 c -> init_given_y c y = Ok (c', u) -> made a0 a1 b0 b1 c'
| made_out c u dt xlo xhi ylo yhi st b c' y : made a0 a1 b0 b1 c ->
    getoutput_lim c u dt xlo xhi ylo yhi st b = Ok (c', y) -> made a0 a1 b0 b1 c'
| made_dout c u dt xlo xhi dlo dhi ylo yhi st b c' y : made a0 a1 b0 b1 c ->
    getoutput_dlim c u dt xlo xhi dlo dhi ylo yhi st b = Ok (c', y) -> made a0 a1 b0 b1 c'.

(** One integration step as the applications do it: output and state update in the predictor with input [u0], then in the
    corrector with input [u1]. *)
Definition step (c : cblock) (u0 u1 dt : R) : outcome (cblock * R * R) :=
  obind (getoutput c u0 dt PREDICTOR true) (fun '(c, y0) =>
  obind (getoutput c u1 dt CORRECTOR true) (fun '(c, y1) => Ok (c, y0, y1))).
(** Several steps with constant input [u], one for each time step of the list; all outputs are collected. *)
Fixpoint hold (c : cblock) (u : R) (dts : list R) : outcome (cblock * list R) :=
  match dts with
  | [] => Ok (c, [])
  | dt :: r => obind (step c u u dt) (fun '(c, y0, y1) => obind (hold c u r) (fun '(c, ys) => Ok (c, y0 :: y1 :: ys)))
  end.
(** Any calls of getoutput(u, dt, stage, dostateupdate). *)
Fixpoint calls (c : cblock) (l : list (R * R * stage * bool)) : outcome (cblock * list R) :=
  match l with
  | [] => Ok (c, [])
  | (u, dt, st, b) :: r => obind (getoutput c u dt st b) (fun '(c, y) => obind (calls c r) (fun '(c, ys) => Ok (c, y :: ys)))
  end.

(** The differential equation of the transfer function: a0 y' + a1 y = b0 u' + b1 u at time [t]. *)
Definition obeys (a0 a1 b0 b1 : R) (u y : R -> R) (t du : R) : Prop :=
  exists dy, is_derive y t dy /\ a0 * dy + a1 * y t = b0 * du + b1 * u t.

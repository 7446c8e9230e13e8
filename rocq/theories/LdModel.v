(** The voltage dependent static load of a dynamic simulation:
    /repo/src/applications/modules/dynamic_simulation_full_y/model_classes/ieel.cpp.  Doubles are real numbers and ComplexType is a pair
    of them (rounding, overflow and NaN are not modelled); abs is the absolute value.  A division by a voltage of zero is not modelled:
    the theorems ask for voltages other than zero. *)
From Verif Require Import Prelude.
From Coq Require Import Reals Lra.
From Coquelicot Require Import Complex.
Open Scope R_scope.

(** The three shares of the active (a1, a2, a3) or the reactive power (a4, a5, a6), their exponents (n1, n2, n3 or n4, n5, n6) and the
    factor of the frequency (a7 or a8) *)
Record mix := Mix { sh1 : R; sh2 : R; sh3 : R; ex1 : R; ex2 : R; ex3 : R; fq : R }.
(** What the data collection holds for one of the two powers ([None]: getValue fails) *)
Record mdata := Md { ds1 : option R; ds2 : option R; ds3 : option R; de1 : option R; de2 : option R; de3 : option R; df : option R }.
(** ieel.cpp:89-127 "if (!data->getValue(key, &a)) a = 0.0" *)
Definition get (d : option R) : R := match d with Some r => r | None => 0 end.
(** ieel.cpp:73-132 load for the active or the reactive power, which are read alike; [comp] is ibCMPL == 1: the third share is the rest
    and the third exponent is zero.  The copies of the load in the base class and the printing are left out. *)
Definition load (comp : bool) (d : mdata) : mix :=
  if comp then Mix (get (ds1 d)) (get (ds2 d)) (1 - get (ds1 d) - get (ds2 d)) (get (de1 d)) (get (de2 d)) 0 (get (df d))
  else Mix (get (ds1 d)) (get (ds2 d)) (get (ds3 d)) (get (de1 d)) (get (de2 d)) (get (de3 d)) (get (df d)).

(** ieel.cpp:159-170 and 172-183: the check of the shares.  Every assignment uses the values that the ones before it left. *)
Definition shares (a b c : R) : R * R * R :=
  if Rlt_dec 0 (a + b + c) then
    if Rlt_dec (1 / 1000000) (Rabs (a + b + c - 1)) then
      let a' := a / (a + b + c) in
      let b' := b / (a' + b + c) in
      let c' := c / (a' + b' + c) in (a', b', c')
    else (1, 0, 0)
  else (a, b, c).
Definition checked (m : mix) : mix :=
  let '(a, b, c) := shares (sh1 m) (sh2 m) (sh3 m) in Mix a b c (ex1 m) (ex2 m) (ex3 m) (fq m).

(** The state after init: P0, Q0, vt_init, nortonY and the two mixes *)
Record ieel := Ie { p0 : R; q0 : R; vinit : R; ynort : C; mp : mix; mq : mix }.
(** ieel.cpp:139-184 init; [pl], [ql] are the load in MW and MVAr (p_pl, p_ql), [mag] the voltage *)
Definition init (pl ql mag : R) (m n : mix) : ieel :=
  let P := pl / 100 in let Q := ql / 100 in
  Ie P Q mag (P / mag / mag, - Q / mag / mag) (checked m) (checked n).

(** ieel.cpp:223-232: the factors kp and ki (Vsmin_pu and Vimin_pu are 0.7, ieel.cpp:60-61) *)
Definition kp (vt : R) : R := if Rlt_dec vt (7 / 10) then 1 / 2 * (1 - cos (4 * atan 1 * vt / (7 / 10))) else 1.
Definition ki (vt : R) : R := if Rlt_dec vt (7 / 10) then sin (4 * atan 1 * vt / 2 / (7 / 10)) else 1.
(** ieel.cpp:234-235: P or Q; [v] is vt / vt_init *)
Definition power (s0 vt v freq : R) (m : mix) : R :=
  s0 * (sh1 m * Rpower v (ex1 m) + ki vt * sh2 m * Rpower v (ex2 m) + kp vt * sh3 m * Rpower v (ex3 m)) * (1 + fq m * (freq - 1)).
(** ieel.cpp:211-242 predictor_currentInjection and 257-288 corrector_currentInjection (the same text): p_INorton; [V] is vt_complex *)
Definition injection (s : ieel) (freq : R) (V : C) : C :=
  let vt := Cmod V in
  let v := vt / vinit s in
  let equiv := (vt * vt * Cconj (ynort s))%C in
  let pq := (power (p0 s) vt v freq (mp s), power (q0 s) vt v freq (mq s)) in
  Cconj ((equiv - pq) / V)%C.

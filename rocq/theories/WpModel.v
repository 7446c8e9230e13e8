(** The pitch controller of a wind turbine, /repo/src/applications/modules/dynamic_simulation_full_y/model_classes/wtpta1.cpp, and its
    call in the converter model regca1.cpp (regcb1.cpp and regcc1.cpp alike).  Doubles are real numbers; the blocks are those of
    CbModel.v. *)
From Verif Require Import Prelude CbModel.
From Coq Require Import Reals.
Open Scope R_scope.

(** What the data collection holds ([None]: getValue fails) *)
Record pdata := Pd { dKcc : option R; dKiw : option R; dKpw : option R; dKic : option R; dKpc : option R; dMax : option R; dMin : option R;
                     dRmax : option R; dRmin : option R; dTp : option R }.
(** wtpta1.cpp:55-64 "if (!data->getValue(key, &v, idx)) v = 0.0" *)
Definition pget (d : option R) : R := match d with Some r => r | None => 0 end.
(** A controller: pitchcomp_blk, pitchctrl_blk, lag_blk, Kcc, Theta *)
Record pitch := Pt { pcomp : cblock; pctrl : cblock; plag : cblock; pkcc : R; ptheta : R }.
(** wtpta1.cpp:51-70 load *)
Definition pitch_load (d : pdata) : outcome pitch :=
  obind (with_xy (pi_setparams pi_new (pget (dKpc d)) (pget (dKic d))) (pget (dMin d)) (pget (dMax d)) (-1000) 1000) (fun b1 =>
  obind (with_xy (pi_setparams pi_new (pget (dKpw d)) (pget (dKiw d))) (pget (dMin d)) (pget (dMax d)) (-1000) 1000) (fun b2 =>
  obind (with_xdy (filter_setparams filter_new 1 (pget (dTp d))) (pget (dMin d)) (pget (dMax d)) (pget (dRmin d)) (pget (dRmax d)) (-1000) 1000) (fun b3 =>
  Ok (Pt b1 b2 b3 (pget (dKcc d)) 0)))).
(** wtpta1.cpp:78-86 init after setTheta(theta0) (wtpta1.cpp:158-161, called by regca1.cpp:252) *)
Definition pitch_init (p : pitch) (theta0 : R) : outcome pitch :=
  obind (init_given_y (plag p) theta0) (fun '(b3, cmd) =>
  obind (init_given_y (pcomp p) 0) (fun '(b1, _) =>
  obind (init_given_y (pctrl p) cmd) (fun '(b2, _) => Ok (Pt b1 b2 b3 (pkcc p) theta0)))).
(** wtpta1.cpp:88-96 computeModel *)
Definition pitch_compute (p : pitch) (pord pord0 dw omref dt : R) (st : stage) : outcome pitch :=
  obind (getoutput (pcomp p) (pord - pord0) dt st true) (fun '(b1, y1) =>
  obind (getoutput (pctrl p) (1 + dw - omref + pkcc p * (pord - pord0)) dt st true) (fun '(b2, y2) =>
  obind (getoutput (plag p) (y1 + y2) dt st true) (fun '(b3, y) => Ok (Pt b1 b2 b3 (pkcc p) y)))).
(** regca1.cpp:330-351, 395-409: the local variable Pref_plant is set by a plant controller alone ([None] without one) *)
Definition pitch_stage (p : pitch) (plant : option R) (pord dw omref dt : R) (st : stage) : outcome pitch :=
  obind (rd plant) (fun pord0 => pitch_compute p pord pord0 dw omref dt st).

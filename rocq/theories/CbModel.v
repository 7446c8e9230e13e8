(** Model of the linear control blocks: applications/modules/dynamic_simulation_full_y/cblock.cpp and cblock.hpp.
    Doubles are real numbers (rounding, overflow and NaN are not modelled). Memory that was not written is [None];
    reading it is undefined behaviour. *)
From Verif Require Import Prelude.
From Coq Require Import Reals.
Open Scope R_scope.

(** std::max and std::min *)
Definition cmax (a b : R) : R := if Rlt_dec a b then b else a.
Definition cmin (a b : R) : R := if Rlt_dec b a then b else a.
Definition clamp (lo v hi : R) : R := cmax lo (cmin v hi).
Definition rd (v : option R) : outcome R := match v with Some r => Ok r | None => UB end.

(** base_integration_stage / cblock.hpp IntegrationStage *)
Inductive stage := PREDICTOR | CORRECTOR.

(** cblock.hpp:72-88,145 the data members *)
Record cblock := Cb { cA : option R; cB : option R; cC : option R; cD : option R; dxdt : option R; xhat : option R; cx : option R;
                      xmin : R; xmax : R; ymin : R; ymax : R; dxmin : R; dxmax : R; cur : stage }.
Definition set_abcd (c : cblock) a b cc d := Cb a b cc d (dxdt c) (xhat c) (cx c) (xmin c) (xmax c) (ymin c) (ymax c) (dxmin c) (dxmax c) (cur c).
Definition set_x (c : cblock) x := Cb (cA c) (cB c) (cC c) (cD c) (dxdt c) (xhat c) (Some x) (xmin c) (xmax c) (ymin c) (ymax c) (dxmin c) (dxmax c) (cur c).

(** cblock.cpp:4-10 Cblock::Cblock *)
Definition cb_new : cblock := Cb None None None None None None None (-1000) 1000 (-1000) 1000 (-1000) 1000 PREDICTOR.

(** cblock.cpp:24-34 setcoeffs *)
Definition setcoeffs (c : cblock) (a0 a1 b0 b1 : R) : outcome cblock :=
  if Req_EM_T a0 0 then Throw
  else Ok (set_abcd c (Some (- a1 / a0)) (Some (b1 / a0 - a1 * b0 / (a0 * a0))) (Some 1) (Some (b0 / a0))).
(** cblock.cpp:36-54 setxlimits, setdxlimits, setylimits *)
Definition setxlimits (c : cblock) lo hi := Cb (cA c) (cB c) (cC c) (cD c) (dxdt c) (xhat c) (cx c) lo hi (ymin c) (ymax c) (dxmin c) (dxmax c) (cur c).
Definition setdxlimits (c : cblock) lo hi := Cb (cA c) (cB c) (cC c) (cD c) (dxdt c) (xhat c) (cx c) (xmin c) (xmax c) (ymin c) (ymax c) lo hi (cur c).
Definition setylimits (c : cblock) lo hi := Cb (cA c) (cB c) (cC c) (cD c) (dxdt c) (xhat c) (cx c) (xmin c) (xmax c) lo hi (dxmin c) (dxmax c) (cur c).

(** cblock.cpp:56-59 getderivative *)
Definition getderivative (c : cblock) (x u : R) : outcome R :=
  obind (rd (cA c)) (fun a => obind (rd (cB c)) (fun b => Ok (a * x + b * u))).

(** cblock.cpp:61-82 updatestate with limits; the arguments dxmin and dxmax are not used by the code. *)
Definition updatestate_lim (c : cblock) (u dt lo hi dlo dhi : R) (st : stage) : outcome cblock :=
  match st with
  | PREDICTOR =>
      obind (rd (cx c)) (fun x => obind (getderivative c x u) (fun d =>
      let d := clamp (dxmin c) d (dxmax c) in
      let xout := clamp lo (x + dt * d) hi in
      Ok (Cb (cA c) (cB c) (cC c) (cD c) (Some d) (Some xout) (cx c) (xmin c) (xmax c) (ymin c) (ymax c) (dxmin c) (dxmax c) PREDICTOR)))
  | CORRECTOR =>
      obind (rd (xhat c)) (fun xh => obind (getderivative c xh u) (fun d =>
      obind (rd (dxdt c)) (fun d0 => obind (rd (cx c)) (fun x =>
      let d := clamp (dxmin c) (0.5 * (d0 + d)) (dxmax c) in
      let xout := clamp lo (x + dt * d) hi in
      Ok (Cb (cA c) (cB c) (cC c) (cD c) (dxdt c) (xhat c) (Some xout) (xmin c) (xmax c) (ymin c) (ymax c) (dxmin c) (dxmax c) CORRECTOR)))))
  end.
(** cblock.cpp:84-87 updatestate *)
Definition updatestate (c : cblock) (u dt : R) (st : stage) : outcome cblock :=
  updatestate_lim c u dt (xmin c) (xmax c) (dxmin c) (dxmax c) st.

(** The state read by an output: x in the predictor, xhat in the corrector. *)
Definition stage_x (c : cblock) (st : stage) : outcome R := match st with PREDICTOR => rd (cx c) | CORRECTOR => rd (xhat c) end.
Definition raw_output (c : cblock) (st : stage) (u lo hi : R) : outcome R :=
  obind (stage_x c st) (fun x => obind (rd (cC c)) (fun cc => obind (rd (cD c)) (fun d => Ok (clamp lo (cc * x + d * u) hi)))).
(** cblock.cpp:89-100 getoutput(u) *)
Definition getoutput1 (c : cblock) (u : R) : outcome R := raw_output c (cur c) u (ymin c) (ymax c).
(** cblock.cpp:102-119 getoutput(u,dt,xmin,xmax,ymin,ymax,stage,dostateupdate) *)
Definition getoutput_lim (c : cblock) (u dt xlo xhi ylo yhi : R) (st : stage) (upd : bool) : outcome (cblock * R) :=
  obind (raw_output c st u ylo yhi) (fun y =>
  if upd then obind (updatestate_lim c u dt xlo xhi (dxmin c) (dxmax c) st) (fun c' => Ok (c', y)) else Ok (c, y)).
(** cblock.cpp:121-131 getoutput(u,dt,xmin,xmax,dxmin,dxmax,ymin,ymax,stage,dostateupdate) *)
Definition getoutput_dlim (c : cblock) (u dt xlo xhi dlo dhi ylo yhi : R) (st : stage) (upd : bool) : outcome (cblock * R) :=
  getoutput_lim (setdxlimits c dlo dhi) u dt xlo xhi ylo yhi st upd.
(** cblock.cpp:134-141 getoutput(u,dt,stage,dostateupdate) *)
Definition getoutput (c : cblock) (u dt : R) (st : stage) (upd : bool) : outcome (cblock * R) :=
  getoutput_lim c u dt (xmin c) (xmax c) (ymin c) (ymax c) st upd.

Definition tiny : R := / 10000000000.
(** Division by zero is not an exception for doubles: it gives an infinity or a NaN, which is outside the model (UB here). *)
Definition rdiv (a b : R) : outcome R := if Req_EM_T b 0 then UB else Ok (a / b).
(** cblock.cpp:143-151 init *)
Definition cb_init (c : cblock) (u y : R) : outcome cblock :=
  obind (rd (cA c)) (fun a =>
  if Rlt_dec (Rabs a) tiny then Ok (set_x c y)
  else obind (rd (cB c)) (fun b => obind (rd (cC c)) (fun cc => obind (rd (cD c)) (fun d =>
       obind (rdiv y (d - cc * b / a)) (fun uout => Ok (set_x c (- b / a * uout))))))).
(** cblock.cpp:153-167 init_given_u *)
Definition init_given_u (c : cblock) (u : R) : outcome (cblock * R) :=
  obind (rd (cB c)) (fun b => obind (rd (cA c)) (fun a => obind (rd (cD c)) (fun d =>
  if Rlt_dec (Rabs b) tiny then Ok (set_x c 0, d * u)
  else if Rlt_dec (Rabs a) tiny then Ok (set_x c 0, d * u)
  else obind (rd (cC c)) (fun cc => let x := - b / a * u in Ok (set_x c x, cc * x + d * u))))).
(** cblock.cpp:169-180 init_given_y *)
Definition init_given_y (c : cblock) (y : R) : outcome (cblock * R) :=
  obind (rd (cA c)) (fun a =>
  if Rlt_dec (Rabs a) tiny then Ok (set_x c y, 0)
  else obind (rd (cB c)) (fun b => obind (rd (cC c)) (fun cc => obind (rd (cD c)) (fun d =>
       obind (rdiv y (d - cc * b / a)) (fun u => Ok (set_x c (- b / a * u), u)))))).
(** cblock.cpp:183-189 getstate *)
Definition getstate (c : cblock) (st : stage) : outcome R := match st with PREDICTOR => rd (xhat c) | CORRECTOR => rd (cx c) end.

(** cblock.cpp:195-237 PIControl: constructor and setparams (the two forms with limits are setparams followed by the setters). *)
Definition default_limits (c : cblock) : cblock := setylimits (setdxlimits (setxlimits c (-1000) 1000) (-1000) 1000) (-1000) 1000.
Definition pi_new : cblock := default_limits cb_new.
Definition pi_setparams (c : cblock) (kp ki : R) : outcome cblock := obind (setcoeffs c 1 0 kp ki) (fun c => Ok (default_limits c)).
(** cblock.cpp:244-285 Filter *)
Definition filter_new : cblock := default_limits cb_new.
Definition filter_setparams (c : cblock) (k t : R) : outcome cblock := obind (setcoeffs c t 1 0 k) (fun c => Ok (default_limits c)).
(** cblock.cpp:292-331 LeadLag *)
Definition leadlag_new : cblock := default_limits cb_new.
Definition leadlag_setparams (c : cblock) (ta tb : R) : outcome cblock := obind (setcoeffs c tb 1 ta 1) (fun c => Ok (default_limits c)).
(** cblock.cpp:339-367 Integrator: setparams leaves the rate limits alone. *)
Definition integrator_new : cblock := cb_new.
Definition integrator_setparams (c : cblock) (t : R) : outcome cblock :=
  obind (setcoeffs c t 0 0 1) (fun c => Ok (setylimits (setxlimits c (-1000) 1000) (-1000) 1000)).
(** The forms of setparams with limits (cblock.cpp:224-237, 272-285, 318-331, 363-367). *)
Definition with_xy (c : outcome cblock) (xlo xhi ylo yhi : R) : outcome cblock :=
  obind c (fun c => Ok (setylimits (setxlimits c xlo xhi) ylo yhi)).
Definition with_xdy (c : outcome cblock) (xlo xhi dlo dhi ylo yhi : R) : outcome cblock :=
  obind c (fun c => Ok (setylimits (setdxlimits (setxlimits c xlo xhi) dlo dhi) ylo yhi)).
Definition with_x (c : outcome cblock) (xlo xhi : R) : outcome cblock := obind c (fun c => Ok (setxlimits c xlo xhi)).

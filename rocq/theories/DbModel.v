(** Model of the nonlinear control blocks: applications/modules/dynamic_simulation_full_y/dblock.cpp and dblock.hpp, over the real
    numbers; memory that was not written is [None]. *)
From Verif Require Import Prelude CbModel.
From Coq Require Import Reals.
Open Scope R_scope.

(** ** GainLimiter *)
(** dblock.hpp:104-112; the constructor (dblock.cpp:7-9) writes nothing. p_dt is never used. *)
Record gain := Gain { gK : option R; gymin : option R; gymax : option R; gdymin : option R; gdymax : option R; gprev : option R }.
Definition gain_new : gain := Gain None None None None None None.
(** dblock.cpp:11-16 setparams *)
Definition gain_set3 (g : gain) (k lo hi : R) : gain := Gain (Some k) (Some lo) (Some hi) (gdymin g) (gdymax g) (gprev g).
(** dblock.cpp:18-27 setparams with rate limits *)
Definition gain_set5 (g : gain) (k lo hi dlo dhi : R) : gain := Gain (Some k) (Some lo) (Some hi) (Some (Rabs dlo)) (Some dhi) (Some 100000).
(** dblock.cpp:29-36 getoutput(u) *)
Definition gain_out (g : gain) (u : R) : outcome R :=
  obind (rd (gymin g)) (fun lo => obind (rd (gK g)) (fun k => obind (rd (gymax g)) (fun hi => Ok (clamp lo (k * u) hi)))).
(** dblock.cpp:38-48 getoutput(u,ymin,ymax) *)
Definition gain_out_lim (g : gain) (u lo hi : R) : outcome (gain * R) :=
  let g := Gain (gK g) (Some lo) (Some hi) (gdymin g) (gdymax g) (gprev g) in obind (gain_out g u) (fun y => Ok (g, y)).
(** dblock.cpp:50-69 getoutput(u,dt,isupdate) *)
Definition gain_out_rate (g : gain) (u dt : R) (isupdate : bool) : outcome (gain * R) :=
  obind (gain_out g u) (fun y =>
  obind (rd (gprev g)) (fun p =>
  let p := if Req_EM_T p 100000 then y else p in
  obind (rd (gdymax g)) (fun dhi => obind (rd (gdymin g)) (fun dlo =>
  let out := clamp (p - dlo * dt) y (p + dhi * dt) in
  Ok (Gain (gK g) (gymin g) (gymax g) (gdymin g) (gdymax g) (Some (if isupdate then out else p)), out))))).

(** ** Slope *)
(** dblock.hpp:165-171 *)
Record slope := Slope { su0 : R; su1 : R; sy0 : R; sy1 : R; sya : R; syb : R; sdydu : option R }.
(** dblock.cpp:77-84 the constructor leaves the slope unset. *)
Definition slope_new : slope := Slope 0 1 0 0 0 0 None.
(** dblock.cpp:86-96 setparams; a division by zero is outside the model. *)
Definition slope_set (u0 u1 y0 y1 ya yb : R) : outcome slope :=
  obind (rdiv (y1 - y0) (u1 - u0)) (fun d => Ok (Slope u0 u1 y0 y1 ya yb (Some d))).
Definition close5 : R := / 100000.
(** dblock.cpp:98-107 getoutput *)
Definition slope_out (s : slope) (u : R) : outcome R :=
  if Rlt_dec (u - su0 s) close5 then Ok (sya s)
  else if Rlt_dec (su1 s - u) close5 then Ok (syb s)
  else obind (rd (sdydu s)) (fun d => Ok (sy0 s + d * (u - su0 s))).

(** ** Deadband *)
Definition close6 : R := / 1000000.
(** dblock.cpp:113-132 setparams stores the limits, getoutput *)
Definition dead_out (u1 u2 u : R) : R := if Rlt_dec close6 (u - u1) then if Rlt_dec close6 (u2 - u) then 0 else u else u.

(** ** PiecewiseSlope *)
(** dblock.hpp:280-286; the arrays have 5, 5 and 4 entries; p_u and p_y are not initialised. *)
Record pw := Pw { pu : list (option R); py : list (option R); psl : list slope; pn : nat; pinc : bool }.
(** dblock.cpp:138-142 *)
Definition pw_new : pw := Pw (repeat None 5) (repeat None 5) (repeat slope_new 4) 0 true.
Definition arr (l : list (option R)) (i : nat) : outcome R := match nth_error l i with Some v => rd v | None => UB end.
Definition arr_put {A} (l : list A) (i : nat) (v : A) : outcome (list A) := if (i <? length l)%nat then Ok (upd l i v) else UB.
Definition inp (l : list R) (i : nat) : outcome R := match nth_error l i with Some v => Ok v | None => UB end.
(** dblock.cpp:153-164 the loop over the segments; [k] passes, starting with segment [i]. *)
Fixpoint pw_loop (uin yin : list R) (k i : nat) (p : pw) : outcome pw :=
  match k with
  | O => Ok p
  | S k =>
      obind (inp uin i) (fun ui => obind (inp uin (S i)) (fun ui1 =>
      if (if pinc p then if Rlt_dec ui ui1 then true else false else if Rlt_dec ui1 ui then true else false) then
        obind (inp yin i) (fun yi => obind (inp yin (S i)) (fun yi1 =>
        obind (arr_put (pu p) (pn p) (Some ui)) (fun u1 => obind (arr_put u1 (S (pn p)) (Some ui1)) (fun u2 =>
        obind (arr_put (py p) (pn p) (Some yi)) (fun y1 => obind (arr_put y1 (S (pn p)) (Some yi1)) (fun y2 =>
        obind (slope_set ui ui1 yi yi1 yi yi1) (fun s => obind (arr_put (psl p) (pn p) s) (fun sl =>
        pw_loop uin yin k (S i) (Pw u2 y2 sl (S (pn p)) (pinc p))))))))))
      else pw_loop uin yin k (S i) p))
  end.
(** dblock.cpp:144-165 setparams(n,uin,yin): n - 1 segments are visited; p_n is not reset. *)
Definition pw_set (p : pw) (n : nat) (uin yin : list R) : outcome pw :=
  obind (inp uin 1) (fun u1 => obind (inp uin 0) (fun u0 =>
  pw_loop uin yin (n - 1) 0 (Pw (pu p) (py p) (psl p) (pn p) (if Rlt_dec u0 u1 then true else false)))).
(** dblock.cpp:177-181 the loop of getoutput; [acc] is yout, [None] while it is not assigned. *)
Fixpoint pw_out_loop (p : pw) (u : R) (k i : nat) (acc : option R) : outcome (option R) :=
  match k with
  | O => Ok acc
  | S k =>
      obind (arr (pu p) i) (fun a =>
      if Rle_dec a u then
        obind (arr (pu p) (S i)) (fun b =>
        if Rle_dec u b then
          match nth_error (psl p) i with None => UB | Some s => obind (slope_out s u) (fun y => pw_out_loop p u k (S i) (Some y)) end
        else pw_out_loop p u k (S i) acc)
      else pw_out_loop p u k (S i) acc)
  end.
(** dblock.cpp:172-175 the four tests before the loop *)
Definition pw_ends (p : pw) (u : R) : outcome (option R) :=
  obind (arr (pu p) 0) (fun u0 => obind (arr (pu p) (pn p)) (fun un =>
  if pinc p then
    if Rle_dec un u then obind (arr (py p) (pn p)) (fun y => Ok (Some y))
    else if Rle_dec u u0 then obind (arr (py p) 0) (fun y => Ok (Some y)) else Ok None
  else
    if Rle_dec u un then obind (arr (py p) (pn p)) (fun y => Ok (Some y))
    else if Rle_dec u0 u then obind (arr (py p) 0) (fun y => Ok (Some y)) else Ok None)).
(** dblock.cpp:167-184 getoutput; returning yout when nothing was assigned to it is undefined. *)
Definition pw_out (p : pw) (u : R) : outcome R :=
  obind (pw_ends p u) (fun acc => obind (pw_out_loop p u (pn p) 0 acc) rd).
(** dblock.cpp:196-200 the loop of init_given_y *)
Fixpoint pw_inv_loop (p : pw) (y : R) (k i : nat) (acc : option R) : outcome (option R) :=
  match k with
  | O => Ok acc
  | S k =>
      obind (arr (py p) i) (fun a =>
      if Rle_dec a y then
        obind (arr (py p) (S i)) (fun b =>
        if Rle_dec y b then
          obind (arr (pu p) i) (fun ua => obind (arr (pu p) (S i)) (fun ub =>
          obind (rdiv (ub - ua) (b - a)) (fun q => pw_inv_loop p y k (S i) (Some (ua + q * (y - a))))))
        else pw_inv_loop p y k (S i) acc)
      else pw_inv_loop p y k (S i) acc)
  end.
(** dblock.cpp:186-203 init_given_y *)
Definition pw_init (p : pw) (y : R) : outcome R :=
  obind (arr (py p) 0) (fun y0 => obind (arr (py p) (pn p)) (fun yn =>
  obind (if pinc p then
    if Rle_dec yn y then obind (arr (pu p) (pn p)) (fun u => Ok (Some u))
    else if Rle_dec y y0 then obind (arr (pu p) 0) (fun u => Ok (Some u)) else Ok None
  else
    if Rle_dec y yn then obind (arr (pu p) (pn p)) (fun u => Ok (Some u))
    else if Rle_dec y0 y then obind (arr (pu p) 0) (fun u => Ok (Some u)) else Ok None) (fun acc =>
  obind (pw_inv_loop p y (pn p) 0 acc) rd))).

(** ** Gates *)
(** dblock.cpp:214-227 LVGate and 238-251 HVGate: setparams stores the limit. *)
Definition lv_out (lim u : R) : R := if Rlt_dec lim u then lim else u.
Definition hv_out (lim u : R) : R := if Rlt_dec u lim then lim else u.

(** The blocks that governor, plant and converter models are built from:
    /repo/src/applications/modules/dynamic_simulation_full_y/model_classes DelayBlock, DelayBlockwithLimit, LeadLagBlock,
    PIBlockwithLimit, BackLashClass, DBIntClass (.cpp).  Doubles are real numbers (rounding, overflow and NaN are not modelled); abs is
    the absolute value. *)
From Verif Require Import Prelude.
From Coq Require Import Reals Lra.
Open Scope R_scope.

(** The state of a block: x0, x1, dx0, dx1 *)
Record blk := Blk { b_x0 : R; b_x1 : R; b_d0 : R; b_d1 : R }.
(** DelayBlockwithLimit.cpp:73-74, 89-90, PIBlockwithLimit.cpp:77-82, 97-102: "if (v > Max) v = Max; if (v < Min) v = Min;" *)
Definition lim (mx mn v : R) : R := let v' := if Rlt_dec mx v then mx else v in if Rlt_dec v' mn then mn else v'.
(** DelayBlockwithLimit.cpp:86-87, PIBlockwithLimit.cpp:86-92: "if (d > 0 && x >= Max) d = 0; if (d < 0 && x <= Min) d = 0;" *)
Definition stop_at (mx mn x d : R) : R :=
  let d' := if Rlt_dec 0 d then (if Rle_dec mx x then 0 else d) else d in if Rlt_dec d' 0 then (if Rle_dec x mn then 0 else d') else d'.
(** DelayBlock.cpp:85 and alike, the end of every corrector: x1 = x0 + (dx0 + dx1) / 2 * t_inc *)
Definition heun (s : blk) (d1 h : R) : blk := Blk (b_x0 s) (b_x0 s + (b_d0 s + d1) / 2 * h) (b_d0 s) d1.
(** DelayBlock.cpp:51-53 and alike: "if (!flag) x0 = x1" *)
Definition start_of (flag : bool) (s : blk) : R := if flag then b_x0 s else b_x1 s.

(** DelayBlock.cpp:35-88 init, predictor, corrector: the result and the new state *)
Definition delay_init (y : R) : R * blk := (y, Blk y y 0 0).
Definition delay_pred (Ts inp h : R) (flag : bool) (s : blk) : R * blk :=
  let x := start_of flag s in
  let x0 := if Rlt_dec Ts (4 * h) then inp else x in
  let d := if Rlt_dec Ts (4 * h) then 0 else (inp - x) / Ts in
  (x0, Blk x0 (x0 + d * h) d (b_d1 s)).
Definition delay_corr (Ts inp h : R) (s : blk) : R * blk :=
  let x1 := if Rlt_dec Ts (4 * h) then inp else b_x1 s in
  let d := if Rlt_dec Ts (4 * h) then 0 else (inp - b_x1 s) / Ts in
  (x1, heun s d h).

(** DelayBlockwithLimit.cpp:36-54 init: the limits kept (Max, Min) and the state *)
Definition dlim_init (y mx mn : R) : R * R * (R * blk) :=
  (if Rlt_dec mx y then y + 1 / 10 else mx, if Rlt_dec y mn then y - 1 / 10 else mn, (y, Blk y y 0 0)).
(** DelayBlockwithLimit.cpp:56-133 predictor, corrector *)
Definition dlim_pred (Ts mx mn inp h : R) (flag : bool) (s : blk) : R * blk :=
  let x := start_of flag s in
  let x0 := lim mx mn (if Rlt_dec Ts (4 * h) then inp else x) in
  let d := stop_at mx mn x0 (if Rlt_dec Ts (4 * h) then 0 else (inp - x0) / Ts) in
  (lim mx mn x0, Blk x0 (x0 + d * h) d (b_d1 s)).
Definition dlim_corr (Ts mx mn inp h : R) (s : blk) : R * blk :=
  let x1 := lim mx mn (if Rlt_dec Ts (4 * h) then inp else b_x1 s) in
  let d := stop_at mx mn x1 (if Rlt_dec Ts (4 * h) then 0 else (inp - x1) / Ts) in
  (lim mx mn x1, heun s d h).

(** LeadLagBlock.cpp:37-106 init, predictor, corrector *)
Definition ll_init (y T1 T2 h : R) : R * blk :=
  let x := if Rlt_dec T1 (4 * h) then 0 else y * (1 - T2 / T1) in (y, Blk x x 0 0).
Definition ll_pred (T1 T2 inp h : R) (flag : bool) (s : blk) : R * blk :=
  let x0 := start_of flag s in
  let d := if Rlt_dec T1 (4 * h) then 0 else (inp * (1 - T2 / T1) - x0) / T1 in
  (if Rlt_dec T1 (4 * h) then inp else inp * T2 / T1 + x0, Blk x0 (x0 + d * h) d (b_d1 s)).
Definition ll_corr (T1 T2 inp h : R) (s : blk) : R * blk :=
  let d := if Rlt_dec T1 (4 * h) then 0 else (inp * (1 - T2 / T1) - b_x1 s) / T1 in
  (if Rlt_dec T1 (4 * h) then inp else inp * T2 / T1 + b_x1 s, heun s d h).

(** PIBlockwithLimit.cpp:40-149 init, predictor, corrector *)
Definition tiny : R := 1 / 100000.
Definition pi_init (y Kp Ki : R) : R * blk := if Rlt_dec tiny Ki then (0, Blk y y 0 0) else (y / Kp, Blk 0 0 0 0).
Definition pi_pred (Kp Ki mx mn inp h : R) (flag : bool) (s : blk) : R * blk :=
  let x := start_of flag s in
  let x0 := if Rlt_dec Ki tiny then x else lim (mx - Kp * inp) (mn - Kp * inp) x in
  let d := if Rlt_dec Ki tiny then 0 else stop_at (mx - Kp * inp) (mn - Kp * inp) x0 (Ki * inp) in
  (lim mx mn (inp * Kp + x0), Blk x0 (x0 + d * h) d (b_d1 s)).
Definition pi_corr (Kp Ki mx mn inp h : R) (s : blk) : R * blk :=
  let x1 := if Rlt_dec Ki tiny then b_x1 s else lim (mx - Kp * inp) (mn - Kp * inp) (b_x1 s) in
  let d := if Rlt_dec Ki tiny then 0 else stop_at (mx - Kp * inp) (mn - Kp * inp) x1 (Ki * inp) in
  (lim mx mn (inp * Kp + x1), heun s d h).

(** A history of calls: predictor (with its flag) or corrector, each with an input and a time step *)
Inductive call := Pred (inp h : R) (flag : bool) | Corr (inp h : R).
Definition step (pred : R -> R -> bool -> blk -> R * blk) (corr : R -> R -> blk -> R * blk) (c : call) (s : blk) : R * blk :=
  match c with Pred u h f => pred u h f s | Corr u h => corr u h s end.
Fixpoint outputs (pred : R -> R -> bool -> blk -> R * blk) (corr : R -> R -> blk -> R * blk) (cs : list call) (s : blk) : list R :=
  match cs with
  | [] => []
  | c :: r => let o := step pred corr c s in fst o :: outputs pred corr r (snd o)
  end.
(** n time steps of a delay block with a constant input *)
Fixpoint delay_steps (Ts inp h : R) (n : nat) (s : blk) : blk :=
  match n with O => s | S k => delay_steps Ts inp h k (snd (delay_corr Ts inp h (snd (delay_pred Ts inp h false s)))) end.

(** BackLashClass.cpp:49-62 Output: the result, which is the new LastOutput *)
Definition backlash (db last inp : R) : R :=
  if Rle_dec (last - db) inp then if Rle_dec inp (last + db) then last
    else if Rlt_dec (last + db) inp then inp - db else inp - db
  else if Rlt_dec (last + db) inp then inp - db else inp - db.
Fixpoint backlash_all (db last : R) (us : list R) : list R :=
  match us with [] => [] | u :: r => let o := backlash db last u in o :: backlash_all db o r end.

(** DBIntClass.cpp:40-49 Initialize: Db1 and Eps kept, State is 0 *)
Definition db_init (db eps : R) : R * R := (Rabs db, if Rlt_dec (Rabs db) (Rabs eps) then Rabs db else Rabs eps).
Definition req (a b : R) : bool := if Req_EM_T a b then true else false.
Definition rle (a b : R) : bool := if Rle_dec a b then true else false.
(** DBIntClass.cpp:54-121 Output: the result and the new State.  With 0 < Eps < Db1 the variable Result is read before it has a value *)
Definition db_output (db eps init : R) (state : nat) (a : R) : outcome (R * nat) :=
  let u := a - init in
  obind (
    if rle (Rabs u) db && (req eps 0 || (state =? 0)%nat) then Ok (0, state)
    else if req eps 0 then Ok (if Rlt_dec db u then u - db else u + db, state)
    else if req db eps then
      if rle db u then Ok (u, 1%nat)
      else if rle u (- db) then Ok (u, 2%nat)
      else if (state =? 1)%nat then Ok (if Rlt_dec 0 u then (u, 1%nat) else (0, 0%nat))
      else if (state =? 2)%nat then Ok (if Rlt_dec u 0 then (u, 2%nat) else (0, 0%nat))
      else UB
    else UB) (fun r => Ok (fst r + init, snd r)).
Fixpoint db_all (db eps init : R) (state : nat) (us : list R) : outcome (list R) :=
  match us with
  | [] => Ok []
  | u :: r => obind (db_output db eps init state u) (fun o => obind (db_all db eps init (snd o) r) (fun l => Ok (fst o :: l)))
  end.

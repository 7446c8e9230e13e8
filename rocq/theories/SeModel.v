(** Model of state estimation: applications/components/se_matrix/se_components.cpp (measurement functions, their Jacobian, weights and the update of
    the buses) and the equations formed in applications/modules/state_estimation/se_app_module.cpp:333-387.
    Doubles are real numbers; a quotient by zero is the one of the reals, the theorems exclude it. The electrical part of buses and branches (flags,
    admittances, voltages) is held in the records of PfModel, which the SE classes duplicate; the fields for injections are not used. All neighbour lists
    are local to one process (ghost buses hold the exchanged voltages). *)
From Verif Require Import Prelude PfModel.
From Coq Require Import Reals.
Open Scope R_scope.

(** se_components.hpp:33-44 Measurement, and the types accepted by se_app_module.cpp:68-83. *)
Inductive mtype := VM | VA | PI_ | QI_ | PJ_ | QJ_ | PIJ | QIJ | IIJ | PJI | QJI | IJI.
Record meas := Meas { m_type : mtype; m_ckt : string; m_val : R; m_dev : R }.
(** The parallel vectors of SEBranch: tag, resistance, reactance, tap ratio, phase shift, charging. *)
Record selem := SEl { q_tag : string; q_r : R; q_x : R; q_tap : R; q_ph : R; q_chg : R }.
(** SEBus: electrical part, what getShuntGsBs (1129-1135) gives for the conductance, measurements. *)
Record sbus := SBus { s_bus : pbus; s_gs : R; s_bmeas : list meas }.
(** SEBranch: electrical part with p_active, elements, measurements. *)
Record sbr := SBr { s_br : pbr; s_els : list selem; s_rmeas : list meas }.
Record snet := SNet { sbs : list sbus; srs : list sbr }.

Definition sbus0 : sbus := SBus bus0 0 [].
Definition sget (n : snet) (k : nat) : sbus := nth k (sbs n) sbus0.
Definition iso (n : snet) (k : nat) : bool := p_iso (s_bus (sget n k)).
Definition rf (n : snet) (k : nat) : bool := p_ref (s_bus (sget n k)).
Definition vm (n : snet) (k : nat) : R := p_v (s_bus (sget n k)).
Definition va (n : snet) (k : nat) : R := p_a (s_bus (sget n k)).
Definition b1 (b : sbr) : nat := r_1 (s_br b).
Definition b2 (b : sbr) : nat := r_2 (s_br b).
(** getNeighborBranches: the branches with an end at the bus. *)
Definition near (n : snet) (k : nat) : list sbr := filter (fun b => at_bus k (s_br b)) (srs n).
(** both ends not isolated (873-874, 1241-1242, 1782-1783) *)
Definition live (n : snet) (b : sbr) : bool := negb (iso n (b1 b)) && negb (iso n (b2 b)).
(** the bus at the other end (871-880) *)
Definition other (k : nat) (b : sbr) : nat := if (b1 b =? k)%nat then b2 b else b1 b.
(** getForwardYBus at bus 1, getReverseYBus otherwise (878-887) *)
Definition ymut (k : nat) (b : sbr) : R * R := if (b1 b =? k)%nat then (r_Gf (s_br b), r_Bf (s_br b)) else (r_Gr (s_br b), r_Br (s_br b)).
(** se_components.cpp:1565-1585 getVTheta when both ends are not isolated *)
Definition vth (n : snet) (k : nat) (b : sbr) : R * R :=
  if (b1 b =? k)%nat then (vm n (b2 b), va n (b1 b) - va n (b2 b)) else (vm n (b1 b), va n (b2 b) - va n (b1 b)).

(** An element of the Jacobian: the bus and the position among its columns (matrixGetColIndex) and the value. *)
Definition entry : Type := (nat * nat) * R.
(** The two columns of a bus: angle and magnitude, only the magnitude for the reference bus. *)
Definition cols2 (n : snet) (k : nat) (dth dv : R) : list entry :=
  if rf n k then [((k, 0%nat), dv)] else [((k, 0%nat), dth); ((k, 1%nat), dv)].

(** se_components.cpp:862-921 (PI) and 922-983 (QI): elements of the neighbours, then of the bus itself. *)
Definition pi_row (n : snet) (k : nat) : list entry :=
  let v0 := vm n k in
  let l := filter (live n) (near n k) in
  let ret1 := sumR (map (fun b => let '(v, t) := vth n k b in let '(g, y) := ymut k b in v0 * v * (- g * sin t + y * cos t)) l) in
  let ret2 := sumR (map (fun b => let '(v, t) := vth n k b in let '(g, y) := ymut k b in v * (g * cos t + y * sin t)) l) + 2 * v0 * p_G (s_bus (sget n k)) in
  (flat_map (fun b => let '(v, t) := vth n k b in let '(g, y) := ymut k b in
     cols2 n (other k b) (v0 * v * (g * sin t - y * cos t)) (v0 * (g * cos t + y * sin t))) l ++ cols2 n k ret1 ret2)%list.
Definition qi_row (n : snet) (k : nat) : list entry :=
  let v0 := vm n k in
  let l := filter (live n) (near n k) in
  let ret1 := sumR (map (fun b => let '(v, t) := vth n k b in let '(g, y) := ymut k b in v0 * v * (g * cos t + y * sin t)) l) in
  let ret2 := sumR (map (fun b => let '(v, t) := vth n k b in let '(g, y) := ymut k b in v * (g * sin t - y * cos t)) l) - 2 * v0 * p_B (s_bus (sget n k)) in
  (flat_map (fun b => let '(v, t) := vth n k b in let '(g, y) := ymut k b in
     cols2 n (other k b) (v0 * v * (- g * cos t - y * sin t)) (v0 * (g * sin t - y * cos t))) l ++ cols2 n k ret1 ret2)%list.
Definition bus_row (n : snet) (k : nat) (m : meas) : list entry :=
  match m_type m with
  | VM => cols2 n k 0 1
  | VA => cols2 n k 1 0
  | PI_ => pi_row n k
  | QI_ => qi_row n k
  | _ => []
  end.
(** se_components.cpp:811-1018 SEBus::matrixGetValues in mode Jacobian_H: the elements written, in the rows of the bus's measurements. *)
Definition bus_rows (n : snet) (k : nat) : list (list entry) := if iso n k then [] else map (bus_row n k) (s_bmeas (sget n k)).

(** se_components.cpp:1059-1112: the sum over the neighbours in the residual of PI and QI. [st] holds the variables v and theta, declared outside the
    loop over the measurements; getVTheta leaves them alone when an end is isolated, and they are not initialised. *)
Fixpoint inj_sum (q : bool) (n : snet) (k : nat) (l : list sbr) (st : option (R * R)) (acc : R) : outcome (R * option (R * R)) :=
  match l with
  | [] => Ok (acc, st)
  | b :: l =>
      let st := if live n b then Some (vth n k b) else st in
      match st with
      | None => UB
      | Some (v, t) => let '(g, y) := ymut k b in
          inj_sum q n k l st (acc + (if q then v * (g * sin t - y * cos t) else v * (g * cos t + y * sin t)))
      end
  end.
(** se_components.cpp:1041-1119 SEBus::vectorGetElementValues: the values in the order they are written. *)
Fixpoint bus_res (n : snet) (k : nat) (ms : list meas) (st : option (R * R)) : outcome (list R) :=
  match ms with
  | [] => Ok []
  | m :: ms =>
      match m_type m with
      | VM => obind (bus_res n k ms st) (fun r => Ok (m_val m - vm n k :: r))
      | VA => obind (bus_res n k ms st) (fun r => Ok (m_val m - va n k :: r))
      | PI_ => obind (inj_sum false n k (near n k) st 0) (fun x => obind (bus_res n k ms (snd x)) (fun r =>
                Ok (m_val m - (fst x + vm n k * p_G (s_bus (sget n k))) * vm n k :: r)))
      | QI_ => obind (inj_sum true n k (near n k) st 0) (fun x => obind (bus_res n k ms (snd x)) (fun r =>
                Ok (m_val m - (fst x - vm n k * p_B (s_bus (sget n k))) * vm n k :: r)))
      | _ => bus_res n k ms st
      end
  end.
Definition bus_resid (n : snet) (k : nat) : outcome (list R) := if iso n k then Ok [] else bus_res n k (s_bmeas (sget n k)) None.

(** ** Branches *)
(** real and imaginary part of 1/(r + jx) (1811-1815) *)
Definition g_of (e : selem) : R := q_r e / (q_r e * q_r e + q_x e * q_x e).
Definition b_of (e : selem) : R := - q_x e / (q_r e * q_r e + q_x e * q_x e).
(** 1816-1822 *)
Definition t_of (e : selem) : R := if Req_EM_T (q_tap e) 0 then 1 else q_tap e.
Definition s_of (e : selem) : R := if Req_EM_T (q_tap e) 0 then 0 else q_ph e.
Definition matching (b : sbr) (m : meas) : list selem := filter (fun e => String.eqb (q_tag e) (m_ckt m)) (s_els b).

(** se_components.cpp:1806-2129: the elements for one transmission element and one measurement. *)
Definition el_row (n : snet) (b : sbr) (ty : mtype) (e : selem) : list entry :=
  let v1 := vm n (b1 b) in let v2 := vm n (b2 b) in let th := va n (b1 b) - va n (b2 b) in
  let gs1 := s_gs (sget n (b1 b)) in let gs2 := s_gs (sget n (b2 b)) in
  let g := g_of e in let y := b_of e in let t := t_of e in let s := s_of e in let B := / 2 * q_chg e in
  match ty with
  | PIJ => (cols2 n (b1 b) (1 / t * v1 * v2 * (g * sin (th + s) - y * cos (th + s))) (-1 / t * v2 * (g * cos (th + s) + y * sin (th + s)) + 2 * (g + gs1) * v1 / (t * t)) ++
            cols2 n (b2 b) (-1 / t * v1 * v2 * (g * sin (th + s) - y * cos (th + s))) (-1 / t * v1 * (g * cos (th + s) + y * sin (th + s))))%list
  | QIJ => (cols2 n (b1 b) (-1 / t * v1 * v2 * (g * cos (th + s) + y * sin (th + s))) (-1 / t * v2 * (g * sin (th + s) - y * cos (th + s)) - 2 / (t * t) * (y + B) * v1) ++
            cols2 n (b2 b) (1 / t * v1 * v2 * (g * cos (th + s) + y * sin (th + s))) (-1 / t * v1 * (g * sin (th + s) - y * cos (th + s))))%list
  | IIJ => let Iij := sqrt ((g * g + y * y) * (v1 * v1 + v2 * v2 - 2 * v1 * v2 * cos th)) in
           let d := if Req_EM_T (q_tap e) 0 then 1 else q_tap e * q_tap e in
           let g' := g / d in let y' := y / d in
           (cols2 n (b1 b) ((g * g + y * y) * v1 * v2 * sin th / Iij) ((g * g + y * y) * (v1 - v2 * cos th) / Iij) ++
            cols2 n (b2 b) (- (g' * g' + y' * y') * v1 * v2 * sin th / Iij) ((g' * g' + y' * y') * (v2 - v1 * cos th) / Iij))%list
  | PJI => (cols2 n (b1 b) (-1 / t * v1 * v2 * (g * sin (- th - s) - y * cos (- th - s))) (-1 / t * v2 * (g * cos (- th - s) + y * sin (- th - s))) ++
            cols2 n (b2 b) (1 / t * v1 * v2 * (g * sin (- th - s) - y * cos (- th - s))) (-1 / t * v1 * (g * cos (- th - s) + y * sin (- th - s)) + 2 * (g + gs2) * v2))%list
  | QJI => (cols2 n (b1 b) (1 / t * v1 * v2 * (g * cos (- th - s) + y * sin (- th - s))) (-1 / t * v2 * (g * sin (- th - s) - y * cos (- th - s))) ++
            cols2 n (b2 b) (-1 / t * v1 * v2 * (g * cos (- th - s) + y * sin (- th - s))) (-1 / t * v1 * (g * sin (- th - s) - y * cos (- th - s)) - 2 * (y + B) * v2))%list
  | _ => []
  end.
Definition br_row (n : snet) (b : sbr) (m : meas) : list entry :=
  if r_act (s_br b) then flat_map (el_row n b (m_type m)) (matching b m) else [].
(** se_components.cpp:1778-2138 SEBranch::matrixGetValues in mode Jacobian_H *)
Definition br_rows (n : snet) (b : sbr) : list (list entry) := if live n b then map (br_row n b) (s_rmeas b) else [].

(** se_components.cpp:2260, 2281, 2325, 2346: power at the two ends *)
Definition fP (n : snet) (b : sbr) (e : selem) : R :=
  let v1 := vm n (b1 b) in let v2 := vm n (b2 b) in let a := va n (b1 b) - va n (b2 b) + s_of e in
  v1 * v1 * g_of e / (t_of e * t_of e) - 1 / t_of e * v1 * v2 * (g_of e * cos a + b_of e * sin a).
Definition fQ (n : snet) (b : sbr) (e : selem) : R :=
  let v1 := vm n (b1 b) in let v2 := vm n (b2 b) in let a := va n (b1 b) - va n (b2 b) + s_of e in
  - v1 * v1 * (b_of e + / 2 * q_chg e) / (t_of e * t_of e) - 1 / t_of e * v1 * v2 * (g_of e * sin a - b_of e * cos a).
Definition rP (n : snet) (b : sbr) (e : selem) : R :=
  let v1 := vm n (b1 b) in let v2 := vm n (b2 b) in let a := - (va n (b1 b) - va n (b2 b)) - s_of e in
  v2 * v2 * g_of e - 1 / t_of e * v1 * v2 * (g_of e * cos a + b_of e * sin a).
Definition rQ (n : snet) (b : sbr) (e : selem) : R :=
  let v1 := vm n (b1 b) in let v2 := vm n (b2 b) in let a := - (va n (b1 b) - va n (b2 b)) - s_of e in
  - v2 * v2 * (b_of e + / 2 * q_chg e) - 1 / t_of e * v1 * v2 * (g_of e * sin a - b_of e * cos a).
(** se_components.cpp:2214-2354 SEBranch::vectorGetElementValues; [ret1] and [ret2] are declared outside the loop and overwritten by every matching
    element. *)
Definition last_of (f : selem -> R) (l : list selem) (r : R) : R := fold_left (fun _ e => f e) l r.
Fixpoint br_res (n : snet) (b : sbr) (ms : list meas) (ret1 ret2 : R) : list R :=
  match ms with
  | [] => []
  | m :: ms =>
      let l := matching b m in
      match m_type m with
      | PIJ => let ret1 := last_of (fP n b) l ret1 in m_val m - ret1 :: br_res n b ms ret1 ret2
      | QIJ => let ret2 := last_of (fQ n b) l ret2 in m_val m - ret2 :: br_res n b ms ret1 ret2
      | IIJ => let ret1 := last_of (fP n b) l ret1 in let ret2 := last_of (fQ n b) l ret2 in
               m_val m - sqrt (ret1 * ret1 + ret2 * ret2) / vm n (b1 b) :: br_res n b ms ret1 ret2
      | PJI => let ret1 := last_of (rP n b) l ret1 in m_val m - ret1 :: br_res n b ms ret1 ret2
      | QJI => let ret2 := last_of (rQ n b) l ret2 in m_val m - ret2 :: br_res n b ms ret1 ret2
      | _ => br_res n b ms ret1 ret2
      end
  end.
Definition br_resid (n : snet) (b : sbr) : list R := if live n b then br_res n b (s_rmeas b) 0 0 else [].

(** ** Sizes *)
(** columns counted for a bus (578-582, 592-602, 1635-1644) *)
Definition ncol (n : snet) (k : nat) : nat := if rf n k then 1 else 2.
(** se_components.cpp:567-607 SEBus::configureSE: matrixNumValues in mode Jacobian_H *)
Definition bus_count (n : snet) (k : nat) : nat :=
  sumn (map (fun m => match m_type m with
                      | VM | VA => ncol n k
                      | PI_ | QI_ => sumn (map (fun b => ncol n (other k b)) (near n k)) + ncol n k
                      | _ => 0
                      end%nat) (s_bmeas (sget n k))).
(** se_components.cpp:1612-1651 SEBranch::configureSE *)
Definition br_count (n : snet) (b : sbr) : nat :=
  if live n b then
    sumn (map (fun m => match m_type m with
                        | PIJ | QIJ | IIJ | PJI | QJI | IJI => sumn (map (fun _ => ncol n (b1 b) + ncol n (b2 b)) (matching b m))
                        | _ => 0
                        end%nat) (s_rmeas b))
  else 0%nat.
(** se_components.cpp:663-700 matrixNumCols in mode Jacobian_H; getNeighborBuses gives the other ends. *)
Definition nonempty {A} (l : list A) : bool := match l with [] => false | _ => true end.
Definition num_cols (n : snet) (k : nat) : nat :=
  if nonempty (s_bmeas (sget n k)) || existsb (fun b => nonempty (s_bmeas (sget n (other k b))) || nonempty (s_rmeas b)) (near n k)
  then if iso n k then 0 else ncol n k
  else 0.
(** se_components.cpp:126-142 vectorSize in mode Voltage *)
Definition vec_elems (n : snet) (k : nat) : nat := if iso n k then 0 else if rf n k then 1 else 2.
(** se_components.cpp:654, 1657 matrixNumRows: all the measurements *)
Definition bus_num_rows (n : snet) (k : nat) : nat := length (s_bmeas (sget n k)).
Definition br_num_rows (b : sbr) : nat := length (s_rmeas b).

(** se_components.cpp:1019-1033, 2139-2151: the weights, one for each measurement (only written when not isolated) *)
Definition weight (m : meas) : R := if Req_EM_T (m_dev m) 0 then 0 else 1 / (m_dev m * m_dev m).
Definition bus_weights (n : snet) (k : nat) : list R := if iso n k then [] else map weight (s_bmeas (sget n k)).
Definition br_weights (n : snet) (b : sbr) : list R := if live n b then map weight (s_rmeas b) else [].

(** se_components.cpp:165-182 setValues in mode Voltage; [None]: fewer values than are read *)
Definition with_va (u : sbus) (v a : R) : sbus :=
  let p := s_bus u in SBus (PBus (p_iso p) (p_ref p) (p_pv p) (p_G p) (p_B p) v a (p_P0 p) (p_Q0 p) (p_Pi p) (p_Qi p)) (s_gs u) (s_bmeas u).
Definition set_volt (u : sbus) (x : list R) : option sbus :=
  if p_iso (s_bus u) then Some u else
  match x with
  | [] => None
  | d :: x => if p_ref (s_bus u) then Some (with_va u (p_v (s_bus u) + d) (p_a (s_bus u)))
              else match x with [] => None | e :: _ => Some (with_va u (p_v (s_bus u) + e) (p_a (s_bus u) + d)) end
  end.

(** ** The equations of one iteration (se_app_module.cpp:337-387) *)
(** the coefficient of a column in a row: elements at the same place are added (gen_matrix_map) *)
Definition coef (row : list entry) (c : nat * nat) : R :=
  sumR (map (fun e : entry => if (fst (fst e) =? fst c)%nat && (snd (fst e) =? snd c)%nat then snd e else 0) row).
(** All rows of the measurement equation: elements, weight and residual, buses first. The values of a component are taken in the order its
    measurements are listed; the rows that a component leaves without a value are not part of this list (the theorems ask for components that write
    all their rows). *)
Definition zip3 (a : list (list entry)) (w r : list R) : list (list entry * R * R) := combine (combine a w) r.
Fixpoint all_ok {A} (l : list (outcome A)) : outcome (list A) :=
  match l with [] => Ok [] | x :: l => obind x (fun a => obind (all_ok l) (fun r => Ok (a :: r))) end.
Definition equations (n : snet) : outcome (list (list entry * R * R)) :=
  obind (all_ok (map (bus_resid n) (iota (length (sbs n))))) (fun rs =>
  Ok (concat (map (fun kr => zip3 (bus_rows n (fst kr)) (bus_weights n (fst kr)) (snd kr)) (combine (iota (length (sbs n))) rs)) ++
      concat (map (fun b => zip3 (br_rows n b) (br_weights n b) (br_resid n b)) (srs n)))%list).
(** trans(H) * Rinv * Ez and trans(H) * Rinv * H at given columns *)
Definition rhs_at (eqs : list (list entry * R * R)) (c : nat * nat) : R := sumR (map (fun q => coef (fst (fst q)) c * snd (fst q) * snd q) eqs).
Definition gain_at (eqs : list (list entry * R * R)) (c d : nat * nat) : R :=
  sumR (map (fun q => coef (fst (fst q)) c * snd (fst q) * coef (fst (fst q)) d) eqs).
(** The columns of the Jacobian, and the solution [x] of the linear system (LinearSolver). *)
Definition columns (n : snet) : list (nat * nat) := concat (map (fun k => map (fun i => (k, i)) (iota (num_cols n k))) (iota (length (sbs n)))).
Definition solves (n : snet) (eqs : list (list entry * R * R)) (x : nat * nat -> R) : Prop :=
  forall c, In c (columns n) -> sumR (map (fun d => gain_at eqs c d * x d) (columns n)) = rhs_at eqs c.

(** ** Loading elements (se_components.cpp:1277-1306), from the values of the data collection (all present) *)
Definition load_x (x : R) : R :=
  if Rlt_dec x (1 / 100000) then if Rle_dec 0 x then 1 / 100000 else if Rlt_dec (- (1 / 100000)) x then - (1 / 100000) else x else x.
Definition load_sel (tag : string) (r x tap deg chg : R) : selem := SEl tag r (load_x x) tap (- deg * (4 * atan 1) / 180) chg.

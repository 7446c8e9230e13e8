(** Model of the power flow components: applications/components/pf_matrix/pf_components.cpp, without LARGE_MATRIX (line 35 has it commented out).
    Doubles are real numbers. Buses and branches are held in lists and refer to each other by position; the neighbour branches of a bus are those with
    an end at it. *)
From Verif Require Import Prelude.
From Coq Require Import Reals.
Open Scope R_scope.

(** PFBus: isolated, reference and PV flags, diagonal admittance (p_ybusr, p_ybusi), voltage magnitude and angle (p_v and the exchange buffer, which hold
    the same value; the angle is the one in the buffer), specified injections and p_Pinj, p_Qinj. *)
Record pbus := PBus { p_iso : bool; p_ref : bool; p_pv : bool; p_G : R; p_B : R; p_v : R; p_a : R; p_P0 : R; p_Q0 : R; p_Pi : R; p_Qi : R }.
(** PFBranch: its buses, p_active, the forward and reverse admittance and p_theta. *)
Record pbr := PBr { r_1 : nat; r_2 : nat; r_act : bool; r_Gf : R; r_Bf : R; r_Gr : R; r_Br : R; r_th : R }.
Record pnet := PNet { pbs : list pbus; prs : list pbr }.

Definition bus0 : pbus := PBus false false false 0 0 0 0 0 0 0 0.
Definition getb (n : pnet) (k : nat) : pbus := nth k (pbs n) bus0.
Definition sumR (l : list R) : R := fold_right Rplus 0 l.

(** pf_components.cpp:2203-2230 getPQ for the bus at position [k], with the angle difference [th] it stores in p_theta. *)
Definition theta_now (n : pnet) (b : pbr) : R := p_a (getb n (r_1 b)) - p_a (getb n (r_2 b)).
Definition getPQ (n : pnet) (b : pbr) (k : nat) : R * R :=
  let v1 := p_v (getb n (r_1 b)) in let v2 := p_v (getb n (r_2 b)) in
  let th := theta_now n b in
  if (k =? r_1 b)%nat then
    let cs := cos th in let sn := sin th in
    (v1 * v2 * (r_Gf b * cs + r_Bf b * sn), v1 * v2 * (r_Gf b * sn - r_Bf b * cs))
  else
    let cs := cos (- th) in let sn := sin (- th) in
    (v1 * v2 * (r_Gr b * cs + r_Br b * sn), v1 * v2 * (r_Gr b * sn - r_Br b * cs)).
Definition at_bus (k : nat) (b : pbr) : bool := (k =? r_1 b)%nat || (k =? r_2 b)%nat.
Definition set_inj (u : pbus) (P Q : R) : pbus := PBus (p_iso u) (p_ref u) (p_pv u) (p_G u) (p_B u) (p_v u) (p_a u) (p_P0 u) (p_Q0 u) P Q.
Definition set_th (b : pbr) (t : R) : pbr := PBr (r_1 b) (r_2 b) (r_act b) (r_Gf b) (r_Bf b) (r_Gr b) (r_Br b) t.

(** pf_components.cpp:1529-1602 rhsValues of bus [k]: the values, and the network after it (p_Pinj and p_Qinj of the bus, p_theta of its branches). *)
Definition rhs_bus (n : pnet) (k : nat) : list R * pnet :=
  let u := getb n k in
  if p_iso u then ([], n) else if p_ref u then ([], n) else
  let near := filter (at_bus k) (prs n) in
  let P := sumR (map (fun b => fst (getPQ n b k)) near) + p_v u * p_v u * p_G u in
  let Q := sumR (map (fun b => snd (getPQ n b k)) near) + p_v u * p_v u * (- p_B u) in
  let vals := if p_pv u then [P - p_P0 u] else [P - p_P0 u; Q - p_Q0 u] in
  (vals, PNet (upd (pbs n) k (set_inj u P Q)) (map (fun b => if at_bus k b then set_th b (theta_now n b) else b) (prs n))).
(** All buses in turn, as the vector mapper does in mode RHS. *)
Definition rhs_all (n : pnet) : pnet := fold_left (fun n k => snd (rhs_bus n k)) (iota (length (pbs n))) n.

(** pf_components.cpp:1471-1512 diagonalJacobianValues *)
Definition diag_jac (n : pnet) (k : nat) : list R :=
  let u := getb n k in
  if p_iso u then [] else
  if negb (p_ref u) && negb (p_pv u) then
    [- p_Qi u - p_B u * p_v u * p_v u; p_Pi u - p_G u * p_v u * p_v u; p_Pi u / p_v u + p_G u * p_v u; p_Qi u / p_v u - p_B u * p_v u]
  else if negb (p_ref u) && p_pv u then [- p_Qi u - p_B u * p_v u * p_v u]
  else [].
Definition br_ok (n : pnet) (b : pbr) : bool :=
  negb (p_ref (getb n (r_1 b))) && negb (p_ref (getb n (r_2 b))) && negb (p_iso (getb n (r_1 b))) && negb (p_iso (getb n (r_2 b))) && r_act b.
(** pf_components.cpp:2529-2602 forwardJacobianValues *)
Definition fwd_jac (n : pnet) (b : pbr) : list R :=
  if br_ok n b then
    let cs := cos (r_th b) in let sn := sin (r_th b) in
    let pv1 := p_pv (getb n (r_1 b)) in let pv2 := p_pv (getb n (r_2 b)) in
    let v1 := p_v (getb n (r_1 b)) in let v2 := p_v (getb n (r_2 b)) in
    if pv1 && pv2 then [(r_Gf b * sn - r_Bf b * cs) * (v1 * v2)]
    else if pv1 then [(r_Gf b * sn - r_Bf b * cs) * (v1 * v2); (r_Gf b * cs + r_Bf b * sn) * v1]
    else if pv2 then [(r_Gf b * sn - r_Bf b * cs) * (v1 * v2); (r_Gf b * cs + r_Bf b * sn) * - (v1 * v2)]
    else [(r_Gf b * sn - r_Bf b * cs) * (v1 * v2); (r_Gf b * cs + r_Bf b * sn) * - (v1 * v2);
          (r_Gf b * cs + r_Bf b * sn) * v1; (r_Gf b * sn - r_Bf b * cs) * v1]
  else [].
(** pf_components.cpp:2604-2677 reverseJacobianValues *)
Definition rev_jac (n : pnet) (b : pbr) : list R :=
  if br_ok n b then
    let cs := cos (- r_th b) in let sn := sin (- r_th b) in
    let pv1 := p_pv (getb n (r_1 b)) in let pv2 := p_pv (getb n (r_2 b)) in
    let v1 := p_v (getb n (r_1 b)) in let v2 := p_v (getb n (r_2 b)) in
    if pv1 && pv2 then [(r_Gr b * sn - r_Br b * cs) * (v1 * v2)]
    else if pv1 then [(r_Gr b * sn - r_Br b * cs) * (v1 * v2); (r_Gr b * cs + r_Br b * sn) * - (v1 * v2)]
    else if pv2 then [(r_Gr b * sn - r_Br b * cs) * (v1 * v2); (r_Gr b * cs + r_Br b * sn) * v2]
    else [(r_Gr b * sn - r_Br b * cs) * (v1 * v2); (r_Gr b * cs + r_Br b * sn) * - (v1 * v2);
          (r_Gr b * cs + r_Br b * sn) * v2; (r_Gr b * sn - r_Br b * cs) * v2]
  else [].

(** ** Sizes *)
(** pf_components.hpp:30 *)
Inductive mode := YBus | Jacobian | RHS | S_Cal | State.
(** What a size function does: no contribution, a size, or true without having set the size. *)
Inductive sz := NoSize | Size (r c : nat) | Unset.
(** pf_components.cpp:78-106 matrixDiagSize (mode YBus: ymatrix_components.cpp:56-65) *)
Definition diag_size (m : mode) (u : pbus) : sz :=
  match m with
  | Jacobian => if p_iso u then NoSize else if p_ref u then NoSize else if p_pv u then Size 1 1 else Size 2 2
  | YBus => if p_iso u then NoSize else Size 1 1
  | _ => Unset
  end.
(** pf_components.cpp:1881-1926 matrixForwardSize (mode YBus: ymatrix_components.cpp:275-293) *)
Definition fwd_size (m : mode) (n : pnet) (b : pbr) : sz :=
  match m with
  | Jacobian =>
      if br_ok n b then
        let pv1 := p_pv (getb n (r_1 b)) in let pv2 := p_pv (getb n (r_2 b)) in
        if pv1 && pv2 then Size 1 1 else if pv1 then Size 1 2 else if pv2 then Size 2 1 else Size 2 2
      else NoSize
  | YBus => if r_act b && (negb (p_iso (getb n (r_1 b))) && negb (p_iso (getb n (r_2 b)))) then Size 1 1 else NoSize
  | _ => NoSize
  end.
(** pf_components.cpp:1927-1972 matrixReverseSize *)
Definition rev_size (m : mode) (n : pnet) (b : pbr) : sz :=
  match m with
  | Jacobian =>
      if br_ok n b then
        let pv1 := p_pv (getb n (r_1 b)) in let pv2 := p_pv (getb n (r_2 b)) in
        if pv1 && pv2 then Size 1 1 else if pv1 then Size 2 1 else if pv2 then Size 1 2 else Size 2 2
      else NoSize
  | YBus => if r_act b && (negb (p_iso (getb n (r_1 b))) && negb (p_iso (getb n (r_2 b)))) then Size 1 1 else NoSize
  | _ => NoSize
  end.
(** pf_components.cpp:150-176 vectorSize *)
Definition vec_size (m : mode) (u : pbus) : option nat :=
  match m with
  | RHS | State => if p_iso u then None else if p_ref u then None else if p_pv u then Some 1%nat else Some 2%nat
  | S_Cal => Some 1%nat
  | _ => Some 2%nat
  end.
(** pf_components.cpp:209-225 vectorValues (real): how many values are written, [None] when it returns false *)
Definition vec_values (m : mode) (n : pnet) (k : nat) : option (list R) :=
  match m with
  | State => Some [p_v (getb n k); p_a (getb n k)]
  | RHS => match fst (rhs_bus n k) with [] => None | l => Some l end
  | _ => None
  end.
(** pf_components.cpp:362-383 setValues (real), on the unwrapped angle: [None] is a read past the end of the values *)
Definition set_values (u : pbus) (vals : list R) : option (R * R) :=
  match vals with
  | [] => None
  | x :: r => if p_pv u then Some (p_a u - x, p_v u) else match r with y :: _ => Some (p_a u - x, p_v u - y) | [] => None end
  end.

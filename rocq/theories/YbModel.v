(** Model of the admittance matrix components: applications/components/y_matrix/ymatrix_components.cpp.
    Doubles are real numbers and ComplexType is a pair of them (rounding, infinities and NaN are not modelled; the theorems
    ask for non-zero impedances). Memory that was not written is [None]. The exchange of component data between processes,
    printing and the optional USE_ACOPF code are not modelled. *)
From Verif Require Import Prelude.
From Coq Require Import Reals.
From Coquelicot Require Import Complex.
Open Scope R_scope.

(** ymatrix_components.hpp: the parallel vectors of a branch, one entry per transmission element *)
Record elem := Elem { etag : string; eR : R; eX : R; etap : R; eshift : R; eB : R; eG1 : R; eB1 : R; eG2 : R; eB2 : R;
                      exform : bool; eshunt : bool; estat : bool; eswitch : bool }.
(** A branch: the two buses (positions in the list of buses), p_active and the elements. *)
Record ybranch := Yb { yb1 : nat; yb2 : nat; yact : bool; yel : list elem }.
(** A bus: p_isolated, p_shunt, p_shunt_gs, p_shunt_bs *)
Record ybus := Bus { yiso : bool; ysh : bool; ygs : R; ybs : R }.

(** ** Loading *)
(** What the data collection holds for one element ([None]: getValue fails). *)
Record edata := Ed { dX : option R; dR : option R; dShift : option R; dTap : option R; dCkt : option string; dStat : option Z; dSw : option bool;
                     dB : option R; dG1 : option R; dB1 : option R; dG2 : option R; dB2 : option R }.
(** getValue(key,&v): the old value of v stays if there is no such key. *)
Definition look (d : option R) (v : option R) : option R := match d with Some r => Some r | None => v end.
Definition has (d : option R) : bool := match d with Some _ => true | None => false end.
(** push_back of a variable that was never assigned *)
Definition val (v : option R) : outcome R := match v with Some r => Ok r | None => UB end.
(** ymatrix_components.cpp:474-518 one pass of the loop; [rvar] is the variable of that name, [svar] the string. Result: the element,
    whether p_active is set, and the variables after the pass. *)
Definition load_elem (d : edata) (rvar : option R) (svar : string) : outcome (elem * bool * option R * string) :=
  let pi := 4 * atan 1 in
  let xform := has (dX d) in
  let rvar := look (dX d) rvar in
  obind (val rvar) (fun x =>
  let rvar := if xform then look (dR d) rvar else rvar in
  let xform := xform && has (dR d) in
  obind (val rvar) (fun r =>
  let shift := match dShift d with Some v => v | None => 0 end * pi / 180 in
  let tap := match dTap d with Some v => v | None => 0 end in
  let svar := match dCkt d with Some t => t | None => svar end in
  let xf := if Req_EM_T tap 0 then false else xform in
  let ivar := match dStat d with Some v => v | None => 1%Z end in
  let sw := match dSw d with Some b => b | None => false end in
  let v1 := match dB d with Some v => v | None => tap end in
  let s1 := has (dB d) in
  let v2 := if s1 then match dG1 d with Some v => v | None => v1 end else v1 in
  let s2 := s1 && has (dG1 d) in
  let v3 := if s2 then match dB1 d with Some v => v | None => v2 end else v2 in
  let s3 := s2 && has (dB1 d) in
  let v4 := if s3 then match dG2 d with Some v => v | None => v3 end else v3 in
  let s4 := s3 && has (dG2 d) in
  let v5 := if s4 then match dB2 d with Some v => v | None => v4 end else v4 in
  let s5 := s4 && has (dB2 d) in
  Ok (Elem svar r x tap shift v1 v2 v3 v4 v5 xf s5 (negb (Z.eqb ivar 0)) sw, Z.eqb ivar 1, Some v5, svar))).
Fixpoint load_elems (l : list edata) (rvar : option R) (svar : string) : outcome (list elem * bool) :=
  match l with
  | [] => Ok ([], false)
  | d :: l => obind (load_elem d rvar svar) (fun r => let '(e, a, rv, sv) := r in
              obind (load_elems l rv sv) (fun q => Ok (e :: fst q, a || snd q)))
  end.
(** ymatrix_components.cpp:450-519 YMBranch::load; [l] has BRANCH_NUM_ELEMENTS entries. *)
Definition load_branch (b1 b2 : nat) (l : list edata) : outcome ybranch :=
  obind (load_elems l None ""%string) (fun q => Ok (Yb b1 b2 (snd q) (fst q))).

(** What the data collection holds for a bus; only the values with index 0 of BUS_SHUNT_GL and BUS_SHUNT_BL are read. *)
Record bdata := Bd { dSbase : option R; dGL : nat -> option R; dBL : nat -> option R; dBinit : option R; dType : option Z }.
(** ymatrix_components.cpp:143-170 YMBus::load on a new bus; the second component is the reference bus flag. Reading sbase or itype
    when they are not in the data is undefined; dividing by a zero sbase is outside the model. *)
Definition load_bus (d : bdata) : outcome (ybus * bool) :=
  obind (val (dSbase d)) (fun sbase =>
  if Req_EM_T sbase 0 then UB else
  match dType d with
  | None => UB
  | Some t =>
      let gs := match dGL d 0%nat with Some v => v | None => 0 end in
      let sh := has (dGL d 0%nat) in
      let bs := if sh then match dBL d 0%nat with Some v => v | None => 0 end else 0 in
      let sh := sh && has (dBL d 0%nat) in
      let gs := gs / sbase in let bs := bs / sbase in
      let r := match dBinit d with Some b => (true, b / sbase) | None => (sh, bs) end in
      Ok (Bus (Z.eqb t 4) (fst r) gs (snd r), Z.eqb t 3)
  end).

(** ** Values *)
Open Scope C_scope.
(** the impedance and the complex ratio (lines 385-388, 563-569) *)
Definition zz (e : elem) : C := (eR e, eX e).
Definition expi (t : R) : C := (cos t, sin t).
Definition ratio (e : elem) : C := RtoC (etap e) * expi (eshift e).
Definition sumC (l : list C) : C := fold_right Cplus 0 l.

(** ymatrix_components.cpp:367-421 YMBranch::setYBus: one element, forward and reverse *)
Definition yfr (e : elem) : C * C :=
  let ret := - RtoC 1 / zz e in
  let a := expi (eshift e) in
  let a := if exform e then RtoC (etap e) * a else a in
  let a := if eswitch e then Cconj a else a in
  if estat e then if exform e then (ret / Cconj a, ret / a) else (ret, ret) else (RtoC 0, RtoC 0).
(** Sums are written without the order of the additions, which does not matter for real numbers. *)
Definition yfrwd (b : ybranch) : C := sumC (map (fun e => fst (yfr e)) (yel b)).
Definition yrvrs (b : ybranch) : C := sumC (map (fun e => snd (yfr e)) (yel b)).

(** ymatrix_components.cpp:535-549 getAdmittance *)
Definition getAdmittance (b : ybranch) : C :=
  sumC (map (fun e => if negb (exform e) && estat e then - RtoC 1 / zz e else RtoC 0) (yel b)).
(** ymatrix_components.cpp:557-582 getTransformer(bus): [k] is the calling bus. *)
Definition getTransformer (b : ybranch) (k : nat) : C :=
  sumC (map (fun e =>
    if exform e && estat e then
      let tmp := - RtoC 1 / zz e - (0%R, (/ 2 * eB e)%R) in
      let a := RtoC (etap e) * expi (eshift e) in
      if (negb (eswitch e) && (k =? yb1 b)%nat) || (eswitch e && (k =? yb2 b)%nat) then tmp / (Cconj a * a) else tmp
    else RtoC 0) (yel b)).
(** ymatrix_components.cpp:589-623 getShunt(bus) *)
Definition getShunt (b : ybranch) (k : nat) : C :=
  sumC (map (fun e =>
    if eshunt e && estat e then
      let c : C := if exform e then RtoC 0 else (0%R, (/ 2 * eB e)%R) in
      if (k =? yb1 b)%nat then c + (eG1 e, eB1 e) else if (k =? yb2 b)%nat then c + (eG2 e, eB2 e) else c
    else RtoC 0) (yel b)).

(** A network: buses and branches; the branches connected to a bus (set by the factory, see C15) are those with an end at the bus. *)
Record ynet := Net { nbus : list ybus; nbr : list ybranch }.
Definition incident (k : nat) (b : ybranch) : bool := (k =? yb1 b)%nat || (k =? yb2 b)%nat.
(** ymatrix_components.cpp:92-113 YMBus::setYBus *)
Definition ybus_diag (n : ynet) (k : nat) (u : ybus) : C :=
  sumC (map (fun b => - getAdmittance b - getTransformer b k + getShunt b k) (filter (incident k) (nbr n)))
  + (if ysh u then (ygs u, ybs u) else RtoC 0).
(** ymatrix_components.cpp:56-86 matrixDiagSize and matrixDiagValues in mode YBus: [None] when the bus does not contribute *)
Definition diag_value (n : ynet) (k : nat) : option C :=
  match nth_error (nbus n) k with Some u => if yiso u then None else Some (ybus_diag n k u) | None => None end.
Definition isolated (n : ynet) (k : nat) : bool := match nth_error (nbus n) k with Some u => yiso u | None => false end.
(** ymatrix_components.cpp:275-364 matrixForward/ReverseSize and Values in mode YBus *)
Definition forward_value (n : ynet) (b : ybranch) : option C :=
  if yact b && (negb (isolated n (yb1 b)) && negb (isolated n (yb2 b))) then Some (yfrwd b) else None.
Definition reverse_value (n : ynet) (b : ybranch) : option C :=
  if yact b && (negb (isolated n (yb1 b)) && negb (isolated n (yb2 b))) then Some (yrvrs b) else None.

(** ** Access to single elements *)
Fixpoint find_tag (l : list elem) (t : string) : option elem :=
  match l with [] => None | e :: l => if String.eqb t (etag e) then Some e else find_tag l t end.
(** ymatrix_components.cpp:631-673 getLineElements: (Yii, Yij) *)
Definition getLineElements (b : ybranch) (t : string) : C * C :=
  match find_tag (yel b) t with
  | None => (RtoC 0, RtoC 0)
  | Some e =>
      let y := if Ceq_dec (zz e) (RtoC 0) then zz e else - RtoC 1 / zz e in
      let bij : C := (0%R, eB e) in
      if exform e then
        let a := RtoC (etap e) * expi (eshift e) in
        if Ceq_dec a (RtoC 0) then (RtoC 0, RtoC 0)
        else if negb (eswitch e) then (- (y - RtoC (/ 2) * bij) / (a * Cconj a), y / Cconj a)
        else (- (y - RtoC (/ 2) * bij), y / a)
      else (- (y - RtoC (/ 2) * bij), y)
  end.
(** ymatrix_components.cpp:681-723 getRvrsLineElements *)
Definition getRvrsLineElements (b : ybranch) (t : string) : C * C :=
  match find_tag (yel b) t with
  | None => (RtoC 0, RtoC 0)
  | Some e =>
      let y := if Ceq_dec (zz e) (RtoC 0) then zz e else - RtoC 1 / zz e in
      let bij : C := (0%R, eB e) in
      if exform e then
        let a := RtoC (etap e) * expi (eshift e) in
        if Ceq_dec a (RtoC 0) then (RtoC 0, RtoC 0)
        else if eswitch e then (- (y - RtoC (/ 2) * bij) / (a * Cconj a), y / Cconj a)
        else (- (y - RtoC (/ 2) * bij), y / a)
      else (- (y - RtoC (/ 2) * bij), y)
  end.
(** ymatrix_components.cpp:767-780 setLineStatus: the first element with the tag; p_active is not touched. *)
Fixpoint set_stat (l : list elem) (t : string) (s : bool) : list elem * bool :=
  match l with
  | [] => ([], false)
  | e :: l => if String.eqb t (etag e) then (Elem (etag e) (eR e) (eX e) (etap e) (eshift e) (eB e) (eG1 e) (eB1 e) (eG2 e) (eB2 e) (exform e) (eshunt e) s (eswitch e) :: l, true)
              else let (l', f) := set_stat l t s in (e :: l', f)
  end.
Definition setLineStatus (b : ybranch) (t : string) (s : bool) : ybranch * bool :=
  let (l, f) := set_stat (yel b) t s in (Yb (yb1 b) (yb2 b) (yact b) l, f).
(** ymatrix_components.cpp:739-749 getLineStatus *)
Definition getLineStatus (b : ybranch) (t : string) : bool := match find_tag (yel b) t with Some e => estat e | None => false end.
(** pf_components.cpp:2237-2251 getComplexPower, from the complex voltages of the two buses *)
Definition getComplexPower (b : ybranch) (t : string) (vi vj : C) (sbase : R) : C :=
  let y := getLineElements b t in vi * Cconj (fst y * vi + snd y * vj) * RtoC sbase.

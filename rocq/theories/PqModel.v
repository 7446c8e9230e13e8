(** Model of the generators, loads and voltage of a power flow bus: PFBus in applications/components/pf_matrix/pf_components.cpp. Doubles are real numbers. *)
From Verif Require Import Prelude.
From Coq Require Import Reals.
Open Scope R_scope.

(** ** Data *)
(** What load reads of a generator and a load in the data collection. GENERATOR_PMAX and PMIN count as 0 and the ids as "-1" when missing (pf_components.cpp:491-494, 528, 575). *)
Record dgen := DGen { d_id : string; d_pg : R; d_qg : R; d_vs : R; d_st : Z; d_qmax : R; d_qmin : R; d_pt : R; d_pb : R }.
Record dload := DLoad { e_id : string; e_pl : R; e_ql : R; e_ip : R; e_iq : R; e_yp : R; e_yq : R; e_st : Z }.
(** The values of one bus. [None] in the lists is an element some of whose values are missing; [None] for a list is a missing GENERATOR_NUMBER or LOAD_NUMBER.
    The angle is in degrees. *)
Record dbus := DBus { b_sbase : R; b_ang : R; b_mag : R; b_type : Z; b_gens : option (list (option dgen)); b_loads : option (list (option dload)) }.

(** The vectors p_gid, p_pg, p_qg, p_qmax, p_qmin, p_qmax_orig, p_qmin_orig, p_pt, p_pb, p_pFac, p_pFac_orig, one entry per generator. *)
Record gen := Gen { g_id : string; g_pg : R; g_qg : R; g_qmax : R; g_qmin : R; g_qmaxo : R; g_qmino : R; g_pt : R; g_pb : R; g_fac : R; g_faco : R }.
(** p_lid, p_pl, p_ql, p_lstatus *)
Record ld := Ld { l_id : string; l_pl : R; l_ql : R; l_st : Z }.

(** The bus. p_gstatus and the saved vectors are apart, as their length can differ. [q_xc]: the exchange buffer with angle, magnitude and PV flag, once it is set.
    [None] for [q_save] and [q_save2] is an uninitialised p_saveisPV or p_save2isPV (the constructor, 40-63, sets neither). *)
Record qbus := QBus {
  q_gst : list Z; q_gsave : list Z; q_gens : list gen; q_savePg : list R;
  q_lds : list ld; q_saveL : list (R * R); q_sb : R; q_Qi : R;
  q_pv : bool; q_save : option bool; q_save2 : option bool;
  q_v : R; q_a : R; q_volt : R; q_angle : R; q_xc : option (R * R * bool); q_P0 : R; q_Q0 : R }.
(** pf_components.cpp:40-63 *)
Definition new_bus : qbus := QBus [] [] [] [] [] [] 0 0 false None None 0 0 0 0 None 0 0.

(** ** Angles *)
(** fmod of the C library: the remainder of the division rounded towards zero *)
Definition rtrunc (x : R) : R := if Rle_dec 0 x then IZR (Int_part x) else - IZR (Int_part (- x)).
Definition fmod (x y : R) : R := x - y * rtrunc (x / y).
(** pf_components.cpp:377-382 and its copies at 355, 408, 584, 637 *)
Definition wrap (a : R) : R :=
  let pi := 4 * atan 1 in
  if Rle_dec 0 a then fmod (a + pi) (2 * pi) - pi else fmod (a - pi) (2 * pi) + pi.
Definition set_volt (u : qbus) (v a : R) (xc : option (R * R * bool)) : qbus :=
  QBus (q_gst u) (q_gsave u) (q_gens u) (q_savePg u) (q_lds u) (q_saveL u) (q_sb u) (q_Qi u) (q_pv u) (q_save u) (q_save2 u) v a (q_volt u) (q_angle u) xc (q_P0 u) (q_Q0 u).
Definition buf_of (pv : bool) (v a : R) : R * R * bool := (wrap a, v, pv).
(** pf_components.cpp:362-383 setValues: writes through the buffer pointers without checking them; the PV flag in the buffer is left as it is *)
Definition set_values (u : qbus) (x y : R) : outcome qbus :=
  let a := q_a u - x in let v := if q_pv u then q_v u else q_v u - y in
  match q_xc u with None => UB | Some (_, _, p) => Ok (set_volt u v a (Some (buf_of p v a))) end.
(** pf_components.cpp:398-416 setXCBuf *)
Definition set_xcbuf (u : qbus) : qbus := set_volt u (q_v u) (q_a u) (Some (buf_of (q_pv u) (q_v u) (q_a u))).
Definition rebuf (xc : option (R * R * bool)) (v a : R) : option (R * R * bool) :=
  match xc with None => None | Some (_, _, p) => Some (buf_of p v a) end.
(** pf_components.cpp:630-644 resetVoltage *)
Definition reset_voltage (u : qbus) : qbus := set_volt u (q_volt u) (q_angle u) (rebuf (q_xc u) (q_volt u) (q_angle u)).
(** pf_components.cpp:1149-1156 getComplexVoltage, which also copies the buffer into the bus *)
Definition get_voltage (u : qbus) : outcome qbus :=
  match q_xc u with None => UB | Some (a, v, p) => Ok (set_volt u v a (q_xc u)) end.

(** ** load *)
Definition on (s : Z) : bool := (s =? 1)%Z.
Definition somes A (l : list (option A)) : list A := flat_map (fun o => match o with Some x => [x] | None => [] end) l.
(** pf_components.cpp:494-527 one complete generator; the participation factor before normalisation *)
Definition load_gen (d : dgen) : gen :=
  let off := (d_st d =? 0)%Z in
  let z := fun x : R => if off then 0 else x in
  Gen (d_id d) (z (d_pg d)) (z (d_qg d)) (z (d_qmax d)) (z (d_qmin d)) (z (d_qmax d)) (z (d_qmin d)) (d_pt d) (d_pb d)
    (if off then 0 else d_pt d - d_pb d) (d_pt d - d_pb d).
Definition set_fac (g : gen) (f fo : R) : gen :=
  Gen (g_id g) (g_pg g) (g_qg g) (g_qmax g) (g_qmin g) (g_qmaxo g) (g_qmino g) (g_pt g) (g_pb g) f fo.
Definition sumR (l : list R) : R := fold_right Rplus 0 l.
(** pf_components.cpp:534-542: normalisation, or the whole share to the first generator (out of bounds when there is none) *)
Definition norm_fac (gs : list gen) : outcome (list gen) :=
  let cap := sumR (map g_fac gs) in
  if Req_EM_T cap 0 then match gs with [] => UB | g :: r => Ok (set_fac g 1 1 :: r) end
  else if (1 <? length gs)%nat then Ok (map (fun g => set_fac g (g_fac g / cap) (g_fac g / cap)) gs)
  else match gs with [] => UB | g :: r => Ok (set_fac g 1 1 :: r) end.
(** pf_components.cpp:555-580: constant current and admittance are added to the constant power *)
Definition load_ld (d : dload) : ld := Ld (e_id d) (e_pl d + e_ip d + e_yp d) (e_ql d - e_iq d - e_yq d) (e_st d).
(** pf_components.cpp:425-591 load. p_savePg, p_savePl and p_saveQl are appended to and never cleared. *)
Definition load (u : qbus) (d : dbus) : outcome qbus :=
  let ang := b_ang d * (4 * atan 1) / 180 in
  let ds := match b_gens d with Some l => somes l | None => [] end in
  let gs := map load_gen ds in
  obind (match b_gens d with Some _ => norm_fac gs | None => Ok [] end) (fun gs' =>
  let v := fold_left (fun v g => if on (d_st g) then d_vs g else v) ds (b_mag d) in
  let pv := existsb (fun g => on (d_st g)) ds && (b_type d =? 2)%Z in
  let ls := map load_ld (match b_loads d with Some l => somes l | None => [] end) in
  Ok (QBus (map d_st ds) [] gs' (q_savePg u ++ map g_pg gs)%list ls (q_saveL u ++ map (fun l => (l_pl l, l_ql l)) ls)%list (b_sbase d) (q_Qi u)
        pv (Some pv) (q_save2 u) v ang (b_mag d) ang (rebuf (q_xc u) v ang) (q_P0 u) (q_Q0 u))).

(** ** Injections *)
(** The generators with their status: the loops run to p_gstatus.size() and index the other vectors with the same index. *)
Definition paired (u : qbus) : outcome (list (Z * gen)) :=
  if (length (q_gst u) <=? length (q_gens u))%nat then Ok (combine (q_gst u) (q_gens u)) else UB.
Definition gsum (f : gen -> R) (l : list (Z * gen)) : R := sumR (map (fun p => if on (fst p) then f (snd p) else 0) l).
Definition lsum (f : ld -> R) (l : list ld) : R := sumR (map (fun x => if on (l_st x) then f x else 0) l).
Definition set_s (u : qbus) (P Q : R) : qbus :=
  QBus (q_gst u) (q_gsave u) (q_gens u) (q_savePg u) (q_lds u) (q_saveL u) (q_sb u) (q_Qi u) (q_pv u) (q_save u) (q_save2 u) (q_v u) (q_a u) (q_volt u) (q_angle u) (q_xc u) P Q.
(** pf_components.cpp:782-813 setSBus: without a generator in service only the loads count, which is the same sum *)
Definition set_sbus (u : qbus) : outcome qbus :=
  obind (paired u) (fun gs =>
  Ok (set_s u ((gsum g_pg gs - lsum l_pl (q_lds u)) / q_sb u) ((gsum g_qg gs - lsum l_ql (q_lds u)) / q_sb u))).
(** p_Qinj, as set by rhsValues (see PfModel.rhs_bus) *)
Definition set_Qi (u : qbus) (Q : R) : qbus :=
  QBus (q_gst u) (q_gsave u) (q_gens u) (q_savePg u) (q_lds u) (q_saveL u) (q_sb u) Q (q_pv u) (q_save u) (q_save2 u) (q_v u) (q_a u) (q_volt u) (q_angle u) (q_xc u) (q_P0 u) (q_Q0 u).

(** ** Reactive limits *)
Definition set_pv (xc : option (R * R * bool)) (p : bool) : option (R * R * bool) := match xc with Some (a, v, _) => Some (a, v, p) | None => None end.
Definition set_qg (g : gen) (q : R) : gen := Gen (g_id g) (g_pg g) q (g_qmax g) (g_qmin g) (g_qmaxo g) (g_qmino g) (g_pt g) (g_pb g) (g_fac g) (g_faco g).
Definition set_ld (l : ld) (p q : R) : ld := Ld (l_id l) p q (l_st l).
(** pf_components.cpp:266-284 and 286-304: the conversion, for the limit [lim] of each generator. The first [length q_gst] generators are changed. *)
Definition convert (u : qbus) (lim : gen -> R) (gs : list (Z * gen)) : qbus :=
  let pl := lsum l_pl (q_lds u) - gsum g_pg gs in
  let ql := lsum l_ql (q_lds u) - gsum lim gs in
  let k := length (q_gst u) in
  QBus (map (fun _ => 0%Z) (q_gst u)) (q_gsave u ++ q_gst u)%list
    (map (fun g => set_qg g (lim g)) (firstn k (q_gens u)) ++ skipn k (q_gens u))%list (q_savePg u)
    (map (fun l => if on (l_st l) then set_ld l pl ql else l) (q_lds u)) (q_saveL u) (q_sb u) (q_Qi u)
    false (q_save u) (Some true) (q_v u) (q_a u) (q_volt u) (q_angle u) (set_pv (q_xc u) false) (q_P0 u) (q_Q0 u).
Definition keep_pv (u : qbus) (s2 : option bool) : qbus :=
  QBus (q_gst u) (q_gsave u) (q_gens u) (q_savePg u) (q_lds u) (q_saveL u) (q_sb u) (q_Qi u) (q_pv u) (q_save u) s2 (q_v u) (q_a u) (q_volt u) (q_angle u) (set_pv (q_xc u) (q_pv u)) (q_P0 u) (q_Q0 u).
(** pf_components.cpp:233-318 chkQlim; a violation of the upper limit writes through p_PV_ptr before testing it (line 270) *)
Definition chk_qlim (u : qbus) : outcome (bool * qbus) :=
  if q_pv u then
    obind (paired u) (fun gs =>
    let qval := q_Qi u * q_sb u + lsum l_ql (q_lds u) in
    if Rlt_dec (gsum g_qmax gs) qval then match q_xc u with None => UB | Some _ => Ok (true, convert u g_qmax gs) end
    else if Rlt_dec qval (gsum g_qmin gs) then Ok (true, convert u g_qmin gs)
    else Ok (false, keep_pv u (Some true)))
  else Ok (false, keep_pv u (q_save2 u)).
(** pf_components.cpp:324-334 clearQlim; reading an uninitialised flag is undefined *)
Definition clear_qlim (u : qbus) : outcome qbus :=
  match q_save2 u with
  | None => UB
  | Some p => Ok (QBus (q_gsave u) (q_gsave u) (q_gens u) (q_savePg u) (q_lds u) (q_saveL u) (q_sb u) (q_Qi u) p (q_save u) (q_save2 u) (q_v u) (q_a u) (q_volt u) (q_angle u)
                    (set_pv (q_xc u) p) (q_P0 u) (q_Q0 u))
  end.

(** ** Status, scaling and resetting *)
(** The first element that satisfies [p] is changed by [f]. *)
Fixpoint upd_first A (p : A -> bool) (f : A -> A) (l : list A) : list A :=
  match l with [] => [] | x :: r => if p x then f x :: r else x :: upd_first p f r end.
Definition set_gens (u : qbus) (st : list Z) (gs : list gen) : qbus :=
  QBus st (q_gsave u) gs (q_savePg u) (q_lds u) (q_saveL u) (q_sb u) (q_Qi u) (q_pv u) (q_save u) (q_save2 u) (q_v u) (q_a u) (q_volt u) (q_angle u) (q_xc u) (q_P0 u) (q_Q0 u).
Definition set_lds (u : qbus) (ls : list ld) : qbus :=
  QBus (q_gst u) (q_gsave u) (q_gens u) (q_savePg u) ls (q_saveL u) (q_sb u) (q_Qi u) (q_pv u) (q_save u) (q_save2 u) (q_v u) (q_a u) (q_volt u) (q_angle u) (q_xc u) (q_P0 u) (q_Q0 u).
Definition unzip_gens (u : qbus) (l : list (Z * gen)) : qbus := set_gens u (map fst l) (map snd l).
(** The loops to p_ngen index p_gstatus too; they are undefined when it is shorter. Only equal lengths are followed here: longer status vectors are undefined elsewhere. *)
Definition aligned (u : qbus) : outcome (list (Z * gen)) :=
  if (length (q_gst u) =? length (q_gens u))%nat then Ok (combine (q_gst u) (q_gens u)) else UB.
(** pf_components.cpp:736-755 setGenStatus *)
Definition switch_gen (s : bool) (p : Z * gen) : Z * gen :=
  let g := snd p in
  if s then (1%Z, Gen (g_id g) (g_pg g) (g_qg g) (g_qmaxo g) (g_qmino g) (g_qmaxo g) (g_qmino g) (g_pt g) (g_pb g) (g_faco g) (g_faco g))
  else (0%Z, Gen (g_id g) (g_pg g) (g_qg g) 0 0 (g_qmaxo g) (g_qmino g) (g_pt g) (g_pb g) 0 (g_faco g)).
Definition set_gen_status (u : qbus) (id : string) (s : bool) : outcome qbus :=
  obind (aligned u) (fun l => Ok (unzip_gens u (upd_first (fun p => String.eqb (g_id (snd p)) id) (switch_gen s) l))).
Definition set_pg (g : gen) (p : R) : gen := Gen (g_id g) p (g_qg g) (g_qmax g) (g_qmin g) (g_qmaxo g) (g_qmino g) (g_pt g) (g_pb g) (g_fac g) (g_faco g).
(** pf_components.cpp:1685-1705 scaleGeneratorRealPower *)
Definition scale_gen (v : R) (g : gen) : gen :=
  if Rlt_dec 0 v then set_pg g (g_pg g + v * (g_pt g - g_pg g)) else set_pg g (g_pg g + v * (g_pg g - g_pb g)).
Definition scale_generator (u : qbus) (id : string) (v : R) : outcome qbus :=
  obind (aligned u) (fun l =>
  Ok (unzip_gens u (upd_first (fun p => String.eqb (g_id (snd p)) id && negb (fst p =? 0)%Z) (fun p => (fst p, scale_gen v (snd p))) l))).
(** pf_components.cpp:1739-1749 scaleLoadPower *)
Definition scale_load (u : qbus) (id : string) (v : R) : qbus :=
  set_lds u (upd_first (fun l => String.eqb (l_id l) id && on (l_st l)) (fun l => set_ld l (v * l_pl l) (v * l_ql l)) (q_lds u)).
(** pf_components.cpp:1618-1638 setGeneratorRealPower and 1713-1732 setLoadRealPower, without the data collection *)
Definition set_gen_power (u : qbus) (id : string) (v : R) : qbus :=
  set_gens u (q_gst u) (upd_first (fun g => String.eqb (g_id g) id) (fun g => set_pg g v) (q_gens u)).
Definition set_load_power (u : qbus) (id : string) (v : R) : qbus :=
  set_lds u (upd_first (fun l => String.eqb (l_id l) id) (fun l => set_ld l v (l_ql l)) (q_lds u)).
(** pf_components.cpp:1754-1765 resetPower: p_savePg has at least as many entries as there are generators *)
Definition reset_power (u : qbus) : qbus :=
  let u := reset_voltage u in
  let gs := map (fun p => set_pg (snd p) (fst p)) (combine (q_savePg u) (q_gens u)) in
  let ls := map (fun p => set_ld (snd p) (fst (fst p)) (snd (fst p))) (combine (q_saveL u) (q_lds u)) in
  set_lds (set_gens u (q_gst u) gs) ls.

(** pf_components.cpp:761-767 setIsPV (which sets the magnitude of the bus and not of its buffer) and 772-776 resetIsPV *)
Definition set_is_pv (u : qbus) (s : bool) : qbus :=
  QBus (q_gst u) (q_gsave u) (q_gens u) (q_savePg u) (q_lds u) (q_saveL u) (q_sb u) (q_Qi u) s (Some (q_pv u)) (q_save2 u) (q_volt u) (q_a u) (q_volt u) (q_angle u)
    (set_pv (q_xc u) s) (q_P0 u) (q_Q0 u).
Definition reset_is_pv (u : qbus) : outcome qbus :=
  match q_save u with
  | None => UB
  | Some s => Ok (QBus (q_gst u) (q_gsave u) (q_gens u) (q_savePg u) (q_lds u) (q_saveL u) (q_sb u) (q_Qi u) s (q_save u) (q_save2 u) (q_v u) (q_a u) (q_volt u) (q_angle u)
                    (set_pv (q_xc u) s) (q_P0 u) (q_Q0 u))
  end.
Definition give_pv (u : qbus) (s : bool) : qbus :=
  QBus (q_gst u) (q_gsave u) (q_gens u) (q_savePg u) (q_lds u) (q_saveL u) (q_sb u) (q_Qi u) s (q_save u) (q_save2 u) (q_v u) (q_a u) (q_volt u) (q_angle u) (q_xc u) (q_P0 u) (q_Q0 u).
(** pf_components.cpp:1647-1678 setGeneratorStatus, without the data collection *)
Definition set_generator_status (u : qbus) (id : string) (st : Z) : outcome qbus :=
  obind (aligned u) (fun l =>
  if existsb (fun p => String.eqb (g_id (snd p)) id) l then
    let z := fun g => if (st =? 0)%Z then set_qg (set_pg g 0) 0 else g in
    let u1 := unzip_gens u (upd_first (fun p => String.eqb (g_id (snd p)) id) (fun p => (st, z (snd p))) l) in
    let pv := existsb (fun s => negb (s =? 0)%Z) (q_gst u1) in
    Ok (set_is_pv (give_pv u1 pv) pv)
  else Ok u).

(** Calls on a bus. *)
Inductive op :=
  | OLoad (d : dbus) | OXCBuf | OSetValues (x y : R) | OResetVoltage | OGetVoltage | OSetSBus | ORhs (Q : R) | OChkQlim | OClearQlim
  | OGenStatus (id : string) (s : bool) | OScaleGen (id : string) (v : R) | OScaleLoad (id : string) (v : R)
  | OSetPg (id : string) (v : R) | OSetPl (id : string) (v : R) | OResetPower
  | OIsPV (s : bool) | OResetIsPV | OGeneratorStatus (id : string) (st : Z).
Definition step (u : qbus) (o : op) : outcome qbus :=
  match o with
  | OLoad d => load u d | OXCBuf => Ok (set_xcbuf u) | OSetValues x y => set_values u x y | OResetVoltage => Ok (reset_voltage u) | OGetVoltage => get_voltage u
  | OSetSBus => set_sbus u | ORhs Q => Ok (set_Qi u Q) | OChkQlim => obind (chk_qlim u) (fun r => Ok (snd r)) | OClearQlim => clear_qlim u
  | OGenStatus id s => set_gen_status u id s | OScaleGen id v => scale_generator u id v | OScaleLoad id v => Ok (scale_load u id v)
  | OSetPg id v => Ok (set_gen_power u id v) | OSetPl id v => Ok (set_load_power u id v) | OResetPower => Ok (reset_power u)
  | OIsPV s => Ok (set_is_pv u s) | OResetIsPV => reset_is_pv u | OGeneratorStatus id st => set_generator_status u id st
  end.
Fixpoint run (u : qbus) (os : list op) : outcome qbus :=
  match os with [] => Ok u | o :: r => obind (step u o) (fun u => run u r) end.

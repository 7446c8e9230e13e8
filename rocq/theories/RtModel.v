(** Real time path rating: /repo/src/applications/rtpr/rtpr_driver.cpp with the methods of
    /repo/src/applications/modules/powerflow/pf_factory_module.cpp and /repo/src/applications/components/pf_matrix/pf_components.cpp it
    uses to scale loads and generation, and the search for the rating. *)
From Verif Require Import Prelude.
From Coq Require Import Reals.

(** ** Loads and generators *)
(** pf_components.hpp: p_gid, p_gstatus, p_pg, p_savePg, p_pb, p_pt *)
Record gen := Gen { g_id : string; g_on : Z; g_p : R; g_save : R; g_min : R; g_max : R }.
(** pf_components.hpp: p_lid, p_lstatus, p_pl, p_ql, p_savePl, p_saveQl *)
Record load := Load { l_id : string; l_on : Z; l_p : R; l_q : R; l_savep : R; l_saveq : R }.
(** A bus of a process, a ghost or not *)
Record rbus := RBus { rb_area : Z; rb_zone : Z; rb_gens : list gen; rb_loads : list load }.

(** pf_components.cpp:1685-1707 scaleGeneratorRealPower: the first generator with this name that is on *)
Definition scaled_gen (v : R) (g : gen) : gen :=
  Gen (g_id g) (g_on g) (if Rlt_dec 0 v then g_p g + v * (g_max g - g_p g) else g_p g + v * (g_p g - g_min g))%R (g_save g) (g_min g) (g_max g).
Fixpoint scale_gen (tag : string) (v : R) (gs : list gen) : list gen :=
  match gs with
  | [] => []
  | g :: r => if String.eqb (g_id g) tag && negb (g_on g =? 0)%Z then scaled_gen v g :: r else g :: scale_gen tag v r
  end.
(** pf_components.cpp:1739-1749 scaleLoadPower: the first load with this name whose status is one *)
Definition scaled_load (v : R) (l : load) : load := Load (l_id l) (l_on l) (v * l_p l)%R (v * l_q l)%R (l_savep l) (l_saveq l).
Fixpoint scale_load (tag : string) (v : R) (ls : list load) : list load :=
  match ls with
  | [] => []
  | l :: r => if String.eqb (l_id l) tag && (l_on l =? 1)%Z then scaled_load v l :: r else l :: scale_load tag v r
  end.
(** pf_components.cpp:1754-1765 resetPower (not: the voltage) *)
Definition reset_bus (b : rbus) : rbus :=
  RBus (rb_area b) (rb_zone b) (map (fun g => Gen (g_id g) (g_on g) (g_save g) (g_save g) (g_min g) (g_max g)) (rb_gens b))
       (map (fun l => Load (l_id l) (l_on l) (l_savep l) (l_saveq l) (l_savep l) (l_saveq l)) (rb_loads b)).

(** pf_factory_module.cpp:715-722 and the like: whether a bus belongs to the area and zone; a zone below one stands for the whole area *)
Definition chosen (area zone : Z) (b : rbus) : bool := (rb_area b =? area)%Z && (zone =? (if 0 <? zone then rb_zone b else zone))%Z.
(** pf_factory_module.cpp:709-729 scaleGeneratorRealPower on the buses of a process; getGenerators (pf_components.cpp:717-720) gives
    the names of all generators *)
Definition scale_gens (v : R) (area zone : Z) (bs : list rbus) : list rbus :=
  map (fun b => if chosen area zone b
                then RBus (rb_area b) (rb_zone b) (fold_left (fun gs t => scale_gen t v gs) (map g_id (rb_gens b)) (rb_gens b)) (rb_loads b)
                else b) bs.
(** pf_factory_module.cpp:738-758 scaleLoadPower *)
Definition scale_loads (v : R) (area zone : Z) (bs : list rbus) : list rbus :=
  map (fun b => if chosen area zone b
                then RBus (rb_area b) (rb_zone b) (rb_gens b) (fold_left (fun ls t => scale_load t v ls) (map l_id (rb_loads b)) (rb_loads b))
                else b) bs.
Definition sumR (l : list R) : R := fold_right Rplus 0%R l.
(** pf_factory_module.cpp:767-793 getTotalLoadRealPower before the sum over the processes; loads as read (pf_components.cpp:1802-1817) *)
Definition local_load (area zone : Z) (bs : list rbus) : R :=
  sumR (map (fun b => if chosen area zone b then sumR (map (fun l => if (l_on l =? 0)%Z then 0%R else l_savep l) (rb_loads b)) else 0%R) bs).
(** pf_factory_module.cpp:794-796: the sum over the processes of the group *)
Definition total_load (area zone : Z) (procs : list (list rbus)) : R := sumR (map (local_load area zone) procs).
(** pf_factory_module.cpp:806-837 getGeneratorMargins: there is no sum over the processes.  [f]: the current power as read, the minimum
    or the maximum (pf_components.cpp:1775-1793) *)
Definition margin (f : gen -> R) (area zone : Z) (bs : list rbus) : R :=
  sumR (map (fun b => if chosen area zone b then sumR (map (fun g => if (g_on g =? 0)%Z then 0%R else f g) (rb_gens b)) else 0%R) bs).
(** pf_factory_module.cpp:842-849 resetPower *)
Definition reset_power (bs : list rbus) : list rbus := map reset_bus bs.

(** rtpr_driver.cpp:615-661 adjustRating, the numbers: whether the capacity is sufficient, the factor for the loads and that for the
    generators *)
Definition factors (rating ltotal gtotal pmin pmax : R) : bool * R * R :=
  if Rlt_dec 1 rating then
    let extra := ((rating - 1) * ltotal)%R in
    if Rle_dec extra (pmax - gtotal) then (true, rating, if Rlt_dec gtotal pmax then extra / (pmax - gtotal) else 0)%R
    else let extra := (pmax - gtotal)%R in (false, (ltotal + extra) / ltotal, if Rlt_dec gtotal pmax then extra / (pmax - gtotal) else 0)%R
  else
    let extra := ((1 - rating) * ltotal)%R in
    if Rle_dec extra (gtotal - pmin) then (true, rating, if Rlt_dec pmin gtotal then - extra / (gtotal - pmin) else 0)%R
    else let extra := (gtotal - pmin)%R in (false, (ltotal - extra) / ltotal, if Rlt_dec pmin gtotal then - extra / (gtotal - pmin) else 0)%R.
(** rtpr_driver.cpp:615-676 adjustRating on the process with the buses [bs]; [procs]: the buses of all processes of its group *)
Definition adjust (rating : R) (sa sz da dz : Z) (procs : list (list rbus)) (bs : list rbus) : bool * list rbus :=
  let f := factors rating (total_load da dz procs) (margin g_save sa sz bs) (margin g_min sa sz bs) (margin g_max sa sz bs) in
  (fst (fst f), scale_gens (snd f) sa sz (scale_loads (snd (fst f)) da dz bs)).

(** ** The search *)
(** Ratings are in hundredths, without rounding.  [adj]: what adjustRating answers, [sec]: what running all contingencies at this rating
    answers; the power is reset after every step, so that both depend on the rating only.  [None]: the loop did not end in [fuel] steps. *)
Section Search.
  Variables adj sec : Z -> bool.
  (** rtpr_driver.cpp:1023-1036 (step 5) and 1038-1054 (step 1), the tie lines being secure at the start *)
  Fixpoint up (fuel : nat) (step r : Z) : option Z :=
    match fuel with
    | O => None
    | S f => if adj (r + step) then if sec (r + step) then up f step (r + step) else Some (r + step - step)%Z else Some (r + step - step)%Z
    end.
  (** rtpr_driver.cpp:1057-1070 (step 5): the rating is put back also when the tie lines are secure *)
  Fixpoint down_coarse (fuel : nat) (r : Z) : option Z :=
    match fuel with
    | O => None
    | S f => if (0 <=? r)%Z
             then if adj (r - 5) then if sec (r - 5) then Some (r - 5 + 5)%Z else down_coarse f (r - 5) else Some (r - 5 + 5)%Z
             else Some r
    end.
  (** rtpr_driver.cpp:1072-1087 (step 1), 1126-1137 (step 5), 1139-1156 (step 1) *)
  Fixpoint down (fuel : nat) (step r : Z) : option Z :=
    match fuel with
    | O => None
    | S f => if (0 <=? r)%Z
             then if adj (r - step) then if sec (r - step) then Some (r - step)%Z else down f step (r - step) else Some (r - step + step)%Z
             else Some r
    end.
  (** rtpr_driver.cpp:1019-1088 *)
  Definition pf_rating (fuel : nat) : option Z :=
    if sec 100 then match up fuel 5 100 with Some r => up fuel 1 r | None => None end
    else match down_coarse fuel 100 with Some r => down fuel 1 r | None => None end.
  (** rtpr_driver.cpp:1119-1156 the dynamic simulation; here [sec] is the answer of runDSContingencies *)
  Definition ds_rating (fuel : nat) (r : Z) : option Z :=
    match (if sec r then Some r else down fuel 5 r) with Some r' => down fuel 1 r' | None => None end.
End Search.

(** ** Tie lines: rtpr_driver.cpp:408-482 getTieLines, the test of a branch between the areas and zones of its ends *)
Definition zone_of (given actual : Z) : Z := if (0 <? given)%Z then actual else given.
Definition is_tie (area1 zone1 area2 zone2 iarea1 izone1 iarea2 izone2 : Z) : bool :=
  let found := ((iarea1 =? area1) && (zone_of zone1 izone1 =? zone1) && (iarea2 =? area2) && (zone_of zone2 izone2 =? zone2))%Z in
  if found then true
  else ((iarea2 =? area1) && (zone_of zone2 izone2 =? zone1) && (iarea1 =? area2) && (zone_of zone1 izone1 =? zone2))%Z.

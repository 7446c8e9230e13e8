(** What scaling loads and generation and the search for a rating should do. *)
From Verif Require Import Prelude RtModel.
From Coq Require Import Reals.

(** A bus belongs to an area and, if the zone is positive, to a zone *)
Definition belongs (area zone : Z) (b : rbus) : Prop := rb_area b = area /\ ((0 < zone)%Z -> rb_zone b = zone).

(** A bus as it is after reading or resetting: names are unique on the bus, the power is that of the input, a load is on or off *)
Record fresh_bus (b : rbus) : Prop := {
  fb_gens : NoDup (map g_id (rb_gens b));
  fb_loads : NoDup (map l_id (rb_loads b));
  fb_gp : forall g, In g (rb_gens b) -> g_p g = g_save g;
  fb_lp : forall l, In l (rb_loads b) -> l_p l = l_savep l /\ l_q l = l_saveq l;
  fb_on : forall l, In l (rb_loads b) -> l_on l = 0%Z \/ l_on l = 1%Z }.

(** The generators that are on and the loads that are on in an area and zone *)
Definition gens_in (area zone : Z) (bs : list rbus) : list gen :=
  filter (fun g => negb (g_on g =? 0)%Z) (flat_map rb_gens (filter (chosen area zone) bs)).
Definition loads_in (area zone : Z) (bs : list rbus) : list load :=
  filter (fun l => negb (l_on l =? 0)%Z) (flat_map rb_loads (filter (chosen area zone) bs)).
Definition generation (area zone : Z) (bs : list rbus) : R := sumR (map g_p (gens_in area zone bs)).
Definition lowest (area zone : Z) (bs : list rbus) : R := sumR (map g_min (gens_in area zone bs)).
Definition highest (area zone : Z) (bs : list rbus) : R := sumR (map g_max (gens_in area zone bs)).
Definition demand (area zone : Z) (bs : list rbus) : R := sumR (map l_p (loads_in area zone bs)).
Definition within (g : gen) : Prop := (g_min g <= g_p g <= g_max g)%R.

(** What may change in a generator, a load and a bus *)
Definition gen_kept (scaled : bool) (g g' : gen) : Prop :=
  g_id g' = g_id g /\ g_on g' = g_on g /\ g_save g' = g_save g /\ g_min g' = g_min g /\ g_max g' = g_max g /\
  (scaled = false \/ g_on g = 0%Z -> g' = g) /\ (within g -> within g').
Definition load_kept (scaled : bool) (f : R) (l l' : load) : Prop :=
  l_id l' = l_id l /\ l_on l' = l_on l /\ l_savep l' = l_savep l /\ l_saveq l' = l_saveq l /\
  (if scaled && negb (l_on l =? 0)%Z then l_p l' = f * l_p l /\ l_q l' = f * l_q l else l_p l' = l_p l /\ l_q l' = l_q l)%R.
Definition bus_kept (sa sz da dz : Z) (f : R) (b b' : rbus) : Prop :=
  rb_area b' = rb_area b /\ rb_zone b' = rb_zone b /\
  Forall2 (gen_kept (chosen sa sz b)) (rb_gens b) (rb_gens b') /\ Forall2 (load_kept (chosen da dz b) f) (rb_loads b) (rb_loads b').

(** A rating (in hundredths) at which the capacity suffices and all contingencies are secure *)
Definition good (adj sec : Z -> bool) (r : Z) : bool := adj r && sec r.
(** All contingencies are secure exactly up to a rating [t] *)
Definition threshold (sec : Z -> bool) (t : Z) : Prop := forall r, (r <= 100)%Z -> sec r = (r <=? t)%Z.
(** The end of a branch is in an area and, if the zone is positive, in a zone *)
Definition at_end (area zone iarea izone : Z) : Prop := iarea = area /\ ((0 < zone)%Z -> izone = zone).

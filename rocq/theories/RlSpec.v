(** What a user means by the list of N-1 contingencies of an area or zone. *)
From Verif Require Import Prelude StrModel StrSpec RlModel.

(** A unit (generator or circuit) is in service if its status is there and is not zero *)
Definition in_service (u : unit_data) : bool := match u_stat u with Some s => negb (s =? 0)%Z | None => false end.
(** [area] and [zone] of a request: a zone below one means the whole area *)
Definition within (area zone : Z) (a z : option Z) : bool :=
  match a with Some x => (x =? area)%Z | None => false end && ((zone <=? 0)%Z || match z with Some x => (x =? zone)%Z | None => false end).
(** The generators of the request, each with the number of its bus, when [name] says what a generator is called.  A bus is active on the
    process that owns it only. *)
Definition wanted_gens (name : unit_data -> str) (area zone : Z) (b : bus_data) : list (Z * str) :=
  if d_active b && within area zone (d_area b) (d_zone b)
  then map (fun u => (d_index b, canonical (name u))) (filter in_service (match d_units b with Some us => us | None => [] end)) else [].
Definition wanted_lines (name : unit_data -> str) (area zone : Z) (b : branch_data) : list (Z * Z * str) :=
  if b_active b && within area zone (b_area1 b) (b_zone1 b) && within area zone (b_area2 b) (b_zone2 b)
  then map (fun u => (b_from b, b_to b, canonical (name u))) (filter in_service (match b_lines b with Some us => us | None => [] end)) else [].
(** A unit is called [name u]: an identifier of one or two characters, spelled in any of the ways the file format allows *)
Definition named (name : unit_data -> str) (u : unit_data) : Prop :=
  ident (name u) /\ length (name u) <= 2 /\ exists s, u_id u = Some s /\ spelling (name u) s.
(** A bus says which area it is in and, when a zone is asked for, which zone *)
Definition placed (zone : Z) (a z : option Z) : Prop := a <> None /\ ((0 < zone)%Z -> z <> None).
Definition good_bus (name : unit_data -> str) (zone : Z) (b : bus_data) : Prop :=
  placed zone (d_area b) (d_zone b) /\ forall us u, d_units b = Some us -> In u us -> in_service u = true -> named name u.
Definition good_branch (name : unit_data -> str) (zone : Z) (b : branch_data) : Prop :=
  placed zone (b_area1 b) (b_zone1 b) /\ placed zone (b_area2 b) (b_zone2 b) /\
  forall us u, b_lines b = Some us -> In u us -> in_service u = true -> named name u.

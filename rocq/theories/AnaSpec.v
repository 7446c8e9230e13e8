(** Independent specification: what the analytics must report for the whole network. *)
From Verif Require Import Prelude NetModel NetSpec DCModel.
Open Scope nat_scope.

(** The distributed network [nets] holds every bus and every branch of the whole network active on exactly one process. *)
Definition distributes (buses : list (bus dc)) (branches : list (branch dc)) (nets : list (net dc dc)) : Prop :=
  Permutation (map bus_core (filter (@b_active dc) (all_buses nets))) (map bus_core buses) /\
  Permutation (map branch_core (filter (@r_active dc) (all_branches nets))) (map branch_core branches).

(** The integer stored under a name (and index). *)
Definition int_at (d : dc) (key : string) : option Z := m_find (p_ints d) key.
(** Devices 0 .. n-1 of a collection, those out of service left out. *)
Definition devices (number stat : string) (d : dc) : list nat :=
  filter (fun i => match int_at d (stat ++ ":" ++ dec (Z.of_nat i))%string with Some s => (0 <? s)%Z | None => true end)
         (seq 0 (match int_at d number with Some n => Z.to_nat n | None => 0 end)).
(** At most ten million devices (their numbers must fit the seven characters of the key buffer). *)
Definition few (number : string) (d : dc) : Prop := match int_at d number with Some n => (n <= 10000000)%Z | None => True end.

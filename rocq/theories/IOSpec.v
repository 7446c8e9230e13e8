(** What serial output prints. *)
From Verif Require Import Prelude IOModel.

Section Spec.
Context {A : Type}.
(** What component [c] prints: its global index and its answer, if it is active and has one. *)
Definition prints (c : comp A) : list (nat * A) :=
  if c_active c then match c_write c with Some a => [(c_index c, a)] | None => [] end else [].
(** Everything printed by the network [w]. *)
Definition printed (w : list (list (comp A))) : list (nat * A) := flat_map (flat_map prints) w.
(** Components answering the same way when asked twice, within the promised length. *)
Definition steady (fits : A -> bool) (c : comp A) : Prop :=
  c_active c = true -> c_count c = c_write c /\ forall a, c_write c = Some a -> fits a = true.
End Spec.


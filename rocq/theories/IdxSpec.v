(** Specifications for index assignment and ghost exchange. *)
From Verif Require Import Prelude GAModel GAProofs ParModel ParSpec NetModel NetSpec IdxModel.

Definition orders_ok (P : nat) (o : xorders) : Prop :=
  Permutation (xo_ev o) (all_pairs P) /\ Permutation (xo_pw o) (all_pairs P) /\
  Permutation (xo_ev1 o) (all_pairs P) /\ Permutation (xo_pw1 o) (all_pairs P) /\
  Permutation (xo_ev2 o) (all_pairs P) /\ Permutation (xo_pw2 o) (all_pairs P).

Section Spec.
  Context {B R : Type}.
  Notation bus := (bus B). Notation branch := (branch R). Notation net := (net B R).

  Definition active_buses (nets : list net) := filter (@b_active B) (all_buses nets).
  Definition active_branches (nets : list net) := filter (@r_active R) (all_branches nets).

  (** Every bus number (end pair of a branch) has one active copy, and ghosts are copies of active ones; bus
      numbers are usable as hash keys. *)
  Definition owners_ok (nets : list net) : Prop :=
    NoDup (map (@b_orig B) (active_buses nets)) /\
    (forall b, In b (all_buses nets) -> In (b_orig b) (map (@b_orig B) (active_buses nets))) /\
    NoDup (map (fun r => (r_o1 r, r_o2 r)) (active_branches nets)) /\
    (forall r, In r (all_branches nets) -> In (r_o1 r, r_o2 r) (map (fun r => (r_o1 r, r_o2 r)) (active_branches nets))) /\
    Forall (fun b => 0 <= b_orig b)%Z (all_buses nets) /\
    Forall (fun r => pair_key_ok (r_o1 r, r_o2 r)) (all_branches nets).

  (** Two networks that differ in global bus and branch indices only. *)
  Definition no_bglob (b : bus) : bus := set_bglob b 0.
  Definition no_rglob (r : branch) : branch := set_rglob r 0.
  Definition same_but_indices (n n' : net) : Prop :=
    map no_bglob (n_buses n) = map no_bglob (n_buses n') /\
    map no_rglob (n_branches n) = map no_rglob (n_branches n') /\
    n_ref n = n_ref n' /\ n_busmap n = n_busmap n' /\ n_branchmap n = n_branchmap n'.

  (** Ghosts carry the index of the active copy. *)
  Definition ghosts_agree (nets : list net) : Prop :=
    (forall b a, In b (all_buses nets) -> In a (active_buses nets) -> b_orig b = b_orig a -> b_glob b = b_glob a) /\
    (forall r a, In r (all_branches nets) -> In a (active_branches nets) ->
       r_o1 r = r_o1 a -> r_o2 r = r_o2 a -> r_glob r = r_glob a).

  (** Global bus indices of the active buses are 0..N-1 in some order, and every ghost has one of them. *)
  Definition indexed (nets : list net) : Prop :=
    Permutation (map (@b_glob B) (active_buses nets)) (map Z.of_nat (iota (length (active_buses nets)))) /\
    (forall b, In b (all_buses nets) -> In (b_glob b) (map (@b_glob B) (active_buses nets))).
End Spec.

Section XSpec.
  Context {T : Type}.
  (** What an update must produce: the same buses, active ones untouched, every ghost with the buffer of an
      active bus of the same global index. *)
  Definition updated (w w' : list (list (cell T))) : Prop :=
    Forall2 (Forall2 (fun c c' : cell T => c_act c' = c_act c /\ c_idx c' = c_idx c /\
       (c_act c = true -> c_buf c' = c_buf c) /\
       (c_act c = false -> forall a, In a (concat w) -> c_act a = true -> c_idx a = c_idx c -> c_buf c' = c_buf a))) w w'.
  (** Active indices are unique and cover 0..total-1; ghosts have an active counterpart. *)
  Definition exchangeable (w : list (list (cell T))) : Prop :=
    let A := filter c_act (concat w) in
    Permutation (map c_idx A) (map Z.of_nat (iota (length A))) /\
    Forall (fun c => In (c_idx c) (map c_idx A)) (concat w).
End XSpec.

(** When a network answers every question as another one does. *)
From Verif Require Import Prelude GAModel ParModel NetModel ClnModel.

Section Same.
  Context {B R B' R' D : Type}.
  Record same_answers (o : dnet B R D) (n : dnet B' R' D) : Prop := {
    sa_buses : length (n_buses (d_net n)) = length (n_buses (d_net o));
    sa_branches : length (n_branches (d_net n)) = length (n_branches (d_net o));
    (* for every index, also those out of range *)
    sa_orig : forall i, at_bus (d_net n) i b_orig = at_bus (d_net o) i b_orig;
    sa_glob : forall i, at_bus (d_net n) i b_glob = at_bus (d_net o) i b_glob;
    sa_active : forall i, at_bus (d_net n) i b_active = at_bus (d_net o) i b_active;
    sa_data : forall i, at_bus (d_net n) i (fun b => snd (b_obj b)) = at_bus (d_net o) i (fun b => snd (b_obj b));
    sa_nbr : forall i, get_connected_branches (d_net n) i = get_connected_branches (d_net o) i;
    sa_conn : forall i, get_connected_buses (d_net n) i = get_connected_buses (d_net o) i;
    sa_rends : forall i, at_branch (d_net n) i (fun r => (r_o1 r, r_o2 r)) = at_branch (d_net o) i (fun r => (r_o1 r, r_o2 r));
    sa_rlocal : forall i, at_branch (d_net n) i (fun r => (r_l1 r, r_l2 r)) = at_branch (d_net o) i (fun r => (r_l1 r, r_l2 r));
    sa_rglob : forall i, at_branch (d_net n) i r_glob = at_branch (d_net o) i r_glob;
    sa_ractive : forall i, at_branch (d_net n) i r_active = at_branch (d_net o) i r_active;
    sa_rdata : forall i, at_branch (d_net n) i (fun r => snd (r_obj r)) = at_branch (d_net o) i (fun r => snd (r_obj r));
    sa_ref : n_ref (d_net n) = n_ref (d_net o);
    sa_net : d_data n = d_data o }.

  (** The ends of every branch are buses *)
  Definition linked (o : dnet B R D) : Prop :=
    forall r, In r (n_branches (d_net o)) ->
      (0 <= r_l1 r < Z.of_nat (length (n_buses (d_net o))))%Z /\ (0 <= r_l2 r < Z.of_nat (length (n_buses (d_net o))))%Z.

  (** Looking up an original index finds exactly the buses (branches) with that index (those ends), in order *)
  Definition finds (n : dnet B R D) : Prop :=
    (forall idx, get_local_bus_indices (d_net n) idx =
       filter (fun k => match nth_error (n_buses (d_net n)) k with Some b => b_orig b =? idx | None => false end)%Z (seq 0 (length (n_buses (d_net n))))) /\
    (forall i j, branch_entries (d_net n) i j =
       filter (fun k => match nth_error (n_branches (d_net n)) k with Some r => (r_o1 r =? i) && (r_o2 r =? j) | None => false end)%Z
              (seq 0 (length (n_branches (d_net n))))).
End Same.

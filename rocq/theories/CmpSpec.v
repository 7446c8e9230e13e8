(** What it means that the components of a network know their neighbours. *)
From Verif Require Import Prelude GAModel ParModel NetModel CmpModel.

(** A network as it comes out of reading and partitioning: every bus and branch has its own component, the ends of branches are buses,
    the branches of a bus exist, and the reference bus, if there is one, is a bus *)
Record ready (n : cnet) : Prop := {
  rd_buses : NoDup (map (@b_obj nat) (n_buses n));
  rd_branches : NoDup (map (@r_obj nat) (n_branches n));
  rd_ends : forall r, In r (n_branches n) -> (0 <= r_l1 r < Z.of_nat (length (n_buses n)))%Z /\ (0 <= r_l2 r < Z.of_nat (length (n_buses n)))%Z;
  rd_nbr : forall b j, In b (n_buses n) -> In j (b_nbr b) -> j < length (n_branches n);
  rd_ref : n_ref n = (-1)%Z \/ (0 <= n_ref n < Z.of_nat (length (n_buses n)))%Z }.

(** Bus i of the network *)
Definition is_bus (n : cnet) (i : Z) (b : bus nat) : Prop := (0 <= i)%Z /\ nth_error (n_buses n) (Z.to_nat i) = Some b.

(** The component of bus i *)
Record bus_knows (n : cnet) (mv : list Z) (before : cbus) (i : nat) (b : bus nat) (c : cbus) : Prop := {
  bk_orig : cb_orig c = b_orig b;
  bk_glob : cb_glob c = b_glob b;
  bk_mv : nth_error mv i = Some (cb_mv c);
  (* its branches, in the order of the network's list *)
  bk_branches : Forall2 (fun j p => exists r, nth_error (n_branches n) j = Some r /\ r_obj r = p) (b_nbr b) (cb_branches c);
  (* the buses at the other ends of these branches, in the same order *)
  bk_buses : Forall2 (fun j p => exists r b', nth_error (n_branches n) j = Some r /\
                (is_bus n (r_l1 r) b' /\ r_l1 r <> Z.of_nat i \/ is_bus n (r_l2 r) b' /\ r_l1 r = Z.of_nat i) /\ b_obj b' = p) (b_nbr b) (cb_buses c);
  (* it is the reference bus if it is that of the network (or was said to be before) *)
  bk_ref : cb_ref c = (n_ref n =? Z.of_nat i)%Z || cb_ref before }.

(** The component of a branch: the components at its ends and their indices *)
Record branch_knows (n : cnet) (s : comps) (r : branch nat) (c : cbranch) : Prop := {
  rk_glob : cr_glob c = r_glob r;
  rk_end1 : exists b, is_bus n (r_l1 r) b /\ cr_b1 c = Some (b_obj b) /\ cr_o1 c = b_orig b /\ cr_g1 c = b_glob b /\ cr_mv1 c = cb_mv (sb s (b_obj b));
  rk_end2 : exists b, is_bus n (r_l2 r) b /\ cr_b2 c = Some (b_obj b) /\ cr_o2 c = b_orig b /\ cr_g2 c = b_glob b /\ cr_mv2 c = cb_mv (sb s (b_obj b)) }.

Definition wired (n : cnet) (mv : list Z) (before s : comps) : Prop :=
  (forall i b, nth_error (n_buses n) i = Some b -> bus_knows n mv (sb before (b_obj b)) i b (sb s (b_obj b))) /\
  (forall j r, nth_error (n_branches n) j = Some r -> branch_knows n s r (sr s (r_obj r))).

(** Specifications for the distributed network: what users may rely on after partitioning, in terms of the
    original bus numbers. *)
From Verif Require Import Prelude NetModel.

Section Spec.
  Context {B R : Type}.
  Notation bus := (bus B). Notation branch := (branch R). Notation net := (net B R).

  Definition all_buses (nets : list net) : list bus := flat_map (@n_buses B R) nets.
  Definition all_branches (nets : list net) : list branch := flat_map (@n_branches B R) nets.
  Definition at_rank (nets : list net) (p : nat) : net := nth p nets (Net [] [] (-1)%Z [] []).

  (** What identifies a bus or a branch, wherever its copies are. *)
  Definition bus_core (b : bus) := (b_orig b, b_glob b, b_obj b, b_ref b).
  Definition branch_core (r : branch) := (r_glob r, r_o1 r, r_o2 r, r_obj r).

  (** A network as produced by the parsers: every bus and branch once, all active; bus numbers unique; global
      bus indices 0..N-1 in some order; branches join buses of the network. *)
  Definition fresh (nets : list net) : Prop :=
    Forall (fun b => b_active b = true) (all_buses nets) /\
    Forall (fun r => r_active r = true) (all_branches nets) /\
    NoDup (map (@b_orig B) (all_buses nets)) /\
    Permutation (map (@b_glob B) (all_buses nets)) (map Z.of_nat (iota (length (all_buses nets)))) /\
    Forall (fun r => In (r_o1 r) (map (@b_orig B) (all_buses nets)) /\
                     In (r_o2 r) (map (@b_orig B) (all_buses nets))) (all_branches nets).

  (** An answer of the external partitioner: one rank for every bus. *)
  Definition answer_ok (nets : list net) (part : list (list Z)) : Prop :=
    length part = length nets /\
    (forall p, length (nth p part []) = length (n_buses (at_rank nets p))) /\
    Forall (fun d => 0 <= d < Z.of_nat (length nets))%Z (concat part).

  (** The rank a bus number is assigned to, and its global index. *)
  Definition owner (nets : list net) (part : list (list Z)) (o : Z) : Z :=
    match find (fun x => b_orig (fst x) =? o)%Z (combine (all_buses nets) (concat part)) with
    | Some x => snd x | None => -1
    end.
  Definition global_index (nets : list net) (o : Z) : Z :=
    match find (fun b => b_orig b =? o)%Z (all_buses nets) with Some b => b_glob b | None => -1 end.

  (** The end of a branch with the smaller global index. *)
  Definition low_end (nets : list net) (r : branch) : Z :=
    if (global_index nets (r_o1 r) <=? global_index nets (r_o2 r))%Z then r_o1 r else r_o2 r.

  (** What a rank must hold after partitioning. *)
  Definition holds (nets : list net) (part : list (list Z)) (p : nat) (n : net) : Prop :=
    let mine o := (owner nets part o =? Z.of_nat p)%Z in
    (* the active buses are those assigned to the rank, each once *)
    Permutation (map bus_core (filter (@b_active B) (n_buses n)))
                (map bus_core (filter (fun b => mine (b_orig b)) (all_buses nets))) /\
    (* the branches are those with an end assigned to the rank, each once *)
    Permutation (map branch_core (n_branches n))
                (map branch_core (filter (fun r => mine (r_o1 r) || mine (r_o2 r)) (all_branches nets))) /\
    (* the active ones are those whose lower end is assigned to the rank *)
    Permutation (map branch_core (filter (@r_active R) (n_branches n)))
                (map branch_core (filter (fun r => mine (low_end nets r)) (all_branches nets))) /\
    (* the ghost buses are the buses of other ranks joined by a branch to a bus of this rank *)
    (forall c, In c (map bus_core (filter (fun b => negb (b_active b)) (n_buses n))) <->
       exists b, In b (all_buses nets) /\ bus_core b = c /\ mine (b_orig b) = false /\
         exists r, In r (all_branches nets) /\
           ((r_o1 r = b_orig b /\ mine (r_o2 r) = true) \/ (r_o2 r = b_orig b /\ mine (r_o1 r) = true))) /\
    (* the local and global end indices of every branch name its two end buses *)
    (forall r, In r (n_branches n) ->
       exists b1 b2, zget (n_buses n) (r_l1 r) = Some b1 /\ b_orig b1 = r_o1 r /\ r_g1 r = b_glob b1 /\
                     zget (n_buses n) (r_l2 r) = Some b2 /\ b_orig b2 = r_o2 r /\ r_g2 r = b_glob b2) /\
    (* the neighbour lists name the branches ending at the bus, in order *)
    (forall i b, nth_error (n_buses n) i = Some b ->
       b_nbr b = flat_map (fun jr : nat * branch =>
                   ((if r_l1 (snd jr) =? Z.of_nat i then [fst jr] else []) ++
                    (if r_l2 (snd jr) =? Z.of_nat i then [fst jr] else []))%Z%list)
                 (combine (iota (length (n_branches n))) (n_branches n))) /\
    (* for an active bus these are all branches of the network that have this bus as an end *)
    (forall i b j r, nth_error (n_buses n) i = Some b -> b_active b = true ->
       nth_error (n_branches n) j = Some r ->
       ((r_l1 r = Z.of_nat i <-> r_o1 r = b_orig b) /\ (r_l2 r = Z.of_nat i <-> r_o2 r = b_orig b))).

  (** ** clean *)
  (** The position of entry [i] among the kept ones, if it is kept. *)
  Definition new_pos {A} (act : A -> bool) (l : list A) (i : nat) : option nat :=
    match nth_error l i with
    | Some x => if act x then Some (length (filter act (firstn i l))) else None
    | None => None
    end.
  Definition new_pos_z {A} (act : A -> bool) (l : list A) (i : Z) : Z :=
    if (i <? 0)%Z then -1 else match new_pos act l (Z.to_nat i) with Some k => Z.of_nat k | None => -1 end.
  (** A bus, a branch and the reference to them after the local indices have been renumbered. *)
  Definition renumbered_bus (n : net) (b : bus) : bus :=
    Bus (b_active b) (b_orig b) (b_glob b)
        (flat_map (fun j => match new_pos (@r_active R) (n_branches n) j with Some k => [k] | None => [] end) (b_nbr b))
        (b_obj b) (b_ref b).
  Definition renumbered_branch (n : net) (r : branch) : branch :=
    Branch (r_active r) (r_glob r) (r_o1 r) (r_o2 r) (r_g1 r) (r_g2 r)
           (new_pos_z (@b_active B) (n_buses n) (r_l1 r)) (new_pos_z (@b_active B) (n_buses n) (r_l2 r)) (r_obj r).

  (** ** Neighbour queries *)
  (** The branches with global bus index [g] at an end, in order; a branch with both ends at the bus twice. *)
  Definition incident (rs : list branch) (g : Z) : list nat :=
    flat_map (fun jr : nat * branch => ((if r_g1 (snd jr) =? g then [fst jr] else []) ++
                                        (if r_g2 (snd jr) =? g then [fst jr] else []))%Z%list)
             (combine (iota (length rs)) rs).
  (** Bus [k] is at the other end of branch [j] as seen from the bus with global index [g]. *)
  Definition other_end (n : net) (g : Z) (j : nat) (k : Z) : Prop :=
    exists r b, nth_error (n_branches n) j = Some r /\ zget (n_buses n) k = Some b /\
      ((r_g1 r = g /\ b_glob b = r_g2 r) \/ (r_g2 r = g /\ b_glob b = r_g1 r)).
  (** Global bus indices are unique and every branch ends at local buses. *)
  Definition self_contained (n : net) : Prop :=
    NoDup (map (@b_glob B) (n_buses n)) /\
    Forall (fun r => In (r_g1 r) (map (@b_glob B) (n_buses n)) /\ In (r_g2 r) (map (@b_glob B) (n_buses n))) (n_branches n).
End Spec.

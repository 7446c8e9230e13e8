(** Copying a network into one with other components: /repo/src/network/base_network.hpp clone, clear and the accessors and
    modifiers they use.  A component and its DataCollection are a pair; a DataCollection is a value ([D]), as the assignments copy
    its contents. *)
From Verif Require Import Prelude GAModel ParModel NetModel.

(** A network with its network data *)
Record dnet (B R D : Type) := DNet { d_net : net (B * D) (R * D); d_data : D }.
Arguments DNet {B R D}. Arguments d_net {B R D}. Arguments d_data {B R D}.

Section Get.
  Context {B R D : Type}.
  (** base_network.hpp:745-830, 896-978, 1022-1037: an accessor throws if the index is not in range *)
  Definition at_bus {A} (n : net (B * D) (R * D)) (i : Z) (f : bus (B * D) -> A) : outcome A :=
    match zget (n_buses n) i with Some b => Ok (f b) | None => Throw end.
  Definition at_branch {A} (n : net (B * D) (R * D)) (i : Z) (f : branch (R * D) -> A) : outcome A :=
    match zget (n_branches n) i with Some r => Ok (f r) | None => Throw end.
  (** base_network.hpp:518-717: a modifier does nothing (and returns false, which clone ignores) if the index is not in range *)
  Definition mod_bus (n : net (B * D) (R * D)) (i : Z) (f : bus (B * D) -> bus (B * D)) : net (B * D) (R * D) :=
    match zget (n_buses n) i with Some b => set_buses n (upd (n_buses n) (Z.to_nat i) (f b)) | None => n end.
  Definition mod_branch (n : net (B * D) (R * D)) (i : Z) (f : branch (R * D) -> branch (R * D)) : net (B * D) (R * D) :=
    match zget (n_branches n) i with Some r => set_branches n (upd (n_branches n) (Z.to_nat i) (f r)) | None => n end.
  (** base_network.hpp:918-957: *(getBusData(i)) = d, *(getBranchData(i)) = d *)
  Definition put_bus_data (n : net (B * D) (R * D)) (i : Z) (d : D) : outcome (net (B * D) (R * D)) :=
    obind (at_bus n i (fun _ => tt)) (fun _ =>
      Ok (mod_bus n i (fun b => Bus (b_active b) (b_orig b) (b_glob b) (b_nbr b) (fst (b_obj b), d) (b_ref b)))).
  Definition put_branch_data (n : net (B * D) (R * D)) (i : Z) (d : D) : outcome (net (B * D) (R * D)) :=
    obind (at_branch n i (fun _ => tt)) (fun _ =>
      Ok (mod_branch n i (fun r => Branch (r_active r) (r_glob r) (r_o1 r) (r_o2 r) (r_g1 r) (r_g2 r) (r_l1 r) (r_l2 r) (fst (r_obj r), d)))).
  (** base_network.hpp:485-498 setReferenceBus *)
  Definition set_reference (n : net (B * D) (R * D)) (i : Z) : net (B * D) (R * D) :=
    let n1 := Net (n_buses n) (n_branches n) i (n_busmap n) (n_branchmap n) in
    mod_bus n1 i (fun b => Bus (b_active b) (b_orig b) (b_glob b) (b_nbr b) (b_obj b) true).
  (** base_network.hpp:1611-1712 clear: buses, branches and the reference bus; not the maps, not the network data *)
  Definition clear_net (n : net (B * D) (R * D)) : net (B * D) (R * D) := Net [] [] (-1) (n_busmap n) (n_branchmap n).
  Definition clear_dnet (n : dnet B R D) : dnet B R D := DNet (clear_net (d_net n)) (d_data n).
End Get.

Section Clone.
  Context {B R B' R' D : Type}.
  (** A new component (its constructor), and a new DataCollection *)
  Context (nb : B') (nr : R') (nd : D).
  Notation old_net := (net (B * D) (R * D)).
  Notation new_net := (net (B' * D) (R' * D)).

  (** base_network.hpp:1403-1418: one bus *)
  Definition clone_bus (o : old_net) (n : new_net) (k : nat) : outcome new_net :=
    let i := Z.of_nat k in
    obind (at_bus o i b_orig) (fun idx =>
    let n1 := add_bus n idx (nb, nd) in
    obind (at_bus o i b_glob) (fun g =>
    let n2 := mod_bus n1 i (fun b => set_bglob b g) in
    obind (at_bus o i (fun b => snd (b_obj b))) (fun d =>
    obind (put_bus_data n2 i d) (fun n3 =>
    obind (at_bus o i b_active) (fun a =>
    let n4 := mod_bus n3 i (fun b => set_bactive b a) in
    obind (get_connected_branches o i) (fun l =>
    Ok (fold_left (fun m j => mod_bus m i (fun b => set_nbr b (b_nbr b ++ [j])%list)) l n4))))))).
  (** base_network.hpp:1424-1439: one branch *)
  Definition clone_branch (o : old_net) (n : new_net) (k : nat) : outcome new_net :=
    let i := Z.of_nat k in
    obind (at_branch o i (fun r => (r_o1 r, r_o2 r))) (fun e =>
    let n1 := add_branch n (fst e) (snd e) (nr, nd) in
    obind (at_branch o i r_glob) (fun g =>
    let n2 := mod_branch n1 i (fun r => set_rglob r g) in
    obind (at_branch o i (fun r => snd (r_obj r))) (fun d =>
    obind (put_branch_data n2 i d) (fun n3 =>
    obind (at_branch o i r_active) (fun a =>
    let n4 := mod_branch n3 i (fun r => set_ractive r a) in
    obind (at_branch o i (fun r => (r_l1 r, r_l2 r))) (fun l =>
    let n5 := mod_branch n4 i (fun r => set_rl r (fst l) (r_l2 r)) in
    let n6 := mod_branch n5 i (fun r => set_rl r (r_l1 r) (snd l)) in
    obind (at_bus o (fst l) b_glob) (fun g1 =>
    let n7 := mod_branch n6 i (fun r => set_rg r g1 (r_g2 r)) in
    obind (at_bus o (snd l) b_glob) (fun g2 =>
    Ok (mod_branch n7 i (fun r => set_rg r (r_g1 r) g2)))))))))).
  Fixpoint each {A} (f : A -> nat -> outcome A) (is : list nat) (x : A) : outcome A :=
    match is with [] => Ok x | i :: r => obind (f x i) (each f r) end.
  (** base_network.hpp:1395-1444 clone; [target]: the network passed, whatever it held *)
  Definition clone (o : dnet B R D) (target : dnet B' R' D) : outcome (dnet B' R' D) :=
    let n0 := d_net (clear_dnet target) in
    let on := d_net o in
    obind (each (clone_bus on) (iota (length (n_buses on))) n0) (fun n1 =>
    let n2 := if (n_ref on =? -1)%Z then n1 else set_reference n1 (n_ref on) in
    obind (each (clone_branch on) (iota (length (n_branches on))) n2) (fun n3 =>
    Ok (DNet (set_map n3) (d_data o)))).
End Clone.

(** The same with the network itself as target: clear is called first, then the loops run over what is left *)
Definition clone_self {B R D} (nb : B) (nr : R) (nd : D) (n : dnet B R D) : outcome (dnet B R D) :=
  clone nb nr nd (clear_dnet n) n.

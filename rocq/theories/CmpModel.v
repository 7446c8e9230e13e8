(** Components and their neighbours: /repo/src/component/base_component.cpp (BaseBusComponent, BaseBranchComponent) and the parts of
    /repo/src/factory/base_factory.hpp that set them up on one process.  The components of a network are objects with a number
    ([b_obj], [r_obj]); weak pointers are such numbers. *)
From Verif Require Import Prelude GAModel ParModel NetModel ClnModel.

Notation cnet := (net nat nat).
(** base_component.hpp BaseBusComponent: p_buses, p_branches, p_refBus, p_originalIndex, p_globalIndex and the index p_ival *)
Record cbus := CBus { cb_buses : list nat; cb_branches : list nat; cb_ref : bool; cb_orig : Z; cb_glob : Z; cb_mv : Z }.
(** base_component.hpp BaseBranchComponent: p_bus1, p_bus2 (None: an empty weak pointer), p_globalIndex, p_originalBus1Index,
    p_originalBus2Index, p_globalBus1Index, p_globalBus2Index, p_idx, p_jdx *)
Record cbranch := CBranch { cr_b1 : option nat; cr_b2 : option nat; cr_glob : Z; cr_o1 : Z; cr_o2 : Z; cr_g1 : Z; cr_g2 : Z; cr_mv1 : Z; cr_mv2 : Z }.
(** base_component.cpp:26-32, 583-587, 732-737: the constructors *)
Definition new_cbus : cbus := CBus [] [] false (-1) (-1) (-1).
Definition new_cbranch : cbranch := CBranch None None (-1) (-1) (-1) (-1) (-1) (-1) (-1).
(** All components *)
Record comps := Comps { sb : nat -> cbus; sr : nat -> cbranch }.
Definition all_new : comps := Comps (fun _ => new_cbus) (fun _ => new_cbranch).
Definition setb (c : nat) (f : cbus -> cbus) (s : comps) : comps := Comps (fun x => if x =? c then f (sb s x) else sb s x) (sr s).
Definition setr (c : nat) (f : cbranch -> cbranch) (s : comps) : comps := Comps (sb s) (fun x => if x =? c then f (sr s x) else sr s x).

(** base_network.hpp:807-823 getBus, 870-886 getBranch, 1022-1037 getBranchEndpoints and the other accessors throw out of range *)
Definition bus_at {A} (n : cnet) (i : Z) (f : bus nat -> A) : outcome A := match zget (n_buses n) i with Some b => Ok (f b) | None => Throw end.
Definition branch_at {A} (n : cnet) (i : Z) (f : branch nat -> A) : outcome A := match zget (n_branches n) i with Some r => Ok (f r) | None => Throw end.

(** base_factory.hpp:86-97: the buses at the ends of branch i (its indices for the matrix are set again at the end) *)
Definition set_ends (n : cnet) (s : comps) (i : nat) : outcome comps :=
  obind (branch_at n (Z.of_nat i) (fun r => (r_l1 r, r_l2 r))) (fun e =>
  obind (branch_at n (Z.of_nat i) (@r_obj nat)) (fun c =>
  obind (bus_at n (fst e) (@b_obj nat)) (fun b1 =>
  obind (bus_at n (snd e) (@b_obj nat)) (fun b2 =>
  Ok (setr c (fun r => CBranch (Some b1) (Some b2) (cr_glob r) (cr_o1 r) (cr_o2 r) (cr_g1 r) (cr_g2 r) (cr_mv1 r) (cr_mv2 r)) s))))).
(** base_factory.hpp:101-116: the neighbours of bus i; clearBuses, addBus, clearBranches and addBranch (base_component.cpp:603-665)
    taken together *)
Definition set_nbrs (n : cnet) (s : comps) (i : nat) : outcome comps :=
  obind (bus_at n (Z.of_nat i) (@b_obj nat)) (fun c =>
  obind (get_connected_buses n (Z.of_nat i)) (fun ks =>
  obind (oall (map (fun k => bus_at n k (@b_obj nat)) ks)) (fun bs =>
  obind (get_connected_branches n (Z.of_nat i)) (fun js =>
  obind (oall (map (fun j => branch_at n (Z.of_nat j) (@r_obj nat)) js)) (fun rs =>
  Ok (setb c (fun b => CBus bs rs (cb_ref b) (cb_orig b) (cb_glob b) (cb_mv b)) s)))))).
(** base_factory.hpp:122-126: the reference bus *)
Definition set_ref (n : cnet) (s : comps) : outcome comps :=
  if (n_ref n =? -1)%Z then Ok s
  else obind (bus_at n (n_ref n) (@b_obj nat)) (fun c => Ok (setb c (fun b => CBus (cb_buses b) (cb_branches b) true (cb_orig b) (cb_glob b) (cb_mv b)) s)).
(** base_factory.hpp:129-132 *)
Definition set_indices (n : cnet) (s : comps) (i : nat) : outcome comps :=
  obind (bus_at n (Z.of_nat i) (fun b => (b_obj b, (b_orig b, b_glob b)))) (fun x =>
  Ok (setb (fst x) (fun b => CBus (cb_buses b) (cb_branches b) (cb_ref b) (fst (snd x)) (snd (snd x)) (cb_mv b)) s)).
(** base_component.cpp:766-784 getBus1, getBus2: a shared pointer made from an empty weak pointer throws *)
Definition deref (p : option nat) : outcome nat := match p with Some b => Ok b | None => Throw end.
(** base_factory.hpp:133-151: the indices of the ends, read from the components at the ends *)
Definition set_branch_indices (n : cnet) (s : comps) (i : nat) : outcome comps :=
  obind (branch_at n (Z.of_nat i) (fun r => (r_obj r, r_glob r))) (fun x =>
  obind (deref (cr_b1 (sr s (fst x)))) (fun b1 =>
  obind (deref (cr_b2 (sr s (fst x)))) (fun b2 =>
  Ok (setr (fst x) (fun r => CBranch (cr_b1 r) (cr_b2 r) (snd x) (cb_orig (sb s b1)) (cb_orig (sb s b2)) (cb_glob (sb s b1)) (cb_glob (sb s b2)) (cr_mv1 r) (cr_mv2 r)) s)))).
(** base_factory.hpp:215-218: the index gathered for bus i *)
Definition set_mv (n : cnet) (mv : list Z) (s : comps) (i : nat) : outcome comps :=
  obind (bus_at n (Z.of_nat i) (@b_obj nat)) (fun c =>
  match nth_error mv i with
  | None => UB
  | Some m => Ok (setb c (fun b => CBus (cb_buses b) (cb_branches b) (cb_ref b) (cb_orig b) (cb_glob b) m) s)
  end).
(** base_factory.hpp:226-230 *)
Definition set_branch_mv (n : cnet) (s : comps) (i : nat) : outcome comps :=
  obind (branch_at n (Z.of_nat i) (@r_obj nat)) (fun c =>
  obind (deref (cr_b1 (sr s c))) (fun b1 =>
  obind (deref (cr_b2 (sr s c))) (fun b2 =>
  Ok (setr c (fun r => CBranch (cr_b1 r) (cr_b2 r) (cr_glob r) (cr_o1 r) (cr_o2 r) (cr_g1 r) (cr_g2 r) (cb_mv (sb s b1)) (cb_mv (sb s b2))) s)))).

(** base_factory.hpp:44-58: what the factory remembers of the network when it is made: the numbers of buses and branches and the
    addresses of the components *)
Record factory := Factory { f_buses : list nat; f_branches : list nat }.
Definition make_factory (n : cnet) : factory := Factory (map (@b_obj nat) (n_buses n)) (map (@r_obj nat) (n_branches n)).
Definition f_nb (f : factory) : nat := length (f_buses f).
Definition f_nr (f : factory) : nat := length (f_branches f).

(** base_factory.hpp:75-236 setComponents on one process; [mv]: the indices gathered from the global array (C15) *)
Definition set_comps (f : factory) (n : cnet) (mv : list Z) (s : comps) : outcome comps :=
  obind (each (set_ends n) (iota (f_nr f)) s) (fun s1 =>
  obind (each (set_nbrs n) (iota (f_nb f)) s1) (fun s2 =>
  obind (set_ref n s2) (fun s3 =>
  obind (each (set_indices n) (iota (f_nb f)) s3) (fun s4 =>
  obind (each (set_branch_indices n) (iota (f_nr f)) s4) (fun s5 =>
  obind (each (set_mv n mv) (iota (f_nb f)) s5) (fun s6 =>
  each (set_branch_mv n) (iota (f_nr f)) s6)))))).

(** base_factory.hpp:244-283 load, the part about the reference bus; [flags]: which components (by number) say that they are the
    reference bus after their own load method *)
Fixpoint load_ref (flags : nat -> bool) (bs : list (bus nat)) (i : nat) (ref : Z) : Z :=
  match bs with
  | [] => ref
  | b :: r => load_ref flags r (S i) (if flags (b_obj b) then Z.of_nat i else ref)
  end.

(** base_factory.hpp:458-471 saveData: the state of component f_buses[i] goes to the data of bus i of the network.  [alive]: the
    components that still exist; calling one that does not is undefined.  The result: which component wrote into which data. *)
Definition save_data (f : factory) (alive : nat -> bool) (n : cnet) : outcome (list (nat * nat)) :=
  oall (map (fun ic => if alive (snd ic) then bus_at n (Z.of_nat (fst ic)) (fun b => (snd ic, b_obj b)) else UB)
            (combine (iota (f_nb f)) (f_buses f))).

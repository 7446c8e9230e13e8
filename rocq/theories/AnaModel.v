(** Model of NetworkAnalytics (/repo/src/analysis/network_analytics.hpp) and of the component interface it uses
    (/repo/src/component/base_analytics_intfc.cpp).  The objects of a network are the DataCollections of its buses and branches
    (constructor, network_analytics.hpp:46-57).  getGlobalIndex of a component is the global index of the network entry
    (factory/base_factory.hpp:127, :136).  Collective calls return one answer per process. *)
From Verif Require Import Prelude GAModel NetModel DCModel.
Open Scope nat_scope.

Notation anet := (net dc dc).

(** base_analytics_intfc.cpp:51-69, :74-92, :135-151: getValue(number), then a loop over the devices; one with a status that is not
    positive is left out. *)
Fixpoint count_loop (d : dc) (stat : string) (idx : list nat) : outcome Z :=
  match idx with
  | [] => Ok 0%Z
  | i :: r =>
      obind (get_value d TInt (Indexed stat (Z.of_nat i)) (VInt 0)) (fun x =>
      obind (count_loop d stat r) (fun c =>
        match x with
        | (true, VInt istat) => Ok (if (0 <? istat)%Z then 1 + c else c)%Z
        | _ => Ok (1 + c)%Z
        end))
  end.
Definition num_devices (number stat : string) (d : dc) : outcome Z :=
  obind (get_value d TInt (Plain number) (VInt 0)) (fun x =>
    count_loop d stat (iota (match x with (true, VInt n) => Z.to_nat n | _ => 0 end))).
Definition num_generators := num_devices "GENERATOR_NUMBER" "GENERATOR_STAT".
Definition num_loads := num_devices "LOAD_NUMBER" "LOAD_STATUS".
Definition num_lines := num_devices "BRANCH_NUM_ELEMENTS" "BRANCH_STATUS".
(** base_analytics_intfc.cpp:95-98 *)
Definition num_storage (d : dc) : outcome Z := Ok 0%Z.

Definition zsum (l : list Z) : Z := fold_right Z.add 0%Z l.
(** communicator().sum: every process gets the sum. *)
Definition all_sum (l : list Z) : list Z := repeat (zsum l) (length l).
(** network_analytics.hpp:70-82, :107-119, :145-157 *)
Definition total_bus (count : dc -> outcome Z) (nets : list anet) : outcome (list Z) :=
  obind (oall (map (fun n => obind (oall (map (fun b => if b_active b then count (b_obj b) else Ok 0%Z) (n_buses n)))
                                   (fun l => Ok (zsum l))) nets)) (fun l => Ok (all_sum l)).
(** :181-193 *)
Definition total_branch (count : dc -> outcome Z) (nets : list anet) : outcome (list Z) :=
  obind (oall (map (fun n => obind (oall (map (fun b => if r_active b then count (r_obj b) else Ok 0%Z) (n_branches n)))
                                   (fun l => Ok (zsum l))) nets)) (fun l => Ok (all_sum l)).
(** :371-384 and :395-408: the last active entry with the index. *)
Fixpoint local_from {A} (glob : A -> Z) (act : A -> bool) (g : Z) (l : list A) (acc : option A) : option A :=
  match l with
  | [] => acc
  | x :: r => local_from glob act g r (if (glob x =? g)%Z then if act x then Some x else acc else acc)
  end.
Definition local_bus (n : anet) (g : Z) : option (bus dc) := local_from (@b_glob dc) (@b_active dc) g (n_buses n) None.
Definition local_branch (n : anet) (g : Z) : option (branch dc) := local_from (@r_glob dc) (@r_active dc) g (n_branches n) None.
(** :88-100, :126-138, :164-176 and :200-213 *)
Definition on_bus (count : dc -> outcome Z) (g : Z) (nets : list anet) : outcome (list Z) :=
  obind (oall (map (fun n => match local_bus n g with Some b => count (b_obj b) | None => Ok 0%Z end) nets))
        (fun l => Ok (all_sum l)).
Definition on_branch (count : dc -> outcome Z) (g : Z) (nets : list anet) : outcome (list Z) :=
  obind (oall (map (fun n => match local_branch n g with Some b => count (r_obj b) | None => Ok 0%Z end) nets))
        (fun l => Ok (all_sum l)).
(** base_network.hpp:438-451, :466-479 *)
Definition total_buses (nets : list anet) : list Z :=
  all_sum (map (fun n => Z.of_nat (length (filter (@b_active dc) (n_buses n)))) nets).
Definition total_branches (nets : list anet) : list Z :=
  all_sum (map (fun n => Z.of_nat (length (filter (@r_active dc) (n_branches n)))) nets).

(** :291-322 and :329-360 getBusInfo, getBranchInfo: [found] is the DataCollection of the active entry on each process, [old] the
    callers' variables.  The owner broadcasts; the others contribute root 0.  An uninitialised [result] is [None]. *)
Definition pick (t : dtype) (field : string) (dev : Z) (d : option dc) : outcome (option value) :=
  match d with
  | None => Ok None
  | Some d => obind (get_value d t (if (dev <? 0)%Z then Plain field else Indexed field dev) (VInt 0))
                    (fun x => Ok (if fst x then Some (snd x) else None))
  end.
Definition get_info (t : dtype) (field : string) (dev : Z) (found : list (option dc)) (old : list value)
  : outcome (list (bool * value)) :=
  obind (oall (map (pick t field dev) found)) (fun res =>
    if existsb (fun r => match r with Some _ => true | None => false end) res
    then let root := zsum (map (fun pr => match snd pr with Some _ => Z.of_nat (fst pr) | None => 0%Z end)
                              (combine (iota (length res)) res)) in
         match nth_error res (Z.to_nat root) with
         | Some (Some v) => Ok (repeat (true, v) (length old))
         | _ => UB
         end
    else Ok (map (fun v => (false, v)) old)).
Definition bus_info (t : dtype) (field : string) (dev g : Z) (nets : list anet) (old : list value) :=
  get_info t field dev (map (fun n => option_map (@b_obj dc) (local_bus n g)) nets) old.
Definition branch_info (t : dtype) (field : string) (dev g : Z) (nets : list anet) (old : list value) :=
  get_info t field dev (map (fun n => option_map (@r_obj dc) (local_branch n g)) nets) old.

(** :238-258 getConnectedBranches: the original index of the bus is handed to a query that expects a local index
    (base_network.hpp:963-978); the owner's list of global branch indices is broadcast. *)
Definition connected_branches (g : Z) (nets : list anet) : outcome (list Z) :=
  obind (oall (map (fun n => match local_bus n g with
                             | None => Ok None
                             | Some b => obind (get_connected_branches n (b_orig b)) (fun js =>
                                 obind (oall (map (fun j => match nth_error (n_branches n) j with Some r => Ok (r_glob r) | None => Throw end) js))
                                       (fun l => Ok (Some l)))
                             end) nets)) (fun res =>
    let root := zsum (map (fun pr => match snd pr with Some _ => Z.of_nat (fst pr) | None => 0%Z end) (combine (iota (length res)) res)) in
    match nth_error res (Z.to_nat root) with Some (Some l) => Ok l | Some None => Ok [] | None => UB end).
(** :269-285 getBranchEndpoints; getOriginalBranchIndex (base_network.hpp:768-782) expects a local index and returns a global one,
    which getActiveBranch and getOriginalBranchEndpoints take as a local index again (all throw when out of range). *)
Definition branch_endpoints (idx : Z) (nets : list anet) : outcome (Z * Z) :=
  obind (oall (map (fun n =>
      match zget (n_branches n) idx with
      | None => Throw
      | Some r => if (r_glob r <? 0)%Z then Ok (0, 0)%Z
                  else match zget (n_branches n) (r_glob r) with
                       | None => Throw
                       | Some r' => Ok (if r_active r' then (r_o1 r', r_o2 r') else (0, 0)%Z)
                       end
      end) nets)) (fun l => Ok (zsum (map fst l), zsum (map snd l))).

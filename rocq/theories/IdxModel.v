(** Model of index assignment on a distributed network: BaseNetwork::resetGlobalIndices,
    initBusUpdate/updateBuses, initBranchUpdate/updateBranches (/repo/src/network/base_network.hpp) and
    BaseFactory::setComponents (/repo/src/factory/base_factory.hpp). *)
From Verif Require Import Prelude GAModel ParModel ParSpec NetModel.

(** ** Consecutive numbers for the active entries, owner's numbers for the ghosts *)
(** The orders in which the concurrent operations of addPairs and getValues take effect. *)
Record xorders := XOrders { xo_ev : list (nat * nat); xo_pw : list (nat * nat); xo_ev1 : list (nat * nat);
                            xo_pw1 : list (nat * nat); xo_ev2 : list (nat * nat); xo_pw2 : list (nat * nat) }.

Section Reset.
  Context {X K : Type}.
  Variables (act : X -> bool) (key : X -> K) (glob : X -> Z) (setg : X -> Z -> X).
  Variables (keq : K -> K -> bool) (hash : nat -> K -> outcome nat).

  (** base_network.hpp:1474-1481 (buses) and :1544-1552 (branches). *)
  Fixpoint number (next : Z) (xs : list X) : list X :=
    match xs with
    | [] => []
    | x :: r => if act x then setg x next :: number (next + 1) r else x :: number next r
    end.

  (** :1512-1516 and :1585-1589: only the first value of a key is inserted into the local map. *)
  Fixpoint lmap_find (kv : list (K * Z)) (k : K) : option Z :=
    match kv with [] => None | (a, v) :: r => if keq a k then Some v else lmap_find r k end.

  (** :1518-1530 and :1591-1604. *)
  Definition set_ghosts (kv : list (K * Z)) (xs : list X) : list X :=
    map (fun x => if act x then x else match lmap_find kv (key x) with Some g => setg x g | None => x end) xs.

  Definition active_count (xs : list X) : nat := length (filter act xs).

  (** :1459-1530 and :1532-1604.  [w]: the buses (branches) of every rank. *)
  Definition reset (flag : bool) (w : list (list X)) (o : xorders) : outcome (list (list X)) :=
    let P := length w in
    let counts := map active_count w in
    let w1 := if flag then map (fun p => number (Z.of_nat (offset counts p)) (nth p w [])) (iota P) else w in
    obind (add_pairs hash (repeat [] P) (map (fun xs => map (fun x => (key x, glob x)) (filter act xs)) w1)
                     (xo_ev o) (xo_pw o)) (fun tabs =>
    obind (get_values keq hash tabs (map (fun xs => map key (filter (fun x => negb (act x)) xs)) w1) (repeat [] P)
                      (xo_ev1 o) (xo_pw1 o) (xo_ev2 o) (xo_pw2 o)) (fun res =>
    Ok (map (fun p => set_ghosts (combine (fst (nth p res ([], []))) (snd (nth p res ([], [])))) (nth p w1 [])) (iota P)))).
End Reset.

Section Nets.
  Context {B R : Type}.
  Notation bus := (bus B). Notation branch := (branch R). Notation net := (net B R).

  (** base_network.hpp:1452-1606 resetGlobalIndices(flag). *)
  Definition reset_global_indices (flag : bool) (nets : list net) (ob orr : xorders) : outcome (list net) :=
    obind (reset (@b_active B) (@b_orig B) (@b_glob B) (@set_bglob B) Z.eqb hash_int flag (map (@n_buses B R) nets) ob) (fun bs =>
    obind (reset (@r_active R) (fun r => (r_o1 r, r_o2 r)) (@r_glob R) (@set_rglob R) pair_eqb hash_pair flag
                 (map (@n_branches B R) nets) orr) (fun rs =>
    Ok (map (fun p => set_branches (set_buses (nth_net nets p) (nth p bs [])) (nth p rs [])) (iota (length nets))))).

  (** base_factory.hpp:155-238, the MatVec indices of the buses of every rank.  [ord]: the order in which the
      elements scattered by all ranks take effect.  GA_Zero (:183) gives unwritten elements the value 0.
      Simplified: two calls to GA with zero elements (:195, :213) have no effect. *)
  Definition new_indices (w : list (list bus)) : list (list (Z * Z)) :=
    let counts := map (active_count (@b_active B)) w in
    map (fun p => combine (map (@b_glob B) (filter (@b_active B) (nth p w [])))
                          (map (fun k => Z.of_nat (offset counts p + k)) (iota (nth p counts 0)))) (iota (length w)).
  Definition zgather {A} (g : garray A) (idx : list Z) : outcome (list A) :=
    if existsb (fun i => i <? 0)%Z idx then UB else ga_gather g (map Z.to_nat idx).
  Definition bus_indices (w : list (list bus)) (ord : list (Z * Z)) : outcome (list (list Z)) :=
    let ntot := sumn (map (active_count (@b_active B)) w) in
    obind (zscatter (repeat (Some 0%Z) ntot) ord) (fun g =>
    oall (map (fun xs => zgather g (map (@b_glob B) xs)) w)).

  (** base_factory.hpp:226-231: getBus1()/getBus2() were set from the local end indices (:88-90). *)
  Definition branch_indices (rs : list branch) (mv : list Z) : outcome (list (Z * Z)) :=
    oall (map (fun r => match zget mv (r_l1 r), zget mv (r_l2 r) with
                        | Some a, Some b => Ok (a, b)
                        | _, _ => UB
                        end) rs).

  Definition set_components (nets : list net) (ord : list (Z * Z)) : outcome (list (list Z * list (Z * Z))) :=
    obind (bus_indices (map (@n_buses B R) nets) ord) (fun mvs =>
    oall (map (fun p => obind (branch_indices (n_branches (nth_net nets p)) (nth p mvs []))
                              (fun bi => Ok (nth p mvs [], bi))) (iota (length nets)))).
End Nets.

(** ** Ghost exchange *)
Section Exchange.
  Context {T : Type}.
  (** One bus or branch: active flag, global index, exchange buffer. *)
  Definition cell := (bool * Z * T)%type.
  Definition c_act (c : cell) := fst (fst c).
  Definition c_idx (c : cell) := snd (fst c).
  Definition c_buf (c : cell) := snd c.

  Definition xc_total (w : list (list cell)) : nat := sumn (map (fun cs => length (filter c_act cs)) w).

  (** base_network.hpp:2095-2121: an index outside [0,total) makes some rank throw. *)
  Definition init_bus_update (w : list (list cell)) : outcome nat :=
    let tot := xc_total w in
    if forallb (fun c => (0 <=? c_idx c) && (c_idx c <? Z.of_nat tot))%Z (concat w) then Ok tot else Throw.

  (** base_network.hpp:2188-2309: as above, but [new int(nprocs)] (:2233-2234) allocates one int and the loop
      :2235-2241 writes nprocs of them. *)
  Definition init_branch_update (w : list (list cell)) : outcome nat :=
    if 1 <? length w then UB else init_bus_update w.

  (** Copying the receive buffer back, :2163-2178: the [k]-th ghost gets the [k]-th received value. *)
  Fixpoint fill (cs : list cell) (recv : list T) : list cell :=
    match cs with
    | [] => []
    | c :: r => if c_act c then c :: fill r recv
                else match recv with
                     | v :: vs => (c_act c, c_idx c, v) :: fill r vs
                     | [] => c :: fill r []
                     end
    end.

  (** The elements every rank scatters (:2135-2154). *)
  Definition sent (w : list (list cell)) : list (Z * T) :=
    map (fun c => (c_idx c, c_buf c)) (filter c_act (concat w)).

  (** base_network.hpp:2129-2182 updateBuses, :2315-2364 updateBranches.  [tot] is the size of the global array
      made by the init function, [ord] the order in which the scattered elements take effect before the
      synchronisation :2155. *)
  Definition update (tot : nat) (w : list (list cell)) (ord : list (Z * T)) : outcome (list (list cell)) :=
    obind (zscatter (ga_new T tot) ord) (fun g =>
    oall (map (fun cs => obind (zgather g (map c_idx (filter (fun c => negb (c_act c)) cs)))
                               (fun recv => Ok (fill cs recv))) w)).

  Definition bus_exchange (w : list (list cell)) (ord : list (Z * T)) : outcome (list (list cell)) :=
    obind (init_bus_update w) (fun tot => update tot w ord).
  Definition branch_exchange (w : list (list cell)) (ord : list (Z * T)) : outcome (list (list cell)) :=
    obind (init_branch_update w) (fun tot => update tot w ord).
End Exchange.
Arguments cell T : clear implicits.

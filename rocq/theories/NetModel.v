(** Model of the network container /repo/src/network/base_network.hpp and of the graph partitioner
    /repo/src/partition (adjacency_list.cpp, graph_partitioner_implementation.cpp).

    A distributed network is the list of the local networks of all ranks.  The components and the
    DataCollections hanging off a bus or branch are abstract ([B], [R]); shared pointers are values. *)
From Verif Require Import Prelude GAModel ParModel.

(** Indexing a std::vector by an int. *)
Definition zget {A} (l : list A) (i : Z) : option A :=
  if (i <? 0)%Z then None else nth_error l (Z.to_nat i).

Section Net.
  Context {B R : Type}.

  (** base_network.hpp:51-118 BusData.  [b_obj]: p_bus and p_data.  The constructor :57-66 gives active, -1,
      -1, no neighbours, not reference. *)
  Record bus := Bus {
    b_active : bool; b_orig : Z; b_glob : Z; b_nbr : list nat; b_obj : B; b_ref : bool }.

  (** base_network.hpp:143-227 BranchData: active, global index, original / global / local end indices. *)
  Record branch := Branch {
    r_active : bool; r_glob : Z; r_o1 : Z; r_o2 : Z; r_g1 : Z; r_g2 : Z; r_l1 : Z; r_l2 : Z; r_obj : R }.

  (** base_network.hpp:2590-2654: p_buses, p_branches, p_refBus, p_busMap, p_branchMap.  A multimap is the list
      of its entries in insertion order (entries of one key are visited in that order). *)
  Record net := Net {
    n_buses : list bus; n_branches : list branch; n_ref : Z;
    n_busmap : list (Z * nat); n_branchmap : list (Z * Z * nat) }.

  Definition empty_net : net := Net [] [] (-1) [] [].

  Definition set_nbr (b : bus) (l : list nat) : bus :=
    Bus (b_active b) (b_orig b) (b_glob b) l (b_obj b) (b_ref b).
  Definition set_bactive (b : bus) (f : bool) : bus :=
    Bus f (b_orig b) (b_glob b) (b_nbr b) (b_obj b) (b_ref b).
  Definition set_bglob (b : bus) (g : Z) : bus :=
    Bus (b_active b) (b_orig b) g (b_nbr b) (b_obj b) (b_ref b).
  Definition set_ractive (r : branch) (f : bool) : branch :=
    Branch f (r_glob r) (r_o1 r) (r_o2 r) (r_g1 r) (r_g2 r) (r_l1 r) (r_l2 r) (r_obj r).
  Definition set_rglob (r : branch) (g : Z) : branch :=
    Branch (r_active r) g (r_o1 r) (r_o2 r) (r_g1 r) (r_g2 r) (r_l1 r) (r_l2 r) (r_obj r).
  Definition set_rg (r : branch) (g1 g2 : Z) : branch :=
    Branch (r_active r) (r_glob r) (r_o1 r) (r_o2 r) g1 g2 (r_l1 r) (r_l2 r) (r_obj r).
  Definition set_rl (r : branch) (l1 l2 : Z) : branch :=
    Branch (r_active r) (r_glob r) (r_o1 r) (r_o2 r) (r_g1 r) (r_g2 r) l1 l2 (r_obj r).
  Definition set_buses (n : net) (bs : list bus) : net := Net bs (n_branches n) (n_ref n) (n_busmap n) (n_branchmap n).
  Definition set_branches (n : net) (rs : list branch) : net := Net (n_buses n) rs (n_ref n) (n_busmap n) (n_branchmap n).

  (** base_network.hpp:401-407 and :415-423; [o] is the freshly constructed object. *)
  Definition add_bus (n : net) (idx : Z) (o : B) : net :=
    set_buses n (n_buses n ++ [Bus true idx (-1) [] o false])%list.
  Definition add_branch (n : net) (i1 i2 : Z) (o : R) : net :=
    set_branches n (n_branches n ++ [Branch true (-1) i1 i2 (-1) (-1) (-1) (-1) o])%list.

  (** base_network.hpp:963-978. *)
  Definition get_connected_branches (n : net) (idx : Z) : outcome (list nat) :=
    match zget (n_buses n) idx with None => Throw | Some b => Ok (b_nbr b) end.

  (** base_network.hpp:985-1012: [p_branches[j]] is not checked. *)
  Definition get_connected_buses (n : net) (idx : Z) : outcome (list Z) :=
    match zget (n_buses n) idx with
    | None => Throw
    | Some b => oall (map (fun j => match nth_error (n_branches n) j with
                                    | None => UB
                                    | Some r => Ok (if (r_l1 r =? idx)%Z then r_l2 r else r_l1 r)
                                    end) (b_nbr b))
    end.

  (** base_network.hpp:2477-2492. *)
  Definition set_map (n : net) : net :=
    Net (n_buses n) (n_branches n) (n_ref n)
        (combine (map b_orig (n_buses n)) (iota (length (n_buses n))))
        (combine (map (fun r => (r_o1 r, r_o2 r)) (n_branches n)) (iota (length (n_branches n)))).

  (** base_network.hpp:2500-2511 and :2519-2542. *)
  Definition get_local_bus_indices (n : net) (idx : Z) : list nat :=
    map snd (filter (fun e => fst e =? idx)%Z (n_busmap n)).
  Definition branch_entries (n : net) (i1 i2 : Z) : list nat :=
    map snd (filter (fun e => (fst (fst e) =? i1) && (snd (fst e) =? i2))%Z (n_branchmap n)).
  Definition get_local_branch_indices (n : net) (i1 i2 : Z) : list nat :=
    match branch_entries n i1 i2 with [] => branch_entries n i2 i1 | l => l end.

  (** base_network.hpp:1188-1191: busindexes[glob] = lidx, the last bus with a global index wins; a lookup of a
      missing index inserts and returns 0 (:1205). *)
  Fixpoint last_index (g : Z) (bs : list bus) (lidx : nat) (acc : nat) : nat :=
    match bs with
    | [] => acc
    | b :: r => last_index g r (S lidx) (if (b_glob b =? g)%Z then lidx else acc)
    end.
  Definition busindex (bs : list bus) (g : Z) : nat := last_index g bs 0 0.

  (** base_network.hpp:703-717 with an index known to be in range. *)
  Definition add_neighbor (bs : list bus) (i j : nat) : list bus :=
    match nth_error bs i with None => bs | Some b => upd bs i (set_nbr b (b_nbr b ++ [j])%list) end.

  (** base_network.hpp:1196-1233: the local ends of every branch and the neighbour lists.  [p_buses[lbus]] of a
      rank without buses is UB.  The component pointers set at :1220-1229 are those of the same buses. *)
  Fixpoint link (rs : list branch) (lidx : nat) (bs : list bus) : outcome (list bus * list branch) :=
    match rs with
    | [] => Ok (bs, [])
    | r :: rest =>
        let l1 := busindex bs (r_g1 r) in
        let l2 := busindex bs (r_g2 r) in
        if (l1 <? length bs) && (l2 <? length bs)
        then obind (link rest (S lidx) (add_neighbor (add_neighbor bs l1 lidx) l2 lidx))
                   (fun x => Ok (fst x, set_rl r (Z.of_nat l1) (Z.of_nat l2) :: snd x))
        else UB
    end.
  Definition setup (n : net) : outcome net :=
    obind (link (n_branches n) 0 (map (fun b => set_nbr b []) (n_buses n)))
          (fun x => Ok (set_map (Net (fst x) (snd x) (n_ref n) (n_busmap n) (n_branchmap n)))).

  (** ** clean: base_network.hpp:1320-1384 *)
  (** The maps from old to new local indices (:1326, :1342). *)
  Fixpoint keep_map {A} (act : A -> bool) (l : list A) (i new : nat) : list (nat * nat) :=
    match l with
    | [] => []
    | x :: r => if act x then (i, new) :: keep_map act r (S i) (S new) else keep_map act r (S i) new
    end.
  Fixpoint mfind (m : list (nat * nat)) (i : nat) : option nat :=
    match m with [] => None | (a, b) :: r => if a =? i then Some b else mfind r i end.
  Definition mfindz (m : list (nat * nat)) (i : Z) : Z :=
    if (i <? 0)%Z then -1 else match mfind m (Z.to_nat i) with Some b => Z.of_nat b | None => -1 end.
  (** The loops :1323-1328 and :1339-1344, which copy the kept entries forward inside the vector, and the
      pop_backs :1331-1334 and :1347-1350, which leave the first [new] entries. *)
  Fixpoint compact {A} (act : A -> bool) (steps i new : nat) (l : list A) : list A :=
    match steps with
    | 0 => firstn new l
    | S k => match nth_error l i with
             | Some x => if act x then compact act k (S i) (S new) (upd l new x) else compact act k (S i) new l
             | None => firstn new l
             end
    end.
  (** :1382-1384 [buses[p_refBus]] yields 0 when the reference bus is not among the kept ones.  p_busMap and
      p_branchMap are not refreshed. *)
  Definition clean (n : net) : net :=
    let bm := keep_map b_active (n_buses n) 0 0 in
    let rm := keep_map r_active (n_branches n) 0 0 in
    Net (map (fun b => set_nbr b (flat_map (fun j => match mfind rm j with Some k => [k] | None => [] end) (b_nbr b)))
             (compact b_active (length (n_buses n)) 0 0 (n_buses n)))
        (map (fun r => set_rl r (mfindz bm (r_l1 r)) (mfindz bm (r_l2 r)))
             (compact r_active (length (n_branches n)) 0 0 (n_branches n)))
        (if (n_ref n =? -1)%Z then -1
         else if (n_ref n <? 0)%Z then 0
         else match mfind bm (Z.to_nat (n_ref n)) with Some k => Z.of_nat k | None => 0 end)%Z
        (n_busmap n) (n_branchmap n).

  (** ** Partitioning *)
  (** A scatter with int subscripts: a negative one is outside the array. *)
  Definition zscatter {A} (g : garray A) (ws : list (Z * A)) : outcome (garray A) :=
    if existsb (fun w => fst w <? 0)%Z ws then UB
    else ga_scatter g (map (fun w => (Z.to_nat (fst w), snd w)) ws).

  (** adjacency_list.cpp:181-187: the map of one block of the array of original indices; insert keeps the first
      position of an original index. *)
  Fixpoint blk_find (o : Z) (pos : nat) (blk : list Z) : option nat :=
    match blk with
    | [] => None
    | x :: r => if (x =? o)%Z then Some pos else blk_find o (S pos) r
    end.
  (** Consecutive blocks of the given sizes, each with its start. *)
  Fixpoint cut (sizes : list nat) (pos : nat) (l : list Z) : list (nat * list Z) :=
    match sizes with
    | [] => []
    | s :: r => (pos, firstn s l) :: cut r (pos + s) (skipn s l)
    end.
  (** adjacency_list.cpp:171-204: rank [me] visits the blocks in the order me, me+1, ...; a later match
      overwrites.  The initial value of an end is 0 (adjacency_list.hpp:146). *)
  Definition edge_end (blocks : list (nat * list Z)) (me : nat) (o : Z) : nat :=
    let P := length blocks in
    fold_left (fun acc p => let blk := nth ((me + p) mod P) blocks (0, []) in
                            match blk_find o (fst blk) (snd blk) with Some i => i | None => acc end)
              (iota P) 0.

  (** adjacency_list.cpp:254-291 with node_neighbors :399-404: the number of edge ends at a node.  Simplified:
      the redistribution of the edges through g_edges (:207-252) is not modelled. *)
  Definition conn (ends : list nat) (g : nat) : nat := length (filter (Nat.eqb g) ends).

  (** graph_partitioner_implementation.cpp:428-444: a put into the next free column of a row; the array has
      [cap] = maxconn columns (:391-396).  The counters node_dest_count are the lengths of the rows. *)
  Definition row_put (cap nid : nat) (d : Z) (rows : list (list Z)) : outcome (list (list Z)) :=
    match nth_error rows nid with
    | None => UB
    | Some row => if length row <? cap then Ok (upd rows nid (row ++ [d])%list) else UB
    end.
  (** :413-445, for edges given as (lower end, higher end, destination of lower, destination of higher). *)
  Fixpoint ghost_fill (cap : nat) (es : list (nat * nat * (Z * Z))) (rows : list (list Z)) : outcome (list (list Z)) :=
    match es with
    | [] => Ok rows
    | (lo, hi, (dlo, dhi)) :: r =>
        if (dlo =? dhi)%Z then ghost_fill cap r rows
        else obind (row_put cap lo dhi rows) (fun rows1 =>
             obind (row_put cap hi dlo rows1) (fun rows2 => ghost_fill cap r rows2))
    end.

  (** :476-479 std::stable_sort of ints, then std::unique whose return value is ignored: the vector keeps its
      length, the unique values are moved to the front, the rest keeps its (sorted) content. *)
  Fixpoint insert (x : Z) (l : list Z) : list Z :=
    match l with [] => [x] | y :: r => if (x <=? y)%Z then x :: l else y :: insert x r end.
  Fixpoint isort (l : list Z) : list Z := match l with [] => [] | x :: r => insert x (isort r) end.
  Fixpoint unique (l : list Z) : list Z :=
    match l with
    | [] => []
    | x :: r => match r with
                | [] => [x]
                | y :: _ => if (x =? y)%Z then unique r else x :: unique r
                end
    end.
  Definition sort_unique_noerase (l : list Z) : list Z :=
    let s := isort l in (unique s ++ skipn (length (unique s)) s)%list.

  Definition nth_net (nets : list net) (p : nat) : net := nth p nets empty_net.

  (** What AdjacencyList::ready and GraphPartitioner::partition compute on every rank. *)
  Record plan := Plan {
    pl_ends : list (list (nat * nat));      (* global ends of the local edges *)
    pl_edge : list (list Z);                (* edge_destinations *)
    pl_gedge : list (list Z);               (* ghost_edge_destinations *)
    pl_gnode : list (list (list Z)) }.      (* ghost_node_destinations *)

  (** adjacency_list.cpp:107-204 and graph_partitioner_implementation.cpp:122-485.
      [dist]: block sizes of the array g_nodes as chosen by GA; [ord1], [ord2]: orders in which the scattered
      elements of all ranks take effect; [part]: the answer of p_partition on every rank. *)
  Definition partitioner (nets : list net) (dist : list nat) (ord1 : list (Z * Z)) (ord2 : list (Z * Z))
             (part : list (list Z)) : outcome plan :=
    let P := length nets in
    let N := sumn (map (fun n => length (n_buses n)) nets) in
    obind (zscatter (ga_new Z N) ord1) (fun g =>
    obind (ga_get g 0 N) (fun arr =>
    let blocks := cut dist 0 arr in
    let ends := map (fun p => map (fun r => (edge_end blocks p (r_o1 r), edge_end blocks p (r_o2 r)))
                                  (n_branches (nth_net nets p))) (iota P) in
    if (N =? 0) || (length (concat ends) =? 0) then Throw else
    obind (zscatter (ga_new Z N) ord2) (fun gd =>
    obind (oall (map (fun es => ga_gather gd (map (fun e => Nat.min (fst e) (snd e)) es)) ends)) (fun e1 =>
    obind (oall (map (fun es => ga_gather gd (map (fun e => Nat.max (fst e) (snd e)) es)) ends)) (fun e2 =>
    let allends := flat_map (fun e : nat * nat => [fst e; snd e]) (concat ends) in
    let cap := fold_left Nat.max
                 (flat_map (fun n => map (fun b => conn allends (Z.to_nat (b_glob b))) (n_buses n)) nets) 0 in
    let es := combine (map (fun e : nat * nat => (Nat.min (fst e) (snd e), Nat.max (fst e) (snd e))) (concat ends))
                      (combine (concat e1) (concat e2)) in
    obind (ghost_fill cap es (repeat [] N)) (fun rows =>
    Ok (Plan ends e1 e2
             (map (fun n => map (fun b => sort_unique_noerase (nth (Z.to_nat (b_glob b)) rows [])) (n_buses n)) nets)))))))).

  (** base_network.hpp:1046-1235.  [part] is used for node_destinations (:1148). *)
  Definition partition (nets : list net) (dist : list nat) (ord1 ord2 : list (Z * Z)) (part : list (list Z))
    : outcome (list net) :=
    let P := length nets in
    obind (partitioner nets dist ord1 ord2 part) (fun pl =>
    let branches p := map (fun re => set_rg (fst re) (Z.of_nat (fst (snd re))) (Z.of_nat (snd (snd re))))
                          (combine (n_branches (nth_net nets p)) (nth p (pl_ends pl) [])) in
    (* :1116-1122 *)
    let ghostbuses p := flat_map (fun bd => map (fun d => (fst bd, d)) (snd bd))
                                 (combine (n_buses (nth_net nets p)) (nth p (pl_gnode pl) [])) in
    (* :1134-1140 *)
    let ghostbranches p :=
      map (fun x => (set_ractive (fst x) false, snd (snd x)))
          (filter (fun x => negb (fst (snd x) =? snd (snd x))%Z)
                  (combine (branches p) (combine (nth p (pl_edge pl) []) (nth p (pl_gedge pl) [])))) in
    obind (shuffle (map (fun p => (n_buses (nth_net nets p), nth p part [])) (iota P))) (fun bs =>
    obind (shuffle (map (fun p => (branches p, nth p (pl_edge pl) [])) (iota P))) (fun rs =>
    obind (shuffle (map (fun p => (map fst (ghostbuses p), map snd (ghostbuses p))) (iota P))) (fun gbs =>
    obind (shuffle (map (fun p => (map fst (ghostbranches p), map snd (ghostbranches p))) (iota P))) (fun grs =>
    oall (map (fun p => setup (Net (nth p bs [] ++ map (fun b => set_bactive b false) (nth p gbs []))%list
                                   (nth p rs [] ++ nth p grs [])%list
                                   (n_ref (nth_net nets p)) (n_busmap (nth_net nets p)) (n_branchmap (nth_net nets p))))
              (iota P))))))).
End Net.
Arguments bus B : clear implicits.
Arguments branch R : clear implicits.
Arguments net B R : clear implicits.

(** Models of the distributed containers in /repo/src/parallel: Shuffler, GlobalStore, GlobalVector and
    GlobalIndexHashMap.  A collective call is a function of the lists of all ranks' arguments (element p of
    a list belongs to rank p).  An exception raised on any rank is [Throw] for the collective call. *)
From Verif Require Import Prelude GAModel.

(** * Shuffler: parallel/shuffler.hpp *)
Section Shuffler.
  Context {T : Type}.

  (** shuffler.hpp:103-113: one pass over the destinations; [loc] is locthings, [tosend] the send lists.
      [tosend[*dest]] with a destination outside 0..P-1 is an out-of-range vector access. *)
  Fixpoint route (P me : nat) (items : list (T * Z)) (loc : list T) (tosend : list (list T))
    : outcome (list T * list (list T)) :=
    match items with
    | [] => Ok (loc, tosend)
    | (t, d) :: r =>
        if (d =? Z.of_nat me)%Z then route P me r (loc ++ [t])%list tosend
        else if ((0 <=? d) && (d <? Z.of_nat P))%Z
             then route P me r loc (upd tosend (Z.to_nat d) (nth (Z.to_nat d) tosend [] ++ [t])%list)
             else UB
    end.

  (** shuffler.hpp:79-169.  The argument gives locthings and destproc of every rank.  The assertion :81 is
      taken as a precondition (UB when violated).  For src = 0..P-1 the receiver appends what src sends
      (:129-168); messages of zero size are not sent and nothing is appended for them. *)
  Definition shuffle (w : list (list T * list Z)) : outcome (list (list T)) :=
    let P := length w in
    if negb (forallb (fun x => length (fst x) =? length (snd x)) w) then UB
    else if P <=? 1 then Ok (map fst w)
    else if sumn (map (fun x => length (fst x)) w) =? 0 then Ok (map fst w)
    else obind (oall (map (fun p => let x := nth p w ([], []) in
                                    route P p (combine (fst x) (snd x)) [] (repeat [] P)) (iota P)))
         (fun rs => Ok (map (fun p =>
            (fst (nth p rs ([], [])) ++
             concat (map (fun src => nth p (snd (nth src rs ([], []))) []) (iota P)))%list) (iota P))).
End Shuffler.

(** * GlobalStore: parallel/global_store.hpp *)
Section GlobalStore.
  Context {A : Type}.

  Record gstore := GStore {
    gs_num : nat;                 (* p_numVecs *)
    gs_begin : nat -> nat;        (* p_begin *)
    gs_size : nat -> nat;         (* p_end - p_begin *)
    gs_ga : option (garray A) }.  (* the GA, if it was created (p_uploaded) *)

  (** global_store.hpp:89-101: the largest index, starting from 0. *)
  Definition gs_max (idx : list Z) : Z := fold_left Z.max idx 0%Z.

  (** global_store.hpp:132-135: size of vector [i] summed over all ranks. *)
  Definition gs_len (all : list (Z * list A)) (i : nat) : nat :=
    sumn (map (fun x => if (fst x =? Z.of_nat i)%Z then length (snd x) else 0) all).

  (** global_store.hpp:84-172.  [w]: what each rank passed to addVector (:74-78), in order.  [pw]: the order
      in which the NGA_Put operations of all ranks take effect.
      - :92-98 a negative index throws (on its rank, before any communication);
      - :115-128 an index used more than once throws on every rank;
      - :146-149 no data at all: a message and an early return, no array is created;
      - :165 [&(p_data[i])[0]] of an empty vector and the put of an empty range are UB. *)
  Definition gs_upload (w : list (list (Z * list A))) (pw : list (Z * list A)) : outcome gstore :=
    let all := concat w in
    if existsb (fun x => fst x <? 0)%Z all then Throw
    else
      let n := S (Z.to_nat (gs_max (map fst all))) in
      if existsb (fun i => 1 <? length (filter (fun x => fst x =? Z.of_nat i)%Z all)) (iota n) then Throw
      else
        let sizes := map (gs_len all) (iota n) in
        let st ga := GStore n (offset sizes) (fun i => nth i sizes 0) ga in
        if sumn sizes <? 1 then Ok (st None)
        else if existsb (fun x => length (snd x) =? 0) all then UB
        else obind (ga_puts (ga_new A (sumn sizes))
                            (map (fun x => (offset sizes (Z.to_nat (fst x)), snd x)) pw))
                   (fun g => Ok (st (Some g))).

  (** global_store.hpp:179-200.  An index with no data asks NGA_Get for the empty range [lo, lo-1], and a
      store without array uses an uninitialised handle: both UB. *)
  Definition gs_getVector (s : gstore) (idx : Z) : outcome (list A) :=
    if ((idx <? 0) || (Z.of_nat (gs_num s) <=? idx))%Z then Throw
    else match gs_ga s with
         | None => UB
         | Some g => let i := Z.to_nat idx in
                     if gs_size s i =? 0 then UB else ga_get g (gs_begin s i) (gs_size s i)
         end.
End GlobalStore.

(** * GlobalVector: parallel/global_vector.hpp *)
Section GlobalVector.
  Context {A : Type}.
  Variable zero : A.             (* the element whose bytes are all zero, :209 *)
  Variable own : nat -> nat.     (* rank whose memory holds an element (NGA_Distribution) *)

  (** A phase in which every rank performs two operations one after the other, without any barrier between
      them: [(false, p)] is rank p's first operation, [(true, p)] its second.  A schedule is legal if each
      happens once and each rank's own two operations are in program order. *)
  Definition sched := list (bool * nat).
  Definition sched_ops (P : nat) : sched :=
    (map (pair false) (iota P) ++ map (pair true) (iota P))%list.
  Definition legal (P : nat) (s : sched) : Prop :=
    Permutation s (sched_ops P) /\
    forall p, p < P -> exists a b c, s = (a ++ (false, p) :: b ++ (true, p) :: c)%list.
  (** All first operations happen before all second ones, as a barrier would enforce. *)
  Definition barrier (s : sched) : Prop :=
    exists a b, s = (a ++ b)%list /\ forallb (fun x => negb (fst x)) a = true /\ forallb fst b = true.

  (** global_vector.hpp:166-193: [false]: rank p adds one for each of its indices with NGA_Scatter_acc;
      [true]: rank p looks for a counter above one in its own block.  There is no synchronisation between
      the two.  [None] means that some rank threw. *)
  Fixpoint gv_check (w : list (list (nat * A))) (n : nat) (s : sched) (cnt : list nat) : bool :=
    match s with
    | [] => true
    | (false, p) :: r =>
        gv_check w n r (fold_left (fun c x => upd c (fst x) (S (nth (fst x) c 0))) (nth p w []) cnt)
    | (true, p) :: r =>
        if existsb (fun i => (own i =? p) && (1 <? nth i cnt 0)) (iota n) then false
        else gv_check w n r cnt
    end.

  (** global_vector.hpp:203-228: [false]: rank p clears its own block with memset; [true]: rank p writes its
      elements with NGA_Scatter.  Again no synchronisation between the two. *)
  Definition gv_zero (n p : nat) (g : garray A) : garray A :=
    map (fun i => if own i =? p then Some zero else nth i g None) (iota n).
  Fixpoint gv_fill (w : list (list (nat * A))) (n : nat) (s : sched) (g : garray A) : outcome (garray A) :=
    match s with
    | [] => Ok g
    | (false, p) :: r => gv_fill w n r (gv_zero n p g)
    | (true, p) :: r => obind (ga_scatter g (nth p w [])) (fun g' => gv_fill w n r g')
    end.

  (** global_vector.hpp:121-233.  [w]: elements added by each rank with addElements (:71-84; a call whose two
      vectors differ in length adds nothing).  The result is the array; p_numElems is its length. *)
  Definition gv_upload (w : list (list (Z * A))) (s1 s2 : sched) : outcome (garray A) :=
    let all := concat w in
    if existsb (fun x => fst x <? 0)%Z all then Throw
    else match all with
         | [] => Throw
         | _ =>
           let n := S (Z.to_nat (fold_left Z.max (map fst all) (-1)%Z)) in
           let wn := map (map (fun x => (Z.to_nat (fst x), snd x))) w in
           if gv_check wn n s1 (repeat 0 n) then gv_fill wn n s2 (ga_new A n) else Throw
         end.

  (** global_vector.hpp:91-115: what a rank keeps of resetElements; an index that is too large is skipped, a
      negative one is not noticed.  :238-270 reload then scatters it: a negative index is out of range. *)
  Definition gv_reset_keep (n : nat) (xs : list (Z * A)) : list (Z * A) :=
    filter (fun x => fst x <? Z.of_nat n)%Z xs.
  (** [order]: the order in which the elements of all ranks take effect. *)
  Definition gv_reload (g : garray A) (order : list (Z * A)) : outcome (garray A) :=
    if existsb (fun x => fst x <? 0)%Z order then UB
    else ga_scatter g (map (fun x => (Z.to_nat (fst x), snd x)) order).

  (** global_vector.hpp:278-306 and :312-321. *)
  Definition gv_getData (g : garray A) (idx : list Z) : outcome (list A) :=
    if existsb (fun i => (i <? 0) || (Z.of_nat (length g) <=? i))%Z idx then Throw
    else ga_gather g (map Z.to_nat idx).
  Definition gv_getAllData (g : garray A) : outcome (list A) := ga_get g 0 (length g).
End GlobalVector.

(** * GlobalIndexHashMap: parallel/index_hash.cpp (HASH_WITH_MPI is not defined, :24) *)
Definition in_int (z : Z) : bool := ((- 2147483648 <=? z) && (z <=? 2147483647))%Z.

(** index_hash.cpp:1163-1166.  C++ % truncates: a negative remainder indexes ndest out of range. *)
Definition hash_int (P : nat) (key : Z) : outcome nat :=
  let r := Z.rem key (Z.of_nat P) in if (r <? 0)%Z then UB else Ok (Z.to_nat r).

(** index_hash.cpp:1172-1178, with signed overflow as UB. *)
Definition hash_pair (P : nat) (key : Z * Z) : outcome nat :=
  let m := (snd key * 1009)%Z in
  let s := (m + fst key)%Z in
  if in_int m && in_int s
  then let r := Z.rem s (Z.of_nat P) in if (r <? 0)%Z then UB else Ok (Z.to_nat r)
  else UB.

Section IndexHash.
  Context {K V : Type}.
  Variable keq : K -> K -> bool.
  Variable hash : nat -> K -> outcome nat.

  (** index_hash.cpp:74-81 (:259-266, :446-453, :683-693): the linked lists ltop/ldest, one per destination;
      a new item becomes the head of its list. *)
  Fixpoint to_bins {X} (h : X -> outcome nat) (xs : list X) (bins : list (list X)) : outcome (list (list X)) :=
    match xs with
    | [] => Ok bins
    | x :: r => obind (h x) (fun d =>
        if d <? length bins then to_bins h r (upd bins d (x :: nth d bins [])) else UB)
    end.

  Definition bin_of {X} (bs : list (list (list X))) (s d : nat) : list X := nth d (nth s bs []) [].

  (** A rank's std::multimap, as the list of its entries in insertion order: entries with equal keys are
      visited in that order. *)
  Definition table := list (K * V).

  (** index_hash.cpp:51-231 (int keys) and :236-418 (pair keys).  [old]: the tables before the call; when no
      rank passes a pair the call returns early and keeps them (:177, :364), otherwise each table is cleared
      and filled with what the rank received (:221-228). *)
  Definition add_pairs (old : list table) (w : list (list (K * V))) (ev pw : list (nat * nat))
    : outcome (list table) :=
    let P := length w in
    obind (oall (map (fun xs => to_bins (fun kv => hash P (fst kv)) xs (repeat [] P)) w)) (fun bs =>
    obind (exchange P (bin_of bs) ev pw) (fun r =>
    Ok (match r with None => old | Some t => t end))).

  (** index_hash.cpp:656-671: all values stored under the requested key, tagged with the requesting rank. *)
  Definition answer (t : table) (q : K * nat) : list (K * nat * V) :=
    map (fun kv => (fst q, snd q, snd kv)) (filter (fun kv => keq (fst kv) (fst q)) t).

  (** index_hash.cpp:424-779 (int keys) and :785-1157 (pair keys).  [qs], [vs]: the in/out arguments keys and
      values of every rank.  When no rank asks for anything the call returns early and leaves both arguments
      alone (:610, :982). *)
  Definition get_values (tabs : list table) (qs : list (list K)) (vs : list (list V))
             (ev1 pw1 ev2 pw2 : list (nat * nat)) : outcome (list (list K * list V)) :=
    let P := length qs in
    obind (oall (map (fun p => to_bins (fun q : K * nat => hash P (fst q))
                                 (map (fun k => (k, p)) (nth p qs [])) (repeat [] P)) (iota P))) (fun bs =>
    obind (exchange P (bin_of bs) ev1 pw1) (fun r =>
    match r with
    | None => Ok (map (fun p => (nth p qs [], nth p vs [])) (iota P))
    | Some rq =>
        obind (oall (map (fun p => to_bins (fun a : K * nat * V => Ok (snd (fst a)))
                                     (flat_map (answer (nth p tabs [])) (nth p rq [])) (repeat [] P)) (iota P)))
        (fun bs2 =>
        obind (exchange P (bin_of bs2) ev2 pw2) (fun r2 =>
        Ok (map (fun p => let l := match r2 with None => [] | Some x => nth p x [] end in
                          (map (fun a => fst (fst a)) l, map snd l)) (iota P))))
    end)).
End IndexHash.

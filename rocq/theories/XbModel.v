(** The exchange buffers of a network: /repo/src/network/base_network.hpp, with the memory they live in.  The code for buses and
    for branches is nearly the same; [br] says which one is meant. *)
From Verif Require Import Prelude GAModel.

(** A pointer to a buffer: a block the network allocated, or one given from outside *)
Inductive ptr := Mine (b : nat) | Foreign (p : nat).
(** Blocks allocated and not yet deleted, and the number of the next block *)
Record heap := Heap { h_live : list nat; h_next : nat }.
Definition is_live (h : heap) (b : nat) : bool := existsb (Nat.eqb b) (h_live h).
(** new[] *)
Definition new_ (h : heap) : heap * nat := (Heap (h_next h :: h_live h) (S (h_next h)), h_next h).
(** delete[] of a block that is not allocated (any more), or of memory that is not the network's, is undefined *)
Definition delete_ (h : heap) (b : nat) : outcome heap :=
  if is_live h b then Ok (Heap (filter (fun x => negb (x =? b)) (h_live h)) (h_next h)) else UB.
Definition delete_ptr (h : heap) (p : ptr) : outcome heap := match p with Mine b => delete_ h b | Foreign _ => UB end.

(** base_network.hpp:2600-2625: number of buses or branches, p_busXCBuffers (NULL: None; the block of the array) with the content of
    the array (None: not set), p_busXCBufSize, p_allocatedBus, p_external_bus; the same for branches *)
Record xc := Xc { x_n : nat; x_ptr : option nat; x_arr : list (option ptr); x_size : Z; x_alloc : bool; x_ext : bool; x_heap : heap }.
(** base_network.hpp:286-313: the constructor *)
Definition new_net : xc := Xc 0 None [] 0 false false (Heap [] 0).

(** p_busXCBuffers[i], read *)
Definition read_at (s : xc) (i : nat) : outcome ptr :=
  match x_ptr s with
  | Some a => if is_live (x_heap s) a then match nth_error (x_arr s) i with Some (Some p) => Ok p | _ => UB end else UB
  | None => UB
  end.
(** for (i=0; i<nsize; i++) delete [] p_busXCBuffers[i] *)
Fixpoint delete_all (s : xc) (is : list nat) (h : heap) : outcome heap :=
  match is with
  | [] => Ok h
  | i :: r => obind (read_at s i) (fun p => obind (delete_ptr h p) (delete_all s r))
  end.
(** base_network.hpp:1615-1627, 1730-1741, 1761-1774, 1787-1798 (buses), 1628-1640, 1869-1881, 1900-1912, 1947-1958 (branches): what stands between
    "Clean out existing buffers" and the resetting of the flags.  The array block is still alive while its entries are read.
    None: nothing to clean out. *)
Definition clean_out (s : xc) : outcome (option xc) :=
  match x_ptr s with
  | Some a =>
      if (x_size s =? 0)%Z then Ok None
      else obind (if x_alloc s && negb (x_ext s) then delete_all s (iota (x_n s)) (x_heap s) else Ok (x_heap s)) (fun h =>
           obind (delete_ h a) (fun h' =>
           Ok (Some (Xc (x_n s) (x_ptr s) (x_arr s) (x_size s) false (x_ext s) h'))))
  | None => Ok None
  end.
Definition with_flags (s : xc) (size : Z) (ext : bool) : xc := Xc (x_n s) (x_ptr s) (x_arr s) size (x_alloc s) ext (x_heap s).

(** n times new char[size] *)
Fixpoint new_n (n : nat) (h : heap) : heap * list (option ptr) :=
  match n with
  | 0 => (h, [])
  | S k => let '(h1, b) := new_ h in let '(h2, l) := new_n k h1 in (h2, Some (Mine b) :: l)
  end.

Inductive result := RUnit | RThrow | RPtr (p : ptr).
(** The calls: a bus or branch is added; alloc, free, the array of pointers, set, get; clear *)
Inductive call := CAdd | CAlloc (size : Z) | CFree | CPointers (size : Z) | CSet (idx : Z) (p : ptr) | CGet (idx : Z) | CClear.

(** base_network.hpp:1717-1753 allocXCBus, 1856-1892 allocXCBranch.  For branches the flag is set when something was cleaned out
    (:1881), and not reset when new buffers are allocated. *)
Definition alloc_ (br : bool) (s : xc) (size : Z) : outcome (xc * result) :=
  if (size <? 0)%Z then Ok (s, RThrow)
  else obind (clean_out s) (fun o =>
    let s1 := match o with None => s | Some s' => with_flags s' 0 (if br then true else x_ext s') end in
    if (0 <? size)%Z && (0 <? x_n s1)
    then let '(h, a) := new_ (x_heap s1) in
         let '(h2, l) := new_n (x_n s1) h in
         Ok (Xc (x_n s1) (Some a) l size true (if br then x_ext s1 else false) h2, RUnit)
    else Ok (s1, RUnit)).
(** base_network.hpp:1758-1776 freeXCBus, 1897-1915 freeXCBranch *)
Definition free_ (s : xc) : outcome (xc * result) :=
  obind (clean_out s) (fun o => Ok (match o with None => s | Some s' => with_flags s' 0 false end, RUnit)).
(** base_network.hpp:1782-1805 allocXCBusPointers, 1942-1965 allocXCBranchPointers *)
Definition pointers_ (s : xc) (size : Z) : outcome (xc * result) :=
  obind (clean_out s) (fun o =>
    let s1 := match o with None => s | Some s' => with_flags s' 0 (x_ext s') end in
    if (0 <? size)%Z
    then let '(h, a) := new_ (x_heap s1) in
         Ok (Xc (x_n s1) (Some a) (repeat None (x_n s1)) size (x_alloc s1) true h, RUnit)
    else Ok (with_flags s1 (x_size s1) true, RUnit)).
(** base_network.hpp:1812-1830 setXCBusBuffer, 1972-1989 setXCBranchBuffer: only NULL is recognised as "no array" *)
Definition set_ (s : xc) (idx : Z) (p : ptr) : outcome (xc * result) :=
  match x_ptr s with
  | None => Ok (s, RThrow)
  | Some a =>
      if ((0 <=? idx) && (idx <? Z.of_nat (x_n s)))%Z
      then if is_live (x_heap s) a && (Z.to_nat idx <? length (x_arr s))
           then Ok (Xc (x_n s) (x_ptr s) (upd (x_arr s) (Z.to_nat idx) (Some p)) (x_size s) (x_alloc s) (x_ext s) (x_heap s), RUnit)
           else UB
      else Ok (s, RThrow)
  end.
(** base_network.hpp:1836-1850 getXCBusBuffer, 1922-1936 getXCBranchBuffer: [idx > p_buses.size()] *)
Definition get_ (s : xc) (idx : Z) : outcome (xc * result) :=
  if ((idx <? 0) || (Z.of_nat (x_n s) <? idx))%Z then Ok (s, RThrow)
  else obind (read_at s (Z.to_nat idx)) (fun p => Ok (s, RPtr p)).
(** base_network.hpp:1611-1712 clear: the part for the exchange buffers, p_buses.clear() and the initial values *)
Definition clear_ (s : xc) : outcome (xc * result) :=
  obind (clean_out s) (fun o =>
    let s1 := match o with None => s | Some s' => s' end in Ok (Xc 0 None [] 0 false false (x_heap s1), RUnit)).
(** base_network.hpp:321-349: the destructor; what is left is the memory still allocated *)
Definition destroy_ (s : xc) : outcome heap :=
  obind (clean_out s) (fun o => Ok (match o with None => x_heap s | Some s' => x_heap s' end)).

(** base_network.hpp:401-423 addBus, addBranch do not touch the buffers *)
Definition add_ (s : xc) : xc := Xc (S (x_n s)) (x_ptr s) (x_arr s) (x_size s) (x_alloc s) (x_ext s) (x_heap s).
Definition do_ (br : bool) (s : xc) (c : call) : outcome (xc * result) :=
  match c with
  | CAdd => Ok (add_ s, RUnit)
  | CAlloc z => alloc_ br s z
  | CFree => free_ s
  | CPointers z => pointers_ s z
  | CSet i p => set_ s i p
  | CGet i => get_ s i
  | CClear => clear_ s
  end.
(** A history of calls and what they return *)
Fixpoint history (br : bool) (s : xc) (cs : list call) : outcome (xc * list result) :=
  match cs with
  | [] => Ok (s, [])
  | c :: r => obind (do_ br s c) (fun x => obind (history br (fst x) r) (fun y => Ok (fst y, snd x :: snd y)))
  end.

(** factory/base_factory.hpp:292-362 setExchange, for the buses or for the branches: the calls it makes on a network with n of them
    whose first component wants buffers of the given size; ext: the components' own buffers *)
Definition set_exchange (flag : bool) (n : nat) (want : Z) (ext : nat -> ptr) : list call :=
  let size := if 0 <? n then want else 0%Z in
  (if flag then CAlloc size :: (if (0 <? size)%Z then map (fun i => CGet (Z.of_nat i)) (iota n) else [])
   else CPointers size :: (if (0 <? size)%Z then map (fun i => CSet (Z.of_nat i) (ext i)) (iota n) else []))%list.

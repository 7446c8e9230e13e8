(** What the user of the exchange buffers sees, without memory. *)
From Verif Require Import Prelude XbModel.

(** Nothing allocated; buffers of the network, one for each bus (branch); an array of pointers to buffers from outside *)
Inductive view := Nothing | Owned | Borrowed (l : list (option ptr)).
(** Number of buses (branches), what is there, and whether something was allocated since the last free that freed something *)
Record seen := Seen { u_n : nat; u_view : view; u_busy : bool }.
Definition fresh : seen := Seen 0 Nothing false.
Definition in_range (v : seen) (i : Z) : bool := ((0 <=? i) && (i <? Z.of_nat (u_n v)))%Z.

Definition after (v : seen) (c : call) : seen :=
  match c with
  | CAdd => Seen (S (u_n v)) (u_view v) (u_busy v)
  | CAlloc z => if (z <? 0)%Z then v
                else Seen (u_n v) (if (0 <? z)%Z && (0 <? u_n v) then Owned else Nothing) true
  | CFree => match u_view v with Nothing => v | _ => Seen (u_n v) Nothing false end
  | CPointers z => Seen (u_n v) (if (0 <? z)%Z then Borrowed (repeat None (u_n v)) else Nothing) true
  | CSet i p => match u_view v with
                | Borrowed l => if in_range v i then Seen (u_n v) (Borrowed (upd l (Z.to_nat i) (Some p))) (u_busy v) else v
                | _ => v
                end
  | CGet _ => v
  | CClear => fresh
  end.

(** A call as it is meant: nothing is added while buffers are there; a buffer is fetched where there is one, or with an index far
    outside; a pointer is set in an array of pointers, or with an index outside *)
Definition allowed (v : seen) (c : call) : bool :=
  match c with
  | CAdd => match u_view v with Nothing => true | _ => false end
  | CSet i _ => negb (in_range v i) || match u_view v with Borrowed _ => true | _ => false end
  | CGet i => ((i <? 0) || (Z.of_nat (u_n v) <? i))%Z ||
              (in_range v i && match u_view v with
                               | Nothing => false
                               | Owned => true
                               | Borrowed l => match nth_error l (Z.to_nat i) with Some (Some _) => true | _ => false end
                               end)
  | _ => true
  end.
Fixpoint meant (v : seen) (cs : list call) : bool :=
  match cs with [] => true | c :: r => allowed v c && meant (after v c) r end.
Definition seen_after (cs : list call) : seen := fold_left after cs fresh.

(** What a call returns *)
Definition returns (v : seen) (c : call) (r : result) : Prop :=
  match c with
  | CAlloc z => r = if (z <? 0)%Z then RThrow else RUnit
  | CSet i _ => r = if in_range v i then RUnit else RThrow
  | CGet i => if in_range v i
              then match u_view v with
                   | Borrowed l => exists p, nth_error l (Z.to_nat i) = Some (Some p) /\ r = RPtr p
                   | _ => exists b, r = RPtr (Mine b)
                   end
              else r = RThrow
  | _ => r = RUnit
  end.
Fixpoint all_return (v : seen) (cs : list call) (rs : list result) : Prop :=
  match cs, rs with
  | [], [] => True
  | c :: cs', r :: rs' => returns v c r /\ all_return (after v c) cs' rs'
  | _, _ => False
  end.

(** Buffers are allocated by the network only when nothing was allocated before, or it was freed *)
Fixpoint freed_first (v : seen) (cs : list call) : bool :=
  match cs with
  | [] => true
  | c :: r => (match c with CAlloc z => (z <? 0)%Z || negb (u_busy v) | _ => true end) && freed_first (after v c) r
  end.

(** The buffers can be used: each index has a buffer that is allocated and different from the others; pointers are those set *)
Definition usable (v : seen) (s : xc) : Prop :=
  match u_view v with
  | Nothing => True
  | Owned => exists bs, length bs = u_n v /\ NoDup bs /\ (forall b, In b bs -> In b (h_live (x_heap s))) /\
               forall i, i < u_n v -> get_ s (Z.of_nat i) = Ok (s, RPtr (Mine (nth i bs 0)))
  | Borrowed l => forall i p, nth_error l i = Some (Some p) -> get_ s (Z.of_nat i) = Ok (s, RPtr p)
  end.

(** Specifications for the matrix and vector mappers. *)
From Verif Require Import Prelude MapModel.

Section Spec.
  Context {V : Type}.
  Notation mbus := (mbus V). Notation mbr := (mbr V). Notation mproc := (mproc V).

  (** All indices of active buses, in process order then local order. *)
  Definition all_active (w : list mproc) : list nat := flat_map (@active_idx V) w.
  (** Process [p] owns the bus with index [k]. *)
  Definition owns (w : list mproc) (p k : nat) : bool := existsb (Nat.eqb k) (active_idx (nth p w (MProc [] []))).

  (** What setComponents and partition provide (see C15, C10): the active buses are numbered 0..N-1 in process
      order then local order, every process has one, and process [p] holds those branches of the network [brs]
      that end at one of its buses. *)
  Definition numbered (w : list mproc) (brs : list mbr) : Prop :=
    all_active w = iota (length (all_active w)) /\
    Forall (fun p => active_idx p <> []) w /\
    (forall p, p < length w ->
       Permutation (mp_brs (nth p w (MProc [] []))) (filter (fun r => owns w p (mr_i r) || owns w p (mr_j r)) brs)) /\
    Forall (fun r => mr_i r < length (all_active w) /\ mr_j r < length (all_active w)) brs.

  (** [rs k] rows and [cs k] columns belong to the bus with index [k]: all contributions agree on this, and a bus
      nobody gives a size to has none. *)
  Definition sizes_agree (w : list mproc) (brs : list mbr) (rs cs : nat -> nat) : Prop :=
    (forall p b s, In p w -> In b (mp_buses p) -> mb_diag b = Some s ->
       mb_idx b < length (all_active w) /\ rs (mb_idx b) = fst s /\ cs (mb_idx b) = snd s) /\
    (forall r s, In r brs -> mr_fwd r = Some s -> rs (mr_i r) = fst s /\ cs (mr_j r) = snd s) /\
    (forall r s, In r brs -> mr_rev r = Some s -> rs (mr_j r) = fst s /\ cs (mr_i r) = snd s) /\
    (forall k, 0 < rs k -> (exists p b s, In p w /\ In b (mp_buses p) /\ mb_idx b = k /\ mb_diag b = Some s) \/
       (exists r s, In r brs /\ ((mr_i r = k /\ mr_fwd r = Some s) \/ (mr_j r = k /\ mr_rev r = Some s)))) /\
    (forall k, 0 < cs k -> (exists p b s, In p w /\ In b (mp_buses p) /\ mb_idx b = k /\ mb_diag b = Some s) \/
       (exists r s, In r brs /\ ((mr_j r = k /\ mr_fwd r = Some s) \/ (mr_i r = k /\ mr_rev r = Some s)))).

  (** The blocks of the network: index of the row bus, index of the column bus, values.  A component that announces a
      block but supplies no values contributes nothing. *)
  Definition opt_block (k l : nat) (size : option (nat * nat)) (vals : option (list V)) : list ((nat * nat) * list V) :=
    match size, vals with Some _, Some vs => [((k, l), vs)] | _, _ => [] end.
  Definition blocks (w : list mproc) (brs : list mbr) : list ((nat * nat) * list V) :=
    (flat_map (fun p => flat_map (fun b => opt_block (mb_idx b) (mb_idx b) (mb_diag b) (mb_vals b))
                                 (filter (@mb_act V) (mp_buses p))) w ++
     flat_map (fun r => opt_block (mr_i r) (mr_j r) (mr_fwd r) (mr_fvals r) ++
                        opt_block (mr_j r) (mr_i r) (mr_rev r) (mr_rvals r)) brs)%list.

  (** Values never exceed the block they are for. *)
  Definition values_fit (w : list mproc) (brs : list mbr) (rs cs : nat -> nat) : Prop :=
    Forall (fun b => length (snd b) <= rs (fst (fst b)) * cs (snd (fst b))) (blocks w brs).

  (** First row (column) of the block with index [k]. *)
  Definition start (sz : nat -> nat) (k : nat) : nat := sumn (map sz (iota k)).

  (** What the matrix must hold at row [a] of bus [k] and column [b] of bus [l]: the block's value, stored
      column by column, if there is a block. *)
  Definition expected (v0 : V) (f : V -> V -> V) (old : V) (bl : list ((nat * nat) * list V)) (rs : nat -> nat) (k l a b : nat) : V :=
    match find (fun x => (fst (fst x) =? k) && (snd (fst x) =? l)) bl with
    | Some x => f old (nth (b * rs k + a) (snd x) v0)
    | None => old
    end.
End Spec.

(** ** Bus vectors *)
Section VecSpec.
  Context {V : Type}.
  (** Every active bus that announces a size writes exactly that many values. *)
  Definition fills (b : vbus V) : Prop :=
    forall s, vb_act b = true -> vb_size b = Some s -> exists vs, vb_vals b = Some vs /\ length vs = s.
  (** The contribution of one bus: nothing, or its values. *)
  Definition given (b : vbus V) : list (list V) :=
    match vb_act b, vb_size b, vb_vals b with true, Some _, Some vs => [vs] | _, _, _ => [] end.
  (** The vector: what the buses give, process after process, bus after bus. *)
  Definition vector_of (w : list (list (vbus V))) : list V := flat_map (fun bs => concat (flat_map given bs)) w.
End VecSpec.

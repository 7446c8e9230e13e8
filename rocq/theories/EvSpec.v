(** Specification of event dispatching: an event manager is a list of events with the state index each had when it was added. *)
From Verif Require Import Prelude EvModel.

Section EvSpec.
  Variables T D W : Type.
  Variable ev_size : nat -> nat.
  Variable ev_index : W -> nat -> Z.
  Variable ev_dirs : W -> nat -> list D.
  Variable ev_terms : W -> nat -> list bool.
  Variable ev_current : W -> nat -> list T.
  Variable ev_update : nat -> W -> Z -> list T -> W * list T.
  Variable ev_handle : nat -> W -> list bool -> Z -> list T -> W * list T.

  (** Everything a program can do with a manager; the events are added when the world is as given. *)
  Inductive reach : list (nat * Z) -> bool -> manager -> Prop :=
  | reach_new : reach [] false m_new
  | reach_add es b m w e : reach es b m -> reach (es ++ [(e, ev_index w e)]) b (m_add ev_size ev_index w m e)
  | reach_size es b m : reach es b m -> reach es b (fst (m_size_ m))
  | reach_dirs es b m w m' l : reach es b m -> m_directions ev_dirs w m = Ok (m', l) -> reach es b m'
  | reach_flags es b m w m' l : reach es b m -> m_flags ev_terms w m = Ok (m', l) -> reach es b m'
  | reach_values es b m w t st w' m' l : reach es b m -> m_values_ ev_current ev_update w m t st = Ok (w', m', l) -> reach es b m'
  | reach_handle es b m w idx t st w' m' st' : reach es b m ->
      m_handle ev_terms ev_handle w m idx t st = Ok (w', m', st') -> reach es (m_is_terminated m') m'
  | reach_set es b b' m : reach es b m -> reach es b' (m_set_terminated m b').

  (** The number of event values. *)
  Definition total (es : list (nat * Z)) : nat := sumn (map (fun e => ev_size (fst e)) es).
  (** Flags, one list per event in order of addition. *)
  Fixpoint slices (es : list (nat * Z)) (flags : list bool) : list (list bool) :=
    match es with
    | [] => []
    | e :: r => firstn (ev_size (fst e)) flags :: slices r (skipn (ev_size (fst e)) flags)
    end.
  (** The flags of the components numbered [idx]. *)
  Definition flags_of (n : nat) (idx : list Z) : list bool := map (fun i => existsb (Z.eqb (Z.of_nat i)) idx) (iota n).

  (** A callback sees the state from index [i] on. *)
  Definition on_tail {R} (st : list T) (i : Z) (f : list T -> R * list T) : R * list T :=
    let '(r, tail) := f (skipn (Z.to_nat i) st) in (r, (firstn (Z.to_nat i) st ++ tail)%list).

  (** One event after the other: those with a triggered component are handled, once, with their own flags. *)
  Fixpoint dispatch (efs : list ((nat * Z) * list bool)) (w : W) (t : Z) (st : list T) : W * list T :=
    match efs with
    | [] => (w, st)
    | ((e, i), fl) :: r =>
        if existsb (fun b => b) fl
        then let '(w', st') := on_tail st i (ev_handle e w fl t) in dispatch r w' t st'
        else dispatch r w t st
    end.
  (** One event after the other is updated and delivers its values. *)
  Fixpoint collect (es : list (nat * Z)) (w : W) (t : Z) (st : list T) : W * list T :=
    match es with
    | [] => (w, [])
    | (e, i) :: r =>
        let '(w', st') := on_tail st i (ev_update e w t) in
        let '(w'', l) := collect r w' t st' in (w'', (ev_current w' e ++ l)%list)
    end.
  (** Callbacks do not change the number of elements, and the state indices are within the local state. *)
  Definition keeps_length : Prop :=
    (forall e w fl t st, length (snd (ev_handle e w fl t st)) = length st) /\
    (forall e w t st, length (snd (ev_update e w t st)) = length st).
  Definition indices_ok (es : list (nat * Z)) (st : list T) : Prop := forall e i, In (e, i) es -> (0 <= i <= Z.of_nat (length st))%Z.
  (** Every event has as many directions, flags and values as its size says. *)
  Definition sized (es : list (nat * Z)) : Prop := forall e i w, In (e, i) es ->
    length (ev_dirs w e) = ev_size e /\ length (ev_terms w e) = ev_size e /\ length (ev_current w e) = ev_size e.

  (** A triggered component asks for termination. *)
  Definition asks (w : W) (efs : list ((nat * Z) * list bool)) : Prop :=
    exists e i fl k, In ((e, i), fl) efs /\ nth_error fl k = Some true /\ nth_error (ev_terms w e) k = Some true.
  (** The first triggered component of one of the events asks for it. *)
  Definition first_asks (w : W) (efs : list ((nat * Z) * list bool)) : Prop :=
    exists e i fl k, In ((e, i), fl) efs /\ nth_error fl k = Some true /\ (forall j, j < k -> nth_error fl j = Some false) /\
      nth_error (ev_terms w e) k = Some true.
End EvSpec.

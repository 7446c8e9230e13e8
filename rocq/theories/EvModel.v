(** Model of the DAE event manager: math/dae_event.hpp. *)
From Verif Require Import Prelude.

Section Ev.
  (** [T] state and event values, [D] directions, [W] the state of all event objects (and of anything their callbacks touch). *)
  Variables T D W : Type.
  (** dae_event.hpp:88-117 the data of event object number [e]; size is a const member. *)
  Variable ev_size : nat -> nat.
  Variable ev_index : W -> nat -> Z.
  Variable ev_dirs : W -> nat -> list D.
  Variable ev_terms : W -> nat -> list bool.
  Variable ev_current : W -> nat -> list T.
  (** dae_event.hpp:119-130 p_update and p_handle of object [e], virtual: they get a pointer into the local state (the
      elements from the state index on), may write through it and change any object. p_handle also gets a pointer to its
      trigger flags, modelled as exactly the documented p_size flags. *)
  Variable ev_update : nat -> W -> Z -> list T -> W * list T.
  Variable ev_handle : nat -> W -> list bool -> Z -> list T -> W * list T.

  (** dae_event.hpp:322-328 p_EventInfo *)
  Record info := Info { i_event : nat; i_evidx : nat; i_nval : nat; i_solidx : Z }.
  (** dae_event.hpp:330-349 the data members; an array that was allocated is its length (its content is always rewritten
      before it is returned). The array p_trigger is allocated with size() entries as well. *)
  Record manager := Manager { m_events : list info; m_size : Z; m_dirs : option nat; m_terms : option nat;
                              m_values : option nat; m_trigger : option nat; m_terminated : bool }.

  (** dae_event.hpp:184-187 constructor: members are value-initialised. *)
  Definition m_new : manager := Manager [] 0 None None None None false.

  (** dae_event.hpp:194-215 add *)
  Definition m_add (w : W) (m : manager) (e : nat) : manager :=
    let nextidx := match rev (m_events m) with [] => 0 | b :: _ => i_evidx b + i_nval b end in
    Manager (m_events m ++ [Info e nextidx (ev_size e) (ev_index w e)]) (-1) None None None None (m_terminated m).

  (** dae_event.hpp:218-230 size, with its cache *)
  Definition size_sum (m : manager) : Z := Z.of_nat (sumn (map i_nval (m_events m))).
  Definition m_size_ (m : manager) : manager * Z :=
    if (0 <=? m_size m)%Z then (m, m_size m)
    else (Manager (m_events m) (size_sum m) (m_dirs m) (m_terms m) (m_values m) (m_trigger m) (m_terminated m), size_sum m).

  (** The loops writing p_dirs[n++] (246-251), p_terms[n++] (265-270) and p_values[n++] (292-298): all entries appended must fit
      in the array of [cap] entries, otherwise the write is out of bounds. The entries not written are not initialised, so
      the result is what was written. *)
  Definition fits {A} (cap : nat) (l : list A) : outcome (list A) := if length l <=? cap then Ok l else UB.

  (** dae_event.hpp:233-253 directions *)
  Definition m_directions (w : W) (m : manager) : outcome (manager * list D) :=
    let '(m, n) := m_size_ m in
    let cap := match m_dirs m with Some c => c | None => Z.to_nat n end in
    obind (fits cap (flat_map (fun r => ev_dirs w (i_event r)) (m_events m))) (fun l =>
    Ok (Manager (m_events m) (m_size m) (Some cap) (m_terms m) (m_values m) (m_trigger m) (m_terminated m), l)).

  (** dae_event.hpp:255-273 terminateFlags *)
  Definition m_flags (w : W) (m : manager) : outcome (manager * list bool) :=
    let '(m, cap) := match m_terms m with
                     | Some c => (m, c)
                     | None => let '(m', n) := m_size_ m in (m', Z.to_nat n) end in
    obind (fits cap (flat_map (fun r => ev_terms w (i_event r)) (m_events m))) (fun l =>
    Ok (Manager (m_events m) (m_size m) (m_dirs m) (Some cap) (m_values m) (m_trigger m) (m_terminated m), l)).

  (** [&lstate[i]] for an array: the elements from [i] on; the pointer may point behind the last element. *)
  Definition from_index (st : list T) (i : Z) : outcome (list T) :=
    if ((i <? 0) || (Z.of_nat (length st) <? i))%Z then UB else Ok (skipn (Z.to_nat i) st).
  (** A callback writing through that pointer leaves the elements before it alone; it cannot change the number of elements. *)
  Definition put_from (st : list T) (i : Z) (tail : list T) : list T := firstn (Z.to_nat i) st ++ tail.

  (** dae_event.hpp:292-298 the loop of values; [st] is the copy of the local state (286-289), discarded afterwards. *)
  Fixpoint values_loop (rs : list info) (w : W) (t : Z) (st : list T) (acc : list T) : outcome (W * list T) :=
    match rs with
    | [] => Ok (w, acc)
    | r :: rest =>
        obind (from_index st (i_solidx r)) (fun tail =>
        let '(w', tail') := ev_update (i_event r) w t tail in
        values_loop rest w' t (put_from st (i_solidx r) tail') (acc ++ ev_current w' (i_event r)))
    end.
  (** dae_event.hpp:277-300 values *)
  Definition m_values_ (w : W) (m : manager) (t : Z) (st : list T) : outcome (W * manager * list T) :=
    let '(m, cap) := match m_values m with
                     | Some c => (m, c)
                     | None => let '(m', n) := m_size_ m in (m', Z.to_nat n) end in
    obind (values_loop (m_events m) w t st []) (fun '(w', l) =>
    obind (fits cap l) (fun l =>
    Ok (w', Manager (m_events m) (m_size m) (m_dirs m) (m_terms m) (Some cap) (m_trigger m) (m_terminated m), l))).

  (** dae_event.hpp:358-363 the trigger flags *)
  Fixpoint set_triggers (tr : list bool) (idx : list Z) : outcome (list bool) :=
    match idx with
    | [] => Ok tr
    | i :: r => if ((i <? 0) || (Z.of_nat (length tr) <=? i))%Z then UB else set_triggers (upd tr (Z.to_nat i) true) r
    end.

  (** dae_event.hpp:370-377 the inner loop of p_handle: index of the first triggered component in [idx .. idx+n) *)
  Fixpoint first_trigger (tr : list bool) (idx n : nat) : outcome (option nat) :=
    match n with
    | O => Ok None
    | S k => match nth_error tr idx with
             | None => UB
             | Some true => Ok (Some idx)
             | Some false => first_trigger tr (S idx) k
             end
    end.
  (** dae_event.hpp:369-379 the loop over events; term[idx] reads the flags returned by terminateFlags before the loop. *)
  Fixpoint handle_loop (rs : list info) (tr term : list bool) (w : W) (t : Z) (st : list T) (done : bool) : outcome (W * list T * bool) :=
    match rs with
    | [] => Ok (w, st, done)
    | r :: rest =>
        obind (first_trigger tr (i_evidx r) (i_nval r)) (fun hit =>
        match hit with
        | None => handle_loop rest tr term w t st done
        | Some idx =>
            obind (from_index st (i_solidx r)) (fun tail =>
            let '(w', tail') := ev_handle (i_event r) w (firstn (i_nval r) (skipn (i_evidx r) tr)) t tail in
            match nth_error term idx with
            | None => UB
            | Some f => handle_loop rest tr term w' t (put_from st (i_solidx r) tail') (if f then true else done)
            end)
        end)
    end.
  (** dae_event.hpp:352-383 p_handle; the local elements are changed in place. *)
  Definition m_handle (w : W) (m : manager) (idx : list Z) (t : Z) (st : list T) : outcome (W * manager * list T) :=
    let '(m, cap) := match m_trigger m with
                     | Some c => (m, c)
                     | None => let '(m', n) := m_size_ m in (m', Z.to_nat n) end in
    let '(m, n) := m_size_ m in
    if (Z.of_nat cap <? n)%Z then UB else
    obind (set_triggers (repeat false cap) idx) (fun tr =>
    obind (m_flags w m) (fun '(m, term) =>
    obind (handle_loop (m_events m) tr term w t st (m_terminated m)) (fun '(w', st', done) =>
    Ok (w', Manager (m_events m) (m_size m) (m_dirs m) (m_terms m) (m_values m) (Some cap) done, st')))).

  (** dae_event.hpp:306-316 terminated *)
  Definition m_is_terminated (m : manager) : bool := m_terminated m.
  Definition m_set_terminated (m : manager) (b : bool) : manager :=
    Manager (m_events m) (m_size m) (m_dirs m) (m_terms m) (m_values m) (m_trigger m) b.
End Ev.

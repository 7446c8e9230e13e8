(** C33: DAE events. *)
From Verif Require Import Prelude EvModel EvSpec EvProofs.

Section C33.
  Variables T D W : Type.
  Variable ev_size : nat -> nat.
  Variable ev_index : W -> nat -> Z.
  Variable ev_dirs : W -> nat -> list D.
  Variable ev_terms : W -> nat -> list bool.
  Variable ev_current : W -> nat -> list T.
  Variable ev_update : nat -> W -> Z -> list T -> W * list T.
  Variable ev_handle : nat -> W -> list bool -> Z -> list T -> W * list T.
  Notation reachable := (reach ev_size ev_index ev_dirs ev_terms ev_current ev_update ev_handle).
  Notation all_sized := (sized ev_size ev_dirs ev_terms ev_current).
  Notation keeps := (keeps_length ev_update ev_handle).

  (** Whatever was done with the manager before: its size is the sum of the sizes of the events added, and directions and
      termination flags are those of the events, one event after the other. *)
  Lemma C33_arrays_ : forall es b m w, reachable es b m -> all_sized es ->
    snd (m_size_ m) = Z.of_nat (total ev_size es) /\
    (exists m', m_directions ev_dirs w m = Ok (m', flat_map (fun e => ev_dirs w (fst e)) es)) /\
    (exists m', m_flags ev_terms w m = Ok (m', flat_map (fun e => ev_terms w (fst e)) es)).
  Proof.
    intros es b m w R S. apply reach_inv in R. split; [now apply size_ok in R|]. split.
    - destruct (directions_ok ev_index ev_dirs ev_terms ev_current ev_update ev_handle w R) as (m' & H & _); [intros e i I; now apply (S e i w)|eauto].
    - destruct (flags_ok ev_index ev_dirs ev_terms ev_current w R) as (m' & H & _); [intros e i I; now apply (S e i w)|eauto].
  Qed.
  (** values updates the events in order of addition and concatenates what they hold; the state is not changed. *)
  Lemma C33_values_ : forall es b m w t st, reachable es b m -> all_sized es -> keeps -> indices_ok es st ->
    exists m', m_values_ ev_current ev_update w m t st =
      Ok (fst (collect ev_current ev_update es w t st), m', snd (collect ev_current ev_update es w t st)).
  Proof.
    intros es b m w t st R S [_ K] I. apply reach_inv in R.
    destruct (values_ok ev_index ev_dirs ev_terms ev_current ev_update K w t R I) as (m' & H & _); [intros w' e i X; now apply (S e i w')|eauto].
  Qed.
  (** handle: exactly the events with a triggered component are called, once, in order of addition, with their own flags and
      their part of the state; terminated becomes true exactly if it was or the first triggered component of some event asks. *)
  Lemma C33_dispatch_ : forall es b m w idx t st, reachable es b m -> all_sized es -> keeps -> indices_ok es st ->
    (forall i, In i idx -> (0 <= i < Z.of_nat (total ev_size es))%Z) ->
    let efs := combine es (slices ev_size es (flags_of (total ev_size es) idx)) in
    exists m', m_handle ev_terms ev_handle w m idx t st =
      Ok (fst (dispatch ev_handle efs w t st), m', snd (dispatch ev_handle efs w t st)) /\
      (m_is_terminated m' = true <-> m_is_terminated m = true \/ first_asks ev_terms w efs).
  Proof.
    intros es b m w idx t st R S [K K2] I X efs. pose proof (reach_terminated R) as HT. apply reach_inv in R.
    destruct (handle_ok ev_index ev_dirs ev_terms ev_current ev_update ev_handle K K2 w idx t R I) as (m' & H & R'); [intros e i Y; now apply (S e i w)|exact X|].
    exists m'. split; [exact H|]. destruct R' as (_ & _ & _ & _ & _ & _ & E). unfold m_is_terminated at 1. rewrite E, HT, orb_true_iff. fold efs.
    rewrite (ask_any ev_size ev_index ev_dirs ev_terms ev_current ev_update ev_handle). tauto.
  Qed.
  (** With at most one triggered component per event this is the property asked for. Missing: events with two or more
      triggered components, for which it is false (C33_termination_refuted). *)
  Lemma C33_termination_partial_ : forall es b m w idx t st w' m' st', reachable es b m -> all_sized es -> keeps -> indices_ok es st ->
    (forall i, In i idx -> (0 <= i < Z.of_nat (total ev_size es))%Z) ->
    let efs := combine es (slices ev_size es (flags_of (total ev_size es) idx)) in
    (forall e i fl k k', In ((e, i), fl) efs -> nth_error fl k = Some true -> nth_error fl k' = Some true -> k = k') ->
    m_handle ev_terms ev_handle w m idx t st = Ok (w', m', st') ->
    (m_is_terminated m' = true <-> m_is_terminated m = true \/ asks ev_terms w efs).
  Proof.
    intros es b m w idx t st w' m' st' R S K I X efs U H.
    destruct (C33_dispatch_ w idx t R S K I X) as (m2 & H2 & E). rewrite H in H2. inversion H2; subst m2. rewrite E.
    fold efs. rewrite (one_trigger ev_size ev_index ev_dirs ev_terms ev_current ev_update ev_handle _ _ U). tauto.
  Qed.
End C33.
Theorem C33_arrays :
  forall (T D W : Type) ev_size ev_index ev_dirs ev_terms ev_current ev_update ev_handle es b m (w : W),
  reach ev_size ev_index ev_dirs ev_terms ev_current ev_update ev_handle es b m ->
  @sized T D W ev_size ev_dirs ev_terms ev_current es ->
  snd (m_size_ m) = Z.of_nat (total ev_size es) /\
  (exists m', m_directions ev_dirs w m = Ok (m', flat_map (fun e => ev_dirs w (fst e)) es)) /\
  (exists m', m_flags ev_terms w m = Ok (m', flat_map (fun e => ev_terms w (fst e)) es)).
Proof. exact C33_arrays_. Qed.
Print Assumptions C33_arrays.
Theorem C33_values :
  forall (T D W : Type) ev_size ev_index ev_dirs ev_terms ev_current ev_update ev_handle es b m (w : W) t st,
  reach ev_size ev_index ev_dirs ev_terms ev_current ev_update ev_handle es b m ->
  @sized T D W ev_size ev_dirs ev_terms ev_current es -> keeps_length ev_update ev_handle -> indices_ok es st ->
  exists m', m_values_ ev_current ev_update w m t st =
    Ok (fst (collect ev_current ev_update es w t st), m', snd (collect ev_current ev_update es w t st)).
Proof. exact C33_values_. Qed.
Print Assumptions C33_values.
(** If updating an event does not change what other events hold, the result is what the events hold in the end. *)
Theorem C33_values_concatenated :
  forall (T D W : Type) ev_size ev_index ev_dirs ev_terms ev_current ev_update ev_handle es b m (w : W) t st w' m' l,
  reach ev_size ev_index ev_dirs ev_terms ev_current ev_update ev_handle es b m ->
  @sized T D W ev_size ev_dirs ev_terms ev_current es -> keeps_length ev_update ev_handle -> indices_ok es st ->
  (forall e e' w0 s, e <> e' -> ev_current (fst (ev_update e w0 t s)) e' = ev_current w0 e') -> NoDup (map fst es) ->
  m_values_ ev_current ev_update w m t st = Ok (w', m', l) -> l = flat_map (fun e => ev_current w' (fst e)) es.
Proof.
  intros * R S K I IND ND H. destruct (C33_values w t R S K I) as (m2 & E). rewrite E in H. inversion H; subst.
  now apply collect_current.
Qed.
Print Assumptions C33_values_concatenated.
Theorem C33_dispatch :
  forall (T D W : Type) ev_size ev_index ev_dirs ev_terms ev_current ev_update ev_handle es b m (w : W) idx t st,
  reach ev_size ev_index ev_dirs ev_terms ev_current ev_update ev_handle es b m ->
  @sized T D W ev_size ev_dirs ev_terms ev_current es -> keeps_length ev_update ev_handle -> indices_ok es st ->
  (forall i, In i idx -> (0 <= i < Z.of_nat (total ev_size es))%Z) ->
  let efs := combine es (slices ev_size es (flags_of (total ev_size es) idx)) in
  exists m', m_handle ev_terms ev_handle w m idx t st =
    Ok (fst (dispatch ev_handle efs w t st), m', snd (dispatch ev_handle efs w t st)) /\
    (m_is_terminated m' = true <-> m_is_terminated m = true \/ first_asks ev_terms w efs).
Proof. exact C33_dispatch_. Qed.
Print Assumptions C33_dispatch.
Theorem C33_termination_partial :
  forall (T D W : Type) ev_size ev_index ev_dirs ev_terms ev_current ev_update ev_handle es b m (w : W) idx t st w' m' st',
  reach ev_size ev_index ev_dirs ev_terms ev_current ev_update ev_handle es b m ->
  @sized T D W ev_size ev_dirs ev_terms ev_current es -> keeps_length ev_update ev_handle -> indices_ok es st ->
  (forall i, In i idx -> (0 <= i < Z.of_nat (total ev_size es))%Z) ->
  let efs := combine es (slices ev_size es (flags_of (total ev_size es) idx)) in
  (forall e i fl k k', In ((e, i), fl) efs -> nth_error fl k = Some true -> nth_error fl k' = Some true -> k = k') ->
  m_handle ev_terms ev_handle w m idx t st = Ok (w', m', st') ->
  (m_is_terminated m' = true <-> m_is_terminated m = true \/ asks ev_terms w efs).
Proof. exact C33_termination_partial_. Qed.
Print Assumptions C33_termination_partial.

(** A concrete case: event 0 with two values, event 1 with one, event 2 with two; the world is the log of calls. *)
Definition x_size (e : nat) : nat := match e with 1 => 1 | _ => 2 end.
Definition x_index (_ : list (nat * list bool)) (e : nat) : Z := Z.of_nat e.
Definition x_terms (_ : list (nat * list bool)) (e : nat) : list bool := match e with 1 => [true] | _ => [false; true] end.
Definition x_dirs (_ : list (nat * list bool)) (e : nat) : list nat := repeat e (x_size e).
Definition x_current (_ : list (nat * list bool)) (e : nat) : list Z := repeat (Z.of_nat e) (x_size e).
Definition x_update (e : nat) (w : list (nat * list bool)) (t : Z) (st : list Z) := (w, st).
Definition x_handle (e : nat) (w : list (nat * list bool)) (fl : list bool) (t : Z) (st : list Z) :=
  ((w ++ [(e, fl)])%list, map (Z.add 1) st).
Definition x_m := m_add x_size x_index [] (m_add x_size x_index [] (m_add x_size x_index [] m_new 0) 1) 2.
Example C33_nonvacuous :
  reach x_size x_index x_dirs x_terms x_current x_update x_handle [(0, 0%Z); (1, 1%Z); (2, 2%Z)] false x_m /\
  sized x_size x_dirs x_terms x_current [(0, 0%Z); (1, 1%Z); (2, 2%Z)] /\ keeps_length x_update x_handle /\
  indices_ok [(0, 0%Z); (1, 1%Z); (2, 2%Z)] [5; 6; 7]%Z /\
  (exists m', m_handle x_terms x_handle [] x_m [2%Z; 3%Z] 0 [5; 6; 7]%Z =
     Ok ([(1, [true]); (2, [true; false])], m', [5; 7; 9]%Z) /\ m_is_terminated m' = true).
Proof.
  split; [|split; [|split; [|split]]].
  - unfold x_m. change [(0, 0%Z); (1, 1%Z); (2, 2%Z)] with ((([] ++ [(0, x_index [] 0)]) ++ [(1, x_index [] 1)]) ++ [(2, x_index [] 2)])%list.
    repeat constructor.
  - intros e i w [E|[E|[E|[]]]]; inversion E; subst; repeat split; reflexivity.
  - split; intros; [apply map_length|reflexivity].
  - intros e i [E|[E|[E|[]]]]; inversion E; subst; cbn; lia.
  - eexists. split; vm_compute; reflexivity.
Qed.

(** Finding: only the first triggered component of an event is asked. Both components of event 0 are triggered and the second one
    asks for termination, but the manager does not report termination. *)
Theorem C33_termination_refuted :
  exists m', m_handle x_terms x_handle [] x_m [0%Z; 1%Z] 0 [5; 6; 7]%Z = Ok ([(0, [true; true])], m', [6; 7; 8]%Z) /\
    m_is_terminated m' = false /\
    asks x_terms [] (combine [(0, 0%Z); (1, 1%Z); (2, 2%Z)] (slices x_size [(0, 0%Z); (1, 1%Z); (2, 2%Z)] (flags_of 5 [0%Z; 1%Z]))).
Proof.
  eexists. split; [vm_compute; reflexivity|]. split; [reflexivity|].
  exists 0, 0%Z, [true; true], 1. repeat split; try reflexivity. left. reflexivity.
Qed.
Print Assumptions C33_termination_refuted.
(** Finding: the state index of an event is read when the event is added; a later change of it is not seen. *)
Theorem C33_state_index_refuted :
  exists (ev_index : nat -> nat -> Z) m, m = m_add (fun _ => 1) ev_index 0 m_new 0 /\
    ev_index 1 0 = 2%Z /\
    exists m', m_handle (fun _ _ => [false]) (fun e w fl t st => (w, map (Z.add 1) st)) 1 m [0%Z] 0 [5; 6; 7]%Z = Ok (1, m', [6; 7; 8]%Z).
Proof.
  exists (fun w _ => Z.of_nat (2 * w)), (m_add (fun _ => 1) (fun w _ => Z.of_nat (2 * w)) 0 m_new 0).
  split; [reflexivity|]. split; [reflexivity|]. eexists. vm_compute. reflexivity.
Qed.
Print Assumptions C33_state_index_refuted.

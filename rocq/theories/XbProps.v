(** C64: the exchange buffers of a network and the memory they use. *)
From Verif Require Import Prelude GAModel XbModel XbSpec XbProofs XbProofs2.

(** C64, buses: in every history of calls made as meant no memory is touched that is not allocated, each call returns what it
    should, every bus has its own buffer (or the pointer set last), and when the network is destroyed nothing is left. *)
Theorem C64_bus_buffers : forall cs, meant fresh cs = true ->
  exists s rs, history false new_net cs = Ok (s, rs) /\ all_return fresh cs rs /\ usable (seen_after cs) s /\
    exists h, destroy_ s = Ok h /\ h_live h = [].
Proof.
  intros cs M. destruct (@buffers_ok false cs M) as (s & rs & E & R & U & h & Eh & H). exists s, rs. repeat (split; [assumption|]).
  exists h. split; [exact Eh|]. apply H. discriminate.
Qed.
Print Assumptions C64_bus_buffers.

(** C64, branches: the same, but nothing is left only if the buffers were freed before others were allocated over them. *)
Theorem C64_branch_buffers_partial : forall cs, meant fresh cs = true ->
  exists s rs, history true new_net cs = Ok (s, rs) /\ all_return fresh cs rs /\ usable (seen_after cs) s /\
    exists h, destroy_ s = Ok h /\ (freed_first fresh cs = true -> h_live h = []).
Proof.
  intros cs M. destruct (@buffers_ok true cs M) as (s & rs & E & R & U & h & Eh & H). exists s, rs. repeat (split; [assumption|]).
  exists h. split; [exact Eh|]. intros F. apply H. intros _. exact F.
Qed.
Print Assumptions C64_branch_buffers_partial.

(** Between allocations the buffer of an index stays the same: calls that only look change nothing. *)
Theorem C64_lookups_change_nothing : forall br cs i s rs, history br new_net cs = Ok (s, rs) -> meant fresh (cs ++ [CGet i]) = true ->
  exists r, get_ s i = Ok (s, r).
Proof.
  intros br cs i s rs E M. rewrite meant_app in M. apply andb_true_iff in M as [M1 M2].
  destruct (@history_ok br cs _ _ _ inv_new M1) as (s1 & rs1 & L & E1 & I & _). rewrite E in E1. injection E1 as <- <-.
  cbn [meant] in M2. apply andb_true_iff in M2 as [M2 _]. destruct (@step_ok br s _ L (CGet i) I M2) as (s' & r & L' & Es & _ & _ & _).
  cbn [do_] in Es. exists r. rewrite Es. f_equal. f_equal. revert Es. unfold get_. destruct ((i <? 0) || (Z.of_nat (x_n s) <? i))%Z; [congruence|].
  destruct (read_at s (Z.to_nat i)); cbn; congruence.
Qed.
Print Assumptions C64_lookups_change_nothing.

(** A factory may set up the exchange of a network any number of times, with buffers of the network or of the components: all
    its calls are as meant, and afterwards the buffers are there. *)
Theorem C64_factory : forall n fs ext, (forall f w, In (f, w) fs -> (0 <= w)%Z) ->
  meant fresh (repeat CAdd n ++ flat_map (fun fw => set_exchange (fst fw) n (snd fw) ext) fs) = true.
Proof. exact factory_ok. Qed.
Print Assumptions C64_factory.

Theorem C64_factory_result : forall flag want ext v, (0 < want)%Z -> 0 < u_n v ->
  u_view (fold_left after (set_exchange flag (u_n v) want ext) v) =
  if flag then Owned else Borrowed (map (fun i => Some (ext i)) (seq 0 (u_n v))).
Proof. intros flag want ext v Hw Hn. now rewrite set_exchange_view. Qed.
Print Assumptions C64_factory_result.

(** C64 is false for branches when buffers are allocated again without freeing them: the second allocation marks the buffers as
    someone else's, and from then on none is ever deleted.  A network with n branches whose factory sets up the exchange k + 1
    times has lost k times n buffers when it is destroyed (base_network.hpp:1881 sets the flag that the function for buses
    leaves alone, and 1884-1891 do not reset it as 1750 does). *)
Theorem C64_branch_buffers_lost_refuted : forall n z k, 0 < n -> (0 < z)%Z ->
  exists s rs h, history true new_net (repeat CAdd n ++ repeat (CAlloc z) (S k)) = Ok (s, rs) /\ destroy_ s = Ok h /\ length (h_live h) = k * n.
Proof. exact branch_leak. Qed.
Print Assumptions C64_branch_buffers_lost_refuted.

(** The index one past the last bus passes the check of getXCBusBuffer and getXCBranchBuffer, and memory behind the array is read
    (base_network.hpp:1838, 1924), in every state. *)
Theorem C64_index_past_end_refuted : forall br cs s rs, meant fresh cs = true -> history br new_net cs = Ok (s, rs) ->
  get_ s (Z.of_nat (x_n s)) = UB.
Proof.
  intros br cs s rs M E. destruct (@history_ok br cs _ _ _ inv_new M) as (s1 & rs1 & L & E1 & I & _). rewrite E in E1. injection E1 as <- <-.
  unfold get_. replace ((Z.of_nat (x_n s) <? 0) || (Z.of_nat (x_n s) <? Z.of_nat (x_n s)))%Z with false by lia. unfold read_at. rewrite Nat2Z.id.
  destruct I as (Hn & W & H). destruct (x_ptr s) as [a|] eqn:Ep; [|reflexivity]. destruct (is_live (x_heap s) a); [|reflexivity].
  destruct (nth_error (x_arr s) (x_n s)) as [[q|]|] eqn:En; [|reflexivity|reflexivity]. exfalso.
  assert (Hlt : x_n s < length (x_arr s)) by (apply nth_error_Some; congruence).
  destruct H as [(V & Hp & Ha & P)|(a' & l & (_ & _ & Hl & _) & _)]; [|lia].
  destruct (@arr_short br cs _ _ E); [congruence|lia].
Qed.
Print Assumptions C64_index_past_end_refuted.

(** Freeing does not forget where the array was: a pointer set or fetched after the buffers were freed goes to deleted memory, where
    the functions check for NULL and would throw before any allocation (base_network.hpp:1758-1776, 1814). *)
Theorem C64_use_after_free_refuted : forall br, exists s rs,
  history br new_net [CAdd; CPointers 8; CSet 0 (Foreign 0); CFree] = Ok (s, rs) /\ set_ s 0 (Foreign 1) = UB /\ get_ s 0 = UB /\
  set_ (add_ new_net) 0 (Foreign 1) = Ok (add_ new_net, RThrow).
Proof. intros br. eexists _, _. cbn. auto. Qed.

(** Fetching a buffer before any was allocated goes through the NULL pointer; setting one throws. *)
Theorem C64_get_before_alloc_refuted : forall br n i, i < n -> exists s rs,
  history br new_net (repeat CAdd n) = Ok (s, rs) /\ get_ s (Z.of_nat i) = UB.
Proof.
  intros br n i Hi. destruct (history_adds br n new_net) as [rs E]. eexists _, rs. split; [exact E|]. unfold get_. cbn [x_n].
  replace ((Z.of_nat i <? 0) || (Z.of_nat (x_n new_net + n) <? Z.of_nat i))%Z with false by (cbn [new_net x_n]; lia). reflexivity.
Qed.

(** A pointer can be set although the buffers are the network's own: its own buffer is lost, and destroying the network deletes
    memory that is not its own. *)
Theorem C64_set_over_own_refuted : exists s rs,
  history false new_net [CAdd; CAlloc 8; CSet 0 (Foreign 0)] = Ok (s, rs) /\ destroy_ s = UB.
Proof. eexists _, _. split; reflexivity. Qed.

(** A bus added while buffers are there makes the network delete a pointer that was never set, when they are freed, allocated again,
    or the network is cleared or destroyed. *)
Theorem C64_add_after_alloc_refuted : exists s rs,
  history false new_net [CAdd; CAlloc 8; CAdd] = Ok (s, rs) /\ free_ s = UB /\ alloc_ false s 8 = UB /\ clear_ s = UB /\ destroy_ s = UB.
Proof. eexists _, _. cbn. auto. Qed.

(** Not vacuous: three buses, own buffers, fetched, replaced by pointers from outside, freed, allocated again, cleared. *)
Definition long_history : list call :=
  [CAdd; CAdd; CAdd; CAlloc 16; CGet 0; CGet 2; CGet 7; CAlloc (-1); CPointers 8; CSet 1 (Foreign 5); CSet 3 (Foreign 6); CGet 1; CFree; CFree;
   CAlloc 4; CGet 1; CAlloc 0; CClear; CAdd; CAlloc 2; CGet 0].
Example C64_nonvacuous : meant fresh long_history = true /\ u_view (seen_after long_history) = Owned /\
  exists s, history false new_net long_history =
    Ok (s, [RUnit; RUnit; RUnit; RUnit; RPtr (Mine 1); RPtr (Mine 3); RThrow; RThrow; RUnit; RUnit; RThrow; RPtr (Foreign 5); RUnit; RUnit;
            RUnit; RPtr (Mine 7); RUnit; RUnit; RUnit; RUnit; RPtr (Mine 10)]).
Proof. split; [reflexivity|]. split; [reflexivity|]. eexists. vm_compute. reflexivity. Qed.
Example C64_branch_nonvacuous : let cs := [CAdd; CAdd; CAlloc 16; CGet 1; CFree; CAlloc 8; CPointers 4; CSet 0 (Foreign 1); CFree; CAlloc 8] in
  meant fresh cs = true /\ freed_first fresh cs = true /\ u_view (seen_after cs) = Owned.
Proof. repeat split; reflexivity. Qed.
Example C64_lookup_nonvacuous : exists s rs, history true new_net [CAdd; CAlloc 3] = Ok (s, rs) /\ meant fresh ([CAdd; CAlloc 3] ++ [CGet 0]) = true.
Proof. eexists _, _. split; reflexivity. Qed.
Example C64_factory_nonvacuous : forall f w, In (f, w) [(true, 8%Z); (false, 4%Z); (true, 0%Z)] -> (0 <= w)%Z.
Proof. cbn. intros f w H. decompose [or] H; try contradiction; match goal with X : (_, _) = _ |- _ => injection X as _ <- end; lia. Qed.

(** Proofs for C60: what the relays of lines see in a run. *)
From Verif Require Import Prelude RyModel RySpec RyProofs RyProofs2 RyProofs3 RyProofs4.
From Coq Require Import Reals Lra.
From Coquelicot Require Import Complex.
Open Scope R_scope.

Lemma line_relays_list dt v cur l : forall es,
  fst (fst (line_relays dt v cur l es)) = map (fun y => (fst y, (fst (snd y), fst (operate (ds_update (fst (snd y)) dt (v, cur (fst y))) (snd (snd y)))))) l /\
  map snd (snd (fst (line_relays dt v cur l es))) = map snd es.
Proof.
  induction l as [| [e [p r]] l IH]; intros es; [split; reflexivity |]. cbn [line_relays map fst snd]. destruct (operate (ds_update p dt (v, cur e)) r) as [r' t]. cbn [fst snd].
  specialize (IH (if t then open_el e es else es)). destruct (line_relays dt v cur l _) as [[l' es'] ns]. cbn [fst snd] in *. destruct IH as [-> ->]. split; [reflexivity |]. destruct t; [apply open_el_snd | reflexivity].
Qed.
Definition next_line (dt : R) (v1 v2 : C) (x x' : rline) : Prop :=
  rl_1 x' = rl_1 x /\ rl_2 x' = rl_2 x /\ map snd (rl_el x') = map snd (rl_el x) /\
  rl_rel x' = map (fun y => (fst y, (fst (snd y), fst (operate (ds_update (fst (snd y)) dt (v1, match nth_error (map snd (rl_el x)) (fst y) with Some z => (v1 - v2) / z | None => RtoC 0 end)%C) (snd (snd y)))))) (rl_rel x).
Lemma line_update_next dt k x bs : next_line dt (volt bs (rl_1 x)) (volt bs (rl_2 x)) x (fst (fst (line_update dt k x bs))) /\ rl_trip (fst (fst (line_update dt k x bs))) = snd (line_update dt k x bs).
Proof.
  unfold line_update. destruct (line_relays_list dt (volt bs (rl_1 x)) (current bs x) (rl_rel x) (rl_el x)) as [A B]. destruct (line_relays _ _ _ _ _) as [[rs es] ns]. cbn [fst snd] in *. split; [| reflexivity].
  split; [reflexivity |]. split; [reflexivity |]. split; [exact B |]. cbn [rl_rel]. rewrite A. apply map_ext. intros [e [p r]]. cbn [fst snd]. unfold current. rewrite nth_error_map. destruct (nth_error (rl_el x) e) as [[st z] |]; reflexivity.
Qed.
Lemma unmarked_volt l l' k : map unmarked l = map unmarked l' -> volt l k = volt l' k.
Proof.
  intros E. unfold volt. destruct (nth_error l k) as [b |] eqn:Eb.
  - destruct (@unmarked_nth _ _ _ _ E Eb) as (c & -> & U). destruct (unmarked_parts U) as (-> & _). reflexivity.
  - destruct (nth_error l' k) as [c |] eqn:Ec; [| reflexivity]. symmetry in E. destruct (@unmarked_nth _ _ _ _ E Ec) as (b & Eb2 & _). congruence.
Qed.
Lemma update_lines_seen dt l : forall k0 bs k x, nth_error l k = Some x ->
  (forall j c, (j < k)%nat -> nth_error (fst (fst (update_lines dt k0 false l bs))) j = Some c -> rl_trip c = false) ->
  exists x', nth_error (fst (fst (update_lines dt k0 false l bs))) k = Some x' /\ next_line dt (volt bs (rl_1 x)) (volt bs (rl_2 x)) x x'.
Proof.
  induction l as [| y l IH]; intros k0 bs k x E N; [destruct k; discriminate |]. cbn [update_lines] in *. destruct (line_update_next dt k0 y bs) as [A B]. assert (U := line_update_unmarked dt k0 y bs). destruct (line_update dt k0 y bs) as [[y' bs'] t]. cbn [fst snd] in *. destruct k as [| k].
  - cbn in E. injection E as <-. destruct (update_lines dt (S k0) t l bs') as [[l' b2] f']. exists y'. split; [reflexivity | exact A].
  - cbn [nth_error] in E. assert (Tf : t = false). { rewrite <- B. destruct (update_lines dt (S k0) t l bs') as [[l' b2] f']. exact (N 0%nat y' ltac:(lia) eq_refl). } clear B. subst t.
    specialize (IH (S k0) bs' k x E). destruct (update_lines dt (S k0) false l bs') as [[l' b2] f']. cbn [fst snd nth_error] in *. destruct IH as (x' & E' & Hx); [intros j c L Ej; exact (N (S j) c ltac:(lia) Ej) |].
    exists x'. split; [exact E' |]. rewrite <- (@unmarked_volt bs' bs (rl_1 x) U), <- (@unmarked_volt bs' bs (rl_2 x) U). exact Hx.
Qed.
Lemma step_line_seen dt first V s k x : nth_error (s_line s) k = Some x -> (rl_1 x < length (s_bus s))%nat -> (rl_2 x < length (s_bus s))%nat ->
  (forall j c, (j < k)%nat -> nth_error (s_line (relay_step dt first V s)) j = Some c -> rl_trip c = false) ->
  exists x', nth_error (s_line (relay_step dt first V s)) k = Some x' /\ next_line dt (V (rl_1 x)) (V (rl_2 x)) x x' /\ length (s_bus (relay_step dt first V s)) = length (s_bus s).
Proof.
  intros E B1 B2 N. destruct (step_buses dt first V s) as (b1 & b2 & fb & b3 & ls & fl & E1 & E2 & E3 & R). rewrite R in *. cbn [s_line s_bus] in *. clear R.
  assert (VV : forall j, (j < length (s_bus s))%nat -> volt b2 j = V j).
  { intros j L. destruct (update_buses_keep dt b1 j) as [_ K]. rewrite E2 in K. cbn [fst] in K. rewrite E1, prepared in K. destruct (nth_error (s_bus s) j) as [c |] eqn:Ec; [| apply nth_error_None in Ec; lia]. cbn [option_map] in K. rewrite prepared_v in K. unfold volt. destruct (nth_error b2 j); cbn in K; congruence. }
  assert (U := @update_lines_seen dt (s_line s) 0 b2 k x E). assert (LU := update_lines_unmarked dt (s_line s) 0 false b2). rewrite E3 in U, LU. cbn [fst snd] in U, LU. destruct (U N) as (x' & X1 & X2). exists x'. split; [exact X1 |]. split; [now rewrite <- !VV |].
  assert (L := update_buses_len dt b1 false). rewrite E2 in L. cbn [fst] in L. rewrite map_length, <- (map_length unmarked b3), LU, map_length, L, E1, map_length. destruct first; rewrite ?map_length; apply with_volts_len.
Qed.
Lemma run_line_seen dt k Vs : forall first s n s' x0 q e p r z vi, nth_error (steps dt first Vs s) n = Some s' -> nth_error (s_line s) k = Some x0 -> (rl_1 x0 < length (s_bus s))%nat -> (rl_2 x0 < length (s_bus s))%nat ->
  (forall i si j c, (i <= n)%nat -> nth_error (steps dt first Vs s) i = Some si -> (j < k)%nat -> nth_error (s_line si) j = Some c -> rl_trip c = false) ->
  nth_error (rl_rel x0) q = Some (e, (p, r)) -> nth_error (map snd (rl_el x0)) e = Some z ->
  (forall i V, (i <= n)%nat -> nth_error Vs i = Some V -> vi i = (fst V (rl_1 x0), (fst V (rl_1 x0) - fst V (rl_2 x0)) / z)%C) ->
  exists x, nth_error (s_line s') k = Some x /\ nth_error (rl_rel x) q = Some (e, (p, relay_after (ds_update p dt) vi (S n) r)) /\ map snd (rl_el x) = map snd (rl_el x0).
Proof.
  induction Vs as [| [V1 V2] Vs IH]; intros first s n s' x0 q e p r z vi E E0 B1 B2 N Eq Ez Hv; [destruct n; discriminate |]. cbn [steps] in E, N.
  destruct (@step_line_seen dt first V1 s k x0 E0 B1 B2) as (x1 & X1 & (Y1 & Y2 & Y3 & Y4) & L1); [intros j c L Ec; exact (N 0%nat _ j c ltac:(lia) eq_refl L Ec) |].
  assert (v0 : vi 0%nat = (V1 (rl_1 x0), (V1 (rl_1 x0) - V1 (rl_2 x0)) / z)%C) by exact (Hv 0%nat _ ltac:(lia) eq_refl).
  assert (Eq1 : nth_error (rl_rel x1) q = Some (e, (p, fst (operate (ds_update p dt (vi 0%nat)) r)))). { rewrite Y4, nth_error_map, Eq. cbn [option_map fst snd]. rewrite Ez, v0. reflexivity. }
  destruct n as [| n].
  - cbn in E. injection E as <-. exists x1. split; [exact X1 |]. split; [exact Eq1 | exact Y3].
  - cbn [nth_error] in E. destruct (IH false (second_solution dt V2 (relay_step dt first V1 s)) n s' x1 q e p (fst (operate (ds_update p dt (vi 0%nat)) r)) z (fun i => vi (S i)) E) as (x & Z1 & Z2 & Z3).
    + exact X1.
    + cbn [second_solution s_bus]. rewrite map_length, with_volts_len, L1, Y1. exact B1.
    + cbn [second_solution s_bus]. rewrite map_length, with_volts_len, L1, Y2. exact B2.
    + intros i si j c L Ei. exact (N (S i) si j c ltac:(lia) Ei).
    + exact Eq1.
    + now rewrite Y3.
    + intros i V L Ei. rewrite Y1, Y2. exact (Hv (S i) V ltac:(lia) Ei).
    + exists x. split; [exact Z1 |]. split; [| congruence]. rewrite Z2. rewrite (relay_after_shift _ vi (S n)). reflexivity.
Qed.

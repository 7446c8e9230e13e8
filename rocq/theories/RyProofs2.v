(** Proofs for C60: the relays of buses in a network. *)
From Verif Require Import Prelude RyModel RySpec RyProofs.
From Coq Require Import Reals Lra.
From Coquelicot Require Import Complex.
Open Scope R_scope.

Lemma operate_op A (u : relay A -> relay A) r : (forall s, r_op (u s) = r_op s) ->
  r_op (fst (operate u r)) = (r_op r && negb (snd (operate u r))) /\ (snd (operate u r) = true -> r_op r = true).
Proof.
  intros H. unfold operate. destruct (r_trip (u r) && negb (r_prev (u r)) && r_op (u r)) eqn:E; cbn.
  - rewrite andb_true_iff, H in E. destruct E as [_ ->]. auto.
  - rewrite H, andb_true_r. split; [reflexivity | discriminate].
Qed.
Definition shed (ld : C) (l : list (lvshbl * relay nat)) : C := total (map (fun x => if r_op (snd x) then RtoC 0 else ld * RtoC (lv_f1 (fst x))) l)%C.
Definition lost (l : list rgen) : C := total (map (fun g => if rg_on g then RtoC 0 else rg_y g) l).
Lemma removed_eq b : removed b = (shed (rb_load b) (rb_lv b) + lost (rb_gens b))%C.
Proof. reflexivity. Qed.

Lemma load_relays_eq dt v ld l : forall y,
  fst (fst (load_relays dt v ld l y)) = map (fun x => (fst x, fst (operate (lv_update (fst x) dt v) (snd x)))) l /\
  (snd (fst (load_relays dt v ld l y)) + shed ld (fst (fst (load_relays dt v ld l y))) = y + shed ld l)%C /\
  (snd (load_relays dt v ld l y) = false -> snd (fst (load_relays dt v ld l y)) = y).
Proof.
  induction l as [| [p r] l IH]; intros y; [cbn; auto |]. cbn [load_relays map fst snd].
  destruct (@operate_op _ (lv_update p dt v) r (lv_op p dt v)) as [O1 O2]. destruct (operate (lv_update p dt v) r) as [r' t]. cbn [fst snd] in O1, O2.
  specialize (IH (if t then y - ld * RtoC (lv_f1 p) else y)%C). destruct (load_relays dt v ld l _) as [[l' y'] t']. cbn [fst snd] in *. destruct IH as (I1 & I2 & I3).
  split; [now rewrite I1 |]. split.
  - unfold shed in *. cbn [map total fold_right fst snd]. rewrite O1. destruct t.
    + rewrite (O2 eq_refl). cbn [andb negb]. transitivity ((y' + total (map (fun x => if r_op (snd x) then RtoC 0 else ld * RtoC (lv_f1 (fst x))) l')) + ld * RtoC (lv_f1 p))%C; [unfold total; ring |]. rewrite I2. unfold total. ring.
    + rewrite andb_true_r. transitivity ((y' + total (map (fun x => if r_op (snd x) then RtoC 0 else ld * RtoC (lv_f1 (fst x))) l')) + (if r_op r then RtoC 0 else ld * RtoC (lv_f1 p)))%C; [unfold total; ring |]. rewrite I2. unfold total. ring.
  - rewrite orb_false_iff. intros [-> F]. now apply I3.
Qed.
Definition gen_ok (g : rgen) : Prop := (length (rg_relays g) <= 1)%nat /\ forall x, In x (rg_relays g) -> r_op (snd x) = rg_on g.
Lemma gen_relays_list dt f yg l : forall on y, fst (fst (fst (gen_relays dt f yg l on y))) = map (fun x => (fst x, fst (operate (fq_update (fst x) dt f) (snd x)))) l.
Proof.
  induction l as [| [p r] l IH]; intros on y; [reflexivity |]. cbn [gen_relays map fst snd]. destruct (operate (fq_update p dt f) r) as [r' t]. cbn [fst snd].
  specialize (IH (if t then false else on) (if t then y - yg else y)%C). destruct (gen_relays dt f yg l _ _) as [[[l' on'] y'] t']. cbn [fst snd] in *. now rewrite IH.
Qed.
Lemma gen_relays_eq dt f yg l on y : (length l <= 1)%nat -> (forall x, In x l -> r_op (snd x) = on) ->
  let '(l', on', y', t) := gen_relays dt f yg l on y in
  (forall x, In x l' -> r_op (snd x) = on') /\ (y' + (if on' then RtoC 0 else yg) = y + (if on then RtoC 0 else yg))%C /\ (t = false -> y' = y).
Proof.
  intros L H. destruct l as [| [p r] [| x l]]; [| | cbn in L; lia]; cbn [gen_relays].
  - split; [intros x [] | auto].
  - destruct (@operate_op _ (fq_update p dt f) r (fq_op p dt f)) as [O1 O2]. destruct (operate (fq_update p dt f) r) as [r' t]. cbn [fst snd] in O1, O2.
    assert (E : r_op r = on) by exact (H (p, r) (or_introl eq_refl)). rewrite orb_false_r. split; [| split].
    + intros x [<- | []]. cbn [snd]. rewrite O1, E. destruct t; [now rewrite andb_false_r | now rewrite andb_true_r].
    + destruct t; [| reflexivity]. rewrite <- E, (O2 eq_refl). ring.
    + intros ->. reflexivity.
Qed.
Lemma all_gens_eq dt f l : forall y, (forall g, In g l -> gen_ok g) ->
  let '(l', y', t) := all_gens dt f l y in
  (forall g, In g l' -> gen_ok g) /\ (y' + lost l' = y + lost l)%C /\ (t = false -> y' = y) /\
  l' = map (fun g => if rg_stat g then Rgen true (snd (fst (fst (gen_relays dt f (rg_y g) (rg_relays g) (rg_on g) (RtoC 0))))) (rg_y g)
                       (map (fun x => (fst x, fst (operate (fq_update (fst x) dt f) (snd x)))) (rg_relays g)) else g) l.
Proof.
  induction l as [| g l IH]; intros y H; cbn [all_gens map]; [auto |].
  assert (Hl : forall g', In g' l -> gen_ok g') by (intros; apply H; now right). destruct (H g (or_introl eq_refl)) as [G1 G2].
  destruct (rg_stat g) eqn:St.
  - assert (E := @gen_relays_eq dt f (rg_y g) (rg_relays g) (rg_on g) y G1 G2). assert (EL := gen_relays_list dt f (rg_y g) (rg_relays g) (rg_on g) y).
    assert (ON : forall y2, snd (fst (fst (gen_relays dt f (rg_y g) (rg_relays g) (rg_on g) y))) = snd (fst (fst (gen_relays dt f (rg_y g) (rg_relays g) (rg_on g) y2)))).
    { clear. generalize (rg_on g) as on. intros on y2. revert on y y2. induction (rg_relays g) as [| [p r] l IH]; intros on y y2; [reflexivity |]. cbn [gen_relays]. destruct (operate (fq_update p dt f) r) as [r' t].
      specialize (IH (if t then false else on) (if t then y - rg_y g else y)%C (if t then y2 - rg_y g else y2)%C). destruct (gen_relays dt f (rg_y g) l _ _) as [[[l1 o1] y1] t1]. destruct (gen_relays dt f (rg_y g) l _ _) as [[[l3 o3] y3] t3]. exact IH. }
    specialize (ON (RtoC 0)). destruct (gen_relays dt f (rg_y g) (rg_relays g) (rg_on g) y) as [[[rs on] y1] t] eqn:GR. cbn [fst snd] in *. destruct E as (E1 & E2 & E3).
    specialize (IH y1 Hl). destruct (all_gens dt f l y1) as [[l' y'] t']. destruct IH as (I1 & I2 & I3 & I4). split; [| split; [| split]].
    + intros g' [<- | I]; [| now apply I1]. split; cbn [rg_relays rg_on]; [rewrite EL, map_length; exact G1 | exact E1].
    + unfold lost in *. cbn [map total fold_right rg_on rg_y]. transitivity ((y' + total (map (fun g0 => if rg_on g0 then RtoC 0 else rg_y g0) l')) + (if on then RtoC 0 else rg_y g))%C; [unfold total; ring |]. rewrite I2.
      transitivity ((y1 + (if on then RtoC 0 else rg_y g)) + total (map (fun g0 => if rg_on g0 then RtoC 0 else rg_y g0) l))%C; [ring |]. rewrite E2. unfold total. ring.
    + rewrite orb_false_iff. intros [A B]. rewrite I3 by exact B. now apply E3.
    + rewrite I4. f_equal. rewrite ON. f_equal. exact EL.
  - specialize (IH y Hl). destruct (all_gens dt f l y) as [[l' y'] t']. destruct IH as (I1 & I2 & I3 & I4). split; [| split; [| split]].
    + intros g' [<- | I]; [split; auto | now apply I1].
    + unfold lost in *. cbn [map total fold_right]. transitivity ((y' + total (map (fun g0 => if rg_on g0 then RtoC 0 else rg_y g0) l')) + (if rg_on g then RtoC 0 else rg_y g))%C; [unfold total; ring |]. rewrite I2. unfold total. ring.
    + exact I3.
    + now rewrite I4.
Qed.
Definition bus_ok (b : rbus) : Prop := forall g, In g (rb_gens b) -> gen_ok g.
Lemma bus_update_eq dt b : bus_ok b -> let (b', t) := bus_update dt b in
  bus_ok b' /\ (rb_y b' + removed b' = rb_y b + removed b)%C /\ rb_trip b' = t /\ (t = false -> rb_y b' = rb_y b) /\ rb_load b' = rb_load b /\
  rb_lv b' = map (fun x => (fst x, fst (operate (lv_update (fst x) dt (rb_v b)) (snd x)))) (rb_lv b) /\
  rb_gens b' = map (fun g => if rg_stat g then Rgen true (snd (fst (fst (gen_relays dt (rb_f b') (rg_y g) (rg_relays g) (rg_on g) (RtoC 0))))) (rg_y g)
                       (map (fun x => (fst x, fst (operate (fq_update (fst x) dt (rb_f b')) (snd x)))) (rg_relays g)) else g) (rb_gens b) /\ rb_v b' = rb_v b.
Proof.
  intros H. unfold bus_update. destruct (load_relays_eq dt (rb_v b) (rb_load b) (rb_lv b) (rb_y b)) as (L1 & L2 & L3). destruct (load_relays dt (rb_v b) (rb_load b) (rb_lv b) (rb_y b)) as [[ls y] t]. cbn [fst snd] in *.
  set (b1 := if (0 <? length (rb_gens b))%nat then compute_freq dt b else b).
  assert (Bl : rb_load b1 = rb_load b) by (unfold b1, compute_freq; destruct (_ <? _)%nat; [destruct (rb_cf b) |]; reflexivity). assert (Bv : rb_v b1 = rb_v b) by (unfold b1, compute_freq; destruct (_ <? _)%nat; [destruct (rb_cf b) |]; reflexivity).
  assert (G := @all_gens_eq dt (rb_f b1) (rb_gens b) y H). destruct (all_gens dt (rb_f b1) (rb_gens b) y) as [[gs y'] t']. destruct G as (G1 & G2 & G3 & G4).
  cbn [rb_y rb_trip rb_load rb_lv rb_gens rb_f rb_v]. repeat split; auto.
  - apply G1; assumption.
  - apply (G1 g); assumption.
  - rewrite !removed_eq. cbn [rb_load rb_lv rb_gens]. rewrite Bl. transitivity ((y' + lost gs) + shed (rb_load b) ls)%C; [ring |]. rewrite G2. transitivity ((y + shed (rb_load b) ls) + lost (rb_gens b))%C; [ring |]. rewrite L2. ring.
  - rewrite orb_false_iff. intros [A B]. rewrite G3 by exact B. now apply L3.
Qed.

(** ** All buses *)
Lemma update_buses_true dt l : update_buses dt true l = (l, true).
Proof. induction l as [| b l IH]; [reflexivity |]. cbn [update_buses]. rewrite IH. reflexivity. Qed.
Lemma update_buses_nth dt l : forall k b', nth_error (fst (update_buses dt false l)) k = Some b' ->
  exists b, nth_error l k = Some b /\ (b' = b /\ snd (update_buses dt false l) = true \/ b' = fst (bus_update dt b) /\ (snd (bus_update dt b) = true -> snd (update_buses dt false l) = true)).
Proof.
  induction l as [| b l IH]; intros k b' H; [destruct k; discriminate |]. cbn [update_buses] in *. destruct (bus_update dt b) as [b1 [|]] eqn:E.
  - rewrite update_buses_true in *. cbn [fst snd] in *. destruct k as [| k]; cbn [nth_error] in *.
    + injection H as <-. exists b. split; [reflexivity |]. right. rewrite E. auto.
    + exists b'. auto.
  - destruct (update_buses dt false l) as [l' f] eqn:EL. cbn [fst snd] in *. destruct k as [| k]; cbn [nth_error] in *.
    + injection H as <-. exists b. split; [reflexivity |]. right. rewrite E. split; [reflexivity | discriminate].
    + destruct (IH k b' H) as (b2 & A & B). exists b2. auto.
Qed.
Lemma update_buses_none dt l : snd (update_buses dt false l) = false -> fst (update_buses dt false l) = map (fun b => fst (bus_update dt b)) l /\ forall b, In b l -> snd (bus_update dt b) = false.
Proof.
  induction l as [| b l IH]; cbn [update_buses map]; intros H; [split; [reflexivity | intros b []] |]. destruct (bus_update dt b) as [b1 [|]] eqn:E.
  - rewrite update_buses_true in H. discriminate.
  - destruct (update_buses dt false l) as [l' f]. cbn [fst snd] in *. destruct (IH H) as [I1 I2]. rewrite I1. split; [reflexivity |]. intros b2 [<- | I]; [now rewrite E | now apply I2].
Qed.
Lemma update_buses_len dt l : forall f, length (fst (update_buses dt f l)) = length l.
Proof.
  induction l as [| b l IH]; intros f; [reflexivity |]. cbn [update_buses]. destruct (if f then (b, true) else bus_update dt b) as [b' f1]. specialize (IH f1). destruct (update_buses dt f1 l) as [l' f']. cbn [fst length] in *. now rewrite IH.
Qed.
(** The relays of bus [k] are updated if no bus before it operates. *)
Lemma update_buses_seen dt l k b : nth_error l k = Some b -> (forall j c, (j < k)%nat -> nth_error (fst (update_buses dt false l)) j = Some c -> rb_trip c = false) ->
  (forall c, In c l -> bus_ok c) -> nth_error (fst (update_buses dt false l)) k = Some (fst (bus_update dt b)).
Proof.
  revert k. induction l as [| a l IH]; intros k H N Ok; [destruct k; discriminate |]. cbn [update_buses] in *. assert (U := @bus_update_eq dt a (Ok a (or_introl eq_refl))). destruct (bus_update dt a) as [b1 t] eqn:E. destruct U as (_ & _ & Tr & _).
  destruct k as [| k].
  - cbn in H. injection H as <-. rewrite E. destruct (update_buses dt t l) as [l' f]. reflexivity.
  - destruct t.
    + exfalso. rewrite update_buses_true in N. specialize (N 0%nat b1 ltac:(lia) eq_refl). congruence.
    + cbn [nth_error] in H. assert (I := IH k H). destruct (update_buses dt false l) as [l' f]. cbn [fst nth_error] in *. apply I; [| intros; apply Ok; now right]. intros j c L J. apply (N (S j) c); [lia | exact J].
Qed.

(** ** Lines without relays *)
Definition unmarked (b : rbus) : rbus := set_br false None b.
Lemma upd_at_unmarked k f br l : map unmarked (upd_at k (set_br f br) l) = map unmarked l.
Proof. revert k. induction l as [| b l IH]; intros [| k]; cbn [upd_at map]; try reflexivity. now rewrite IH. Qed.
Lemma line_update_unmarked dt k x bs : map unmarked (snd (fst (line_update dt k x bs))) = map unmarked bs.
Proof. unfold line_update. destruct (line_relays _ _ _ _ _) as [[rs es] ns]. cbn [fst snd]. now rewrite !upd_at_unmarked. Qed.
Lemma update_lines_unmarked dt l : forall k f bs, map unmarked (snd (fst (update_lines dt k f l bs))) = map unmarked bs.
Proof.
  induction l as [| x l IH]; intros k f bs; [reflexivity |]. cbn [update_lines]. destruct f.
  - specialize (IH (S k) true bs). destruct (update_lines dt (S k) true l bs) as [[l' b2] f']. exact IH.
  - assert (E := line_update_unmarked dt k x bs). destruct (line_update dt k x bs) as [[x' bs'] f1]. cbn [fst snd] in E. specialize (IH (S k) f1 bs'). destruct (update_lines dt (S k) f1 l bs') as [[l' b2] f']. cbn [fst snd] in *. congruence.
Qed.
Lemma unmarked_nth l l' k b' : map unmarked l = map unmarked l' -> nth_error l k = Some b' -> exists b, nth_error l' k = Some b /\ unmarked b = unmarked b'.
Proof.
  intros E H. assert (A : nth_error (map unmarked l) k = Some (unmarked b')) by (now apply map_nth_error). rewrite E, nth_error_map in A. destruct (nth_error l' k) as [b |]; [| discriminate]. exists b. split; [reflexivity |]. cbn [option_map] in A. congruence.
Qed.
Lemma unmarked_parts b c : unmarked b = unmarked c ->
  rb_v b = rb_v c /\ rb_vold b = rb_vold c /\ rb_f b = rb_f c /\ rb_fold b = rb_fold c /\ rb_cf b = rb_cf c /\ rb_load b = rb_load c /\ rb_y b = rb_y c /\ rb_lv b = rb_lv c /\ rb_gens b = rb_gens c /\ rb_trip b = rb_trip c.
Proof. intros E. injection E. auto 20. Qed.
Definition no_relays (x : rline) : Prop := rl_rel x = [].
Lemma update_lines_none dt l : forall k bs, (forall x, In x l -> no_relays x) -> snd (update_lines dt k false l bs) = false /\ forall x, In x (fst (fst (update_lines dt k false l bs))) -> no_relays x.
Proof.
  induction l as [| x l IH]; intros k bs H; [split; [reflexivity | intros x []] |]. cbn [update_lines]. unfold line_update. rewrite (H x (or_introl eq_refl)). cbn [line_relays].
  match goal with |- context [update_lines dt (S k) false l ?b] => specialize (IH (S k) b) end. destruct (update_lines dt (S k) false l _) as [[l' b2] f']. cbn [fst snd] in *. destruct IH as [A B]; [intros; apply H; now right |].
  split; [exact A |]. intros y [<- | I]; [reflexivity | now apply B].
Qed.

(** ** The matrix *)
Lemma overwrite_off l : forall k m a b, a <> b -> overwrite k l m a b = m a b.
Proof.
  induction l as [| c l IH]; intros k m a b N; [reflexivity |]. cbn [overwrite]. rewrite IH by exact N. destruct (rb_trip c); [| reflexivity]. unfold set_at.
  destruct (Nat.eqb_spec a k), (Nat.eqb_spec b k); try reflexivity. congruence.
Qed.
Lemma overwrite_before l : forall k m a, (a < k)%nat -> overwrite k l m a a = m a a.
Proof.
  induction l as [| c l IH]; intros k m a N; [reflexivity |]. cbn [overwrite]. rewrite IH by lia. destruct (rb_trip c); [| reflexivity]. unfold set_at. destruct (Nat.eqb_spec a k); [lia | reflexivity].
Qed.
Lemma overwrite_diag l : forall k m a, (k <= a)%nat -> overwrite k l m a a = match nth_error l (a - k) with Some b => if rb_trip b then rb_y b else m a a | None => m a a end.
Proof.
  induction l as [| c l IH]; intros k m a L; [cbn; now destruct (a - k)%nat |]. cbn [overwrite]. destruct (Nat.eq_dec a k) as [-> | Ne].
  - rewrite overwrite_before by lia. rewrite Nat.sub_diag. cbn. destruct (rb_trip c); [| reflexivity]. unfold set_at. now rewrite Nat.eqb_refl.
  - rewrite IH by lia. replace (a - k)%nat with (S (a - S k)) by lia. cbn [nth_error]. assert (E : (if rb_trip c then set_at k k (rb_y c) m else m) a a = m a a) by (destruct (rb_trip c); [| reflexivity]; unfold set_at; destruct (Nat.eqb_spec a k); [lia | reflexivity]).
    now rewrite E.
Qed.
Lemma with_volts_nth V l : forall j k, nth_error (with_volts j V l) k = option_map (set_volts (V (j + k)%nat)) (nth_error l k).
Proof. induction l as [| b l IH]; intros j [| k]; cbn [with_volts nth_error option_map]; try reflexivity; [now rewrite Nat.add_0_r |]. rewrite IH. now rewrite Nat.add_succ_r. Qed.

Definition settled (b0 b : rbus) : Prop := bus_ok b /\ (rb_y b + removed b = rb_y b0)%C.
Definition holds_all (s0 s : rsys) : Prop :=
  length (s_bus s) = length (s_bus s0) /\ (forall x, In x (s_line s) -> no_relays x) /\
  (forall k b, nth_error (s_bus s) k = Some b -> exists b0, nth_error (s_bus s0) k = Some b0 /\ settled b0 b /\ s_mat s k k = rb_y b) /\
  (forall k, nth_error (s_bus s) k = None -> s_mat s k k = s_mat s0 k k) /\ (forall a b, a <> b -> s_mat s a b = s_mat s0 a b).
Lemma with_volts_len V l : forall j, length (with_volts j V l) = length l.
Proof. induction l as [| b l IH]; intros j; [reflexivity |]. cbn. now rewrite IH. Qed.
(** Setting voltages, frequencies and old values does not change what [settled] speaks about. *)
Definition same (b c : rbus) : Prop := rb_load b = rb_load c /\ rb_y b = rb_y c /\ rb_lv b = rb_lv c /\ rb_gens b = rb_gens c.
Lemma same_settled b0 b c : same b c -> settled b0 b -> settled b0 c.
Proof. intros (A & B & D & E) [F G]. unfold settled, bus_ok, removed in *. rewrite <- A, <- B, <- D, <- E. auto. Qed.
Lemma compute_same dt b : same (compute_freq dt b) b.
Proof. unfold compute_freq. destruct (rb_cf b); repeat split. Qed.
Lemma prepared dt (first : bool) V l k : nth_error (map (compute_freq dt) (if first then map old_volt (with_volts 0 V l) else with_volts 0 V l)) k =
  option_map (fun b => compute_freq dt (if first then old_volt (set_volts (V k) b) else set_volts (V k) b)) (nth_error l k).
Proof. rewrite nth_error_map. destruct first; [rewrite nth_error_map |]; rewrite with_volts_nth; destruct (nth_error l k); reflexivity. Qed.
Lemma relay_step_holds dt first V s0 s : holds_all s0 s -> holds_all s0 (relay_step dt first V s).
Proof.
  intros (Len & NR & Hb & Hn & Ho). unfold relay_step. set (b1 := map (compute_freq dt) (if first then map old_volt (with_volts 0 V (s_bus s)) else with_volts 0 V (s_bus s))).
  assert (L1 : length b1 = length (s_bus s)). { unfold b1. rewrite map_length. destruct first; rewrite ?map_length; apply with_volts_len. }
  assert (P1 : forall k b, nth_error b1 k = Some b -> exists b0, nth_error (s_bus s0) k = Some b0 /\ settled b0 b /\ s_mat s k k = rb_y b).
  { intros k b E. unfold b1 in E. rewrite prepared in E. destruct (nth_error (s_bus s) k) as [c |] eqn:Ec; [| discriminate]. cbn [option_map] in E. injection E as <-. destruct (Hb k c Ec) as (b0 & A & B & D). exists b0. split; [exact A |].
    assert (S : same c (compute_freq dt (if first then old_volt (set_volts (V k) c) else set_volts (V k) c))). { destruct (compute_same dt (if first then old_volt (set_volts (V k) c) else set_volts (V k) c)) as (Q1 & Q2 & Q3 & Q4). unfold same. rewrite Q1, Q2, Q3, Q4. destruct first; repeat split. }
    split; [eapply same_settled; eauto |]. destruct S as (_ & <- & _). exact D. }
  clearbody b1. assert (UN := @update_buses_nth dt b1). assert (UL := update_buses_len dt b1 false). assert (U0 := @update_buses_none dt b1). destruct (update_buses dt false b1) as [b2 fb]. cbn [fst snd] in UN, UL, U0.
  assert (LN := @update_lines_none dt (s_line s) 0 b2 NR). assert (LU := update_lines_unmarked dt (s_line s) 0 false b2). destruct (update_lines dt 0 false (s_line s) b2) as [[ls b3] fl]. cbn [fst snd] in LN, LU. destruct LN as [-> NR'].
  assert (L3 : length b3 = length b2). { rewrite <- (map_length unmarked b3), LU. apply map_length. }
  assert (OW : forall k b, nth_error b3 k = Some b -> exists b0, nth_error (s_bus s0) k = Some b0 /\ settled b0 b /\ (if fb then overwrite 0 b3 (s_mat s) else s_mat s) k k = rb_y b).
  { intros k b E. destruct (@unmarked_nth _ _ _ _ LU E) as (c & Ec & Uc). destruct (unmarked_parts Uc) as (_ & _ & _ & _ & _ & Q1 & Q2 & Q3 & Q4 & Q5).
    destruct (UN k c Ec) as (d & Ed & Hd). destruct (P1 k d Ed) as (b0 & A & B & D). exists b0. split; [exact A |]. assert (Sb : same c b) by (repeat split; auto).
    destruct Hd as [(-> & ->) | (Hc & Hf)].
    - split; [eapply same_settled; [exact Sb | exact B] |]. rewrite overwrite_diag, Nat.sub_0_r, E by lia. destruct (rb_trip b); [reflexivity | congruence].
    - assert (Ue := @bus_update_eq dt d (proj1 B)). destruct (bus_update dt d) as [d' t]. cbn [fst snd] in Hc, Hf. subst d'. destruct Ue as (V1 & V2 & V3 & V4 & _).
      split; [eapply same_settled; [exact Sb |]; split; [exact V1 |]; rewrite V2; apply B |]. destruct t.
      + rewrite (Hf eq_refl). rewrite overwrite_diag, Nat.sub_0_r, E by lia. rewrite <- Q5, V3. reflexivity.
      + assert (Y : rb_y b = rb_y d) by (rewrite <- Q2; now apply V4). destruct fb; [| congruence]. rewrite overwrite_diag, Nat.sub_0_r, E by lia. destruct (rb_trip b); congruence. }
  split; [cbn; rewrite map_length; congruence |]. split; [exact NR' |]. split; [| split].
  - intros k b E. cbn [s_bus s_mat] in *. rewrite nth_error_map in E. destruct (nth_error b3 k) as [c |] eqn:Ec; [| discriminate]. cbn in E. injection E as <-. destruct (OW k c Ec) as (b0 & A & B & D). exists b0. split; [exact A |]. split; [eapply same_settled; [| exact B]; repeat split | exact D].
  - intros k E. cbn [s_bus s_mat] in *. assert (N3 : nth_error b3 k = None) by (rewrite nth_error_map in E; destruct (nth_error b3 k); [discriminate | reflexivity]).
    assert (Ns : nth_error (s_bus s) k = None). { apply nth_error_None. apply nth_error_None in N3. lia. } rewrite <- (Hn k Ns). destruct fb; [| reflexivity]. rewrite overwrite_diag by lia. rewrite Nat.sub_0_r, N3. reflexivity.
  - intros a b N. cbn [s_mat]. rewrite <- (Ho a b N). destruct fb; [| reflexivity]. now apply overwrite_off.
Qed.
Lemma second_holds dt V s0 s : holds_all s0 s -> holds_all s0 (second_solution dt V s).
Proof.
  intros (Len & NR & Hb & Hn & Ho). unfold second_solution. split; [cbn; now rewrite map_length, with_volts_len |]. split; [exact NR |]. split; [| split; [| exact Ho]].
  - intros k b E. cbn [s_bus s_mat] in *. rewrite nth_error_map, with_volts_nth in E. destruct (nth_error (s_bus s) k) as [c |] eqn:Ec; [| discriminate]. cbn in E. injection E as <-. destruct (Hb k c Ec) as (b0 & A & B & D). exists b0. split; [exact A |].
    assert (S : same c (compute_freq dt (set_volts (V k) c))). { destruct (compute_same dt (set_volts (V k) c)) as (Q1 & Q2 & Q3 & Q4). unfold same. rewrite Q1, Q2, Q3, Q4. repeat split. }
    split; [eapply same_settled; eauto |]. destruct S as (_ & <- & _). exact D.
  - intros k E. cbn [s_bus s_mat] in *. apply Hn. rewrite nth_error_map, with_volts_nth in E. destruct (nth_error (s_bus s) k); [discriminate | reflexivity].
Qed.
Lemma steps_hold dt s0 Vs : forall first s, holds_all s0 s -> forall s', In s' (steps dt first Vs s) -> holds_all s0 s'.
Proof.
  induction Vs as [| [V1 V2] Vs IH]; intros first s H s' I; [destruct I |]. cbn [steps] in I. destruct I as [<- | I]; [now apply relay_step_holds |].
  eapply IH; [| exact I]. apply second_holds, relay_step_holds, H.
Qed.
Lemma removed_intact b : intact b -> removed b = RtoC 0.
Proof.
  intros [A B]. unfold removed. assert (E1 : total (map (fun x => if r_op (snd x) then RtoC 0 else rb_load b * RtoC (lv_f1 (fst x))) (rb_lv b))%C = RtoC 0).
  { induction (rb_lv b) as [| x l IH]; [reflexivity |]. cbn [map total fold_right]. rewrite (A x (or_introl eq_refl)). unfold total in IH. rewrite IH by (intros; apply A; now right). ring. }
  assert (E2 : total (map (fun g => if rg_on g then RtoC 0 else rg_y g) (rb_gens b)) = RtoC 0).
  { clear A E1. induction (rb_gens b) as [| g l IH]; [reflexivity |]. cbn [map total fold_right]. destruct (B g (or_introl eq_refl)) as [-> _]. unfold total in IH. rewrite IH by (intros; apply B; now right). ring. }
  rewrite E1, E2. ring.
Qed.
Lemma start_holds s : (forall x, In x (s_line s) -> no_relays x) -> (forall k b, nth_error (s_bus s) k = Some b -> intact b /\ s_mat s k k = rb_y b) -> holds_all s s.
Proof.
  intros A B. split; [reflexivity |]. split; [exact A |]. split; [| auto]. intros k b E. destruct (B k b E) as [I M]. exists b. split; [exact E |]. split; [| exact M]. split.
  - intros g G. destruct I as [_ I]. destruct (I g G) as (I1 & I2 & I3). split; [exact I2 |]. intros x X. rewrite I1. now apply I3.
  - rewrite removed_intact by exact I. ring.
Qed.

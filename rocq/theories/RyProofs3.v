(** Proofs for C60: the relays of lines, and relays in a run. *)
From Verif Require Import Prelude RyModel RySpec RyProofs RyProofs2.
From Coq Require Import Reals Lra.
From Coquelicot Require Import Complex.
Open Scope R_scope.

Lemma total_app l1 l2 : total (l1 ++ l2) = (total l1 + total l2)%C.
Proof. unfold total. induction l1 as [| a l IH]; cbn [fold_right app]; [ring | rewrite IH; ring]. Qed.
Definition svc (g : C -> C) (es : list (bool * C)) : C := total (map (fun e : bool * C => if fst e then g (snd e) else RtoC 0) es).
Definition zs (g : C -> C) (es : list (bool * C)) (ns : list nat) : C :=
  total (map (fun e => match nth_error (map snd es) e with Some z => g z | None => RtoC 0 end) ns).

Lemma open_el_split e es st z : nth_error es e = Some (st, z) -> exists l1 l2, es = (l1 ++ (st, z) :: l2)%list /\ length l1 = e /\ open_el e es = (l1 ++ (false, z) :: l2)%list.
Proof.
  intros H. destruct (nth_error_split _ _ H) as (l1 & l2 & E & L). exists l1, l2. split; [exact E |]. split; [exact L |]. unfold open_el. rewrite H. subst e. rewrite E.
  rewrite firstn_app, firstn_all, Nat.sub_diag. cbn [firstn]. rewrite app_nil_r. replace (S (length l1)) with (length (l1 ++ [(st, z)])%list) by (rewrite app_length; cbn; lia).
  change ((st, z) :: l2)%list with ([(st, z)] ++ l2)%list. rewrite app_assoc, skipn_app, skipn_all, Nat.sub_diag. reflexivity.
Qed.
Lemma open_el_snd e es : map snd (open_el e es) = map snd es.
Proof.
  destruct (nth_error es e) as [[st z] |] eqn:E; [| unfold open_el; now rewrite E]. destruct (open_el_split _ _ E) as (l1 & l2 & A & _ & B). rewrite B, A, !map_app. reflexivity.
Qed.
Lemma open_el_svc g e es z : nth_error es e = Some (true, z) -> (svc g es = svc g (open_el e es) + g z)%C.
Proof.
  intros H. destruct (open_el_split _ _ H) as (l1 & l2 & A & _ & B). rewrite B, A. unfold svc. rewrite !map_app, !total_app. cbn [map fst snd total fold_right]. unfold total. ring.
Qed.
Lemma open_el_other e es e' : e' <> e -> nth_error (open_el e es) e' = nth_error es e'.
Proof.
  intros N. destruct (nth_error es e) as [[st z] |] eqn:E; [| unfold open_el; now rewrite E]. destruct (open_el_split _ _ E) as (l1 & l2 & A & L & B). rewrite B, A.
  destruct (Nat.lt_ge_cases e' (length l1)) as [Lt | Ge]; [now rewrite !nth_error_app1 by exact Lt |]. rewrite !nth_error_app2 by exact Ge. destruct (e' - length l1)%nat eqn:D; [lia | reflexivity].
Qed.
Definition rel_ok (es : list (bool * C)) (l : list (nat * (distr1 * relay (nat * nat)))) : Prop :=
  forall e p r, In (e, (p, r)) l -> exists st z, nth_error es e = Some (st, z) /\ r_op r = st.
Lemma line_relays_eq dt v cur l : forall es, NoDup (map fst l) -> rel_ok es l ->
  let '(l', es', ns) := line_relays dt v cur l es in
  map fst l' = map fst l /\ map snd es' = map snd es /\ rel_ok es' l' /\ (forall e, ~ In e (map fst l) -> nth_error es' e = nth_error es e) /\
  (forall g, svc g es = svc g es' + zs g es ns)%C /\ (ns = [] -> es' = es).
Proof.
  induction l as [| [e [p r]] l IH]; intros es ND Ok; cbn [line_relays].
  - split; [reflexivity |]. split; [reflexivity |]. split; [exact Ok |]. split; [reflexivity |]. split; [| reflexivity]. intros g. unfold zs. cbn. ring.
  - cbn [map fst] in ND. apply NoDup_cons_iff in ND. destruct ND as [Ne ND]. destruct (@operate_op _ (ds_update p dt (v, cur e)) r (ds_op p dt (v, cur e))) as [O1 O2].
    destruct (operate (ds_update p dt (v, cur e)) r) as [r' t]. cbn [fst snd] in O1, O2. destruct (Ok e p r (or_introl eq_refl)) as (st & z & Es & Hs).
    set (es1 := if t then open_el e es else es). assert (S1 : map snd es1 = map snd es) by (unfold es1; destruct t; [apply open_el_snd | reflexivity]).
    assert (N1 : forall e', e' <> e -> nth_error es1 e' = nth_error es e') by (intros e' N; unfold es1; destruct t; [now apply open_el_other | reflexivity]).
    assert (Ok1 : rel_ok es1 l). { intros e' p' r0 I. destruct (Ok e' p' r0 (or_intror I)) as (st' & z' & A & B). exists st', z'. split; [| exact B]. rewrite N1; [exact A |]. intros ->. apply Ne. now apply (in_map fst) in I. }
    specialize (IH es1 ND Ok1). destruct (line_relays dt v cur l es1) as [[l' es'] ns]. destruct IH as (I1 & I2 & I3 & I4 & I5 & I6). split; [cbn; now rewrite I1 |]. split; [congruence |]. split; [| split; [| split]].
    + intros e' p' r0 [H | I]; [| now apply I3 with p']. injection H as <- <- <-. rewrite (I4 e Ne). rewrite O1. unfold es1. destruct t.
      * destruct (open_el_split _ _ Es) as (l1 & l2 & _ & L & ->). exists false, z. rewrite nth_error_app2 by lia. rewrite L, Nat.sub_diag. split; [reflexivity | apply andb_false_r].
      * exists st, z. split; [exact Es |]. now rewrite andb_true_r.
    + intros e' N. cbn [map fst In] in N. rewrite I4 by tauto. apply N1. intros ->. tauto.
    + intros g. unfold zs in *. assert (E5 : (svc g es1 = svc g es' + total (map (fun e => match nth_error (map snd es) e with Some z => g z | None => RtoC 0 end) ns))%C) by (rewrite <- S1; apply I5).
      unfold es1 in E5. destruct t; [| exact E5]. cbn [map total fold_right]. rewrite (map_nth_error snd e es Es). cbn [snd]. assert (st = true) by (rewrite <- Hs; auto). subst st. rewrite H in Es. rewrite (@open_el_svc g e _ _ Es), E5. unfold total. ring.
    + unfold es1 in I6. destruct t; [discriminate | exact I6].
Qed.
Lemma factor_eq x : factor x = (- zs (fun z => 1 / z)%C (rl_el x) (rl_new x))%C.
Proof.
  unfold factor, zs. assert (A : forall l s, fold_left (fun s e => match nth_error (rl_el x) e with Some (_, z) => s + - (1) / z | None => s end)%C l s = (s - total (map (fun e => match nth_error (map snd (rl_el x)) e with Some z => 1 / z | None => RtoC 0 end) l))%C).
  { induction l as [| e l IH]; intros s; cbn [fold_left map total fold_right]; [ring |]. rewrite IH. rewrite nth_error_map. destruct (nth_error (rl_el x) e) as [[st z] |]; cbn [option_map snd]; unfold total, Cdiv; ring. }
  rewrite A. ring.
Qed.
Definition coef (i j a b : nat) : C :=
  (if ((a =? b) && ((a =? i) || (a =? j)))%nat then RtoC 1 else if ((a =? i) && (b =? j) || (a =? j) && (b =? i))%nat then - RtoC 1 else RtoC 0)%C.
Lemma stamp_coef i j z a b : stamp i j z a b = (coef i j a b * (1 / z))%C.
Proof. unfold stamp, coef. destruct (_ && _)%bool; [ring |]. destruct (_ || _)%bool; ring. Qed.
Lemma zs_scale c es ns : (zs (fun z => c * (1 / z)) es ns = c * zs (fun z => 1 / z) es ns)%C.
Proof. unfold zs. induction ns as [| e ns IH]; cbn [map total fold_right]; [ring |]. unfold total in IH. rewrite IH. destruct (nth_error (map snd es) e); unfold total; ring. Qed.

(** ** Updating all lines *)
Lemma upd_at_nth A k (f : A -> A) l : forall j, nth_error (upd_at k f l) j = if (j =? k)%nat then option_map f (nth_error l j) else nth_error l j.
Proof.
  revert k. induction l as [| a l IH]; intros [| k] [| j]; cbn [upd_at nth_error Nat.eqb option_map]; try reflexivity.
  - now destruct (j =? k)%nat.
  - apply IH.
Qed.
Definition flag_at (bs : list rbus) (j : nat) : bool := match nth_error bs j with Some b => rb_brflag b | None => false end.
Definition an_end (x : rline) (j : nat) : Prop := j = rl_1 x \/ j = rl_2 x.
Lemma flag_upd k f br bs j : flag_at (upd_at k (set_br f br) bs) j = if (j =? k)%nat then match nth_error bs j with Some _ => f | None => false end else flag_at bs j.
Proof. unfold flag_at. rewrite upd_at_nth. destruct (j =? k)%nat; [| reflexivity]. destruct (nth_error bs j); reflexivity. Qed.
Lemma line_update_quiet dt k x bs : snd (line_update dt k x bs) = false ->
  (forall n, line_ok n x -> line_ok n (fst (fst (line_update dt k x bs)))) /\ rl_trip (fst (fst (line_update dt k x bs))) = false /\
  (forall n, line_ok n x -> rl_1 (fst (fst (line_update dt k x bs))) = rl_1 x /\ rl_2 (fst (fst (line_update dt k x bs))) = rl_2 x /\ rl_el (fst (fst (line_update dt k x bs))) = rl_el x) /\
  forall j, flag_at bs j = false \/ an_end x j -> flag_at (snd (fst (line_update dt k x bs))) j = false.
Proof.
  unfold line_update. assert (E := @line_relays_eq dt (volt bs (rl_1 x)) (current bs x) (rl_rel x) (rl_el x)). destruct (line_relays _ _ _ _ _) as [[rs es] ns]. cbn [fst snd]. destruct ns as [| e ns]; [intros _ | discriminate]. cbn [rl_trip rl_1 rl_2 rl_el].
  split; [| split; [reflexivity |]; split].
  - intros n (A & B & D & F & G). destruct (E F G) as (E1 & E2 & E3 & _). split; [exact A |]. split; [exact B |]. split; [exact D |]. cbn [rl_rel rl_el]. rewrite E1. split; [exact F | exact E3].
  - intros n (A & B & D & F & G). destruct (E F G) as (E1 & E2 & E3 & _ & _ & E6). auto.
  - intros j H. rewrite !flag_upd. unfold an_end in H. destruct (Nat.eqb_spec j (rl_2 x)); [now destruct (nth_error _ j) |]. destruct (Nat.eqb_spec j (rl_1 x)); [now destruct (nth_error _ j) |]. destruct H as [H | [H | H]]; [exact H | tauto | tauto].
Qed.
Lemma line_update_len dt k x bs : length (snd (fst (line_update dt k x bs))) = length bs.
Proof. rewrite <- (map_length unmarked), line_update_unmarked. apply map_length. Qed.
Definition same_line (n : nat) (x x' : rline) : Prop := line_ok n x' /\ rl_1 x' = rl_1 x /\ rl_2 x' = rl_2 x /\ rl_el x' = rl_el x /\ rl_trip x' = false.
Lemma update_lines_true dt l : forall k bs, update_lines dt k true l bs = (l, bs, true).
Proof. induction l as [| x l IH]; intros k bs; [reflexivity |]. cbn [update_lines]. now rewrite IH. Qed.
Lemma update_lines_quiet dt n l : forall k bs, (forall x, In x l -> line_ok n x) -> snd (update_lines dt k false l bs) = false ->
  Forall2 (same_line n) l (fst (fst (update_lines dt k false l bs))) /\
  forall j, flag_at bs j = false \/ (exists x, In x l /\ an_end x j) -> flag_at (snd (fst (update_lines dt k false l bs))) j = false.
Proof.
  induction l as [| x l IH]; intros k bs Ok H; [split; [constructor | intros j [F | (x & [] & _)]; exact F] |]. cbn [update_lines] in *. assert (Q := @line_update_quiet dt k x bs).
  destruct (line_update dt k x bs) as [[x' bs'] [|]]; [rewrite update_lines_true in H; discriminate |]. cbn [fst snd] in Q. destruct (Q eq_refl) as (Q1 & Q2 & Q3 & Q4). specialize (IH (S k) bs').
  destruct (update_lines dt (S k) false l bs') as [[l' b2] f']. cbn [fst snd] in *. destruct IH as [I1 I2]; [intros; apply Ok; now right | exact H |]. assert (Ox := Ok x (or_introl eq_refl)). destruct (Q3 n Ox) as (R1 & R2 & R3). split.
  - constructor; [| exact I1]. repeat split; auto; apply (Q1 n Ox).
  - intros j [F | (y & [<- | Iy] & Ey)]; apply I2; [left; apply Q4; now left | left; apply Q4; now right | right; eauto].
Qed.
Lemma update_lines_trip dt l : forall k bs, snd (update_lines dt k false l bs) = true ->
  exists l1 x l2, l = (l1 ++ x :: l2)%list /\ snd (update_lines dt k false l1 bs) = false /\
    snd (line_update dt (k + length l1) x (snd (fst (update_lines dt k false l1 bs)))) = true /\
    fst (fst (update_lines dt k false l bs)) = (fst (fst (update_lines dt k false l1 bs)) ++ fst (fst (line_update dt (k + length l1) x (snd (fst (update_lines dt k false l1 bs))))) :: l2)%list /\
    snd (fst (update_lines dt k false l bs)) = snd (fst (line_update dt (k + length l1) x (snd (fst (update_lines dt k false l1 bs))))).
Proof.
  induction l as [| x l IH]; intros k bs H; [discriminate |]. cbn [update_lines] in H. destruct (line_update dt k x bs) as [[x' bs'] [|]] eqn:E.
  - exists [], x, l. cbn [update_lines fst snd length app]. rewrite Nat.add_0_r. rewrite !E. rewrite !update_lines_true. cbn. auto.
  - specialize (IH (S k) bs'). cbn [update_lines]. rewrite !E. destruct (update_lines dt (S k) false l bs') as [[l' b2] f'] eqn:EL. cbn [fst snd] in *. destruct (IH H) as (l1 & y & l2 & A & B & D & F & G).
    exists (x :: l1), y, l2. split; [cbn; now rewrite A |]. cbn [update_lines length]. rewrite !E. rewrite <- Nat.add_succ_comm. destruct (update_lines dt (S k) false l1 bs') as [[l1' b1] f1]. cbn [fst snd] in *.
    split; [exact B |]. split; [exact D |]. split; [cbn; now rewrite F | exact G].
Qed.

(** ** The matrix *)
Definition markval (xs : list rline) (c : rbus) : C := if rb_brflag c then match rb_br c with Some x => match nth_error xs x with Some x => factor x | None => RtoC 0 end | None => RtoC 0 end else RtoC 0.
Lemma inc_diag_at xs l : forall k m a b, inc_diag k l xs m a b = (m a b + (if ((a =? b) && (k <=? a))%nat then match nth_error l (a - k) with Some c => markval xs c | None => RtoC 0 end else RtoC 0))%C.
Proof.
  induction l as [| c l IH]; intros k m a b; cbn [inc_diag].
  - destruct (_ && _)%bool; [destruct (a - k)%nat |]; cbn; ring.
  - rewrite IH. clear IH. assert (E : (if rb_brflag c then match rb_br c with Some x => match nth_error xs x with Some x0 => add_at k k (factor x0) m | None => m end | None => m end else m) a b = (m a b + (if ((a =? k) && (b =? k))%nat then markval xs c else RtoC 0))%C).
    { unfold markval, add_at. destruct (rb_brflag c); [destruct (rb_br c) as [x |]; [destruct (nth_error xs x) |] |]; destruct (_ && _)%bool; try ring. }
    rewrite E. destruct (Nat.eqb_spec a b) as [<- | Nab]; cbn [andb].
    + destruct (Nat.eqb_spec a k) as [Eak | Nak]; cbn [andb].
      * subst k. rewrite Nat.leb_refl, Nat.sub_diag. cbn [nth_error]. destruct (Nat.leb_spec (S a) a); [lia | ring].
      * destruct (Nat.leb_spec k a) as [L1 | L1]; destruct (Nat.leb_spec (S k) a) as [L2 | L2]; try lia; [| ring]. replace (a - k)%nat with (S (a - S k)) by lia. cbn [nth_error]. ring.
    + destruct (Nat.eqb_spec a k), (Nat.eqb_spec b k); cbn [andb]; try ring. congruence.
Qed.
Definition offval (a b : nat) (x : rline) : C :=
  (if rl_trip x then (if ((a =? rl_1 x) && (b =? rl_2 x))%nat then - factor x else RtoC 0) + (if ((a =? rl_2 x) && (b =? rl_1 x))%nat then - factor x else RtoC 0) else RtoC 0)%C.
Lemma inc_off_at xs : forall m a b, (inc_off xs m a b = m a b + total (map (offval a b) xs))%C.
Proof.
  induction xs as [| x xs IH]; intros m a b; cbn [inc_off map total fold_right]; [ring |]. rewrite IH. unfold offval, total. destruct (rl_trip x); [| ring]. unfold add_at. destruct (_ && _)%bool, (_ && _)%bool; ring.
Qed.
Lemma total_zero A (f : A -> C) l : (forall x, In x l -> f x = RtoC 0) -> total (map f l) = RtoC 0.
Proof. intros H. induction l as [| x l IH]; [reflexivity |]. unfold total in *. cbn [map fold_right]. rewrite H by now left. rewrite IH by (intros; apply H; now right). ring. Qed.

Definition clean (s : rsys) : Prop := (forall x, In x (s_line s) -> rl_trip x = false) /\ forall j, flag_at (s_bus s) j = false.
Definition tripped (s : rsys) : Prop := exists x, In x (s_line s) /\ rl_trip x = true.
Definition calm (s : rsys) : Prop := forall b, In b (s_bus s) -> rb_trip b = false.
Definition lines_ok (s : rsys) : Prop := forall x, In x (s_line s) -> line_ok (length (s_bus s)) x.
Lemma in_service_same n l l' a b : Forall2 (same_line n) l l' -> in_service l' a b = in_service l a b.
Proof.
  intros H. unfold in_service. induction H as [| x x' l l' (_ & A & B & D & _) H IH]; [reflexivity |]. unfold total in *. cbn [map fold_right]. rewrite IH, A, B, D. reflexivity.
Qed.
Lemma Forall2_in A B (R : A -> B -> Prop) l l' y : Forall2 R l l' -> In y l' -> exists x, In x l /\ R x y.
Proof. intros H. induction H as [| a b l l' Rab H IH]; [intros [] |]. intros [<- | I]; [exists a; split; [now left | exact Rab] |]. destruct (IH I) as (x & X1 & X2). exists x. split; [now right | exact X2]. Qed.

Lemma in_service_cons x l a b : (in_service (x :: l) a b = svc (fun z => coef (rl_1 x) (rl_2 x) a b * (1 / z)) (rl_el x) + in_service l a b)%C.
Proof.
  unfold in_service at 1. cbn [map total fold_right]. unfold svc. fold (in_service l a b). f_equal. f_equal. apply map_ext. intros [st z]. cbn [fst snd]. destruct st; [apply stamp_coef | reflexivity].
Qed.
Lemma in_service_app l l' a b : (in_service (l ++ l') a b = in_service l a b + in_service l' a b)%C.
Proof. unfold in_service. now rewrite map_app, total_app. Qed.

Lemma lines_part dt ls bs m n : n = length bs -> (forall x, In x ls -> line_ok n x) ->
  let '(ls', bs', fl) := update_lines dt 0 false ls bs in
  let m' := if fl then inc_off ls' (inc_diag 0 bs' ls' m) else m in
  (forall x, In x ls' -> line_ok n x) /\
  (fl = false -> (forall x, In x ls' -> rl_trip x = false) /\ (forall j, flag_at bs j = false \/ (exists x, In x ls /\ an_end x j) -> flag_at bs' j = false) /\ (forall a b, in_service ls' a b = in_service ls a b) /\ Forall2 (same_line n) ls ls') /\
  (fl = true -> (exists x, In x ls' /\ rl_trip x = true) /\
     ((forall x, In x ls -> rl_trip x = false) -> (forall j, flag_at bs j = false) -> forall a b, m' a b = m a b - in_service ls a b + in_service ls' a b)%C) /\
  map (fun x => (rl_1 x, rl_2 x)) ls' = map (fun x => (rl_1 x, rl_2 x)) ls /\ forall j, flag_at bs' j = true -> flag_at bs j = true \/ exists x, In x ls /\ an_end x j.
Proof.
  intros -> Ok. assert (Q := @update_lines_quiet dt (length bs) ls 0 bs Ok). assert (T := @update_lines_trip dt ls 0 bs). assert (U := update_lines_unmarked dt ls 0 false bs).
  destruct (update_lines dt 0 false ls bs) as [[ls' bs'] fl]. cbn [fst snd] in *. destruct fl.
  - clear Q. destruct (T eq_refl) as (l1 & x & l2 & -> & B & D & F & G). clear T. assert (Ok1 : forall y, In y l1 -> line_ok (length bs) y) by (intros; apply Ok; apply in_or_app; now left). assert (Okx : line_ok (length bs) x) by (apply Ok; apply in_or_app; right; now left).
    destruct (@update_lines_quiet dt (length bs) l1 0 bs Ok1 B) as [Q1 Q2]. assert (U1 := update_lines_unmarked dt l1 0 false bs). set (l1' := fst (fst (update_lines dt 0 false l1 bs))) in *. set (b1 := snd (fst (update_lines dt 0 false l1 bs))) in *. clearbody l1' b1. cbn [Nat.add] in *.
    assert (L1 : length b1 = length bs) by (rewrite <- (map_length unmarked b1), U1; apply map_length).
    destruct Okx as (X1 & X2 & X3 & X4 & X5). unfold line_update in *. assert (E := @line_relays_eq dt (volt b1 (rl_1 x)) (current b1 x) (rl_rel x) (rl_el x) X4 X5). destruct (line_relays _ _ _ _ _) as [[rs es] ns]. cbn [fst snd] in *. destruct E as (E1 & E2 & E3 & E4 & E5 & E6).
    destruct ns as [| e0 ns0] eqn:Ens; [discriminate |]. rewrite <- Ens in *. set (x' := Rline (rl_1 x) (rl_2 x) es rs ns true) in *. assert (Ox' : line_ok (length bs) x'). { split; [exact X1 |]. split; [exact X2 |]. split; [exact X3 |]. cbn. rewrite E1. split; [exact X4 | exact E3]. }
    assert (Len : length l1' = length l1). { clear - Q1. induction Q1; cbn; congruence. }
    split; [| split; [discriminate |]; split; [intros _; split |]].
    + intros y I. rewrite F in I. apply in_app_or in I. destruct I as [I | [<- | I]]; [| exact Ox' | apply Ok; apply in_or_app; right; now right]. destruct (@Forall2_in _ _ _ _ _ _ Q1 I) as (z & _ & Z & _). exact Z.
    + exists x'. split; [rewrite F; apply in_or_app; right; now left | reflexivity].
    + intros C1 C2 a b. rewrite inc_off_at, inc_diag_at, Nat.sub_0_r. cbn [Nat.leb]. rewrite andb_true_r.
      assert (SO : total (map (offval a b) ls') = offval a b x').
      { rewrite F, map_app, total_app. cbn [map]. change (total (offval a b x' :: map (offval a b) l2)) with (offval a b x' + total (map (offval a b) l2))%C. rewrite !total_zero; [ring | |].
        - intros y I. unfold offval. rewrite C1; [reflexivity |]. apply in_or_app. right. now right.
        - intros y I. destruct (@Forall2_in _ _ _ _ _ _ Q1 I) as (z & _ & _ & _ & _ & _ & Tf). unfold offval. now rewrite Tf. }
      rewrite SO. assert (NX : nth_error ls' (length l1) = Some x') by (rewrite F, nth_error_app2 by lia; rewrite Len, Nat.sub_diag; reflexivity).
      assert (MV : match nth_error bs' a with Some c => markval ls' c | None => RtoC 0 end = if ((a =? rl_1 x) || (a =? rl_2 x))%nat then factor x' else RtoC 0).
      { rewrite G, !upd_at_nth. assert (F0 : flag_at b1 a = false) by (apply Q2; left; apply C2). unfold flag_at in F0. destruct (Nat.eqb_spec a (rl_2 x)) as [A2 | A2]; [| destruct (Nat.eqb_spec a (rl_1 x)) as [A1 | A1]]; rewrite ?orb_true_r, ?orb_true_l, ?orb_false_r.
        - destruct (Nat.eqb_spec a (rl_1 x)); [congruence |]. destruct (nth_error b1 a) eqn:Eb; [| apply nth_error_None in Eb; lia]. cbn [option_map]. unfold markval. cbn. now rewrite NX.
        - destruct (nth_error b1 a) eqn:Eb; [| apply nth_error_None in Eb; lia]. cbn [option_map]. unfold markval. cbn. now rewrite NX.
        - destruct (nth_error b1 a); [| reflexivity]. unfold markval. now rewrite F0. }
      rewrite MV. assert (SV : (in_service (l1 ++ x :: l2) a b = in_service ls' a b + coef (rl_1 x) (rl_2 x) a b * zs (fun z => 1 / z) (rl_el x) ns)%C).
      { rewrite F. rewrite !in_service_app, !in_service_cons. rewrite (@in_service_same _ _ _ a b Q1). rewrite <- zs_scale. cbn [x' rl_1 rl_2 rl_el]. rewrite (E5 (fun z => coef (rl_1 x) (rl_2 x) a b * (1 / z))%C). ring. }
      rewrite SV. assert (FX : factor x' = (- zs (fun z => 1 / z) (rl_el x) ns)%C). { rewrite factor_eq. cbn [x' rl_el rl_new]. unfold zs. now rewrite E2. }
      unfold offval. change (rl_trip x') with true. cbn [x' rl_1 rl_2]. fold x'. rewrite FX. unfold coef. destruct (Nat.eqb_spec a b) as [<- | Nab]; cbn [andb].
      * destruct (Nat.eqb_spec a (rl_1 x)) as [A1 | A1], (Nat.eqb_spec a (rl_2 x)) as [A2 | A2]; cbn [andb orb]; try congruence; ring.
      * destruct (Nat.eqb_spec a (rl_1 x)) as [A1 | A1], (Nat.eqb_spec b (rl_2 x)) as [B2 | B2], (Nat.eqb_spec a (rl_2 x)) as [A2 | A2], (Nat.eqb_spec b (rl_1 x)) as [B1 | B1]; cbn [andb orb]; try congruence; ring.
    + split.
      * rewrite F, !map_app. cbn [map]. f_equal. clear - Q1. induction Q1 as [| y y' l l' (_ & A & B & _) H IH]; [reflexivity |]. cbn. now rewrite A, B, IH.
      * intros j. rewrite G, !flag_upd. destruct (Nat.eqb_spec j (rl_2 x)) as [-> | N2]; [intros _; right; exists x; split; [apply in_or_app; right; now left | now right] |].
        destruct (Nat.eqb_spec j (rl_1 x)) as [-> | N1]; [intros _; right; exists x; split; [apply in_or_app; right; now left | now left] |]. intros H. destruct (flag_at bs j) eqn:Fj; [now left |]. rewrite (Q2 j (or_introl Fj)) in H. discriminate.
  - destruct (Q eq_refl) as [Q1 Q2]. split; [| split].
    + intros y I. destruct (@Forall2_in _ _ _ _ _ _ Q1 I) as (z & _ & Z & _). exact Z.
    + intros _. split; [| split; [exact Q2 |]].
      * intros y I. destruct (@Forall2_in _ _ _ _ _ _ Q1 I) as (z & _ & _ & _ & _ & _ & Tf). exact Tf.
      * split; [intros; eapply in_service_same; exact Q1 | exact Q1].
    + split; [discriminate |]. split; [clear - Q1; induction Q1 as [| y y' l l' (_ & A & B & _) H IH]; [reflexivity |]; cbn; now rewrite A, B, IH |].
      intros j H. destruct (flag_at bs j) eqn:Fj; [now left |]. rewrite (Q2 j (or_introl Fj)) in H. discriminate.
Qed.

(** Proofs for C57: faults and generators. *)
From Verif Require Import Prelude.
From Coq Require Import Reals Lra.
From Coquelicot Require Import Complex.
From Verif Require Import StrModel StrSpec StrProofs3 YbModel YbSpec YbProofs DvModel DvSpec DvProofs.
Open Scope R_scope.
Open Scope C_scope.

(** ** The state between events *)
Definition fault_ok (P : plant) (b : dbus) : Prop :=
  match pl_faults P with
  | [] => bu_fault b = None
  | [(i, k, y)] => exists s : R, y = (0, - s)%R /\ bu_fault b = if (bu_idx b =? k)%nat then Some (0%R, s) else None
  | _ => False
  end.
Definition okb (P : plant) (b : dbus) : Prop :=
  nth_error (pl_num P) (bu_idx b) = Some (bu_num b) /\
  (exists nd, nth_error (gnode (pl_grid P)) (bu_idx b) = Some nd /\ bu_iso b = niso nd) /\
  (bu_act b = true -> bu_iso b = false -> bu_yii b = None /\ bu_ygen b = None /\ fault_ok P b) /\
  Forall2 (fun g u => dg_id g = un_id u /\ dg_on g = un_on u) (bu_gens b) (nth (bu_idx b) (pl_gens P) []) /\
  Forall2 (fun m u => dm_on m = un_on u /\ dm_y m = un_y u) (bu_mach b) (nth (bu_idx b) (pl_gens P) []).
Definition inv (P : plant) (w : list proc) : Prop :=
  (forall p b, In p w -> In b (pr_bus p) -> okb P b) /\
  (forall p, In p w -> NoDup (map bu_idx (pr_bus p))) /\
  Permutation (map bu_idx (filter bu_act (flat_map pr_bus w))) (seq 0 (length (pl_num P))).
Definition stat (P : plant) : Prop :=
  length (gnode (pl_grid P)) = length (pl_num P) /\ length (pl_gens P) = length (pl_num P) /\ NoDup (pl_num P) /\
  (forall k, NoDup (map un_id (nth k (pl_gens P) []))) /\
  (forall x, In x (garc (pl_grid P)) -> a1 x <> a2 x /\ (a1 x < length (pl_num P))%nat /\ (a2 x < length (pl_num P))%nat) /\
  (forall x l, In x (garc (pl_grid P)) -> In l (ael x) -> wf_line l).

Lemma nums_nodup : forall P l, NoDup (pl_num P) -> (forall b, In b l -> okb P b) -> NoDup (map bu_idx l) -> NoDup (map bu_num l).
Proof.
  intros P l N H D. induction l as [|b l IH]; [constructor|]. cbn [map] in *. inversion D as [|? ? D1 D2]; subst. constructor.
  - intros I. apply D1. apply in_map_iff in I as (c & E & I). destruct (H b (or_introl eq_refl)) as (B & _). destruct (H c (or_intror I)) as (B' & _).
    assert (X : bu_idx c = bu_idx b). { apply (proj1 (NoDup_nth_error _) N); [apply nth_error_Some; congruence|congruence]. }
    rewrite <- X. apply in_map; auto.
  - apply IH; auto. intros; apply H; right; auto.
Qed.

(** ** Changing buses *)
Definition pm (f : dbus -> dbus) (p : proc) : proc := Proc (map f (pr_bus p)) (pr_br p).
Definition static (f : dbus -> dbus) : Prop := forall b, bu_num (f b) = bu_num b /\ bu_idx (f b) = bu_idx b /\ bu_act (f b) = bu_act b /\ bu_iso (f b) = bu_iso b.
Lemma static_bnext : forall m, static (bnext m).
Proof.
  intros m [nu ix ac is fa yi yg gs ms]. unfold bnext, diag_change. cbn. destruct ac, is, m, fa as [[]|], yi, yg; cbn; auto.
Qed.
Lemma static_comp : forall f g, static f -> static g -> static (fun b => f (g b)).
Proof. intros f g F G b. destruct (F (g b)) as (A & B & D & E), (G b) as (A' & B' & D' & E'). repeat split; congruence. Qed.
Lemma static_num : forall n f, static f -> static (on_num n f).
Proof. intros n f F b. unfold on_num. destruct (Z.eqb (bu_num b) n); auto. Qed.
Lemma flat_pm : forall f w, flat_map pr_bus (map (pm f) w) = map f (flat_map pr_bus w).
Proof. induction w as [|p w IH]; auto. cbn [map flat_map]. rewrite map_app, IH. reflexivity. Qed.
Lemma static_perm : forall f l, static f -> map bu_idx (filter bu_act (map f l)) = map bu_idx (filter bu_act l).
Proof.
  intros f l F. induction l as [|b l IH]; auto. cbn [map filter]. destruct (F b) as (A & B & D & E). rewrite D. destruct (bu_act b); cbn [map]; congruence.
Qed.
Lemma inv_pm : forall P P' f w, inv P w -> static f -> pl_num P' = pl_num P -> (forall b, okb P b -> okb P' (f b)) -> inv P' (map (pm f) w).
Proof.
  intros P P' f w (I1 & I2 & I3) F E H. split; [|split].
  - intros p b Hp Hb. apply in_map_iff in Hp as (q & <- & Hq). cbn in Hb. apply in_map_iff in Hb as (c & <- & Hc). eauto.
  - intros p Hp. apply in_map_iff in Hp as (q & <- & Hq). cbn. rewrite map_map. rewrite (map_ext _ bu_idx) by (intro; apply F). auto.
  - rewrite flat_pm, static_perm, E by auto. auto.
Qed.
Lemma inv_lt : forall P w p b, inv P w -> In p w -> In b (pr_bus p) -> (bu_idx b < length (pl_num P))%nat.
Proof. intros P w p b (I1 & _) Hp Hb. destruct (I1 p b Hp Hb) as (B & _). apply nth_error_Some. congruence. Qed.
Lemma each_num : forall P n (f : proc -> outcome proc) (h : dbus -> outcome dbus) (g : dbus -> dbus) w, NoDup (pl_num P) -> inv P w ->
  (forall p, f p = match bus_pos (pr_bus p) n with Some k => obind (on_bus h (pr_bus p) k) (fun bs => Ok (Proc bs (pr_br p))) | None => Ok p end) ->
  (forall b, okb P b -> bu_num b = n -> h b = Ok (g b)) -> each f w = Ok (map (pm (on_num n g)) w).
Proof.
  intros P n f h g w N (I1 & I2 & _) E H. induction w as [|p w IH]; auto. cbn [each map].
  assert (X : f p = Ok (pm (on_num n g) p)).
  { rewrite E. destruct (bus_pos (pr_bus p) n) as [k|] eqn:B.
    - rewrite (@on_bus_num n h g (pr_bus p) k); auto.
      + apply (@nums_nodup P); auto. { intros; apply (I1 p); [left|]; auto. } apply I2; left; auto.
      + intros b Hb Hn. apply H; auto. apply (I1 p b); [left|]; auto.
    - unfold pm. rewrite on_num_none by auto. destruct p; reflexivity. }
  rewrite X. cbn [obind]. rewrite IH; auto; [intros; apply (I1 p0 b); [right|]; auto|intros; apply I2; right; auto].
Qed.

Lemma right_change : forall s P P' Y Y' (d : (nat -> C) -> nat -> C), pl_num P' = pl_num P -> gnode (pl_grid P') = gnode (pl_grid P) ->
  (forall k nd V, nth_error (gnode (pl_grid P)) k = Some nd -> niso nd = false ->
     times (length (pl_num P)) Y' V k = times (length (pl_num P)) Y V k + d V k /\ forall j, leaves P' s V k (j + d V k) <-> leaves P s V k j) ->
  right s P Y -> right s P' Y'.
Proof.
  intros s P P' Y Y' d E1 E2 H R k nd Hk Hi V j. rewrite E2 in Hk. destruct (H k nd V Hk Hi) as [T L]. rewrite E1, T.
  specialize (L (j - d V k)). replace (j - d V k + d V k) with j in L by ring. rewrite L. rewrite (R k nd Hk Hi).
  split; intros X; [rewrite X; ring|rewrite <- X; ring].
Qed.
Lemma leaves_ground : forall s P P' V k (d : C), pl_grid P' = pl_grid P -> ground P' k = ground P k + d ->
  forall j, leaves P' s V k (j + d * V k) <-> leaves P s V k j.
Proof.
  intros s P P' V k d E1 E2 j. unfold leaves. rewrite E1, E2. split; intros (i & Hi & E); exists i; split; auto.
  - apply (f_equal (fun x => x - d * V k)) in E. replace (j + d * V k - d * V k) with j in E by ring. rewrite E. ring.
  - rewrite E. ring.
Qed.

Lemma bus_event : forall s P P' m f w Y, stat P -> inv P w -> static f -> m <> LineChange -> pl_num P' = pl_num P -> pl_grid P' = pl_grid P ->
  (forall b, okb P b -> okb P' (bnext m (f b))) ->
  (forall b, okb P b -> bu_act b = true -> bu_iso b = false -> ground P' (bu_idx b) = ground P (bu_idx b) + bval m (f b)) ->
  right s P Y ->
  fst (increment m (map (pm f) w) Y) = map (pm (fun b => bnext m (f b))) w /\
  inv P' (fst (increment m (map (pm f) w) Y)) /\ right s P' (snd (increment m (map (pm f) w) Y)).
Proof.
  intros s P P' m f w Y St I F Hm E1 E2 Hb Hg R.
  assert (Lt : forall p b, In p (map (pm f) w) -> In b (pr_bus p) -> (bu_idx b < length (pl_num P))%nat).
  { intros p b Hp Hb0. apply in_map_iff in Hp as (q & <- & Hq). cbn in Hb0. apply in_map_iff in Hb0 as (c & <- & Hc).
    rewrite (proj1 (proj2 (F c))). eapply inv_lt; eauto. }
  assert (X : fst (increment m (map (pm f) w) Y) = map (pm (fun b => bnext m (f b))) w).
  { destruct (@increment_buses m (length (pl_num P)) (fun _ => RtoC 0) 0%nat (map (pm f) w) Y Hm Lt) as [X _]. rewrite X, map_map.
    apply map_ext. intros p. unfold pm; cbn. rewrite map_map. reflexivity. }
  split; [auto|split].
  - rewrite X. apply (@inv_pm P); auto. apply (static_comp (@static_bnext m) F).
  - apply (@right_change s P P' Y _ (fun V k => total (map (fun b => if (bu_idx b =? k)%nat then bval m b else RtoC 0) (flat_map pr_bus (map (pm f) w))) * V k)); auto.
    { rewrite E2; auto. }
    intros k nd V Hk Hi. destruct (@increment_buses m (length (pl_num P)) V k (map (pm f) w) Y Hm Lt) as [_ T]. split; auto.
    apply leaves_ground; auto. rewrite flat_pm.
    destruct I as (I1 & I2 & I3). destruct St as (S1 & _).
    assert (Hk' : (k < length (pl_num P))%nat) by (rewrite <- S1; apply nth_error_Some; congruence).
    destruct (active_ex _ I3 Hk') as (b & Ib & Ab & Eb).
    assert (Okb : okb P b). { apply in_flat_map in Ib as (p & Hp & Hb'). eauto. }
    rewrite (@active_pick (length (pl_num P)) (bval m) (map f (flat_map pr_bus w)) k (f b)); auto.
    + rewrite <- Eb. apply Hg; auto. destruct Okb as (_ & (nd' & N1 & N2) & _). rewrite N2. rewrite Eb in N1. rewrite Hk in N1. injection N1 as <-. auto.
    + rewrite static_perm by auto. auto.
    + intros c Hc. unfold bval. rewrite Hc. reflexivity.
    + apply in_map; auto.
    + rewrite (proj1 (proj2 (proj2 (F b)))). auto.
    + rewrite (proj1 (proj2 (F b))). auto.
Qed.

(** ** Faults *)
Lemma num_where : forall P b n, NoDup (pl_num P) -> okb P b -> bu_num b = n -> where_ n (pl_num P) = Some (bu_idx b).
Proof. intros P b n N (H & _) <-. apply where_nodup; auto. Qed.
Lemma where_num : forall P b n, NoDup (pl_num P) -> okb P b -> where_ n (pl_num P) = Some (bu_idx b) -> bu_num b = n.
Proof. intros P b n N (H & _) E. apply where_some in E. congruence. Qed.
Lemma bnext_pending : forall m b, m <> GenChange -> m <> LineChange -> bu_yii (bnext m b) = bu_yii b /\ bu_ygen (bnext m b) = bu_ygen b /\ bu_gens (bnext m b) = bu_gens b /\ bu_mach (bnext m b) = bu_mach b.
Proof. intros m [nu ix ac is fa yi yg gs ms] H1 H2. unfold bnext, diag_change. cbn. destruct ac, is, m, fa as [[]|]; cbn; easy. Qed.
Lemma start_event : forall s P i n B w Y, stat P -> inv P w -> right s P Y -> ok_act P P (Start i n 0 B) ->
  exists w1, each (start_fault n 0 B) w = Ok w1 /\ fst (increment FaultOn w1 Y) = map (pm (fun b => bnext FaultOn (on_num n (set_fault (Some (0%R, B))) b))) w /\
    inv (act P (Start i n 0 B)) (fst (increment FaultOn w1 Y)) /\ right s (act P (Start i n 0 B)) (snd (increment FaultOn w1 Y)).
Proof.
  intros s P i n B w Y St I R (Nf & _ & Hiso). pose proof St as (S1 & S2 & S3 & _).
  exists (map (pm (on_num n (set_fault (Some (0%R, B))))) w). split; [apply (@each_num P n _ (fun b => Ok (set_fault (Some (0%R, B)) b))); auto|].
  assert (F : static (on_num n (set_fault (Some (0%R, B))))) by (apply static_num; intro b; cbn; auto).
  apply (@bus_event s P); auto; try discriminate.
  - cbn [act]. destruct (where_ n (pl_num P)); reflexivity.
  - cbn [act]. destruct (where_ n (pl_num P)); reflexivity.
  - intros b Ob. pose proof Ob as (O1 & O2 & O3 & O4 & O5). set (b1 := on_num n _ b).
    destruct (F b) as (F1 & F2 & F3 & F4). fold b1 in F1, F2, F3, F4.
    destruct (@static_bnext FaultOn b1) as (G1 & G2 & G3 & G4). destruct (@bnext_pending FaultOn b1) as (P1 & P2 & P3 & P4); try discriminate.
    assert (X : bu_yii b1 = bu_yii b /\ bu_ygen b1 = bu_ygen b /\ bu_gens b1 = bu_gens b /\ bu_mach b1 = bu_mach b) by (subst b1; unfold on_num; destruct (Z.eqb (bu_num b) n); cbn; auto).
    destruct X as (X1 & X2 & X3 & X4).
    unfold okb. rewrite G1, G2, G3, G4, P1, P2, P3, P4, X1, X2, X3, X4, F1, F2, F3, F4.
    replace (pl_num (act P (Start i n 0 B))) with (pl_num P) by (cbn [act]; destruct (where_ n (pl_num P)); reflexivity).
    replace (pl_grid (act P (Start i n 0 B))) with (pl_grid P) by (cbn [act]; destruct (where_ n (pl_num P)); reflexivity).
    replace (pl_gens (act P (Start i n 0 B))) with (pl_gens P) by (cbn [act]; destruct (where_ n (pl_num P)); reflexivity).
    split; [auto|split; [auto|split; [|auto]]]. intros A Is. destruct (O3 A Is) as (Q1 & Q2 & Q3). split; [auto|split; [auto|]].
    unfold fault_ok in *. rewrite Nf in Q3. rewrite G2, F2.
    assert (Fb : bu_fault (bnext FaultOn b1) = bu_fault b1) by (unfold bnext, diag_change; destruct (bu_act b1), (bu_iso b1); reflexivity).
    rewrite Fb. cbn [act]. destruct (where_ n (pl_num P)) as [k|] eqn:W; cbn [pl_faults]; rewrite ?Nf.
    + exists B. split; auto. subst b1. unfold on_num. destruct (Z.eqb_spec (bu_num b) n) as [En|En].
      * rewrite (num_where S3 Ob En) in W. injection W as <-. rewrite Nat.eqb_refl. reflexivity.
      * destruct (Nat.eqb_spec (bu_idx b) k) as [Ek|Ek]; auto. exfalso; apply En. apply (@where_num P); auto. congruence.
    + subst b1. unfold on_num. destruct (Z.eqb_spec (bu_num b) n) as [En|En]; auto. rewrite (num_where S3 Ob En) in W. discriminate.
  - intros b Ob Ab Is. pose proof Ob as (O1 & O2 & O3 & _). destruct (O3 Ab Is) as (_ & _ & Q3). unfold fault_ok in Q3. rewrite Nf in Q3.
    destruct (F b) as (F1 & F2 & F3 & F4). unfold bval. rewrite F3, Ab. unfold diag_change. rewrite F4, Is. cbn [fst].
    unfold ground. cbn [act]. unfold on_num. destruct (where_ n (pl_num P)) as [k|] eqn:W; cbn [pl_faults pl_rest pl_gens]; rewrite ?Nf.
    + cbn [map fst snd]. rewrite total_cons. change (total []) with (RtoC 0). destruct (Z.eqb_spec (bu_num b) n) as [En|En].
      * rewrite (num_where S3 Ob En) in W. injection W as <-. rewrite Nat.eqb_refl. cbn [set_fault bu_fault].
        replace ((- 0)%R, (- B)%R) with ((0%R, (- B)%R) : C) by (f_equal; ring). ring.
      * rewrite Q3. destruct (Nat.eqb_spec k (bu_idx b)) as [Ek|Ek]; [|ring]. exfalso; apply En. apply (@where_num P); auto. congruence.
    + destruct (Z.eqb_spec (bu_num b) n) as [En|En]; [rewrite (num_where S3 Ob En) in W; discriminate|]. rewrite Q3. ring.
Qed.
Lemma pm_id : forall w, map (pm (fun b => b)) w = w.
Proof. intros w. rewrite <- (map_id w) at 2. apply map_ext. intros [bs rs]. unfold pm; cbn. rewrite map_id. reflexivity. Qed.
Lemma stop_event : forall s P i w Y, stat P -> inv P w -> right s P Y -> ok_act P P (Stop i) ->
  fst (increment FaultOff w Y) = map (pm (bnext FaultOff)) w /\
  inv (act P (Stop i)) (fst (increment FaultOff w Y)) /\ right s (act P (Stop i)) (snd (increment FaultOff w Y)).
Proof.
  intros s P i w Y St I R Ok_.
  rewrite <- (pm_id w) at 1 3 4. pose proof (@bus_event s P (act P (Stop i)) FaultOff (fun b => b) w Y) as L.
  apply L; auto; try discriminate; try (intro; auto; fail).
  - intros b (O1 & O2 & O3 & O4 & O5). destruct (@static_bnext FaultOff b) as (G1 & G2 & G3 & G4). destruct (@bnext_pending FaultOff b) as (P1 & P2 & P3 & P4); try discriminate.
    unfold okb. rewrite G1, G2, G3, G4, P1, P2, P3, P4. cbn [act pl_num pl_grid pl_gens].
    split; [auto|split; [auto|split; [|auto]]]. intros A Is. destruct (O3 A Is) as (Q1 & Q2 & Q3). split; [auto|split; [auto|]].
    assert (Fb : bu_fault (bnext FaultOff b) = None).
    { unfold bnext, diag_change. rewrite A, Is. destruct (bu_fault b) as [[]|] eqn:E; cbn; auto. }
    unfold fault_ok. rewrite Fb. cbn [act pl_faults]. destruct Ok_ as [E|([[j k] y] & E & Ei)]; rewrite E; cbn [filter fst snd].
    + reflexivity.
    + cbn in Ei. subst j. rewrite Nat.eqb_refl. reflexivity.
  - intros b (O1 & O2 & O3 & _) Ab Is. destruct (O3 Ab Is) as (_ & _ & Q3). unfold fault_ok in Q3. unfold bval, diag_change. rewrite Ab, Is.
    unfold ground. cbn [act pl_faults pl_rest pl_gens]. destruct Ok_ as [E|([[j k] y] & E & Ei)]; rewrite E in Q3 |- *; cbn [filter fst snd].
    + rewrite Q3. cbn [fst map]. ring.
    + cbn in Ei. subst j. rewrite Nat.eqb_refl. cbn [negb map fst snd]. rewrite total_cons. change (total []) with (RtoC 0). destruct Q3 as (u & -> & Q3). rewrite Q3.
      rewrite (Nat.eqb_sym k). destruct (bu_idx b =? k)%nat; cbn [fst]; [|ring].
      change (total (map (fun f : nat * nat * C => if (snd (fst f) =? bu_idx b)%nat then snd f else 0) [])) with (RtoC 0).
      generalize (pl_rest P (bu_idx b)). generalize (total (map (fun u0 => if un_on u0 then un_y u0 else RtoC 0) (nth (bu_idx b) (pl_gens P) []))). intros c d. apply Cext; cbn; ring.
Qed.

(** ** Generators *)
Lemma total_upd : forall A (f : A -> C) l i a a', nth_error l i = Some a -> total (map f (upd l i a')) = total (map f l) - f a + f a'.
Proof.
  induction l as [|b l IH]; intros [|i] a a' E; cbn in E; try discriminate; cbn [upd map]; rewrite !total_cons.
  - injection E as ->. ring.
  - rewrite (IH i a a' E). ring.
Qed.
Definition unit_val (u : unit_) : C := if un_on u then un_y u else RtoC 0.
Definition turn (t : string) (on : bool) (us : list unit_) : list unit_ := map (fun u => if String.eqb (un_id u) t then Unit (un_id u) on (un_y u) else u) us.
Lemma gen_status : forall tag t st on b us, stands_for tag t -> on = negb (Z.eqb st 0) -> (st = 0%Z \/ st = 1%Z) -> NoDup (map un_id us) ->
  (exists u, In u us /\ un_id u = t) ->
  Forall2 (fun g u => dg_id g = un_id u /\ dg_on g = un_on u) (bu_gens b) us -> Forall2 (fun m u => dm_on m = un_on u /\ dm_y m = un_y u) (bu_mach b) us ->
  exists b', bus_gen_status tag st b = Ok b' /\ bu_num b' = bu_num b /\ bu_idx b' = bu_idx b /\ bu_act b' = bu_act b /\ bu_iso b' = bu_iso b /\
    bu_fault b' = bu_fault b /\ bu_yii b' = bu_yii b /\
    Forall2 (fun g u => dg_id g = un_id u /\ dg_on g = un_on u) (bu_gens b') (turn t on us) /\
    Forall2 (fun m u => dm_on m = un_on u /\ dm_y m = un_y u) (bu_mach b') (turn t on us) /\
    total (map unit_val (turn t on us)) = total (map unit_val us) + match bu_ygen b' with Some y => match bu_ygen b with None => y | Some _ => total (map unit_val (turn t on us)) - total (map unit_val us) end | None => RtoC 0 end.
Proof.
  intros tag t st on b us T Eon Hst N (u & Iu & Eu) Fg Fm. unfold bus_gen_status. rewrite (clean_ok T). cbn [obind].
  apply In_nth_error in Iu as (i & Ei).
  destruct (Forall2_nth_l _ Fg Ei) as (g & Gi & G1 & G2). destruct (Forall2_nth_l _ Fm Ei) as (m & Mi & M1 & M2).
  assert (Uq : forall j u', nth_error us j = Some u' -> String.eqb (un_id u') t = true -> j = i).
  { intros j u' Ej X. apply String.eqb_eq in X. apply (proj1 (NoDup_nth_error _) N); [rewrite map_length; apply nth_error_Some; congruence|].
    rewrite !nth_error_map, Ej, Ei. cbn. congruence. }
  assert (Fp : find_pos (fun g => String.eqb (dg_id g) t) (bu_gens b) = Some i).
  { destruct (find_pos (fun g => String.eqb (dg_id g) t) (bu_gens b)) as [j|] eqn:E.
    - destruct (find_pos_some _ _ E) as (g' & Gj & X & _). destruct (Forall2_nth_r _ Fg Gj) as (u' & Ej & X1 & X2). f_equal. apply (Uq j u'); auto. rewrite <- X1; auto.
    - exfalso. pose proof (find_pos_none _ _ E g (nth_error_In _ _ Gi)) as X. cbv beta in X. rewrite G1, Eu, String.eqb_refl in X. discriminate. }
  rewrite Fp, Mi, Gi.
  assert (Tu : turn t on us = upd us i (Unit (un_id u) on (un_y u))).
  { symmetry. apply (@upd_map _ (fun u => String.eqb (un_id u) t) (fun u => Unit (un_id u) on (un_y u))); auto. rewrite Eu; apply String.eqb_refl. }
  destruct (Z.eqb st (if dm_on m then 1 else 0)) eqn:C.
  - apply Z.eqb_eq in C. exists b.
    assert (Un : turn t on us = us).
    { rewrite Tu. assert (X : Unit (un_id u) on (un_y u) = u). { rewrite Eon, C, M1. destruct u as [a [] c]; reflexivity. }
      rewrite X. clear - Ei. revert i Ei. induction us as [|a us IH]; intros [|i] Ei; cbn in *; try discriminate; [injection Ei as ->; auto|]. rewrite IH; auto. }
    rewrite Un. repeat split; auto. destruct (bu_ygen b); ring.
  - apply Z.eqb_neq in C. eexists. split; [reflexivity|]. cbn [set_ygen set_gens bu_num bu_idx bu_act bu_iso bu_fault bu_yii bu_ygen bu_gens bu_mach].
    repeat (split; [reflexivity|]). rewrite <- Eon. rewrite Tu. split; [|split].
    + apply Forall2_upd; auto.
    + apply Forall2_upd; auto.
    + destruct (bu_ygen b); [ring|]. rewrite (total_upd unit_val us i _ Ei). 
      assert (X : un_on u = negb on). { rewrite <- M1, Eon. destruct Hst as [-> | ->]; destruct (dm_on m); cbn in *; congruence. }
      assert (X1 : unit_val u = if negb on then dm_y m else RtoC 0) by (unfold unit_val; rewrite X, M2; reflexivity).
      assert (X2 : unit_val (Unit (un_id u) on (un_y u)) = if on then dm_y m else RtoC 0) by (unfold unit_val; cbn; rewrite M2; reflexivity).
      rewrite X1, X2. destruct on; cbn [negb]; ring.
Qed.
Definition gset (tag : string) (st : Z) (b : dbus) : dbus := match bus_gen_status tag st b with Ok b' => b' | _ => b end.
Lemma static_gset : forall tag st, static (gset tag st).
Proof.
  intros tag st b. unfold gset, bus_gen_status. destruct (clean tag) as [t| |]; cbn [obind]; auto.
  destruct (find_pos _ _) as [i|]; auto. destruct (nth_error (bu_mach b) i) as [m|]; auto. destruct (nth_error (bu_gens b) i) as [g|]; auto.
  destruct (Z.eqb st _); cbn; auto.
Qed.
Lemma gen_event : forall s P n tag t st w Y, stat P -> inv P w -> right s P Y -> stands_for tag t -> (st = 0%Z \/ st = 1%Z) ->
  ok_act P P (Gen_ n t (negb (Z.eqb st 0))) ->
  exists w1, each (set_gen n tag st) w = Ok w1 /\ let P' := act P (Gen_ n t (negb (Z.eqb st 0))) in
    fst (increment GenChange w1 Y) = map (pm (fun b => bnext GenChange (on_num n (gset tag st) b))) w /\
    inv P' (fst (increment GenChange w1 Y)) /\ right s P' (snd (increment GenChange w1 Y)).
Proof.
  intros s P n tag t st w Y St I R T Hst Ok_. pose proof St as (S1 & S2 & S3 & S4 & _). set (on := negb (Z.eqb st 0)) in *.
  exists (map (pm (on_num n (gset tag st))) w).
  assert (G : forall b, okb P b -> bu_num b = n -> exists b', bus_gen_status tag st b = Ok b' /\ bu_num b' = bu_num b /\ bu_idx b' = bu_idx b /\ bu_act b' = bu_act b /\ bu_iso b' = bu_iso b /\
    bu_fault b' = bu_fault b /\ bu_yii b' = bu_yii b /\ let us := nth (bu_idx b) (pl_gens P) [] in
    Forall2 (fun g u => dg_id g = un_id u /\ dg_on g = un_on u) (bu_gens b') (turn t on us) /\
    Forall2 (fun m u => dm_on m = un_on u /\ dm_y m = un_y u) (bu_mach b') (turn t on us) /\
    total (map unit_val (turn t on us)) = total (map unit_val us) + match bu_ygen b' with Some y => match bu_ygen b with None => y | Some _ => total (map unit_val (turn t on us)) - total (map unit_val us) end | None => RtoC 0 end).
  { intros b Ob En. pose proof Ob as (_ & _ & _ & O4 & O5). apply gen_status; auto. apply Ok_. apply (num_where S3 Ob En). }
  split; [apply (@each_num P n _ (bus_gen_status tag st)); auto|].
  { intros b Ob En. destruct (G b Ob En) as (b' & E & _). unfold gset. rewrite E. reflexivity. }
  cbv zeta. assert (F : static (on_num n (gset tag st))) by (apply static_num, static_gset).
  assert (Gn : forall b, okb P b -> nth (bu_idx b) (pl_gens (act P (Gen_ n t on))) [] = if Z.eqb (bu_num b) n then turn t on (nth (bu_idx b) (pl_gens P) []) else nth (bu_idx b) (pl_gens P) []).
  { intros b Ob. cbn [act pl_gens]. destruct (where_ n (pl_num P)) as [k|] eqn:W.
    - destruct (Z.eqb_spec (bu_num b) n) as [En|En].
      + rewrite (num_where S3 Ob En) in W. injection W as <-. apply nth_error_nth. apply nth_error_upd_same. rewrite S2. destruct Ob as (O1 & _). apply nth_error_Some. congruence.
      + destruct (Nat.eq_dec k (bu_idx b)) as [Ek|Ek]; [exfalso; apply En; apply (@where_num P); auto; congruence|].
        rewrite !nth_default_eq || idtac. unfold turn.
        assert (X : nth_error (upd (pl_gens P) k (map (fun u => if String.eqb (un_id u) t then Unit (un_id u) on (un_y u) else u) (nth k (pl_gens P) []))) (bu_idx b) = nth_error (pl_gens P) (bu_idx b)) by (apply nth_error_upd_other; auto).
        destruct (nth_error (pl_gens P) (bu_idx b)) as [v|] eqn:V.
        * rewrite (nth_error_nth _ _ _ X), (nth_error_nth _ _ _ V). reflexivity.
        * apply nth_error_None in X. apply nth_error_None in V. rewrite !nth_overflow; auto.
    - destruct (Z.eqb_spec (bu_num b) n) as [En|En]; auto. rewrite (num_where S3 Ob En) in W. discriminate. }
  apply (@bus_event s P); auto; try discriminate.
  - intros b Ob. pose proof Ob as (O1 & O2 & O3 & O4 & O5). set (b1 := on_num n _ b).
    destruct (F b) as (F1 & F2 & F3 & F4). fold b1 in F1, F2, F3, F4.
    destruct (@static_bnext GenChange b1) as (G1 & G2 & G3 & G4).
    assert (Q : bu_yii (bnext GenChange b1) = bu_yii b1 /\ bu_fault (bnext GenChange b1) = bu_fault b1 /\ bu_gens (bnext GenChange b1) = bu_gens b1 /\ bu_mach (bnext GenChange b1) = bu_mach b1 /\
      (bu_act b1 = true -> bu_iso b1 = false -> bu_ygen (bnext GenChange b1) = None)).
    { clear. destruct b1 as [nu ix ac is fa yi yg gs ms]. unfold bnext, diag_change. cbn. destruct ac, is, yg; cbn; repeat split; auto; discriminate. }
    destruct Q as (Q1 & Q2 & Q3 & Q4 & Q5).
    assert (X : bu_yii b1 = bu_yii b /\ bu_fault b1 = bu_fault b /\ let us := nth (bu_idx b) (pl_gens (act P (Gen_ n t on))) [] in
      Forall2 (fun g u => dg_id g = un_id u /\ dg_on g = un_on u) (bu_gens b1) us /\ Forall2 (fun m u => dm_on m = un_on u /\ dm_y m = un_y u) (bu_mach b1) us).
    { rewrite (Gn b Ob). subst b1. unfold on_num. destruct (Z.eqb_spec (bu_num b) n) as [En|En]; cbv zeta; auto.
      destruct (G b Ob En) as (b' & E & _ & _ & _ & _ & E1 & E2 & E3 & E4 & _). unfold gset. rewrite E. auto. }
    cbv zeta in X. destruct X as (X1 & X2 & X3 & X4).
    unfold okb. rewrite G1, G2, G3, G4, Q1, Q3, Q4, X1, F1, F2, F3, F4.
    split; [exact O1|split; [exact O2|split; [|auto]]]. intros A Is. destruct (O3 A Is) as (Y1 & Y2 & Y3). rewrite Q5 by congruence. split; [auto|split; [auto|]].
    unfold fault_ok in *. rewrite G2, F2, Q2, X2. exact Y3.
  - intros b Ob Ab Is. pose proof Ob as (O1 & O2 & O3 & _). destruct (O3 Ab Is) as (_ & Yg & _).
    destruct (F b) as (F1 & F2 & F3 & F4). unfold bval. rewrite F3, Ab. unfold diag_change. rewrite F4, Is. cbn [fst].
    unfold ground. fold unit_val. rewrite (Gn b Ob). cbn [act pl_rest pl_faults]. unfold on_num. destruct (Z.eqb_spec (bu_num b) n) as [En|En].
    + destruct (G b Ob En) as (b' & E & _ & _ & _ & _ & _ & _ & _ & _ & E5). unfold gset. rewrite E.
      change (map (fun u => if un_on u then un_y u else RtoC 0)) with (map unit_val). rewrite E5, Yg. destruct (bu_ygen b'); cbn [fst]; ring.
    + rewrite Yg. cbn [fst]. ring.
Qed.

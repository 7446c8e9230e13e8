(** Proofs about scaling loads and generation. *)
From Verif Require Import Prelude RtModel RtSpec.
From Coq Require Import Reals Lra.

Section First.
  Context {T : Type} (name : T -> string) (on : T -> bool) (f : T -> T) (sc : string -> list T -> list T).
  Hypothesis Hname : forall x, name (f x) = name x.
  Hypothesis Hnil : forall t, sc t [] = [].
  Hypothesis Hcons : forall t x r, sc t (x :: r) = if String.eqb (name x) t && on x then f x :: r else x :: sc t r.

  Lemma sc_other t l : ~ In t (map name l) -> sc t l = l.
  Proof.
    induction l as [|x l IH]; intros H; [apply Hnil|]. rewrite Hcons. destruct (String.eqb_spec (name x) t) as [E|E]; [destruct H; left; exact E|].
    cbn [andb]. rewrite IH; [reflexivity|]. intros Hi. apply H. now right.
  Qed.
  Lemma sc_app t pre l : ~ In t (map name pre) -> sc t (pre ++ l)%list = (pre ++ sc t l)%list.
  Proof.
    induction pre as [|x pre IH]; intros H; [reflexivity|]. cbn [app]. rewrite Hcons. destruct (String.eqb_spec (name x) t) as [E|E]; [destruct H; left; exact E|].
    cbn [andb]. rewrite IH; [reflexivity|]. intros Hi. apply H. now right.
  Qed.
  Lemma sc_all l : forall pre, NoDup (map name pre ++ map name l)%list ->
    fold_left (fun ls t => sc t ls) (map name l) (pre ++ l)%list = (pre ++ map (fun x => if on x then f x else x) l)%list.
  Proof.
    induction l as [|x l IH]; intros pre N; [reflexivity|]. cbn [map fold_left].
    assert (Np : ~ In (name x) (map name pre) /\ ~ In (name x) (map name l)).
    { cbn in N. apply NoDup_remove in N as [_ N]. rewrite in_app_iff in N. tauto. }
    rewrite sc_app by tauto. rewrite Hcons, String.eqb_refl. cbn [andb].
    assert (E : (if on x then f x :: l else x :: sc (name x) l) = (if on x then f x else x) :: l).
    { destruct (on x); [reflexivity|]. now rewrite sc_other by tauto. }
    rewrite E. replace (pre ++ (if on x then f x else x) :: l)%list with ((pre ++ [if on x then f x else x]) ++ l)%list by (rewrite <- app_assoc; reflexivity).
    rewrite IH; [rewrite <- app_assoc; reflexivity|]. rewrite map_app, <- app_assoc. cbn.
    destruct (on x); rewrite ?Hname; exact N.
  Qed.
End First.

Definition gen_on (g : gen) : bool := negb (g_on g =? 0)%Z.
Definition gens_after (v : R) (gs : list gen) : list gen := map (fun g => if gen_on g then scaled_gen v g else g) gs.
Lemma gens_ok v gs : NoDup (map g_id gs) -> fold_left (fun gs t => scale_gen t v gs) (map g_id gs) gs = gens_after v gs.
Proof. intros N. apply (@sc_all _ g_id gen_on (scaled_gen v) (fun t l => scale_gen t v l) (fun _ => eq_refl) (fun _ => eq_refl) (fun _ _ _ => eq_refl) gs [] N). Qed.
Definition loads_after (v : R) (ls : list load) : list load := map (fun l => if (l_on l =? 1)%Z then scaled_load v l else l) ls.
Lemma loads_ok v ls : NoDup (map l_id ls) -> fold_left (fun ls t => scale_load t v ls) (map l_id ls) ls = loads_after v ls.
Proof. intros N. apply (@sc_all _ l_id (fun l => (l_on l =? 1)%Z) (scaled_load v) (fun t l => scale_load t v l) (fun _ => eq_refl) (fun _ => eq_refl) (fun _ _ _ => eq_refl) ls [] N). Qed.

Lemma chosen_iff area zone b : chosen area zone b = true <-> belongs area zone b.
Proof.
  unfold chosen, belongs. rewrite andb_true_iff, !Z.eqb_eq. destruct (Z.ltb_spec 0 zone); split; intros [H1 H2]; split; auto; try lia.
Qed.

Lemma sumR_cons x a : sumR (x :: a) = (x + sumR a)%R. Proof. reflexivity. Qed.
Lemma sumR_app a b : sumR (a ++ b)%list = (sumR a + sumR b)%R.
Proof. induction a as [|x a IH]; [cbn [app]; unfold sumR at 2; cbn [fold_right]; lra|]. cbn [app]. rewrite !sumR_cons, IH. lra. Qed.
Lemma sum_on {T} (on : T -> bool) (f : T -> R) l : sumR (map (fun g => if on g then f g else 0%R) l) = sumR (map f (filter on l)).
Proof. induction l as [|x l IH]; [reflexivity|]. cbn [map filter]. rewrite sumR_cons, IH. destruct (on x); cbn [map]; rewrite ?sumR_cons; lra. Qed.
Lemma margin_eq f area zone bs : margin f area zone bs = sumR (map f (gens_in area zone bs)).
Proof.
  unfold margin, gens_in. induction bs as [|b bs IH]; [reflexivity|]. cbn [map filter]. rewrite sumR_cons, IH. destruct (chosen area zone b); [|lra].
  cbn [flat_map]. rewrite filter_app, map_app, sumR_app. f_equal. rewrite <- sum_on. f_equal. apply map_ext. intros g. now destruct (g_on g =? 0)%Z.
Qed.
Lemma local_load_eq area zone bs : local_load area zone bs = sumR (map l_savep (loads_in area zone bs)).
Proof.
  unfold local_load, loads_in. induction bs as [|b bs IH]; [reflexivity|]. cbn [map filter]. rewrite sumR_cons, IH. destruct (chosen area zone b); [|lra].
  cbn [flat_map]. rewrite filter_app, map_app, sumR_app. f_equal. rewrite <- sum_on. f_equal. apply map_ext. intros g. now destruct (l_on g =? 0)%Z.
Qed.

(** The buses after both scalings *)
Definition bus_after (sa sz da dz : Z) (lf gf : R) (b : rbus) : rbus :=
  RBus (rb_area b) (rb_zone b) (if chosen sa sz b then gens_after gf (rb_gens b) else rb_gens b) (if chosen da dz b then loads_after lf (rb_loads b) else rb_loads b).
Lemma chosen_same area zone b gs ls : chosen area zone (RBus (rb_area b) (rb_zone b) gs ls) = chosen area zone b.
Proof. reflexivity. Qed.
Lemma scaled_buses sa sz da dz lf gf bs : Forall fresh_bus bs -> scale_gens gf sa sz (scale_loads lf da dz bs) = map (bus_after sa sz da dz lf gf) bs.
Proof.
  intros F. rewrite Forall_forall in F. unfold scale_gens, scale_loads. rewrite map_map. apply map_ext_in. intros b Hb. destruct (F b Hb) as [N1 N2 _ _ _]. unfold bus_after.
  destruct (chosen da dz b) eqn:Cd; destruct b as [ar zo gs ls]; cbn [rb_area rb_zone rb_gens rb_loads] in *.
  - replace (chosen sa sz (RBus ar zo gs (fold_left (fun ls t => scale_load t lf ls) (map l_id ls) ls))) with (chosen sa sz (RBus ar zo gs ls)) by reflexivity.
    rewrite loads_ok by exact N2. destruct (chosen sa sz (RBus ar zo gs ls)); [rewrite gens_ok by exact N1|]; reflexivity.
  - destruct (chosen sa sz (RBus ar zo gs ls)); [rewrite gens_ok by exact N1|]; reflexivity.
Qed.

Lemma after_chosen area zone sa sz da dz lf gf b : chosen area zone (bus_after sa sz da dz lf gf b) = chosen area zone b.
Proof. reflexivity. Qed.
Lemma gens_in_after sa sz da dz lf gf bs : gens_in sa sz (map (bus_after sa sz da dz lf gf) bs) = map (scaled_gen gf) (gens_in sa sz bs).
Proof.
  unfold gens_in. induction bs as [|b bs IH]; [reflexivity|]. cbn [map filter]. rewrite after_chosen. destruct (chosen sa sz b) eqn:C; [|exact IH].
  cbn [flat_map]. rewrite !filter_app, map_app, IH. f_equal. unfold bus_after. rewrite C. cbn [rb_gens]. unfold gens_after, gen_on.
  induction (rb_gens b) as [|g l IH2]; [reflexivity|]. cbn [map filter]. destruct (g_on g =? 0)%Z eqn:E; cbn [negb]; [now rewrite E|]. cbn [scaled_gen g_on]. rewrite E. cbn [negb map]. now rewrite IH2.
Qed.
Lemma loads_in_after sa sz da dz lf gf bs : Forall fresh_bus bs -> loads_in da dz (map (bus_after sa sz da dz lf gf) bs) = map (scaled_load lf) (loads_in da dz bs).
Proof.
  intros F. unfold loads_in. induction F as [|b bs Fb F IH]; [reflexivity|]. cbn [map filter]. rewrite after_chosen. destruct (chosen da dz b) eqn:C; [|exact IH].
  cbn [flat_map]. rewrite !filter_app, map_app, IH. f_equal. unfold bus_after. rewrite C. cbn [rb_loads]. unfold loads_after.
  assert (O := fb_on Fb). clear - O. induction (rb_loads b) as [|l ls IH2]; [reflexivity|]. cbn [map filter].
  destruct (O l (or_introl eq_refl)) as [E|E].
  - rewrite E. cbn. rewrite E. cbn. apply IH2. intros; apply O; now right.
  - rewrite E. cbn. rewrite E. cbn. f_equal. apply IH2. intros; apply O; now right.
Qed.
Lemma sum_scaled_gen v l : sumR (map g_p (map (scaled_gen v) l)) =
  (if Rlt_dec 0 v then sumR (map g_p l) + v * (sumR (map g_max l) - sumR (map g_p l)) else sumR (map g_p l) + v * (sumR (map g_p l) - sumR (map g_min l)))%R.
Proof.
  induction l as [|g l IH].
  - cbn. destruct (Rlt_dec 0 v); lra.
  - cbn [map]. rewrite !sumR_cons, IH. unfold scaled_gen. cbn [g_p]. destruct (Rlt_dec 0 v); lra.
Qed.
Lemma sum_scaled_load v l : sumR (map l_p (map (scaled_load v) l)) = (v * sumR (map l_p l))%R.
Proof. induction l as [|x l IH]; cbn [map]; [cbn; lra|]. rewrite !sumR_cons, IH. cbn. lra. Qed.
Lemma sum_le {T} (f h : T -> R) l : (forall x, In x l -> f x <= h x)%R -> (sumR (map f l) <= sumR (map h l))%R.
Proof. induction l as [|x l IH]; intros H; cbn [map]; [lra|]. rewrite !sumR_cons. pose proof (H x (or_introl eq_refl)). pose proof (IH (fun y Hy => H y (or_intror Hy))). lra. Qed.
Lemma gens_in_in area zone bs g : In g (gens_in area zone bs) -> exists b, In b bs /\ chosen area zone b = true /\ In g (rb_gens b) /\ gen_on g = true.
Proof. unfold gens_in. rewrite filter_In, in_flat_map. intros ((b & Hb & Hg) & Ho). rewrite filter_In in Hb. destruct Hb. eauto. Qed.
Lemma loads_in_in area zone bs l : In l (loads_in area zone bs) -> exists b, In b bs /\ In l (rb_loads b).
Proof. unfold loads_in. rewrite filter_In, in_flat_map. intros ((b & Hb & Hg) & Ho). rewrite filter_In in Hb. destruct Hb. eauto. Qed.

(** The numbers of adjustRating *)
Lemma factors_ok rating L G lo hi : (0 <= L)%R -> (lo <= G <= hi)%R ->
  let '(ok, lf, gf) := factors rating L G lo hi in
  (-1 <= gf <= 1)%R /\
  ((if Rlt_dec 0 gf then gf * (hi - G) else gf * (G - lo)) = lf * L - L)%R /\
  (ok = true -> lf = rating) /\
  (ok = true <-> ((1 < rating -> (rating - 1) * L <= hi - G) /\ (rating <= 1 -> (1 - rating) * L <= G - lo)))%R.
Proof.
  intros HL HG. unfold factors. destruct (Rlt_dec 1 rating) as [Hr|Hr].
  - assert (E0 : (0 <= (rating - 1) * L)%R) by (apply Rmult_le_pos; lra).
    destruct (Rle_dec ((rating - 1) * L) (hi - G)) as [Hc|Hc].
    + destruct (Rlt_dec G hi) as [Hm|Hm].
      * assert (Q : (0 <= (rating - 1) * L / (hi - G) <= 1)%R).
        { split; [apply Rmult_le_pos; [exact E0|left; apply Rinv_0_lt_compat; lra]|]. apply (Rmult_le_reg_r (hi - G)); [lra|]. unfold Rdiv. rewrite Rmult_assoc, Rinv_l by lra. lra. }
        split; [lra|]. split.
        { destruct (Rlt_dec 0 ((rating - 1) * L / (hi - G))) as [P|P].
          - unfold Rdiv. rewrite Rmult_assoc, Rinv_l by lra. lra.
          - assert (Z0 : ((rating - 1) * L / (hi - G) = 0)%R) by lra. rewrite Z0.
            assert (((rating - 1) * L / (hi - G)) * (hi - G) = (rating - 1) * L)%R by (unfold Rdiv; rewrite Rmult_assoc, Rinv_l by lra; lra). rewrite Z0 in H. lra. }
        split; [reflexivity|]. split; [intros _; split; [intros; exact Hc|lra]|reflexivity].
      * split; [lra|]. split; [destruct (Rlt_dec 0 0); lra|]. split; [reflexivity|]. split; [intros _; split; [intros; exact Hc|lra]|reflexivity].
    + assert (L0 : (0 < L)%R). { destruct (Rlt_dec 0 L); [assumption|]. assert (L = 0)%R by lra. subst L. rewrite Rmult_0_r in Hc. lra. }
      assert (LF : ((L + (hi - G)) / L * L - L = hi - G)%R) by (field; lra).
      destruct (Rlt_dec G hi) as [Hm|Hm].
      * assert (Q : ((hi - G) / (hi - G) = 1)%R) by (field; lra). rewrite Q, LF. split; [lra|]. split; [destruct (Rlt_dec 0 1); lra|]. split; [discriminate|]. split; [discriminate|]. intros [H _]. specialize (H Hr). contradiction.
      * rewrite LF. split; [lra|]. split; [destruct (Rlt_dec 0 0); lra|]. split; [discriminate|]. split; [discriminate|]. intros [H _]. specialize (H Hr). contradiction.
  - assert (E0 : (0 <= (1 - rating) * L)%R) by (apply Rmult_le_pos; lra).
    destruct (Rle_dec ((1 - rating) * L) (G - lo)) as [Hc|Hc].
    + destruct (Rlt_dec lo G) as [Hm|Hm].
      * assert (Q : (0 <= (1 - rating) * L / (G - lo) <= 1)%R).
        { split; [apply Rmult_le_pos; [exact E0|left; apply Rinv_0_lt_compat; lra]|]. apply (Rmult_le_reg_r (G - lo)); [lra|]. unfold Rdiv. rewrite Rmult_assoc, Rinv_l by lra. lra. }
        assert (Q2 : (- ((1 - rating) * L) / (G - lo) = - ((1 - rating) * L / (G - lo)))%R) by (field; lra). rewrite Q2.
        split; [lra|]. split.
        { destruct (Rlt_dec 0 (- ((1 - rating) * L / (G - lo)))) as [P|P]; [lra|]. rewrite Ropp_mult_distr_l_reverse. unfold Rdiv. rewrite Rmult_assoc, Rinv_l by lra. lra. }
        split; [reflexivity|]. split; [intros _; split; [lra|intros; exact Hc]|reflexivity].
      * split; [lra|]. split; [destruct (Rlt_dec 0 0); lra|]. split; [reflexivity|]. split; [intros _; split; [lra|intros; exact Hc]|reflexivity].
    + assert (L0 : (0 < L)%R). { destruct (Rlt_dec 0 L); [assumption|]. assert (L = 0)%R by lra. subst L. rewrite Rmult_0_r in Hc. lra. }
      assert (LF : ((L - (G - lo)) / L * L - L = - (G - lo))%R) by (field; lra).
      destruct (Rlt_dec lo G) as [Hm|Hm].
      * assert (Q : (- (G - lo) / (G - lo) = -1)%R) by (field; lra). rewrite Q, LF. split; [lra|]. split; [destruct (Rlt_dec 0 (-1)); lra|]. split; [discriminate|]. split; [discriminate|]. intros [_ H]. apply Rnot_lt_le in Hr. specialize (H Hr). contradiction.
      * rewrite LF. split; [lra|]. split; [destruct (Rlt_dec 0 0); lra|]. split; [discriminate|]. split; [discriminate|]. intros [_ H]. apply Rnot_lt_le in Hr. specialize (H Hr). contradiction.
Qed.

Lemma scaled_within v g : (-1 <= v <= 1)%R -> within g -> within (scaled_gen v g).
Proof.
  unfold within, scaled_gen. cbn [g_p g_min g_max]. intros Hv [H1 H2]. destruct (Rlt_dec 0 v).
  - split.
    + assert (0 <= v * (g_max g - g_p g))%R by (apply Rmult_le_pos; lra). lra.
    + assert (0 <= (1 - v) * (g_max g - g_p g))%R by (apply Rmult_le_pos; lra). lra.
  - split.
    + assert (0 <= (1 + v) * (g_p g - g_min g))%R by (apply Rmult_le_pos; lra). lra.
    + assert (0 <= (- v) * (g_p g - g_min g))%R by (apply Rmult_le_pos; lra). lra.
Qed.
Lemma forall2_map {T U} (P : T -> U -> Prop) (f : T -> U) l : (forall x, In x l -> P x (f x)) -> Forall2 P l (map f l).
Proof. induction l as [|x l IH]; intros H; cbn; constructor; [apply H; now left|apply IH; intros; apply H; now right]. Qed.
Lemma after_kept sa sz da dz lf gf b : (-1 <= gf <= 1)%R -> fresh_bus b -> bus_kept sa sz da dz lf b (bus_after sa sz da dz lf gf b).
Proof.
  intros Hg F. split; [reflexivity|]. split; [reflexivity|]. split.
  - unfold bus_after. cbn [rb_gens]. destruct (chosen sa sz b).
    + unfold gens_after. apply forall2_map. intros g _. unfold gen_kept, gen_on. destruct (g_on g =? 0)%Z eqn:E; cbn [negb].
      * split; [reflexivity|]. split; [reflexivity|]. split; [reflexivity|]. split; [reflexivity|]. split; [reflexivity|]. auto.
      * split; [reflexivity|]. split; [reflexivity|]. split; [reflexivity|]. split; [reflexivity|]. split; [reflexivity|]. split; [intros [H|H]; [discriminate|apply Z.eqb_neq in E; contradiction]|]. now apply scaled_within.
    + rewrite <- (map_id (rb_gens b)) at 2. apply forall2_map. intros g _. unfold gen_kept. auto 8.
  - unfold bus_after. cbn [rb_loads]. pose proof (fb_on F) as O. destruct (chosen da dz b).
    + unfold loads_after. apply forall2_map. intros l Hl. unfold load_kept. destruct (O l Hl) as [E|E]; rewrite E; cbn [Z.eqb andb negb Pos.eqb]; auto 8.
    + rewrite <- (map_id (rb_loads b)) at 2. apply forall2_map. intros l _. unfold load_kept. cbn [andb]. auto 8.
Qed.

Lemma generation_fresh sa sz bs : Forall fresh_bus bs -> margin g_save sa sz bs = generation sa sz bs.
Proof.
  intros F. rewrite Forall_forall in F. rewrite margin_eq. unfold generation. f_equal. apply map_ext_in. intros g Hg. apply gens_in_in in Hg as (b & Hb & _ & Hg & _). symmetry. exact (fb_gp (F b Hb) g Hg).
Qed.
Lemma demand_fresh da dz bs : Forall fresh_bus bs -> local_load da dz bs = demand da dz bs.
Proof.
  intros F. rewrite Forall_forall in F. rewrite local_load_eq. unfold demand. f_equal. apply map_ext_in. intros l Hl. apply loads_in_in in Hl as (b & Hb & Hl). symmetry. exact (proj1 (fb_lp (F b Hb) l Hl)).
Qed.

Theorem adjust_ok rating sa sz da dz bs ok bs' : Forall fresh_bus bs -> (0 <= demand da dz bs)%R -> (forall g, In g (gens_in sa sz bs) -> within g) ->
  adjust rating sa sz da dz [bs] bs = (ok, bs') ->
  (generation sa sz bs' - generation sa sz bs = demand da dz bs' - demand da dz bs)%R /\
  (ok = true -> demand da dz bs' = (rating * demand da dz bs)%R) /\
  (ok = true <-> ((1 < rating -> (rating - 1) * demand da dz bs <= highest sa sz bs - generation sa sz bs) /\
                  (rating <= 1 -> (1 - rating) * demand da dz bs <= generation sa sz bs - lowest sa sz bs)))%R /\
  exists f, (ok = true -> f = rating) /\ Forall2 (bus_kept sa sz da dz f) bs bs'.
Proof.
  intros F HD HW E. unfold adjust in E.
  assert (TL : total_load da dz [bs] = demand da dz bs) by (unfold total_load; cbn [map]; rewrite sumR_cons, (demand_fresh da dz F); cbn; lra).
  rewrite TL, (generation_fresh sa sz F), (margin_eq g_min), (margin_eq g_max) in E. fold (lowest sa sz bs) (highest sa sz bs) in E.
  assert (HG : (lowest sa sz bs <= generation sa sz bs <= highest sa sz bs)%R).
  { unfold lowest, generation, highest. split; apply sum_le; intros g Hg; destruct (HW g Hg); assumption. }
  pose proof (factors_ok rating HD HG) as X. destruct (factors rating (demand da dz bs) (generation sa sz bs) (lowest sa sz bs) (highest sa sz bs)) as [[k lf] gf].
  destruct X as (X1 & X2 & X3 & X4). cbn [fst snd] in E. injection E as <- <-. rewrite (scaled_buses sa sz da dz lf gf F).
  assert (GA : generation sa sz (map (bus_after sa sz da dz lf gf) bs) = (generation sa sz bs + (if Rlt_dec 0 gf then gf * (highest sa sz bs - generation sa sz bs) else gf * (generation sa sz bs - lowest sa sz bs)))%R).
  { unfold generation at 1. rewrite gens_in_after, sum_scaled_gen. unfold generation, highest, lowest. destruct (Rlt_dec 0 gf); reflexivity. }
  assert (DA : demand da dz (map (bus_after sa sz da dz lf gf) bs) = (lf * demand da dz bs)%R).
  { unfold demand at 1. rewrite (loads_in_after sa sz da dz lf gf F). apply sum_scaled_load. }
  split; [rewrite GA, DA, X2; lra|]. split; [intros Hk; rewrite DA, (X3 Hk); reflexivity|]. split; [exact X4|].
  exists lf. split; [exact X3|]. apply forall2_map. intros b Hb. rewrite Forall_forall in F. apply after_kept; [exact X1|exact (F b Hb)].
Qed.
Lemma reset_after sa sz da dz lf gf b : reset_bus (bus_after sa sz da dz lf gf b) = reset_bus b.
Proof.
  unfold reset_bus, bus_after. cbn [rb_area rb_zone rb_gens rb_loads]. f_equal.
  - destruct (chosen sa sz b); [|reflexivity]. unfold gens_after. rewrite map_map. apply map_ext. intros g. now destruct (gen_on g).
  - destruct (chosen da dz b); [|reflexivity]. unfold loads_after. rewrite map_map. apply map_ext. intros l. now destruct (l_on l =? 1)%Z.
Qed.
Lemma reset_fresh b : fresh_bus b -> reset_bus b = b.
Proof.
  intros [_ _ Hg Hl _]. destruct b as [ar zo gs ls]. unfold reset_bus. cbn in *. f_equal.
  - rewrite <- (map_id gs) at 2. apply map_ext_in. intros g H. specialize (Hg g H). destruct g. cbn in *. congruence.
  - rewrite <- (map_id ls) at 2. apply map_ext_in. intros l H. destruct (Hl l H). destruct l. cbn in *. congruence.
Qed.
Theorem adjust_reset rating sa sz da dz procs bs : Forall fresh_bus bs -> reset_power (snd (adjust rating sa sz da dz procs bs)) = bs.
Proof.
  intros F. unfold adjust. cbn [snd]. rewrite scaled_buses by exact F. unfold reset_power. rewrite map_map.
  rewrite <- (map_id bs) at 2. apply map_ext_in. intros b Hb. rewrite reset_after. rewrite Forall_forall in F. apply reset_fresh, F, Hb.
Qed.

(** Proofs about linear control blocks. *)
From Verif Require Import Prelude CbModel CbSpec.
From Coq Require Import Reals Lra Psatz.
From Coquelicot Require Import Coquelicot.
Open Scope R_scope.

Lemma clamp_in lo v hi : lo <= hi -> inside lo (clamp lo v hi) hi.
Proof. unfold inside, clamp, cmax, cmin. intros. destruct (Rlt_dec hi v), (Rlt_dec lo _); lra. Qed.
Lemma clamp_id lo v hi : inside lo v hi -> clamp lo v hi = v.
Proof. unfold inside, clamp, cmax, cmin. intros. destruct (Rlt_dec hi v), (Rlt_dec lo _); lra. Qed.
Lemma clamp_lo lo v hi : v <= lo -> v <= hi -> clamp lo v hi = lo.
Proof. unfold clamp, cmax, cmin. intros. destruct (Rlt_dec hi v), (Rlt_dec lo _); lra. Qed.
Lemma clamp_hi lo v hi : lo <= hi -> hi <= v -> clamp lo v hi = hi.
Proof. unfold clamp, cmax, cmin. intros. destruct (Rlt_dec hi v), (Rlt_dec lo _); lra. Qed.

Lemma rd_ok v r : rd v = Ok r -> v = Some r.
Proof. destruct v; cbn; congruence. Qed.

(** Inverting monadic code. *)
Ltac inv_ok H :=
  repeat match type of H with
  | obind (rd ?v) _ = Ok _ => let E := fresh "E" in destruct v eqn:E; cbn [rd obind] in H; [|discriminate H]
  | obind ?x _ = Ok _ => let E := fresh "E" in destruct x eqn:E; cbn [obind] in H; try discriminate H
  | (if ?b then _ else _) = Ok _ => destruct b
  | Ok _ = Ok _ => inversion H; clear H; subst
  end.

Definition abcd (a0 a1 b0 b1 : R) (c : cblock) : Prop :=
  a0 <> 0 /\ cA c = Some (- a1 / a0) /\ cB c = Some (b1 / a0 - a1 * b0 / (a0 * a0)) /\ cC c = Some 1 /\ cD c = Some (b0 / a0).
Lemma update_abcd c u dt lo hi dlo dhi st c' : updatestate_lim c u dt lo hi dlo dhi st = Ok c' ->
  cA c' = cA c /\ cB c' = cB c /\ cC c' = cC c /\ cD c' = cD c /\ xmin c' = xmin c /\ xmax c' = xmax c /\
  ymin c' = ymin c /\ ymax c' = ymax c /\ dxmin c' = dxmin c /\ dxmax c' = dxmax c.
Proof.
  unfold updatestate_lim. destruct st; intros H; inv_ok H; cbn; repeat split.
Qed.
Lemma out_abcd c u dt xlo xhi ylo yhi st b c' y : getoutput_lim c u dt xlo xhi ylo yhi st b = Ok (c', y) ->
  cA c' = cA c /\ cB c' = cB c /\ cC c' = cC c /\ cD c' = cD c /\ xmin c' = xmin c /\ xmax c' = xmax c /\
  ymin c' = ymin c /\ ymax c' = ymax c /\ dxmin c' = dxmin c /\ dxmax c' = dxmax c.
Proof.
  unfold getoutput_lim. intros H. destruct (raw_output _ _ _ _ _); try discriminate. cbn [obind] in H. destruct b.
  - destruct (updatestate_lim _ _ _ _ _ _ _ _) as [c2| |] eqn:E; try discriminate. cbn [obind] in H. inversion H; subst. now apply update_abcd in E.
  - inversion H; subst. repeat split.
Qed.
Lemma made_abcd a0 a1 b0 b1 c : made a0 a1 b0 b1 c -> abcd a0 a1 b0 b1 c.
Proof.
  induction 1 as [c c' H|c lo hi _ IH|c lo hi _ IH|c lo hi _ IH|c x _ IH|c u y c' _ IH H|c u c' y _ IH H|c u c' y _ IH H
                  |c u dt xlo xhi ylo yhi st b c' y _ IH H|c u dt xlo xhi dlo dhi ylo yhi st b c' y _ IH H]; try exact IH.
  - unfold setcoeffs in H. destruct (Req_EM_T a0 0); [discriminate|]. inversion H; subst. repeat split; auto.
  - destruct IH as (N & EA & EB & EC & ED). unfold cb_init in H. rewrite EA, EB, EC, ED in H. cbn [rd obind] in H.
    destruct (Rlt_dec _ _); [inversion H; subst; repeat split; auto|].
    destruct (rdiv _ _); try discriminate. cbn [obind] in H. inversion H; subst. repeat split; auto.
  - destruct IH as (N & EA & EB & EC & ED). unfold init_given_u in H. rewrite EA, EB, EC, ED in H. cbn [rd obind] in H.
    destruct (Rlt_dec _ _); [inversion H; subst; repeat split; auto|].
    destruct (Rlt_dec _ _); inversion H; subst; repeat split; auto.
  - destruct IH as (N & EA & EB & EC & ED). unfold init_given_y in H. rewrite EA, EB, EC, ED in H. cbn [rd obind] in H.
    destruct (Rlt_dec _ _); [inversion H; subst; repeat split; auto|].
    destruct (rdiv _ _); try discriminate. cbn [obind] in H. inversion H; subst. repeat split; auto.
  - apply out_abcd in H. destruct H as (HA & HB & HC & HD & _). destruct IH as (N & EA & EB & EC & ED).
    unfold abcd. rewrite HA, HB, HC, HD. auto.
  - apply out_abcd in H. destruct H as (HA & HB & HC & HD & _). destruct IH as (N & EA & EB & EC & ED).
    unfold abcd. rewrite HA, HB, HC, HD. cbn. auto.
Qed.

(** ** Limits *)
Lemma raw_in c st u lo hi y : raw_output c st u lo hi = Ok y -> lo <= hi -> inside lo y hi.
Proof. unfold raw_output. intros H L. inv_ok H. now apply clamp_in. Qed.
Lemma update_in c u dt lo hi dlo dhi st c' : updatestate_lim c u dt lo hi dlo dhi st = Ok c' -> lo <= hi ->
  exists v, getstate c' st = Ok v /\ inside lo v hi /\
    match st with PREDICTOR => cx c' = cx c | CORRECTOR => xhat c' = xhat c end.
Proof.
  unfold updatestate_lim. destruct st; intros H L; inv_ok H; cbn; eexists; (split; [reflexivity|split; [now apply clamp_in|auto]]).
Qed.
Definition states_in (c : cblock) : Prop := (forall v, cx c = Some v -> inside (xmin c) v (xmax c)) /\ (forall v, xhat c = Some v -> inside (xmin c) v (xmax c)).
Lemma calls_in : forall l c c' ys, calls c l = Ok (c', ys) -> xmin c <= xmax c -> ymin c <= ymax c -> states_in c ->
  states_in c' /\ (xmin c' = xmin c /\ xmax c' = xmax c) /\ length ys = length l /\ forall y, In y ys -> inside (ymin c) y (ymax c).
Proof.
  induction l as [|[[[u dt] st] b] l IH]; intros c c' ys H LX LY S; cbn [calls] in H.
  - inversion H; subst. split; [exact S|]. split; [split; reflexivity|]. split; [reflexivity|]. intros ? [].
  - destruct (getoutput c u dt st b) as [[c1 y]| |] eqn:E1; try discriminate. cbn [obind] in H.
    destruct (calls c1 l) as [[c2 ys2]| |] eqn:E2; try discriminate. cbn [obind] in H. inversion H; subst.
    unfold getoutput in E1. pose proof (out_abcd _ _ _ _ _ _ _ _ _ E1) as (_ & _ & _ & _ & X1 & X2 & Y1 & Y2 & _).
    unfold getoutput_lim in E1. destruct (raw_output _ _ _ _ _) as [y0| |] eqn:ER; try discriminate. cbn [obind] in E1.
    assert (Hy : inside (ymin c) y (ymax c) /\ states_in c1).
    { destruct b.
      - destruct (updatestate_lim _ _ _ _ _ _ _ _) as [c3| |] eqn:EU; try discriminate. cbn [obind] in E1. inversion E1; subst.
        split; [now apply raw_in in ER|]. destruct (update_in _ _ _ _ _ _ EU LX) as (v & G & W & K). unfold states_in. rewrite X1, X2.
        destruct S as [S1 S2]. destruct st; cbn in G; apply rd_ok in G; rewrite ?K, ?G; split; auto; intros w Hw; inversion Hw; subst; auto.
      - inversion E1; subst. split; [now apply raw_in in ER|exact S]. }
    destruct Hy as [Hy S1]. destruct (IH c1 c' ys2 E2) as (A & [B1 B2] & C & D); try lra; [exact S1|].
    split; [exact A|]. split; [split; lra|]. split; [cbn; lia|]. intros y' [<-|I]; [exact Hy|]. rewrite <- Y1, <- Y2. now apply D.
Qed.
Lemma predictor_rate c u dt c' x v : updatestate c u dt PREDICTOR = Ok c' -> cx c = Some x -> xhat c' = Some v ->
  inside (xmin c) x (xmax c) -> dxmin c <= dxmax c -> 0 <= dt -> dxmin c <= 0 <= dxmax c ->
  inside (dxmin c * dt) (v - x) (dxmax c * dt).
Proof.
  unfold updatestate, updatestate_lim. intros H Ex Ev W L Hdt L0. rewrite Ex in H. cbn [rd obind] in H. inv_ok H. cbn in Ev. inversion Ev; subst.
  match goal with |- context [clamp (xmin c) (x + dt * ?dd)] => set (d := dd) end.
  assert (Hd : inside (dxmin c) d (dxmax c)) by now apply clamp_in. unfold inside in *.
  assert (dxmin c * dt <= dt * d <= dxmax c * dt) by nra. assert (dxmin c * dt <= 0 <= dxmax c * dt) by nra.
  unfold clamp, cmax, cmin. destruct (Rlt_dec (xmax c) (x + dt * d)), (Rlt_dec (xmin c) _); lra.
Qed.
Lemma corrector_rate c u dt c' x v : updatestate c u dt CORRECTOR = Ok c' -> cx c = Some x -> cx c' = Some v ->
  inside (xmin c) x (xmax c) -> dxmin c <= dxmax c -> 0 <= dt -> dxmin c <= 0 <= dxmax c ->
  inside (dxmin c * dt) (v - x) (dxmax c * dt).
Proof.
  unfold updatestate, updatestate_lim. intros H Ex Ev W L Hdt L0. rewrite Ex in H. inv_ok H. cbn in Ev. inversion Ev; subst.
  match goal with |- context [clamp (xmin c) (x + dt * ?dd)] => set (d := dd) end.
  assert (Hd : inside (dxmin c) d (dxmax c)) by now apply clamp_in. unfold inside in *.
  assert (dxmin c * dt <= dt * d <= dxmax c * dt) by nra. assert (dxmin c * dt <= 0 <= dxmax c * dt) by nra.
  unfold clamp, cmax, cmin. destruct (Rlt_dec (xmax c) (x + dt * d)), (Rlt_dec (xmin c) _); lra.
Qed.

(** ** Transfer function *)
Lemma tf_time a0 a1 b0 b1 c (x u : R -> R) t du : made a0 a1 b0 b1 c ->
  is_derive u t du ->
  (exists d, getderivative c (x t) (u t) = Ok d /\ is_derive x t d) ->
  obeys a0 a1 b0 b1 u (fun s => match cC c, cD c with Some cc, Some d => cc * x s + d * u s | _, _ => 0 end) t du.
Proof.
  intros M Hu (d & Hd & Hx). destruct (made_abcd M) as (N & EA & EB & EC & ED). unfold getderivative in Hd. rewrite EA, EB in Hd.
  cbn in Hd. inversion Hd; subst d; clear Hd. rewrite EC, ED.
  exists (1 * (- a1 / a0 * x t + (b1 / a0 - a1 * b0 / (a0 * a0)) * u t) + b0 / a0 * du). split.
  - apply (is_derive_plus (fun s => 1 * x s) (fun s => b0 / a0 * u s)); now apply is_derive_scal.
  - field. exact N.
Qed.
(** Static gain: at rest a1 y = b1 u. *)
Lemma rest_gain a0 a1 b0 b1 c x u : made a0 a1 b0 b1 c -> getderivative c x u = Ok 0 ->
  exists cc d, cC c = Some cc /\ cD c = Some d /\ a1 * (cc * x + d * u) = b1 * u.
Proof.
  intros M Hd. destruct (made_abcd M) as (N & EA & EB & EC & ED). unfold getderivative in Hd. rewrite EA, EB in Hd. cbn in Hd.
  assert (H : - a1 / a0 * x + (b1 / a0 - a1 * b0 / (a0 * a0)) * u = 0) by congruence.
  exists 1, (b0 / a0). repeat split; auto.
  assert (a0 * (- a1 / a0 * x + (b1 / a0 - a1 * b0 / (a0 * a0)) * u) = - a1 * x + (b1 - a1 * b0 / a0) * u) by (field; exact N).
  assert (a1 * (1 * x + b0 / a0 * u) = a1 * x + a1 * b0 / a0 * u) by (field; exact N). rewrite H in H0. lra.
Qed.

(** ** Steps *)
Lemma heun a0 a1 b0 b1 c u0 u1 dt x c' y0 y1 : made a0 a1 b0 b1 c -> cx c = Some x ->
  step c u0 u1 dt = Ok (c', y0, y1) ->
  let f z u := - a1 / a0 * z + (b1 / a0 - a1 * b0 / (a0 * a0)) * u in
  let k1 := f x u0 in let k2 := f (x + dt * k1) u1 in
  inside (dxmin c) k1 (dxmax c) -> inside (xmin c) (x + dt * k1) (xmax c) ->
  inside (dxmin c) ((k1 + k2) / 2) (dxmax c) -> inside (xmin c) (x + dt * ((k1 + k2) / 2)) (xmax c) ->
  cx c' = Some (x + dt * ((k1 + k2) / 2)) /\ xhat c' = Some (x + dt * k1) /\
  y0 = clamp (ymin c) (x + b0 / a0 * u0) (ymax c) /\ y1 = clamp (ymin c) (x + dt * k1 + b0 / a0 * u1) (ymax c).
Proof.
  intros M Ex H f k1 k2 W1 W2 W3 W4. destruct (made_abcd M) as (N & EA & EB & EC & ED).
  unfold step, getoutput, getoutput_lim, raw_output, stage_x, updatestate_lim, getderivative in H.
  repeat (rewrite ?Ex, ?EA, ?EB, ?EC, ?ED in H; cbn [rd obind cA cB cC cD cx xhat dxdt xmin xmax ymin ymax dxmin dxmax cur] in H).
  fold (f x u0) in H. fold k1 in H. rewrite (clamp_id W1) in H. rewrite (clamp_id W2) in H. fold (f (x + dt * k1) u1) in H. fold k2 in H.
  replace (0.5 * (k1 + k2)) with ((k1 + k2) / 2) in H by lra. rewrite (clamp_id W3) in H. rewrite (clamp_id W4) in H.
  inversion H; subst. cbn. repeat split; f_equal; ring.
Qed.
(** A block at rest stays at rest while the input does not change. *)
Lemma rest_step a0 a1 b0 b1 c u x dt : made a0 a1 b0 b1 c -> cx c = Some x -> getderivative c x u = Ok 0 ->
  inside (xmin c) x (xmax c) -> dxmin c <= 0 <= dxmax c ->
  exists c', step c u u dt = Ok (c', clamp (ymin c) (x + b0 / a0 * u) (ymax c), clamp (ymin c) (x + b0 / a0 * u) (ymax c)) /\
    cx c' = Some x /\ xhat c' = Some x /\ xmin c' = xmin c /\ xmax c' = xmax c /\ ymin c' = ymin c /\ ymax c' = ymax c /\
    dxmin c' = dxmin c /\ dxmax c' = dxmax c /\ cA c' = cA c /\ cB c' = cB c /\ cC c' = cC c /\ cD c' = cD c /\ made a0 a1 b0 b1 c'.
Proof.
  intros M Ex Hd W D. destruct (made_abcd M) as (N & EA & EB & EC & ED). unfold getderivative in Hd. rewrite EA, EB in Hd. cbn in Hd.
  assert (H0 : - a1 / a0 * x + (b1 / a0 - a1 * b0 / (a0 * a0)) * u = 0) by congruence.
  assert (HS : exists c', step c u u dt = Ok (c', clamp (ymin c) (x + b0 / a0 * u) (ymax c), clamp (ymin c) (x + b0 / a0 * u) (ymax c)) /\
    cx c' = Some x /\ xhat c' = Some x /\ xmin c' = xmin c /\ xmax c' = xmax c /\ ymin c' = ymin c /\ ymax c' = ymax c /\
    dxmin c' = dxmin c /\ dxmax c' = dxmax c /\ cA c' = cA c /\ cB c' = cB c /\ cC c' = cC c /\ cD c' = cD c).
  { unfold step, getoutput, getoutput_lim, raw_output, stage_x, updatestate_lim, getderivative.
    repeat (rewrite ?Ex, ?EA, ?EB, ?EC, ?ED; cbn [rd obind cA cB cC cD cx xhat dxdt xmin xmax ymin ymax dxmin dxmax cur]).
    rewrite !H0. assert (Z0 : clamp (dxmin c) 0 (dxmax c) = 0) by (apply clamp_id; exact D). rewrite !Z0.
    replace (x + dt * 0) with x by ring. rewrite !(clamp_id W). rewrite !H0. replace (0.5 * (0 + 0)) with 0 by ring. rewrite !Z0.
    replace (x + dt * 0) with x by ring. rewrite !(clamp_id W). replace (1 * x + b0 / a0 * u) with (x + b0 / a0 * u) by ring.
    eexists. split; [reflexivity|]. cbn. rewrite ?EA, ?EB, ?EC, ?ED. repeat split. }
  destruct HS as (c' & E & R). exists c'. split; [exact E|]. repeat (split; [apply R|]).
  unfold step in E. destruct (getoutput c u dt PREDICTOR true) as [[c1 z0]| |] eqn:E1; try discriminate. cbn [obind] in E.
  destruct (getoutput c1 u dt CORRECTOR true) as [[c2 z1]| |] eqn:E2; try discriminate. cbn [obind] in E. inversion E; subst.
  unfold getoutput in E1, E2. eapply made_out; [eapply made_out; [exact M|exact E1]|exact E2].
Qed.
Lemma rest_hold a0 a1 b0 b1 u x : forall dts c, made a0 a1 b0 b1 c -> cx c = Some x -> getderivative c x u = Ok 0 ->
  inside (xmin c) x (xmax c) -> dxmin c <= 0 <= dxmax c ->
  exists c', hold c u dts = Ok (c', repeat (clamp (ymin c) (x + b0 / a0 * u) (ymax c)) (2 * length dts)) /\ cx c' = Some x.
Proof.
  induction dts as [|dt dts IH]; intros c M Ex Hd W D; [exists c; split; [reflexivity|exact Ex]|]. cbn [hold].
  destruct (@rest_step a0 a1 b0 b1 c u x dt M Ex Hd W D) as (c1 & E & Ex1 & _ & X1 & X2 & Y1 & Y2 & D1 & D2 & A1 & B1 & C1 & DD & M1).
  rewrite E. cbn [obind]. destruct (IH c1 M1 Ex1) as (c' & E' & Ex'); try (rewrite ?X1, ?X2, ?D1, ?D2; assumption).
  { unfold getderivative in *. now rewrite A1, B1. }
  rewrite E'. cbn [obind]. exists c'. split; [|exact Ex']. rewrite Y1, Y2.
  replace (2 * length (dt :: dts))%nat with (S (S (2 * length dts))) by (cbn; lia). reflexivity.
Qed.

(** ** Initialisation *)
Lemma init_y_rest a0 a1 b0 b1 c y c' u : made a0 a1 b0 b1 c -> init_given_y c y = Ok (c', u) -> a1 = 0 \/ tiny <= Rabs (a1 / a0) ->
  exists x, cx c' = Some x /\ getderivative c' x u = Ok 0 /\ x + b0 / a0 * u = y /\
    xmin c' = xmin c /\ xmax c' = xmax c /\ ymin c' = ymin c /\ ymax c' = ymax c /\ dxmin c' = dxmin c /\ dxmax c' = dxmax c /\ made a0 a1 b0 b1 c'.
Proof.
  intros M H S. assert (M' : made a0 a1 b0 b1 c') by (eapply made_init_y; eauto).
  destruct (made_abcd M) as (N & EA & EB & EC & ED). unfold init_given_y in H. rewrite EA, EB, EC, ED in H. cbn [rd obind] in H.
  destruct (Rlt_dec (Rabs (- a1 / a0)) tiny) as [L|L].
  - assert (a1 = 0) as ->.
    { destruct S as [|S]; [assumption|]. exfalso. replace (- a1 / a0) with (- (a1 / a0)) in L by (field; exact N). rewrite Rabs_Ropp in L. lra. }
    inversion H; subst. exists y. cbn. unfold getderivative. cbn. rewrite EA, EB. cbn. repeat split; auto.
    + f_equal. field. exact N.
    + ring.
  - unfold rdiv in H. destruct (Req_EM_T _ 0) as [Z|Z]; [discriminate|]. cbn [obind] in H. inversion H; subst; clear H.
    set (A := - a1 / a0) in *. set (B := b1 / a0 - a1 * b0 / (a0 * a0)) in *.
    assert (NA : A <> 0) by (intros X; rewrite X, Rabs_R0 in L; unfold tiny in L; lra).
    eexists. split; [reflexivity|]. unfold getderivative. cbn. rewrite EA, EB. cbn.
    set (D := b0 / a0) in *. set (G := D - 1 * B / A) in *. set (q := y / G).
    split; [f_equal; field; exact NA|]. split; [|repeat split; auto].
    assert (E : - B / A + D = G) by (unfold G; field; exact NA).
    rewrite <- Rmult_plus_distr_r, E. unfold q. field. exact Z.
Qed.
Lemma init_u_rest a0 a1 b0 b1 c y c' u : made a0 a1 b0 b1 c -> init_given_u c u = Ok (c', y) ->
  b1 / a0 - a1 * b0 / (a0 * a0) = 0 \/ (tiny <= Rabs (a1 / a0) /\ tiny <= Rabs (b1 / a0 - a1 * b0 / (a0 * a0))) ->
  exists x, cx c' = Some x /\ getderivative c' x u = Ok 0 /\ x + b0 / a0 * u = y /\
    xmin c' = xmin c /\ xmax c' = xmax c /\ ymin c' = ymin c /\ ymax c' = ymax c /\ dxmin c' = dxmin c /\ dxmax c' = dxmax c /\ made a0 a1 b0 b1 c'.
Proof.
  intros M H S. assert (M' : made a0 a1 b0 b1 c') by (eapply made_init_u; eauto).
  destruct (made_abcd M) as (N & EA & EB & EC & ED). unfold init_given_u in H. rewrite EA, EB, EC, ED in H. cbn [rd obind] in H.
  set (B := b1 / a0 - a1 * b0 / (a0 * a0)) in *.
  destruct (Rlt_dec (Rabs B) tiny) as [L|L].
  - assert (HB : B = 0) by (destruct S as [|[_ S]]; [assumption|exfalso; lra]).
    inversion H; subst. exists 0. cbn. unfold getderivative. cbn. rewrite EA, EB. cbn. rewrite HB.
    split; [reflexivity|]. split; [f_equal; ring|]. split; [ring|]. repeat split; auto.
  - assert (HA : tiny <= Rabs (a1 / a0)).
    { destruct S as [S|[S _]]; [|exact S]. exfalso. rewrite S, Rabs_R0 in L. unfold tiny in L. lra. }
    assert (HA' : tiny <= Rabs (- a1 / a0)) by (replace (- a1 / a0) with (- (a1 / a0)) by (field; exact N); now rewrite Rabs_Ropp).
    set (A := - a1 / a0) in *. destruct (Rlt_dec (Rabs A) tiny) as [L2|L2]; [exfalso; lra|].
    assert (NA : A <> 0) by (intros X; rewrite X, Rabs_R0 in HA'; unfold tiny in HA'; lra).
    inversion H; subst; clear H. eexists. split; [reflexivity|]. unfold getderivative. cbn. rewrite EA, EB. cbn.
    split; [f_equal; field; exact NA|]. split; [ring|]. repeat split; auto.
Qed.
(** init computes the same state as init_given_y, whatever the input given to it. *)
Lemma init_same c u y c' : cb_init c u y = Ok c' <-> exists u', init_given_y c y = Ok (c', u').
Proof.
  unfold cb_init, init_given_y. destruct (cA c) as [a|]; cbn [rd obind]; [|split; [discriminate|intros (? & ?); discriminate]].
  destruct (Rlt_dec _ _); [split; [intros H; inversion H; eauto|intros (? & H); inversion H; reflexivity]|].
  destruct (cB c) as [b|]; cbn [rd obind]; [|split; [discriminate|intros (? & ?); discriminate]].
  destruct (cC c) as [cc|]; cbn [rd obind]; [|split; [discriminate|intros (? & ?); discriminate]].
  destruct (cD c) as [d|]; cbn [rd obind]; [|split; [discriminate|intros (? & ?); discriminate]].
  destruct (rdiv _ _); cbn [obind]; [|split; [discriminate|intros (? & ?); discriminate]..].
  split; [intros H; inversion H; eauto|intros (? & H); inversion H; reflexivity].
Qed.

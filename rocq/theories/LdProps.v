(** C71: a voltage dependent load takes the power that its load law gives. *)
From Verif Require Import Prelude LdModel LdSpec LdProofs.
From Coq Require Import Reals Lra.
From Coquelicot Require Import Complex.
Open Scope R_scope.

(** Whatever the state of the load and the frequency are: at every bus voltage of at least 0.7 the admittance and the injected current
    together take exactly the power of the load law, with the shares that init left. *)
Theorem C71_law : forall pl ql mag m n f (V : C), 7 / 10 <= Cmod V ->
  let s := init pl ql mag m n in
  drawn (ynort s) (injection s f V) V =
  (law (pl / 100) (Cmod V / mag) f (checked m), law (ql / 100) (Cmod V / mag) f (checked n)).
Proof.
  intros pl ql mag m n f V H s. assert (N : V <> RtoC 0) by (intros ->; rewrite Cmod_0 in H; lra).
  rewrite drawn_power by exact N. rewrite !power_high by exact H. reflexivity.
Qed.
Print Assumptions C71_law.

(** Below 0.7 the second and the third part of the load are scaled by factors that fall strictly to zero with the voltage, without a
    jump at 0.7; the first part is not scaled. *)
Theorem C71_low_voltage : exists second third : R -> R, fades (7 / 10) second /\ fades (7 / 10) third /\
  forall pl ql mag m n f (V : C), V <> RtoC 0 ->
  let s := init pl ql mag m n in
  let scaled := fun m => Mix (sh1 m) (second (Cmod V) * sh2 m) (third (Cmod V) * sh3 m) (ex1 m) (ex2 m) (ex3 m) (fq m) in
  drawn (ynort s) (injection s f V) V =
  (law (pl / 100) (Cmod V / mag) f (scaled (checked m)), law (ql / 100) (Cmod V / mag) f (scaled (checked n))).
Proof.
  exists ki, kp. split; [exact ki_fades|]. split; [exact kp_fades|]. intros. unfold scaled. rewrite drawn_power by assumption.
  reflexivity.
Qed.
Print Assumptions C71_low_voltage.

(** Init leaves an admittance that takes the load of the data, in per unit on 100 MVA, at the initial voltage. *)
Theorem C71_admittance : forall pl ql mag m n (V : C), 0 < mag -> Cmod V = mag ->
  drawn (ynort (init pl ql mag m n)) (RtoC 0) V = (pl / 100, ql / 100).
Proof.
  intros pl ql mag m n V H E. pose proof (cmod_sq V) as S. rewrite E in S. destruct V as (x, y). cbn [fst snd] in S. unfold drawn, init, ynort, Cconj, Cminus, Cplus, Copp, Cmult, RtoC.
  cbn [fst snd].
  f_equal.
  - transitivity (pl / 100 / mag / mag * (x * x + y * y)); [field; lra|]. rewrite <- S. field. lra.
  - transitivity (ql / 100 / mag / mag * (x * x + y * y)); [field; lra|]. rewrite <- S. field. lra.
Qed.
Print Assumptions C71_admittance.

(** Missing for the full claim (at the initial voltage and frequency the load takes the power of the data, whatever the shares are):
    the shares that init leaves must add up to one, which C71_normalised_refuted and C71_no_shares_refuted show they need not. *)
Theorem C71_start_partial : forall pl ql mag m n (V : C), 7 / 10 <= mag -> Cmod V = mag ->
  sh1 (checked m) + sh2 (checked m) + sh3 (checked m) = 1 -> sh1 (checked n) + sh2 (checked n) + sh3 (checked n) = 1 ->
  let s := init pl ql mag m n in drawn (ynort s) (injection s 1 V) V = (pl / 100, ql / 100).
Proof.
  intros pl ql mag m n V H E S1 S2 s. unfold s. rewrite C71_law by lra. rewrite E. replace (mag / mag) with 1 by (field; lra).
  rewrite !law_start by assumption. reflexivity.
Qed.
Print Assumptions C71_start_partial.

(** A load with a single part keeps it, and the part becomes the whole load, unless the share is one already (up to 1e-6). *)
Theorem C71_single_part : forall a, 0 < a -> 1 / 1000000 < Rabs (a - 1) ->
  shares a 0 0 = (1, 0, 0) /\ shares 0 a 0 = (0, 1, 0) /\ shares 0 0 a = (0, 0, 1).
Proof.
  intros a H N. unfold shares. rewrite !Rplus_0_l, !Rplus_0_r.
  destruct (Rlt_dec 0 a); [|lra]. destruct (Rlt_dec (1 / 1000000) (Rabs (a - 1))); [|lra].
  repeat split; repeat (f_equal; try (field; repeat split; lra)).
Qed.
Print Assumptions C71_single_part.

(** Such a load follows the exponent and the frequency factor that its data give for that part. *)
Theorem C71_single_part_law : forall a x1 x2 x3 y pl ql mag n f (V : C), 0 < a -> 1 / 1000000 < Rabs (a - 1) -> 7 / 10 <= Cmod V ->
  let active := fun b1 b2 b3 =>
    let s := init pl ql mag (load false (Md (Some b1) (Some b2) (Some b3) (Some x1) (Some x2) (Some x3) (Some y))) n in
    fst (drawn (ynort s) (injection s f V) V) in
  let expected := fun x => pl / 100 * Rpower (Cmod V / mag) x * (1 + y * (f - 1)) in
  active a 0 0 = expected x1 /\ active 0 a 0 = expected x2 /\ active 0 0 a = expected x3.
Proof.
  intros a x1 x2 x3 y pl ql mag n f V H N G active expected. destruct (C71_single_part H N) as (S1 & S2 & S3).
  unfold active, expected. rewrite !C71_law by exact G. unfold checked, load. cbn [fst get sh1 sh2 sh3 ds1 ds2 ds3 de1 de2 de3 df ex1 ex2 ex3 fq].
  rewrite S1, S2, S3. unfold law. cbn [sh1 sh2 sh3 ex1 ex2 ex3 fq]. repeat split; ring.
Qed.
Print Assumptions C71_single_part_law.

(** Finding: shares that do add up to one are thrown away, the first part becomes the whole load. The branches of the check are swapped. *)
Theorem C71_shares_kept_refuted : forall m, sh1 m + sh2 m + sh3 m = 1 ->
  checked m = Mix 1 0 0 (ex1 m) (ex2 m) (ex3 m) (fq m).
Proof. intros m H. unfold checked. rewrite shares_one by exact H. reflexivity. Qed.
Print Assumptions C71_shares_kept_refuted.

(** Finding: the static part of a composite load always follows its first exponent alone, whatever the shares in its data are. *)
Theorem C71_composite_refuted : forall d pl ql mag n f (V : C), 7 / 10 <= Cmod V ->
  let s := init pl ql mag (load true d) n in
  fst (drawn (ynort s) (injection s f V) V) = pl / 100 * Rpower (Cmod V / mag) (get (de1 d)) * (1 + get (df d) * (f - 1)).
Proof.
  intros d pl ql mag n f V H s. unfold s. rewrite C71_law by exact H. cbn [fst].
  rewrite C71_shares_kept_refuted by (cbn; ring). unfold law. cbn. ring.
Qed.
Print Assumptions C71_composite_refuted.

(** Finding: shares that do not add up to one are divided by a sum that changes meanwhile.  With the shares 1, 1, 0 the load takes 7/6 of
    the power of the data at the initial voltage. *)
Theorem C71_normalised_refuted : exists m, 0 < sh1 m /\ 0 < sh2 m /\ forall pl mag n (V : C), 7 / 10 <= mag -> Cmod V = mag ->
  let s := init pl 0 mag m n in fst (drawn (ynort s) (injection s 1 V) V) = 7 / 6 * (pl / 100).
Proof.
  exists (Mix 1 1 0 2 0 0 0). split; [cbn; lra|]. split; [cbn; lra|]. intros pl mag n V H E s. unfold s. rewrite C71_law by lra.
  rewrite E. replace (mag / mag) with 1 by (field; lra). cbn [fst]. rewrite law_sum.
  assert (S : shares 1 1 0 = (1 / 2, 2 / 3, 0)).
  { unfold shares. destruct (Rlt_dec 0 (1 + 1 + 0)); [|lra]. replace (1 + 1 + 0 - 1) with 1 by ring. rewrite Rabs_R1.
    destruct (Rlt_dec (1 / 1000000) 1); [|lra]. repeat (f_equal; try field). }
  unfold checked. cbn [sh1 sh2 sh3]. rewrite S. cbn [sh1 sh2 sh3]. field.
Qed.
Print Assumptions C71_normalised_refuted.

(** Finding: a load whose data give no shares takes no power at all, at any voltage. *)
Theorem C71_no_shares_refuted : forall d pl ql mag n f (V : C), ds1 d = None -> ds2 d = None -> ds3 d = None -> V <> RtoC 0 ->
  let s := init pl ql mag (load false d) n in fst (drawn (ynort s) (injection s f V) V) = 0.
Proof.
  intros d pl ql mag n f V H1 H2 H3 N s. unfold s. rewrite drawn_power by exact N. cbn [fst init mp p0]. unfold power, checked, load.
  rewrite H1, H2, H3. cbn [get sh1 sh2 sh3]. unfold shares. destruct (Rlt_dec 0 (0 + 0 + 0)); [lra|]. cbn. ring.
Qed.
Print Assumptions C71_no_shares_refuted.

(** A voltage, a load and its shares that meet the hypotheses *)
Example C71_nonvacuous :
  Cmod (RtoC 1) = 1 /\ 7 / 10 <= Cmod (RtoC 1) /\
  (let m := load false (Md (Some 2) None None (Some 2) None None None) in
   sh1 (checked m) + sh2 (checked m) + sh3 (checked m) = 1 /\ ex1 (checked m) = 2) /\
  1 / 1000000 < Rabs (2 - 1) /\
  (let m := load false (Md (Some (2 / 5)) (Some (3 / 10)) (Some (3 / 10)) (Some 2) (Some 1) None None) in
   sh1 m + sh2 m + sh3 m = 1 /\ sh2 (checked m) = 0).
Proof.
  assert (M : Cmod (RtoC 1) = 1) by (rewrite Cmod_R; apply Rabs_R1).
  assert (A : 1 / 1000000 < Rabs (2 - 1)) by (replace (2 - 1) with 1 by ring; rewrite Rabs_R1; lra).
  split; [exact M|]. split; [rewrite M; lra|]. split; [|split; [exact A|]].
  - cbn. unfold checked. cbn. assert (H : 0 < 2) by lra. destruct (@C71_single_part 2 H A) as (-> & _). cbn. split; ring.
  - cbn. split; [field|]. unfold checked. cbn. rewrite shares_one by field. reflexivity.
Qed.

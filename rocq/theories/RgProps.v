(** C70: random numbers. *)
From Verif Require Import Prelude RgModel RgSpec RgProofs.
From Coq Require Import Reals Lra.
Open Scope R_scope.

(** * C70 Random numbers *)
(** Seeds: the sign does not matter and the processes get different seeds from the same argument, whenever the sum is an int. *)
Theorem C70_seeds : forall rank s, (Z.abs s + Z.of_nat rank <= 2147483647)%Z ->
  (exists a, seed_of rank s = Ok a /\ (0 <= a)%Z /\ forall rank' b, seed_of rank' s = Ok b -> rank' <> rank -> b <> a) /\ seed_of rank (- s) = seed_of rank s.
Proof.
  intros rank s H. split.
  - exists (Z.abs s + Z.of_nat rank)%Z. split; [now apply seed_ok|]. split; [lia|]. intros rank' b E N. apply seed_val in E. lia.
  - rewrite !seed_ok by (rewrite ?Z.abs_opp; exact H). now rewrite Z.abs_opp.
Qed.
Print Assumptions C70_seeds.
(** Finding: but the streams of two runs with neighbouring seeds overlap: process 1 with seed s is process 0 with seed s + 1 ... *)
Theorem C70_neighbouring_seeds_refuted : forall s, (0 <= s < 2147483647)%Z -> seed_of 1 s = seed_of 0 (s + 1).
Proof. intros s H. rewrite !seed_ok by lia. f_equal. lia. Qed.
Print Assumptions C70_neighbouring_seeds_refuted.
(** ... and the smallest int, or a seed too close to the largest, overflows. *)
Theorem C70_seed_overflow_refuted : seed_of 0 (-2147483648) = UB /\ seed_of 1 2147483647 = UB.
Proof. split; reflexivity. Qed.
Print Assumptions C70_seed_overflow_refuted.

(** Seeding again makes the object behave, for every later program of calls, like a new object made with that seed, if no normal number
    is held back, that is after an even number of them. *)
Theorem C70_reproducible_partial : forall (G : Type) (sd : Z -> G) next fuel rank s us (t : rnd), r_set t = false ->
  run sd next fuel rank (Seed s :: us) t = obind (new_random sd rank s) (run sd next fuel rank us).
Proof. intros G sd next fuel rank s us t. apply reseed_fresh. Qed.
Print Assumptions C70_reproducible_partial.
(** Finding: seed keeps the normal number that is held back, so that the first one after it comes from the old seed. *)
Theorem C70_reproducible_refuted : exists (sd : Z -> bool) next fuel a b,
  (forall g, 0 <= fst (next g) < 1) /\
  obind (new_random sd 0 1) (run sd next fuel 0 [Gauss]) = Ok [Some a] /\
  obind (new_random sd 0 1) (run sd next fuel 0 [Gauss; Seed 1; Gauss]) = Ok [Some a; Some b] /\ a <> b.
Proof.
  exists (fun _ => false), (fun g : bool => (if g then 1 / 2 else 3 / 4, negb g)), 1%nat, 0, (1 / 2 * sqrt (-2 * ln (1 / 4) / (1 / 4))).
  set (nx := fun g : bool => (if g then 1 / 2 else 3 / 4, negb g)).
  assert (D : draw nx 1 false = Some (1 / 2, 0, 1 / 4, false)).
  { unfold draw, nx. cbn [fst snd negb]. replace (2 * (3 / 4) - 1) with (1 / 2) by field. replace (2 * (1 / 2) - 1) with 0 by field.
    replace (1 / 2 * (1 / 2) + 0 * 0) with (1 / 4) by field. destruct (Rlt_dec (1 / 4) 1); [reflexivity|lra]. }
  assert (GR : forall sv, grand nx 1 (Rnd false false sv) = Some (Some 0, Rnd false true (Some (1 / 2 * sqrt (-2 * ln (1 / 4) / (1 / 4)))))).
  { intros sv. unfold grand. cbn [r_set r_gen]. rewrite D. destruct (Req_EM_T (1 / 4) 0); [lra|]. rewrite Rmult_0_l. reflexivity. }
  split; [intros [|]; cbn; lra|]. split; [|split].
  - unfold new_random. cbn [seed_of obind]. change (seed_of 0 1) with (Ok 1%Z). cbn [obind run]. rewrite GR. reflexivity.
  - unfold new_random. change (seed_of 0 1) with (Ok 1%Z). cbn [obind run]. rewrite GR. cbn [fst snd]. unfold reseed. change (seed_of 0 1) with (Ok 1%Z).
    cbn [obind r_set r_saved]. unfold grand. cbn [r_set r_saved r_gen fst snd obind]. reflexivity.
  - assert (LN : ln (1 / 4) < 0) by (rewrite <- ln_1; apply ln_increasing; lra).
    assert (0 < sqrt (-2 * ln (1 / 4) / (1 / 4))) by (apply sqrt_lt_R0; lra). lra.
Qed.
Print Assumptions C70_reproducible_refuted.

(** Uniform numbers are those of the generator one after the other. *)
Theorem C70_uniform : forall (G : Type) (sd : Z -> G) next fuel rank n (t : rnd),
  run sd next fuel rank (repeat Draw n) t = Ok (map (fun i => Some (value next i (r_gen t))) (seq 0 n)).
Proof. intros G sd next fuel rank n t. apply uniform_draws. Qed.
Print Assumptions C70_uniform.

(** Two calls of grand give the two coordinates of one point: the first point drawn inside of the unit circle, moved along its direction
    to the squared distance -2 ln r; exactly the draws up to that point are used up and nothing is held back afterwards. *)
Theorem C70_normal_pair : forall (G : Type) next fuel k (t : @rnd G), let g := r_gen t in r_set t = false -> (k < fuel)%nat ->
  (forall i, (i < k)%nat -> 1 <= dist2 next g i) -> 0 < dist2 next g k < 1 ->
  exists a b t1 t2, grand next fuel t = Some (Some a, t1) /\ grand next fuel t1 = Some (Some b, t2) /\
    a * a + b * b = -2 * ln (dist2 next g k) /\ a * px next g k = b * py next g k /\ 0 <= a * py next g k /\ 0 <= b * px next g k /\
    r_gen t2 = after next (2 * k + 2) g /\ r_set t2 = false.
Proof. intros G next fuel k t g. apply grand_pair. Qed.
Print Assumptions C70_normal_pair.
(** Finding: the point in the middle is not rejected, and the results are not numbers. *)
Theorem C70_middle_refuted : exists (next : bool -> R * bool) t t1 t2, (forall g, 0 <= fst (next g) < 1) /\
  grand next 1 t = Some (None, t1) /\ grand next 1 t1 = Some (None, t2).
Proof.
  exists (fun g => (1 / 2, g)), (Rnd false false (Some 0)), (Rnd false true None), (Rnd false false None). split; [intros g; cbn; lra|]. split; [|reflexivity].
  unfold grand. cbn [r_set r_gen draw fst snd]. replace (2 * (1 / 2) - 1) with 0 by field. replace (0 * 0 + 0 * 0) with 0 by ring.
  destruct (Rlt_dec 0 1); [|lra]. destruct (Req_EM_T 0 0); [reflexivity|lra].
Qed.
Print Assumptions C70_middle_refuted.

(** A generator whose first point is rejected and whose second one is taken *)
Example C70_nonvacuous : let next := fun n : nat => (match n with 0%nat => 0 | 1%nat => 0 | 2%nat => 3 / 4 | _ => 1 / 2 end, S n) in
  (forall i, (i < 1)%nat -> 1 <= dist2 next 0%nat i) /\ 0 < dist2 next 0%nat 1 < 1 /\ (Z.abs (-7) + Z.of_nat 3 <= 2147483647)%Z /\ seed_of 3 (-7) = Ok 10%Z.
Proof.
  cbv zeta. split; [|split; [|split; [lia|reflexivity]]].
  - intros [|i] H; [|lia]. unfold dist2, px, py, value. cbn. lra.
  - unfold dist2, px, py, value. cbn. lra.
Qed.

(** Proofs about random numbers. *)
From Verif Require Import Prelude RgModel RgSpec.
From Coq Require Import Reals Lra.
Open Scope R_scope.

Lemma seed_val rank s a : seed_of rank s = Ok a -> a = (Z.abs s + Z.of_nat rank)%Z.
Proof.
  unfold seed_of. destruct (Z.ltb_spec s 0); [destruct (Z.eqb_spec s (-2147483648)); [discriminate|]|]; cbn [obind]; match goal with |- context [Z.leb ?p ?q] => destruct (Z.leb_spec p q) end; intros E; inversion E; lia.
Qed.
Lemma seed_ok rank s : (Z.abs s + Z.of_nat rank <= 2147483647)%Z -> seed_of rank s = Ok (Z.abs s + Z.of_nat rank)%Z.
Proof.
  intros H. unfold seed_of. destruct (Z.ltb_spec s 0); [destruct (Z.eqb_spec s (-2147483648)); [lia|]|]; cbn [obind]; match goal with |- context [Z.leb ?p ?q] => destruct (Z.leb_spec p q) end; try lia; f_equal; lia.
Qed.
Section P.
Context {G : Type} (sd : Z -> G) (next : G -> R * G).
Definition alike (a b : @rnd G) : Prop := r_gen a = r_gen b /\ r_set a = r_set b /\ (r_set a = true -> r_saved a = r_saved b).
Lemma run_alike fuel rank : forall us a b, alike a b -> run sd next fuel rank us a = run sd next fuel rank us b.
Proof.
  induction us as [|u r IH]; intros a b A; [reflexivity|]. destruct A as (A1 & A2 & A3). destruct u as [| |s]; cbn [run].
  - unfold drand. cbn [fst snd]. rewrite A1. rewrite (IH _ (Rnd (snd (next (r_gen b))) (r_set b) (r_saved b))); [reflexivity|]. split; [reflexivity|]. now split.
  - unfold grand. rewrite A1, A2. destruct (r_set b) eqn:SB.
    + cbn [fst snd]. rewrite A3 by congruence. reflexivity.
    + destruct (draw next fuel (r_gen b)) as [(((x, y), q), g)|]; [|reflexivity]. reflexivity.
  - unfold reseed. destruct (seed_of rank s); cbn [obind]; try reflexivity. apply IH. split; [reflexivity|]. now split.
Qed.
Lemma reseed_fresh fuel rank s us t : r_set t = false -> run sd next fuel rank (Seed s :: us) t = obind (new_random sd rank s) (run sd next fuel rank us).
Proof.
  intros F. cbn [run]. unfold reseed, new_random. destruct (seed_of rank s); cbn [obind]; try reflexivity. apply run_alike. split; [reflexivity|].
  split; [exact F|]. intros X. cbn in X. congruence.
Qed.
Lemma after_S : forall n g, after next (S n) g = snd (next (after next n g)).
Proof. induction n as [|n IH]; intros g; [reflexivity|]. cbn [after] in *. now rewrite IH. Qed.
Lemma after_add : forall a b g, after next (a + b) g = after next b (after next a g).
Proof. induction a as [|a IH]; intros b g; [reflexivity|]. cbn [after Nat.add]. apply IH. Qed.
Lemma px_S g k : px next g (S k) = px next (after next 2 g) k.
Proof. unfold px, value. rewrite <- after_add. do 5 f_equal. lia. Qed.
Lemma py_S g k : py next g (S k) = py next (after next 2 g) k.
Proof. unfold py, value. rewrite <- after_add. do 5 f_equal. lia. Qed.
Lemma draw_first : forall k fuel g, (k < fuel)%nat -> (forall i, (i < k)%nat -> 1 <= dist2 next g i) -> dist2 next g k < 1 ->
  draw next fuel g = Some (px next g k, py next g k, dist2 next g k, after next (2 * k + 2) g).
Proof.
  induction k as [|k IH]; intros fuel g F B C; (destruct fuel as [|fuel]; [lia|]); cbn [draw]; fold (dist2 next g 0).
  - change (2 * fst (next g) - 1) with (px next g 0). change (2 * fst (next (snd (next g))) - 1) with (py next g 0). fold (dist2 next g 0).
    destruct (Rlt_dec (dist2 next g 0) 1); [reflexivity|contradiction].
  - change (2 * fst (next g) - 1) with (px next g 0). change (2 * fst (next (snd (next g))) - 1) with (py next g 0). fold (dist2 next g 0).
    pose proof (B 0%nat ltac:(lia)). destruct (Rlt_dec (dist2 next g 0) 1); [lra|]. change (snd (next (snd (next g)))) with (after next 2 g).
    assert (DS : forall i, dist2 next g (S i) = dist2 next (after next 2 g) i) by (intros i; unfold dist2; now rewrite px_S, py_S).
    rewrite (IH fuel (after next 2 g)); [|lia|intros i Hi; rewrite <- DS; apply B; lia|now rewrite <- DS].
    rewrite <- px_S, <- py_S, <- DS. do 2 f_equal. rewrite <- after_add. f_equal. lia.
Qed.
Theorem grand_pair fuel k t : r_set t = false -> (k < fuel)%nat -> (forall i, (i < k)%nat -> 1 <= dist2 next (r_gen t) i) -> 0 < dist2 next (r_gen t) k < 1 ->
  exists a b t1 t2, grand next fuel t = Some (Some a, t1) /\ grand next fuel t1 = Some (Some b, t2) /\
    a * a + b * b = -2 * ln (dist2 next (r_gen t) k) /\ a * px next (r_gen t) k = b * py next (r_gen t) k /\
    0 <= a * py next (r_gen t) k /\ 0 <= b * px next (r_gen t) k /\ r_gen t2 = after next (2 * k + 2) (r_gen t) /\ r_set t2 = false.
Proof.
  intros S F B (P & C). set (g := r_gen t) in *. unfold grand. rewrite S. fold g. rewrite (draw_first F B C). destruct (Req_EM_T (dist2 next g k) 0); [lra|].
  set (r := dist2 next g k) in *. set (m := sqrt (-2 * ln r / r)). exists (py next g k * m), (px next g k * m). do 2 eexists. split; [reflexivity|]. cbn [r_set r_saved r_gen]. split; [reflexivity|].
  assert (LN : ln r < 0) by (rewrite <- ln_1; now apply ln_increasing).
  assert (NN : 0 <= -2 * ln r / r) by (unfold Rdiv; apply Rmult_le_pos; [lra|left; now apply Rinv_0_lt_compat]).
  assert (MM : m * m = -2 * ln r / r) by (apply sqrt_sqrt; exact NN). pose proof (sqrt_pos (-2 * ln r / r)) as MP. fold m in MP.
  split.
  { replace (py next g k * m * (py next g k * m) + px next g k * m * (px next g k * m)) with (r * (m * m)) by (unfold r, dist2; ring). rewrite MM. field. lra. }
  split; [ring|]. split; [|split; [|split; reflexivity]].
  - replace (py next g k * m * py next g k) with (m * (py next g k * py next g k)) by ring. apply Rmult_le_pos; [exact MP|apply Rle_0_sqr].
  - replace (px next g k * m * px next g k) with (m * (px next g k * px next g k)) by ring. apply Rmult_le_pos; [exact MP|apply Rle_0_sqr].
Qed.
Lemma uniform_draws fuel rank : forall n t, run sd next fuel rank (repeat Draw n) t = Ok (map (fun i => Some (value next i (r_gen t))) (seq 0 n)).
Proof.
  induction n as [|n IH]; intros t; [reflexivity|]. cbn [repeat run seq map]. rewrite IH. cbn [obind drand fst snd r_gen]. f_equal. f_equal.
  rewrite <- seq_shift, map_map. reflexivity.
Qed.
End P.

(** Proofs about the Newton-Raphson loop. *)
From Verif Require Import Prelude NRModel NRSpec.
From Coq Require Import Floats.SpecFloat.

Section P.
  Variables V M L W : Type.
  Variables (vzero_like vneg : V -> V) (vadd : V -> V -> V) (norm2 : V -> spec_float).
  Variable fn : W -> V -> V -> outcome (W * V).
  Variable jac : W -> V -> M -> outcome (W * M).
  Variable lnew : M -> outcome L.
  Variable lsolve : L -> M -> V -> V -> outcome (L * V).
  Notation body := (nr_body vzero_like vneg vadd norm2 fn jac lnew lsolve).
  Notation loop := (nr_loop vzero_like vneg vadd norm2 fn jac lnew lsolve).
  Notation corr := (correction vzero_like vneg fn jac lnew lsolve).
  Notation chn := (chain vzero_like vneg vadd fn jac lnew lsolve).
  Notation scn := (@scene_of V M L W).

  Lemma body_ok s s' st : body s = Ok (s', st) <->
    exists d, corr (scn s) (s_X s) (scn s') d /\ s_X s' = vadd (s_X s) d /\ st = norm2 d.
  Proof.
    unfold nr_body. split.
    - intros H. destruct (fn _ _ _) as [[w1 f]| |] eqn:E1; try discriminate. cbn [obind] in H.
      destruct (jac _ _ _) as [[w2 j]| |] eqn:E2; try discriminate. cbn [obind] in H.
      destruct (match s_ls s with Some l => Ok l | None => lnew j end) as [l| |] eqn:E3; try discriminate. cbn [obind] in H.
      destruct (lsolve _ _ _ _) as [[l' dx]| |] eqn:E4; try discriminate. cbn [obind] in H.
      inversion H; subst. exists dx. split; [|split; reflexivity].
      econstructor; [exact E1|exact E2| |exact E4|reflexivity].
      unfold scene_of. cbn. destruct (s_ls s); [left; congruence|right; auto].
    - intros (d & C & HX & ->). destruct C as [w1 f w2 j l l' E1 E2 E3 E4 E5].
      unfold scene_of in *. cbn in *. rewrite E1. cbn [obind]. rewrite E2. cbn [obind].
      replace (match s_ls s with Some l0 => Ok l0 | None => lnew j end) with (Ok l : outcome L)
        by (destruct E3 as [->|[-> ->]]; reflexivity).
      cbn [obind]. rewrite E4. cbn [obind]. destruct s'; cbn in *. inversion E5; subst. reflexivity.
  Qed.
  Lemma body_stuck s : (forall p, body s <> Ok p) -> stuck vzero_like vneg fn jac lnew lsolve (scn s) (s_X s).
  Proof.
    intros H b d C. destruct b as [w j f ls].
    apply (H (Solver w j f ls (vadd (s_X s) d), norm2 d)). apply body_ok. exists d. auto.
  Qed.

  (** What the loop does, for any amount of fuel. *)
  Lemma loop_ok tol maxit : forall fuel s stol iter s' n,
    loop fuel tol maxit s stol iter = Some (Ok (s', n)) ->
    exists ds, chn (scn s) (s_X s) ds (scn s') /\ s_X s' = fold_left vadd ds (s_X s) /\ n = (iter + Z.of_nat (length ds))%Z /\
      (ds = [] -> SFltb tol stol = false \/ (maxit <= iter)%Z) /\
      (ds <> [] -> SFltb tol stol = true /\ (n <= maxit)%Z /\
         (forall p d q, ds = (p ++ d :: q)%list -> q <> [] -> SFltb tol (norm2 d) = true) /\
         (forall p d, ds = (p ++ [d])%list -> SFltb tol (norm2 d) = false \/ n = maxit)).
  Proof.
    induction fuel as [|k IH]; intros s stol iter s' n H; [discriminate|]. cbn [nr_loop] in H.
    destruct (SFltb tol stol) eqn:ES; cbn [andb] in H.
    2:{ inversion H; subst. exists []. split; [constructor|]. cbn. repeat split; auto; try lia; congruence. }
    destruct (Z.ltb_spec iter maxit).
    2:{ inversion H; subst. exists []. split; [constructor|]. cbn. repeat split; auto; try lia; congruence. }
    destruct (body s) as [[s1 st]| |] eqn:EB; try discriminate.
    apply body_ok in EB. destruct EB as (d & C & HX & ->).
    apply IH in H. destruct H as (ds & CH & HX' & Hn & HN & H1).
    exists (d :: ds). split; [econstructor; [exact C|]; rewrite <- HX; exact CH|].
    split; [cbn [fold_left]; rewrite <- HX; exact HX'|]. split; [cbn [length]; lia|]. split; [discriminate|]. intros _.
    split; [reflexivity|]. destruct ds as [|d2 ds].
    - cbn [length] in Hn. split; [lia|]. split.
      + intros p e q E NQ. destruct p as [|? [|]]; inversion E; subst; congruence.
      + intros p e E. destruct p as [|? [|]]; inversion E; subst. destruct (HN eq_refl) as [->|]; [auto|right; lia].
    - destruct H1 as (A & B & C1 & D1); [discriminate|]. split; [exact B|]. split.
      + intros p e q E NQ. destruct p as [|p0 p]; inversion E; subst; [exact A|]. now apply (C1 p e q).
      + intros p e E. destruct p as [|p0 p]; inversion E; subst. now apply (D1 p e).
  Qed.
  Lemma loop_fuel tol maxit : forall fuel s stol iter, (maxit - iter < Z.of_nat fuel)%Z -> 0 < fuel ->
    exists r, loop fuel tol maxit s stol iter = Some r /\ r <> UB \/ exists r', loop fuel tol maxit s stol iter = Some r'.
  Proof.
    induction fuel as [|k IH]; intros s stol iter H Hk; [lia|]. exists Throw. right. cbn [nr_loop].
    destruct (SFltb tol stol && (iter <? maxit)%Z) eqn:E; [|eauto].
    apply andb_true_iff in E. destruct E as [_ E]. apply Z.ltb_lt in E.
    destruct (body s) as [[s1 st]| |]; [|eauto|eauto].
    destruct (IH s1 st (iter + 1)%Z) as (r & [[G _]|G]); [lia|lia|eauto|exact G].
  Qed.
  Lemma loop_ends tol maxit fuel s stol iter : (maxit - iter < Z.of_nat fuel)%Z -> 0 < fuel ->
    exists r, loop fuel tol maxit s stol iter = Some r.
  Proof. intros A B. destruct (@loop_fuel tol maxit fuel s stol iter A B) as (r & [[G _]|G]); eauto. Qed.
  Lemma loop_more tol maxit : forall fuel s stol iter r, loop fuel tol maxit s stol iter = Some r ->
    forall f2, fuel <= f2 -> loop f2 tol maxit s stol iter = Some r.
  Proof.
    induction fuel as [|k IH]; intros s stol iter r H f2 Hf; [discriminate|]. destruct f2 as [|f2]; [lia|]. cbn [nr_loop] in *.
    destruct (SFltb tol stol && (iter <? maxit)%Z); [|exact H]. destruct (body s) as [[s1 st]| |]; auto. apply IH; [exact H|lia].
  Qed.
  Lemma loop_throw tol maxit : forall fuel s stol iter r, loop fuel tol maxit s stol iter = Some r -> (forall p, r <> Ok p) ->
    exists ds b, chn (scn s) (s_X s) ds b /\ stuck vzero_like vneg fn jac lnew lsolve b (fold_left vadd ds (s_X s)) /\
      (iter + Z.of_nat (length ds) < maxit)%Z /\ (forall d, In d ds -> SFltb tol (norm2 d) = true).
  Proof.
    induction fuel as [|k IH]; intros s stol iter r H N; [discriminate|]. cbn [nr_loop] in H.
    destruct (SFltb tol stol && (iter <? maxit)%Z) eqn:E; [|inversion H; subst; now elim (N (s, iter))].
    apply andb_true_iff in E. destruct E as [E1 E]. apply Z.ltb_lt in E.
    destruct (body s) as [[s1 st]| |] eqn:EB.
    - assert (G : SFltb tol st = true).
      { destruct k; [discriminate|]. cbn [nr_loop] in H. destruct (SFltb tol st); [reflexivity|]. cbn in H.
        inversion H; subst. now elim (N (s1, (iter + 1)%Z)). }
      apply body_ok in EB. destruct EB as (d & C & HX & ->). destruct (IH _ _ _ _ H N) as (ds & b & CH & ST & LT & ALL).
      exists (d :: ds), b. split; [econstructor; [exact C|rewrite <- HX; exact CH]|].
      split; [cbn [fold_left]; rewrite <- HX; exact ST|]. split; [cbn [length]; lia|].
      intros e [<-|I]; auto.
    - exists [], (scn s). split; [constructor|]. split; [cbn; apply body_stuck; rewrite EB; discriminate|]. cbn. split; [lia|contradiction].
    - exists [], (scn s). split; [constructor|]. split; [cbn; apply body_stuck; rewrite EB; discriminate|]. cbn. split; [lia|contradiction].
  Qed.
End P.

Lemma sfcompare_antisym a b : SFcompare b a = option_map CompOpp (SFcompare a b).
Proof.
  destruct a as [sa|[|]| |[|] ma ea], b as [sb|[|]| |[|] mb eb]; try reflexivity; cbn -[Pos.compare_cont Z.compare];
  try (destruct sa); try (destruct sb); try reflexivity;
  rewrite (Z.compare_antisym ea eb); destruct (ea ?= eb)%Z; cbn -[Pos.compare_cont]; try reflexivity;
  change (Pos.compare_cont Eq mb ma) with (mb ?= ma)%positive; rewrite (Pos.compare_antisym ma mb);
  change (Pos.compare_cont Eq ma mb) with (ma ?= mb)%positive; destruct (ma ?= mb)%positive; reflexivity.
Qed.
Lemma not_greater_le a b : a <> S754_nan -> b <> S754_nan -> SFltb b a = false -> SFleb a b = true.
Proof.
  unfold SFltb, SFleb. intros Ha Hb. rewrite (sfcompare_antisym a b).
  destruct (SFcompare a b) as [[| |]|] eqn:E; cbn; try congruence.
  destruct a as [sa|[|]| |[|] ma ea], b as [sb|[|]| |[|] mb eb]; try congruence; cbn in E; try discriminate;
  try (destruct sa); try (destruct sb); try discriminate; destruct (ea ?= eb)%Z; discriminate.
Qed.

(** For a problem whose linearisation is exact one answered system is enough. *)
Lemma affine_root (V M L W : Type) (vzero_like vneg : V -> V) (vadd : V -> V -> V)
  (fn : W -> V -> V -> outcome (W * V)) (jac : W -> V -> M -> outcome (W * M)) (lnew : M -> outcome L)
  (lsolve : L -> M -> V -> V -> outcome (L * V)) (f : V -> V) (mul : M -> V -> V) (zero : V) :
  (forall y, vadd y (vneg y) = zero) ->
  (forall w x y w' r, fn w x y = Ok (w', r) -> r = f x) ->
  (forall w x j w' r, jac w x j = Ok (w', r) -> forall d, f (vadd x d) = vadd (f x) (mul r d)) ->
  (forall l j b x0 l' d, lsolve l j b x0 = Ok (l', d) -> mul j d = b) ->
  forall ds a x b, chain vzero_like vneg vadd fn jac lnew lsolve a x ds b -> ds <> [] -> f (fold_left vadd ds x) = zero.
Proof.
  intros HV HF HJ HL. induction ds as [|d ds IH]; intros a x b H N; [congruence|].
  inversion H as [|? ? ? b1 ? ? HC HR]; subst. cbn [fold_left]. destruct ds as [|d2 ds].
  - cbn. destruct HC as [w1 fv w2 j l l' E1 E2 E3 E4 _]. rewrite (HJ _ _ _ _ _ E2), (HL _ _ _ _ _ _ E4), (HF _ _ _ _ _ E1). apply HV.
  - eapply IH; [exact HR|discriminate].
Qed.

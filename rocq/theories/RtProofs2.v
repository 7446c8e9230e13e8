(** Proofs about the search for the rating. *)
From Verif Require Import Prelude RtModel RtSpec.

Section S.
  Variables adj sec : Z -> bool.
  Local Open Scope Z_scope.

  Local Notation good := (RtSpec.good adj sec).

  Lemma up_eq f step r : up adj sec (S f) step r = if good (r + step) then up adj sec f step (r + step) else Some r.
  Proof. cbn [up]. unfold RtSpec.good. destruct (adj (r + step)); cbn [andb]; [destruct (sec (r + step)); [reflexivity|]|]; f_equal; lia. Qed.
  Lemma up_ok f step : 0 < step -> forall r r', up adj sec f step r = Some r' ->
    exists k : nat, r' = r + step * Z.of_nat k /\ (forall i : nat, (1 <= i <= k)%nat -> good (r + step * Z.of_nat i) = true) /\ good (r' + step) = false.
  Proof.
    intros Hs. induction f as [|f IH]; intros r r' E; [discriminate|]. rewrite up_eq in E. destruct (good (r + step)) eqn:G.
    - apply IH in E as (k & E & H & L). exists (S k). split; [lia|]. split; [|exact L]. intros i Hi. destruct (Nat.eq_dec i 1) as [-> |D]; [rewrite <- G; f_equal; lia|].
      rewrite <- (H (i - 1)%nat) by lia. f_equal. lia.
    - injection E as <-. exists 0%nat. split; [lia|]. split; [intros i Hi; lia|exact G].
  Qed.
  (** With finite capacity the loop ends *)
  Lemma up_ends step M : 0 < step -> (forall r, M <= r -> adj r = false) -> forall (n : nat) r, M - r <= Z.of_nat n -> up adj sec (S n) step r <> None.
  Proof.
    intros Hs HM. induction n as [|n IH]; intros r Hr; rewrite up_eq; unfold RtSpec.good.
    - rewrite HM by lia. cbn [andb]. discriminate.
    - destruct (adj (r + step) && sec (r + step)); [apply IH; lia|discriminate].
  Qed.
  (** Without, it does not *)
  Lemma up_never f step : 0 < step -> forall r, (forall x, r < x -> good x = true) -> up adj sec f step r = None.
  Proof.
    intros Hs. induction f as [|f IH]; intros r H; [reflexivity|]. rewrite up_eq, H by lia. apply IH. intros; apply H; lia.
  Qed.

  Lemma dc_eq f r : down_coarse adj sec (S f) r = if 0 <=? r then if adj (r - 5) then if sec (r - 5) then Some r else down_coarse adj sec f (r - 5) else Some r else Some r.
  Proof. cbn [down_coarse]. destruct (0 <=? r); [|reflexivity]. replace (r - 5 + 5) with r by lia. reflexivity. Qed.
  Lemma dn_eq f step r : down adj sec (S f) step r =
    if 0 <=? r then if adj (r - step) then if sec (r - step) then Some (r - step) else down adj sec f step (r - step) else Some r else Some r.
  Proof. cbn [down]. destruct (0 <=? r); [|reflexivity]. replace (r - step + step) with r by lia. reflexivity. Qed.

  Local Notation threshold := (RtSpec.threshold sec).
  Lemma dc_thr t f : threshold t -> 0 <= t -> (forall r, 0 <= r <= 100 -> adj r = true) -> forall r r', t < r <= 100 -> r mod 5 = 0 -> down_coarse adj sec f r = Some r' ->
    t < r' <= 100 /\ r' - 5 <= t.
  Proof.
    intros Ht H0 HA. induction f as [|f IH]; intros r r' Hr Hm E; [discriminate|]. rewrite dc_eq in E. destruct (Z.leb_spec 0 r); [|lia].
    assert (5 <= r). { destruct (Z_le_dec 5 r); [assumption|]. assert (r mod 5 = r) by (apply Z.mod_small; lia). lia. }
    rewrite HA in E by lia. rewrite Ht in E by lia. destruct (Z.leb_spec (r - 5) t).
    - injection E as <-. lia.
    - apply IH in E; [exact E|lia|]. replace (r - 5) with (r + (-1) * 5) by lia. rewrite Z_mod_plus_full. exact Hm.
  Qed.
  Lemma dn_thr t f : threshold t -> 0 <= t -> (forall r, 0 <= r <= 100 -> adj r = true) -> forall r r', t < r <= 100 -> down adj sec f 1 r = Some r' -> r' = t.
  Proof.
    intros Ht H0 HA. induction f as [|f IH]; intros r r' Hr E; [discriminate|]. rewrite dn_eq in E. destruct (Z.leb_spec 0 r); [|lia].
    rewrite HA in E by lia. rewrite Ht in E by lia. destruct (Z.leb_spec (r - 1) t).
    - injection E as <-. lia.
    - apply IH in E; [exact E|lia].
  Qed.
  Lemma dn_ends step : 0 < step -> forall (n : nat) r, r < Z.of_nat n -> down adj sec (S n) step r <> None.
  Proof.
    intros Hs. induction n as [|n IH]; intros r Hr; rewrite dn_eq.
    - destruct (Z.leb_spec 0 r); [lia|discriminate].
    - destruct (0 <=? r); [|discriminate]. destruct (adj (r - step)); [|discriminate]. destruct (sec (r - step)); [discriminate|]. apply IH. lia.
  Qed.
  Lemma dc_ends : forall (n : nat) r, r < Z.of_nat n -> down_coarse adj sec (S n) r <> None.
  Proof.
    induction n as [|n IH]; intros r Hr; rewrite dc_eq.
    - destruct (Z.leb_spec 0 r); [lia|discriminate].
    - destruct (0 <=? r); [|discriminate]. destruct (adj (r - 5)); [|discriminate]. destruct (sec (r - 5)); [discriminate|]. apply IH. lia.
  Qed.
  Lemma dc_le f : forall r r', down_coarse adj sec f r = Some r' -> r' <= r.
  Proof. induction f as [|f IH]; intros r r' E; [discriminate|]. rewrite dc_eq in E. destruct (0 <=? r), (adj (r - 5)), (sec (r - 5)); try (injection E as <-; lia). apply IH in E. lia. Qed.
  (** What the downward search may return *)
  Lemma dn_res f step : 0 < step -> forall r r', down adj sec f step r = Some r' ->
    r' <= r /\ (r' < 0 \/ adj (r' - step) = false \/ (r' < r /\ good r' = true)).
  Proof.
    intros Hs. induction f as [|f IH]; intros r r' E; [discriminate|]. rewrite dn_eq in E. destruct (Z.leb_spec 0 r); [|injection E as <-; split; [lia|left; lia]].
    destruct (adj (r - step)) eqn:A; [|injection E as <-; split; [lia|auto]].
    destruct (sec (r - step)) eqn:Sx.
    - injection E as <-. split; [lia|]. right. right. split; [lia|]. unfold RtSpec.good. now rewrite A, Sx.
    - apply IH in E as [H1 H2]. split; [lia|]. destruct H2 as [H2|[H2|[H2 H3]]]; auto. right. right. split; [lia|exact H3].
  Qed.
End S.

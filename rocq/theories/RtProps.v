(** C67: real time path rating. *)
From Verif Require Import Prelude RtModel RtSpec RtProofs RtProofs2.
From Coq Require Import Reals Lra.

(** C67: scaling to a rating keeps the power balance.  Generation in the source changes as much as demand in the destination; if the
    driver says that the capacity suffices, the demand is exactly [rating] times as large, and it says so exactly if it does.
    Only loads and generators that are on in the two zones change, all loads by the same factor, and no generator leaves its limits. *)
Theorem C67_balance : forall rating sa sz da dz bs ok bs', Forall fresh_bus bs -> (0 <= demand da dz bs)%R -> (forall g, In g (gens_in sa sz bs) -> within g) ->
  adjust rating sa sz da dz [bs] bs = (ok, bs') ->
  (generation sa sz bs' - generation sa sz bs = demand da dz bs' - demand da dz bs)%R /\
  (ok = true -> demand da dz bs' = (rating * demand da dz bs)%R) /\
  (ok = true <-> ((1 < rating -> (rating - 1) * demand da dz bs <= highest sa sz bs - generation sa sz bs) /\
                  (rating <= 1 -> (1 - rating) * demand da dz bs <= generation sa sz bs - lowest sa sz bs)))%R /\
  exists f, (ok = true -> f = rating) /\ Forall2 (bus_kept sa sz da dz f) bs bs'.
Proof. intros. eapply adjust_ok; eassumption. Qed.
Print Assumptions C67_balance.

(** The zones are those of the input: a zone below one stands for the whole area. *)
Theorem C67_zones : forall area zone b, chosen area zone b = true <-> belongs area zone b.
Proof. intros. apply chosen_iff. Qed.
Print Assumptions C67_zones.

(** Resetting undoes the scaling, whatever the rating. *)
Theorem C67_reset : forall rating sa sz da dz procs bs, Forall fresh_bus bs -> reset_power (snd (adjust rating sa sz da dz procs bs)) = bs.
Proof. intros. now apply adjust_reset. Qed.
Print Assumptions C67_reset.

(** With load in the destination the capacity is finite. *)
Theorem C67_capacity_finite : forall L G lo hi, (0 < L)%R ->
  exists M, forall r, (M <= r)%Z -> fst (fst (factors (IZR r / 100) L G lo hi)) = false.
Proof.
  intros L G lo hi HL. set (x := (100 * (1 + Rabs (hi - G) / L))%R). exists (Rdefinitions.up x). intros r Hr.
  destruct (archimed x) as [Hx _]. apply IZR_le in Hr. assert (Hr2 : (x < IZR r)%R) by lra. unfold x in Hr2.
  assert (A0 : (0 <= Rabs (hi - G) / L)%R) by (apply Rmult_le_pos; [apply Rabs_pos|left; now apply Rinv_0_lt_compat]).
  assert (A1 : (Rabs (hi - G) / L * L = Rabs (hi - G))%R) by (field; lra). pose proof (Rle_abs (hi - G)) as A2.
  assert (B1 : (Rabs (hi - G) / L < IZR r / 100 - 1)%R) by lra.
  apply (Rmult_lt_compat_r L) in B1; [|exact HL]. rewrite A1 in B1.
  unfold factors. destruct (Rlt_dec 1 (IZR r / 100)); [|lra]. destruct (Rle_dec ((IZR r / 100 - 1) * L) (hi - G)); [lra|reflexivity].
Qed.
Print Assumptions C67_capacity_finite.

(** The search ends if the capacity is finite. *)
Theorem C67_search_ends : forall adj sec M, (forall r, (M <= r)%Z -> adj r = false) -> exists fuel, pf_rating adj sec fuel <> None.
Proof.
  intros adj sec M HM. unfold pf_rating. destruct (sec 100%Z) eqn:S0.
  - set (n := Z.to_nat (M - 100)). exists (S n). destruct (RtModel.up adj sec (S n) 5 100) as [r|] eqn:E.
    + apply up_ok in E as (k & E & _); [|lia]. apply (@up_ends adj sec 1 M ltac:(lia) HM). lia.
    + exfalso. revert E. apply (@up_ends adj sec 5 M ltac:(lia) HM). lia.
  - exists 102. destruct (down_coarse adj sec 102 100) as [r|] eqn:E.
    + apply dc_le in E. apply (@dn_ends adj sec 1 ltac:(lia)). lia.
    + exfalso. revert E. apply dc_ends. lia.
Qed.
Print Assumptions C67_search_ends.

(** If the tie lines are secure to begin with, the rating found is reachable and the next higher one is not; if whatever is reachable
    is so from below, it is the highest reachable one. *)
Theorem C67_search_up : forall adj sec fuel r, sec 100%Z = true -> pf_rating adj sec fuel = Some r ->
  (100 <= r)%Z /\ (r = 100%Z \/ good adj sec r = true) /\ good adj sec (r + 1) = false /\
  ((forall x y, (100 < x <= y)%Z -> good adj sec y = true -> good adj sec x = true) -> forall x, (100 < x)%Z -> good adj sec x = true -> (x <= r)%Z).
Proof.
  intros adj sec fuel r S0 E. unfold pf_rating in E. rewrite S0 in E. destruct (RtModel.up adj sec fuel 5 100) as [c|] eqn:E1; [|discriminate].
  apply up_ok in E1 as (k & Ec & Hc & _); [|lia]. apply up_ok in E as (m & Er & Hm & Hn); [|lia].
  split; [lia|]. split; [|split; [exact Hn|]].
  - destruct m as [|m].
    + destruct k as [|k]; [left; lia|]. right. rewrite Er, Ec. rewrite <- (Hc (S k)) by lia. rewrite ?Ec; f_equal; lia.
    + right. rewrite Er. rewrite <- (Hm (S m)) by lia. f_equal; lia.
  - intros Mono x Hx Gx. destruct (Z_le_dec x r); [assumption|]. rewrite (Mono (r + 1)%Z x) in Hn; [discriminate|lia|exact Gx].
Qed.
Print Assumptions C67_search_up.

(** If they are not, all ratings from zero up to some [t] are secure and the capacity suffices, then [t] is found. *)
Theorem C67_search_down : forall adj sec t fuel r, threshold sec t -> (0 <= t < 100)%Z -> (forall x, (0 <= x <= 100)%Z -> adj x = true) ->
  pf_rating adj sec fuel = Some r -> r = t.
Proof.
  intros adj sec t fuel r Ht H0 HA E. unfold pf_rating in E. rewrite (Ht 100%Z ltac:(lia)) in E. destruct (Z.leb_spec 100 t); [lia|].
  destruct (down_coarse adj sec fuel 100) as [c|] eqn:E1; [|discriminate].
  eapply dc_thr in E1; [|exact Ht|lia|exact HA|lia|reflexivity]. eapply dn_thr in E; [exact E|exact Ht|lia|exact HA|lia].
Qed.
Print Assumptions C67_search_down.

(** The dynamic simulation never raises the rating; what it ends with is stable unless the capacity or zero was reached. *)
Theorem C67_dynamic : forall adj sec fuel r r', ds_rating adj sec fuel r = Some r' ->
  (r' <= r)%Z /\ ((r' < 0)%Z \/ adj (r' - 1)%Z = false \/ good adj sec r' = true).
Proof.
  intros adj sec fuel r r' E. unfold ds_rating in E. destruct (sec r) eqn:S0.
  - apply dn_res in E as [H1 H2]; [|lia]. split; [exact H1|]. tauto.
  - destruct (down adj sec fuel 5 r) as [c|] eqn:E1; [|discriminate]. apply dn_res in E1 as [H1 _]; [|lia]. apply dn_res in E as [H2 H3]; [|lia]. split; [lia|]. tauto.
Qed.
Print Assumptions C67_dynamic.

(** The dynamic simulation lowers every rating, also one that is stable (rtpr_driver.cpp:1139: the refinement starts with the flag set
    to false in any case). *)
Theorem C67_stable_rating_lowered_refuted : forall adj sec fuel r, (0 <= r)%Z -> sec r = true -> adj (r - 1)%Z = true -> sec (r - 1)%Z = true ->
  ds_rating adj sec (S fuel) r = Some (r - 1)%Z.
Proof. intros adj sec fuel r H S0 A1 S1. unfold ds_rating. rewrite S0, dn_eq, A1, S1. destruct (Z.leb_spec 0 r); [reflexivity|lia]. Qed.

(** It does not find the highest stable rating: the refinement goes down from a rating that is already stable.  Stable up to 0.97, it
    reports 0.94. *)
Theorem C67_stable_rating_missed_refuted : threshold (fun r => r <=? 97)%Z 97 /\ ds_rating (fun _ => true) (fun r => r <=? 97)%Z 200 100 = Some 94%Z.
Proof. split; [intros r _; reflexivity|vm_compute; reflexivity]. Qed.

(** If no rating is secure, a negative one is reported, after trying negative loads. *)
Theorem C67_negative_rating_refuted : pf_rating (fun _ => true) (fun _ => false) 200 = Some (-5)%Z.
Proof. vm_compute. reflexivity. Qed.

(** If the generators cannot be lowered far enough, the rating that is reported is not secure. *)
Theorem C67_insecure_rating_refuted : let adj r := (50 <=? r)%Z in let sec r := (r <=? 40)%Z in
  pf_rating adj sec 200 = Some 50%Z /\ sec 50%Z = false.
Proof. split; vm_compute; reflexivity. Qed.

(** Without load in the destination the search does not end: the capacity always suffices. *)
Theorem C67_no_load_never_ends_refuted : forall G lo hi sec, (G <= hi)%R -> (forall r, (100 <= r)%Z -> sec r = true) ->
  forall fuel, pf_rating (fun r => fst (fst (factors (IZR r / 100) 0 G lo hi))) sec fuel = None.
Proof.
  intros G lo hi sec HG Hs fuel. unfold pf_rating. rewrite Hs by lia. rewrite up_never; [reflexivity|lia|]. intros x Hx. unfold good. rewrite Hs by lia. rewrite andb_true_r.
  apply IZR_lt in Hx. unfold factors. destruct (Rlt_dec 1 (IZR x / 100)); [|lra]. destruct (Rle_dec ((IZR x / 100 - 1) * 0) (hi - G)) as [|H]; [reflexivity|]. exfalso. apply H. lra.
Qed.

(** On several processes a load is counted again wherever its bus is a ghost (pf_factory_module.cpp:773-793 does not ask whether the bus
    is active). *)
Theorem C67_ghost_loads_counted_refuted : forall b, chosen 1 0 b = true ->
  total_load 1 0 [[b]; [b]] = (2 * total_load 1 0 [[b]])%R.
Proof. intros b H. unfold total_load, local_load. cbn [map]. rewrite H, !sumR_cons. cbn. lra. Qed.

(** And the margins of the generators are not summed over the processes: the processes of a group disagree whether the capacity suffices
    and scale by different factors. *)
Definition plant : rbus := RBus 1 1 [Gen "1" 1 50 50 0 100] [].
Definition town : rbus := RBus 2 1 [] [Load "1" 1 100 20 100 20].
Theorem C67_processes_disagree_refuted :
  fst (adjust (105 / 100) 1 0 2 0 [[plant]; [town]] [plant]) = true /\ fst (adjust (105 / 100) 1 0 2 0 [[plant]; [town]] [town]) = false.
Proof.
  unfold adjust. cbn [fst]. unfold total_load, local_load, margin, chosen. cbn [map plant town rb_area rb_zone rb_gens rb_loads Z.eqb Z.ltb Pos.eqb Z.compare andb g_on l_on l_savep g_save g_min g_max sumR fold_right].
  unfold factors. split.
  - destruct (Rlt_dec 1 (105 / 100)); [|lra]. match goal with |- context [Rle_dec ?a ?b] => destruct (Rle_dec a b) as [|H] end; [reflexivity|]. exfalso. apply H. lra.
  - destruct (Rlt_dec 1 (105 / 100)); [|lra]. match goal with |- context [Rle_dec ?a ?b] => destruct (Rle_dec a b) as [H|H] end; [exfalso; lra|reflexivity].
Qed.

(** A branch is a tie line if one end is in the source and the other in the destination, in either direction, provided that zones are
    given for both or for neither. *)
Theorem C67_tie_lines : forall a1 z1 a2 z2 i1 k1 i2 k2, (0 < z1 /\ 0 < z2 \/ z1 <= 0 /\ z1 = z2)%Z ->
  is_tie a1 z1 a2 z2 i1 k1 i2 k2 = true <-> (at_end a1 z1 i1 k1 /\ at_end a2 z2 i2 k2) \/ (at_end a1 z1 i2 k2 /\ at_end a2 z2 i1 k1).
Proof.
  intros a1 z1 a2 z2 i1 k1 i2 k2 H. unfold is_tie, at_end, zone_of.
  destruct (Z.ltb_spec 0 z1); destruct (Z.ltb_spec 0 z2); try lia;
    match goal with |- (if ?c then _ else _) = _ <-> _ => destruct c eqn:E end;
    rewrite ?andb_true_iff, ?Z.eqb_eq in E; rewrite ?andb_true_iff, ?Z.eqb_eq;
    (split; [intros X; try tauto|intros X; try reflexivity]).
  all: try (left; intuition lia). all: try (right; intuition lia).
  all: assert (N : ~ (((i1 = a1 /\ (0 < z1 -> k1 = z1)%Z) /\ i2 = a2 /\ (0 < z2 -> k2 = z2)%Z))) by
    (intros ((Y1 & Y2) & Y3 & Y4); apply Bool.not_true_iff_false in E; apply E; rewrite !andb_true_iff, !Z.eqb_eq; intuition lia).
  all: destruct X as [X|X]; [contradiction|]; intuition lia.
Qed.
Print Assumptions C67_tie_lines.

(** With a zone for the source only, a branch written from the destination to the source is missed (rtpr_driver.cpp:457-467: the test
    whether a zone was given looks at the other zone). *)
Theorem C67_tie_line_missed_refuted : at_end 1 7 1 7 /\ at_end 2 0 2 3 /\ is_tie 1 7 2 0 1 7 2 3 = true /\ is_tie 1 7 2 0 2 3 1 7 = false.
Proof. repeat split; try reflexivity. intros H. lia. Qed.

(** Not vacuous *)
Example C67_balance_nonvacuous : Forall fresh_bus [plant; town] /\ (0 <= demand 2 0 [plant; town])%R /\ (forall g, In g (gens_in 1 0 [plant; town]) -> within g) /\
  fst (adjust (105 / 100) 1 0 2 0 [[plant; town]] [plant; town]) = true.
Proof.
  split; [|split; [|split]].
  - assert (N1 : NoDup ["1"%string]) by (apply NoDup_cons; [intros []|apply NoDup_nil]).
    apply Forall_cons; [|apply Forall_cons; [|apply Forall_nil]]; apply Build_fresh_bus; cbn; try exact N1; try apply NoDup_nil; try (intros x []; fail); intros x [<-|[]]; cbn; auto.
  - cbn. lra.
  - intros g [<-|[]]. unfold within. cbn. lra.
  - unfold adjust. cbn [fst]. unfold total_load, local_load, margin, chosen. cbn [map plant town rb_area rb_zone rb_gens rb_loads Z.eqb Z.ltb Pos.eqb Z.compare andb g_on l_on l_savep g_save g_min g_max sumR fold_right].
    unfold factors. destruct (Rlt_dec 1 (105 / 100)); [|lra]. match goal with |- context [Rle_dec ?a ?b] => destruct (Rle_dec a b) as [|H] end; [reflexivity|]. exfalso. apply H. lra.
Qed.
Example C67_search_nonvacuous : pf_rating (fun r => r <=? 150)%Z (fun r => r <=? 123)%Z 100 = Some 123%Z /\ pf_rating (fun r => r <=? 117)%Z (fun r => r <=? 123)%Z 100 = Some 117%Z /\
  pf_rating (fun _ => true) (fun r => r <=? 62)%Z 100 = Some 62%Z /\ threshold (fun r => r <=? 62)%Z 62.
Proof. repeat split; intros; vm_compute; reflexivity. Qed.

(** Proofs for the reading of dynamic model records: relays that arrive in getDSExternal. *)
From Verif Require Import Prelude DCModel DCSpec DCProofs StrModel DrModel DrTables DrModel2 DrSpec DrProofs DrProofs2 DrProofs3 DrProofs4 DrProofs5 DrProofs6 DrProofs7.
From Coq Require Import Ascii.
Open Scope string_scope.

Definition relay_pos (m : string) : nat := if String.eqb m "FRQTPAT" then 3 else 0.
Lemma relay_store_ok : forallb (fun p => match assoc relay_class (fst p) with
  | Some c => only_src (c_store c) "bus_id" (I (relay_pos (fst p))) && only_src (c_store c) "model" (Up 1) && sets_always (c_store c) "model"
  | None => false end) Layout.relay_models = true.
Proof. vm_cast_no_check (eq_refl true). Qed.
Lemma relay_store m l c : In (m, l) Layout.relay_models -> assoc relay_class m = Some c ->
  only_src (c_store c) "bus_id" (I (relay_pos m)) = true /\ only_src (c_store c) "model" (Up 1) = true /\ sets_always (c_store c) "model" = true.
Proof.
  intros L A. pose proof relay_store_ok as X. rewrite forallb_forall in X. specialize (X _ L). cbn [fst snd] in X. rewrite A in X. rewrite !andb_true_iff in X. tauto.
Qed.

Section Ext.
Variable atof : str -> Z.
Variable trunc : Z -> outcome Z.
Definition relay_struct (r : str) (s : struct) : Prop :=
  exists toks m c l b s0, tokens r = Ok toks /\ relay_record toks m l b /\ assoc relay_class m = Some c /\
    store atof trunc 7 (c_store c) toks s0 = Ok s /\ fget s "bus_id" = Some (VInt b) /\ fget s "model" = Some (VString m).
Lemma vec_relays v r v' : vec_record atof trunc v r = Ok v' ->
  (v_relays v' = v_relays v /\ (forall toks m l b, tokens r = Ok toks -> ~ relay_record toks m l b)) \/ exists s, v_relays v' = (v_relays v ++ [s])%list /\ relay_struct r s.
Proof.
  unfold vec_record. intros H. destruct (tokens r) as [toks| |] eqn:T; cbn [obind] in H; try discriminate.
  destruct (model_of toks) as [m| |] eqn:M; cbn [obind] in H; try discriminate.
  assert (NR : on_bus m = false -> forall toks' m' l b, Ok toks = Ok toks' -> ~ relay_record toks' m' l b).
  { intros O toks' m' l b E (L & N & _). inversion E; subst toks'. apply model_of_name in N. assert (m' = m) by congruence. subst m'. destruct L as [L|[L|[]]]; inversion L; subst; discriminate O. }
  destruct (on_generator m) eqn:O1.
  { left. split; [|apply NR; clear -O1; destruct (on_bus m) eqn:Q; auto; unfold on_bus in Q; apply mem_In in Q; destruct Q as [<-|[<-|[]]]; discriminate O1].
    destruct (bus_of 0 toks); cbn [obind] in H; try discriminate. destruct (tag_of toks); cbn [obind] in H; try discriminate. destruct (put_field _ _ _ _); cbn [obind] in H; try discriminate.
    destruct (match assoc gen_class m with Some _ => _ | None => _ end); cbn [obind] in H; try discriminate. inversion H; auto. }
  destruct (on_bus m) eqn:O2.
  { right. destruct (bus_of (if String.eqb m "LVSHBL" then 0 else 3) toks) as [b| |] eqn:B; cbn [obind] in H; try discriminate.
    unfold on_bus in O2. apply mem_In in O2.
    assert (X : exists l c, In (m, l) Layout.relay_models /\ assoc relay_class m = Some c /\ (if String.eqb m "LVSHBL" then 0 else 3) = relay_pos m).
    { destruct O2 as [<-|[<-|[]]]; [exists Layout.lvshbl | exists Layout.frqtpat]; eexists; (split; [unfold Layout.relay_models; cbn [In]; auto|]); split; reflexivity. }
    destruct X as (l & c & L & A & Ps). rewrite Ps in B. rewrite A in H. destruct (store _ _ _ _ _ _) as [s| |] eqn:St; cbn [obind] in H; try discriminate. inversion H; subst v'. exists s. split; auto.
    destruct (@relay_store _ _ _ L A) as (X1 & X2 & X3). exists toks, m, c, l, b, [("bus_id", VInt b)]. split; auto. split; [split; auto; split; [now apply model_of_name | now apply bus_of_number]|]. split; auto. split; auto. split.
    + eapply (@store_keeps atof trunc 7 toks "bus_id" _ _ _ X1); eauto using bus_eval.
    + destruct (@store_sets atof trunc 7 toks "model" _ _ X2 X3 _ _ St) as (w & W & G). rewrite G. rewrite (@model_eval atof trunc _ _ M) in W. congruence. }
  left. split; [|now apply NR].
  destruct (on_load m).
  { destruct (bus_of 0 toks); cbn [obind] in H; try discriminate. destruct (tag_of toks); cbn [obind] in H; try discriminate. destruct (put_field _ _ _ _); cbn [obind] in H; try discriminate.
    destruct (load_device m toks) as [dev| |]; cbn [obind] in H; try discriminate. destruct (match assoc load_class dev with Some _ => _ | None => _ end); cbn [obind] in H; try discriminate. inversion H; auto. }
  destruct (on_branch m); [|inversion H; auto].
  destruct (bus_of 0 toks); cbn [obind] in H; try discriminate. destruct (bus_of 3 toks); cbn [obind] in H; try discriminate. destruct (store _ _ _ _ _ _); cbn [obind] in H; try discriminate. inversion H; auto.
Qed.
Lemma vec_all_relays rs : forall v v', vec_records atof trunc v rs = Ok v' -> exists ss, v_relays v' = (v_relays v ++ ss)%list /\ forall s, In s ss -> exists r, In r rs /\ relay_struct r s.
Proof.
  induction rs as [|r rs IH]; intros v v' H; cbn [vec_records] in H; [inversion H; subst; exists []; split; [now rewrite app_nil_r | intros s []]|].
  destruct (vec_record atof trunc v r) as [v1| |] eqn:E; cbn [obind] in H; try discriminate. destruct (IH _ _ H) as (ss & G & F).
  apply vec_relays in E as [(E & _)|(s & E & Q)].
  - exists ss. split; [congruence|]. intros s Hs. destruct (F s Hs) as (r' & I & R). exists r'. split; auto. right; auto.
  - exists (s :: ss). split; [rewrite G, E, <- app_assoc; reflexivity|]. intros s' [<-|Hs]; [exists r; split; auto; left; auto|]. destruct (F s' Hs) as (r' & I & R). exists r'. split; auto. right; auto.
Qed.
Lemma vec_relay_count b rs : forall v v' k, vec_records atof trunc v rs = Ok v' -> relays_for b rs k -> length (for_bus b (v_relays v')) = (length (for_bus b (v_relays v)) + k)%nat.
Proof.
  induction rs as [|r rs IH]; intros v v' k H R; cbn [vec_records] in H; [inversion H; subst; inversion R; lia|].
  destruct (vec_record atof trunc v r) as [v1| |] eqn:E; cbn [obind] in H; try discriminate.
  assert (X : forall s, relay_struct r s -> (fget s "bus_id" = Some (VInt b) <-> exists toks m l, tokens r = Ok toks /\ relay_record toks m l b)).
  { intros s (toks & m & c & l & b' & s0 & T & Rr & _ & _ & Fb & _). split.
    - intros Q. assert (b' = b) by congruence. subst. eauto.
    - intros (toks' & m' & l' & T' & (L' & M' & B')). destruct Rr as (L & M & B). assert (toks' = toks) by congruence. subst. apply model_of_name in M, M'. assert (m' = m) by congruence. subst. apply bus_of_number in B, B'. congruence. }
  apply vec_relays in E as [(E & N)|(s & E & Q)].
  - inversion R; subst; [exfalso; eapply N; eauto|]. rewrite (IH _ _ _ H H4), E. reflexivity.
  - specialize (X s Q). inversion R; subst.
    + rewrite (IH _ _ _ H H5), E, for_bus_app, app_length. unfold for_bus at 2. cbn [filter]. destruct X as (_ & X). rewrite X by eauto. rewrite Z.eqb_refl. cbn. lia.
    + rewrite (IH _ _ _ H H4), E, for_bus_app, app_length. unfold for_bus at 2. cbn [filter]. destruct (fget s "bus_id") as [[z| | | | | |]|] eqn:Fb; try (cbn; lia).
      destruct (Z.eqb_spec z b) as [->|]; [|cbn; lia]. destruct X as (X & _). destruct (X eq_refl) as (? & ? & ? & ? & ?). exfalso. match goal with Z : forall _ _ _, words r _ -> _ |- _ => eapply Z; eauto end.
Qed.

Lemma gens_count ss : forall d d', arrivals gen_arrives d ss = Ok d' -> count_of d' "RELAY_NUMBER" = count_of d "RELAY_NUMBER".
Proof.
  induction ss as [|s ss IH]; intros d d' H; cbn [arrivals] in H; [congruence|]. destruct (gen_arrives d s) as [d1| |] eqn:E; cbn [obind] in H; try discriminate. rewrite (IH _ _ H).
  apply gen_arrives_cases in E as [->|(m & l & c & g & _ & L & A & _ & X & Cf & _)]; auto. apply count_eq. eapply xframe; eauto; [apply (@gen_x _ _ L c A)|]. intros a _ Q. symmetry in Q. revert Q. now apply ikey_plain.
Qed.
Lemma loads_count ss : forall d d', arrivals load_arrives d ss = Ok d' -> count_of d' "RELAY_NUMBER" = count_of d "RELAY_NUMBER".
Proof.
  induction ss as [|s ss IH]; intros d d' H; cbn [arrivals] in H; [congruence|]. destruct (load_arrives d s) as [d1| |] eqn:E; cbn [obind] in H; try discriminate. rewrite (IH _ _ H).
  apply load_arrives_cases in E as [->|(m & l & c & g & _ & L & A & _ & X & Cf & _)]; auto. apply count_eq. eapply xframe; eauto; [apply (@load_x _ _ L c A)|]. intros a _ Q. symmetry in Q. revert Q. now apply ikey_plain.
Qed.
Definition is_relay (s : struct) : Prop := exists m l, fget s "model" = Some (VString m) /\ In (m, l) Layout.relay_models.
Lemma relay_arrives_is d s d' : relay_arrives d s = Ok d' -> is_relay s ->
  exists m l c, fget s "model" = Some (VString m) /\ In (m, l) Layout.relay_models /\ assoc relay_class m = Some c /\
    find_key d' TInt "RELAY_NUMBER" = Some (VInt (count_of d "RELAY_NUMBER" + 1)) /\
    (exists d1, extract (c_extract c) s (count_of d "RELAY_NUMBER") d1 = Ok d') /\
    confined (map f_key l) (count_of d "RELAY_NUMBER") d d'.
Proof.
  intros H (m & l0 & Fm & L0). destruct (relay_facts atof trunc L0) as (c & A & _).
  unfold relay_arrives in H. apply str_field_get in Fm. rewrite Fm in H. cbn [obind] in H. rewrite A in H. apply str_field_get in Fm.
  destruct (@group_get _ _ _ _ relay_ok L0) as (c' & A' & O). assert (c' = c) by congruence. subst c'.
  unfold extract_relay in H. destruct (next_relay d) as [(n & d1)| |] eqn:N; cbn [obind fst snd] in H; try discriminate.
  apply next_relay_spec in N as (-> & N1 & N2). pose proof (@x_ok_frame l0 c s _ d1 d' (@relay_x _ _ L0 c A) (@cls_ok_extract _ _ _ O) H) as (Sm & C).
  exists m, l0, c. repeat (split; auto).
  - rewrite <- N1. eapply xframe; eauto; [apply (@relay_x _ _ L0 c A)|]. intros a _ E. symmetry in E. revert E. now apply ikey_plain.
  - eauto.
  - intros t k K1 K2. rewrite (C t k K1 K2). auto.
Qed.
Lemma relays_arrive ss : (forall s, In s ss -> is_relay s) -> forall d d', arrivals relay_arrives d ss = Ok d' ->
  count_of d' "RELAY_NUMBER" = (count_of d "RELAY_NUMBER" + Z.of_nat (length ss))%Z /\
  forall a i t, small i -> (i < count_of d "RELAY_NUMBER")%Z -> find_key d' t (ikey a i) = find_key d t (ikey a i).
Proof.
  induction ss as [|s ss IH]; intros F d d' H; cbn [arrivals] in H; [inversion H; subst; cbn; split; auto; lia|].
  destruct (relay_arrives d s) as [d1| |] eqn:E; cbn [obind] in H; try discriminate.
  destruct (IH ltac:(intros; apply F; right; auto) _ _ H) as (C & K).
  destruct (@relay_arrives_is _ _ _ E ltac:(apply F; left; auto)) as (m & l & c & _ & L & A & Cn & _ & Cf). apply count_some in Cn.
  split; [cbn [length]; lia|]. intros a i t Si Lt. rewrite K by (auto; lia). apply (@confined_key _ _ _ _ _ _ _ Cf Si). intros _. lia.
Qed.
Lemma extern_relay v pre r post toks m l b k gs rs ls d d' : vec_records atof trunc (Vec [] [] [] []) (pre ++ r :: post) = Ok v ->
  tokens r = Ok toks -> relay_record toks m l b -> complete atof toks l -> relays_for b (pre ++ r :: post) k ->
  Permutation rs (for_bus b (v_relays v)) -> bus_copy gs rs ls d = Ok d' ->
  count_of d' "RELAY_NUMBER" = (count_of d "RELAY_NUMBER" + Z.of_nat k)%Z /\
  exists i, (count_of d "RELAY_NUMBER" <= i < count_of d "RELAY_NUMBER" + Z.of_nat k)%Z /\ forall f, In f l -> exists w, reads atof toks f w /\ holds d' f i w.
Proof.
  intros V T R Co Rk P Cp. pose proof (@vec_relay_count _ _ _ _ _ V Rk) as Len. cbn [v_relays for_bus filter length] in Len.
  apply vec_records_app in V as (v1 & V1 & V). cbn [vec_records] in V. destruct (vec_record atof trunc v1 r) as [v2| |] eqn:E; cbn [obind] in V; try discriminate.
  destruct (@vec_all_relays _ _ _ V1) as (sp & G1 & F1). destruct (@vec_all_relays _ _ _ V) as (sq & G2 & F2). cbn [v_relays] in G1.
  apply vec_relays in E as [(_ & X)|(s & E & Q)]; [exfalso; eapply X; eauto|]. pose proof Q as Q0.
  destruct Q as (toks' & m' & c & l' & b' & s0 & T' & R' & A & St & Fb & Fm). assert (toks' = toks) by congruence. subst toks'.
  pose proof R as (L & M & B). pose proof R' as (L' & M' & B'). apply model_of_name in M, M'. assert (m' = m) by congruence. subst m'. apply bus_of_number in B, B'. assert (b' = b) by congruence. subst b'.
  rewrite G2, E, G1, <- app_assoc in P, Len. cbn [app] in P, Len. rewrite (Permutation_length (Permutation_sym P)) in Len.
  assert (All : forall x, In x rs -> is_relay x).
  { intros x Hx. apply (Permutation_in _ P), for_bus_in in Hx as (Hx & _). assert (exists r2, relay_struct r2 x) as (r2 & Q2).
    { apply in_app_or in Hx as [Hx|[<-|Hx]]; [destruct (F1 _ Hx) as (? & _ & ?); eauto | eauto | destruct (F2 _ Hx) as (? & _ & ?); eauto]. }
    destruct Q2 as (t2 & m2 & c2 & l2 & b2 & s2 & _ & (L2 & _) & _ & _ & _ & Fm2). exists m2, l2. auto. }
  destruct (@arrived _ _ _ _ _ P Fb) as (g1 & g2 & -> & _).
  unfold bus_copy in Cp. destruct (arrivals gen_arrives d gs) as [dg| |] eqn:Ag; cbn [obind] in Cp; try discriminate.
  destruct (arrivals relay_arrives dg (g1 ++ s :: g2)) as [dr| |] eqn:Ar; cbn [obind] in Cp; try discriminate.
  pose proof (@gens_count _ _ _ Ag) as C1. pose proof (@loads_count _ _ _ Cp) as C3. destruct (@relays_arrive _ All _ _ Ar) as (C2 & _).
  split; [rewrite C3, C2, C1, Len; cbn; lia|].
  apply arrivals_app in Ar as (d1 & Ar1 & Ar). cbn [arrivals] in Ar. destruct (relay_arrives d1 s) as [d2| |] eqn:As; cbn [obind] in Ar; try discriminate.
  destruct (@relays_arrive g1 ltac:(intros; apply All, in_or_app; auto) _ _ Ar1) as (C4 & _).
  destruct (@relays_arrive g2 ltac:(intros; apply All, in_or_app; right; right; auto) _ _ Ar) as (C5 & K5).
  destruct (@relay_arrives_is _ _ _ As ltac:(exists m, l; auto)) as (m2 & l2 & c2 & Fm2 & L2 & A2 & Cn & (dx & X) & Cf). assert (m2 = m) by congruence. subst m2. assert (c2 = c) by congruence. subst c2.
  apply count_some in Cn. exists (count_of d1 "RELAY_NUMBER"). rewrite app_length in Len. cbn [length] in Len. split; [lia|]. intros f If.
  destruct (relay_facts atof trunc L) as (c' & Ac & _ & (_ & _ & X3 & _)). assert (c' = c) by congruence. subst c'.
  assert (NW : ~ listed extern_wrong m f).
  { assert (m = "LVSHBL" \/ m = "FRQTPAT") as Mm by (destruct L as [L|[L|[]]]; inversion L; auto). unfold listed. destruct Mm as [-> | ->]; cbn; intros Z0; repeat (destruct Z0 as [Z0|Z0]; [discriminate Z0|]); exact Z0. }
  destruct (X3 7 toks s0 s _ dx d2 f Co ltac:(eapply name_len; apply R) St X If NW) as (w & Rw & Hw). exists w. split; auto.
  assert (Sm : small (count_of d1 "RELAY_NUMBER")) by apply Cf. apply holds_find in Hw; auto. apply holds_find; auto.
  assert (Ir : In (f_key f) rkeys) by (apply (in_rkeys L); apply in_map, If). destruct (@rkeys_apart _ Ir) as (_ & Nl & _).
  destruct (@loads_keep ls dr d' (f_key f) (count_of d1 "RELAY_NUMBER") "" Cp Sm ltac:(auto)) as (_ & Kl). rewrite Kl, K5; auto. lia.
Qed.
End Ext.

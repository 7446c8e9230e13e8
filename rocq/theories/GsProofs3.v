(** Proofs for the shuffler over Global Arrays: the whole call. *)
From Coq Require Import Ascii.
From Verif Require Import Prelude GAModel GAProofs ParModel ParSpec ParProofs GsModel GsProofs GsProofs2.

Section GsP3.
Context {T : Type}.
Variable ser : list T -> list ascii.
Variable unser : list ascii -> option (list T).
Hypothesis Huns : forall v pad, unser (ser v ++ pad)%list = Some v.
Hypothesis Hne : forall v, ser v <> [].

Lemma nth_repeat_in {A} (x d : A) k m : k < m -> nth k (repeat x m) d = x.
Proof. revert k; induction m as [|m IH]; intros [|k] H; cbn; try lia; auto. apply IH; lia. Qed.

Lemma rk_prepare (rs : list (list T * list (list T))) q : q < length rs ->
  rk (prepare ser rs) q = let x := nth q rs ([], []) in let b := buffers ser (length rs) q (snd x) in
                          Rank (program (length rs) q) 0 0 0 (fst x) (map (@length _) b) b.
Proof.
  intros H. unfold rk, prepare. cbn [gs_ranks]. set (f := fun q : nat => _).
  rewrite (nth_indep _ (@dfl T) (f 0)) by (rewrite map_length; unfold iota; rewrite seq_length; exact H).
  rewrite map_nth. unfold iota. rewrite seq_nth by exact H. reflexivity.
Qed.

Lemma prepare_inv (rs : list (list T * list (list T))) : Inv ser (length rs) rs (prepare ser rs).
Proof.
  set (n := length rs).
  assert (Hat : forall q, q < n -> @at_ T n q (rk (prepare ser rs) q) 0 0).
  { intros q H. rewrite rk_prepare by exact H. repeat split; cbn [rk_todo rk_in rk_out]; try lia.
    fold n. rewrite program_rest. cbn [skipn]. apply rest_step. lia. }
  constructor.
  - unfold prepare. cbn [gs_ranks]. rewrite map_length. unfold iota. apply seq_length.
  - unfold prepare, ga_new. cbn [gs_sizes]. apply repeat_length.
  - unfold prepare. cbn [gs_rows]. apply repeat_length.
  - intros row q p Hin Hq Hp D. unfold prepare in Hin. cbn [gs_rows] in Hin. fold n in Hin. apply repeat_spec in Hin. subst row.
    unfold ga_new. rewrite repeat_length. apply le_S.
    eapply Nat.le_trans; [|apply maxl_le; apply in_map_iff; eexists; split; [reflexivity|]; apply in_map_iff; exists q; split; [reflexivity|now apply in_iota]].
    cbv zeta. cbn [rk_sizes]. rewrite <- (@sizesOf_nth T ser n rs q p Hp D). apply maxl_le. apply nth_In. rewrite sizesOf_len. exact Hp.
  - intros q Hq. pose proof (Hat q Hq) as A. rewrite rk_prepare in * by exact Hq. fold n in A |- *. split; [split; reflexivity|].
    left. exists 0, 0. split; [exact A|]. split; [|discriminate]. cbn. now rewrite app_nil_r.
  - intros q q' Hq Hq'. rewrite !rk_prepare by assumption. cbn. lia.
  - intros q k Hq A Q o Ho. pose proof (Hat q Hq) as A0.
    pose proof (@at_inj T n q _ _ _ _ _ A A0) as [_ ->]. destruct Ho.
  - intros q Hq. rewrite rk_prepare by exact Hq. cbn. lia.
Qed.

Section Run.
Variable n : nat.
Variable rs : list (list T * list (list T)).
Notation Inv := (Inv ser n rs).

Definition left_ (s : @gstate T) : nat := sumn (map (fun r => length (rk_todo r)) (gs_ranks s)).

Lemma sumn_upd {A} (f : A -> nat) l q x d : q < length l -> sumn (map f (upd l q x)) + f (nth q l d) = sumn (map f l) + f x.
Proof. revert q; induction l as [|y l IH]; intros [|q] H; cbn in *; try lia. specialize (IH q). lia. Qed.

Lemma gstep_ok s q o : Inv s -> gstep unser s q = Some o -> exists s', o = Ok s' /\ Inv s' /\ S (left_ s') = left_ s.
Proof.
  intros I E. destruct (Nat.lt_ge_cases q n) as [Hq|Hq].
  - destruct (@step_keeps T ser unser Huns Hne n rs s q o I Hq E) as (s' & r' & E1 & I' & E2 & E3).
    exists s'. split; [exact E1|]. split; [exact I'|]. unfold left_. rewrite E2.
    assert (Hl : q < length (gs_ranks s)) by (rewrite (i_len I); exact Hq).
    pose proof (@sumn_upd _ (fun r => length (rk_todo r)) (gs_ranks s) q r' (@dfl T) Hl) as H.
    change (nth q (gs_ranks s) dfl) with (rk s q) in H. cbv beta in H. lia.
  - exfalso. unfold gstep in E. rewrite (proj2 (nth_error_None (gs_ranks s) q)) in E by (rewrite (i_len I); exact Hq). discriminate.
Qed.

Lemma grun_ok sched : forall s, Inv s -> exists s', grun unser sched s = Ok s' /\ Inv s' /\ left_ s' <= left_ s.
Proof.
  induction sched as [|q l IH]; intros s I; cbn [grun].
  - exists s. auto.
  - destruct (gstep unser s q) as [o|] eqn:E; [|now apply IH].
    destruct (@gstep_ok _ _ _ I E) as (s1 & -> & I1 & L). cbn [obind]. destruct (IH s1 I1) as (s' & E' & I' & L'). exists s'. split; [assumption|]. split; [assumption|lia].
Qed.
Lemma grun_app a b s : grun unser (a ++ b) s = obind (grun unser a s) (grun unser b).
Proof.
  revert s. induction a as [|q a IH]; intros s; cbn [grun app]; [reflexivity|].
  destruct (gstep unser s q) as [[s1| |]|]; cbn [obind]; auto.
Qed.

(** In a pass over all ranks somebody takes a step *)
Lemma pass_moves sched s : Inv s -> (exists q o, In q sched /\ gstep unser s q = Some o) ->
  exists s', grun unser sched s = Ok s' /\ Inv s' /\ left_ s' < left_ s.
Proof.
  revert s. induction sched as [|q0 l IH]; intros s I (q & o & Hin & E); [destruct Hin|]. cbn [grun].
  destruct (gstep unser s q0) as [o0|] eqn:E0.
  - destruct (@gstep_ok _ _ _ I E0) as (s1 & -> & I1 & L). cbn [obind]. destruct (@grun_ok l s1 I1) as (s' & E' & I' & L'). exists s'. split; [assumption|]. split; [assumption|lia].
  - destruct Hin as [-> |Hin]; [congruence|]. apply IH; [exact I|]. eauto.
Qed.
Lemma returned_stays s sched : Inv s -> returned s = true -> grun unser sched s = Ok s.
Proof.
  intros I R. induction sched as [|q l IH]; cbn [grun]; [reflexivity|].
  assert (E : gstep unser s q = None).
  { unfold gstep. destruct (nth_error (gs_ranks s) q) as [r|] eqn:Er; [|reflexivity].
    unfold returned in R. rewrite forallb_forall in R. apply nth_error_In in Er. specialize (R r Er). destruct (rk_todo r); [reflexivity|discriminate]. }
  rewrite E. exact IH.
Qed.
Lemma passes_return m : forall s, Inv s -> left_ s <= m ->
  exists s', grun unser (concat (repeat (iota n) m)) s = Ok s' /\ Inv s' /\ returned s' = true.
Proof.
  induction m as [|m IH]; intros s I L; cbn [repeat concat].
  - exists s. split; [reflexivity|]. split; [exact I|]. destruct (returned s) eqn:R; [reflexivity|exfalso].
    destruct (@progress T ser unser n rs s I R) as (q & o & Hq & E). destruct (@gstep_ok _ _ _ I E) as (s' & _ & _ & X). lia.
  - rewrite grun_app. destruct (returned s) eqn:R.
    + rewrite (returned_stays _ I R). cbn [obind]. exists s. rewrite (returned_stays _ I R). auto.
    + destruct (@progress T ser unser n rs s I R) as (q & o & Hq & E).
      destruct (@pass_moves (iota n) s I) as (s1 & E1 & I1 & L1); [exists q, o; split; [now apply in_iota|exact E]|].
      rewrite E1. cbn [obind]. apply IH; [exact I1|lia].
Qed.

Lemma returned_things s : Inv s -> returned s = true ->
  things s = map (fun q => fst (nth q rs ([], [])) ++ recv rs q n)%list (iota n).
Proof.
  intros I R. unfold things. apply (nth_ext _ _ [] []).
  - rewrite !map_length, (i_len I). unfold iota. now rewrite seq_length.
  - rewrite map_length, (i_len I). intros q Hq.
    change (@nil T) with (rk_loc (@dfl T)) at 1. rewrite map_nth. change (nth q (gs_ranks s) dfl) with (rk s q).
    set (f := fun q : nat => _). rewrite (nth_indep _ [] (f 0)) by (rewrite map_length; unfold iota; rewrite seq_length; exact Hq).
    rewrite map_nth. unfold iota. rewrite seq_nth by exact Hq. cbn [Nat.add]. unfold f.
    assert (Et : rk_todo (rk s q) = []).
    { unfold returned in R. rewrite forallb_forall in R. assert (Hin : In (rk s q) (gs_ranks s)) by (apply nth_In; rewrite (i_len I); exact Hq).
      specialize (R _ Hin). destruct (rk_todo (rk s q)); [reflexivity|discriminate]. }
    destruct (@i_rk _ _ _ _ _ I q Hq) as (_ & [(j & k & A & _)|[(j & A & _)|[_ A]]]); [| |exact A]; exfalso.
    + destruct A as (_ & _ & A3 & _). rewrite Et in A3. destruct (skipn k (phase n q j)); discriminate.
    + destruct A as (_ & A3 & _). congruence.
Qed.
End Run.

(** What is sent is what the destinations say *)
Lemma routed (w : list (list T * list Z)) : routable w = true ->
  exists rs, oall (map (fun p => let x := nth p w ([], []) in route (length w) p (combine (fst x) (snd x)) [] (repeat [] (length w))) (iota (length w))) = Ok rs /\
    length rs = length w /\
    forall p, p < length w -> fst (nth p rs ([], [])) = items_for p (nth p w ([], [])) /\
      forall q, q < length w -> nth q (snd (nth p rs ([], []))) [] = if q =? p then [] else items_for q (nth p w ([], [])).
Proof.
  intros H. set (P := length w).
  set (R := fun p => match route P p (combine (fst (nth p w ([], []))) (snd (nth p w ([], [])))) [] (repeat [] P)
                     with Ok r => r | _ => ([], []) end).
  assert (HR : forall p, p < P ->
    route P p (combine (fst (nth p w ([], []))) (snd (nth p w ([], [])))) [] (repeat [] P) = Ok (R p) /\
    fst (R p) = items_for p (nth p w ([], [])) /\
    forall q, q < P -> nth q (snd (R p)) [] = if q =? p then [] else items_for q (nth p w ([], []))).
  { intros p Hp. destruct (routable_nth w H Hp) as [_ Hf].
    destruct (@route_ok T P p _ [] (repeat [] P) (repeat_length _ _) Hf) as (ts & E & L & Hq).
    unfold R. rewrite E. split; [reflexivity|]. split; [reflexivity|].
    intros q Hq'. simpl. rewrite Hq by auto. rewrite (nth_repeat_in _ _ Hq'). reflexivity. }
  exists (map R (iota P)). split; [|split].
  - apply (oall_map_ok _ R). intros p Hp. apply in_iota in Hp. now apply HR.
  - rewrite map_length. unfold iota. apply seq_length.
  - intros p Hp. assert (E : nth p (map R (iota P)) ([], []) = R p).
    { rewrite nth_indep with (d' := R 0) by (rewrite map_length; unfold iota; now rewrite seq_length).
      rewrite map_nth. unfold iota. now rewrite seq_nth. }
    rewrite E. destruct (HR p Hp) as (_ & A & B). auto.
Qed.

Lemma start_ok w : routable w = true ->
  (ga_start ser w = Ok (inl (map fst w)) /\ map fst w = map (delivered w) (iota (length w))) \/
  exists rs, ga_start ser w = Ok (inr (prepare ser rs)) /\ length rs = length w /\
    forall q, q < length w -> (fst (nth q rs ([], [])) ++ recv rs q (length w))%list = delivered w q.
Proof.
  intros H. pose proof (shuffle_correct w H) as S. unfold shuffle in S. unfold ga_start.
  destruct (negb _); [discriminate|].
  destruct (length w <=? 1). { left. split; [reflexivity|]. now injection S. }
  destruct (sumn _ =? 0). { left. split; [reflexivity|]. now injection S. }
  clear S. right. destruct (routed w H) as (rs & E & L & HR). exists rs. cbv zeta in E |- *. rewrite E. split; [reflexivity|]. split; [exact L|].
  intros q Hq. destruct (HR q Hq) as (-> & _). unfold delivered, recv. f_equal. f_equal. apply map_ext_in. intros s Hs. apply in_iota in Hs.
  destruct (HR s Hs) as (_ & B). rewrite (B q Hq), (Nat.eqb_sym q s). destruct (s =? q); reflexivity.
Qed.

Theorem ga_call_ok w sched : routable w = true ->
  match ga_call ser unser w sched with
  | Ok (inl r) => r = map (delivered w) (iota (length w))
  | Ok (inr s) =>
      (returned s = true -> things s = map (delivered w) (iota (length w))) /\
      (returned s = false -> exists q s', gstep unser s q = Some (Ok s'))
  | _ => False
  end.
Proof.
  intros H. unfold ga_call. destruct (start_ok w H) as [(E & D)|(rs & E & L & D)]; rewrite E; cbn [obind]; [exact D|].
  pose proof (prepare_inv rs) as I. destruct (@grun_ok (length rs) rs sched _ I) as (s & E' & I' & _). rewrite E'. cbn [obind]. split.
  - intros R. rewrite (returned_things I' R). rewrite L. apply map_ext_in. intros q Hq. apply in_iota in Hq. now apply D.
  - intros R. destruct (@progress T ser unser _ rs s I' R) as (q & o & Hq & Es). destruct (@gstep_ok _ _ _ _ _ I' Es) as (s' & -> & _). eauto.
Qed.

Theorem ga_call_returns w sched : routable w = true ->
  exists m, forall k, m <= k ->
    match ga_call ser unser w (sched ++ concat (repeat (iota (length w)) k)) with
    | Ok (inl _) => True
    | Ok (inr s) => returned s = true
    | _ => False
    end.
Proof.
  intros H. unfold ga_call. destruct (start_ok w H) as [(E & D)|(rs & E & L & D)]; rewrite E; cbn [obind]; [now exists 0|].
  pose proof (prepare_inv rs) as I. destruct (@grun_ok (length rs) rs sched _ I) as (s & E' & I' & _).
  exists (left_ s). intros k Hk. rewrite grun_app, E'. cbn [obind].
  rewrite <- L. destruct (@passes_return (length rs) rs k s I' Hk) as (s' & E2 & _ & R). rewrite E2. exact R.
Qed.
End GsP3.

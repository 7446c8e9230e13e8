(** C31: timer categories and counters. *)
From Verif Require Import Prelude TimerModel TimerSpec TimerProofs.
Open Scope nat_scope.

(** After any sequence of calls: equal titles have equal handles, different titles different ones, and the handles are the
    positions of the titles in the report. *)
Theorem C31_handles :
  forall cs t hs, run new_timer cs = Ok (t, hs) ->
    length hs = length (created cs) /\
    (forall k s h, nth_error (created cs) k = Some s -> nth_error hs k = Some h -> nth_error (t_title t) h = Some s) /\
    (forall k k' s s' h h', nth_error (created cs) k = Some s -> nth_error (created cs) k' = Some s' ->
       nth_error hs k = Some h -> nth_error hs k' = Some h' -> (s = s' <-> h = h')).
Proof.
  intros cs t hs E. destruct (@run_spec cs _ _ _ good_new E) as (G & _ & F & _).
  assert (L : length hs = length (created cs)) by (clear -F; induction F; cbn; congruence).
  assert (N : forall k s h, nth_error (created cs) k = Some s -> nth_error hs k = Some h -> nth_error (t_title t) h = Some s).
  { clear -F. induction F as [|a b l l' Hab F IH]; intros [|k] s h; cbn; try discriminate; intros Ha Hb; [congruence|eauto]. }
  split; [exact L|]. split; [exact N|]. intros k k' s s' h h' Hs Hs' Hh Hh'.
  assert (A := N _ _ _ Hs Hh). assert (B := N _ _ _ Hs' Hh'). split.
  - intros <-. destruct G as (HN & _). rewrite NoDup_nth_error in HN. apply HN; [apply nth_error_Some|]; congruence.
  - intros <-. congruence.
Qed.
Print Assumptions C31_handles.

(** The counters equal the numbers of calls made while timing is enabled. *)
Theorem C31_counts :
  forall cs t hs h, run new_timer cs = Ok (t, hs) ->
    zat (t_istart t) h = Z.of_nat (starts h cs) /\ zat (t_istop t) h = Z.of_nat (stops h cs).
Proof.
  intros cs t hs h E. destruct (@run_spec cs _ _ _ good_new E) as (_ & _ & _ & S). destruct (S h) as (A & B & _).
  cbn [new_timer t_istart t_istop t_on] in A, B. replace (zat [] h) with 0%Z in A, B by (unfold zat; destruct h; reflexivity). rewrite A, B. split; reflexivity.
Qed.
Print Assumptions C31_counts.

(** The time of a category whose calls are paired is the sum of the intervals. *)
Theorem C31_time :
  forall cs t hs h ivs, run new_timer cs = Ok (t, hs) -> of_category h cs = paired h ivs -> zat (t_time t) h = total ivs.
Proof.
  intros cs t hs h ivs E P. destruct (@run_spec cs _ _ _ good_new E) as (_ & _ & _ & S). destruct (S h) as (_ & _ & C).
  unfold of_category in P. cbn [new_timer t_on] in C. rewrite <- clock_filter, P in C.
  apply (f_equal snd) in C. cbn [snd] in C. rewrite clock_paired in C. rewrite C. unfold zat. cbn. destruct h; cbn; lia.
Qed.
Print Assumptions C31_time.

(** Handles returned earlier can be used at any time: no call with an existing handle fails. *)
Theorem C31_handles_stay_valid :
  forall cs t hs h now, run new_timer cs = Ok (t, hs) -> In h hs -> is_ok (start t (Z.of_nat h) now) = true /\ is_ok (stop t (Z.of_nat h) now) = true.
Proof.
  intros cs t hs h now E Hh. destruct (@run_spec cs _ _ _ good_new E) as (G & _ & F & _).
  assert (L : h < length (t_title t)).
  { clear -F Hh. induction F as [|a b l l' Hab F IH]; [contradiction|]. destruct Hh as [->|Hh]; [|auto]. apply nth_error_Some. congruence. }
  unfold start, stop. destruct (t_on t); cbn [negb]; [|split; reflexivity].
  destruct (Z.leb_spec 0 (Z.of_nat h)); [|lia]. destruct (Z.ltb_spec (Z.of_nat h) (Z.of_nat (length (t_title t)))); [|lia]. split; reflexivity.
Qed.
Print Assumptions C31_handles_stay_valid.

Definition ex_calls : list call :=
  [Create "a"; Start 0 5; Create "b"; Stop 0 9; Create "a"; Config false; Start 1 10; Config true; Start 1 11; Stop 1 14; Start 0 20; Stop 0 21]%Z.
Example C31_nonvacuous :
  exists t, run new_timer ex_calls = Ok (t, [0; 1; 0]) /\ of_category 0 ex_calls = paired 0 [(5, 9); (20, 21)]%Z /\
    t_istart t = [2; 1]%Z /\ t_istop t = [2; 1]%Z /\ t_time t = [5; 3]%Z.
Proof. eexists. split; [vm_compute; reflexivity|]. split; [vm_compute; reflexivity|]. split; [vm_compute; reflexivity|]. split; vm_compute; reflexivity. Qed.

(** ** The report *)
(** When all processes have the same categories the report covers each of them, and statistics are printed exactly for those used
    somewhere and with as many stops as starts everywhere; they give the title, the longest and the shortest time of a process. *)
Theorem C31_report :
  forall ts n, ts <> [] -> Forall (fun t => length (t_title t) = n) ts ->
    exists reps, dump ts = Some reps /\ length reps = n /\
      forall i r, nth_error reps i = Some r ->
        ((exists title a b, r = Statistics title a b) <->
           (exists t, In t ts /\ (0 < zat (t_istop t) i \/ 0 < zat (t_start t) i)%Z) /\ (forall t, In t ts -> zat (t_istop t) i = zat (t_istart t) i)) /\
        (forall title a b, r = Statistics title a b -> (exists t, hd_error ts = Some t /\ title = nth i (t_title t) EmptyString) /\
           (exists t, In t ts /\ a = zat (t_time t) i) /\ (exists t, In t ts /\ b = zat (t_time t) i) /\ forall t, In t ts -> (b <= zat (t_time t) i <= a)%Z).
Proof.
  intros ts n Hne HF. destruct ts as [|t0 ts]; [contradiction|]. rewrite Forall_forall in HF.
  assert (S : forallb (fun k => k =? hd 0 (sizes (t0 :: ts))) (sizes (t0 :: ts)) = true).
  { apply forallb_forall. intros k Hk. unfold sizes in *. apply in_map_iff in Hk as (t & <- & Ht). rewrite (HF t Ht). cbn [map hd].
    rewrite (HF t0) by now left. apply Nat.eqb_refl. }
  assert (H0 : hd 0 (sizes (t0 :: ts)) = n). { cbn. apply HF. now left. }
  unfold dump. replace (forallb _ (iota (length (t0 :: ts)))) with true.
  - rewrite S, H0. eexists. split; [reflexivity|]. split; [unfold iota; now rewrite map_length, seq_length|].
    intros i r Hr. rewrite nth_error_map in Hr. unfold iota in Hr. destruct (lt_dec i n) as [Hi|Hi].
    2:{ replace (nth_error (seq 0 n) i) with (@None nat) in Hr; [discriminate|]. symmetry. apply nth_error_None. rewrite seq_length. lia. }
    rewrite (nth_error_nth' _ 0) in Hr by now rewrite seq_length. rewrite seq_nth in Hr by auto. cbn [option_map Nat.add] in Hr. injection Hr as <-.
    split.
    2:{ unfold dump_one. destruct (existsb _ (t0 :: ts)); [|discriminate]. destruct (forallb _ (t0 :: ts)); [|discriminate]. intros title a b [= <- <- <-].
        split; [eexists; split; reflexivity|]. clear. cbn [map hd fold_left]. rewrite Z.max_id, Z.min_id. set (z := zat (t_time t0) i).
        assert (K : forall m, let M := fold_left Z.max (map (fun t => zat (t_time t) i) ts) m in let L := fold_left Z.min (map (fun t => zat (t_time t) i) ts) m in
          (M = m \/ exists t, In t ts /\ M = zat (t_time t) i) /\ (L = m \/ exists t, In t ts /\ L = zat (t_time t) i) /\ (L <= m <= M)%Z /\ forall t, In t ts -> (L <= zat (t_time t) i <= M)%Z).
        { assert (KM : forall ts m, let M := fold_left Z.max (map (fun t => zat (t_time t) i) ts) m in (M = m \/ exists t, In t ts /\ M = zat (t_time t) i) /\ (m <= M)%Z /\ forall t, In t ts -> (zat (t_time t) i <= M)%Z).
          { clear. induction ts as [|x l IH]; intros m; cbn [map fold_left]; [repeat split; auto; try lia; intros t []|].
            destruct (IH (Z.max m (zat (t_time x) i))) as (A & B & C). cbn zeta. split; [|split; [lia|]].
            - destruct A as [A|(t & A & A')]; [|right; exists t; split; auto; now right]. rewrite A. destruct (Z.max_spec m (zat (t_time x) i)) as [(_ & ->)|(_ & ->)]; auto. right. exists x. split; [now left|reflexivity].
            - intros t [->|T]; [lia|auto]. }
          assert (KL : forall ts m, let M := fold_left Z.min (map (fun t => zat (t_time t) i) ts) m in (M = m \/ exists t, In t ts /\ M = zat (t_time t) i) /\ (M <= m)%Z /\ forall t, In t ts -> (M <= zat (t_time t) i)%Z).
          { clear. induction ts as [|x l IH]; intros m; cbn [map fold_left]; [repeat split; auto; try lia; intros t []|].
            destruct (IH (Z.min m (zat (t_time x) i))) as (A & B & C). cbn zeta. split; [|split; [lia|]].
            - destruct A as [A|(t & A & A')]; [|right; exists t; split; auto; now right]. rewrite A. destruct (Z.min_spec m (zat (t_time x) i)) as [(_ & ->)|(_ & ->)]; auto. right. exists x. split; [now left|reflexivity].
            - intros t [->|T]; [lia|auto]. }
          intros m. cbn zeta. destruct (KM ts m) as (A & B & C). destruct (KL ts m) as (A' & B' & C'). repeat split; auto. }
        destruct (K z) as (A & B & C & D). split; [|split].
        - destruct A as [A|(t & A & A')]; [exists t0; split; [now left|exact A]|exists t; split; [now right|exact A']].
        - destruct B as [A'|(t & A' & A'')]; [exists t0; split; [now left|exact A']|exists t; split; [now right|exact A'']].
        - intros t [<-|T]; [exact C|auto]. }
    unfold dump_one. destruct (existsb _ (t0 :: ts)) eqn:Ex.
    + apply existsb_exists in Ex as (t & Ht & Ex). apply Bool.orb_true_iff in Ex.
      destruct (forallb (fun t => (zat (t_istop t) i - zat (t_istart t) i =? 0)%Z) (t0 :: ts)) eqn:Fa.
      * rewrite forallb_forall in Fa. split; [intros _|intros _; eauto]. split.
        -- exists t. split; [exact Ht|]. destruct Ex as [Ex|Ex]; apply Z.ltb_lt in Ex; auto.
        -- intros t1 H1. apply Fa in H1. apply Z.eqb_eq in H1. lia.
      * split; [intros (? & ? & ? & ?); discriminate|]. intros (_ & Hall). exfalso. revert Fa. apply Bool.not_false_iff_true. apply forallb_forall.
        intros t1 H1. rewrite (Hall t1 H1). apply Z.eqb_eq. lia.
    + split; [intros (? & ? & ? & ?); discriminate|]. intros ((t & Ht & Hu) & _). exfalso. revert Ex. apply Bool.not_false_iff_true. apply existsb_exists.
      exists t. split; [exact Ht|]. apply Bool.orb_true_iff. destruct Hu as [Hu|Hu]; [left|right]; now apply Z.ltb_lt.
  - symmetry. apply forallb_forall. intros me Hm. apply in_iota in Hm. unfold collectives. rewrite S. cbn [negb andb]. apply Nat.eqb_eq.
    f_equal. f_equal. unfold sizes. rewrite (nth_indep _ 0 (length (t_title t0))) by now rewrite map_length.
    rewrite (map_nth (fun t => length (t_title t)) (t0 :: ts) t0 me). rewrite (HF (nth me (t0 :: ts) t0)) by now apply nth_In. cbn [map nth]. symmetry. apply HF. now left.
Qed.
Print Assumptions C31_report.
Example C31_report_nonvacuous :
  exists t hs, run new_timer ex_calls = Ok (t, hs) /\ dump [t; t] = Some [Statistics "a" 5 5; Statistics "b" 3 3]%Z /\
    Forall (fun x => length (t_title x) = 2) [t; t].
Proof. do 2 eexists. split; [vm_compute; reflexivity|]. split; [vm_compute; reflexivity|]. repeat constructor. Qed.

(** ** Findings *)
(** Processes with different numbers of categories: process 0 prints a message and returns, the others wait for it forever. *)
Theorem C31_different_categories_hang_refuted :
  forall t0 t1, length (t_title t1) <> length (t_title t0) -> 0 < length (t_title t1) -> dump [t0; t1] = None.
Proof.
  intros t0 t1 H H0.
  assert (S : forallb (fun k => k =? hd 0 (sizes [t0; t1])) (sizes [t0; t1]) = false).
  { cbn [sizes map hd forallb]. destruct (Nat.eqb_spec (length (t_title t1)) (length (t_title t0))); [contradiction|]. apply Bool.andb_false_r. }
  assert (C0 : collectives [t0; t1] 0 = 2) by (unfold collectives; rewrite S; reflexivity).
  assert (C1 : collectives [t0; t1] 1 = 2 + 3 * length (t_title t1)) by (unfold collectives; rewrite S; reflexivity).
  unfold dump. change (iota (length [t0; t1])) with [0; 1]. cbn [forallb]. rewrite C0, C1.
  destruct (Nat.eqb_spec (2 + 3 * length (t_title t1)) 2); [lia|]. reflexivity.
Qed.
Print Assumptions C31_different_categories_hang_refuted.
Example C31_hang_nonvacuous :
  exists t0 t1, fst (create new_timer "a") = t0 /\ fst (create t0 "b") = t1 /\ length (t_title t1) <> length (t_title t0) /\ 0 < length (t_title t1).
Proof. do 2 eexists. repeat split; cbn; lia. Qed.
(** A stop that precedes its start goes unnoticed and the whole clock value is reported as time. *)
Theorem C31_stop_before_start_refuted :
  exists t hs, run new_timer [Create "a"; Stop 0 1000; Start 0 2000]%Z = Ok (t, hs) /\ dump [t] = Some [Statistics "a" 1000 1000]%Z.
Proof. do 2 eexists. split; vm_compute; reflexivity. Qed.
Print Assumptions C31_stop_before_start_refuted.

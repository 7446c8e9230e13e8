(** Proofs for the shuffler over Global Arrays: every step keeps the invariant, and some rank can always go on. *)
From Coq Require Import Ascii.
From Verif Require Import Prelude GAModel ParModel GsModel GsProofs.

Ltac Zify.zify_post_hook ::= Z.to_euclidean_division_equations.

Section GsP2.
Context {T : Type}.
Variable ser : list T -> list ascii.
Variable unser : list ascii -> option (list T).
Hypothesis Huns : forall v pad, unser (ser v ++ pad)%list = Some v.
Hypothesis Hne : forall v, ser v <> [].
Variable n : nat.
Variable rs : list (list T * list (list T)).
Notation own q := (fst (nth q rs ([], []))).
Notation msg s p := (nth p (snd (nth s rs ([], []))) []).
Notation buf s p := (words (ser (msg s p))).
Notation bufsOf s := (buffers ser n s (snd (nth s rs ([], [])))).
Notation sizesOf s := (map (@length _) (bufsOf s)).
Notation rank := (@rank T).
Notation gstate := (@gstate T).
Notation Inv := (Inv ser n rs).
Notation rank_ok := (rank_ok ser n rs).
Notation at_ := (@at_ T n).
Notation waiting := (@waiting T n).
Notation done := (@done T n).
Notation vis := (vis ser n rs).
Notation quiet := (@quiet T n).
Notation recv := (recv rs).

Lemma rk_upd s s' q (r' : rank) q' : gs_ranks s' = upd (gs_ranks s) q r' -> q < length (gs_ranks s) ->
  rk s' q' = if q' =? q then r' else rk s q'.
Proof.
  intros E H. unfold rk. rewrite E. destruct (Nat.eqb_spec q' q) as [-> |D]; [now apply upd_same|apply upd_other; congruence].
Qed.

Lemma rk_upd1 (s : gstate) g rw q (r' : rank) q' : q < length (gs_ranks s) ->
  rk (Gstate g rw (upd (gs_ranks s) q r')) q' = if q' =? q then r' else rk s q'.
Proof. intros H. now apply rk_upd. Qed.

Lemma rank_in_out q r : rank_ok q r -> rk_out r <= rk_in r <= S (rk_out r).
Proof.
  intros (_ & [(j & k & H & _)|[(j & H & _)|[H _]]]).
  - destruct H as (_ & _ & _ & A & B). lia.
  - destruct H as (_ & _ & A & B). lia.
  - destruct H as (_ & A & B). lia.
Qed.

Lemma inv_upd s s' q r' : Inv s -> q < n -> gs_ranks s' = upd (gs_ranks s) q r' ->
  length (gs_sizes s') = n -> length (gs_rows s') = n ->
  (forall row q p, In row (gs_rows s') -> q < n -> p < n -> q <> p -> length (buf q p) <= length row) ->
  rank_ok q r' -> rk_in (rk s q) <= rk_in r' -> rk_out (rk s q) <= rk_out r' ->
  (forall q', q' < n -> q' <> q -> rk_out r' <= rk_in (rk s q')) ->
  (forall q0 o, q0 < n -> q0 <> q -> quiet s' q0 -> 2 * q0 <= rk_in (rk s q0) -> In o (puts n q0) -> vis s q0 o -> vis s' q0 o) ->
  (forall k, at_ q r' (2 * q) k -> quiet s' q -> forall o, In o (firstn k (puts n q)) -> vis s' q o) ->
  (2 * q < rk_in r' -> quiet s' q -> forall o, In o (puts n q) -> vis s' q o) -> Inv s'.
Proof.
  intros I Hq E L1 L2 W R HI HO HS HV HA HL.
  assert (Hk : forall q', rk s' q' = if q' =? q then r' else rk s q') by (intros q'; apply rk_upd; [exact E|rewrite (i_len I); exact Hq]).
  assert (Hquiet : forall q0, quiet s' q0 -> quiet s q0).
  { intros q0 Q q' H. specialize (Q q' H). rewrite Hk in Q. destruct (Nat.eqb_spec q' q) as [Eq|D]; [subst q'|]; lia. }
  constructor; auto.
  - rewrite E, upd_length. apply (i_len I).
  - intros q' H. rewrite Hk. destruct (Nat.eqb_spec q' q) as [-> |D]; [exact R|now apply (i_rk I)].
  - intros a b Ha Hb. rewrite !Hk. pose proof (rank_in_out R) as RO.
    destruct (Nat.eqb_spec a q) as [-> |Da], (Nat.eqb_spec b q) as [-> |Db].
    + lia.
    + now apply HS.
    + pose proof (@i_sync _ _ _ _ _ I a q Ha Hq). lia.
    + now apply (i_sync I).
  - intros a k Ha. rewrite Hk. destruct (Nat.eqb_spec a q) as [-> |Da]; [apply HA|].
    intros A Q o Ho. assert (Ho' : In o (puts n a)).
    { clear -Ho. revert k Ho. generalize (puts n a) as l. induction l as [|x l IH]; intros [|k] H; cbn in *; try tauto.
      destruct H as [-> |H]; [auto|right; now apply (IH k)]. }
    apply (HV a o); auto.
    + destruct A as (_ & _ & _ & A & _). lia.
    + apply (@i_at _ _ _ _ _ I a k Ha A (Hquiet _ Q)). exact Ho.
  - intros a Ha. rewrite Hk. destruct (Nat.eqb_spec a q) as [-> |Da]; [apply HL|].
    intros A Q o Ho. apply (HV a o); auto; [lia|]. now apply (@i_all _ _ _ _ _ I a Ha A (Hquiet _ Q)).
Qed.

Lemma vis_same s s' q o : gs_sizes s' = gs_sizes s -> gs_rows s' = gs_rows s -> vis s q o -> vis s' q o.
Proof. intros E1 E2. destruct o; cbn; rewrite ?E1, ?E2; auto. Qed.

(** A rank that reads sees what the source of the pass has written *)
Lemma reader_sees s q src k : Inv s -> q < n -> q <> src -> at_ q (rk s q) (S (2 * src)) k ->
  forall o, In o (puts n src) -> vis s src o.
Proof.
  intros I Hq D (A1 & A2 & A3 & A4 & A5) o Ho. assert (Hs : src < n) by lia.
  assert (Q : quiet s src).
  { intros q' H'. destruct H' as [H1 H2]. pose proof (@i_sync _ _ _ _ _ I q' q H2 Hq). lia. }
  apply (@i_all _ _ _ _ _ I src Hs); auto.
  pose proof (@i_sync _ _ _ _ _ I q src Hq Hs). lia.
Qed.

Lemma nth_error_phase_even q s k o : nth_error (phase n q (2 * s)) k = Some o -> q = s /\ nth_error (puts n q) k = Some o.
Proof. rewrite phase_even. destruct (Nat.eqb_spec q s); [auto|]. destruct k; discriminate. Qed.
Lemma nth_error_phase_odd q s k o : nth_error (phase n q (S (2 * s))) k = Some o -> q <> s /\ ((k = 0 /\ o = GetSize) \/ (k = 1 /\ o = GetRow)).
Proof.
  rewrite phase_odd. destruct (Nat.eqb_spec q s); [destruct k; discriminate|]. destruct k as [|[|[|k]]]; cbn; intros E; try discriminate;
  injection E as <-; auto.
Qed.

Lemma even_or_odd j : (exists s, j = 2 * s) \/ (exists s, j = S (2 * s)).
Proof. assert (j = 2 * (j / 2) \/ j = S (2 * (j / 2))) as [E|E] by lia; rewrite E; eauto. Qed.
Lemma odd_even s : Nat.odd (2 * s) = false.
Proof. unfold Nat.odd. now rewrite Nat.even_mul. Qed.
Lemma odd_odd s : Nat.odd (S (2 * s)) = true.
Proof. rewrite Nat.odd_succ. now rewrite Nat.even_mul. Qed.
Lemma nrec_even s k : nrec (2 * s) k = s.
Proof. unfold nrec. rewrite odd_even. cbn [andb]. lia. Qed.
Lemma nrec_odd s k : nrec (S (2 * s)) k = if 2 <=? k then S s else s.
Proof. unfold nrec. rewrite odd_odd. cbn [andb]. destruct (2 <=? k); lia. Qed.

Lemma at_todo q (r r' : rank) j k o : at_ q r j k -> nth_error (phase n q j) k = Some o ->
  rk_todo r' = (skipn (S k) (phase n q j) ++ Arrive :: Go :: rest n q (S j))%list -> rk_in r' = rk_in r -> rk_out r' = rk_out r ->
  at_ q r' j (S k).
Proof.
  intros (A1 & A2 & A3 & A4 & A5) E F G H. assert (k < length (phase n q j)) by (apply nth_error_Some; congruence).
  repeat split; auto; try lia; congruence.
Qed.

Lemma firstn_S_in {A} (l : list A) k x y : nth_error l k = Some x -> In y (firstn (S k) l) -> In y (firstn k l) \/ y = x.
Proof.
  revert k. induction l as [|z l IH]; intros [|k] E H; cbn in *; try discriminate.
  - injection E as ->. destruct H as [H|[]]. auto.
  - destruct H as [H|H]; [auto|]. destruct (IH k E H) as [G|G]; auto.
Qed.

Theorem step_keeps s q o : Inv s -> q < n -> gstep unser s q = Some o ->
  exists s' r', o = Ok s' /\ Inv s' /\ gs_ranks s' = upd (gs_ranks s) q r' /\ S (length (rk_todo r')) = length (rk_todo (rk s q)).
Proof.
  intros I Hq. unfold gstep. rewrite (@nth_error_nth' _ _ _ (@dfl T)) by (rewrite (i_len I); exact Hq).
  change (nth q (gs_ranks s) dfl) with (rk s q).
  pose proof (@i_rk _ _ _ _ _ I q Hq) as R. destruct R as ((F1 & F2) & R).
  destruct R as [(j & k & A & Hloc & Hreg)|[(j & Wt & Hloc)|[D Hloc]]].
  - destruct (rk_todo (rk s q)) as [|o1 l] eqn:Et.
    { exfalso. destruct A as (_ & _ & A3 & _). rewrite Et in A3. destruct (skipn k (phase n q j)); discriminate. }
    destruct (at_cases A Et) as [(Hk & En & El)|(Hk & -> & El)].
    + destruct (even_or_odd j) as [(s0 & ->)|(s0 & ->)].
      * (* writing *)
        pose proof En as En'. apply nth_error_phase_even in En as [<- Ep].
        assert (Hin : In o1 (puts n q)) by (eapply nth_error_In; exact Ep).
        assert (A' := A). destruct A' as (A1 & A2 & A3 & A4 & A5).
        assert (Hother : forall q0, q0 < n -> q0 <> q -> forall s', (forall q', rk_out (rk s' q') = rk_out (rk s q')) -> quiet s' q0 -> 2 * q0 <= rk_in (rk s q0) -> False).
        { intros q0 H0 D s' Eo Q H1. destruct (Nat.lt_ge_cases q0 q) as [L|L].
          - specialize (Q q (conj L Hq)). rewrite Eo in Q. lia.
          - pose proof (@i_sync _ _ _ _ _ I q0 q H0 Hq). pose proof (rank_in_out (@i_rk _ _ _ _ _ I q0 H0)). lia. }
        assert (Hat' : at_ q (with_todo (rk s q) l) (2 * q) (S k)).
        { eapply at_todo; [exact A|exact En'|rewrite <- El; reflexivity|reflexivity|reflexivity]. }
        assert (Hok : rank_ok q (with_todo (rk s q) l)).
        { split; [split; [exact F1|exact F2]|]. left. exists (2 * q), (S k). split; [exact Hat'|]. split.
          - cbn [with_todo rk_loc]. rewrite Hloc, !nrec_even. reflexivity.
          - rewrite odd_even. discriminate. }
        assert (Eout : forall g rw q', rk_out (rk (Gstate g rw (upd (gs_ranks s) q (with_todo (rk s q) l))) q') = rk_out (rk s q')).
        { intros g rw q'. rewrite rk_upd1 by (rewrite (i_len I); exact Hq).
          destruct (Nat.eqb_spec q' q) as [-> |]; reflexivity. }
        assert (Eq' : forall g rw, quiet (Gstate g rw (upd (gs_ranks s) q (with_todo (rk s q) l))) q -> quiet s q).
        { intros g rw Q q' H'. specialize (Q q' H'). now rewrite Eout in Q. }
        destruct (in_puts Hin) as [-> |(p & -> & Hp & Dp)].
        -- (* sizes *)
           intros E. injection E as <-. unfold ga_put. rewrite F1, sizesOf_len, (i_sz I). cbn [Nat.add]. rewrite Nat.leb_refl. cbn [obind firstn app].
           rewrite skipn_all2 by (rewrite (i_sz I); lia). rewrite app_nil_r.
           eexists _, _. split; [reflexivity|]. split; [|split; [reflexivity|cbn [with_todo rk_todo]; reflexivity]].
           eapply (@inv_upd s _ q (with_todo (rk s q) l) I Hq); [reflexivity|..]; cbn [gs_sizes gs_rows].
           ++ rewrite map_length, sizesOf_len. reflexivity.
           ++ apply (i_rows I).
           ++ apply (i_wid I).
           ++ exact Hok.
           ++ cbn. lia.
           ++ cbn. lia.
           ++ intros q' H' D'. cbn [with_todo rk_out]. now apply (i_sync I).
           ++ intros q0 o H0 D0 Q H1. exfalso. eapply (Hother q0 H0 D0); [intros q'; apply Eout|exact Q|exact H1].
           ++ intros k' Ak' Q o Ho. destruct (at_inj Hat' Ak') as [_ <-].
              destruct (@firstn_S_in _ _ _ _ _ Ep Ho) as [Ho'| ->]; [|reflexivity].
              pose proof (@i_at _ _ _ _ _ I q k Hq A (Eq' _ _ Q) o Ho') as V.
              destruct o; cbn in V |- *; auto.
           ++ cbn [with_todo rk_in]. lia.
        -- (* a row *)
           cbn zeta. rewrite F2, bufsOf_nth by exact Hp. destruct (Nat.eqb_spec p q) as [Cc|_]; [congruence|].
           rewrite (@nth_error_nth' (garray word) (gs_rows s) p []) by (rewrite (i_rows I); exact Hp).
           set (row := nth p (gs_rows s) []).
           assert (Hrow : In row (gs_rows s)) by (apply nth_In; rewrite (i_rows I); exact Hp).
           assert (Lw : length (buf q p) <= length row) by (apply (@i_wid _ _ _ _ _ I row q p Hrow Hq Hp); congruence).
           intros E. injection E as <-.
           destruct (buf q p) as [|w0 b] eqn:Eb; [exfalso; refine (@buf_nonempty T ser Hne rs q p Eb)|].
           rewrite <- Eb in *. unfold ga_put. cbn [Nat.add]. rewrite (proj2 (Nat.leb_le _ _) Lw). cbn [obind firstn app].
           eexists _, _. split; [reflexivity|]. split; [|split; [reflexivity|cbn [with_todo rk_todo]; reflexivity]].
           set (row' := (map Some (buf q p) ++ skipn (length (buf q p)) row)%list).
           assert (Lrow : length row' = length row).
           { unfold row'. rewrite app_length, map_length, skipn_length. lia. }
           eapply (@inv_upd s _ q (with_todo (rk s q) l) I Hq); [reflexivity|..]; cbn [gs_sizes gs_rows].
           ++ apply (i_sz I).
           ++ rewrite upd_length. apply (i_rows I).
           ++ intros row0 q0 p0 H0. apply In_upd in H0 as [-> |H0]; [rewrite Lrow; now apply (i_wid I)|now apply (i_wid I)].
           ++ exact Hok.
           ++ cbn. lia.
           ++ cbn. lia.
           ++ intros q' H' D'. cbn [with_todo rk_out]. now apply (i_sync I).
           ++ intros q0 o H0 D0 Q H1. exfalso. eapply (Hother q0 H0 D0); [intros q'; apply Eout|exact Q|exact H1].
           ++ intros k' Ak' Q o Ho. destruct (at_inj Hat' Ak') as [_ <-].
              assert (Vp : vis (Gstate (gs_sizes s) (upd (gs_rows s) p row') (upd (gs_ranks s) q (with_todo (rk s q) l))) q (PutRow p)).
              { cbn [GsProofs.vis gs_rows]. rewrite upd_same by (rewrite (i_rows I); exact Hp). apply firstn_put. }
              destruct (@firstn_S_in _ _ _ _ _ Ep Ho) as [Ho'| ->]; [|exact Vp].
              pose proof (@i_at _ _ _ _ _ I q k Hq A (Eq' _ _ Q) o Ho') as V.
              destruct o as [|p1| | | |]; auto.
              destruct (Nat.eq_dec p1 p) as [-> |Dpp]; [exact Vp|].
              cbn [GsProofs.vis gs_rows] in V |- *. rewrite upd_other by congruence. exact V.
           ++ cbn [with_todo rk_in]. lia.
      * (* reading *)
        pose proof En as En'. apply nth_error_phase_odd in En as [Dq Hc].
        assert (A' := A). destruct A' as (A1 & A2 & A3 & A4 & A5).
        pose proof (@reader_sees s q s0 k I Hq Dq A) as See.
        assert (Hs0 : s0 < n) by lia.
        assert (Gen : forall r', fixed ser n rs q r' -> at_ q r' (S (2 * s0)) (S k) -> rk_loc r' = (own q ++ recv q (nrec (S (2 * s0)) (S k)))%list ->
                       (S k = 1 -> rk_size r' = length (buf s0 q)) -> Inv (set_rank s q r')).
        { intros r' Fx At Lc Rg. pose proof At as (B1 & B2 & B3 & B4 & B5).
          eapply (@inv_upd s _ q r' I Hq); [reflexivity|..]; cbn [set_rank gs_sizes gs_rows].
          - apply (i_sz I).
          - apply (i_rows I).
          - apply (i_wid I).
          - split; [exact Fx|]. left. exists (S (2 * s0)), (S k). split; [exact At|]. split; [exact Lc|].
            intros _ Ek. replace (S (2 * s0) / 2) with s0 by lia. now apply Rg.
          - lia.
          - lia.
          - intros q' H' D'. rewrite B5, <- A5. now apply (i_sync I).
          - intros q0 ox H0 D0 Q H1 H2. now apply vis_same.
          - intros k' Ak'. destruct Ak' as (_ & _ & _ & E & _). rewrite B4 in E. lia.
          - intros Hlt Q o' Ho'. apply (@vis_same s); [reflexivity|reflexivity|].
            apply (@i_all _ _ _ _ _ I q Hq); auto; [lia|].
            intros q' H'. specialize (Q q' H'). unfold set_rank in Q. rewrite rk_upd1 in Q by (rewrite (i_len I); exact Hq).
            destruct (Nat.eqb_spec q' q) as [Eqq|_]; [lia|exact Q]. }
        destruct Hc as [[-> ->]|[-> ->]].
        -- (* the size *)
           intros E. injection E as <-.
           assert (Vs : gs_sizes s = map Some (sizesOf s0)) by (apply (See PutSizes); left; reflexivity).
           unfold ga_get. rewrite Vs, map_length, sizesOf_len. rewrite (proj2 (Nat.leb_le (q + 1) n)) by lia.
           assert (Ex : firstn 1 (skipn q (map Some (sizesOf s0))) = [Some (length (buf s0 q))]).
           { rewrite <- (@sizesOf_nth T ser n rs s0 q Hq) by congruence.
             assert (Lq : q < length (sizesOf s0)) by (rewrite sizesOf_len; exact Hq).
             clear - Lq. revert q Lq. generalize (sizesOf s0) as l0. induction l0 as [|y l0 IH]; intros [|q] L; cbn in *; try lia; auto. apply IH; lia. }
           rewrite Ex. cbn [all_written obind hd].
           eexists _, _. split; [reflexivity|]. split; [|split; [reflexivity|cbn [rk_todo]; reflexivity]].
           apply Gen.
           ++ split; [exact F1|exact F2].
           ++ eapply at_todo; [exact A|exact En'|rewrite <- El; reflexivity|reflexivity|reflexivity].
           ++ cbn [rk_loc]. rewrite Hloc, !nrec_odd. reflexivity.
           ++ reflexivity.
        -- (* the row *)
           assert (Er : rk_size (rk s q) = length (buf s0 q)).
           { rewrite Hreg; [|apply odd_odd|reflexivity]. replace (S (2 * s0) / 2) with s0 by lia. reflexivity. }
           rewrite Er. destruct (Nat.eqb_spec (length (buf s0 q)) 0) as [E0|_].
           { exfalso. apply length_zero_iff_nil in E0. refine (@buf_nonempty T ser Hne rs s0 q E0). }
           rewrite (@nth_error_nth' (garray word) (gs_rows s) q []) by (rewrite (i_rows I); exact Hq).
           set (row := nth q (gs_rows s) []).
           assert (Hrow : In row (gs_rows s)) by (apply nth_In; rewrite (i_rows I); exact Hq).
           assert (Lw : length (buf s0 q) <= length row) by (apply (@i_wid _ _ _ _ _ I row s0 q Hrow Hs0 Hq); congruence).
           assert (Vr : firstn (length (buf s0 q)) row = map Some (buf s0 q)).
           { apply (See (PutRow q)). right. apply in_map_iff. exists q. split; [reflexivity|]. apply filter_In. split; [now apply in_iota|].
             destruct (Nat.eqb_spec q s0); [congruence|reflexivity]. }
           intros E. injection E as <-.
           unfold ga_get. cbn [Nat.add]. rewrite (proj2 (Nat.leb_le _ _) Lw). cbn [skipn]. rewrite Vr, all_written_some. cbn [obind].
           destruct (words_bytes (ser (msg s0 q))) as (pad & Ew). rewrite Ew, Huns.
           eexists _, _. split; [reflexivity|]. split; [|split; [reflexivity|cbn [rk_todo]; reflexivity]].
           apply Gen.
           ++ split; [exact F1|exact F2].
           ++ eapply at_todo; [exact A|exact En'|rewrite <- El; reflexivity|reflexivity|reflexivity].
           ++ cbn [rk_loc]. rewrite Hloc, !nrec_odd. cbn [Nat.leb]. rewrite recv_S, <- app_assoc.
              destruct (Nat.eqb_spec s0 q); [congruence|reflexivity].
           ++ discriminate.
    + (* arriving *)
      intros E. injection E as <-. eexists _, _. split; [reflexivity|]. split; [|split; [reflexivity|cbn [rk_todo]; reflexivity]].
      assert (A' := A). destruct A' as (A1 & A2 & A3 & A4 & A5).
      eapply (@inv_upd s _ q _ I Hq); [reflexivity|..]; cbn [set_rank gs_sizes gs_rows rk_in rk_out].
      * apply (i_sz I).
      * apply (i_rows I).
      * apply (i_wid I).
      * split; [split; [exact F1|exact F2]|]. right. left. exists j. split.
        -- repeat split; cbn; auto; congruence.
        -- cbn [rk_loc]. rewrite Hloc. f_equal. destruct (even_or_odd j) as [(s0 & ->)|(s0 & ->)].
           ++ rewrite nrec_even. f_equal. lia.
           ++ rewrite nrec_odd, Hk, phase_odd. replace (S (S (2 * s0)) / 2) with (S s0) by lia.
              destruct (Nat.eqb_spec q s0) as [-> |Dq]; cbn [length Nat.leb]; [|reflexivity].
              rewrite recv_S, Nat.eqb_refl, app_nil_r. reflexivity.
      * lia.
      * lia.
      * intros q' H' D'. now apply (i_sync I).
      * intros q0 ox H0 D0 Q H1 H2. now apply vis_same.
      * intros k' (_ & _ & _ & E1 & E2). cbn in E1, E2. lia.
      * intros Hlt Q o' Ho'. apply (@vis_same s); [reflexivity|reflexivity|].
        assert (Q' : quiet s q).
        { intros q' H'. specialize (Q q' H'). unfold set_rank in Q. rewrite rk_upd1 in Q by (rewrite (i_len I); exact Hq).
          destruct (Nat.eqb_spec q' q) as [Eqq|_]; [lia|exact Q]. }
        destruct (Nat.eq_dec j (2 * q)) as [-> |Dj].
        -- apply (@i_at _ _ _ _ _ I q k Hq A Q'). rewrite Hk, phase_even, Nat.eqb_refl, firstn_all. exact Ho'.
        -- apply (@i_all _ _ _ _ _ I q Hq); auto. lia.
  - (* going on *)
    destruct Wt as (W1 & W2 & W3 & W4). rewrite W2.
    destruct (forallb _ _) eqn:Ef; [|discriminate].
    intros E. injection E as <-. eexists _, _. split; [reflexivity|]. split; [|split; [reflexivity|cbn [rk_todo]; reflexivity]].
    rewrite forallb_forall in Ef.
    assert (Hgo : forall q', q' < n -> S j <= rk_in (rk s q')).
    { intros q' H'. specialize (Ef (rk s q')). rewrite W4 in Ef. apply Nat.ltb_lt. apply Ef. unfold rk. apply nth_In. rewrite (i_len I). exact H'. }
    eapply (@inv_upd s _ q _ I Hq); [reflexivity|..]; cbn [set_rank gs_sizes gs_rows rk_in rk_out].
    + apply (i_sz I).
    + apply (i_rows I).
    + apply (i_wid I).
    + split; [split; [exact F1|exact F2]|]. destruct (Nat.eq_dec (S j) (2 * n)) as [Ej|Dj].
      * right. right. split.
        -- repeat split; cbn; try lia. rewrite Ej. apply rest_end.
        -- cbn [rk_loc]. rewrite Hloc. f_equal. f_equal. lia.
      * left. exists (S j), 0. split; [|split].
        -- repeat split; cbn; try lia. apply rest_step. lia.
        -- cbn [rk_loc]. rewrite Hloc. f_equal. f_equal. unfold nrec. rewrite andb_false_r. lia.
        -- discriminate.
    + lia.
    + lia.
    + intros q' H' D'. rewrite W4. now apply Hgo.
    + intros q0 ox H0 D0 Q H1 H2. now apply vis_same.
    + intros k' Ak' Q ox Ho. assert (k' = 0).
      { pose proof Ak' as (_ & _ & _ & E1 & E2). cbn in E1, E2.
        assert (A0 : at_ q (Rank (rest n q (S j)) (rk_in (rk s q)) (S (rk_out (rk s q))) (rk_size (rk s q)) (rk_loc (rk s q)) (rk_sizes (rk s q)) (rk_bufs (rk s q))) (2 * q) 0).
        { assert (Ej : 2 * q = S j) by lia. rewrite Ej. repeat split; cbn [rk_todo rk_in rk_out]; try lia. apply rest_step. lia. }
        now destruct (at_inj Ak' A0). }
      subst k'. destruct Ho.
    + intros Hlt Q o' Ho'. apply (@vis_same s); [reflexivity|reflexivity|]. apply (@i_all _ _ _ _ _ I q Hq); auto.
      intros q' H'. specialize (Q q' H'). unfold set_rank in Q. rewrite rk_upd1 in Q by (rewrite (i_len I); exact Hq).
      destruct (Nat.eqb_spec q' q) as [Eqq|_]; [lia|exact Q].
  - destruct D as (D1 & _). rewrite D1. discriminate.
Qed.

(** Some rank can take a step unless all have returned: one with the fewest syncs behind it *)
Theorem progress s : Inv s -> returned s = false -> exists q o, q < n /\ gstep unser s q = Some o.
Proof.
  intros I E.
  assert (M : forall m, (exists q, q < n /\ rk_todo (rk s q) <> [] /\ rk_out (rk s q) <= m) ->
    exists q, q < n /\ rk_todo (rk s q) <> [] /\ forall q', q' < n -> rk_todo (rk s q') <> [] -> rk_in (rk s q) <= rk_in (rk s q')).
  { intros m _. clear m.
    assert (G : forall m q, q < n -> rk_todo (rk s q) <> [] -> rk_in (rk s q) <= m ->
      exists q0, q0 < n /\ rk_todo (rk s q0) <> [] /\ forall q', q' < n -> rk_todo (rk s q') <> [] -> rk_in (rk s q0) <= rk_in (rk s q')).
    { induction m as [|m IH]; intros q Hq Ht Hm.
      - exists q. repeat split; auto. intros. lia.
      - destruct (existsb (fun q' => match rk_todo (rk s q') with [] => false | _ => true end && (rk_in (rk s q') <=? m)) (iota n)) eqn:Ex.
        + apply existsb_exists in Ex as (q' & Hin & H). apply in_iota in Hin. apply andb_true_iff in H as [H1 H2]. apply Nat.leb_le in H2.
          apply (IH q' Hin); auto. destruct (rk_todo (rk s q')); [discriminate|congruence].
        + exists q. repeat split; auto. intros q' H' T'. destruct (Nat.le_gt_cases (rk_in (rk s q')) m) as [L|L]; [|lia].
          assert (X : existsb (fun q' => match rk_todo (rk s q') with [] => false | _ => true end && (rk_in (rk s q') <=? m)) (iota n) = true).
          { apply existsb_exists. exists q'. split; [now apply in_iota|]. rewrite (proj2 (Nat.leb_le _ _) L).
            destruct (rk_todo (rk s q')); [congruence|reflexivity]. }
          congruence. }
    assert (Hex : exists q, q < n /\ rk_todo (rk s q) <> []).
    { unfold returned in E.
      assert (Hx : exists r, In r (gs_ranks s) /\ rk_todo r <> []).
      { clear -E. induction (gs_ranks s) as [|r l IH]; cbn in E; [discriminate|].
        destruct (rk_todo r) eqn:Er; [|exists r; split; [now left|congruence]].
        destruct (IH E) as (r0 & H1 & H2). exists r0. split; [now right|exact H2]. }
      destruct Hx as (r & Hin & Hr). destruct (In_nth _ _ (@dfl T) Hin) as (q & Hq & Er). exists q. rewrite (i_len I) in Hq.
      split; [exact Hq|]. unfold rk. now rewrite Er. }
    destruct Hex as (q & Hq & Ht). apply (G (rk_in (rk s q)) q Hq Ht). lia. }
  assert (Hex : exists q, q < n /\ rk_todo (rk s q) <> [] /\ rk_out (rk s q) <= 2 * n).
  { unfold returned in E.
    assert (Hx : exists r, In r (gs_ranks s) /\ rk_todo r <> []).
    { clear -E. induction (gs_ranks s) as [|r l IH]; cbn in E; [discriminate|].
      destruct (rk_todo r) eqn:Er; [|exists r; split; [now left|congruence]].
      destruct (IH E) as (r0 & H1 & H2). exists r0. split; [now right|exact H2]. }
    destruct Hx as (r & Hin & Hr). destruct (In_nth _ _ (@dfl T) Hin) as (q & Hq & Er). exists q. rewrite (i_len I) in Hq.
    split; [exact Hq|]. split; [unfold rk; now rewrite Er|].
    pose proof (@i_rk _ _ _ _ _ I q Hq) as (_ & [(j & k & A & _)|[(j & A & _)|[A _]]]).
    - destruct A as (A1 & _ & _ & _ & A5). lia.
    - destruct A as (A1 & _ & _ & A5). lia.
    - destruct A as (_ & _ & A5). lia. }
  destruct (M (2 * n) Hex) as (q & Hq & Ht & Hmin). exists q.
  pose proof (@i_rk _ _ _ _ _ I q Hq) as (_ & [(j & k & A & _)|[(j & A & _)|[A _]]]).
  - destruct A as (A1 & A2 & A3 & A4 & A5).
    assert (Ng : forall l, rk_todo (rk s q) <> Go :: l).
    { intros l El. rewrite A3 in El. destruct (even_or_odd j) as [(s0 & ->)|(s0 & ->)].
      - rewrite phase_even in El. destruct (q =? s0).
        + destruct (skipn k (puts n q)) as [|o l0] eqn:Es; [discriminate|]. injection El as -> _.
          assert (Hin : In Go (puts n q)). { rewrite <- (firstn_skipn k (puts n q)), Es. apply in_or_app. right. now left. }
          destruct (in_puts Hin) as [X|(p & X & _)]; discriminate.
        + rewrite skipn_nil in El. discriminate.
      - rewrite phase_odd in El. destruct (q =? s0); [rewrite skipn_nil in El; discriminate|]. destruct k as [|[|k]]; cbn in El; try discriminate.
        rewrite skipn_nil in El. discriminate. }
    unfold gstep. rewrite (@nth_error_nth' _ _ _ (@dfl T)) by (rewrite (i_len I); exact Hq).
    change (nth q (gs_ranks s) dfl) with (rk s q).
    destruct (rk_todo (rk s q)) as [|o l] eqn:Eo; [congruence|]. destruct o; try (eexists; split; [exact Hq|reflexivity]).
    exfalso. exact (Ng _ eq_refl).
  - destruct A as (A1 & A2 & A3 & A4). unfold gstep. rewrite (@nth_error_nth' _ _ _ (@dfl T)) by (rewrite (i_len I); exact Hq).
    change (nth q (gs_ranks s) dfl) with (rk s q). rewrite A2.
    assert (F : forallb (fun x : rank => rk_out (rk s q) <? rk_in x) (gs_ranks s) = true).
    { apply forallb_forall. intros r Hin. destruct (In_nth _ _ (@dfl T) Hin) as (q' & Hq' & Er). rewrite (i_len I) in Hq'.
      change (rk s q' = r) in Er. subst r. apply Nat.ltb_lt.
      destruct (rk_todo (rk s q')) eqn:Et; [|assert (N : rk_todo (rk s q') <> []) by congruence; specialize (Hmin q' Hq' N); lia].
      pose proof (@i_rk _ _ _ _ _ I q' Hq') as (_ & [(j' & k' & B & _)|[(j' & B & _)|[B _]]]).
      - destruct B as (_ & _ & B3 & _). rewrite Et in B3. destruct (skipn k' (phase n q' j')); discriminate.
      - destruct B as (_ & B2 & _). congruence.
      - destruct B as (_ & B2 & _). lia. }
    rewrite F. eexists. split; [exact Hq|reflexivity].
  - destruct A as (A1 & _). congruence.
Qed.
End GsP2.

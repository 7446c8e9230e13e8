(** Proofs about RecModel: sections, devices on buses. *)
From Verif Require Import Prelude StrModel StrProofs StrProofs2 DCModel DCSpec DCProofs RecModel RecSpec RecProofs.
From Coq Require Import Ascii.
Open Scope nat_scope.

(** ** Sections *)
Lemma section_unfold {D} f (step : D -> list str -> outcome D) line st d :
  section (S f) step line st d =
    if test_end line then
      if check_comment line then section f step (fst (next_line st)) (snd (next_line st)) d
      else match obind (split_of (clean_comment line)) (step d) with
           | Ok d' => section f step (fst (next_line st)) (snd (next_line st)) d'
           | Throw => Some Throw
           | UB => Some UB
           end
    else Some (Ok (d, st)).
Proof. cbn [section]. destruct (next_line st). reflexivity. Qed.

Lemma parse_reads {D} (step : D -> list str -> outcome D) ls rs : reads ls rs ->
  forall fuel d d' term rest, test_end term = false -> steps step rs d = Ok d' -> length ls < fuel ->
    parse fuel step (ls ++ term :: rest)%list d = Some (Ok (d', rest)).
Proof.
  induction 1 as [|l ls rs [H1 H2] _ IH|l ls r rs (H1 & H2 & H3) _ IH]; intros fuel d d' term rest Ht Hs Hf.
  - destruct fuel; [cbn in Hf; lia|]. cbn in Hs. inversion Hs; subst. unfold parse. cbn [app next_line fst snd].
    rewrite section_unfold, Ht. reflexivity.
  - destruct fuel; [cbn in Hf; lia|]. unfold parse. cbn [app next_line fst snd]. rewrite section_unfold, H1, H2.
    apply (IH fuel d d' term rest); auto. cbn in Hf. lia.
  - destruct fuel; [cbn in Hf; lia|]. unfold parse. cbn [app next_line fst snd]. rewrite section_unfold, H1, H2, H3. cbn [obind].
    cbn [steps] in Hs. destruct (step d r) as [d1| |] eqn:E; try discriminate Hs. cbn [obind] in Hs.
    apply (IH fuel d1 d' term rest); auto. cbn in Hf. lia.
Qed.

(** Without a line ending the section the loop goes on with empty lines. *)
Lemma parse_unended {D} (step : D -> list str -> outcome D) ls rs : reads ls rs ->
  (forall d, step d [s_ "0"] = Ok d) -> forall d d', steps step rs d = Ok d' -> forall fuel, parse fuel step ls d = None.
Proof.
  intros H H0. assert (forall fuel d, section fuel step [] [] d = None) as X.
  { induction fuel as [|f IH]; intros d; [reflexivity|]. rewrite section_unfold. cbn [next_line fst snd].
    change (test_end []) with true. change (check_comment []) with false. cbv iota.
    change (split_of (clean_comment [])) with (Ok [s_ "0"]). cbn [obind]. rewrite H0. apply IH. }
  induction H as [|l ls rs [H1 H2] _ IH|l ls r rs (H1 & H2 & H3) _ IH]; intros d d' Hs fuel; unfold parse; cbn [next_line fst snd].
  - apply X.
  - destruct fuel; [reflexivity|]. rewrite section_unfold, H1, H2. exact (IH d d' Hs fuel).
  - destruct fuel; [reflexivity|]. rewrite section_unfold, H1, H2, H3. cbn [obind].
    cbn [steps] in Hs. destruct (step d r) as [d1| |] eqn:E; try discriminate Hs. cbn [obind] in Hs. exact (IH d1 d' Hs fuel).
Qed.

Lemma steps_app {D} (step : D -> list str -> outcome D) a b d :
  steps step (a ++ b)%list d = obind (steps step a d) (steps step b).
Proof. revert d; induction a as [|r a IH]; intros d; cbn [app steps]; [reflexivity|]. destruct (step d r); cbn [obind]; auto. Qed.

(** ** Devices *)
Section Dev.
Variable atof : str -> Z.
Variable names : list (str * Z).
Variable bmap : list (Z * nat).
Variable its : list item.
Variable dv : device.
Let N := flat_map item_names its.
Hypothesis Hcomp : compiles (columns 0 its) (dv_body dv).
Hypothesis Hnodup : NoDup (dv_count dv :: N).
Hypothesis Hcolon : forallb no_colon (dv_count dv :: N) = true.

Definition E_dev (b : Z) (r : list str) (n : Z) : list expectation := all_expect atof b r n (columns 0 its).
Definition read_ok (r : list str) : Prop := readable its 0 r.

Lemma N_colon : forall x, In x N -> no_colon x = true.
Proof. intros x Hx. rewrite forallb_forall in Hcolon. apply Hcolon. now right. Qed.
Lemma cnt_colon : no_colon (dv_count dv) = true.
Proof. rewrite forallb_forall in Hcolon. apply Hcolon. now left. Qed.
Lemma cnt_notin : ~ In (dv_count dv) N.
Proof. now inversion Hnodup. Qed.
Lemma E_dev_names b r n s t v : In (s, t, v) (E_dev b r n) ->
  In (slot_name s) N /\ match s with Indexed _ i => i = n | Plain _ => n = 0%Z end.
Proof. intros H. apply all_expect_names in H. unfold N. rewrite <- (columns_names 0 its). exact H. Qed.
Lemma E_dev_nodup b r n : NoDup (map e_slot (E_dev b r n)).
Proof. apply all_expect_nodup. rewrite columns_names. now inversion Hnodup. Qed.
Lemma E_dev_typed b r n s t v : In (s, t, Some v) (E_dev b r n) -> type_of v = t.
Proof. apply all_expect_typed. Qed.

Definition cslot : slot := Plain (dv_count dv).
Lemma cslot_good : slot_good cslot = true.
Proof. unfold slot_good. cbn. exact cnt_colon. Qed.

(** One collection after its records. *)
Definition State (b : Z) (ms : list (list str)) (d d' : dc) : Prop :=
  Stored (E_dev b) N ms d' /\
  (look d' TInt cslot = counter ms) /\
  (forall t s, slot_good s = true -> ~ In (slot_name s) (dv_count dv :: N) -> look d' t s = look d t s).

Lemma look_add_plain d name v t s : no_colon name = true -> slot_good s = true ->
  look (add_key d name v) t s =
  if slot_eq_dec (Plain name) s then if dtype_eq_dec (type_of v) t then match look d t s with Some w => Some w | None => Some v end
                                     else look d t s else look d t s.
Proof.
  intros Hn Hs. rewrite !look_good by exact Hs.
  assert (slot_good (Plain name) = true) as Hg by (unfold slot_good; cbn; exact Hn).
  change name with (slot_key (Plain name)) at 1. rewrite find_add, slot_good_eqb by assumption. unfold dtype_eqb.
  destruct (slot_eq_dec (Plain name) s) as [<-|]; cbn [andb]; [|reflexivity].
  destruct (dtype_eq_dec (type_of v) t); cbn [andb]; reflexivity.
Qed.
Lemma look_set_plain d name v t s : no_colon name = true -> slot_good s = true ->
  look (fst (set_key d name v)) t s =
  if slot_eq_dec (Plain name) s then if dtype_eq_dec (type_of v) t then match look d t s with Some w => Some v | None => None end
                                     else look d t s else look d t s.
Proof.
  intros Hn Hs. rewrite !look_good by exact Hs.
  assert (slot_good (Plain name) = true) as Hg by (unfold slot_good; cbn; exact Hn).
  change name with (slot_key (Plain name)) at 1. rewrite find_set, slot_good_eqb by assumption. unfold dtype_eqb.
  destruct (slot_eq_dec (Plain name) s) as [<-|]; cbn [andb]; [|reflexivity].
  destruct (dtype_eq_dec (type_of v) t); cbn [andb]; reflexivity.
Qed.

Lemma bump_other d n t s : slot_good s = true -> s <> cslot -> look (bump d (dv_count dv) n) t s = look d t s.
Proof.
  intros Hs Hne. unfold bump. destruct (n =? 0)%Z; [rewrite look_add_plain|rewrite look_set_plain]; auto using cnt_colon;
    destruct (slot_eq_dec (Plain (dv_count dv)) s); auto; subst; exfalso; apply Hne; reflexivity.
Qed.
Lemma bump_same d ms n : look d TInt cslot = counter ms -> n = Z.of_nat (length ms) ->
  look (bump d (dv_count dv) n) TInt cslot = Some (VInt (n + 1)).
Proof.
  intros Hl Hn. unfold bump. destruct (Z.eqb_spec n 0).
  - rewrite look_add_plain by auto using cnt_colon, cslot_good. fold cslot. destruct (slot_eq_dec cslot cslot); [|congruence].
    cbn [type_of]. destruct (dtype_eq_dec TInt TInt); [|congruence]. rewrite Hl. destruct ms; [|cbn in Hn; lia]. cbn. now subst.
  - rewrite look_set_plain by auto using cnt_colon, cslot_good. fold cslot. destruct (slot_eq_dec cslot cslot); [|congruence].
    cbn [type_of]. destruct (dtype_eq_dec TInt TInt); [|congruence]. rewrite Hl. destruct ms; [cbn in Hn; lia|]. reflexivity.
Qed.
Lemma count_look d : count_of d (dv_count dv) = match look d TInt cslot with Some (VInt z) => z | _ => 0%Z end.
Proof. rewrite look_good by apply cslot_good. reflexivity. Qed.
Lemma count_state b ms d d' : State b ms d d' -> count_of d' (dv_count dv) = Z.of_nat (length ms).
Proof. intros (_ & H & _). rewrite count_look, H. destruct ms; reflexivity. Qed.

Lemma state_step b ms d d' r : State b ms d d' -> read_ok r -> length ms < Z.to_nat 9999999 ->
  exists d'', exec atof (dv_body dv) d' b false r (Z.of_nat (length ms)) = Ok d'' /\
    State b (ms ++ [r]) d (bump d'' (dv_count dv) (Z.of_nat (length ms))).
Proof.
  intros (S1 & S2 & S3) [Hr1 Hr2] Hlen.
  rewrite (exec_compiled atof Hcomp) by (auto; exact Hr1).
  destruct (@stored_snoc _ (E_dev b) N (fun _ => True) (E_dev_names b) (fun r n _ => E_dev_nodup b r n) (E_dev_typed b) N_colon ms r d' I)
    as (d'' & Ed & T1 & T2); [lia|exact S1|].
  exists d''. split; [exact Ed|]. assert (look d'' TInt cslot = counter ms) as Hc.
  { rewrite T2; [exact S2|apply cslot_good|]. exact cnt_notin. }
  split; [|split].
  - apply (@stored_other _ (E_dev b) N (fun _ => True) (E_dev_names b) (fun r n _ => E_dev_nodup b r n) (E_dev_typed b) N_colon) with (d := d''); [|rewrite app_length; cbn; lia|exact T1].
    intros t s Hs Hn. apply bump_other; [exact Hs|]. intros ->. exact (cnt_notin Hn).
  - rewrite (bump_same _ _ Hc eq_refl). unfold counter. rewrite app_length, Nat2Z.inj_add. cbn [length].
    destruct ms; reflexivity.
  - intros t s Hs Hn. rewrite bump_other; [|exact Hs|intros ->; apply Hn; now left].
    rewrite T2; [apply S3; auto|exact Hs|]. intros X. apply Hn. now right.
Qed.

Lemma state_init b d : fresh (dv_count dv :: N) d -> State b [] d d.
Proof.
  intros Hf. split; [|split].
  - split; [|split].
    + intros [|i] r s t v Hi; discriminate Hi.
    + intros name i t Hname Hi. apply Hf; [|now right]. unfold slot_good. cbn [slot_ok slot_name]. rewrite (N_colon _ Hname), andb_true_r.
      cbn [length] in Hi. apply andb_true_iff. split; apply Z.leb_le; lia.
    + intros _ name t Hname. apply Hf; [|now right]. unfold slot_good. cbn. exact (N_colon _ Hname).
  - cbn. apply Hf; [apply cslot_good|now left].
  - reflexivity.
Qed.

Definition target (l : nat) (r : list str) : bool :=
  match bus_of names r with
  | Some o => negb (dv_skip_negative dv && (o <? 0)%Z) && match zfind bmap o with Some l' => l' =? l | None => false end
  | None => false
  end.
Definition bus_at (l : nat) (b : Z) : Prop := zfind bmap b = Some l.

Hypothesis Hmap1 : forall b l, zfind bmap b = Some l -> forall b', zfind bmap b' = Some l -> b = b'.

Lemma dev_steps rs : forall bs, (forall b l, zfind bmap b = Some l -> l < length bs) -> length rs <= Z.to_nat 9999999 ->
  (forall r, In r rs -> bus_of names r <> None) ->
  (forall r b l, In r rs -> bus_of names r = Some b -> zfind bmap b = Some l -> read_ok r) ->
  (forall d, In d bs -> fresh (dv_count dv :: N) d) ->
  exists bs', steps (dev_record atof dv names bmap) rs bs = Ok bs' /\ length bs' = length bs /\
    forall l d d', nth_error bs l = Some d -> nth_error bs' l = Some d' ->
      (forall b, zfind bmap b = Some l -> State b (filter (target l) rs) d d') /\
      ((forall b, zfind bmap b <> Some l) -> d' = d).
Proof.
  induction rs as [|r rs IH] using rev_ind; intros bs Hb Hlen Hk Hro Hfr.
  - exists bs. split; [reflexivity|]. split; [reflexivity|]. intros l d d' H1 H2. rewrite H1 in H2. inversion H2; subst. split; auto.
    intros b Hl. apply state_init. apply Hfr. eapply nth_error_In; eassumption.
  - rewrite app_length in Hlen. cbn in Hlen.
    destruct (IH bs) as (bs1 & Es & El & Hst); auto; [lia|intros; apply Hk; rewrite in_app_iff; auto|
      intros r' b l Hi; apply Hro; rewrite in_app_iff; auto|].
    rewrite steps_app, Es. cbn [obind]. cbn [steps].
    assert (In r (rs ++ [r])) as Hin by (rewrite in_app_iff; right; now left).
    destruct (bus_of names r) as [o|] eqn:Eo; [|exfalso; exact (Hk r Hin Eo)].
    assert (dev_record atof dv names bmap bs1 r =
      if dv_skip_negative dv && (o <? 0)%Z then Ok bs1
      else match zfind bmap o with
       | None => Ok bs1
       | Some l =>
         match nth_error bs1 l with
         | None => UB
         | Some d => let n := count_of d (dv_count dv) in
                     obind (exec atof (dv_body dv) d o false r n) (fun d' => Ok (upd bs1 l (bump d' (dv_count dv) n)))
         end
       end) as Er.
    { unfold bus_of in Eo. unfold dev_record. destruct r as [|t0 r]; [discriminate|]. cbn [field0 obind].
      destruct (get_bus_index (sfind names) t0); inversion Eo; subst. reflexivity. }
    rewrite Er. assert (forall l, filter (target l) (rs ++ [r]) = (filter (target l) rs ++ if target l r then [r] else []))%list as Ef.
    { intros l. rewrite filter_app. cbn [filter]. now destruct (target l r). }
    assert (forall l, (dv_skip_negative dv && (o <? 0)%Z = true \/ zfind bmap o <> Some l) -> target l r = false) as Ht0.
    { intros l H. unfold target. rewrite Eo. destruct (dv_skip_negative dv && (o <? 0)%Z); [reflexivity|]. cbn [negb andb].
      destruct H as [H|H]; [discriminate|]. destruct (zfind bmap o) as [l'|]; [|reflexivity]. apply Nat.eqb_neq. congruence. }
    destruct (dv_skip_negative dv && (o <? 0)%Z) eqn:Esk.
    { exists bs1. split; [reflexivity|]. split; [exact El|]. intros l d d' H1 H2. destruct (Hst l d d' H1 H2) as [A B]. split; [|exact B].
      intros b Hl. rewrite Ef, Ht0, app_nil_r by auto. auto. }
    destruct (zfind bmap o) as [l0|] eqn:Ez.
    2:{ exists bs1. split; [reflexivity|]. split; [exact El|]. intros l d d' H1 H2. destruct (Hst l d d' H1 H2) as [A B]. split; [|exact B].
      intros b Hl. rewrite Ef, Ht0, app_nil_r by (right; discriminate). auto. }
    assert (l0 < length bs) as Hl0 by (eapply Hb; eassumption).
    destruct (nth_error bs l0) as [d0|] eqn:En0; [|apply nth_error_None in En0; lia].
    destruct (nth_error bs1 l0) as [d1|] eqn:En1; [|apply nth_error_None in En1; lia].
    destruct (Hst _ _ _ En0 En1) as [A _]. specialize (A o Ez). cbv zeta.
    rewrite (count_state A).
    destruct (state_step (r := r) A) as (d2 & E2 & St2).
    { eapply Hro; eassumption. }
    { assert (forall f : list str -> bool, length (filter f rs) <= length rs) as X.
      { intros f. clear. induction rs as [|x rs IH]; cbn; [lia|]. destruct (f x); cbn; lia. }
      specialize (X (target l0)). lia. }
    rewrite E2. cbn [obind]. eexists. split; [reflexivity|]. split; [rewrite upd_length; exact El|].
    intros l d d' H1 H2. destruct (Nat.eq_dec l0 l) as [->|Nl].
    + rewrite nth_error_upd_same in H2 by lia. inversion H2; subst. rewrite En0 in H1. inversion H1; subst. split.
      * intros b Hl. assert (b = o) as -> by (eapply Hmap1; eassumption). rewrite Ef.
        assert (target l r = true) as ->. { unfold target. rewrite Eo, Esk. cbn [negb andb]. rewrite Ez. apply Nat.eqb_refl. }
        exact St2.
      * intros X. exfalso. exact (X o Ez).
    + rewrite nth_error_upd_other in H2 by exact Nl. destruct (Hst l d d' H1 H2) as [A' B']. split; [|exact B'].
      intros b Hl. rewrite Ef, Ht0, app_nil_r by (right; congruence). auto.
Qed.

(** Stated on the buses. *)
Lemma dev_devices rs bs : bus_map_ok bmap (length bs) -> length rs <= Z.to_nat 9999999 ->
  (forall r, In r rs -> bus_of names r <> None) ->
  (forall r b l, In r rs -> bus_of names r = Some b -> zfind bmap b = Some l -> readable its 0 r) ->
  (forall d, In d bs -> fresh (dv_count dv :: N) d) ->
  exists bs', steps (dev_record atof dv names bmap) rs bs = Ok bs' /\ length bs' = length bs /\
    forall l d d', nth_error bs l = Some d -> nth_error bs' l = Some d' ->
      (forall b, zfind bmap b = Some l -> (0 <= b)%Z ->
         let mine := filter (names_bus names b) rs in
         holds_devices atof its b mine d d' /\ look d' TInt (Plain (dv_count dv)) = counter mine /\
         (forall t s, slot_good s = true -> ~ In (slot_name s) (dv_count dv :: N) -> look d' t s = look d t s)) /\
      ((forall b, zfind bmap b <> Some l) -> d' = d).
Proof.
  intros [M1 M2] H2 H3 H4 H5. destruct (@dev_steps rs bs M1 H2 H3 H4 H5) as (bs' & Es & El & Hst).
  exists bs'. split; [exact Es|]. split; [exact El|]. intros l d d' Hd Hd'. destruct (Hst l d d' Hd Hd') as [A B]. split; [|exact B].
  intros b Hl Hpos. cbn zeta. specialize (A b Hl).
  assert (filter (target l) rs = filter (names_bus names b) rs) as Ef.
  { apply filter_ext. intros r. unfold target, names_bus. destruct (bus_of names r) as [o|]; [|reflexivity].
    destruct (Z.eqb_spec o b) as [->|Nb].
    - rewrite Hl, Nat.eqb_refl, andb_true_r. destruct (Z.ltb_spec b 0); [lia|]. now rewrite andb_false_r.
    - destruct (zfind bmap o) as [l'|] eqn:Ez; [|apply andb_false_r]. destruct (Nat.eqb_spec l' l) as [->|]; [|apply andb_false_r].
      exfalso. apply Nb. eapply M2; eassumption. }
  rewrite Ef in A. destruct A as ((S1 & S2 & _) & C & F). split; [|split; assumption]. split.
  - intros i r c it s t v Hi Hc Hin. apply (S1 i r s t v Hi). unfold E_dev, all_expect. apply in_flat_map. exists (c, it). auto.
  - intros name i t Hname Hi. apply S2; assumption.
Qed.
End Dev.

(** ** The parsers *)
Ltac compile := repeat (first [apply C_one; [first [reflexivity | eexists; reflexivity]|] | apply C_two; [reflexivity|]]); apply C_nil.
Lemma load_compiles : compiles (columns 0 load_layout) (dv_body load33).
Proof. cbn [columns load_layout width Nat.add load33 dv_body]. compile. Qed.
Lemma shunt_compiles : compiles (columns 0 shunt_layout) (dv_body fixed_shunt33).
Proof. cbn [columns shunt_layout width Nat.add fixed_shunt33 dv_body]. compile. Qed.
Lemma gen33_compiles one zero : compiles (columns 0 (gen33_layout one zero)) (dv_body (gen33 one zero)).
Proof. cbn [columns gen33_layout owner_layout app width Nat.add gen33 gen33_body owners dv_body]. compile. Qed.
Lemma gen34_compiles one zero : compiles (columns 0 (gen34_layout one zero)) (dv_body (gen34 one zero)).
Proof. cbn [columns gen34_layout gen33_layout owner_layout app width Nat.add gen34 gen33_body owners dv_body]. compile. Qed.
Lemma gen35_compiles one zero : compiles (columns 0 (gen35_layout one zero)) (dv_body (gen35 one zero)).
Proof. cbn [columns gen35_layout owner_layout app width Nat.add gen35 owners dv_body]. compile. Qed.

Fixpoint distinct (l : list string) : bool := match l with [] => true | x :: r => negb (existsb (String.eqb x) r) && distinct r end.
Lemma nodup_strings (l : list string) : distinct l = true -> NoDup l.
Proof.
  induction l as [|x l IH]; cbn [distinct]; intros H; constructor; apply andb_true_iff in H; destruct H as [H1 H2]; [|auto].
  intros Hx. apply negb_true_iff in H1. assert (existsb (String.eqb x) l = true); [|congruence].
  apply existsb_exists. exists x. split; [exact Hx|apply String.eqb_refl].
Qed.

(** Proofs about RecModel: buses, and the layouts of the other sections. *)
From Verif Require Import Prelude StrModel StrProofs StrProofs2 DCModel DCSpec DCProofs RecModel RecSpec RecProofs RecProofs2 RecProofs3.
From Coq Require Import Ascii.
Open Scope nat_scope.

Section Bus.
Variable atof : str -> Z.
Variables sbase case_id : Z.

Definition cols_expect (r : list str) (cols : list (nat * string * kind)) : list expectation :=
  map (fun x => (Plain (snd (fst x)), kind_type (snd x), bind_opt (nth_error r (fst (fst x))) (kind_of atof (snd x)))) cols.
Lemma add_cols_all cols r : (forall c name t, In (c, name, KInt) cols -> nth_error r c = Some t -> exists z, atoi t = Ok z) ->
  forall d, add_cols atof cols r d = add_all d (somes (cols_expect r cols)).
Proof.
  induction cols as [|[[c name] k] cols IH]; intros H d; [reflexivity|]. cbn [add_cols cols_expect map fst snd].
  change (somes ((Plain name, kind_type k, bind_opt (nth_error r c) (kind_of atof k)) :: cols_expect r cols))
    with ((match bind_opt (nth_error r c) (kind_of atof k) with Some v => [(Plain name, v)] | None => [] end)
          ++ somes (cols_expect r cols))%list.
  assert (forall c0 name0 t0, In (c0, name0, KInt) cols -> nth_error r c0 = Some t0 -> exists z, atoi t0 = Ok z) as H'.
  { intros c0 name0 t0 Hi. apply (H c0 name0). now right. }
  destruct (nth_error r c) as [t|] eqn:E; cbn [bind_opt]; [|apply IH; exact H'].
  destruct k; cbn [kind_of conv].
  - destruct (H c name t) as [z Hz]; [now left|exact E|]. unfold int_of. rewrite Hz. cbn [obind app add_all key_of]. apply IH. exact H'.
  - unfold dbl_of. cbn [obind app add_all key_of]. apply IH. exact H'.
Qed.

Definition bus_expect (r : list str) (o : Z) (name : str) : list expectation :=
  ((Plain "BUS_NUMBER", TInt, Some (VInt o)) :: (Plain "CASE_SBASE", TDouble, Some (VDouble sbase)) ::
   (Plain "CASE_ID", TInt, Some (VInt case_id)) :: (Plain "BUS_NAME", TString, Some (VString (string_of_list_ascii name))) ::
   cols_expect r bus_layout)%list.

Lemma bus_expect_slots r o name : map e_slot (bus_expect r o name) =
  map Plain ("BUS_NUMBER" :: "CASE_SBASE" :: "CASE_ID" :: "BUS_NAME" :: map (fun x => snd (fst x)) bus_layout)%string.
Proof. reflexivity. Qed.
Lemma bus_expect_nodup r o name : NoDup (map e_slot (bus_expect r o name)).
Proof.
  rewrite bus_expect_slots. apply FinFun.Injective_map_NoDup; [intros x y H; congruence|].
  apply nodup_strings. vm_compute. reflexivity.
Qed.
Lemma bus_expect_good r o name s t v : In (s, t, v) (bus_expect r o name) -> slot_good s = true.
Proof.
  intros H. assert (In s (map e_slot (bus_expect r o name))) as X by (apply in_map_iff; exists (s, t, v); auto).
  rewrite bus_expect_slots in X. apply in_map_iff in X. destruct X as (x & <- & Hx). unfold slot_good. cbn [slot_ok slot_name andb].
  clear H. revert x Hx. apply forallb_forall. vm_compute. reflexivity.
Qed.
Lemma bus_expect_typed r o name s t v : In (s, t, Some v) (bus_expect r o name) -> type_of v = t.
Proof.
  unfold bus_expect. intros [H|[H|[H|[H|H]]]]; try (inversion H; reflexivity). unfold cols_expect in H. apply in_map_iff in H.
  destruct H as ([[c n] k] & H & _). cbn [fst snd] in H. inversion H as [[H1 H2 H3]]. destruct (nth_error r c) as [x|]; [|discriminate].
  cbn [bind_opt] in H3. destruct k; cbn [kind_of kind_type] in *.
  - unfold int_of in H3. destruct (atoi x); inversion H3; reflexivity.
  - unfold dbl_of in H3. inversion H3; reflexivity.
Qed.

Definition bus_step_of (b : buses) (o : Z) (name : str) (d : dc) : buses :=
  Build_buses (bu_data b ++ [d])%list
    (match zfind (bu_map b) o with Some _ => bu_map b | None => bu_map b ++ [(o, bu_index b)] end)%list
    (match sfind (bu_names b) name with Some _ => bu_names b | None => bu_names b ++ [(name, Z.abs o)] end)%list
    (S (bu_index b)) (Z.max (bu_max b) o).

Lemma bus_record_ok b r o name : bus_readable r -> bus_number r = Some o -> bus_text r = Some name ->
  exists d, bus_record atof sbase case_id b r = Ok (bus_step_of b o name d) /\ holds_bus atof sbase case_id r d.
Proof.
  intros ((z & Hz & Nz) & _ & Hc) Ho Hn. rewrite Ho in Hz. inversion Hz; subst z.
  unfold bus_number, bus_text in Ho, Hn. destruct r as [|t0 [|t1 r]]; try discriminate.
  destruct (atoi t0) as [o'| |] eqn:E0; inversion Ho; subst o'. destruct (check_string t1) as [[q n']| |] eqn:E1; inversion Hn; subst n'.
  destruct (@add_all_look (somes (bus_expect (t0 :: t1 :: r) o name)) dc_empty) as (d & Ed & L).
  { intros s v Hs. apply in_somes in Hs. destruct Hs as (t & Hs). eapply bus_expect_good; exact Hs. }
  exists d. split.
  - unfold bus_record. rewrite E0. cbn [obind]. rewrite E1. cbn [obind]. destruct (Z.eqb_spec o (-2147483648)); [contradiction|].
    cbv zeta. change bus_cols with bus_layout. rewrite (add_cols_all _ _ Hc).
    change (somes (bus_expect (t0 :: t1 :: r) o name)) with
      ((Plain "BUS_NUMBER", VInt o) :: (Plain "CASE_SBASE", VDouble sbase) :: (Plain "CASE_ID", VInt case_id) ::
       (Plain "BUS_NAME", VString (string_of_list_ascii name)) :: somes (cols_expect (t0 :: t1 :: r) bus_layout)) in Ed.
    cbn [add_all key_of obind] in Ed. rewrite Ed. reflexivity.
  - assert (forall s t v, In (s, t, v) (bus_expect (t0 :: t1 :: r) o name) -> look d t s = v) as X.
    { intros s t v Hi. rewrite L by (eapply bus_expect_good; exact Hi). rewrite look_empty by (eapply bus_expect_good; exact Hi).
      apply first_somes; [apply bus_expect_nodup|intros s1 t1' v1; apply bus_expect_typed|exact Hi]. }
    unfold holds_bus. unfold bus_number, bus_text. rewrite E0, E1. cbn [option_map].
    split; [apply X; now left|]. split; [apply X; right; now left|]. split; [apply X; right; right; now left|].
    split; [apply X; right; right; right; now left|]. split.
    + intros c n k Hin. apply X. right; right; right; right. unfold cols_expect. apply in_map_iff. exists (c, n, k). auto.
    + intros t s Hs Hni. rewrite L, look_empty by exact Hs. apply first_add_none. intros v Hv _. apply in_somes in Hv. destruct Hv as (t' & Hv).
      assert (In s (map e_slot (bus_expect (t0 :: t1 :: r) o name))) as Y by (apply in_map_iff; exists (s, t', Some v); auto).
      rewrite bus_expect_slots in Y. apply in_map_iff in Y. destruct Y as (x & <- & Hx). exact (Hni Hx).
Qed.

Lemma first_at_app {A} (f : A -> bool) l x :
  first_at f (l ++ [x]) = match first_at f l with Some i => Some i | None => if f x then Some (length l) else None end.
Proof.
  induction l as [|y l IH]; cbn [app first_at length]; [now destruct (f x)|]. destruct (f y); [reflexivity|]. rewrite IH.
  destruct (first_at f l); [reflexivity|]. now destruct (f x).
Qed.
Lemma first_at_some {A} (f : A -> bool) l i : first_at f l = Some i -> exists x, nth_error l i = Some x /\ f x = true.
Proof.
  revert i; induction l as [|y l IH]; intros i; cbn [first_at]; [discriminate|]. destruct (f y) eqn:E.
  - intros H; inversion H; subst. exists y. auto.
  - destruct (first_at f l) as [j|]; [|discriminate]. intros H; inversion H; subst. exact (IH j eq_refl).
Qed.
Lemma first_at_none {A} (f : A -> bool) l x : first_at f l = None -> In x l -> f x = false.
Proof.
  induction l as [|y l IH]; cbn [first_at]; [intros _ []|]. destruct (f y) eqn:E; [discriminate|]. destruct (first_at f l); [discriminate|].
  intros _ [->|H]; auto.
Qed.
Lemma zfind_app {A} (m : list (Z * A)) k v z : zfind (m ++ [(k, v)]) z = match zfind m z with Some w => Some w | None => if (k =? z)%Z then Some v else None end.
Proof. induction m as [|[k' v'] m IH]; cbn [app zfind]; [reflexivity|]. destruct (k' =? z)%Z; auto. Qed.
Lemma sfind_app m k v z : sfind (m ++ [(k, v)]) z = match sfind m z with Some w => Some w | None => if str_eqb k z then Some v else None end.
Proof. induction m as [|[k' v'] m IH]; cbn [app sfind]; [reflexivity|]. destruct (str_eqb k' z); auto. Qed.

Definition BusInv (start : Z) (rs : list (list str)) (b : buses) : Prop :=
  Forall2 (holds_bus atof sbase case_id) rs (bu_data b) /\ bu_index b = length rs /\
  (forall z, zfind (bu_map b) z = first_at (has_number z) rs) /\
  (forall n, sfind (bu_names b) n = bind_opt (first_at (has_text n) rs) (fun i => option_map Z.abs (number_at rs i))) /\
  bu_max b = largest start rs.

Lemma bus_steps start rs : Forall bus_readable rs ->
  exists b, steps (bus_record atof sbase case_id) rs (Build_buses [] [] [] 0 start) = Ok b /\ BusInv start rs b.
Proof.
  induction rs as [|r rs IH] using rev_ind; intros H.
  - eexists. split; [reflexivity|]. repeat split; constructor.
  - apply Forall_app in H. destruct H as [H Hr]. inversion Hr as [|? ? Hr1 _]; subst. destruct (IH H) as (b & Eb & F & I & Mz & Mn & Mx).
    rewrite steps_app, Eb. cbn [obind steps].
    pose proof Hr1 as ((o & Ho & No) & Ht & _). destruct (bus_text r) as [name|] eqn:En; [|congruence].
    destruct (bus_record_ok b Hr1 Ho En) as (d & E & Hd). rewrite E. cbn [obind]. eexists. split; [reflexivity|].
    unfold BusInv, bus_step_of. cbn [bu_data bu_map bu_names bu_index bu_max]. split; [apply Forall2_app; auto|].
    split; [rewrite app_length; cbn; lia|]. split; [|split].
    + intros z. rewrite first_at_app. unfold has_number at 2. rewrite Ho.
      destruct (zfind (bu_map b) o) as [l|] eqn:Ez.
      * rewrite Mz. destruct (first_at (has_number z) rs) eqn:Ef; [reflexivity|]. destruct (Z.eqb_spec o z) as [->|]; [|reflexivity].
        rewrite Mz in Ez. congruence.
      * rewrite zfind_app, Mz, I. reflexivity.
    + intros n. rewrite first_at_app. unfold has_text at 2. rewrite En.
      assert (forall i, number_at rs i <> None -> number_at (rs ++ [r]) i = number_at rs i) as X.
      { intros i Hi. unfold number_at in *. destruct (nth_error rs i) eqn:Ei; [|cbn in Hi; congruence]. rewrite nth_error_app1 by (apply nth_error_Some; congruence).
        now rewrite Ei. }
      assert (forall n i, first_at (has_text n) rs = Some i -> number_at rs i <> None) as Y.
      { intros n0 i Hi. apply first_at_some in Hi. destruct Hi as (x & Hx & _). unfold number_at. rewrite Hx. cbn [bind_opt].
        apply nth_error_In in Hx. rewrite Forall_forall in H. destruct (H x Hx) as ((z & Hz & _) & _). congruence. }
      destruct (sfind (bu_names b) name) as [l|] eqn:Es.
      * rewrite Mn. destruct (first_at (has_text n) rs) as [i|] eqn:Ef; cbn [bind_opt]; [rewrite X; eauto|].
        destruct (str_eqb name n) eqn:Eq; [|reflexivity]. unfold str_eqb in Eq. destruct (list_eq_dec ascii_dec name n) as [Eq'|]; [clear Eq; rename Eq' into Eq|discriminate]. subst n. rewrite Mn, Ef in Es. discriminate.
      * rewrite sfind_app, Mn. destruct (first_at (has_text n) rs) as [i|] eqn:Ef; cbn [bind_opt].
        -- rewrite X by eauto. specialize (Y n i Ef). destruct (number_at rs i); [reflexivity|congruence].
        -- destruct (str_eqb name n) eqn:Eq; [|reflexivity]. cbn [bind_opt]. unfold number_at.
           rewrite nth_error_app2, Nat.sub_diag by lia. cbn [nth_error bind_opt]. rewrite Ho. reflexivity.
    + unfold largest. rewrite fold_left_app. cbn [fold_left]. rewrite Ho. fold (largest start rs). now rewrite <- Mx.
Qed.

(** The map of a file of bus records serves the other sections. *)
Lemma bus_map_good start rs b : BusInv start rs b -> bus_map_ok (bu_map b) (length (bu_data b)).
Proof.
  intros (F & _ & Mz & _). assert (length rs = length (bu_data b)) as L.
  { clear Mz. induction F; cbn; congruence. }
  split.
  - intros z l Hl. rewrite Mz in Hl. apply first_at_some in Hl. destruct Hl as (x & Hx & _). rewrite <- L. apply nth_error_Some. congruence.
  - intros z z' l H1 H2. rewrite Mz in H1, H2. apply first_at_some in H1. apply first_at_some in H2. destruct H1 as (x & Hx & E1), H2 as (y & Hy & E2).
    rewrite Hx in Hy. inversion Hy; subst y. unfold has_number in E1, E2. destruct (bus_number x); [|discriminate].
    apply Z.eqb_eq in E1. apply Z.eqb_eq in E2. congruence.
Qed.
Lemma bus_fresh r d L : holds_bus atof sbase case_id r d ->
  (forall x, In x L -> ~ In x ("BUS_NUMBER" :: "CASE_SBASE" :: "CASE_ID" :: "BUS_NAME" :: map (fun x => snd (fst x)) bus_layout)%string) ->
  fresh L d.
Proof. intros (_ & _ & _ & _ & _ & H) HL t s Hs Hn. apply H; auto. Qed.
End Bus.

(** ** Branch bodies *)
Definition strip (l : list stmt) : list stmt := match l with [] => [] | _ :: r => removelast (removelast r) end.
Lemma branch33_compiles zero : compiles (columns 2 branch33_layout) (strip (branch33 zero)).
Proof. cbn [columns branch33_layout width Nat.add branch33 strip removelast]. compile. Qed.
Lemma branch34_compiles zero : compiles (columns 2 branch34_layout) (strip (branch34 zero)).
Proof. cbn [columns branch34_layout width Nat.add branch34 strip removelast]. compile. Qed.

(** ** Checking the hypotheses by computation *)
Definition readable_atb (r : list str) (c : nat) (it : item) : bool :=
  match it with
  | ITag _ req => match nth_error r c with Some t => is_ok (clean2char t) | None => negb req end
  | IInt _ | IOwner _ _ _ => match nth_error r c with Some t => is_ok (atoi t) | None => true end
  | IName _ => match nth_error r c with Some t => is_ok (trim_quotes (trim t)) | None => true end
  | _ => true
  end.
Definition readableb (its : list item) (c0 : nat) (r : list str) : bool :=
  forallb (existsb (fun c => negb (Ascii.eqb c sp))) r && forallb (fun ci => readable_atb r (fst ci) (snd ci)) (columns c0 its).
Lemma is_ok_ex {A} (o : outcome A) : is_ok o = true -> exists x, o = Ok x.
Proof. destruct o; try discriminate. eauto. Qed.
Lemma readableb_ok its c0 r : readableb its c0 r = true -> readable its c0 r.
Proof.
  unfold readableb. intros H. apply andb_true_iff in H. destruct H as [H1 H2]. split.
  - rewrite forallb_forall in H1. apply Forall_forall. intros t Ht. apply H1 in Ht. apply existsb_exists in Ht. destruct Ht as (c & Hc & Hn).
    exists c. split; [exact Hc|]. intros ->. now rewrite Ascii.eqb_refl in Hn.
  - intros c it Hc. rewrite forallb_forall in H2. specialize (H2 _ Hc). cbn [fst snd] in H2. destruct it; cbn [readable_atb readable_at] in *; auto.
    + destruct (nth_error r c) as [t|]; split.
      * discriminate.
      * intros t' E; inversion E; subst. now apply is_ok_ex.
      * intros ->. discriminate.
      * discriminate.
    + intros t E. rewrite E in H2. now apply is_ok_ex.
    + intros t E. rewrite E in H2. now apply is_ok_ex.
    + intros t E _. rewrite E in H2. now apply is_ok_ex.
Qed.
Definition bus_readableb (r : list str) : bool :=
  match bus_number r with Some z => negb (z =? -2147483648)%Z | None => false end &&
  match bus_text r with Some _ => true | None => false end &&
  forallb (fun x => match nth_error r (fst (fst x)) with
                    | Some t => match snd x with KInt => is_ok (atoi t) | KDbl => true end | None => true end) bus_layout.
Lemma bus_readableb_ok r : bus_readableb r = true -> bus_readable r.
Proof.
  unfold bus_readableb. intros H. apply andb_true_iff in H. destruct H as [H H3]. apply andb_true_iff in H. destruct H as [H1 H2].
  destruct (bus_number r) as [z|] eqn:E; [|discriminate]. split; [|split].
  - exists z. rewrite E. split; [reflexivity|]. apply negb_true_iff, Z.eqb_neq in H1. exact H1.
  - destruct (bus_text r); [discriminate|discriminate].
  - intros c name t Hin Ht. rewrite forallb_forall in H3. specialize (H3 _ Hin). cbn [fst snd] in H3. rewrite Ht in H3. now apply is_ok_ex.
Qed.
Fixpoint records (ls : list str) : option (list (list str)) :=
  match ls with
  | [] => Some []
  | l :: r => if test_end l then
                if check_comment l then records r
                else match split_of (clean_comment l), records r with Ok x, Some rs => Some (x :: rs) | _, _ => None end
              else None
  end.
Lemma records_reads ls : forall rs, records ls = Some rs -> reads ls rs.
Proof.
  induction ls as [|l ls IH]; intros rs H; cbn [records] in H; [inversion H; constructor|].
  destruct (test_end l) eqn:E1; [|discriminate]. destruct (check_comment l) eqn:E2.
  - apply rd_comment; [split; assumption|auto].
  - destruct (split_of (clean_comment l)) eqn:E3; try discriminate. destruct (records ls) eqn:E4; inversion H; subst.
    apply rd_record; [repeat split; assumption|auto].
Qed.
Definition attachableb (its : list item) (names : list (str * Z)) (bmap : list (Z * nat)) (rs : list (list str)) : bool :=
  (Z.of_nat (length rs) <=? 9999999)%Z &&
  forallb (fun r => match bus_of names r with
                    | Some b => match zfind bmap b with Some _ => readableb its 0 r | None => true end | None => false end) rs.
Lemma attachableb_ok its names bmap rs : attachableb its names bmap rs = true -> attachable its names bmap rs.
Proof.
  unfold attachableb. intros H. apply andb_true_iff in H. destruct H as [H1 H2]. split; [apply Z.leb_le in H1; lia|].
  intros r Hr. rewrite forallb_forall in H2. specialize (H2 r Hr). destruct (bus_of names r) as [b|]; [|discriminate]. exists b.
  split; [reflexivity|]. destruct (zfind bmap b); [|congruence]. intros _. now apply readableb_ok.
Qed.

(** ** Sections of devices *)
Lemma dev_section atof dv its names bmap bs ls rs : compiles (columns 0 its) (dv_body dv) ->
  distinct (dv_count dv :: flat_map item_names its) = true -> forallb no_colon (dv_count dv :: flat_map item_names its) = true ->
  bus_map_ok bmap (length bs) -> Forall (fresh (dv_count dv :: flat_map item_names its)) bs ->
  reads ls rs -> attachable its names bmap rs ->
  exists bs', attached atof its (dv_count dv) names bmap rs bs bs' /\
    forall fuel term rest, test_end term = false -> length ls < fuel ->
      parse fuel (dev_record atof dv names bmap) (ls ++ term :: rest)%list bs = Some (Ok (bs', rest)).
Proof.
  intros C D K M F R [A1 A2].
  destruct (@dev_devices atof names bmap its dv C (nodup_strings _ D) K) with (rs := rs) (bs := bs) as (bs' & Es & El & H); auto.
  - intros b l H1 b' H2. destruct M as [_ M]. eapply M; eassumption.
  - intros r Hr. destruct (A2 r Hr) as (b & E & _). congruence.
  - intros r b l Hr E Z. destruct (A2 r Hr) as (b' & E' & X). rewrite E in E'. inversion E'; subst. apply X. congruence.
  - rewrite Forall_forall in F. exact F.
  - exists bs'. split; [split; [exact El|exact H]|]. intros fuel term rest T L. eapply parse_reads; eassumption.
Qed.

(** ** Sections of branches *)
Lemma branch_section atof names zero its body ls rs : compiles (columns 2 its) (strip body) ->
  body = (SSwitched "BRANCH_SWITCHED" :: strip body ++ [SZero "BRANCH_TAP" zero; SZero "BRANCH_SHIFT" zero])%list ->
  distinct (M ++ ("BRANCH_SWITCHED" :: "BRANCH_TAP" :: "BRANCH_SHIFT" :: flat_map item_names its)%string)%list = true ->
  forallb no_colon (M ++ ("BRANCH_SWITCHED" :: "BRANCH_TAP" :: "BRANCH_SHIFT" :: flat_map item_names its)%string)%list = true ->
  (forall n, ~ In (IBus n) its) ->
  reads ls rs -> length rs <= Z.to_nat 9999999 -> (forall r, In r rs -> ends_of names r <> None /\ readable its 2 r) ->
  exists b, length (br_data b) = length (first_pairs [] (all_ends names rs)) /\
    (forall l q d, nth_error (first_pairs [] (all_ends names rs)) l = Some q -> nth_error (br_data b) l = Some d ->
      holds_branch atof zero its names l q (filter (joins names q) rs) d) /\
    forall fuel term rest, test_end term = false -> length ls < fuel ->
      parse fuel (branch_record atof body names) (ls ++ term :: rest)%list (Build_branches [] [] 0) = Some (Ok (b, rest)).
Proof.
  intros C B D K Nb R L H.
  destruct (@branch_groups atof names zero its (strip body) C (nodup_strings _ D) K Nb rs H L) as (b & Eb & Lb & Hb).
  rewrite <- B in Eb. exists b. split; [exact Lb|]. split; [exact Hb|]. intros fuel term rest T F. eapply parse_reads; eassumption.
Qed.

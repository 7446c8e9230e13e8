(** Proofs for the reading of dynamic model records: the copies of a bus in getDSExternal. *)
From Verif Require Import Prelude DCModel DCSpec DCProofs StrModel DrModel DrTables DrModel2 DrSpec DrProofs DrProofs2 DrProofs3 DrProofs4 DrProofs5.
From Coq Require Import Ascii.
Open Scope string_scope.

Lemma assoc_listed (cs : list (string * cls)) (ls : list (string * list field)) m c : forallb (fun x => existsb (fun p => String.eqb (fst p) x) ls) (map fst cs) = true ->
  assoc cs m = Some c -> exists l, In (m, l) ls.
Proof.
  intros P H. unfold assoc in H. assert (Q : In m (map fst cs)).
  { clear P. revert H. induction cs as [|(a & x) l IH]; cbn [m_find map fst]; [discriminate|]. destruct (String.eqb_spec a m); [left; auto | right; auto]. }
  rewrite forallb_forall in P. specialize (P m Q). apply existsb_exists in P as ((a & l) & I & E). apply String.eqb_eq in E. cbn in E. subst. eauto.
Qed.
Lemma gen_assoc_listed m c : assoc gen_class m = Some c -> exists l, In (m, l) Layout.generator_models.
Proof. apply assoc_listed. vm_compute. reflexivity. Qed.

Definition arrive_index (d : dc) (nk ik : string) (s : struct) (f : string) : outcome Z :=
  if (0 <? count_of d nk)%Z then obind (str_field s f) (device_index d nk ik) else Ok (-1)%Z.
Lemma str_field_get s f t : str_field s f = Ok t <-> fget s f = Some (VString t).
Proof. unfold str_field. destruct (fget s f) as [[]|]; split; congruence. Qed.
Lemma arrive_device d nk ik s f tag g : device d nk ik tag g -> fget s f = Some (VString tag) -> arrive_index d nk ik s f = Ok g.
Proof.
  intros Dv T. pose proof (device_small Dv) as S. destruct Dv as (NE & (n & Hn & B) & G & A).
  specialize (Hn (VInt 0)). apply get_plain in Hn. apply str_field_get in T. unfold arrive_index, device_index, count_of. rewrite Hn, T.
  destruct (Z.ltb_spec 0 n); [|lia]. cbn [obind]. apply first_match_spec; auto; [lia | lia | |].
  - apply (@get_indexed _ _ _ _ (VString "") _ (G _)).
  - intros i Hi Q. apply (A i (VString "") ltac:(lia)). apply get_of_find; auto. apply small_range in S. apply small_range. lia.
Qed.
Lemma arrive_back d nk ik s f tag g : device d nk ik tag g -> arrive_index d nk ik s f = Ok g -> fget s f = Some (VString tag).
Proof.
  intros Dv H. destruct Dv as (NE & (n & Hn & B) & G & A). specialize (G (VString "")). apply get_indexed in G as (S & G).
  unfold arrive_index in H. specialize (Hn (VInt 0)). apply get_plain in Hn. unfold count_of in H. rewrite Hn in H. destruct (Z.ltb_spec 0 n); [|lia].
  destruct (str_field s f) as [t| |] eqn:E; cbn [obind] in H; try discriminate. apply str_field_get in E. apply first_match_hit in H as [H|(_ & [H|H])]; [lia | congruence | congruence].
Qed.

(** A change confined to entry [g] of some keys (and the number of relays) keeps devices and the entries of others. *)
Definition confined (ks : list string) (g : Z) (d d' : dc) : Prop :=
  small g /\ forall t k, k <> "RELAY_NUMBER" -> (forall a, In a ks -> k <> ikey a g) -> find_key d' t k = find_key d t k.
Lemma confined_ids ks g d d' : (forall a, In a ks -> In a gkeys \/ In a rkeys \/ In a lkeys) -> confined ks g d d' -> same_ids d d'.
Proof.
  intros A (S & H) t.
  assert (A' : forall a, In a ks -> a <> "GENERATOR_ID" /\ a <> "LOAD_ID") by (intros a Ha; destruct (A a Ha) as [X|[X|X]]; [apply gkeys_apart in X | apply rkeys_apart in X | apply lkeys_apart in X]; tauto).
  split; [split|].
  - apply H; [discriminate|]. intros a _ E. symmetry in E. revert E. now apply ikey_plain.
  - apply H; [discriminate|]. intros a _ E. symmetry in E. revert E. now apply ikey_plain.
  - intros j Sj. split; (apply H; [now apply ikey_plain|]); intros a Ha E; apply ikey_inj2 in E as (E & _); auto; apply A' in Ha; destruct Ha; congruence.
Qed.
Lemma confined_key ks g d d' a i t : confined ks g d d' -> small i -> (In a ks -> i <> g) -> find_key d' t (ikey a i) = find_key d t (ikey a i).
Proof.
  intros (S & H) Si N. apply H; [now apply ikey_plain|]. intros a' Ha' E. apply ikey_inj2 in E as (-> & ->); auto. now apply N.
Qed.
Lemma x_ok_frame l c s g d d' : x_ok l c = true -> first_unguarded (c_extract c) = true -> extract (c_extract c) s g d = Ok d' -> confined (map f_key l) g d d'.
Proof.
  intros X U H. pose proof (@run_small _ _ _ _ _ _ _ U H) as S. split; auto. intros t k _ K. eapply xframe; eauto.
Qed.
Lemma cls_ok_extract m l c : cls_ok m l c = true -> first_unguarded (c_extract c) = true.
Proof. unfold cls_ok. rewrite !andb_true_iff. tauto. Qed.

Lemma gen_arrives_cases d s d' : gen_arrives d s = Ok d' -> d' = d \/
  exists m l c g, fget s "model" = Some (VString m) /\ In (m, l) Layout.generator_models /\ assoc gen_class m = Some c /\
    arrive_index d "GENERATOR_NUMBER" "GENERATOR_ID" s "gen_id" = Ok g /\ extract (c_extract c) s g d = Ok d' /\ confined (map f_key l) g d d'.
Proof.
  unfold gen_arrives. fold (arrive_index d "GENERATOR_NUMBER" "GENERATOR_ID" s "gen_id"). intros H.
  destruct (arrive_index d _ _ s _) as [g| |] eqn:G; cbn [obind] in H; try discriminate. destruct (g >? -1)%Z; [|inversion H; auto].
  destruct (str_field s "model") as [m| |] eqn:M; cbn [obind] in H; try discriminate. destruct (assoc gen_class m) as [c|] eqn:A; [|inversion H; auto].
  right. destruct (gen_assoc_listed _ A) as (l & L). exists m, l, c, g. apply str_field_get in M. repeat (split; auto).
  - destruct (@group_get _ _ _ _ gen_ok L) as (c' & A' & O). assert (c' = c) by congruence. subst. apply (@run_small _ _ _ _ _ _ _ (@cls_ok_extract _ _ _ O) H).
  - destruct (@group_get _ _ _ _ gen_ok L) as (c' & A' & O). assert (c' = c) by congruence. subst. eapply x_ok_frame; eauto using cls_ok_extract. eapply gen_x; eauto.
Qed.
Lemma load_arrives_cases d s d' : load_arrives d s = Ok d' -> d' = d \/
  exists m l c g, fget s "model" = Some (VString m) /\ In (m, l) Layout.load_models /\ assoc load_class m = Some c /\
    arrive_index d "LOAD_NUMBER" "LOAD_ID" s "id" = Ok g /\ extract (c_extract c) s g d = Ok d' /\ confined (map f_key l) g d d'.
Proof.
  unfold load_arrives. fold (arrive_index d "LOAD_NUMBER" "LOAD_ID" s "id"). intros H.
  destruct (arrive_index d _ _ s _) as [g| |] eqn:G; cbn [obind] in H; try discriminate. destruct (g >? -1)%Z; [|inversion H; auto].
  destruct (str_field s "model") as [m| |] eqn:M; cbn [obind] in H; try discriminate. destruct (assoc load_class m) as [c|] eqn:A; [|inversion H; auto].
  right. destruct (load_device_listed _ A) as (l & L). exists m, l, c, g. apply str_field_get in M. repeat (split; auto).
  - destruct (@group_get _ _ _ _ load_ok L) as (c' & A' & O). assert (c' = c) by congruence. subst. apply (@run_small _ _ _ _ _ _ _ (@cls_ok_extract _ _ _ O) H).
  - destruct (@group_get _ _ _ _ load_ok L) as (c' & A' & O). assert (c' = c) by congruence. subst. eapply x_ok_frame; eauto using cls_ok_extract. eapply load_x; eauto.
Qed.
Lemma relay_arrives_cases d s d' : relay_arrives d s = Ok d' -> d' = d \/
  exists m l c, fget s "model" = Some (VString m) /\ In (m, l) Layout.relay_models /\ assoc relay_class m = Some c /\
    find_key d' TInt "RELAY_NUMBER" = Some (VInt (count_of d "RELAY_NUMBER" + 1)) /\
    (exists d1, (forall t k, k <> "RELAY_NUMBER" -> find_key d1 t k = find_key d t k) /\ extract (c_extract c) s (count_of d "RELAY_NUMBER") d1 = Ok d') /\
    confined (map f_key l) (count_of d "RELAY_NUMBER") d d'.
Proof.
  unfold relay_arrives. intros H.
  destruct (str_field s "model") as [m| |] eqn:M; cbn [obind] in H; try discriminate. destruct (assoc relay_class m) as [c|] eqn:A; [|inversion H; auto].
  right. destruct (relay_listed _ A) as (l & L). apply str_field_get in M.
  destruct (@group_get _ _ _ _ relay_ok L) as (c' & A' & O). assert (c' = c) by congruence. subst c'.
  unfold extract_relay in H. destruct (next_relay d) as [(n & d1)| |] eqn:N; cbn [obind fst snd] in H; try discriminate.
  apply next_relay_spec in N as (-> & N1 & N2). pose proof (@x_ok_frame l c s _ d1 d' (@relay_x _ _ L c A) (@cls_ok_extract _ _ _ O) H) as (Sm & C).
  pose proof (@run_small _ _ _ _ _ _ _ (@cls_ok_extract _ _ _ O) H) as S.
  exists m, l, c. repeat (split; auto).
  - rewrite <- N1. eapply xframe; eauto; [eapply relay_x; eauto|]. intros a _ E. symmetry in E. revert E. now apply ikey_plain.
  - eauto.
  - intros t k K1 K2. rewrite (C t k K1 K2). auto.
Qed.
Lemma in_gkeys m l : In (m, l) Layout.generator_models -> forall a, In a (map f_key l) -> In a gkeys.
Proof. intros L a Ha. apply in_map_iff in Ha as (f & <- & I). eapply in_keys; eauto. Qed.
Lemma in_lkeys m l : In (m, l) Layout.load_models -> forall a, In a (map f_key l) -> In a lkeys.
Proof. intros L a Ha. apply in_map_iff in Ha as (f & <- & I). eapply in_keys; eauto. Qed.
Lemma in_rkeys m l : In (m, l) Layout.relay_models -> forall a, In a (map f_key l) -> In a rkeys.
Proof. intros L a Ha. unfold rkeys, relay_keys. apply in_or_app. left. apply in_map_iff in Ha as (f & <- & I). eapply in_keys; eauto. Qed.

Lemma mem_false x l : mem x l = false -> ~ In x l.
Proof. intros H I. apply mem_In in I. congruence. Qed.
Lemma relay_number_not_gen : ~ In "RELAY_NUMBER" gkeys.
Proof. apply mem_false. vm_compute. reflexivity. Qed.
Lemma relay_number_not_load : ~ In "RELAY_NUMBER" lkeys.
Proof. apply mem_false. vm_compute. reflexivity. Qed.
(** Structs that leave entry [a] of generator [tag] alone. *)
Definition spares_gen (tag a : string) (s : struct) : Prop :=
  forall m l, fget s "gen_id" = Some (VString tag) -> fget s "model" = Some (VString m) -> In (m, l) Layout.generator_models -> ~ In a (map f_key l).
Definition spares_load (tag a : string) (s : struct) : Prop :=
  forall m l, fget s "id" = Some (VString tag) -> fget s "model" = Some (VString m) -> In (m, l) Layout.load_models -> ~ In a (map f_key l).
(** Preserved along arrivals: devices and one entry. *)
Definition kept (a : string) (g : Z) (d d' : dc) : Prop := same_ids d d' /\ forall t, find_key d' t (ikey a g) = find_key d t (ikey a g).
Lemma kept_refl a g d : kept a g d d.
Proof. split; auto using same_ids_refl. Qed.
Lemma kept_trans a g d1 d2 d3 : kept a g d1 d2 -> kept a g d2 d3 -> kept a g d1 d3.
Proof. intros (A & B) (A' & B'). split; [eapply same_ids_trans; eauto | intros t; now rewrite B', B]. Qed.
Lemma gen_arrives_keeps d s d' a g tag : gen_arrives d s = Ok d' -> small g -> (generator d tag g /\ In a gkeys /\ spares_gen tag a s \/ ~ In a gkeys) -> kept a g d d'.
Proof.
  intros H S C. apply gen_arrives_cases in H as [->|(m & l & c & g' & M & L & A & Ix & _ & Cf)]; auto using kept_refl. pose proof (in_gkeys L) as K. split; [apply (fun X => confined_ids X Cf); auto|].
  intros t. eapply confined_key; eauto. intros Ha ->. destruct C as [(Dv & _ & Sp)|N]; [|now apply N, K]. eapply Sp; eauto. eapply arrive_back; eauto.
Qed.
Lemma load_arrives_keeps d s d' a g tag : load_arrives d s = Ok d' -> small g -> (load d tag g /\ In a lkeys /\ spares_load tag a s \/ ~ In a lkeys) -> kept a g d d'.
Proof.
  intros H S C. apply load_arrives_cases in H as [->|(m & l & c & g' & M & L & A & Ix & _ & Cf)]; auto using kept_refl. pose proof (in_lkeys L) as K. split; [apply (fun X => confined_ids X Cf); auto|].
  intros t. eapply confined_key; eauto. intros Ha ->. destruct C as [(Dv & _ & Sp)|N]; [|now apply N, K]. eapply Sp; eauto. eapply arrive_back; eauto.
Qed.
Lemma relay_arrives_keeps d s d' a g : relay_arrives d s = Ok d' -> small g -> ~ In a rkeys -> kept a g d d'.
Proof.
  intros H S C. apply relay_arrives_cases in H as [->|(m & l & c & M & L & A & _ & _ & Cf)]; auto using kept_refl. pose proof (in_rkeys L) as K. split; [apply (fun X => confined_ids X Cf); auto|].
  intros t. apply (@confined_key _ _ _ _ _ _ _ Cf S). intros Ha _. now apply C, K.
Qed.
Lemma arrivals_app f d a b d' : arrivals f d (a ++ b) = Ok d' <-> exists d1, arrivals f d a = Ok d1 /\ arrivals f d1 b = Ok d'.
Proof.
  revert d. induction a as [|s a IH]; intros d; cbn [app arrivals]; [split; [eauto | intros (d1 & E & H); inversion E; now subst]|].
  destruct (f d s); cbn [obind]; [apply IH | |]; split; try discriminate; intros (? & ? & _); discriminate.
Qed.
Lemma gens_keep ss : forall d d' a g tag, arrivals gen_arrives d ss = Ok d' -> small g -> (generator d tag g /\ In a gkeys /\ (forall s, In s ss -> spares_gen tag a s) \/ ~ In a gkeys) -> kept a g d d'.
Proof.
  induction ss as [|s ss IH]; intros d d' a g tag H S C; cbn [arrivals] in H; [inversion H; apply kept_refl|].
  destruct (gen_arrives d s) as [d1| |] eqn:E; cbn [obind] in H; try discriminate.
  assert (K1 : kept a g d d1) by (eapply (@gen_arrives_keeps d s d1 a g tag); eauto; destruct C as [(Dv & Ia & Sp)|N]; [left; repeat split; auto; apply Dv || idtac; apply Sp; left; auto | auto]).
  eapply kept_trans; [exact K1|]. eapply (IH d1 d' a g tag); eauto. destruct C as [(Dv & Ia & Sp)|N]; auto. left. split; [eapply generator_move; [apply K1 | auto]|]. split; auto. intros; apply Sp; right; auto.
Qed.
Lemma loads_keep ss : forall d d' a g tag, arrivals load_arrives d ss = Ok d' -> small g -> (load d tag g /\ In a lkeys /\ (forall s, In s ss -> spares_load tag a s) \/ ~ In a lkeys) -> kept a g d d'.
Proof.
  induction ss as [|s ss IH]; intros d d' a g tag H S C; cbn [arrivals] in H; [inversion H; apply kept_refl|].
  destruct (load_arrives d s) as [d1| |] eqn:E; cbn [obind] in H; try discriminate.
  assert (K1 : kept a g d d1) by (eapply (@load_arrives_keeps d s d1 a g tag); eauto; destruct C as [(Dv & Ia & Sp)|N]; [left; repeat split; auto; apply Dv || idtac; apply Sp; left; auto | auto]).
  eapply kept_trans; [exact K1|]. eapply (IH d1 d' a g tag); eauto. destruct C as [(Dv & Ia & Sp)|N]; auto. left. split; [eapply load_move; [apply K1 | auto]|]. split; auto. intros; apply Sp; right; auto.
Qed.
Lemma relays_keep ss : forall d d' a g, arrivals relay_arrives d ss = Ok d' -> small g -> ~ In a rkeys -> kept a g d d'.
Proof.
  induction ss as [|s ss IH]; intros d d' a g H S C; cbn [arrivals] in H; [inversion H; apply kept_refl|].
  destruct (relay_arrives d s) as [d1| |] eqn:E; cbn [obind] in H; try discriminate. eapply kept_trans; [eapply relay_arrives_keeps; eauto | eapply IH; eauto].
Qed.

Section Ext.
Variable atof : str -> Z.
Variable trunc : Z -> outcome Z.
Lemma vec_records_app v a b v' : vec_records atof trunc v (a ++ b) = Ok v' <-> exists v1, vec_records atof trunc v a = Ok v1 /\ vec_records atof trunc v1 b = Ok v'.
Proof.
  revert v. induction a as [|r a IH]; intros v; cbn [app vec_records]; [split; [eauto | intros (v1 & E & H); inversion E; now subst]|].
  destruct (vec_record atof trunc v r); cbn [obind]; [apply IH | |]; split; try discriminate; intros (? & ? & _); discriminate.
Qed.
Lemma vec_all_gens rs : forall v v', vec_records atof trunc v rs = Ok v' -> exists ss, v_gens v' = (v_gens v ++ ss)%list /\ forall s, In s ss -> exists r, In r rs /\ gen_struct atof trunc r s.
Proof.
  induction rs as [|r rs IH]; intros v v' H; cbn [vec_records] in H; [inversion H; subst; exists []; split; [now rewrite app_nil_r | intros s []]|].
  destruct (vec_record atof trunc v r) as [v1| |] eqn:E; cbn [obind] in H; try discriminate. destruct (IH _ _ H) as (ss & G & F).
  apply vec_gens in E as [(E & _)|(s & E & Q)].
  - exists ss. split; [congruence|]. intros s Hs. destruct (F s Hs) as (r' & I & R). exists r'. split; auto. right; auto.
  - exists (s :: ss). split; [rewrite G, E, <- app_assoc; reflexivity|]. intros s' [<-|Hs]; [exists r; split; auto; left; auto|]. destruct (F s' Hs) as (r' & I & R). exists r'. split; auto. right; auto.
Qed.
Lemma vec_all_loads rs : forall v v', vec_records atof trunc v rs = Ok v' -> exists ss, v_loads v' = (v_loads v ++ ss)%list /\ forall s, In s ss -> exists r, In r rs /\ load_struct atof trunc r s.
Proof.
  induction rs as [|r rs IH]; intros v v' H; cbn [vec_records] in H; [inversion H; subst; exists []; split; [now rewrite app_nil_r | intros s []]|].
  destruct (vec_record atof trunc v r) as [v1| |] eqn:E; cbn [obind] in H; try discriminate. destruct (IH _ _ H) as (ss & G & F).
  apply vec_loads in E as [(E & _)|(s & E & Q)].
  - exists ss. split; [congruence|]. intros s Hs. destruct (F s Hs) as (r' & I & R). exists r'. split; auto. right; auto.
  - exists (s :: ss). split; [rewrite G, E, <- app_assoc; reflexivity|]. intros s' [<-|Hs]; [exists r; split; auto; left; auto|]. destruct (F s' Hs) as (r' & I & R). exists r'. split; auto. right; auto.
Qed.
Lemma for_bus_app b x y : for_bus b (x ++ y) = (for_bus b x ++ for_bus b y)%list.
Proof. unfold for_bus. apply filter_app. Qed.
Lemma for_bus_in b s ss : In s (for_bus b ss) -> In s ss /\ fget s "bus_id" = Some (VInt b).
Proof.
  unfold for_bus. intros H. apply filter_In in H as (H1 & H2). split; auto. destruct (fget s "bus_id") as [[]|]; try discriminate. apply Z.eqb_eq in H2. congruence.
Qed.
(** One struct of a permuted list. *)
Lemma arrived b x s y gs : Permutation gs (for_bus b (x ++ s :: y)) -> fget s "bus_id" = Some (VInt b) ->
  exists g1 g2, gs = (g1 ++ s :: g2)%list /\ forall s', In s' (g1 ++ g2) -> In s' (x ++ y) /\ fget s' "bus_id" = Some (VInt b).
Proof.
  intros P B. assert (E : for_bus b (x ++ s :: y) = (for_bus b x ++ s :: for_bus b y)%list).
  { rewrite for_bus_app. f_equal. unfold for_bus. cbn [filter]. now rewrite B, Z.eqb_refl. }
  rewrite E in P. assert (I : In s gs) by (eapply Permutation_in; [apply Permutation_sym; eauto | apply in_or_app; right; left; auto]).
  apply in_split in I as (g1 & g2 & ->). exists g1, g2. split; auto. apply Permutation_app_inv in P. intros s' Hs'.
  apply (Permutation_in _ P) in Hs'. rewrite <- for_bus_app in Hs'. now apply for_bus_in in Hs'.
Qed.

Lemma extern_generator v pre r post toks m l b tag gs rs ls d d' g f : vec_records atof trunc (Vec [] [] [] []) (pre ++ r :: post) = Ok v ->
  tokens r = Ok toks -> generator_record toks m l b tag -> complete atof toks l -> generator d tag g -> In f l -> ~ listed extern_wrong m f ->
  (forall r2 toks2 m2 l2, In r2 (pre ++ post) -> tokens r2 = Ok toks2 -> generator_record toks2 m2 l2 b tag -> ~ In (f_key f) (map f_key l2)) ->
  Permutation gs (for_bus b (v_gens v)) -> bus_copy gs rs ls d = Ok d' ->
  exists w, reads atof toks f w /\ holds d' f g w.
Proof.
  intros V T R Co Dv I W N P Cp. apply vec_records_app in V as (v1 & V1 & V). cbn [vec_records] in V. destruct (vec_record atof trunc v1 r) as [v2| |] eqn:E; cbn [obind] in V; try discriminate.
  destruct (@vec_all_gens _ _ _ V1) as (sp & G1 & F1). destruct (@vec_all_gens _ _ _ V) as (sq & G2 & F2). cbn [v_gens] in G1.
  apply vec_gens in E as [(_ & X)|(s & E & Q)]; [exfalso; eapply X; eauto|].
  destruct Q as (toks' & m' & c & l' & b' & tag' & s0 & T' & R' & A & St & Fb & Fi & Fm). assert (toks' = toks) by congruence. subst toks'.
  pose proof R as (L & M & B & Id). pose proof R' as (L' & M' & B' & Id'). apply model_of_name in M, M'. apply bus_of_number in B, B'. apply tag_of_ident in Id, Id'.
  assert (m' = m) by congruence. assert (b' = b) by congruence. assert (tag' = tag) by congruence. subst m' b' tag'. assert (l' = l) by (eapply gens_unique; eauto). subst l'.
  rewrite G2, E, G1, <- app_assoc in P. cbn [app] in P. destruct (@arrived _ _ _ _ _ P Fb) as (g1 & g2 & -> & Fo).
  assert (A0 : In (f_key f) gkeys) by (eapply in_keys; eauto). pose proof (device_small Dv) as Sg. destruct (@gkeys_apart _ A0) as (A1 & A2 & _).
  assert (Sp : forall s', In s' (g1 ++ g2) -> spares_gen tag (f_key f) s').
  { intros s' Hs' m2 l2 Hi Hm L2. destruct (Fo s' Hs') as (Hin & Hb). assert (exists r2, In r2 (pre ++ post) /\ gen_struct atof trunc r2 s') as (r2 & I2 & Q2).
    { apply in_app_or in Hin as [Hin|Hin]; [destruct (F1 _ Hin) as (r2 & ? & ?) | destruct (F2 _ Hin) as (r2 & ? & ?)]; exists r2; split; auto; apply in_or_app; auto. }
    destruct Q2 as (t2 & m3 & c3 & l3 & b3 & tag3 & s3 & T3 & R3 & _ & _ & Gb & Gi & Gm).
    assert (m3 = m2) by congruence. assert (b3 = b) by congruence. assert (tag3 = tag) by congruence. subst m3 b3 tag3. assert (l3 = l2) by (eapply gens_unique; eauto; apply R3). subst l3. eapply N; eauto. }
  unfold bus_copy in Cp. destruct (arrivals gen_arrives d (g1 ++ s :: g2)) as [dg| |] eqn:Ag; cbn [obind] in Cp; try discriminate.
  destruct (arrivals relay_arrives dg rs) as [dr| |] eqn:Ar; cbn [obind] in Cp; try discriminate.
  apply arrivals_app in Ag as (d1 & Ag1 & Ag). cbn [arrivals] in Ag. destruct (gen_arrives d1 s) as [d2| |] eqn:As; cbn [obind] in Ag; try discriminate.
  assert (K1 : kept (f_key f) g d d1) by (eapply gens_keep; eauto; left; split; [eauto|]; split; auto; intros; apply Sp; apply in_or_app; auto).
  assert (Dv1 : generator d1 tag g) by (eapply generator_move; [apply K1 | auto]).
  assert (X : extract (c_extract c) s g d1 = Ok d2).
  { unfold gen_arrives in As. fold (arrive_index d1 "GENERATOR_NUMBER" "GENERATOR_ID" s "gen_id") in As. rewrite (@arrive_device _ _ _ _ _ _ _ Dv1 Fi) in As. cbn [obind] in As.
    assert (g > -1)%Z by (destruct Dv as (_ & (n0 & _ & Gn) & _); lia). destruct (Z.gtb_spec g (-1)); [|lia].
    apply str_field_get in Fm. rewrite Fm in As. cbn [obind] in As. rewrite A in As. exact As. }
  destruct (gen_facts atof trunc L) as (c' & Ac & _ & (X1 & _ & X3 & _)). assert (c' = c) by congruence. subst c'.
  destruct (X3 7 toks s0 s g d1 d2 f Co ltac:(eapply name_len; apply R) St X I W) as (w & Rw & Hw). exists w. split; auto.
  assert (I2 : same_ids d1 d2) by (destruct (@gen_arrives_keeps d1 s d2 "RELAY_NUMBER" g tag As Sg) as (Z0 & _); [right; apply relay_number_not_gen | exact Z0]).
  assert (Dv2 : generator d2 tag g) by (eapply generator_move; eauto).
  assert (K2 : kept (f_key f) g d2 dg) by (eapply gens_keep; eauto; left; split; [eauto|]; split; auto; intros; apply Sp; apply in_or_app; auto).
  assert (K3 : kept (f_key f) g dg dr) by (eapply relays_keep; eauto).
  assert (K4 : kept (f_key f) g dr d') by (eapply (@loads_keep ls dr d' (f_key f) g tag); eauto).
  apply holds_find in Hw; auto. apply holds_find; auto. destruct K2 as (_ & K2), K3 as (_ & K3), K4 as (_ & K4). now rewrite K4, K3, K2.
Qed.
Lemma extern_load v pre r post toks m l b tag gs rs ls d d' g f : vec_records atof trunc (Vec [] [] [] []) (pre ++ r :: post) = Ok v ->
  tokens r = Ok toks -> load_record toks m l b tag -> complete atof toks l -> load d tag g -> In f l -> ~ listed extern_wrong m f ->
  (forall r2 toks2 m2 l2, In r2 (pre ++ post) -> tokens r2 = Ok toks2 -> load_record toks2 m2 l2 b tag -> ~ In (f_key f) (map f_key l2)) ->
  Permutation ls (for_bus b (v_loads v)) -> bus_copy gs rs ls d = Ok d' ->
  exists w, reads atof toks f w /\ holds d' f g w.
Proof.
  intros V T R Co Dv I W N P Cp. apply vec_records_app in V as (v1 & V1 & V). cbn [vec_records] in V. destruct (vec_record atof trunc v1 r) as [v2| |] eqn:E; cbn [obind] in V; try discriminate.
  destruct (@vec_all_loads _ _ _ V1) as (sp & G1 & F1). destruct (@vec_all_loads _ _ _ V) as (sq & G2 & F2). cbn [v_loads] in G1.
  pose proof (record_load_device R) as (m1 & M1 & O1 & LD1). pose proof R as (L & B & Id & Md). apply bus_of_number in B. apply tag_of_ident in Id.
  assert (Le : (1 < length toks)%nat) by (destruct Md as [(_ & M)|(_ & M & _)]; eapply name_len; eauto).
  pose proof E as E0. apply vec_loads in E as [(_ & X)|(s & E & Q)]; [exfalso; eapply X; eauto|].
  destruct Q as (toks' & b' & tag' & T' & Fb & Fi & Q). assert (toks' = toks) by congruence. subst toks'.
  assert (Q' : b' = b /\ tag' = tag /\ exists c s0, assoc load_class m = Some c /\ store atof trunc 8 (c_store c) toks s0 = Ok s /\ fget s "model" = Some (VString m)).
  { destruct Q as [Q|(m' & c & s' & s0 & R' & A & St & Fm)].
    - exfalso. unfold vec_record in E0. rewrite T in E0. cbn [obind] in E0. rewrite M1 in E0. cbn [obind] in E0.
      assert (Nn : on_generator m1 = false /\ on_bus m1 = false) by (unfold on_load in O1; apply mem_In in O1; cbn in O1; destruct O1 as [<-|[<-|[<-|[]]]]; split; reflexivity). destruct Nn as (Nn1 & Nn2).
      rewrite Nn1, Nn2, O1, B in E0. cbn [obind] in E0. rewrite Id in E0. cbn [obind] in E0. destruct (put_field 8 _ _ _) as [s1| |]; cbn [obind] in E0; try discriminate. rewrite LD1 in E0. cbn [obind] in E0.
      destruct (load_facts atof trunc L) as (c & A & _). rewrite A in E0. destruct (store _ _ _ _ _ s1) as [s2| |] eqn:St; cbn [obind] in E0; try discriminate. inversion E0; subst v2. cbn [v_loads] in E. apply app_inj_tail in E as (_ & ->).
      destruct (@load_x _ _ L c A) as (_ & _ & _ & X3 & X4). destruct (@store_sets atof trunc 8 toks "model" _ _ X3 X4 _ _ St) as (w & _ & Gw). congruence.
    - pose proof R' as (_ & B' & Id' & _). apply bus_of_number in B'. apply tag_of_ident in Id'. destruct (record_load_device R') as (m2 & M2 & _ & LD2).
      assert (m2 = m1) by congruence. subst m2. assert (m' = m) by congruence. subst m'. repeat split; try congruence. exists c, s0. auto. }
  clear Q. destruct Q' as (-> & -> & c & s0 & A & St & Fm).
  rewrite G2, E, G1, <- app_assoc in P. cbn [app] in P. destruct (@arrived _ _ _ _ _ P Fb) as (g1 & g2 & -> & Fo).
  assert (A0 : In (f_key f) lkeys) by (eapply in_keys; eauto). pose proof (device_small Dv) as Sg. destruct (@lkeys_apart _ A0) as (A1 & A2 & _).
  assert (Sp : forall s', In s' (g1 ++ g2) -> spares_load tag (f_key f) s').
  { intros s' Hs' m2 l2 Hi Hm L2. destruct (Fo s' Hs') as (Hin & Hb). assert (exists r2, In r2 (pre ++ post) /\ load_struct atof trunc r2 s') as (r2 & I2 & Q2).
    { apply in_app_or in Hin as [Hin|Hin]; [destruct (F1 _ Hin) as (r2 & ? & ?) | destruct (F2 _ Hin) as (r2 & ? & ?)]; exists r2; split; auto; apply in_or_app; auto. }
    destruct Q2 as (t2 & b3 & tag3 & T3 & Gb & Gi & [Gm|(m3 & c3 & l3 & s3 & R3 & _ & _ & Gm)]); [congruence|].
    assert (m3 = m2) by congruence. assert (b3 = b) by congruence. assert (tag3 = tag) by congruence. subst m3 b3 tag3. assert (l3 = l2) by (eapply loads_unique; eauto; apply R3). subst l3. eapply N; eauto. }
  unfold bus_copy in Cp. destruct (arrivals gen_arrives d gs) as [dg| |] eqn:Ag; cbn [obind] in Cp; try discriminate.
  destruct (arrivals relay_arrives dg rs) as [dr| |] eqn:Ar; cbn [obind] in Cp; try discriminate.
  apply arrivals_app in Cp as (d1 & Al1 & Al). cbn [arrivals] in Al. destruct (load_arrives d1 s) as [d2| |] eqn:As; cbn [obind] in Al; try discriminate.
  assert (Ka : kept (f_key f) g d dg) by (eapply (@gens_keep gs d dg (f_key f) g tag); eauto).
  assert (Kb : kept (f_key f) g dg dr) by (eapply relays_keep; eauto).
  assert (Dvr : load dr tag g) by (eapply load_move; [apply Kb|]; eapply load_move; [apply Ka | auto]).
  assert (K1 : kept (f_key f) g dr d1) by (eapply loads_keep; eauto; left; split; [eauto|]; split; auto; intros; apply Sp; apply in_or_app; auto).
  assert (Dv1 : load d1 tag g) by (eapply load_move; [apply K1 | auto]).
  assert (X : extract (c_extract c) s g d1 = Ok d2).
  { unfold load_arrives in As. fold (arrive_index d1 "LOAD_NUMBER" "LOAD_ID" s "id") in As. rewrite (@arrive_device _ _ _ _ _ _ _ Dv1 Fi) in As. cbn [obind] in As.
    assert (g > -1)%Z by (destruct Dv as (_ & (n0 & _ & Gn) & _); lia). destruct (Z.gtb_spec g (-1)); [|lia].
    apply str_field_get in Fm. rewrite Fm in As. cbn [obind] in As. rewrite A in As. exact As. }
  destruct (load_facts atof trunc L) as (c' & Ac & _ & (X1 & _ & X3 & _)). assert (c' = c) by congruence. subst c'.
  destruct (X3 8 toks s0 s g d1 d2 f Co Le St X I W) as (w & Rw & Hw). exists w. split; auto.
  assert (I2 : same_ids d1 d2) by (destruct (@load_arrives_keeps d1 s d2 "RELAY_NUMBER" g tag As Sg) as (Z0 & _); [right; apply relay_number_not_load | exact Z0]).
  assert (Dv2 : load d2 tag g) by (eapply load_move; eauto).
  assert (K2 : kept (f_key f) g d2 d') by (eapply loads_keep; eauto; left; split; [eauto|]; split; auto; intros; apply Sp; apply in_or_app; auto).
  apply holds_find in Hw; auto. apply holds_find; auto. destruct K2 as (_ & K2). now rewrite K2.
Qed.
End Ext.

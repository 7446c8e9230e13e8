From Verif Require Import Prelude GAModel GAProofs ParModel ParProofs ParProofs2 ParProofs3 NetModel NetSpec NetProofs NetProofs2 NetProofs3 NetProofs4 IdxModel IdxSpec IdxProofs IdxProofs2 MapModel MapSpec MapProofs MapProofs2 MapProofs3 GenModel GenSpec GenProofs GenProofs2 SmModel SmSpec.
Open Scope nat_scope.

(** * Columns *)
Lemma col_fold_uniform n ds : (forall d, In d ds -> 0 < fst d -> snd d = n) -> forall n0, n0 = n \/ (n0 = 0 /\ n <> 0) ->
  fold_left col_step ds (n0, true) = (if (existsb (fun d => 0 <? fst d) ds) then n else n0, true).
Proof.
  induction ds as [|d ds IH]; intros H n0 H0; [reflexivity|]. cbn [fold_left existsb].
  assert (S1 : col_step (n0, true) d = (if 0 <? fst d then n else n0, true)).
  { unfold col_step. cbn [fst snd]. destruct (Nat.ltb_spec 0 (fst d)) as [L|L]; cbn [andb].
    - rewrite andb_true_r, (H d (or_introl eq_refl) L). destruct (Nat.eqb_spec n0 0) as [E|E]; [now rewrite Nat.eqb_refl|]. destruct H0 as [->|[E' _]]; [|congruence]. now rewrite Nat.eqb_refl.
    - now rewrite andb_false_r. }
  rewrite S1. destruct (0 <? fst d) eqn:L; cbn [orb].
  - rewrite IH; [|intros; apply H; auto; now right|auto]. now destruct (existsb _ ds).
  - apply IH; auto. intros; apply H; auto; now right.
Qed.
Lemma col_fold_ok ds : forall n0 b n, fold_left col_step ds (n0, b) = (n, true) ->
  b = true /\ (n0 = 0 \/ n0 = n) /\ forall d, In d ds -> 0 < fst d -> snd d = n \/ snd d = 0.
Proof.
  induction ds as [|d ds IH]; intros n0 b n E; cbn [fold_left] in E.
  - injection E as -> ->. repeat split; auto. intros d [].
  - unfold col_step in E at 2. cbn [fst snd] in E. apply IH in E as (E1 & E2 & E3).
    destruct (Nat.ltb_spec 0 (fst d)) as [L|L]; cbn [andb] in *.
    + rewrite andb_true_r in *. destruct (Nat.eqb_spec n0 0) as [Z|Z].
      * rewrite Nat.eqb_refl in E1. cbn in E1. split; [exact E1|]. split; [auto|]. intros d' [<-|I] L'; [destruct E2; auto|auto].
      * destruct (Nat.eqb_spec (snd d) n0) as [Q|Q]; cbn in E1; [|discriminate]. split; [exact E1|]. split; [destruct E2; auto|]. intros d' [<-|I] L'; [rewrite Q; destruct E2; auto|auto].
    + rewrite andb_false_r in *. split; [exact E1|]. split; [exact E2|]. intros d' [<-|I] L'; [lia|auto].
Qed.
Lemma fold_min_le l : forall a, (fold_left Z.min l a <= a)%Z /\ forall x, In x l -> (fold_left Z.min l a <= x)%Z.
Proof.
  induction l as [|y l IH]; intros a; cbn; [split; [lia|intros x []]|]. destruct (IH (Z.min a y)) as (P & Q). split; [lia|]. intros x [->|I]; [lia|auto].
Qed.
Lemma fold_max_ge l : forall a, (a <= fold_left Z.max l a)%Z /\ forall x, In x l -> (x <= fold_left Z.max l a)%Z.
Proof.
  induction l as [|y l IH]; intros a; cbn; [split; [lia|intros x []]|]. destruct (IH (Z.max a y)) as (P & Q). split; [lia|]. intros x [->|I]; [lia|auto].
Qed.
Lemma fold_const f l (a : Z) : f a a = a -> (forall x, In x l -> x = a) -> fold_left f l a = a.
Proof. intros E. induction l as [|y l IH]; intros H; [reflexivity|]. cbn. rewrite (H y (or_introl eq_refl)), E. apply IH. intros; apply H; now right. Qed.

Lemma construct_uniform n dss : 0 < n -> uniform n dss -> supplied dss -> construct dss = map (fun _ => Built n) dss.
Proof.
  intros N U S.
  assert (SC : map col_scan dss = map (fun _ => (n, true)) dss).
  { apply map_ext_in. intros ds I. unfold col_scan. rewrite (@col_fold_uniform n ds) by (eauto || (right; lia)).
    destruct (S ds I) as (d & J & L). assert (X : existsb (fun d => 0 <? fst d) ds = true) by (apply existsb_exists; exists d; split; [exact J|now apply Nat.ltb_lt]). now rewrite X. }
  unfold construct. rewrite SC, !map_map. cbn [fst snd].
  assert (X : forall f, f (Z.of_nat n) (Z.of_nat n) = Z.of_nat n ->
     fold_left f (map (fun _ : list (nat * nat) => Z.of_nat n) dss) (hd 0%Z (map (fun _ : list (nat * nat) => Z.of_nat n) dss)) = (if dss then 0%Z else Z.of_nat n)).
  { intros f E. destruct dss as [|d ds]; [reflexivity|]. cbn [map hd]. apply fold_const; auto. intros x [<-|I]; auto. apply in_map_iff in I as (? & <- & _). reflexivity. }
  rewrite !X by lia. rewrite Z.eqb_refl. reflexivity.
Qed.
Lemma construct_built n dss : In (Built n) (construct dss) -> construct dss = map (fun _ => Built n) dss /\
  forall ds, In ds dss -> col_scan ds = (n, true).
Proof.
  unfold construct. set (scans := map col_scan dss). set (los := map _ scans). set (his := map _ scans).
  destruct (Z.eqb_spec (fold_left Z.min los (hd 0%Z los)) (fold_left Z.max his (hd 0%Z his))) as [E|E].
  2:{ intros I. apply in_map_iff in I as (q & Q & _). destruct (q =? 0); discriminate. }
  intros I. set (m := fold_left Z.max his (hd 0%Z his)) in *.
  assert (A : forall ds, In ds dss -> snd (col_scan ds) = true /\ Z.of_nat (fst (col_scan ds)) = m).
  { intros ds J.
    assert (L : (fold_left Z.min los (hd 0%Z los) <= (if snd (col_scan ds) then Z.of_nat (fst (col_scan ds)) else -1))%Z).
    { apply fold_min_le. unfold los, scans. rewrite map_map. apply in_map_iff. exists ds. auto. }
    assert (H : (Z.of_nat (fst (col_scan ds)) <= m)%Z).
    { apply fold_max_ge. unfold his, scans. rewrite map_map. apply in_map_iff. exists ds. auto. }
    destruct (snd (col_scan ds)); [split; [reflexivity|lia]|lia]. }
  apply in_map_iff in I as (sc & Q & J). injection Q as Q. unfold scans in J. apply in_map_iff in J as (ds & <- & J).
  assert (M : m = Z.of_nat n) by (rewrite <- Q; symmetry; now apply A).
  assert (B : forall d, In d dss -> col_scan d = (n, true)).
  { intros d K. destruct (A d K) as (A1 & A2). rewrite M in A2. apply Nat2Z.inj in A2. destruct (col_scan d); cbn in *; congruence. }
  split; [|exact B]. unfold scans. rewrite map_map. apply map_ext_in. intros d K. now rewrite (B d K).
Qed.
Lemma construct_cases dss : (exists n, construct dss = map (fun _ => Built n) dss) \/
  construct dss = map (fun q => if q =? 0 then Raised else Waiting) (iota (length dss)).
Proof.
  destruct dss as [|d dss]; [left; exists 0; reflexivity|]. assert (C := @construct_built). unfold construct in *. 
  match goal with |- context [if ?b then _ else _] => destruct b eqn:E end; [left|right; reflexivity].
  exists (fst (col_scan d)). specialize (C (fst (col_scan d)) (d :: dss)). rewrite E in C. apply C. now left.
Qed.

(** * getRowBlock *)
Section Sort.
Context {X : Type} (key : X -> nat).
Lemma insert_perm x l : Permutation (insert_by key x l) (x :: l).
Proof. induction l as [|y l IH]; cbn; auto. destruct (_ <=? _); auto. etransitivity; [apply perm_skip, IH|apply perm_swap]. Qed.
Lemma sort_permut l : Permutation (sort_by key l) l.
Proof. induction l as [|x l IH]; cbn; auto. etransitivity; [apply insert_perm|auto]. Qed.
Lemma insert_key x l : map key (insert_by key x l) = insert_by (fun i => i) (key x) (map key l).
Proof. induction l as [|y l IH]; cbn; auto. destruct (_ <=? _); cbn; auto. now rewrite IH. Qed.
Lemma sort_key l : map key (sort_by key l) = sort_by (fun i => i) (map key l).
Proof. induction l as [|x l IH]; cbn; auto. now rewrite insert_key, IH. Qed.
End Sort.
Lemma position_nth i h : In i h -> nth_error h (position i h) = Some i.
Proof. induction h as [|j h IH]; intros []; cbn; destruct (Nat.eqb_spec j i); subst; try easy. now apply IH. Qed.
Lemma nth_combine_iota {X} (l : list X) r i : In (r, i) (combine l (iota (length l))) -> nth_error l i = Some r.
Proof.
  unfold iota. assert (G : forall s, In (r, i) (combine l (seq s (length l))) -> s <= i /\ nth_error l (i - s) = Some r).
  { induction l as [|y l IH]; intros s I; cbn in I; [destruct I|]. destruct I as [E|I].
    - injection E as -> ->. split; auto. now rewrite Nat.sub_diag.
    - apply IH in I as (L & E). split; [lia|]. now replace (i - s) with (S (i - S s)) by lia. }
  intros I. apply G in I as (_ & E). now rewrite Nat.sub_0_r in E.
Qed.
Section Block.
Context {V : Type}.
Lemma row_block_ok (m : dense V) rows : Forall (fun i => i < d_rows m) rows ->
  row_block m rows = Ok (flat_map (fun i => map (d_at m i) (iota (d_cols m))) rows).
Proof.
  intros F. unfold row_block. assert (B : forallb (fun i => i <? d_rows m) rows = true) by (apply forallb_forall; intros x I; rewrite Forall_forall in F; apply Nat.ltb_lt; auto).
  rewrite B. f_equal. set (f := fun i => map (d_at m i) (iota (d_cols m))).
  set (ps := sort_by fst (combine rows (iota (length rows)))).
  assert (P : Permutation ps (combine rows (iota (length rows)))) by apply sort_permut.
  assert (L : length (combine rows (iota (length rows))) = length rows) by (rewrite combine_length; unfold iota; rewrite seq_length; lia).
  assert (K : map fst ps = sort_by (fun i => i) rows).
  { unfold ps. rewrite sort_key. f_equal. apply map_fst_combine'. unfold iota. now rewrite seq_length. }
  assert (H : Permutation (map snd ps) (iota (length rows))).
  { rewrite P. rewrite map_snd_combine'; [reflexivity|]. unfold iota. now rewrite seq_length. }
  unfold invert, sort_perm. fold ps. rewrite map_length, (Permutation_length P), L, flat_map_concat_map, map_map, flat_map_concat_map. f_equal.
  transitivity (map (fun i => f (nth i rows 0)) (iota (length rows))); [|apply (map_nth_iota f rows 0)].
  apply map_ext_in. intros i I. 
  assert (J : In i (map snd ps)) by (apply (Permutation_in _ (Permutation_sym H)); exact I).
  pose proof (position_nth _ _ J) as N. rewrite nth_error_map in N. destruct (nth_error ps (position i (map snd ps))) as [(r, i')|] eqn:E; [|discriminate]. injection N as ->.
  assert (R : nth_error rows i = Some r) by (apply nth_combine_iota, (Permutation_in _ P), nth_error_In with (1 := E)).
  rewrite (nth_error_nth _ _ 0 R). apply nth_error_nth. rewrite <- K, map_map, nth_error_map, E. reflexivity.
Qed.
Lemma slab_rows_ok (m : dense V) rows : Forall (fun i => i < d_rows m) rows ->
  slab_rows (d_cols m) m rows = Ok (map (fun i => map (d_at m i) (iota (d_cols m))) rows).
Proof.
  intros F. unfold slab_rows. rewrite row_block_ok by exact F. cbn [obind]. set (f := fun i => map (d_at m i) (iota (d_cols m))).
  assert (Lf : forall i, length (f i) = d_cols m) by (intros i; unfold f, iota; now rewrite map_length, seq_length).
  assert (L : forall l, length (flat_map f l) = d_cols m * length l) by (induction l as [|x l IH]; cbn [flat_map length]; [lia|]; rewrite app_length, IH, Lf; lia).
  rewrite L, Nat.eqb_refl. f_equal. transitivity (map (fun i => f (nth i rows 0)) (iota (length rows))); [|apply (map_nth_iota f rows 0)].
  apply map_ext_in. intros i I. apply in_iota in I. clear F. revert i I. induction rows as [|r rows IH]; intros i I; [cbn in I; lia|]. cbn [flat_map]. destruct i as [|i].
  - cbn [Nat.mul skipn nth]. rewrite firstn_app, Lf, Nat.sub_diag, firstn_O, app_nil_r. apply firstn_all2. rewrite Lf. lia.
  - cbn [nth]. rewrite <- IH by (cbn in I; lia). f_equal. cbn [Nat.mul]. rewrite skipn_app, Lf. replace (d_cols m + i * d_cols m - d_cols m) with (i * d_cols m) by lia.
    rewrite skipn_all2 by (rewrite Lf; lia). reflexivity.
Qed.
Lemma give_ok (f : nat -> list V) cs : give cs (map f (flat_map gc_idx (filter gc_act cs))) = map (unload f) cs.
Proof.
  induction cs as [|c cs IH]; [reflexivity|]. cbn [give filter map]. unfold unload at 1. destruct (gc_act c) eqn:E; [|now rewrite IH].
  cbn [flat_map]. rewrite map_app, firstn_app, skipn_app, map_length, Nat.sub_diag, firstn_O, app_nil_r. rewrite firstn_all2, skipn_all2 by (rewrite map_length; lia). cbn [app skipn]. now rewrite IH.
Qed.
Lemma slab_unload_ok (m : dense V) cs : (forall c i, In c cs -> gc_act c = true -> In i (gc_idx c) -> i < d_rows m) ->
  slab_unload (d_cols m) m cs = Ok (map (unload (fun i => map (d_at m i) (iota (d_cols m)))) cs).
Proof.
  intros H. unfold slab_unload. rewrite slab_rows_ok; [cbn [obind]; now rewrite give_ok|].
  apply Forall_forall. intros i I. apply in_flat_map in I as (c & I & J). apply filter_In in I as (I & A). eauto.
Qed.
Lemma slab_to_network_ok (m : dense V) w : (forall p c i, In p w -> In c (gp_buses p ++ gp_brs p)%list -> gc_act c = true -> In i (gc_idx c) -> i < d_rows m) ->
  slab_to_network (d_cols m) m w = Ok (map_to_network (fun i => map (d_at m i) (iota (d_cols m))) w).
Proof.
  intros H. unfold slab_to_network, map_to_network. apply oall_map_Ok. intros p I.
  rewrite !slab_unload_ok; [reflexivity| |]; intros c i J; apply (H p c i I), in_app_iff; auto.
Qed.

(** * Loading *)
Lemma set_cells_spec own ord : forall m : dense V,
  Forall (fun e : nat * ((nat * nat) * V) => fst (fst (snd e)) < d_rows m /\ snd (fst (snd e)) < d_cols m /\ own (fst (fst (snd e))) = fst e) ord ->
  NoDup (map (fun e => fst (snd e)) ord) ->
  exists m', set_cells own m ord = Ok m' /\ d_rows m' = d_rows m /\ d_cols m' = d_cols m /\
    (forall e, In e ord -> d_at m' (fst (fst (snd e))) (snd (fst (snd e))) = snd (snd e)) /\
    (forall i k, ~ In (i, k) (map (fun e => fst (snd e)) ord) -> d_at m' i k = d_at m i k).
Proof.
  induction ord as [|(q & (i & k) & v) r IH]; intros m HF ND; cbn [set_cells].
  { exists m. repeat split; auto. intros e []. }
  inversion HF as [|? ? (H1 & H2 & H3) HF']; subst. cbn [fst snd] in *. inversion ND as [|? ? N1 N2]; subst.
  destruct (Nat.ltb_spec i (d_rows m)); [|lia]. destruct (Nat.ltb_spec k (d_cols m)); [|lia]. rewrite Nat.eqb_refl. cbn [andb].
  set (m1 := Dense (d_rows m) (d_cols m) (fun a b => if (a =? i) && (b =? k) then v else d_at m a b)).
  destruct (IH m1 HF' N2) as (m' & E & R & C & A & B). exists m'. split; auto. split; [exact R|]. split; [exact C|]. split.
  - intros e [<-|He]; cbn [fst snd]; [|now apply A]. rewrite B by exact N1. cbn. now rewrite !Nat.eqb_refl.
  - intros a b Hk. cbn [map In fst snd] in Hk. rewrite B by tauto. cbn. destruct (Nat.eqb_spec a i); destruct (Nat.eqb_spec b k); subst; cbn; auto. tauto.
Qed.
Definition row_cells (ncols : nat) (iv : nat * list V) : list ((nat * nat) * V) := map (fun kv => ((fst iv, fst kv), snd kv)) (combine (iota ncols) (snd iv)).
Lemma slab_loads_rows ncols lo len (p : gproc (list V)) : slab_loads ncols lo len p = flat_map (row_cells ncols) (gen_loads lo len p).
Proof.
  unfold slab_loads, gen_loads, load_buses, load_brs. rewrite flat_map_app. 
  assert (C : forall l, flat_map (slab_cells ncols) l = flat_map (row_cells ncols) (flat_map (fun c => combine (gc_idx c) (gc_vals c)) l)).
  { induction l as [|c l IH]; [reflexivity|]. cbn [flat_map]. rewrite flat_map_app, IH. reflexivity. }
  rewrite !C. f_equal. induction (flat_map (fun c => combine (gc_idx c) (gc_vals c)) (filter gc_act (gp_brs p))) as [|(i, row) l IH]; [reflexivity|].
  cbn [flat_map filter fst]. rewrite filter_app, IH. unfold row_cells at 1. cbn [fst snd].
  destruct ((lo <=? i) && (i <? lo + len)) eqn:E; cbn [flat_map].
  - f_equal. apply filter_all. intros e I. apply in_map_iff in I as (kv & <- & _). exact E.
  - assert (Z : filter (fun e : nat * nat * V => (lo <=? fst (fst e)) && (fst (fst e) <? lo + len)) (map (fun kv : nat * V => (i, fst kv, snd kv)) (combine (iota ncols) row)) = []).
    { induction (combine (iota ncols) row) as [|kv r IH2]; [reflexivity|]. cbn [map filter fst]. now rewrite E. }
    now rewrite Z.
Qed.
Lemma row_cells_keys ncols i (row : list V) : length row = ncols -> map fst (row_cells ncols (i, row)) = map (pair i) (iota ncols).
Proof.
  intros L. unfold row_cells. cbn [fst snd]. rewrite map_map. cbn [fst]. rewrite <- (map_map fst (pair i)). f_equal. apply map_fst_combine'. unfold iota. now rewrite seq_length.
Qed.
Lemma nodup_append {X} (a b : list X) : NoDup a -> NoDup b -> (forall x, In x a -> In x b -> False) -> NoDup (a ++ b).
Proof.
  induction 1 as [|x a N _ IH]; intros H D; [exact H|]. cbn [app]. constructor; [|apply IH; auto; intros y I J; exact (D y (or_intror I) J)].
  intros I. apply in_app_or in I as [I|I]; [contradiction|exact (D x (or_introl eq_refl) I)].
Qed.
Lemma nodup_keys ncols is_ : NoDup is_ -> NoDup (flat_map (fun i => map (pair i) (iota ncols)) is_ : list (nat * nat)).
Proof.
  induction 1 as [|i l N _ IH]; [constructor|]. cbn [flat_map]. apply nodup_append; auto.
  - apply FinFun.Injective_map_NoDup; [intros a b E; congruence|apply seq_NoDup].
  - intros (a, b) I J. apply in_map_iff in I as (k & E & _). injection E as <- <-. apply in_flat_map in J as (i' & J & K). apply in_map_iff in K as (k' & E & _). injection E as -> _. contradiction.
Qed.
End Block.

From Verif Require Import Prelude GAModel GAProofs HdModel HdSpec.
From Coq Require Import Reals Lra.
From Flocq Require Import Core Relative.

(** ** The parts cover the array *)
Local Instance valid53 : Valid_exp (FLT_exp (-1074) 53).
Proof. apply FLT_exp_valid. reflexivity. Qed.
Lemma dbl_le x y : (x <= y)%R -> (dbl x <= dbl y)%R.
Proof. apply round_le; auto with typeclass_instances. Qed.
Lemma dbl_int z : (Z.abs z < 2 ^ 53)%Z -> dbl (IZR z) = IZR z.
Proof.
  intros H. unfold dbl. apply round_generic; auto with typeclass_instances.
  apply generic_format_FLT. exists (Float radix2 z 0); cbn; [unfold F2R; cbn; ring | exact H | lia].
Qed.
Lemma delta_nonneg t n : (0 <= t)%Z -> (0 < n)%Z -> (0 <= delta t n)%R.
Proof.
  intros T N. unfold delta. replace 0%R with (dbl 0) by (apply (dbl_int 0); lia). apply dbl_le. apply Rle_mult_inv_pos; [now apply IZR_le | now apply IZR_lt].
Qed.
Lemma cut_0 t n : cut t n 0 = 0%Z.
Proof. unfold cut. rewrite Rmult_0_r. rewrite (dbl_int 0) by lia. apply Ztrunc_IZR. Qed.
Lemma cut_mono t n j k : (0 <= t)%Z -> (0 < n)%Z -> (j <= k)%Z -> (cut t n j <= cut t n k)%Z.
Proof.
  intros T N J. unfold cut. apply Ztrunc_le. apply dbl_le. apply Rmult_le_compat_l; [now apply delta_nonneg | now apply IZR_le].
Qed.
Lemma cut_top t n : (0 < t < 2 ^ 31)%Z -> (0 < n < 2 ^ 31)%Z -> (cut t n (n - 1) <= t)%Z.
Proof.
  intros T N. destruct (Z.eq_dec n 1) as [-> | N1]; [cbn [Z.sub]; change (1 - 1)%Z with 0%Z; rewrite cut_0; lia |].
  unfold cut. apply Z.le_trans with (Ztrunc (dbl (IZR t))); [apply Ztrunc_le, dbl_le | rewrite dbl_int by lia; rewrite Ztrunc_IZR; lia].
  set (x := (IZR t / IZR n)%R). assert (Nn : (0 < IZR n)%R) by (apply IZR_lt; lia). assert (Tt : (1 <= IZR t)%R) by (apply IZR_le; lia).
  assert (Nb : (IZR n <= 2147483648)%R) by (apply IZR_le; lia).
  assert (X : (/ 2147483648 <= x)%R).
  { unfold x. apply Rle_trans with (/ IZR n)%R; [apply Rinv_le; lra |]. unfold Rdiv. rewrite <- (Rmult_1_l (/ IZR n)) at 1. apply Rmult_le_compat_r; auto. left. now apply Rinv_0_lt_compat. }
  assert (E : (Rabs (dbl x - x) <= / 2 * bpow radix2 (- 53 + 1) * Rabs x)%R).
  { unfold dbl. apply relative_error_N_FLT; [lia |]. rewrite Rabs_pos_eq by lra. apply Rle_trans with (/ 2147483648)%R; auto.
    replace (/ 2147483648)%R with (bpow radix2 (-31)) by (cbn; lra). apply bpow_le. lia. }
  change (bpow radix2 (- 53 + 1)) with (/ IZR (2 ^ 52))%R in E. rewrite (Rabs_pos_eq x) in E by lra.
  assert (D : (delta t n <= x * (1 + / 4294967296))%R).
  { unfold delta. fold x. apply Rabs_le_inv in E. cbn in E. lra. }
  assert (M : (0 <= IZR (n - 1))%R) by (apply IZR_le; lia).
  apply Rle_trans with (x * (1 + / 4294967296) * IZR (n - 1))%R; [now apply Rmult_le_compat_r |].
  replace (IZR t) with (x * IZR n)%R by (unfold x; field; lra). rewrite Rmult_assoc. apply Rmult_le_compat_l; [lra |]. rewrite minus_IZR in *. lra.
Qed.

(** ** The slices *)
Section Slices.
Variables t n : Z.
Hypothesis (T : (0 < t < 2 ^ 31)%Z) (N : (0 < n < 2 ^ 31)%Z).
Definition cutn (k : nat) : nat := if (Z.of_nat k <? n)%Z then Z.to_nat (cut t n (Z.of_nat k)) else Z.to_nat t.
Lemma cut_bounds k : (0 <= k <= n - 1)%Z -> (0 <= cut t n k <= t)%Z.
Proof.
  intros K. split.
  - rewrite <- (cut_0 t n). apply cut_mono; lia.
  - apply Z.le_trans with (cut t n (n - 1)); [apply cut_mono; lia | now apply cut_top].
Qed.
Lemma cutn_0 : cutn 0 = 0.
Proof. unfold cutn. change (Z.of_nat 0) with 0%Z. destruct (Z.ltb_spec 0 n); [now rewrite cut_0 | lia]. Qed.
Lemma cutn_end : cutn (Z.to_nat n) = Z.to_nat t.
Proof. unfold cutn. rewrite Z2Nat.id by lia. now rewrite Z.ltb_irrefl. Qed.
Lemma cutn_le k : cutn k <= cutn (S k).
Proof.
  unfold cutn. destruct (Z.ltb_spec (Z.of_nat k) n) as [A|A], (Z.ltb_spec (Z.of_nat (S k)) n) as [B|B]; try lia.
  - apply Z2Nat.inj_le; try apply cut_bounds; try lia. apply cut_mono; lia.
  - apply Z2Nat.inj_le; try lia; apply cut_bounds; lia.
Qed.
Lemma cutn_total k : cutn k <= Z.to_nat t.
Proof. unfold cutn. destruct (Z.ltb_spec (Z.of_nat k) n) as [A|A]; [|lia]. apply Z2Nat.inj_le; try lia; apply cut_bounds; lia. Qed.
Lemma part_cutn k : (Z.of_nat k < n)%Z -> part t n (Z.of_nat k) = (Z.of_nat (cutn k), Z.of_nat (cutn (S k)) - 1)%Z.
Proof.
  intros K. unfold part, cutn. destruct (Z.ltb_spec (Z.of_nat k) n) as [_|]; [|lia].
  rewrite Z2Nat.id by (apply cut_bounds; lia). f_equal.
  replace (Z.of_nat k + 1)%Z with (Z.of_nat (S k)) by lia.
  destruct (Z.ltb_spec (Z.of_nat k) (n - 1)) as [A|A], (Z.ltb_spec (Z.of_nat (S k)) n) as [B|B]; try lia.
  - rewrite Z2Nat.id by (apply cut_bounds; lia). reflexivity.
Qed.
Lemma slices {A} (l : list A) m : length l = Z.to_nat t -> concat (map (fun k => firstn (cutn (S k) - cutn k) (skipn (cutn k) l)) (iota m)) = firstn (cutn m) l.
Proof.
  intros L. induction m as [|m IH].
  - now rewrite cutn_0.
  - unfold iota in *. rewrite seq_S, map_app, concat_app, IH. cbn [map concat Nat.add]. rewrite app_nil_r.
    pose proof (cutn_le m). rewrite <- (firstn_skipn (cutn m) (firstn (cutn (S m)) l)). rewrite firstn_firstn, Nat.min_l by auto. f_equal.
    symmetry. apply skipn_firstn_comm.
Qed.
End Slices.

(** ** Permutations *)
Lemma flat_map_nil {A B} (l : list A) : flat_map (fun _ => @nil B) l = [].
Proof. induction l; auto. Qed.
Lemma flat_map_app2 {A B} (f g : A -> list B) l : Permutation (flat_map (fun a => f a ++ g a)%list l) (flat_map f l ++ flat_map g l).
Proof.
  induction l as [|x l IH]; cbn; auto. rewrite IH, <- !app_assoc. apply Permutation_app_head. rewrite !app_assoc. apply Permutation_app_tail. apply Permutation_app_comm.
Qed.
Lemma flat_map_swap {A B C} (f : A -> B -> list C) la lb :
  Permutation (flat_map (fun a => flat_map (f a) lb) la) (flat_map (fun b => flat_map (fun a => f a b) la) lb).
Proof.
  induction la as [|a la IH]; cbn.
  - now rewrite flat_map_nil.
  - rewrite IH. symmetry. apply flat_map_app2.
Qed.
Lemma flat_map_perm_in {A B} (f g : A -> list B) l : (forall x, In x l -> Permutation (f x) (g x)) -> Permutation (flat_map f l) (flat_map g l).
Proof. induction l as [|x l IH]; intros H; cbn; auto. apply Permutation_app; [apply H; now left | apply IH; intros; apply H; now right]. Qed.
Lemma map_filter_flat {A B} (f : A -> B) c l : map f (filter c l) = flat_map (fun x => if c x then [f x] else []) l.
Proof. induction l as [|x l IH]; cbn; auto. destruct (c x); cbn; now rewrite IH. Qed.
Lemma concat_perm {A} (l l' : list (list A)) : Permutation l l' -> Permutation (concat l) (concat l').
Proof.
  induction 1; cbn; auto; [now apply Permutation_app_head | | etransitivity; eauto].
  rewrite !app_assoc. apply Permutation_app_tail, Permutation_app_comm.
Qed.
Lemma concat_flat_map {A B} (f : A -> list B) ls : concat (map (flat_map f) ls) = flat_map f (concat ls).
Proof. induction ls as [|l ls IH]; cbn; auto. now rewrite IH, flat_map_app. Qed.
Definition turn (n me i : nat) : nat := (i + me) mod n.
Lemma turn_perm n me : 0 < n -> Permutation (map (turn n me) (iota n)) (iota n).
Proof.
  intros N.
  assert (S : forall me d, map (turn n (me + d)) (iota n) = map (fun i => (i + d) mod n) (map (turn n me) (iota n))).
  { intros m d. rewrite map_map. apply map_ext. intros i. unfold turn. rewrite Nat.add_mod_idemp_l by lia. f_equal. lia. }
  induction me as [|me IH].
  - unfold turn. erewrite map_ext_in; [rewrite map_id; reflexivity |]. intros i I. apply in_iota in I. cbn. rewrite Nat.add_0_r. apply Nat.mod_small. auto.
  - replace (Datatypes.S me) with (me + 1) by lia. rewrite (S me 1), IH. clear S IH.
    destruct n as [|m]; [lia |]. unfold iota. rewrite seq_S at 1. rewrite map_app. cbn [map Nat.add].
    replace ((m + 1) mod Datatypes.S m) with 0 by (replace (m + 1) with (1 * Datatypes.S m) by lia; rewrite Nat.mod_mul; lia).
    rewrite (map_ext_in _ Datatypes.S); [rewrite seq_shift; cbn; symmetry; apply Permutation_cons_append |].
    intros i I. apply in_seq in I. rewrite Nat.mod_small; lia.
Qed.

(** ** The exchange *)
Section Distr.
Variables K V : Type.
Variable keqb : K -> K -> bool.
Notation hproc := (hproc K V).
Definition deliver (local : list K) (kv : K * V) : list (nat * V) := map (fun j => (j, snd kv)) (lookup keqb local (fst kv)).
Lemma deliver_due (sym : forall a b, keqb a b = keqb b a) local all : Permutation (flat_map (deliver local) all) (due keqb local all).
Proof.
  unfold deliver, due, lookup.
  rewrite (flat_map_perm_in _ (fun kv => flat_map (fun jk => if keqb (snd jk) (fst kv) then [(fst jk, snd kv)] else []) (combine (iota (length local)) local))).
  2:{ intros kv _. rewrite map_map. now rewrite map_filter_flat. }
  rewrite flat_map_swap. apply flat_map_perm_in. intros jk _. rewrite map_filter_flat.
  erewrite flat_map_ext; [reflexivity |]. intros kv. cbn. now rewrite sym.
Qed.
Lemma get_part_slice (all : list (K * V)) local lo hi : lo <= hi -> hi <= length all ->
  get_part keqb (map Some all) local (Z.of_nat lo, (Z.of_nat hi - 1)%Z) = Ok (flat_map (deliver local) (firstn (hi - lo) (skipn lo all))).
Proof.
  intros L H. unfold get_part. destruct (Z.leb_spec (Z.of_nat lo) (Z.of_nat hi - 1)) as [A|A].
  - destruct (Z.ltb_spec (Z.of_nat lo) 0); [lia |]. rewrite Nat2Z.id. replace (Z.to_nat (Z.of_nat hi - 1 - Z.of_nat lo + 1)) with (hi - lo) by lia.
    assert (E : length (firstn (hi - lo) (skipn lo all)) = hi - lo) by (rewrite firstn_length, skipn_length; lia).
    rewrite <- E at 1. rewrite ga_get_some; [reflexivity | rewrite map_length; lia |].
    intros i I. rewrite E in I. rewrite !nth_error_map. rewrite nth_error_firstn', nth_error_skipn' by auto. reflexivity.
  - replace (hi - lo) with 0 by lia. reflexivity.
Qed.
Lemma collect_ok (sym : forall a b, keqb a b = keqb b a) (all : list (K * V)) n me (p : hproc) :
  (0 < Z.of_nat (length all) < 2 ^ 31)%Z -> (0 < Z.of_nat n < 2 ^ 31)%Z ->
  exists l, collect keqb (map Some all) (Z.of_nat (length all)) (Z.of_nat n) me p = Ok l /\ Permutation l (due keqb (h_local p) all).
Proof.
  intros T N. unfold collect. rewrite Nat2Z.id. set (t := Z.of_nat (length all)) in *.
  rewrite map_map. rewrite oall_map_ok with (h := fun i => flat_map (deliver (h_local p))
     ((fun k => firstn (cutn t (Z.of_nat n) (S k) - cutn t (Z.of_nat n) k) (skipn (cutn t (Z.of_nat n) k) all)) (turn n me i))).
  - cbn [obind]. eexists. split; [reflexivity |].
    set (sl := fun k => firstn (cutn t (Z.of_nat n) (S k) - cutn t (Z.of_nat n) k) (skipn (cutn t (Z.of_nat n) k) all)).
    rewrite <- (map_map (turn n me) (fun k => flat_map (deliver (h_local p)) (sl k))).
    rewrite concat_perm by (apply Permutation_map, turn_perm; lia).
    rewrite <- (map_map sl (flat_map (deliver (h_local p)))). rewrite concat_flat_map. unfold sl.
    rewrite slices by (auto; unfold t; lia).
    replace (cutn t (Z.of_nat n) n) with (length all); [rewrite firstn_all; now apply deliver_due |].
    rewrite <- (Nat2Z.id n) at 2. rewrite cutn_end by auto. unfold t. lia.
  - intros i I. apply in_iota in I. cbv beta.
    replace ((Z.of_nat i + Z.of_nat me) mod Z.of_nat n)%Z with (Z.of_nat (turn n me i)) by (unfold turn; rewrite Nat2Z.inj_mod; f_equal; lia).
    assert (Z.of_nat (turn n me i) < Z.of_nat n)%Z by (unfold turn; apply inj_lt, Nat.mod_upper_bound; lia).
    rewrite part_cutn by auto. apply get_part_slice; [apply cutn_le; auto |].
    etransitivity; [apply cutn_total; auto | unfold t; lia].
Qed.

Lemma offset_concat {A} (ls : list (list A)) i l : nth_error ls i = Some l -> forall j, j < length l ->
  nth_error (concat ls) (offset (map (@length _) ls) i + j) = nth_error l j.
Proof.
  unfold offset. revert i; induction ls as [|x ls IH]; intros [|i] E j J; cbn in *; try discriminate.
  - injection E as ->. now rewrite nth_error_app1.
  - rewrite nth_error_app2 by lia. replace (length x + _ + j - length x) with (sumn (firstn i (map (@length _) ls)) + j) by lia. eauto.
Qed.
Lemma cell_block (sizes : list nat) i : i < sumn sizes -> exists p, p < length sizes /\ offset sizes p <= i < offset sizes p + nth p sizes 0.
Proof.
  unfold offset. revert i; induction sizes as [|x l IH]; intros i I; cbn in *; [lia |].
  destruct (lt_dec i x).
  - exists 0. cbn. lia.
  - destruct (IH (i - x)) as (p & P & Q); [lia |]. exists (S p). cbn. lia.
Qed.
Lemma puts_all (ord : list nat) (ps : list hproc) : Forall (fun p => length (h_keys p) = length (h_vals p)) ps -> Permutation ord (iota (length ps)) ->
  ga_puts (ga_new (K * V) (sumn (map (fun p => length (h_keys p)) ps)))
    (map (fun i => (offset (map (fun p => length (h_keys p)) ps) i, match nth_error ps i with Some p => pairs p | None => [] end)) ord) = Ok (map Some (supplied ps)).
Proof.
  intros E P. set (sizes := map _ ps).
  assert (LP : map (@length _) (map (@pairs K V) ps) = sizes).
  { unfold sizes. rewrite map_map. apply map_ext_in. intros p I. rewrite Forall_forall in E. specialize (E p I). unfold pairs. rewrite combine_length. lia. }
  assert (SU : supplied ps = concat (map (@pairs K V) ps)) by (unfold supplied; apply flat_map_concat_map).
  assert (LS : length (supplied ps) = sumn sizes).
  { rewrite SU, <- LP. clear. induction ps; cbn; auto. rewrite app_length. now f_equal. }
  set (bin := fun i => match nth_error ps i with Some p => pairs p | None => [] end).
  assert (BL : forall i, length (bin i) = nth i sizes 0).
  { intros i. unfold bin. destruct (nth_error ps i) as [p|] eqn:Q.
    - rewrite <- LP. rewrite map_map. symmetry. erewrite nth_error_nth; [reflexivity |]. rewrite nth_error_map, Q. reflexivity.
    - symmetry. apply nth_overflow. unfold sizes. rewrite map_length. now apply nth_error_None. }
  assert (OI : forall k, In k ord -> k < length sizes) by (intros k I; unfold sizes; rewrite map_length; apply in_iota; now apply (Permutation_in k P)).
  destruct (@ga_puts_keyed (K * V) nat (offset sizes) bin ord (ga_new _ (sumn sizes))) as (g & G & L & W & U).
  - eapply Permutation_NoDup; [symmetry; exact P | apply seq_NoDup].
  - intros k I. rewrite ga_new_length, BL. apply offset_end. auto.
  - intros k k' I I' D. rewrite !BL. destruct (lt_eq_lt_dec k k') as [[C|C]|C]; [left | easy | right]; apply offset_disjoint; auto.
  - etransitivity; [exact G |]. f_equal. apply nth_error_ext. intros i. rewrite ga_new_length in L.
    destruct (lt_dec i (sumn sizes)) as [I|I].
    + destruct (@cell_block sizes i I) as (p & PL & Q). replace i with (offset sizes p + (i - offset sizes p)) by lia.
      assert (PO : In p ord) by (apply (Permutation_in p (Permutation_sym P)); apply in_iota; unfold sizes in PL; now rewrite map_length in PL).
      rewrite W by (auto; rewrite BL; lia). rewrite nth_error_map, nth_error_map. f_equal. rewrite SU.
      pose proof (@offset_concat (K * V) (map (@pairs K V) ps) p (bin p)) as OC. rewrite LP in OC. symmetry. apply OC; [| rewrite BL; lia].
      rewrite nth_error_map. unfold bin. destruct (nth_error ps p) eqn:Q2; [reflexivity |]. apply nth_error_None in Q2. unfold sizes in PL. rewrite map_length in PL. lia.
    + transitivity (@None (option (K * V))); [| symmetry]; apply nth_error_None; rewrite ?map_length; lia.
Qed.
End Distr.

Lemma Forall2_weaken {A B} (R S : A -> B -> Prop) l l2 : (forall x y, R x y -> S x y) -> Forall2 R l l2 -> Forall2 S l l2.
Proof. induction 2; constructor; auto. Qed.
Section Whole.
Variables K V : Type.
Variable keqb : K -> K -> bool.
Hypothesis sym : forall a b, keqb a b = keqb b a.
Lemma supplied_length (ps : list (hproc K V)) : Forall (fun p => length (h_keys p) = length (h_vals p)) ps ->
  sumn (map (fun p => length (h_keys p)) ps) = length (supplied ps).
Proof. induction 1 as [|p ps E _ IH]; cbn; auto. rewrite app_length, combine_length. fold (supplied ps). lia. Qed.
Lemma oall_forall2 {A B} (f : A -> outcome B) (R : A -> B -> Prop) l : (forall x, In x l -> exists y, f x = Ok y /\ R x y) ->
  exists ys, oall (map f l) = Ok ys /\ Forall2 R l ys.
Proof.
  induction l as [|x l IH]; intros H; cbn; [eauto |].
  destruct (H x) as (y & E & Q); [now left |]. destruct IH as (ys & Es & Qs); [intros; apply H; now right |].
  rewrite E. cbn. rewrite Es. cbn. eauto.
Qed.
Lemma Forall2_combine_l {A B} (R : A -> B -> Prop) (ks : list nat) l ys : length ks = length l -> Forall2 (fun q y => R (snd q) y) (combine ks l) ys -> Forall2 R l ys.
Proof.
  revert ks ys; induction l as [|x l IH]; intros [|k ks] ys L H; cbn in *; try discriminate; inversion H; subst; constructor; eauto.
Qed.
Lemma distribute_ok untouched ord (ps : list (hproc K V)) :
  Forall (fun p => length (h_keys p) = length (h_vals p)) ps -> Permutation ord (iota (length ps)) ->
  (0 < Z.of_nat (length ps) < 2 ^ 31)%Z -> (0 < Z.of_nat (length (supplied ps)) < 2 ^ 31)%Z ->
  exists outs, distribute keqb untouched ord ps = Ok outs /\
    Forall2 (fun p out => length (fst out) = length (snd out) /\ Permutation (combine (fst out) (snd out)) (due keqb (h_local p) (supplied ps))) ps outs.
Proof.
  intros E P N T. unfold distribute.
  assert (F : forallb (fun p => length (h_keys p) =? length (h_vals p)) ps = true).
  { apply forallb_forall. rewrite Forall_forall in E. intros p I. apply Nat.eqb_eq. auto. }
  rewrite F. rewrite (supplied_length E). destruct (Nat.eqb_spec (length (supplied ps)) 0) as [Z|_]; [lia |].
  pose proof (puts_all E P) as G. rewrite (supplied_length E) in G. rewrite G. cbn [obind].
  match goal with |- context [oall (map ?f ?l)] =>
    destruct (oall_forall2 f (fun q out => length (fst out) = length (snd out) /\ Permutation (combine (fst out) (snd out)) (due keqb (h_local (snd q)) (supplied ps))) l) as (ys & Ys & Q) end;
    [| exists ys; split; [exact Ys |]].
  2:{ eapply Forall2_combine_l; [| exact Q]. unfold iota. apply seq_length. }
  intros [me p] _. cbn [fst snd]. destruct (@collect_ok K V keqb sym (supplied ps) (length ps) me p T N) as (l & L & Pl).
  rewrite L. cbn [obind]. eexists. split; [reflexivity |]. cbn. rewrite !map_length. split; auto.
  replace (combine (map fst l) (map snd l)) with l; auto. clear. induction l as [|[a b] l IH]; cbn; auto. now f_equal.
Qed.
Lemma in_due local (all : list (K * V)) j v : In (j, v) (due keqb local all) <-> exists k k', nth_error local j = Some k /\ keqb k' k = true /\ In (k', v) all.
Proof.
  unfold due. rewrite in_flat_map. split.
  - intros ([i k] & I & H). apply in_map_iff in H as ([k' w] & Q & H). cbn in Q. injection Q as -> ->. apply filter_In in H as (H & M).
    exists k, k'. repeat split; auto.
    apply In_nth_error in I as (n & I). pose proof (@nth_error_In _ _ _ _ I) as _.
    revert I. unfold iota. assert (G : forall s, nth_error (combine (seq s (length local)) local) n = Some (j, k) -> nth_error local (j - s) = Some k /\ s <= j).
    { clear. revert n. induction local as [|x l IH]; intros [|n] s; cbn; try discriminate.
      - intros [= <- <-]. rewrite Nat.sub_diag. auto.
      - intros I. apply IH in I as (I & L). split; [| lia]. replace (j - s) with (S (j - S s)) by lia. auto. }
    intros I. apply G in I as (I & _). now rewrite Nat.sub_0_r in I.
  - intros (k & k' & N & M & I). exists (j, k). split.
    + unfold iota. assert (G : forall s, nth_error (combine (seq s (length local)) local) j = Some (s + j, k)).
      { revert j N. clear. induction local as [|x l IH]; intros [|j] N s; cbn in *; try discriminate.
        - injection N as ->. now rewrite Nat.add_0_r.
        - rewrite IH; auto. do 2 f_equal. lia. }
      eapply nth_error_In. apply (G 0).
    + apply in_map_iff. exists (k', v). split; auto. apply filter_In. auto.
Qed.
End Whole.

(** Proofs about the vector operations for complex values on a real library. *)
From Coq Require Import Reals Lra Sorted.
From Coquelicot Require Import Complex.
From Verif Require Import Prelude CxModel CxSpec CxProofs CxProofs2.
Local Open Scope nat_scope.

(** * Lists in pieces *)
Lemma sumn_map_double l : sumn (map (fun n => n * 2) l) = sumn l * 2.
Proof. induction l as [|a l IH]; auto. cbn [map sumn fold_right] in *. unfold sumn in *. lia. Qed.

Lemma length_concat_sum {A} (ps : list (list A)) : length (concat ps) = sumn (map (@length A) ps).
Proof. induction ps as [|a ps IH]; auto. cbn [concat map]. rewrite app_length, IH. auto. Qed.

Lemma concat_map_to_library ps : concat (map to_library ps) = to_library (concat ps).
Proof. induction ps as [|a ps IH]; auto. cbn [concat map]. rewrite to_library_app, IH. auto. Qed.

Lemma upd_app_l {A} (a b : list A) i x : i < length a -> upd (a ++ b) i x = upd a i x ++ b.
Proof. revert i; induction a as [|y a IH]; intros [|i] H; cbn in *; try lia; auto. rewrite IH by lia. auto. Qed.
Lemma upd_app_r {A} (a b : list A) i x : upd (a ++ b) (length a + i) x = a ++ upd b i x.
Proof. induction a as [|y a IH]; cbn; auto. rewrite IH. auto. Qed.

Lemma concat_upd {A} (ps : list (list A)) p k x : p < length ps -> k < length (nth p ps []) ->
  concat (upd ps p (upd (nth p ps []) k x)) = upd (concat ps) (sumn (map (@length A) (firstn p ps)) + k) x.
Proof.
  revert p; induction ps as [|a ps IH]; intros [|p] H1 H2; cbn [length nth] in *; try lia.
  - cbn [upd concat firstn map]. unfold sumn. cbn [fold_right Nat.add]. rewrite upd_app_l by auto. auto.
  - cbn [upd concat firstn map]. rewrite IH by (auto; lia). unfold sumn. cbn [fold_right]. rewrite <- Nat.add_assoc.
    rewrite upd_app_r. auto.
Qed.

Lemma nth_concat {A} (ps : list (list A)) p k d : p < length ps -> k < length (nth p ps []) ->
  nth (sumn (map (@length A) (firstn p ps)) + k) (concat ps) d = nth k (nth p ps []) d.
Proof.
  revert p; induction ps as [|a ps IH]; intros [|p] H1 H2; cbn [length nth] in *; try lia.
  - cbn [concat firstn map]. unfold sumn. cbn [fold_right Nat.add]. rewrite app_nth1; auto.
  - cbn [concat firstn map]. unfold sumn in *. cbn [fold_right]. rewrite <- Nat.add_assoc. rewrite app_nth2_plus.
    apply IH; auto; lia.
Qed.

Lemma upd_to_library a k x : upd (upd (to_library a) (k * 2) (fst x)) (k * 2 + 1) (snd x) = to_library (upd a k x).
Proof.
  revert k; induction a as [|y a IH]; intros k.
  - cbn. destruct (k * 2), (k * 2 + 1); cbn; destruct k; auto.
  - destruct k as [|k]; auto. cbn [to_library flat_map app]. fold (to_library a).
    replace (S k * 2) with (S (S (k * 2))) by lia. cbn [Nat.add upd]. rewrite IH. auto.
Qed.

Lemma map_length_upd {A} (v : list (list A)) p a : length a = length (nth p v []) ->
  map (@length A) (upd v p a) = map (@length A) v.
Proof. revert p; induction v as [|b v IH]; intros [|p] H; cbn in *; auto; f_equal; auto. Qed.

Lemma split_as_concat {A} ls (l : list A) : length l = sumn ls -> concat (split_as ls l) = l.
Proof.
  revert l; induction ls as [|n ls IH]; intros l H; cbn [split_as concat].
  - destruct l; auto; discriminate.
  - rewrite IH, firstn_skipn; auto. rewrite skipn_length, H. unfold sumn. cbn [fold_right]. lia.
Qed.

Lemma split_as_length {A} ls (l : list A) : length l = sumn ls -> map (@length A) (split_as ls l) = ls.
Proof.
  revert l; induction ls as [|n ls IH]; intros l H; cbn [split_as map]; auto. f_equal.
  - rewrite firstn_length, H. unfold sumn. cbn [fold_right]. lia.
  - apply IH. rewrite skipn_length, H. unfold sumn. cbn [fold_right]. lia.
Qed.

Lemma firstn_to_library n l : firstn (n * 2) (to_library l) = to_library (firstn n l).
Proof.
  revert n; induction l as [|z l IH]; intros [|n]; auto.
  cbn [to_library flat_map app]. fold (to_library l). replace (S n * 2) with (S (S (n * 2))) by lia.
  cbn [firstn]. rewrite IH. auto.
Qed.
Lemma skipn_to_library n l : skipn (n * 2) (to_library l) = to_library (skipn n l).
Proof.
  revert n; induction l as [|z l IH]; intros [|n]; auto.
  cbn [to_library flat_map app]. fold (to_library l). replace (S n * 2) with (S (S (n * 2))) by lia.
  cbn [skipn]. rewrite IH. auto.
Qed.

Lemma split_as_to_library ls l : split_as (map (fun n => n * 2) ls) (to_library l) = map to_library (split_as ls l).
Proof.
  revert l; induction ls as [|n ls IH]; intros l; cbn [split_as map]; auto.
  rewrite firstn_to_library, skipn_to_library, IH. auto.
Qed.

(** * Distributed vectors that hold complex elements *)
Definition repv (v : rvec) (z : avec) : Prop :=
  exists parts, v = map to_library parts /\ map (@length C) parts = v_layout z /\ concat parts = v_elems z.

Lemma repv_sum v z : repv v z -> sumn (v_layout z) = length (v_elems z).
Proof. intros (ps & -> & <- & <-). symmetry. apply length_concat_sum. Qed.

Lemma map_len_lib ps : map (@length R) (map to_library ps) = map (fun n => n * 2) (map (@length C) ps).
Proof. rewrite !map_map. apply map_ext. intros. apply to_library_length. Qed.

Lemma repv_lengths v z : repv v z -> map (@length R) v = map (fun n => n * 2) (v_layout z).
Proof. intros (ps & -> & <- & _). apply map_len_lib. Qed.

Lemma voff_ok v z p : repv v z -> voff v p = sumn (firstn p (v_layout z)) * 2.
Proof.
  intros H. unfold voff. rewrite <- firstn_map, (repv_lengths H), firstn_map, sumn_map_double. auto.
Qed.

Lemma vlen_map {A} (v : list (list A)) p : vlen v p = nth p (map (@length A) v) 0.
Proof. unfold vlen. exact (eq_sym (map_nth (@length A) v [] p)). Qed.

Lemma vlen_ok v z p : repv v z -> vlen v p = nth p (v_layout z) 0 * 2.
Proof.
  intros H. rewrite vlen_map, (repv_lengths H). exact (map_nth (fun n => n * 2) (v_layout z) 0 p).
Qed.

Lemma vsize_ok v z : repv v z -> vsize v = length (v_elems z) * 2.
Proof.
  intros (ps & -> & H & <-). unfold vsize. rewrite concat_map_to_library. apply to_library_length.
Qed.

Lemma vec_size_ok v z : repv v z -> vec_size v = length (v_elems z).
Proof. intros H. unfold vec_size. rewrite (vsize_ok H). apply Nat.div_mul. discriminate. Qed.

Lemma vec_lo_ok v z p : repv v z -> vec_lo v p = sumn (firstn p (v_layout z)).
Proof. intros H. unfold vec_lo. rewrite (voff_ok p H). apply Nat.div_mul. discriminate. Qed.

Lemma vec_hi_ok v z p : repv v z -> vec_hi v p = sumn (firstn p (v_layout z)) + nth p (v_layout z) 0.
Proof.
  intros H. unfold vec_hi. rewrite (voff_ok p H), (vlen_ok p H). rewrite <- Nat.mul_add_distr_r.
  apply Nat.div_mul. discriminate.
Qed.

Lemma get_all_ok v z : repv v z -> v_get_all v = Ok (v_elems z).
Proof. intros (ps & -> & _ & <-). unfold v_get_all. rewrite concat_map_to_library. apply from_to_library. Qed.

Lemma concat_lib v z : repv v z -> concat v = to_library (v_elems z).
Proof. intros (ps & -> & _ & <-). apply concat_map_to_library. Qed.

Lemma vec_new_ok layout : repv (vec_new layout) (mkAV layout (repeat (RtoC 0) (sumn layout))).
Proof.
  exists (map (repeat (RtoC 0)) layout). split; [|split]; cbn [v_layout v_elems].
  - unfold vec_new. rewrite map_map. apply map_ext. intros n. unfold elementSize.
    induction n as [|n IH]; auto. cbn [Nat.mul Nat.add repeat to_library flat_map app fst snd RtoC].
    fold (to_library (repeat (RtoC 0) n)). rewrite <- IH. auto.
  - rewrite map_map. rewrite <- (map_id layout) at 2. apply map_ext. intros. apply repeat_length.
  - induction layout as [|n l IH]; auto. cbn [map concat]. rewrite IH. unfold sumn. cbn [fold_right].
    rewrite repeat_app. auto.
Qed.

(** ** Setting elements *)
Definition vput_c (md : imode) (layout : list nat) (p : nat) : list C -> nat * C -> list C :=
  match md with INS => vset layout p | ADD => vadd layout p end.

Lemma owns_pair layout p i : owns layout p i = true ->
  let off := sumn (firstn p layout) in
  off * 2 <= i * 2 /\ i * 2 + 1 < off * 2 + nth p layout 0 * 2 /\ p < length layout /\ off <= i /\ i - off < nth p layout 0.
Proof.
  intros H off. unfold owns in H. apply andb_true_iff in H. destruct H as [H1 H2]. apply Nat.leb_le in H1. apply Nat.ltb_lt in H2.
  fold off in H1, H2. assert (p < length layout).
  { destruct (lt_dec p (length layout)); auto. rewrite (nth_overflow layout 0) in H2 by lia. lia. }
  repeat split; auto; lia.
Qed.

Lemma vput_hit md p v i x : (voff v p <=? i) && (i <? voff v p + vlen v p) = true ->
  vput md p v (i, x) = upd v p (upd (nth p v []) (i - voff v p)
     (match md with INS => x | ADD => (nth (i - voff v p) (nth p v []) 0 + x)%R end)).
Proof. intros H. unfold vput. rewrite H. auto. Qed.
Lemma vput_miss md p v i x : (voff v p <=? i) && (i <? voff v p + vlen v p) = false ->
  vput md p v (i, x) = v.
Proof. intros H. unfold vput. rewrite H. auto. Qed.

Lemma voff_map {A} (v : list (list A)) p : voff v p = sumn (firstn p (map (@length A) v)).
Proof. unfold voff. rewrite <- firstn_map. auto. Qed.

Lemma upd_upd {A} (l : list A) i x y : upd (upd l i x) i y = upd l i y.
Proof. revert i; induction l; intros [|i]; cbn; auto. f_equal; auto. Qed.

Lemma nth_upd_same {A} (l : list A) i x d : i < length l -> nth i (upd l i x) d = x.
Proof. revert i; induction l; intros [|i] H; cbn in *; auto; try lia. apply IHl; lia. Qed.
Lemma nth_upd_other {A} (l : list A) i j x d : i <> j -> nth j (upd l i x) d = nth j l d.
Proof. revert i j; induction l; intros [|i] [|j] H; cbn in *; auto; try lia. Qed.

Lemma nth_map_lib ps p : p < length ps -> nth p (map to_library ps) [] = to_library (nth p ps []).
Proof. intros. exact (map_nth to_library ps [] p). Qed.

Lemma map_upd' {A B} (f : A -> B) l i x : upd (map f l) i (f x) = map f (upd l i x).
Proof. symmetry. apply map_upd. Qed.

Lemma vput_pair md p v z i x : repv v z ->
  repv (vput md p (vput md p v (i * 2, fst x)) (i * 2 + 1, snd x))
       (mkAV (v_layout z) (vput_c md (v_layout z) p (v_elems z) (i, x))).
Proof.
  intros H. pose proof (voff_ok p H) as Ho. pose proof (vlen_ok p H) as Hl.
  destruct (owns (v_layout z) p i) eqn:E.
  - destruct (owns_pair _ _ _ E) as (O1 & O2 & O3 & O4 & O5). set (off := sumn (firstn p (v_layout z))) in *.
    assert (B1 : (voff v p <=? i * 2) && (i * 2 <? voff v p + vlen v p) = true).
    { rewrite Ho, Hl. apply andb_true_iff. split; [apply Nat.leb_le|apply Nat.ltb_lt]; lia. }
    rewrite (@vput_hit md p v _ (fst x) B1).
    set (a := nth p v []). set (x1 := match md with INS => fst x | ADD => _ end).
    set (v1 := upd v p (upd a (i * 2 - voff v p) x1)).
    assert (Ml : map (@length R) v1 = map (@length R) v).
    { apply map_length_upd. rewrite upd_length. auto. }
    assert (Ho1 : voff v1 p = voff v p) by (rewrite !voff_map, Ml; auto).
    assert (Hl1 : vlen v1 p = vlen v p) by (rewrite !vlen_map, Ml; auto).
    assert (B2 : (voff v1 p <=? i * 2 + 1) && (i * 2 + 1 <? voff v1 p + vlen v1 p) = true).
    { rewrite Ho1, Hl1, Ho, Hl. apply andb_true_iff. split; [apply Nat.leb_le|apply Nat.ltb_lt]; lia. }
    rewrite (@vput_hit md p v1 _ (snd x) B2). rewrite Ho1, Ho.
    destruct H as (ps & Hv & Hlay & Hcat).
    assert (Lp : p < length ps) by (rewrite <- Hlay, map_length in O3; auto).
    assert (Na : a = to_library (nth p ps [])) by (unfold a; rewrite Hv; apply nth_map_lib; auto).
    assert (Lk : i - off < length (nth p ps [])).
    { rewrite <- Hlay in O5. change 0 with (length (@nil C)) in O5. rewrite map_nth in O5. auto. }
    assert (N1 : nth p v1 [] = upd a (i * 2 - off * 2) x1).
    { unfold v1. rewrite nth_upd_same; [rewrite Ho; auto|]. rewrite Hv, map_length. auto. }
    rewrite N1. unfold v1. rewrite upd_upd.
    replace (i * 2 - off * 2) with ((i - off) * 2) in * by lia.
    replace (i * 2 + 1 - off * 2) with ((i - off) * 2 + 1) by lia.
    set (k := i - off) in *.
    set (y := match md with INS => x | ADD => Cplus (ccat (nth p ps []) k) x end).
    assert (X1 : x1 = fst y).
    { unfold x1, y. destruct md; auto. rewrite Ho. replace (i * 2 - off * 2) with (k * 2) by (unfold k; lia).
      rewrite Na. rewrite (proj1 (nth_to_library _ _)). auto. }
    assert (X2 : match md with INS => snd x | ADD => (nth (k * 2 + 1) (upd a (k * 2) x1) 0 + snd x)%R end = snd y).
    { unfold y. destruct md; auto. rewrite nth_upd_other by lia. rewrite Na.
      rewrite (proj2 (nth_to_library _ _)). auto. }
    rewrite X2, X1, Na, upd_to_library, Hv, map_upd'.
    exists (upd ps p (upd (nth p ps []) k y)). split; [auto|]. split; cbn [v_layout v_elems].
    + rewrite map_length_upd by apply upd_length. auto.
    + rewrite concat_upd by auto. rewrite <- firstn_map, Hlay, Hcat. fold off.
      replace (off + k) with i by (unfold k; lia).
      assert (Cc : ccat (v_elems z) i = ccat (nth p ps []) k).
      { unfold ccat. rewrite <- Hcat. rewrite <- (@nth_concat C ps p _ (RtoC 0) Lp Lk). f_equal.
        rewrite <- firstn_map, Hlay. fold off. unfold k. lia. }
      unfold vput_c, vset, vadd, y. destruct md; cbn [fst snd]; rewrite E, ?Cc; auto.
  - assert (B : forall d, d <= 1 -> (voff v p <=? i * 2 + d) && (i * 2 + d <? voff v p + vlen v p) = false).
    { intros d Hd. rewrite Ho, Hl. unfold owns in E. apply andb_false_iff in E. apply andb_false_iff.
      destruct E as [E|E]; [left; apply Nat.leb_gt in E; apply Nat.leb_gt|right; apply Nat.ltb_ge in E; apply Nat.ltb_ge]; lia. }
    rewrite (@vput_miss md p v _ (fst x)) by (rewrite <- (Nat.add_0_r (i * 2)); apply B; lia).
    rewrite (@vput_miss md p v _ (snd x)) by (apply B; lia).
    assert (Ez : mkAV (v_layout z) (vput_c md (v_layout z) p (v_elems z) (i, x)) = z).
    { unfold vput_c, vset, vadd. destruct md; cbn [fst]; rewrite E; destruct z; auto. }
    rewrite Ez. auto.
Qed.

Lemma vput_c_length md layout p z e : length (vput_c md layout p z e) = length z.
Proof. unfold vput_c, vset, vadd. destruct md, (owns layout p (fst e)); auto; apply upd_length. Qed.

Lemma combine_pairs (l : list (nat * C)) :
  combine (flat_map (fun i => [i * elementSize; i * elementSize + 1]) (map fst l)) (to_library (map snd l))
  = flat_map (fun e => [(fst e * 2, fst (snd e)); (fst e * 2 + 1, snd (snd e))]) l.
Proof.
  unfold elementSize. induction l as [|e l IH]; auto. cbn [map flat_map to_library app combine].
  fold (to_library (map snd l)). rewrite IH. auto.
Qed.

Lemma v_set_ok md p v z l : repv v z -> forallb (fun e => fst e <? length (v_elems z)) l = true ->
  exists w, v_set_elements v p (map fst l) (map snd l) md = Ok w /\
            repv w (mkAV (v_layout z) (fold_left (vput_c md (v_layout z) p) l (v_elems z))).
Proof.
  intros H Hr. unfold v_set_elements, vec_set_values. rewrite (vsize_ok H).
  replace (forallb _ _) with true.
  - eexists. split; [reflexivity|]. rewrite combine_pairs. clear Hr.
    revert v z H. induction l as [|[i x] l IH]; intros v z H; cbn [flat_map fold_left app fst snd].
    + destruct z; auto.
    + specialize (IH _ _ (vput_pair md p i x H)). cbn [v_layout v_elems] in IH. auto.
  - symmetry. apply forallb_forall. intros k Hk. apply in_flat_map in Hk. destruct Hk as (i & Hi & Hk).
    apply in_map_iff in Hi. destruct Hi as (e & <- & He). rewrite forallb_forall in Hr. apply Hr in He.
    apply Nat.ltb_lt in He. apply Nat.ltb_lt. unfold elementSize in Hk. cbn in Hk. lia.
Qed.

(** ** Getting elements *)
Lemma v_get_ok v z p is : repv v z -> Forall (fun i => owns (v_layout z) p i = true) is ->
  v_get_elements v p is = Ok (map (ccat (v_elems z)) is).
Proof.
  intros H Hi. unfold v_get_elements, vec_get_values.
  pose proof (voff_ok p H) as Ho. pose proof (vlen_ok p H) as Hl. unfold elementSize.
  replace (forallb _ _) with true.
  - cbn [obind].
    assert (E : map (fun i => nth (i - voff v p) (nth p v []) 0%R) (flat_map (fun i => [i * 2; i * 2 + 1]) is)
                = to_library (map (ccat (v_elems z)) is)).
    { induction Hi as [|i is Hi _ IH]; auto. cbn [flat_map app map to_library]. rewrite IH. fold (to_library (map (ccat (v_elems z)) is)).
      destruct (owns_pair _ _ _ Hi) as (O1 & O2 & O3 & O4 & O5). set (off := sumn (firstn p (v_layout z))) in *.
      destruct H as (ps & Hv & Hlay & Hcat).
      assert (Lp : p < length ps) by (rewrite <- Hlay, map_length in O3; auto).
      assert (Lk : i - off < length (nth p ps [])).
      { rewrite <- Hlay in O5. change 0 with (length (@nil C)) in O5. rewrite map_nth in O5. auto. }
      assert (Cc : ccat (v_elems z) i = ccat (nth p ps []) (i - off)).
      { unfold ccat. rewrite <- Hcat. rewrite <- (@nth_concat C ps p _ (RtoC 0) Lp Lk). f_equal.
        rewrite <- firstn_map, Hlay. fold off. lia. }
      rewrite Ho. replace (i * 2 - off * 2) with ((i - off) * 2) by lia.
      replace (i * 2 + 1 - off * 2) with ((i - off) * 2 + 1) by lia.
      rewrite Hv, nth_map_lib by auto. rewrite (proj1 (nth_to_library _ _)), (proj2 (nth_to_library _ _)), Cc. auto. }
    rewrite E. apply from_to_library.
  - symmetry. apply forallb_forall. intros k Hk. apply in_flat_map in Hk. destruct Hk as (i & Hin & Hk).
    rewrite Forall_forall in Hi. apply Hi in Hin. destruct (owns_pair _ _ _ Hin) as (O1 & O2 & _).
    rewrite Ho, Hl. cbn in Hk. apply andb_true_iff. split; [apply Nat.leb_le|apply Nat.ltb_lt]; lia.
Qed.

(** ** Elementwise operations *)
Lemma concat_map_map {A B} (f : A -> B) ps : concat (map (map f) ps) = map f (concat ps).
Proof. induction ps; cbn; auto. rewrite IHps, map_app. auto. Qed.

Lemma v_apply_ok op v z : repv v z ->
  exists w, v_apply op v = Ok w /\ repv w (mkAV (v_layout z) (map op (v_elems z))).
Proof.
  intros (ps & -> & Hlay & Hcat). unfold v_apply.
  exists (map to_library (map (map op) ps)). split.
  - induction ps as [|a ps IH]; auto. cbn [map omap]. rewrite unary_to_library. cbn [obind].
    clear Hlay Hcat. assert (E : omap (unary_operation op) (map to_library ps) = Ok (map to_library (map (map op) ps))).
    { clear IH. induction ps as [|b ps IH]; auto. cbn [map omap]. rewrite unary_to_library. cbn [obind].
      rewrite IH. auto. }
    rewrite E. auto.
  - exists (map (map op) ps). split; [auto|]. split; cbn [v_layout v_elems].
    + rewrite map_map. rewrite <- Hlay. apply map_ext. intros. apply map_length.
    + rewrite concat_map_map, Hcat. auto.
Qed.

Lemma v_zero_ok v z : repv v z -> repv (v_zero v) (mkAV (v_layout z) (map (fun _ => RtoC 0) (v_elems z))).
Proof.
  intros (ps & -> & Hlay & Hcat). exists (map (map (fun _ => RtoC 0)) ps). split; [|split]; cbn [v_layout v_elems].
  - unfold v_zero. rewrite !map_map. apply map_ext. intros a. induction a as [|y a IH]; auto. cbn.
    fold (to_library a). fold (to_library (map (fun _ => RtoC 0) a)). rewrite IH. auto.
  - rewrite map_map. rewrite <- Hlay. apply map_ext. intros. apply map_length.
  - rewrite concat_map_map, Hcat. auto.
Qed.

Lemma repv_elems v z l : repv v z -> l = v_elems z -> repv v (mkAV (v_layout z) l).
Proof. intros H ->. destruct z; auto. Qed.

Lemma binary_to_library op a b : length a = length b ->
  binary_operation op (to_library a) (to_library b) = Ok (to_library (map (fun p => op (fst p) (snd p)) (combine a b))).
Proof.
  revert b; induction a as [|[x y] a IH]; intros [|[c d] b] H; try discriminate; auto.
  cbn. fold (to_library a) (to_library b). rewrite IH by (cbn in H; lia). auto.
Qed.

Lemma combine_concat {A B} (ps : list (list A)) (qs : list (list B)) : map (@length A) ps = map (@length B) qs ->
  concat (map (fun p => combine (fst p) (snd p)) (combine ps qs)) = combine (concat ps) (concat qs).
Proof.
  revert qs; induction ps as [|a ps IH]; intros [|b qs] H; try discriminate; auto.
  cbn in H. inversion H. cbn. rewrite IH by auto. clear -H1. revert b H1.
  induction a; intros [|b0 b] H; try discriminate; auto. cbn. rewrite IHa by (cbn in H; lia). auto.
Qed.

Lemma v_binary_ok op v z w y : repv v z -> repv w y -> v_layout z = v_layout y ->
  exists u, v_binary op v w = Ok u /\
    repv u (mkAV (v_layout z) (map (fun p => op (fst p) (snd p)) (combine (v_elems z) (v_elems y)))).
Proof.
  intros Hv Hw Hlay. unfold v_binary.
  assert (S : length (v_elems z) = length (v_elems y)).
  { rewrite <- (repv_sum Hv), <- (repv_sum Hw), Hlay. auto. }
  rewrite (vec_size_ok Hv), (vec_size_ok Hw), S, Nat.eqb_refl.
  destruct Hv as (ps & -> & Hl1 & Hc1), Hw as (qs & -> & Hl2 & Hc2).
  assert (Hpq : map (@length C) ps = map (@length C) qs) by congruence.
  rewrite (@omap_ok nat (list R) _ (fun p => to_library (map (fun r => op (fst r) (snd r)) (combine (nth p ps []) (nth p qs []))))).
  - rewrite map_length.
    exists (map to_library (map (fun r => map (fun e => op (fst e) (snd e)) (combine (fst r) (snd r))) (combine ps qs))). split.
    + f_equal. rewrite map_map.
      assert (Lq : length ps = length qs) by (rewrite <- (map_length (@length C) ps), Hpq, map_length; auto).
      rewrite <- (map_iota_nth (fun x => to_library (map (fun e => op (fst e) (snd e)) (combine (fst x) (snd x)))) (combine ps qs) ([], [])).
      rewrite combine_length, <- Lq, Nat.min_id. apply map_ext_iota. intros i Hi. rewrite combine_nth by auto. auto.
    + eexists. split; [reflexivity|]. split; cbn [v_layout v_elems].
      * rewrite <- Hl1. clear -Hpq. revert qs Hpq. induction ps as [|a ps IH]; intros [|b qs] H; try discriminate; auto.
        cbn in *. inversion H. rewrite IH by auto. f_equal. rewrite map_length, combine_length. lia.
      * rewrite <- Hc1, <- Hc2, <- combine_concat by auto. rewrite <- concat_map_map, map_map. auto.
  - intros p Hp. apply in_iota in Hp. rewrite map_length in Hp.
    assert (Lq : length ps = length qs) by (rewrite <- (map_length (@length C) ps), Hpq, map_length; auto).
    rewrite !nth_map_lib by lia. apply binary_to_library.
    assert (E : forall l : list (list C), length (nth p l []) = nth p (map (@length C) l) 0).
    { intros l. exact (eq_sym (map_nth (@length C) l [] p)). }
    rewrite !E, Hpq. auto.
Qed.

Lemma v_equate_ok v z w y : repv v z -> repv w y -> v_layout z = v_layout y ->
  v_equate v w = Ok w.
Proof.
  intros Hv Hw Hlay. unfold v_equate. rewrite (repv_lengths Hv), (repv_lengths Hw), Hlay.
  destruct (list_eq_dec Nat.eq_dec _ _); congruence.
Qed.

(** ** real and imaginary: ranges read and written by every process *)
Lemma ccat_fold_set layout p (g : nat -> C) is z j : j < length z ->
  ccat (fold_left (vset layout p) (map (fun i => (i, g i)) is) z) j
  = if owns layout p j && existsb (Nat.eqb j) is then g j else ccat z j.
Proof.
  revert z; induction is as [|i is IH]; intros z Hj; cbn [map fold_left existsb].
  - rewrite andb_false_r. auto.
  - rewrite IH.
    + unfold vset; cbn [fst snd]. unfold ccat. destruct (j =? i) eqn:E; cbn [orb].
      * apply Nat.eqb_eq in E; subst i. destruct (owns layout p j); cbn [andb]; auto.
        rewrite nth_upd_same by auto. destruct (existsb (Nat.eqb j) is); auto.
      * apply Nat.eqb_neq in E. destruct (owns layout p i); auto. rewrite nth_upd_other by auto. auto.
    + pose proof (vput_c_length INS layout p z (i, g i)) as L. unfold vput_c in L. lia.
Qed.

Lemma fold_vput_length md layout p l z : length (fold_left (vput_c md layout p) l z) = length z.
Proof. revert z; induction l; intros z; cbn; auto. rewrite IHl. apply vput_c_length. Qed.

Lemma ccat_ext a b : length a = length b -> (forall i, i < length a -> ccat a i = ccat b i) -> a = b.
Proof. intros H1 H2. apply nth_ext with (d := RtoC 0) (d' := RtoC 0); auto. Qed.

Lemma ccat_tabulate n f i : i < n -> ccat (tabulate n f) i = f i.
Proof.
  intros H. unfold ccat, tabulate. rewrite nth_indep with (d' := f 0) by (rewrite map_length, iota_length; auto).
  rewrite map_nth. unfold iota. rewrite seq_nth; auto.
Qed.

Lemma tabulate_length n f : length (tabulate n f) = n.
Proof. unfold tabulate. rewrite map_length. apply iota_length. Qed.

Lemma ccat_map f z i : i < length z -> ccat (map f z) i = f (ccat z i).
Proof. intros H. unfold ccat. rewrite nth_indep with (d' := f (RtoC 0)) by (rewrite map_length; auto). apply map_nth. Qed.

Definition upto (op : C -> C) (k : nat) (z : list C) : list C :=
  tabulate (length z) (fun j => if j <? k then op (ccat z j) else ccat z j).

Lemma firstn_S_sum (l : list nat) p : p < length l -> sumn (firstn (S p) l) = sumn (firstn p l) + nth p l 0.
Proof. apply firstn_sum_S. Qed.

Lemma firstn_sum_le (l : list nat) p : sumn (firstn p l) <= sumn l.
Proof. rewrite <- (firstn_skipn p l) at 2. rewrite sumn_app. lia. Qed.

Lemma owns_range layout p j : owns layout p j = (sumn (firstn p layout) <=? j) && (j <? sumn (firstn p layout) + nth p layout 0).
Proof. auto. Qed.

Lemma existsb_seq j a n : existsb (Nat.eqb j) (seq a n) = (a <=? j) && (j <? a + n).
Proof.
  apply eq_true_iff_eq. rewrite existsb_exists, andb_true_iff, Nat.leb_le, Nat.ltb_lt. split.
  - intros (x & H1 & H2). apply Nat.eqb_eq in H2; subst. apply in_seq in H1. auto.
  - intros H. exists j. split; [apply in_seq; auto|apply Nat.eqb_refl].
Qed.

Lemma range_step op v z p : repv v z -> p < length (v_layout z) ->
  exists w, obind (v_get_elements v p (seq (vec_lo v p) (vec_hi v p - vec_lo v p)))
                  (fun x => v_set_elements v p (seq (vec_lo v p) (vec_hi v p - vec_lo v p)) (map op x) INS) = Ok w /\
    repv w (mkAV (v_layout z) (tabulate (length (v_elems z))
              (fun j => if owns (v_layout z) p j then op (ccat (v_elems z) j) else ccat (v_elems z) j))).
Proof.
  intros H Hp. rewrite (vec_lo_ok p H), (vec_hi_ok p H). set (off := sumn (firstn p (v_layout z))).
  replace (off + nth p (v_layout z) 0 - off) with (nth p (v_layout z) 0) by lia.
  set (n := nth p (v_layout z) 0). set (is := seq off n).
  assert (Ow : Forall (fun i => owns (v_layout z) p i = true) is).
  { apply Forall_forall. intros i Hi. apply in_seq in Hi. unfold owns. fold off n. apply andb_true_iff.
    split; [apply Nat.leb_le|apply Nat.ltb_lt]; lia. }
  rewrite (v_get_ok p H Ow). cbn [obind].
  set (l := map (fun i => (i, op (ccat (v_elems z) i))) is).
  assert (E1 : map fst l = is) by (unfold l; rewrite map_map; apply map_id).
  assert (E2 : map snd l = map op (map (ccat (v_elems z)) is)) by (unfold l; rewrite !map_map; auto).
  replace (v_set_elements v p is (map op (map (ccat (v_elems z)) is)) INS)
    with (v_set_elements v p (map fst l) (map snd l) INS) by (rewrite E1, E2; auto).
  assert (Le : off + n <= length (v_elems z)).
  { rewrite <- (repv_sum H). unfold off, n. rewrite <- firstn_S_sum by auto. apply firstn_sum_le. }
  destruct (@v_set_ok INS p v z l H) as (w & Ew & Hw).
  { apply forallb_forall. intros e He. apply in_map_iff in He. destruct He as (i & <- & Hi). apply in_seq in Hi.
    apply Nat.ltb_lt. cbn. lia. }
  exists w. split; [exact Ew|]. replace (tabulate _ _) with (fold_left (vput_c INS (v_layout z) p) l (v_elems z)); auto.
  apply ccat_ext.
  - rewrite fold_vput_length, tabulate_length. auto.
  - rewrite fold_vput_length. intros j Hj. rewrite ccat_tabulate by auto. unfold l. cbn [vput_c].
    rewrite (ccat_fold_set _ _ (fun i => op (ccat (v_elems z) i)) is (v_elems z)) by auto.
    unfold is. rewrite existsb_seq. rewrite owns_range. fold off n.
    destruct ((off <=? j) && (j <? off + n)); auto.
Qed.

Lemma range_map_ok op v z : repv v z ->
  exists w, v_range_map op v = Ok w /\ repv w (mkAV (v_layout z) (map op (v_elems z))).
Proof.
  intros H. unfold v_range_map.
  assert (L : length v = length (v_layout z)).
  { rewrite <- (map_length (@length R) v), (repv_lengths H), map_length. auto. }
  rewrite L.
  assert (G : forall k, k <= length (v_layout z) ->
     exists w, ofold (fun w p => obind (v_get_elements w p (seq (vec_lo w p) (vec_hi w p - vec_lo w p)))
                  (fun x => v_set_elements w p (seq (vec_lo w p) (vec_hi w p - vec_lo w p)) (map op x) INS)) (iota k) v = Ok w /\
       repv w (mkAV (v_layout z) (upto op (sumn (firstn k (v_layout z))) (v_elems z)))).
  { induction k as [|k IH]; intros Hk.
    - exists v. split; auto. apply repv_elems; auto. apply ccat_ext; unfold upto; [apply tabulate_length|].
      rewrite tabulate_length. intros i Hi. rewrite ccat_tabulate by auto. auto.
    - destruct IH as (w & E & Hw); [lia|]. unfold iota. rewrite seq_S, ofold_app. fold (iota k). rewrite E.
      cbn [obind ofold Nat.add].
      destruct (@range_step op w _ k Hw) as (w' & E' & Hw'); [cbn; lia|]. rewrite E'. cbn [obind]. exists w'. split; auto.
      cbn [v_layout v_elems] in Hw'. set (off := sumn (firstn k (v_layout z))) in *.
      replace (upto op (sumn (firstn (S k) (v_layout z))) (v_elems z)) with
        (tabulate (length (upto op off (v_elems z))) (fun j => if owns (v_layout z) k j then op (ccat (upto op off (v_elems z)) j)
                    else ccat (upto op off (v_elems z)) j)); auto.
      apply ccat_ext; unfold upto; rewrite !tabulate_length; auto.
      intros i Hi. rewrite !ccat_tabulate by auto. rewrite firstn_S_sum by lia. rewrite owns_range. fold off.
      destruct (off <=? i) eqn:E1; cbn [andb].
      + apply Nat.leb_le in E1. replace (i <? off) with false by (symmetry; apply Nat.ltb_ge; lia). auto.
      + apply Nat.leb_gt in E1. replace (i <? off) with true by (symmetry; apply Nat.ltb_lt; lia).
        replace (i <? off + nth k (v_layout z) 0) with true by (symmetry; apply Nat.ltb_lt; lia). auto. }
  destruct (G _ (le_n _)) as (w & E & Hw). exists w. split; [exact E|].
  rewrite firstn_all in Hw. replace (map op (v_elems z)) with (upto op (sumn (v_layout z)) (v_elems z)); auto.
  apply ccat_ext; unfold upto; rewrite tabulate_length; [rewrite map_length; auto|].
  intros i Hi. rewrite ccat_tabulate, ccat_map by auto. rewrite (repv_sum H).
  replace (i <? length (v_elems z)) with true by (symmetry; apply Nat.ltb_lt; auto). auto.
Qed.

(** ** Results of the library for a whole vector *)
Lemma split_repv y z l : repv y z -> length l = length (v_elems z) ->
  repv (split_as (map (@length R) y) (to_library l)) (mkAV (v_layout z) l).
Proof.
  intros H L. rewrite (repv_lengths H), split_as_to_library. exists (split_as (v_layout z) l).
  assert (Ls : length l = sumn (v_layout z)) by (rewrite (repv_sum H); auto).
  split; [auto|]. split; [apply split_as_length|apply split_as_concat]; auto.
Qed.

Lemma lib_of_pairs n (g : nat -> R) (f : nat -> C) :
  (forall i, i < n -> g (i * 2) = fst (f i) /\ g (i * 2 + 1) = snd (f i)) ->
  map g (iota (n * 2)) = to_library (tabulate n f).
Proof.
  intros H. rewrite map_iota_pairs. unfold to_library, tabulate. rewrite !flat_map_concat_map, map_map. f_equal.
  apply map_ext_iota. intros i Hi. destruct (H i Hi) as [-> ->]. auto.
Qed.

Lemma mult_ok A m n f x u y z : good A m n f -> repv x u -> repv y z ->
  n = length (v_elems u) -> m = length (v_elems z) ->
  exists w, mv_multiply A x y = Ok w /\
    repv w (mkAV (v_layout z) (tabulate m (fun i => csum n (fun k => Cmult (f i k) (ccat (v_elems u) k))))).
Proof.
  intros ((A1 & A2 & (W & Cl & V)) & Aas & Amo) Hx Hy Hn Hm. unfold mv_multiply, mat_mult.
  rewrite Aas, A1, A2, (vsize_ok Hx), (vsize_ok Hy), <- Hn, <- Hm, !Nat.eqb_refl. cbn [andb].
  eexists. split; [reflexivity|]. rewrite (concat_lib Hx).
  erewrite lib_of_pairs.
  - apply split_repv; auto. rewrite tabulate_length. auto.
  - intros i Hi. cbn beta.
    assert (D : forall a, a < m * 2 -> row_dot (row_of (m_rows A) a) (to_library (v_elems u)) =
       rsum (map (fun k => (rget (m_rows A) a (k * 2) * fst (ccat (v_elems u) k) +
                            rget (m_rows A) a (k * 2 + 1) * snd (ccat (v_elems u) k))%R) (iota n))).
    { intros a Ha. destruct W as [L W]. destruct (W a Ha) as [W1 W2]. unfold row_dot.
      rewrite (@row_sum (n * 2) _ (fun j => nth j (to_library (v_elems u)) 0%R)) by auto.
      rewrite rsum_pairs. apply rsum_map_ext. intros k Hk.
      rewrite (proj1 (nth_to_library _ _)), (proj2 (nth_to_library _ _)). auto. }
    rewrite !D by lia. rewrite fst_csum, snd_csum. split; apply rsum_map_ext; intros k Hk; apply in_iota in Hk;
      destruct (V i k Hi Hk) as (V1 & V2 & V3 & V4); rewrite ?V1, ?V2, ?V3, ?V4; cbn; lra.
Qed.

Lemma transpose_mult_ok A m n f x u y z : good A m n f -> repv x u -> repv y z ->
  m = length (v_elems u) -> n = length (v_elems z) ->
  exists w, mv_transpose_multiply A x y = Ok w /\
    repv w (mkAV (v_layout z) (tabulate n (fun j => csum m (fun i => Cmult (cconj (f i j)) (ccat (v_elems u) i))))).
Proof.
  intros ((A1 & A2 & (W & Cl & V)) & Aas & Amo) Hx Hy Hn Hm. unfold mv_transpose_multiply, mat_mult_transpose.
  rewrite Aas, A1, A2, (vsize_ok Hx), (vsize_ok Hy), <- Hn, <- Hm, !Nat.eqb_refl. cbn [andb].
  eexists. split; [reflexivity|]. rewrite (concat_lib Hx).
  erewrite lib_of_pairs.
  - apply split_repv; auto. rewrite tabulate_length. auto.
  - intros j Hj. cbn beta. rewrite !rsum_pairs, fst_csum, snd_csum.
    split; apply rsum_map_ext; intros i Hi; apply in_iota in Hi;
      rewrite (proj1 (nth_to_library _ _)), (proj2 (nth_to_library _ _));
      destruct (V i j Hi Hj) as (V1 & V2 & V3 & V4); rewrite ?V1, ?V2, ?V3, ?V4; cbn; unfold Re, Im; lra.
Qed.

Lemma column_ok A m n f c y z : good A m n f -> repv y z -> c < n -> m = length (v_elems z) ->
  exists w, mv_column A c y = Ok w /\ repv w (mkAV (v_layout z) (tabulate m (fun i => f i c))).
Proof.
  intros HA Hy Hc Hm. pose proof HA as (HR & _). unfold mv_column. rewrite (mat_rows_ok HR), (vec_size_ok Hy), <- Hm, Nat.eqb_refl.
  destruct HA as ((A1 & A2 & (W & Cl & V)) & Aas & Amo). unfold mat_column, elementSize.
  rewrite Aas, A1, A2, (vsize_ok Hy), <- Hm, Nat.eqb_refl.
  replace (c * 2 <? n * 2) with true by (symmetry; apply Nat.ltb_lt; lia). cbn [andb].
  eexists. split; [reflexivity|]. erewrite lib_of_pairs.
  - apply split_repv; auto. rewrite tabulate_length. auto.
  - intros i Hi. cbn beta. destruct (V i c Hi Hc) as (V1 & V2 & V3 & V4). rewrite V1, V3. auto.
Qed.

(** ** One element set by its owner *)
Lemma v_set_own_ok v z i x : repv v z -> i < length (v_elems z) ->
  exists w, v_set_own v i x = Ok w /\ repv w (mkAV (v_layout z) (upd (v_elems z) i x)).
Proof.
  intros H Hi. unfold v_set_own.
  assert (L : length v = length (v_layout z)).
  { rewrite <- (map_length (@length R) v), (repv_lengths H), map_length. auto. }
  rewrite L.
  assert (G : forall k, k <= length (v_layout z) ->
    exists w, ofold (fun w p => if (vec_lo v p <=? i) && (i <? vec_hi v p)
                    then v_set_elements w p [i] [x] INS else Ok w) (iota k) v = Ok w /\
      repv w (mkAV (v_layout z) (if i <? sumn (firstn k (v_layout z)) then upd (v_elems z) i x else v_elems z))).
  { induction k as [|k IH]; intros Hk.
    - exists v. split; auto.
    - destruct IH as (w & E & Hw); [lia|]. unfold iota. rewrite seq_S, ofold_app. fold (iota k). rewrite E.
      cbn [obind ofold Nat.add]. rewrite (vec_lo_ok k H), (vec_hi_ok k H). rewrite firstn_S_sum by lia.
      set (off := sumn (firstn k (v_layout z))) in *. set (n := nth k (v_layout z) 0).
      destruct (off <=? i) eqn:E1; cbn [andb].
      + apply Nat.leb_le in E1. replace (i <? off) with false in Hw by (symmetry; apply Nat.ltb_ge; lia).
        destruct (i <? off + n) eqn:E2.
        * destruct (@v_set_ok INS k w _ [(i, x)] Hw) as (w' & E' & Hw').
          { cbn. rewrite andb_true_r. apply Nat.ltb_lt. auto. }
          cbn [map fst snd] in E'. rewrite E'. cbn [obind]. exists w'. split; auto.
          cbn [v_layout v_elems fold_left vput_c] in Hw'. unfold vset in Hw'. cbn [fst snd] in Hw'.
          rewrite owns_range in Hw'. fold off n in Hw'. rewrite E2, andb_true_r in Hw'.
          replace (off <=? i) with true in Hw' by (symmetry; apply Nat.leb_le; auto). auto.
        * exists w. split; auto.
      + apply Nat.leb_gt in E1. replace (i <? off) with true in Hw by (symmetry; apply Nat.ltb_lt; lia).
        replace (i <? off + n) with true by (symmetry; apply Nat.ltb_lt; lia). exists w. split; auto. }
  destruct (G _ (le_n _)) as (w & E & Hw). exists w. split; [exact E|]. rewrite firstn_all, (repv_sum H) in Hw.
  replace (i <? length (v_elems z)) with true in Hw by (symmetry; apply Nat.ltb_lt; auto). auto.
Qed.

Lemma v_get_own_ok v z i : repv v z -> i < length (v_elems z) -> v_get_own v i = Ok (ccat (v_elems z) i).
Proof.
  intros H Hi. unfold v_get_own. rewrite (get_all_ok H). cbn [obind].
  rewrite (nth_error_nth' _ (RtoC 0)) by auto. auto.
Qed.

Lemma diagonal_ok A n f y z : good A n n f -> repv y z -> n = length (v_elems z) ->
  exists w, mv_diagonal A y = Ok w /\ repv w (mkAV (v_layout z) (tabulate n (fun i => f i i))).
Proof.
  intros HA Hy Hn. pose proof HA as (HR & _). unfold mv_diagonal.
  rewrite (mat_rows_ok HR), (mat_cols_ok HR), (vec_size_ok Hy), <- Hn, Nat.eqb_refl.
  assert (G : forall k, k <= n ->
    exists w, ofold (fun d i => obind (get_element A i i) (fun x => v_set_own d i x)) (iota k) y = Ok w /\
      repv w (mkAV (v_layout z) (tabulate n (fun i => if i <? k then f i i else ccat (v_elems z) i)))).
  { induction k as [|k IH]; intros Hk.
    - exists y. split; auto. apply repv_elems; auto. apply ccat_ext; rewrite tabulate_length; auto.
      intros i Hi. rewrite ccat_tabulate by auto. auto.
    - destruct IH as (w & E & Hw); [lia|]. unfold iota. rewrite seq_S, ofold_app. fold (iota k). rewrite E.
      cbn [obind ofold Nat.add]. rewrite (get_element_ok HA) by lia. cbn [obind].
      destruct (@v_set_own_ok w _ k (f k k) Hw) as (w' & E' & Hw').
      { cbn [v_elems]. rewrite tabulate_length. lia. }
      rewrite E'. cbn [obind]. exists w'. split; auto. cbn [v_layout v_elems] in Hw'.
      replace (tabulate n (fun i => if i <? S k then f i i else ccat (v_elems z) i)) with
        (upd (tabulate n (fun i => if i <? k then f i i else ccat (v_elems z) i)) k (f k k)); auto.
      apply ccat_ext; rewrite upd_length, !tabulate_length; auto. intros i Hi.
      rewrite ccat_tabulate by auto. unfold ccat at 1. destruct (Nat.eq_dec k i).
      + subst i. rewrite nth_upd_same by (rewrite tabulate_length; auto).
        replace (k <? S k) with true by (symmetry; apply Nat.ltb_lt; lia). auto.
      + rewrite nth_upd_other by auto. change (nth i ?l (RtoC 0)) with (ccat l i). rewrite ccat_tabulate by auto.
        destruct (i <? k) eqn:E1.
        * apply Nat.ltb_lt in E1. replace (i <? S k) with true by (symmetry; apply Nat.ltb_lt; lia). auto.
        * apply Nat.ltb_ge in E1. replace (i <? S k) with false by (symmetry; apply Nat.ltb_ge; lia). auto. }
  destruct (G n (le_n _)) as (w & E & Hw). exists w. split; [exact E|].
  replace (tabulate n (fun i => f i i)) with (tabulate n (fun i => if i <? n then f i i else ccat (v_elems z) i)); auto.
  apply map_ext_iota. intros i Hi. replace (i <? n) with true by (symmetry; apply Nat.ltb_lt; auto). auto.
Qed.

(** ** Matrices from vectors *)
Lemma diag_fold x u md k M : repv x u -> k <= length (v_elems u) ->
  ofold (fun M i => obind (v_get_own x i) (fun v => set_element M i i v md)) (iota k) M
  = set_elements M md (map (fun i => (i, i, ccat (v_elems u) i)) (iota k)).
Proof.
  intros Hx Hk. unfold set_elements.
  assert (G : forall l, Forall (fun i => i < length (v_elems u)) l -> forall M,
    ofold (fun M i => obind (v_get_own x i) (fun v => set_element M i i v md)) l M
    = ofold (fun (M : rmat) (e : nat * nat * C) => let '(i, j, x0) := e in set_element M i j x0 md)
            (map (fun i => (i, i, ccat (v_elems u) i)) l) M).
  { induction 1 as [|i l Hi Hl IH]; intros M0; auto. cbn [ofold map]. rewrite (v_get_own_ok Hx Hi). cbn [obind].
    destruct (set_element M0 i i (ccat (v_elems u) i) md); cbn [obind]; auto. }
  apply G. apply Forall_forall. intros i Hi. apply in_iota in Hi. lia.
Qed.

Lemma fold_aadd_diag' (g : nat -> C) k f a b :
  fold_left aadd (map (fun i => (i, i, g i)) (iota k)) f a b =
  if (a =? b) && (a <? k) then Cplus (f a b) (g a) else f a b.
Proof.
  induction k as [|k IH].
  - cbn. rewrite andb_false_r. auto.
  - unfold iota in *. rewrite seq_S, map_app, fold_left_app. cbn [map fold_left Nat.add]. unfold aadd at 1.
    cbn [fst snd]. rewrite IH. destruct (a =? k) eqn:E1; cbn [andb].
    + apply Nat.eqb_eq in E1; subst a. replace (k <? S k) with true by (symmetry; apply Nat.ltb_lt; lia).
      rewrite Nat.ltb_irrefl. rewrite (Nat.eqb_sym b k). destruct (k =? b); cbn; auto.
    + apply Nat.eqb_neq in E1. destruct (a <? k) eqn:E2.
      * apply Nat.ltb_lt in E2. replace (a <? S k) with true by (symmetry; apply Nat.ltb_lt; lia). auto.
      * apply Nat.ltb_ge in E2. replace (a <? S k) with false by (symmetry; apply Nat.ltb_ge; lia). auto.
Qed.

Lemma diagonal_matrix_ok x u d : repv x u ->
  let n := length (v_elems u) in
  exists M, mv_diagonal_matrix x d = Ok M /\ good M n n (fun i j => if i =? j then ccat (v_elems u) i else RtoC 0).
Proof.
  intros Hx n. unfold mv_diagonal_matrix. rewrite (vec_size_ok Hx). fold n.
  rewrite (diag_fold INS _ Hx (le_n _)). fold n.
  destruct (blank_rep n n d) as (HB & Hmo & _).
  destruct (@set_good (blank n n d) n n zerof (map (fun i => (i, i, ccat (v_elems u) i)) (iota n)) INS) as (M & E & G); auto.
  { left; auto. } { apply diag_in_range; auto. }
  exists M. split; [exact E|]. eapply good_ext; [exact G|]. intros i j Hi Hj. cbn [cput].
  rewrite fold_aset_diag. replace (i <? n) with true by (symmetry; apply Nat.ltb_lt; auto).
  rewrite andb_true_r. auto.
Qed.

Lemma add_diagonal_vector_ok A m n f x u : good A m n f -> repv x u ->
  length (v_elems u) <= m -> length (v_elems u) <= n ->
  exists M, mv_add_diagonal A x = Ok M /\
    good M m n (fun i j => if (i =? j) && (i <? length (v_elems u)) then Cplus (f i j) (ccat (v_elems u) i) else f i j).
Proof.
  intros (HR & Has & Hmo) Hx Hm Hn. unfold mv_add_diagonal. rewrite (vec_size_ok Hx).
  rewrite (diag_fold ADD _ Hx (le_n _)).
  destruct (@set_good A m n f (map (fun i => (i, i, ccat (v_elems u) i)) (iota (length (v_elems u)))) ADD) as (M & E & G); auto.
  { left; auto. } { apply diag_in_range; auto. }
  exists M. split; [exact E|]. eapply good_ext; [exact G|]. intros i j Hi Hj. cbn [cput].
  apply fold_aadd_diag'.
Qed.

Lemma multiply_diagonal_ok A m n f x u : good A m n f -> repv x u ->
  length (v_elems u) <= m -> length (v_elems u) <= n ->
  exists M, mv_multiply_diagonal A x = Ok M /\
    good M m n (fun i j => if (i =? j) && (i <? length (v_elems u)) then Cmult (ccat (v_elems u) i) (f i j) else f i j).
Proof.
  intros HA Hx Hm Hn. pose proof HA as (HR & Has & Hmo). unfold mv_multiply_diagonal. rewrite (vec_size_ok Hx).
  rewrite (@omap_ok nat (nat * nat * C) _ (fun i => (i, i, Cmult (ccat (v_elems u) i) (f i i)))).
  2:{ intros i Hi. apply in_iota in Hi. rewrite (v_get_own_ok Hx Hi). cbn [obind].
      rewrite (get_element_ok HA) by lia. auto. }
  cbn [obind].
  destruct (@set_good A m n f (map (fun i => (i, i, Cmult (ccat (v_elems u) i) (f i i))) (iota (length (v_elems u)))) INS)
    as (M & E & G); auto.
  { left; auto. } { apply (diag_in_range (fun i => Cmult (ccat (v_elems u) i) (f i i))); auto. }
  exists M. split; [exact E|]. eapply good_ext; [exact G|]. intros i j Hi Hj. cbn [cput].
  rewrite (fold_aset_diag (fun i => Cmult (ccat (v_elems u) i) (f i i))).
  destruct (i =? j) eqn:Eij; cbn [andb]; auto. apply Nat.eqb_eq in Eij; subst j. auto.
Qed.

(** * Norms *)
Lemma acc_to_library op acc l : accumulator_operation op acc (to_library l) = Ok (fold_left op l acc).
Proof.
  revert acc; induction l as [|[a b] l IH]; intros acc; auto. cbn [to_library flat_map app].
  fold (to_library l). cbn [accumulator_operation fold_left fst snd]. apply IH.
Qed.

Lemma fold_sum {A} (g : A -> R) l acc : fold_left (fun a x => (a + g x)%R) l acc = (acc + total (map g l))%R.
Proof. revert acc; induction l as [|x l IH]; intros acc; cbn; [lra|]. rewrite IH. unfold total. lra. Qed.

Lemma total_app a b : total (a ++ b) = (total a + total b)%R.
Proof. unfold total. induction a; cbn; lra. Qed.

Lemma norm_sum (g : C -> R) op ps : (forall a x, op a x = (a + g x)%R) ->
  omap (accumulator_operation op 0%R) (map to_library ps) = Ok (map (fun p => total (map g p)) ps) /\
  rsum (map (fun p => total (map g p)) ps) = total (map g (concat ps)).
Proof.
  intros Hop. split.
  - rewrite (@omap_ok (list R) R _ (fun r => match accumulator_operation op 0%R r with Ok x => x | _ => 0%R end)).
    + f_equal. rewrite map_map. apply map_ext. intros p. rewrite acc_to_library.
      rewrite <- (Rplus_0_l (total (map g p))). rewrite <- fold_sum. generalize 0%R. induction p; intros; cbn; auto.
      rewrite Hop. auto.
    + intros r Hr. apply in_map_iff in Hr. destruct Hr as (p & <- & _). rewrite acc_to_library. auto.
  - induction ps as [|p ps IH]; auto. cbn [map concat]. rewrite map_app, total_app, <- IH. auto.
Qed.

Definition rmax_all (l : list R) : R := fold_right Rmax 0%R l.

Lemma rmax_nonneg l : (0 <= rmax_all l)%R.
Proof. induction l; cbn; [lra|]. eapply Rle_trans; [exact IHl|apply Rmax_r]. Qed.

Lemma rmax_app a b : rmax_all (a ++ b) = Rmax (rmax_all a) (rmax_all b).
Proof.
  induction a as [|x a IH]; cbn.
  - rewrite Rmax_right; auto. apply rmax_nonneg.
  - fold (rmax_all a) (rmax_all (a ++ b)). rewrite IH. apply Rmax_assoc.
Qed.

Lemma fold_max l acc : (0 <= acc)%R -> fold_left acc_inf l acc = Rmax acc (rmax_all (map Cmod l)).
Proof.
  revert acc; induction l as [|x l IH]; intros acc H; cbn [fold_left map].
  - cbn. rewrite Rmax_left; auto.
  - rewrite IH.
    + unfold acc_inf. cbn [rmax_all fold_right]. fold (rmax_all (map Cmod l)). rewrite Rmax_assoc. auto.
    + unfold acc_inf. eapply Rle_trans; [exact H|apply Rmax_l].
Qed.

Lemma rmax_largest l : Forall (fun x => (0 <= x)%R) l -> is_largest l (rmax_all l).
Proof.
  intros H. split; [|split].
  - intros y Hy. induction l as [|x l IH]; [destruct Hy|]. inversion H; subst. destruct Hy as [->|Hy]; cbn.
    + apply Rmax_l.
    + eapply Rle_trans; [apply IH; auto|apply Rmax_r].
  - intros ->. auto.
  - induction H as [|x l Hx Hl IH]; [congruence|]. intros _. cbn. fold (rmax_all l).
    destruct l as [|y l].
    + left. cbn. rewrite Rmax_left; auto.
    + unfold Rmax. destruct (Rle_dec x (rmax_all (y :: l))); auto. right. apply IH. discriminate.
Qed.

Lemma norm_inf_ok v z : repv v z -> exists x, v_norm_inf v = Ok x /\ is_largest (map Cmod (v_elems z)) x.
Proof.
  intros (ps & -> & _ & Hc). unfold v_norm_inf. exists (rmax_all (map Cmod (v_elems z))). split.
  - rewrite (@omap_ok (list R) R _ (fun r => match accumulator_operation acc_inf 0%R r with Ok x => x | _ => 0%R end)).
    + cbn [obind]. f_equal. rewrite map_map. rewrite <- Hc. clear. induction ps as [|p ps IH]; auto.
      cbn [map fold_right concat]. rewrite IH, map_app, rmax_app. f_equal. rewrite acc_to_library, fold_max by lra.
      rewrite Rmax_right; auto. apply rmax_nonneg.
    + intros r Hr. apply in_map_iff in Hr. destruct Hr as (p & <- & _). rewrite acc_to_library. auto.
  - apply rmax_largest. apply Forall_forall. intros x Hx. apply in_map_iff in Hx. destruct Hx as (y & <- & _).
    apply Cmod_ge_0.
Qed.

Lemma norm1_ok v z : repv v z -> v_norm1 v = Ok (total (map Cmod (v_elems z))).
Proof.
  intros (ps & -> & _ & <-). unfold v_norm1.
  destruct (@norm_sum Cmod acc_l1 ps) as [E1 E2]; [auto|]. rewrite E1. cbn [obind]. rewrite E2. auto.
Qed.
Lemma norm2_ok v z : repv v z -> v_norm2 v = Ok (sqrt (total (map (fun x => (Cmod x * Cmod x)%R) (v_elems z)))).
Proof.
  intros (ps & -> & _ & <-). unfold v_norm2.
  destruct (@norm_sum (fun x => (Cmod x * Cmod x)%R) acc_l2 ps) as [E1 E2]; [auto|]. rewrite E1. cbn [obind]. rewrite E2. auto.
Qed.

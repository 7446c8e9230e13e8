(** Proofs about the lists of contingencies. *)
From Verif Require Import Prelude GAModel ParModel ParSpec ParProofs2 StrModel StrSpec StrProofs3 RlModel RlSpec.

Lemma oall_Ok_map {A B} (f : A -> outcome B) (g : A -> B) l : (forall x, In x l -> f x = Ok (g x)) -> oall (map f l) = Ok (map g l).
Proof.
  induction l as [|x l IH]; intros H; [reflexivity|]. cbn [map oall]. rewrite (H x) by now left. cbn [obind].
  rewrite IH by (intros; apply H; now right). reflexivity.
Qed.
Lemma unit_entries_ok {K} name (key : K) us : (forall u, In u us -> in_service u = true -> named name u) ->
  unit_entries key us = Ok (map (fun u => (key, canonical (name u))) (filter in_service us)).
Proof.
  intros H. unfold unit_entries. apply oall_Ok_map. intros u I. apply filter_In in I as (I & S). destruct (H u I S) as (Id & L & s & E & Sp).
  unfold unit_tag. rewrite E. rewrite (clean2char_spelling Id Sp). cbn [obind].
  destruct (name u) as [|a [|b [|c t]]]; cbn in *; try reflexivity; lia.
Qed.
Lemma local_gens_ok name area zone : forall bs ia iz, Forall (fun b => d_active b = true -> good_bus name zone b) bs ->
  local_gens area zone ia iz bs = Ok (flat_map (wanted_gens name area zone) bs).
Proof.
  induction bs as [|b r IH]; intros ia iz F; [reflexivity|]. cbn [local_gens flat_map]. inversion F as [|? ? G F']; subst.
  unfold wanted_gens at 1. destruct (d_active b); [|now rewrite IH]. destruct (G eq_refl) as ((A & Z0) & U). clear G.
  destruct (d_area b) as [a|]; [|congruence]. cbn [assigned andb]. unfold within. destruct (a =? area)%Z eqn:EA; cbn [andb]; [|rewrite IH by assumption; reflexivity].
  destruct (0 <? zone)%Z eqn:EZ.
  - apply Z.ltb_lt in EZ. replace (zone <=? 0)%Z with false by (symmetry; apply Z.leb_gt; lia). cbn [orb].
    destruct (d_zone b) as [z|]; [|exfalso; now apply Z0]. cbn [assigned]. destruct (z =? zone)%Z.
    + destruct (d_units b) as [us|]; [rewrite (@unit_entries_ok _ name)|]; cbn [obind]; try (rewrite IH by assumption; reflexivity).
      intros u I. now apply (U us).
    + cbn [obind]. rewrite IH by assumption. reflexivity.
  - apply Z.ltb_ge in EZ. replace (zone <=? 0)%Z with true by (symmetry; apply Z.leb_le; lia). cbn [orb]. rewrite Z.eqb_refl.
    destruct (d_units b) as [us|]; [rewrite (@unit_entries_ok _ name)|]; cbn [obind]; try (rewrite IH by assumption; reflexivity).
    intros u I. now apply (U us).
Qed.
Lemma local_lines_ok name area zone : forall bs a1 a2 z1 z2, Forall (fun b => b_active b = true -> good_branch name zone b) bs ->
  local_lines area zone a1 a2 z1 z2 bs = Ok (flat_map (wanted_lines name area zone) bs).
Proof.
  induction bs as [|b r IH]; intros a1 a2 z1 z2 F; [reflexivity|]. cbn [local_lines flat_map]. inversion F as [|? ? G F']; subst.
  unfold wanted_lines at 1. destruct (b_active b); [|now rewrite IH]. destruct (G eq_refl) as ((A1 & Z1) & (A2 & Z2) & U). clear G.
  destruct (b_area1 b) as [x1|]; [|congruence]. destruct (b_area2 b) as [x2|]; [|congruence]. cbn [assigned].
  assert (HE : and_then (equals (Some x1) area) (and_then (equals (Some x2) area)
     (and_then (equals (if (0 <? zone)%Z then assigned (b_zone1 b) z1 else Some zone) zone) (equals (if (0 <? zone)%Z then assigned (b_zone2 b) z2 else Some zone) zone)))
     = Ok (within area zone (Some x1) (b_zone1 b) && within area zone (Some x2) (b_zone2 b))).
  { unfold within. destruct (0 <? zone)%Z eqn:EZ.
    - apply Z.ltb_lt in EZ. replace (zone <=? 0)%Z with false by (symmetry; apply Z.leb_gt; lia).
      destruct (b_zone1 b) as [y1|]; [|exfalso; now apply Z1]. destruct (b_zone2 b) as [y2|]; [|exfalso; now apply Z2].
      cbn [assigned equals and_then obind orb]. rewrite (Z.eqb_sym area x1), (Z.eqb_sym area x2), (Z.eqb_sym zone y1), (Z.eqb_sym zone y2).
      destruct (x1 =? area)%Z, (x2 =? area)%Z, (y1 =? zone)%Z, (y2 =? zone)%Z; reflexivity.
    - apply Z.ltb_ge in EZ. replace (zone <=? 0)%Z with true by (symmetry; apply Z.leb_le; lia).
      cbn [assigned equals and_then obind orb]. rewrite (Z.eqb_sym area x1), (Z.eqb_sym area x2), Z.eqb_refl.
      destruct (x1 =? area)%Z, (x2 =? area)%Z; reflexivity. }
  rewrite HE. cbn [obind andb]. destruct (within _ _ _ _ && within _ _ _ _).
  - destruct (b_lines b) as [us|]; [rewrite (@unit_entries_ok _ name)|]; cbn [obind]; try (rewrite IH by assumption; reflexivity).
    intros u I. now apply (U us).
  - cbn [obind]. rewrite IH by assumption. reflexivity.
Qed.

(** The gathering *)
Section G.
Context {A : Type} (zero : A) (own : nat -> nat).
Lemma sumn_concat (ls : list (list A)) : sumn (map (@length A) ls) = length (concat ls).
Proof. induction ls as [|l ls IH]; [reflexivity|]. cbn. rewrite app_length. lia. Qed.
Definition cells (k : nat) (l : list A) : list (Z * A) := combine (map (fun i => Z.of_nat (k + i)) (iota (length l))) l.
Lemma iota_S n : iota (S n) = 0 :: map S (iota n).
Proof. unfold iota. cbn. now rewrite seq_shift. Qed.
Lemma cells_cons k x l : cells k (x :: l) = (Z.of_nat k, x) :: cells (S k) l.
Proof.
  unfold cells. cbn [length]. rewrite iota_S. cbn [map combine]. rewrite Nat.add_0_r. f_equal. rewrite map_map. f_equal. apply map_ext.
  intros i. f_equal. lia.
Qed.
Lemma cells_app : forall l1 k l2, cells k (l1 ++ l2) = (cells k l1 ++ cells (k + length l1) l2)%list.
Proof.
  induction l1 as [|x l1 IH]; intros k l2; [cbn; now rewrite Nat.add_0_r|]. cbn [app length]. rewrite !cells_cons, IH. cbn [app].
  now rewrite <- Nat.add_succ_comm.
Qed.
Lemma indexed_cells_gen : forall (ls : list (list A)) k,
  concat (map (fun p => cells (k + offset_of ls p) (nth p ls [])) (iota (length ls))) = cells k (concat ls).
Proof.
  induction ls as [|l ls IH]; intros k; [reflexivity|]. cbn [length]. rewrite iota_S. cbn [map concat nth]. unfold offset_of at 1. cbn [firstn map sumn].
  rewrite Nat.add_0_r, cells_app. f_equal. rewrite map_map, <- IH. f_equal. apply map_ext. intros p. cbn [nth]. f_equal.
  unfold offset_of. cbn [firstn map sumn]. lia.
Qed.
Lemma indexed_cells ls : concat (@indexed A ls) = cells 0 (concat ls).
Proof. exact (indexed_cells_gen ls 0). Qed.
Lemma fst_cells : forall l k, map fst (cells k l) = map Z.of_nat (seq k (length l)).
Proof. induction l as [|x l IH]; intros k; [reflexivity|]. rewrite cells_cons. cbn [map length seq fst]. now rewrite IH. Qed.
Lemma fold_max_seq : forall n k m, (m < Z.of_nat k)%Z -> fold_left Z.max (map Z.of_nat (seq k (S n))) m = Z.of_nat (k + n).
Proof.
  induction n as [|n IH]; intros k m H; [cbn; lia|]. change (seq k (S (S n))) with (k :: seq (S k) (S n)). cbn [map fold_left].
  rewrite IH by lia. f_equal. lia.
Qed.
Lemma extent_cells l : l <> [] -> extent (cells 0 l) = length l.
Proof.
  intros N. unfold extent. rewrite fst_cells. destruct l as [|x l]; [congruence|]. cbn [length]. rewrite fold_max_seq by lia. lia.
Qed.
Lemma value_cells : forall l k i, i < length l -> value_at zero (cells k l) (Z.of_nat (k + i)) = nth i l zero.
Proof.
  induction l as [|x l IH]; intros k i H; cbn in H; [lia|]. rewrite cells_cons. unfold value_at. cbn [added fst snd]. destruct i as [|i].
  - rewrite Nat.add_0_r, Z.eqb_refl. reflexivity.
  - destruct (Z.eqb_spec (Z.of_nat k) (Z.of_nat (k + S i))); [lia|]. specialize (IH (S k) i ltac:(lia)). unfold value_at in IH.
    replace (k + S i) with (S k + i) by lia. exact IH.
Qed.
Lemma map_nth_iota l : map (fun i => nth i l zero) (iota (length l)) = l.
Proof.
  induction l as [|x l IH]; [reflexivity|]. cbn [length]. rewrite iota_S. cbn [map nth]. rewrite map_map. cbn [nth]. now rewrite IH.
Qed.
Lemma gather_ok ls s1 s2 : (forall i, own i < length ls) -> Permutation s1 (sched_ops (length ls)) -> barrier s1 ->
  Permutation s2 (sched_ops (length ls)) -> barrier s2 -> gather zero own ls s1 s2 = Ok (concat ls).
Proof.
  intros O P1 B1 P2 B2. unfold gather. rewrite sumn_concat. destruct (Nat.eqb_spec (length (concat ls)) 0) as [E|E].
  - destruct (concat ls); [reflexivity|discriminate].
  - assert (N : concat ls <> []) by (intros X; now rewrite X in E).
    assert (L : length (@indexed A ls) = length ls) by (unfold indexed, iota; now rewrite map_length, seq_length).
    destruct (@gv_correct A zero own (indexed ls) s1 s2) as (g & EG & _ & _ & EA); rewrite ?indexed_cells, ?L; auto.
    + rewrite Forall_forall. intros x I. apply (in_map fst) in I. rewrite fst_cells in I. apply in_map_iff in I as (i & <- & _). lia.
    + rewrite fst_cells. apply FinFun.Injective_map_NoDup; [intros a b; lia|apply seq_NoDup].
    + intros X. apply (f_equal (map fst)) in X. rewrite fst_cells in X. destruct (length (concat ls)); [lia|discriminate].
    + rewrite EG. cbn [obind]. rewrite EA, indexed_cells, (extent_cells N). f_equal.
      transitivity (map (fun i => nth i (concat ls) zero) (iota (length (concat ls)))); [|apply map_nth_iota].
      apply map_ext_in. intros i I. unfold iota in I. apply in_seq in I. exact (@value_cells (concat ls) 0 i ltac:(lia)).
Qed.
End G.
Lemma barrier_one s : legal 1 s -> barrier s.
Proof.
  intros (P & H). destruct (H 0 ltac:(lia)) as (a & b & c & E). apply Permutation_length in P. cbn in P. subst s.
  rewrite !app_length in P. cbn in P. rewrite app_length in P. cbn in P. destruct a, b, c; cbn in P; try lia. exists [(false, 0)], [(true, 0)]. now cbn.
Qed.

Lemma combine_map2 {X Y Z0} (f : X -> Y) (g : X -> Z0) l : combine (map f l) (map g l) = map (fun x => (f x, g x)) l.
Proof. induction l as [|x l IH]; [reflexivity|]. cbn. now rewrite IH. Qed.
Lemma map_combine_fst {X Y} : forall (l1 : list X) (l2 : list Y), length l1 = length l2 -> map fst (combine l1 l2) = l1.
Proof. induction l1 as [|x l1 IH]; intros [|y l2] H; cbn in *; try lia; [reflexivity|]. rewrite IH by lia. reflexivity. Qed.
Lemma map_combine_snd {X Y} : forall (l1 : list X) (l2 : list Y), length l1 = length l2 -> map snd (combine l1 l2) = l2.
Proof. induction l1 as [|x l1 IH]; intros [|y l2] H; cbn in *; try lia; [reflexivity|]. rewrite IH by lia. reflexivity. Qed.
Lemma clean_canonical t : ident t -> clean2char (canonical t) = Ok (canonical t).
Proof. intros I. exact (clean2char_spelling I (canonical_again I)). Qed.
Lemma iota_len n : length (iota n) = n. Proof. apply seq_length. Qed.

Lemma make_ctgs_ok (es : list (Z * str)) : (forall e, In e es -> exists t, ident t /\ snd e = canonical t) ->
  exists l, make_ctgs (map fst es) (map snd es) = Ok l /\ map (fun c => (c_bus c, c_gen c)) l = es /\ map c_number l = seq 1 (length es).
Proof.
  intros H. unfold make_ctgs. rewrite combine_map2, map_length.
  exists (map (fun e => Ctg (S (fst e)) (fst (snd e)) (snd (snd e))) (combine (iota (length es)) (map (fun x => (fst x, snd x)) es))). split.
  - apply (@oall_Ok_map _ _ _ (fun e => Ctg (S (fst e)) (fst (snd e)) (snd (snd e)))). intros (i, e) I. apply in_combine_r in I. apply in_map_iff in I as (e' & E & I).
    destruct (H e' I) as (t & Id & T). destruct e as (bb, tt). injection E as E1 E2. cbn [fst snd]. rewrite <- E2, T, (clean_canonical Id). cbn [obind]. reflexivity.
  - rewrite !map_map. cbn [c_bus c_gen c_number]. split.
    + rewrite <- (map_map snd (fun x => (fst x, snd x))), map_combine_snd by (now rewrite map_length, iota_len). rewrite map_map. cbn [fst snd].
      rewrite <- (map_id es) at 2. apply map_ext. now intros (a, b).
    + rewrite <- (map_map fst S), map_combine_fst by (now rewrite map_length, iota_len). unfold iota. apply seq_shift.
Qed.
Lemma make_line_ctgs_ok (es : list (Z * Z * str)) : (forall e, In e es -> exists t, ident t /\ snd e = canonical t) ->
  exists l, make_line_ctgs (map (fun e => fst (fst e)) es) (map (fun e => snd (fst e)) es) (map snd es) = Ok l /\
    map (fun c => (lc_from c, lc_to c, lc_ckt c)) l = es /\ map lc_number l = seq 1 (length es).
Proof.
  intros H. unfold make_line_ctgs. rewrite !combine_map2, map_length.
  set (h := fun x : Z * Z * str => (fst (fst x), snd (fst x), snd x)).
  exists (map (fun e => LCtg (S (fst e)) (fst (fst (snd e))) (snd (fst (snd e))) (snd (snd e))) (combine (iota (length es)) (map h es))). split.
  - apply (@oall_Ok_map _ _ _ (fun e => LCtg (S (fst e)) (fst (fst (snd e))) (snd (fst (snd e))) (snd (snd e)))). intros (i, e) I. apply in_combine_r in I. apply in_map_iff in I as (e' & E & I).
    destruct (H e' I) as (t & Id & T). destruct e as ((b1, b2), tt). injection E as E1 E2 E3. cbn [fst snd]. rewrite <- E3, T, (clean_canonical Id). cbn [obind]. reflexivity.
  - rewrite !map_map. cbn [lc_from lc_to lc_ckt lc_number]. split.
    + transitivity (map h (map snd (combine (iota (length es)) (map h es)))); [rewrite map_map; reflexivity|].
      rewrite map_combine_snd by (now rewrite map_length, iota_len). rewrite map_map. rewrite <- (map_id es) at 2. apply map_ext. now intros ((a, b), c).
    + rewrite <- (map_map fst S), map_combine_fst by (now rewrite map_length, iota_len). unfold iota. apply seq_shift.
Qed.
Lemma flat_map_concat_all {X Y} (f : X -> list Y) ls : concat (map (flat_map f) ls) = flat_map f (concat ls).
Proof. induction ls as [|l ls IH]; [reflexivity|]. cbn. now rewrite IH, flat_map_app. Qed.

Lemma gens_named name area zone bs e : Forall (fun b => d_active b = true -> good_bus name zone b) bs ->
  In e (flat_map (wanted_gens name area zone) bs) -> exists t, ident t /\ snd e = canonical t.
Proof.
  intros F I. apply in_flat_map in I as (b & Ib & I). unfold wanted_gens in I. destruct (d_active b) eqn:AC; [|contradiction]. cbn [andb] in I.
  destruct (within _ _ _ _); [|contradiction]. apply in_map_iff in I as (u & <- & I). apply filter_In in I as (I & S).
  rewrite Forall_forall in F. destruct (F b Ib AC) as (_ & U). destruct (d_units b) as [us|]; [|contradiction]. exists (name u). split; [|reflexivity]. exact (proj1 (U us u eq_refl I S)).
Qed.
Lemma lines_named name area zone bs e : Forall (fun b => b_active b = true -> good_branch name zone b) bs ->
  In e (flat_map (wanted_lines name area zone) bs) -> exists t, ident t /\ snd e = canonical t.
Proof.
  intros F I. apply in_flat_map in I as (b & Ib & I). unfold wanted_lines in I. destruct (b_active b) eqn:AC; [|contradiction]. cbn [andb] in I.
  destruct (within _ _ _ _ && within _ _ _ _); [|contradiction]. apply in_map_iff in I as (u & <- & I). apply filter_In in I as (I & S).
  rewrite Forall_forall in F. destruct (F b Ib AC) as (_ & _ & U). destruct (b_lines b) as [us|]; [|contradiction]. exists (name u). split; [|reflexivity]. exact (proj1 (U us u eq_refl I S)).
Qed.

Theorem gen_ctgs_ok name own area zone procs sb1 sb2 st1 st2 :
  (forall i, own i < length procs) -> Forall (fun b => d_active b = true -> good_bus name zone b) (concat procs) ->
  Forall (fun s => Permutation s (sched_ops (length procs)) /\ barrier s) [sb1; sb2; st1; st2] ->
  exists l, gen_ctgs own area zone procs sb1 sb2 st1 st2 = Ok l /\
    map (fun c => (c_bus c, c_gen c)) l = flat_map (wanted_gens name area zone) (concat procs) /\ map c_number l = seq 1 (length l).
Proof.
  intros O F S. unfold gen_ctgs. rewrite (@oall_Ok_map _ _ _ (flat_map (wanted_gens name area zone))).
  2:{ intros bs I. apply local_gens_ok. rewrite Forall_forall in *. intros b Ib. apply F. apply in_concat. now exists bs. }
  cbn [obind]. rewrite Forall_forall in S. destruct (S sb1) as (? & ?); [cbn; auto|]. destruct (S sb2) as (? & ?); [cbn; auto|].
  destruct (S st1) as (? & ?); [cbn; auto|]. destruct (S st2) as (? & ?); [cbn; auto|].
  rewrite gather_ok by (rewrite ?map_length; assumption). cbn [obind]. rewrite gather_ok by (rewrite ?map_length; assumption). cbn [obind].
  rewrite <- !concat_map, flat_map_concat_all.
  destruct (@make_ctgs_ok (flat_map (wanted_gens name area zone) (concat procs))) as (l & E1 & E2 & E3).
  { intros e. now apply gens_named. }
  exists l. split; [exact E1|]. split; [exact E2|]. rewrite E3, <- E2, map_length. reflexivity.
Qed.
Theorem line_ctgs_ok name own area zone procs f1 f2 t1 t2 k1 k2 :
  (forall i, own i < length procs) -> Forall (fun b => b_active b = true -> good_branch name zone b) (concat procs) ->
  Forall (fun s => Permutation s (sched_ops (length procs)) /\ barrier s) [f1; f2; t1; t2; k1; k2] ->
  exists l, line_ctgs own area zone procs f1 f2 t1 t2 k1 k2 = Ok l /\
    map (fun c => (lc_from c, lc_to c, lc_ckt c)) l = flat_map (wanted_lines name area zone) (concat procs) /\ map lc_number l = seq 1 (length l).
Proof.
  intros O F S. unfold line_ctgs. rewrite (@oall_Ok_map _ _ _ (flat_map (wanted_lines name area zone))).
  2:{ intros bs I. apply local_lines_ok. rewrite Forall_forall in *. intros b Ib. apply F. apply in_concat. now exists bs. }
  cbn [obind]. rewrite Forall_forall in S.
  destruct (S f1) as (? & ?); [cbn; auto|]. destruct (S f2) as (? & ?); [cbn; auto|]. destruct (S t1) as (? & ?); [cbn; auto|].
  destruct (S t2) as (? & ?); [cbn; auto|]. destruct (S k1) as (? & ?); [cbn; tauto|]. destruct (S k2) as (? & ?); [cbn; tauto|].
  rewrite gather_ok by (rewrite ?map_length; assumption). cbn [obind]. rewrite gather_ok by (rewrite ?map_length; assumption). cbn [obind].
  rewrite gather_ok by (rewrite ?map_length; assumption). cbn [obind].
  rewrite <- !concat_map, flat_map_concat_all.
  destruct (@make_line_ctgs_ok (flat_map (wanted_lines name area zone) (concat procs))) as (l & E1 & E2 & E3).
  { intros e. now apply lines_named. }
  exists l. split; [exact E1|]. split; [exact E2|]. rewrite E3, <- E2, map_length. reflexivity.
Qed.
Theorem watched_ok name own area zone procs old sb1 sb2 st1 st2 :
  (forall i, own i < length procs) -> Forall (fun b => d_active b = true -> good_bus name zone b) (concat procs) ->
  Forall (fun s => Permutation s (sched_ops (length procs)) /\ barrier s) [sb1; sb2; st1; st2] ->
  let gens := flat_map (wanted_gens name area zone) (concat procs) in
  watched own area zone procs old sb1 sb2 st1 st2 = Ok (match gens with [] => old | _ => (map fst gens, map snd gens) end).
Proof.
  intros O F S gens. unfold watched. rewrite (@oall_Ok_map _ _ _ (flat_map (wanted_gens name area zone))).
  2:{ intros bs I. apply local_gens_ok. rewrite Forall_forall in *. intros b Ib. apply F. apply in_concat. now exists bs. }
  cbn [obind]. rewrite Forall_forall in S. destruct (S sb1) as (? & ?); [cbn; auto|]. destruct (S sb2) as (? & ?); [cbn; auto|].
  destruct (S st1) as (? & ?); [cbn; auto|]. destruct (S st2) as (? & ?); [cbn; auto|].
  rewrite sumn_concat, flat_map_concat_all. fold gens. destruct gens as [|e r] eqn:EG; [reflexivity|]. cbn [length Nat.eqb].
  rewrite gather_ok by (rewrite ?map_length; assumption). cbn [obind]. rewrite gather_ok by (rewrite ?map_length; assumption). cbn [obind].
  rewrite <- !concat_map, flat_map_concat_all. fold gens. rewrite EG. reflexivity.
Qed.

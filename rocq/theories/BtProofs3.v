(** Proofs for C61: the rows reach the buses. *)
From Verif Require Import Prelude StrModel StrSpec StrProofs3 StreamModel StreamProps GAModel HdModel HdSpec HdProofs HdProps DCModel BtModel BtSpec BtProofs BtProofs2.
From Coq Require Import Ascii.
Open Scope nat_scope.

Lemma due_map {V W} (f : V -> W) local (all : list (Z * V)) :
  due Z.eqb local (map (fun kv => (fst kv, f (snd kv))) all) = map (fun x => (fst x, f (snd x))) (due Z.eqb local all).
Proof.
  unfold due. induction (combine (iota (length local)) local) as [|(j, k) l IH]; [reflexivity|]. cbn [flat_map]. rewrite map_app, <- IH. f_equal. cbn [fst snd]. clear IH.
  induction all as [|(a, v) all IH2]; [reflexivity|]. cbn [map filter fst snd]. destruct (a =? k)%Z; cbn [map]; rewrite IH2; reflexivity.
Qed.
Lemma due_rows local (rows : list row) : due Z.eqb local (map (fun r => (r_bus r, r)) rows) = rows_for local rows.
Proof.
  unfold due, rows_for. apply flat_map_ext. intros (j, k). cbn [fst snd]. induction rows as [|r rows IH]; [reflexivity|]. cbn [map filter fst snd].
  destruct (r_bus r =? k)%Z; cbn [map]; rewrite IH; reflexivity.
Qed.
Lemma map_snd_combine {A B} (a : list A) (b : list B) : length a = length b -> map snd (combine a b) = b.
Proof. revert b; induction a as [|x a IH]; intros [|y b] H; cbn in *; try discriminate; [reflexivity|]. now rewrite IH by lia. Qed.
Lemma in_enum_nth {A} (l : list A) : forall k j x, In (j, x) (combine (seq k (length l)) l) -> k <= j /\ nth_error l (j - k) = Some x.
Proof.
  induction l as [|y l IH]; intros k j x I; cbn in I; [contradiction|]. destruct I as [E|I].
  - injection E as <- <-. split; [lia|]. now rewrite Nat.sub_diag.
  - destruct (IH (S k) j x I) as (G & H). split; [lia|]. replace (j - k) with (S (j - S k)) by lia. exact H.
Qed.

Section Reach.
Context {D : Type}.
Variable atof : str -> D.
Lemma nth_cells (rows : list row) nval tail : Forall (fun r => length (r_vals r) = nval) rows ->
  forall j r k, nth_error rows j = Some r -> k < nval ->
  nth_error (concat (map (cells atof) rows) ++ tail) (nval * j + k) = Some (Some (atof (nth k (r_vals r) []))).
Proof.
  induction 1 as [|r0 rows H F IH]; intros j r k E K; [destruct j; discriminate|].
  cbn [map concat]. rewrite <- app_assoc. destruct j as [|j]; cbn [nth_error] in E.
  - injection E as <-. rewrite Nat.mul_0_r. cbn [Nat.add]. rewrite nth_error_app1 by (unfold cells; rewrite map_length; lia).
    unfold cells. rewrite nth_error_map. rewrite (@nth_error_nth' _ _ k []) by lia. reflexivity.
  - rewrite nth_error_app2 by (unfold cells; rewrite map_length; lia).
    replace (nval * S j + k - length (cells atof r0)) with (nval * j + k) by (unfold cells; rewrite map_length; lia). now apply IH.
Qed.
Lemma ga_get_one (g : garray D) i x : nth_error g i = Some (Some x) -> ga_get g i 1 = Ok [x].
Proof.
  intros E. unfold ga_get. assert (i < length g) by (apply nth_error_Some; congruence). destruct (Nat.leb_spec (i + 1) (length g)); [|lia].
  apply nth_error_split in E as (a & b & -> & L). rewrite skipn_app, <- L, skipn_all, Nat.sub_diag. reflexivity.
Qed.
Lemma gather_ok {X} (g : garray D) (f : X -> nat) (v : X -> D) (xs : list X) : (forall x, In x xs -> nth_error g (f x) = Some (Some (v x))) ->
  ga_gather g (map f xs) = Ok (map v xs).
Proof.
  induction xs as [|x xs IH]; intros H; [reflexivity|]. cbn [map ga_gather]. rewrite (ga_get_one _ _ (H x (or_introl eq_refl))). cbn [obind].
  rewrite IH by (intros y I; apply H; now right). reflexivity.
Qed.
Lemma oall_map {X Y} (f : X -> outcome Y) (g : X -> Y) l : (forall x, In x l -> f x = Ok (g x)) -> oall (map f l) = Ok (map g l).
Proof.
  induction l as [|x l IH]; intros H; [reflexivity|]. cbn [map oall]. rewrite H by now left. cbn [obind]. rewrite IH by (intros y I; apply H; now right). reflexivity.
Qed.
(** What one process ends with. *)
Definition got (rows : list row) (local : list Z) (e : list (nat * str * nat)) : Prop :=
  exists xs : list (nat * (nat * row)), Permutation (map (fun x => (fst x, snd (snd x))) xs) (rows_for local rows) /\
    e = map (fun x => (fst x, canonical (r_tag (snd (snd x))), fst (snd x))) xs /\
    (forall x, In x xs -> nth_error rows (fst (snd x)) = Some (snd (snd x))).
Lemma received_ok rows local out : Forall (fun r => ident (r_tag r)) rows -> length (fst out) = length (snd out) ->
  Permutation (combine (fst out) (snd out)) (due Z.eqb local (entries rows)) ->
  exists e, received out = Ok e /\ got rows local e.
Proof.
  intros F L P. set (en := combine (iota (length rows)) rows) in *.
  set (f0 := fun jr : nat * row => (fst jr, canonical (r_tag (snd jr)))).
  assert (E1 : entries rows = map (fun kv => (fst kv, f0 (snd kv))) (map (fun jr => (r_bus (snd jr), jr)) en)).
  { unfold entries. fold en. rewrite map_map. reflexivity. }
  rewrite E1, (due_map f0) in P. apply Permutation_map_inv in P as (xs & EX & PX).
  assert (IN : forall x, In x xs -> In (snd x) en).
  { intros (i, jr) I. apply (Permutation_in _ (Permutation_sym PX)) in I. apply in_due in I as (k & k' & _ & _ & I). apply in_map_iff in I as (jr' & E & I).
    injection E as _ ->. exact I. }
  assert (NT : forall x, In x xs -> nth_error rows (fst (snd x)) = Some (snd (snd x))).
  { intros x I. specialize (IN x I). destruct (snd x) as (j, r). unfold en, iota in IN. apply in_enum_nth in IN as (_ & N). rewrite Nat.sub_0_r in N. exact N. }
  exists (map (fun x => (fst x, canonical (r_tag (snd (snd x))), fst (snd x))) xs). split.
  - unfold received. rewrite EX. rewrite map_map. apply oall_map. intros x I. unfold f0. cbn [fst snd].
    assert (ident (r_tag (snd (snd x)))) as Id by (rewrite Forall_forall in F; apply F; eapply nth_error_In, NT, I).
    rewrite (clean2char_spelling Id (canonical_again Id)). reflexivity.
  - exists xs. split; [|split; [reflexivity|exact NT]].
    rewrite <- due_rows.
    assert (E2 : map (fun r => (r_bus r, r)) rows = map (fun kv => (fst kv, @snd nat row (snd kv))) (map (fun jr => (r_bus (snd jr), jr)) en)).
    { rewrite map_map. cbn [fst snd]. rewrite <- (map_map (fun jr : nat * row => snd jr) (fun r => (r_bus r, r))). f_equal. symmetry. apply map_snd_combine. apply seq_length. }
    rewrite E2, (due_map (@snd nat row)). apply Permutation_sym. exact (Permutation_map (fun x => (fst x, snd (snd x))) PX).
Qed.

Lemma nth_forall2 {A B} (R : A -> B -> Prop) l l' : Forall2 R l l' -> forall p a, nth_error l p = Some a -> exists b, nth_error l' p = Some b /\ R a b.
Proof. induction 1 as [|x y l l' H F IH]; intros [|p] a E; cbn in *; try discriminate; [injection E as <-; eauto|eauto]. Qed.
Lemma forall2_map_l {A B C} (f : A -> B) (R : B -> C -> Prop) l l' : Forall2 R (map f l) l' -> Forall2 (fun a c => R (f a) c) l l'.
Proof. revert l'. induction l as [|x l IH]; intros l' H; inversion H; subst; constructor; auto. Qed.
Lemma oall_received rows (locals : list (list Z)) outs : Forall2 (fun local out => exists e, received out = Ok e /\ got rows local e) locals outs ->
  exists loc, oall (map received outs) = Ok loc /\ Forall2 (got rows) locals loc.
Proof.
  induction 1 as [|x y l l' (e & E & G) F (loc & O & IH)]; [exists []; split; [reflexivity|constructor]|].
  exists (e :: loc). cbn [map oall]. rewrite E. cbn [obind]. rewrite O. cbn [obind]. split; [reflexivity|]. now constructor.
Qed.

Definition procs (rs : list (Z * (nat * str))) (buses : list (list Z)) : list (hproc Z (nat * str)) :=
  map (fun p => if fst p =? 0 then HProc (snd p) (map fst rs) (map snd rs) [] else HProc (snd p) [] [] []) (combine (iota (length buses)) buses).
Lemma supplied_procs rs buses : buses <> [] -> supplied (procs rs buses) = rs.
Proof.
  intros N. unfold procs. destruct buses as [|b bs]; [contradiction|]. unfold iota. cbn [length seq combine map fst snd Nat.eqb]. unfold supplied. cbn [flat_map h_keys h_vals].
  assert (X : forall k l, 0 < k -> flat_map (fun p => combine (h_keys p) (h_vals p)) (map (fun p : nat * list Z => if fst p =? 0 then HProc (snd p) (map fst rs) (map snd rs) []
    else HProc (snd p) [] [] []) (combine (seq k (length l)) l)) = []).
  { intros k l. revert k. induction l as [|y l IH]; intros k K; [reflexivity|]. cbn [length seq combine map flat_map fst snd]. destruct (Nat.eqb_spec k 0); [lia|]. cbn [h_keys h_vals combine app]. apply IH. lia. }
  rewrite X by lia. rewrite app_nil_r. clear. induction rs as [|(a, b) rs IH]; [reflexivity|]. cbn [map combine fst snd]. now rewrite IH.
Qed.
Lemma procs_local rs buses : map (fun p : hproc Z (nat * str) => h_local p) (procs rs buses) = buses.
Proof.
  unfold procs. rewrite map_map. transitivity (map snd (combine (iota (length buses)) buses)); [|apply map_snd_combine, seq_length].
  apply map_ext. intros (k, b). cbn [fst snd]. now destruct (k =? 0).
Qed.
Lemma procs_ok rs buses : Forall (fun p => length (h_keys p) = length (h_vals p)) (procs rs buses).
Proof. apply Forall_forall. intros p I. unfold procs in I. apply in_map_iff in I as ((k, b) & <- & _). cbn [fst snd]. destruct (k =? 0); cbn [h_keys h_vals]; [now rewrite !map_length|reflexivity]. Qed.
Lemma procs_length rs buses : length (procs rs buses) = length buses.
Proof. unfold procs. rewrite map_length, combine_length. unfold iota. rewrite seq_length. lia. Qed.

Lemma table_lines_length heads blocks : length (table_lines heads blocks) = length heads + length blocks + length (flat_map b_notes blocks).
Proof.
  unfold table_lines. rewrite app_length, map_length. rewrite <- Nat.add_assoc. f_equal. induction blocks as [|b bs IH]; [reflexivity|]. cbn [flat_map length]. rewrite !app_length, IH. cbn [length]. lia.
Qed.
Lemma read_ok (nval fuel : nat) (buses : list (list Z)) (ord : list nat) (heads : list (str * str)) (blocks : list block) (t0 : table D) :
  table_ok nval heads blocks ->
  (length blocks mod 10 = 0 \/ length blocks mod 10 + length (flat_map b_notes blocks) <= 10) ->
  (length buses = 1 \/ heads = []) -> Permutation ord (iota (length buses)) -> (0 < Z.of_nat (length buses) < 2 ^ 31)%Z -> (Z.of_nat (length blocks) < 2 ^ 31)%Z ->
  (t_has t0 = true -> t_ga t0 <> None) -> length (file_of (table_lines heads blocks)) < fuel ->
  exists loc g tail, read_table atof fuel buses ord (Some (file_of (table_lines heads blocks))) t0 =
      Some (Ok (true, Table true (Some g) (Z.of_nat nval) loc (map snd heads))) /\
    Forall2 (got (map b_row blocks)) buses loc /\ g = (concat (map (cells atof) (map b_row blocks)) ++ tail)%list.
Proof.
  intros (V & FH & FB & HB) HC HP PO HN HT H0 HF.
  assert (LL : length heads + length blocks + length (flat_map b_notes blocks) < fuel).
  { rewrite <- table_lines_length. pose proof (file_length (table_lines heads blocks)). lia. }
  assert (REL : exists t1, release t0 = Ok t1).
  { unfold release. destruct (t_has t0); [|eauto]. destruct (t_ga t0); [eauto|]. exfalso. apply (H0 eq_refl). reflexivity. }
  destruct REL as (t1 & REL). unfold read_table. rewrite REL.
  destruct blocks as [|b0 bs]; [contradiction|]. pose proof (Forall_inv FB) as (_ & R0 & V0). pose proof (Forall_inv_tail FB) as FB'.
  assert (TL : table_lines heads (b0 :: bs) = (map fst heads ++ b_line b0 :: flat_map (fun b => b_notes b ++ [b_line b]) bs)%list).
  { unfold table_lines. cbn [flat_map]. rewrite HB. reflexivity. }
  set (ls := flat_map (fun b => b_notes b ++ [b_line b])%list bs) in *.
  assert (Lls : length ls = length bs + length (flat_map b_notes bs)).
  { pose proof (table_lines_length [] bs) as X. exact X. }
  assert (FL : Forall (lacks lf) ls).
  { apply Forall_forall. intros x I. unfold ls in I. apply in_flat_map in I as (b & I & J). rewrite Forall_forall in FB'. destruct (FB' b I) as (C & R & _).
    apply in_app_or in J as [J|[<-|[]]]; [|exact (row_line_lf R)]. rewrite Forall_forall in C. now destruct (comment_hash (C x J)). }
  cbn [length flat_map] in *. rewrite HB in LL, HC. cbn [app] in LL, HC.
  rewrite TL in *.
  rewrite (@pass1_ok heads (b_row b0) (b_line b0) ls fuel FH R0) by (auto; lia). cbn [sc_found sc_nval sc_nline sc_headers].
  rewrite V0. destruct (Z.ltb_spec 0 (Z.of_nat nval)); [|lia]. destruct (Nat.ltb_spec 0 (S (length ls))); [|lia]. cbn [andb].
  assert (((1 <? length buses) && (0 <? length (map snd heads))) = false) as ->.
  { destruct HP as [-> | ->]; [reflexivity|]. cbn. apply andb_false_r. }
  rewrite Nat2Z.id. set (blocks := b0 :: bs) in *. set (rows := map b_row blocks) in *.
  assert (FR : Forall (fun r => length (r_vals r) = nval) rows).
  { apply Forall_forall. intros r I. unfold rows in I. apply in_map_iff in I as (b & <- & I). rewrite Forall_forall in FB. now destruct (FB b I) as (_ & _ & X). }
  assert (FI : Forall (fun r => ident (r_tag r)) rows).
  { apply Forall_forall. intros r I. unfold rows in I. apply in_map_iff in I as (b & <- & I). rewrite Forall_forall in FB. destruct (FB b I) as (_ & (_ & X & _) & _). exact X. }
  (* the comments at the start, seen by the second pass *)
  set (b0' := Block (map fst heads) (b_line b0) (b_row b0)).
  assert (FB2 : Forall (fun b => Forall comment (b_notes b) /\ row_line (b_row b) (b_line b) /\ length (r_vals (b_row b)) = nval) (b0' :: bs)).
  { constructor; [|exact FB']. split; [|auto]. cbn [b0' b_notes]. apply Forall_forall. intros x I. apply in_map_iff in I as (h & <- & I). rewrite Forall_forall in FH. exact (text_comment (FH h I)). }
  set (s0 := Load [] (repeat (repeat (@None D) nval) num_slices) 0 (ga_new D (S (length ls) * nval))).
  assert (I0 : inv atof nval (S (length ls)) [] s0).
  { unfold inv, s0. cbv zeta. cbn [length ld_rows ld_n ld_ga ld_buf firstn skipn map concat app]. split; [reflexivity|]. split; [reflexivity|].
    split; [eexists; split; [reflexivity|unfold ga_new; now rewrite repeat_length]|]. split; [eexists; reflexivity|]. split; [now rewrite repeat_length|].
    apply Forall_forall. intros x I. apply repeat_spec in I. subst x. apply repeat_length. }
  destruct (@pass2_ok D atof nval (S (length ls)) (b0' :: bs) [] fuel [] s0 I0 FB2) as (s' & P2 & I2); auto.
  { cbn [length Nat.add]. lia. }
  { cbn [flat_map b0' b_notes b_line]. fold ls. rewrite !app_length, map_length. cbn [length]. lia. }
  assert (FE : file_of (flat_map (fun b => b_notes b ++ [b_line b])%list (b0' :: bs)) = file_of (map fst heads ++ b_line b0 :: ls)).
  { f_equal. cbn [flat_map b0' b_notes b_line]. fold ls. rewrite <- app_assoc. reflexivity. }
  rewrite FE in P2. unfold st in P2. unfold fill. fold s0. rewrite P2. cbn [obind app map b0' b_row] in *. change (b_row b0 :: map b_row bs) with rows in I2.
  assert (LR : length rows = S (length bs)) by (unfold rows; now rewrite map_length).
  destruct (@last_put_ok D atof nval (S (length ls)) rows s' I2 FR) as (g & tail & LP & EG).
  { lia. } { rewrite LR. unfold num_slices. rewrite Lls. destruct HC as [HC|HC]; [now left|right]. lia. }
  rewrite LP. cbn [obind fst snd]. destruct I2 as (ER & _). rewrite ER.
  fold (procs (entries rows) buses).
  assert (NB : buses <> []) by (intros ->; cbn in HN; lia).
  assert (LE : length (entries rows) = length rows) by (unfold entries; rewrite map_length, combine_length; unfold iota; rewrite seq_length; lia).
  destruct (@C20_buses Z (nat * str) Z.eqb ord (procs (entries rows) buses)) as (outs & DO & F2).
  { intros a b. apply Z.eqb_eq. } { apply procs_ok. } { now rewrite procs_length. } { now rewrite procs_length. }
  { rewrite supplied_procs, LE, LR by exact NB. lia. }
  rewrite DO. cbn [obind]. rewrite supplied_procs in F2 by exact NB.
  assert (F3 : Forall2 (fun local out => exists e, received out = Ok e /\ got rows local e) buses outs).
  { clear DO. rewrite <- (procs_local (entries rows) buses).
    revert F2. generalize (procs (entries rows) buses). intros ps F2. induction F2 as [|p out ps outs (L & PP) F2 IH]; cbn [map]; [constructor|]. constructor; [|exact IH].
    eapply received_ok; eauto. }
  destruct (oall_received F3) as (loc & OL & FG). rewrite OL. cbn [obind]. exists loc, g, tail. auto.
Qed.
End Reach.

(** ** One process: everything but the distribution computes *)
Lemma distribute_one local (rs : list (Z * (nat * str))) : rs <> [] ->
  distribute_buses Z.eqb [0] [HProc local (map fst rs) (map snd rs) []] =
  let l := flat_map (deliver Z.eqb local) rs in Ok [(map fst l, map snd l)].
Proof.
  intros N. unfold distribute_buses, distribute.
  assert (E : Forall (fun p : hproc Z (nat * str) => length (h_keys p) = length (h_vals p)) [HProc local (map fst rs) (map snd rs) []]).
  { repeat constructor. cbn. now rewrite !map_length. }
  assert (F : forallb (fun p => length (h_keys p) =? length (h_vals p)) [HProc local (map fst rs) (map snd rs) []] = true).
  { cbn. rewrite !map_length, Nat.eqb_refl. reflexivity. }
  rewrite F. rewrite (supplied_length E).
  assert (SU : supplied [HProc local (map fst rs) (map snd rs) []] = rs).
  { unfold supplied. cbn [flat_map h_keys h_vals]. rewrite app_nil_r. clear. induction rs as [|(a, b) rs IH]; [reflexivity|]. cbn [map combine fst snd]. now rewrite IH. }
  pose proof (@puts_all Z (nat * str) [0] _ E (Permutation_refl _)) as G. rewrite (supplied_length E) in G. rewrite SU in *.
  destruct (Nat.eqb_spec (length rs) 0) as [Z|_]; [destruct rs; [contradiction|discriminate]|]. rewrite G. cbn [obind length iota seq combine map oall fst snd].
  unfold collect. change (Z.to_nat (Z.of_nat 1)) with 1. cbn [iota seq map oall h_local]. change ((Z.of_nat 0 + Z.of_nat 0) mod Z.of_nat 1)%Z with 0%Z.
  unfold part. change (0 <? Z.of_nat 1 - 1)%Z with false. cbv iota. rewrite cut_0.
  change 0%Z with (Z.of_nat 0) at 1. rewrite get_part_slice by lia. cbn [obind concat app]. rewrite Nat.sub_0_r. cbn [skipn]. rewrite firstn_all, app_nil_r. reflexivity.
Qed.
Lemma read_one {D} (atof : str -> D) fuel local text t0 t nval nline hs rs g e :
  release t0 = Ok t -> pass1 fuel (Some text) = Some (Scan true nval nline hs) -> (0 <? nval)%Z && (0 <? nline) = true ->
  fill atof fuel (Z.to_nat nval) nline text = Some (Ok (rs, g)) -> rs <> [] ->
  received (let l := flat_map (deliver Z.eqb local) rs in (map fst l, map snd l)) = Ok e ->
  read_table atof fuel [local] [0] (Some text) t0 = Some (Ok (true, Table true (Some g) nval [e] hs)).
Proof.
  intros R P C F N E. unfold read_table. rewrite R, P. cbn [sc_found sc_nval sc_nline sc_headers]. rewrite C. cbn [length Nat.ltb Nat.leb andb].
  rewrite F. cbn [obind fst snd iota seq combine map Nat.eqb length]. rewrite distribute_one by exact N. cbn [obind map oall]. cbv zeta in E. cbv zeta. rewrite E. reflexivity.
Qed.
Lemma skip_forever fuel l : is_hash l = true -> skip_comments fuel (Build_fstate [] true) l = None.
Proof. intros H. induction fuel as [|k IH]; cbn [skip_comments]; rewrite H; [reflexivity|]. unfold getline. cbn [fs_eof]. exact IH. Qed.
Lemma headers_ub {D} (atof : str -> D) nval fuel buses ord heads blocks (t0 t1 : table D) :
  table_ok nval heads blocks -> heads <> [] -> 1 < length buses -> release t0 = Ok t1 -> length (file_of (table_lines heads blocks)) < fuel ->
  read_table atof fuel buses ord (Some (file_of (table_lines heads blocks))) t0 = Some UB.
Proof.
  intros (V & FH & FB & HB) NH NB REL HF. unfold read_table. rewrite REL.
  pose proof (file_length (table_lines heads blocks)) as LL. rewrite table_lines_length in LL.
  destruct blocks as [|b0 bs]; [contradiction|]. pose proof (Forall_inv FB) as (_ & R0 & V0). pose proof (Forall_inv_tail FB) as FB'.
  assert (TL : table_lines heads (b0 :: bs) = (map fst heads ++ b_line b0 :: flat_map (fun b => b_notes b ++ [b_line b]) bs)%list).
  { unfold table_lines. cbn [flat_map]. rewrite HB. reflexivity. }
  set (ls := flat_map (fun b => b_notes b ++ [b_line b])%list bs) in *.
  assert (Lls : length ls = length bs + length (flat_map b_notes bs)) by exact (table_lines_length [] bs).
  assert (FL : Forall (lacks lf) ls).
  { apply Forall_forall. intros x I. unfold ls in I. apply in_flat_map in I as (b & I & J). rewrite Forall_forall in FB'. destruct (FB' b I) as (C & R & _).
    apply in_app_or in J as [J|[<-|[]]]; [|exact (row_line_lf R)]. rewrite Forall_forall in C. now destruct (comment_hash (C x J)). }
  cbn [length flat_map] in *. rewrite HB in LL. cbn [app] in LL.
  rewrite TL in *.
  rewrite (@pass1_ok heads (b_row b0) (b_line b0) ls fuel FH R0) by (auto; lia). cbn [sc_found sc_nval sc_nline sc_headers].
  rewrite V0. destruct (Z.ltb_spec 0 (Z.of_nat nval)); [|lia]. destruct (Nat.ltb_spec 0 (S (length ls))); [|lia]. cbn [andb].
  destruct (Nat.ltb_spec 1 (length buses)); [|lia]. destruct heads as [|h hs]; [contradiction|]. reflexivity.
Qed.

(** Proofs for C61: the two passes over the file. *)
From Verif Require Import Prelude StrModel StrSpec StrProofs3 StreamModel StreamProps GAModel HdModel HdSpec HdProofs DCModel BtModel BtSpec BtProofs.
From Coq Require Import Ascii.
Open Scope nat_scope.
Ltac Zify.zify_post_hook ::= Z.to_euclidean_division_equations.

Definition st (s : str) : fstate := Build_fstate s false.
Lemma getline_line l s x : lacks lf l -> getline (st (l ++ lf :: s)) x = (true, l, st s).
Proof. intros H. unfold getline, st. cbn [fs_eof fs_rest]. now rewrite cut_line_app. Qed.
Lemma file_cons l ls t : (file_of (l :: ls) ++ t)%list = (l ++ lf :: (file_of ls ++ t))%list.
Proof. unfold file_of. cbn [flat_map]. rewrite <- !app_assoc. reflexivity. Qed.
Lemma file_cons0 l ls : file_of (l :: ls) = (l ++ lf :: file_of ls)%list.
Proof. unfold file_of. cbn [flat_map]. rewrite <- !app_assoc. reflexivity. Qed.
Lemma file_app a b : file_of (a ++ b) = (file_of a ++ file_of b)%list.
Proof. unfold file_of. apply flat_map_app. Qed.
Lemma file_length ls : length ls <= length (file_of ls).
Proof. induction ls as [|l ls IH]; [reflexivity|]. rewrite file_cons0, app_length. cbn [length]. lia. Qed.

(** ** First pass *)
Lemma headers1_ok hs : forall l0 rest fuel line h found, is_hash line = true -> trim (sp :: tl line) = h ->
  Forall (fun x => comment_text (fst x) (snd x)) hs -> lacks lf l0 -> is_hash l0 = false -> length hs < fuel ->
  headers1 fuel (st (file_of (map fst hs ++ [l0]) ++ rest)) line found = Some (h :: map snd hs, true, l0, st rest).
Proof.
  induction hs as [|(l, t) hs IH]; intros l0 rest fuel line h found Hl Ht F L0 H0 Hf; (destruct fuel as [|k]; [cbn in Hf; lia|]); cbn [headers1]; rewrite Hl, Ht.
  - cbn [map app]. rewrite file_cons. cbn [file_of flat_map app]. rewrite getline_line by assumption.
    destruct k; cbn [headers1]; rewrite H0; reflexivity.
  - inversion F as [|? ? C F']; subst. cbn [fst snd] in C. destruct (comment_hash (text_comment C)) as (H1 & L1).
    cbn [map app fst snd]. rewrite file_cons. rewrite getline_line by assumption.
    rewrite (IH l0 rest k l t true); auto; [now apply header_text|cbn in Hf; lia].
Qed.
Lemma count_lines_ok ls : forall fuel x, Forall (lacks lf) ls -> length ls < fuel -> count_lines fuel (st (file_of ls)) x = Some (length ls).
Proof.
  induction ls as [|l ls IH]; intros fuel x F H; (destruct fuel as [|k]; [cbn in H; lia|]); cbn [count_lines].
  - reflexivity.
  - inversion F; subst. rewrite file_cons0, getline_line by assumption. rewrite IH by (auto; cbn in H; lia). reflexivity.
Qed.
Lemma pass1_ok heads r l0 ls fuel : Forall (fun x => comment_text (fst x) (snd x)) heads -> row_line r l0 -> 0 < length (r_vals r) -> Forall (lacks lf) ls ->
  length heads + length ls + 1 < fuel ->
  pass1 fuel (Some (file_of (map fst heads ++ l0 :: ls))) = Some (Scan true (Z.of_nat (length (r_vals r))) (S (length ls)) (map snd heads)).
Proof.
  intros F R V L Hf. destruct (row_line_hash R) as (H0 & H1). pose proof (row_line_lf R) as L0. unfold pass1.
  assert (forall hs, (if (0 <? Z.of_nat (length (csplit (trim l0))) - 2)%Z
    then option_map (fun n => Scan true (Z.of_nat (length (csplit (trim l0))) - 2) (S n) hs) (count_lines fuel (st (file_of ls)) l0)
    else Some (Scan false (Z.of_nat (length (csplit (trim l0))) - 2) 0 hs)) = Some (Scan true (Z.of_nat (length (r_vals r))) (S (length ls)) hs)) as K.
  { intros hs. rewrite (row_line_count R). replace (Z.of_nat (S (S (length (r_vals r)))) - 2)%Z with (Z.of_nat (length (r_vals r))) by lia.
    destruct (Z.ltb_spec 0 (Z.of_nat (length (r_vals r)))); [|lia]. rewrite count_lines_ok by (auto; lia). reflexivity. }
  fold (st (file_of (map fst heads ++ l0 :: ls))).
  destruct heads as [|(l, t) hs]; cbn [map app fst snd].
  - rewrite file_cons0, getline_line by assumption. cbn [fst snd].
    destruct fuel as [|k]; [lia|]. unfold headers1 at 1. rewrite H1.
    assert (trim (trim l0) = trim l0) as TT.
    { destruct R as (_ & _ & _ & tag & _ & LL). destruct (line_core LL) as (a & core & b & E & A & B & (c & q & Ec & Hc) & (u & d & Ed & Hd) & _).
      assert (trim l0 = map blank_ws core) as T by (rewrite E; apply trim_core; eauto using white_space).
      rewrite T. rewrite <- (app_nil_l (map blank_ws core)) at 1. rewrite <- (app_nil_r (map blank_ws core)) at 1.
      rewrite trim_core; auto.
      - rewrite map_map. apply map_ext. intros x. unfold blank_ws. destruct (Ascii.eqb x lf || Ascii.eqb x tab || Ascii.eqb x cr) eqn:X; [reflexivity|now rewrite X].
      - rewrite Ec. cbn [map]. rewrite (nonspace_blank _ Hc). eauto.
      - rewrite Ed, map_app. cbn [map]. rewrite (nonspace_blank _ Hd). eauto. }
    rewrite TT.
    assert (forall k x y, lacks lf x -> count_lines k (st (file_of ls)) x = count_lines k (st (file_of ls)) y) as CL.
    { intros [|k'] x y _; [reflexivity|]. cbn [count_lines]. unfold getline, st. cbn [fs_eof fs_rest]. destruct (cut_line (file_of ls)) as [(a, b)|]; reflexivity. }
    rewrite (CL (S k) (trim l0) l0); [apply K|].
    destruct R as (_ & _ & _ & tag & _ & LL). destruct (line_core LL) as (a & core & b & E & A & B & HC & HD & _).
    rewrite E, trim_core by auto using white_space. intros I. apply in_map_iff in I as (x & Ex & _). unfold blank_ws in Ex.
    revert Ex. destruct (Ascii.eqb_spec x lf) as [X|N]; cbn [orb]; [discriminate|]. destruct (_ || _); [discriminate|]. exact N.
  - inversion F as [|? ? C F']; subst. cbn [fst snd] in C. destruct (comment_hash (text_comment C)) as (_ & L1). destruct (header_first C) as (HF & HT).
    rewrite file_cons0, getline_line by assumption.
    replace (file_of (map fst hs ++ l0 :: ls)) with (file_of (map fst hs ++ [l0]) ++ file_of ls)%list by (rewrite <- file_app, <- app_assoc; reflexivity).
    rewrite (@headers1_ok hs l0 (file_of ls) fuel (trim l) t true); auto; first [apply K | cbn in Hf; lia].
Qed.

(** ** Second pass *)
Lemma skip_ok notes : forall l rest fuel n1, is_hash n1 = true -> Forall comment notes -> lacks lf l -> is_hash l = false -> length notes < fuel ->
  skip_comments fuel (st (file_of (notes ++ [l]) ++ rest)) n1 = Some (l, st rest).
Proof.
  induction notes as [|n ns IH]; intros l rest fuel n1 H1 F L Hl Hf; (destruct fuel as [|k]; [cbn in Hf; lia|]); cbn [skip_comments]; rewrite H1.
  - cbn [app]. rewrite file_cons, getline_line by assumption. destruct k; cbn [skip_comments]; rewrite Hl; reflexivity.
  - inversion F as [|? ? C F']; subst. destruct (comment_hash C) as (Hn & Ln). cbn [app]. rewrite file_cons, getline_line by assumption.
    apply IH; auto. cbn in Hf; lia.
Qed.

Section Pass2.
Context {D : Type}.
Variable atof : str -> D.
Variables nval nline : nat.
Definition cells (r : row) : list (option D) := map (fun v => Some (atof v)) (r_vals r).
Definition entries (rs : list row) : list (Z * (nat * str)) :=
  map (fun p => (r_bus (snd p), (fst p, canonical (r_tag (snd p))))) (combine (iota (length rs)) rs).
Lemma combine_snoc {A B} (a : list A) (b : list B) x y : length a = length b -> combine (a ++ [x]) (b ++ [y]) = (combine a b ++ [(x, y)])%list.
Proof. revert b; induction a as [|p a IH]; intros [|q b] H; cbn in *; try discriminate; [reflexivity|]. rewrite IH by lia. reflexivity. Qed.
Lemma entries_snoc rs r : entries (rs ++ [r]) = (entries rs ++ [(r_bus r, (length rs, canonical (r_tag r)))])%list.
Proof.
  unfold entries. rewrite app_length. cbn [length]. replace (length rs + 1) with (S (length rs)) by lia. unfold iota. rewrite seq_S. cbn [Nat.add].
  rewrite combine_snoc by apply seq_length. rewrite map_app. reflexivity.
Qed.
(** After the rows [done]. *)
Definition inv (done : list row) (s : load D) : Prop :=
  let n := length done in let m := n - n mod num_slices in
  ld_rows s = entries done /\ ld_n s = n /\
  (exists tail, ld_ga s = (concat (map cells (firstn m done)) ++ tail)%list /\ length (ld_ga s) = nline * nval) /\
  (exists stale, ld_buf s = (map cells (skipn m done) ++ stale)%list) /\ length (ld_buf s) = num_slices /\ Forall (fun x => length x = nval) (ld_buf s).
Lemma cells_length r : length (r_vals r) = nval -> length (cells r) = nval.
Proof. intros H. unfold cells. now rewrite map_length. Qed.
Lemma concat_length (ls : list (list (option D))) : Forall (fun x => length x = nval) ls -> length (concat ls) = length ls * nval.
Proof. induction 1 as [|x l H F IH]; [reflexivity|]. cbn [concat length]. rewrite app_length, IH. lia. Qed.
Lemma upd_app {A} (a : list A) y b x : upd (a ++ y :: b) (length a) x = (a ++ x :: b)%list.
Proof. induction a as [|z a IH]; [reflexivity|]. cbn [app upd length]. now rewrite IH. Qed.
Lemma cells_forall rs : Forall (fun r => length (r_vals r) = nval) rs -> Forall (fun x : list (option D) => length x = nval) (map cells rs).
Proof. intros F. apply Forall_forall. intros x I. apply in_map_iff in I as (r & <- & I). rewrite Forall_forall in F. apply cells_length. auto. Qed.
Lemma put_cells_ok (a xs tail : list (option D)) (g : list (option D)) : g = (a ++ tail)%list -> length a + length xs <= length g ->
  exists tail', put_cells g (length a) xs = Ok (a ++ xs ++ tail')%list /\ length (a ++ xs ++ tail') = length g.
Proof.
  intros -> H. unfold put_cells. destruct (Nat.leb_spec (length a + length xs) (length (a ++ tail))); [|lia].
  rewrite firstn_app, firstn_all, Nat.sub_diag. cbn [firstn]. rewrite app_nil_r. eexists. split; [reflexivity|].
  rewrite !app_length, skipn_length, !app_length in *. lia.
Qed.
Lemma add_row_ok done r s : inv done s -> Forall (fun r => length (r_vals r) = nval) (done ++ [r]) -> length done < nline ->
  exists s', add_row nval (r_bus r, canonical (r_tag r), map atof (r_vals r)) s = Ok s' /\ inv (done ++ [r]) s'.
Proof.
  intros (R & N & (tail & G & GL) & (stale & B) & BL & BF) F Hn. cbv zeta in *. unfold num_slices in *.
  set (n := length done) in *. set (m := n - n mod 10) in *.
  assert (Hr : length (r_vals r) = nval) by (apply Forall_app in F as (_ & F); now inversion F).
  assert (Fd : Forall (fun r => length (r_vals r) = nval) done) by now apply Forall_app in F as (F & _).
  assert (Ls : length (skipn m done) = n mod 10) by (rewrite skipn_length; fold n; unfold m; lia).
  assert (Lf : length (firstn m done) = m) by (rewrite firstn_length; fold n; unfold m; lia).
  assert (exists y stale', stale = y :: stale') as (y & stale' & ->).
  { destruct stale as [|y stale']; [|eauto]. rewrite app_nil_r in B. rewrite B, map_length, Ls in BL. lia. }
  assert (U : upd (ld_buf s) (n mod 10) (map Some (map atof (r_vals r))) = (map cells (skipn m done ++ [r]) ++ stale')%list).
  { rewrite B, map_app, <- app_assoc. rewrite <- Ls, <- (map_length cells (skipn m done)), upd_app. cbn [map app]. unfold cells at 3. now rewrite map_map. }
  assert (SK : skipn m (done ++ [r]) = (skipn m done ++ [r])%list).
  { rewrite skipn_app. fold n. replace (m - n) with 0 by (unfold m; lia). reflexivity. }
  assert (FI : firstn m (done ++ [r]) = firstn m done).
  { rewrite firstn_app. fold n. replace (m - n) with 0 by (unfold m; lia). cbn [firstn]. now rewrite app_nil_r. }
  assert (BF' : Forall (fun x : list (option D) => length x = nval) (upd (ld_buf s) (n mod 10) (map Some (map atof (r_vals r))))).
  { rewrite U. apply Forall_app. split; [apply cells_forall|rewrite B in BF; apply Forall_app in BF as (_ & BF); now inversion BF].
    apply Forall_app in F as (_ & Fr). apply Forall_app. split; [|exact Fr]. rewrite Forall_forall in *. intros x I. apply Fd. rewrite <- (firstn_skipn m done). apply in_or_app. now right. }
  unfold add_row. rewrite N. unfold num_slices. fold n. fold m.
  destruct (Nat.eqb_spec (S n mod 10) 0) as [E|E].
  - assert (M9 : n mod 10 = 9) by lia.
    assert (stale' = []) as ->.
    { rewrite B, app_length, map_length, Ls, M9 in BL. cbn [length] in BL. destruct stale'; [reflexivity|cbn in BL; lia]. }
    rewrite app_nil_r in U.
    assert (La : length (concat (map cells (firstn m done))) = m * nval).
    { rewrite concat_length, map_length, Lf; [reflexivity|]. apply cells_forall. rewrite Forall_forall in *. intros x I. apply Fd. rewrite <- (firstn_skipn m done). apply in_or_app. now left. }
    rewrite U. destruct (@put_cells_ok (concat (map cells (firstn m done))) (concat (map cells (skipn m done ++ [r]))) tail (ld_ga s) G) as (tail' & P & PL).
    { rewrite La, concat_length by (rewrite U in BF'; exact BF'). rewrite map_length, app_length, Ls, M9, GL. cbn [length].
      replace (9 + 1) with 10 by reflexivity. rewrite <- Nat.mul_add_distr_r. apply Nat.mul_le_mono_r. unfold m. lia. }
    rewrite La in P. rewrite P. cbn [obind]. eexists. split; [reflexivity|]. unfold inv. cbv zeta. cbn [ld_rows ld_n ld_ga ld_buf]. rewrite app_length. cbn [length]. fold n.
    unfold num_slices. replace (n + 1) with (S n) by lia. rewrite E, Nat.sub_0_r.
    assert (X : firstn (S n) (done ++ [r]) = (done ++ [r])%list) by (apply firstn_all2; rewrite app_length; cbn; fold n; lia).
    split; [rewrite R, entries_snoc; reflexivity|]. split; [reflexivity|]. split; [|split; [|split]].
    + exists tail'. split; [|rewrite PL; exact GL]. rewrite X. rewrite <- SK. rewrite app_assoc, <- concat_app, <- map_app.
      rewrite <- FI, firstn_skipn. reflexivity.
    + exists (map cells (skipn m done ++ [r])). rewrite (@skipn_all2 _ (S n) (done ++ [r])) by (rewrite app_length; cbn; fold n; lia). reflexivity.
    + rewrite <- U, upd_length. exact BL.
    + rewrite <- U. exact BF'.
  - eexists. split; [reflexivity|]. unfold inv. cbv zeta. cbn [ld_rows ld_n ld_ga ld_buf]. rewrite app_length. cbn [length]. fold n.
    unfold num_slices. replace (n + 1) with (S n) by lia. replace (S n - S n mod 10) with m by (unfold m; lia).
    split; [rewrite R, entries_snoc; reflexivity|]. split; [reflexivity|]. split; [|split; [|split]].
    + exists tail. rewrite FI. auto.
    + exists stale'. rewrite U, SK. reflexivity.
    + now rewrite upd_length.
    + exact BF'.
Qed.

Lemma pass2_ok blocks : forall done fuel x s, inv done s ->
  Forall (fun b => Forall comment (b_notes b) /\ row_line (b_row b) (b_line b) /\ length (r_vals (b_row b)) = nval) blocks ->
  Forall (fun r => length (r_vals r) = nval) done -> length done + length blocks <= nline ->
  length (flat_map (fun b => b_notes b ++ [b_line b])%list blocks) < fuel ->
  exists s', pass2 atof fuel nval (st (file_of (flat_map (fun b => b_notes b ++ [b_line b])%list blocks))) x s = Some (Ok s') /\ inv (done ++ map b_row blocks) s'.
Proof.
  induction blocks as [|b bs IH]; intros done fuel x s I F Fd Hn Hf; (destruct fuel as [|k]; [cbn in Hf; lia|]); cbn [pass2].
  - exists s. cbn [flat_map map]. rewrite app_nil_r. split; [reflexivity|exact I].
  - inversion F as [|? ? (C & R & V) F']; subst. cbn [flat_map] in *. rewrite file_app. rewrite !app_length in Hf. cbn [length] in Hf.
    destruct (row_line_hash R) as (H0 & _). pose proof (row_line_lf R) as L0.
    assert (Fd' : Forall (fun r => length (r_vals r) = nval) (done ++ [b_row b])) by (apply Forall_app; split; auto).
    cbn [length] in Hn. destruct (@add_row_ok done (b_row b) s I Fd' ltac:(lia)) as (s' & A & I').
    destruct (IH (done ++ [b_row b])%list k (b_line b) s' I' F' Fd' ltac:(rewrite app_length; cbn; lia) ltac:(lia)) as (s2 & P & I2).
    exists s2. split; [|cbn [map]; rewrite <- app_assoc in I2; exact I2].
    assert (G : match obind (parse_row atof nval (b_line b)) (fun row => add_row nval row s) with
                | Ok s0 => pass2 atof k nval (st (file_of (flat_map (fun b => b_notes b ++ [b_line b])%list bs))) (b_line b) s0
                | Throw => Some Throw | UB => Some UB end = Some (Ok s2)).
    { rewrite (parse_row_ok atof R V). cbn [obind]. rewrite A. exact P. }
    destruct (b_notes b) as [|n1 ns].
    + cbn [app]. rewrite file_cons, getline_line by assumption. destruct k; cbn [skip_comments]; rewrite H0; exact G.
    + inversion C as [|? ? C1 C']; subst. destruct (comment_hash C1) as (H1 & L1). cbn [app]. rewrite file_cons, getline_line by assumption.
      cbn [length] in Hf. rewrite skip_ok by (auto; lia). exact G.
Qed.

Lemma last_put_ok rows s : inv rows s -> Forall (fun r => length (r_vals r) = nval) rows -> length rows <= nline ->
  (length rows mod num_slices = 0 \/ length rows mod num_slices + (nline - length rows) <= num_slices) ->
  exists g tail, last_put nval nline s = Ok g /\ g = (concat (map cells rows) ++ tail)%list.
Proof.
  intros (R & N & (tail & G & GL) & (stale & B) & BL & BF) F Hn Hc. cbv zeta in *. unfold num_slices in *.
  set (n := length rows) in *. set (m := n - n mod 10) in *. unfold last_put, num_slices. rewrite N. fold n. fold m.
  destruct (Nat.eqb_spec (n mod 10) 0) as [E|E].
  - exists (ld_ga s), tail. split; [reflexivity|]. rewrite G. unfold m. rewrite E, Nat.sub_0_r. unfold n. now rewrite firstn_all.
  - destruct Hc as [Hc|Hc]; [contradiction|].
    destruct (Nat.leb_spec nline m); [unfold m in *; lia|]. destruct (Nat.ltb_spec 10 (nline - m)); [unfold m in *; lia|]. cbn [orb].
    assert (Ls : length (skipn m rows) = n mod 10) by (rewrite skipn_length; fold n; unfold m; lia).
    assert (Lf : length (firstn m rows) = m) by (rewrite firstn_length; fold n; unfold m; lia).
    assert (La : length (concat (map cells (firstn m rows))) = m * nval).
    { rewrite concat_length, map_length, Lf; [reflexivity|]. apply cells_forall. rewrite Forall_forall in *. intros x I. apply F. rewrite <- (firstn_skipn m rows). apply in_or_app. now left. }
    assert (Fk : Forall (fun x : list (option D) => length x = nval) (firstn (nline - m) (ld_buf s))).
    { rewrite Forall_forall in *. intros x I. apply BF. rewrite <- (firstn_skipn (nline - m) (ld_buf s)). apply in_or_app. now left. }
    destruct (@put_cells_ok (concat (map cells (firstn m rows))) (concat (firstn (nline - m) (ld_buf s))) tail (ld_ga s) G) as (tail' & P & _).
    { rewrite La, concat_length by exact Fk. rewrite firstn_length, BL, Nat.min_l, GL, <- Nat.mul_add_distr_r by lia. apply Nat.mul_le_mono_r. lia. }
    rewrite La in P. rewrite P. eexists _, _. split; [reflexivity|].
    rewrite B, firstn_app, map_length, Ls. rewrite (@firstn_all2 _ (nline - m) (map cells (skipn m rows))) by (rewrite map_length, Ls; unfold m in *; lia).
    rewrite concat_app, <- app_assoc, app_assoc, <- concat_app, <- map_app, firstn_skipn. reflexivity.
Qed.
End Pass2.

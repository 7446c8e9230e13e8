From Verif Require Import Prelude GAModel GAProofs ParModel ParSpec ParProofs ParProofs2 ParProofs3 NetModel NetSpec NetProofs NetProofs2 NetProofs3 NetProofs4 IdxModel IdxSpec IdxProofs.

Section Nets.
  Context {B R : Type}.
  Notation bus := (bus B). Notation branch := (branch R). Notation net := (net B R).

  Lemma all_buses_concat (nets : list net) : all_buses nets = concat (map (@n_buses B R) nets).
  Proof. unfold all_buses. now rewrite flat_map_concat_map. Qed.
  Lemma all_branches_concat (nets : list net) : all_branches nets = concat (map (@n_branches B R) nets).
  Proof. unfold all_branches. now rewrite flat_map_concat_map. Qed.

  Lemma reset_nets flag (nets : list net) ob orr :
    0 < length nets -> orders_ok (length nets) ob -> orders_ok (length nets) orr -> owners_ok nets ->
    exists nets', reset_global_indices flag nets ob orr = Ok nets' /\ length nets' = length nets /\
      (forall p, same_but_indices (at_rank nets p) (at_rank nets' p)) /\
      ghosts_agree nets' /\
      (flag = true ->
         map (@b_glob B) (active_buses nets') = map Z.of_nat (iota (length (active_buses nets))) /\
         map (@r_glob R) (active_branches nets') = map Z.of_nat (iota (length (active_branches nets)))) /\
      (flag = false -> active_buses nets' = active_buses nets /\ active_branches nets' = active_branches nets).
  Proof.
    intros HP Hob Hor (N1 & I1 & N2 & I2 & K1 & K2). unfold reset_global_indices.
    unfold active_buses, active_branches in *. rewrite all_buses_concat, all_branches_concat in *.
    rewrite Forall_forall in K1, K2.
    destruct (@reset_spec bus Z (@b_active B) (@b_orig B) (@b_glob B) (@set_bglob B) Z.eqb hash_int
               (fun P k => Z.to_nat (k mod Z.of_nat P)) Z.eqb_spec) with (flag := flag) (w := map (@n_buses B R) nets) (o := ob)
      as (bs & Eb & Lb & Sb & Tb & Fb & Gb); auto; rewrite ?map_length; auto.
    { intros x Hx. apply hash_int_hashable; auto. }
    destruct (@reset_spec branch (Z * Z) (@r_active R) (fun r => (r_o1 r, r_o2 r)) (@r_glob R) (@set_rglob R) pair_eqb hash_pair
               (fun P k => Z.to_nat ((snd k * 1009 + fst k) mod Z.of_nat P)) pair_eqb_spec) with (flag := flag) (w := map (@n_branches B R) nets) (o := orr)
      as (rs & Er & Lr & Sr & Tr & Fr & Gr); auto; rewrite ?map_length; auto.
    { intros x Hx. apply hash_pair_hashable; auto. }
    rewrite map_length in Lb, Lr.
    rewrite Eb. cbn [obind]. rewrite Er. cbn [obind]. eexists. split; [reflexivity|].
    set (nets' := map _ (iota (length nets))).
    assert (L : length nets' = length nets) by (unfold nets', iota; now rewrite map_length, seq_length).
    assert (EB : map (@n_buses B R) nets' = bs).
    { unfold nets'. rewrite map_map. simpl. rewrite <- Lb. rewrite (map_nth_iota (fun x => x) bs []). apply map_id. }
    assert (ER : map (@n_branches B R) nets' = rs).
    { unfold nets'. rewrite map_map. simpl. rewrite <- Lr. rewrite (map_nth_iota (fun x => x) rs []). apply map_id. }
    assert (EBn : forall p, n_buses (at_rank nets' p) = nth p bs []).
    { intros p. rewrite <- EB. unfold at_rank. destruct (le_lt_dec (length nets') p) as [H|H].
      - rewrite !nth_overflow by (rewrite ?map_length; auto). reflexivity.
      - symmetry. now apply nth_map_in. }
    assert (ERn : forall p, n_branches (at_rank nets' p) = nth p rs []).
    { intros p. rewrite <- ER. unfold at_rank. destruct (le_lt_dec (length nets') p) as [H|H].
      - rewrite !nth_overflow by (rewrite ?map_length; auto). reflexivity.
      - symmetry. now apply nth_map_in. }
    assert (EBo : forall p, n_buses (at_rank nets p) = nth p (map (@n_buses B R) nets) []).
    { intros p. unfold at_rank. destruct (le_lt_dec (length nets) p) as [H|H].
      - rewrite !nth_overflow by (rewrite ?map_length; auto). reflexivity.
      - symmetry. now apply nth_map_in. }
    assert (ERo : forall p, n_branches (at_rank nets p) = nth p (map (@n_branches B R) nets) []).
    { intros p. unfold at_rank. destruct (le_lt_dec (length nets) p) as [H|H].
      - rewrite !nth_overflow by (rewrite ?map_length; auto). reflexivity.
      - symmetry. now apply nth_map_in. }
    split; [exact L|]. rewrite !all_buses_concat, !all_branches_concat, EB, ER. split; [|split; [|split]].
    - intros p. unfold same_but_indices. rewrite EBn, ERn, EBo, ERo. split; [symmetry; apply Sb|]. split; [symmetry; apply Sr|].
      unfold at_rank, nets'. destruct (le_lt_dec (length nets) p) as [H|H].
      + rewrite !nth_overflow; auto. unfold iota. now rewrite map_length, seq_length.
      + rewrite nth_map_iota by auto. simpl. auto.
    - unfold ghosts_agree, active_buses, active_branches. rewrite !all_buses_concat, !all_branches_concat, EB, ER. split; auto.
      intros r a Hr Ha E1 E2. apply Gr; auto. congruence.
    - auto.
    - auto.
  Qed.

  (** * MatVec indices *)
  Lemma active_total (nets : list net) : sumn (map (active_count (@b_active B)) (map (@n_buses B R) nets)) = length (active_buses nets).
  Proof. unfold active_buses. rewrite all_buses_concat, filter_concat', <- sumn_length_concat. now rewrite !map_map. Qed.

  Lemma concat_combine_tile (w : list (list bus)) :
    concat (new_indices w) = combine (map (@b_glob B) (filter (@b_active B) (concat w)))
                                     (map Z.of_nat (iota (sumn (map (active_count (@b_active B)) w)))).
  Proof.
    unfold new_indices. set (counts := map (active_count (@b_active B)) w).
    rewrite concat_map_flat. unfold iota at 2.
    rewrite (flat_map_ext_in _ (fun p => combine (map (@b_glob B) (filter (@b_active B) (nth p w []))) (map Z.of_nat (seq (0 + offset counts p) (nth p counts 0))))).
    2:{ intros p _. f_equal. unfold iota. rewrite <- map_map. f_equal. clear. generalize (nth p counts 0) as n. simpl. generalize (offset counts p) as s.
        intros s n. revert s. induction n as [|n IH]; intros s; simpl; auto. rewrite Nat.add_0_r. f_equal. rewrite <- seq_shift, map_map.
        rewrite <- (IH (S s)). apply map_ext. intros; lia. }
    unfold iota. unfold counts. clear counts.
    assert (G : forall pre s, flat_map (fun p => combine (map (@b_glob B) (filter (@b_active B) (nth p (pre ++ w)%list [])))
        (map Z.of_nat (seq (s + offset (map (active_count (@b_active B)) (pre ++ w)%list) p) (nth p (map (active_count (@b_active B)) (pre ++ w)%list) 0))))
        (seq (length pre) (length w)) =
      combine (map (@b_glob B) (filter (@b_active B) (concat w)))
        (map Z.of_nat (seq (s + sumn (map (active_count (@b_active B)) pre)) (sumn (map (active_count (@b_active B)) w))))).
    { induction w as [|xs w' IH]; intros pre s; [reflexivity|]. cbn [length seq flat_map concat map sumn fold_right].
      change (sumn (active_count (@b_active B) xs :: map (active_count (@b_active B)) w')) with (active_count (@b_active B) xs + sumn (map (active_count (@b_active B)) w')).
      rewrite filter_app, (map_app (@b_glob B)), seq_app, (map_app Z.of_nat), combine_app_eq.
      2:{ rewrite !map_length, seq_length. reflexivity. }
      f_equal.
      - rewrite app_nth2, Nat.sub_diag by lia. simpl nth at 1. f_equal. f_equal. f_equal.
        + f_equal. unfold offset. rewrite map_app. rewrite firstn_app, map_length, Nat.sub_diag. simpl. rewrite app_nil_r.
          rewrite firstn_all2; auto. now rewrite map_length.
        + rewrite map_app, app_nth2; rewrite map_length; auto. now rewrite Nat.sub_diag.
      - specialize (IH (pre ++ [xs])%list s). rewrite <- app_assoc in IH. simpl in IH. rewrite app_length in IH. simpl in IH.
        rewrite Nat.add_1_r in IH. rewrite IH. f_equal. f_equal. rewrite map_app, sumn_app. simpl. f_equal. lia. }
    exact (G [] 0).
  Qed.
End Nets.

(** * Gathering from a full array *)
Lemma zgather_full {A} (arr : list A) (d : A) idx : (forall i, In i idx -> (0 <= i < Z.of_nat (length arr))%Z) ->
  zgather (map Some arr) idx = Ok (map (fun i => nth (Z.to_nat i) arr d) idx).
Proof.
  intros H. unfold zgather.
  replace (existsb (fun i => i <? 0)%Z idx) with false.
  2:{ symmetry. apply Bool.not_true_is_false. intros E. apply existsb_exists in E as (i & Hi & E). apply H in Hi. lia. }
  rewrite ga_gather_full with (d := d); [now rewrite map_map|].
  intros i Hi. apply in_map_iff in Hi as (z & <- & Hz). apply H in Hz. lia.
Qed.

Lemma scatter_mono {A} ws : forall (g g' h : garray A), length g' = length g ->
  (forall i v, nth_error g i = Some (Some v) -> nth_error g' i = Some (Some v)) ->
  ga_puts g ws = Ok h -> exists h', ga_puts g' ws = Ok h' /\ length h' = length h /\
    (forall i v, nth_error h i = Some (Some v) -> nth_error h' i = Some (Some v)).
Proof.
  induction ws as [|[lo xs] ws IH]; intros g g' h L H E; simpl in *.
  - injection E as <-. exists g'. auto.
  - unfold ga_put in *. rewrite L. destruct (lo + length xs <=? length g) eqn:El; cbn [obind] in *; [|discriminate].
    apply Nat.leb_le in El. eapply IH; [| |exact E].
    + rewrite !app_length, !firstn_length, !skipn_length. lia.
    + intros i v. destruct (le_lt_dec lo i) as [Hi|Hi].
      * rewrite !(nth_error_app2 (firstn _ _)) by (rewrite firstn_length; lia). rewrite !firstn_length, !Nat.min_l by lia.
        destruct (le_lt_dec (length xs) (i - lo)) as [Hj|Hj].
        -- rewrite !nth_error_app2 by (rewrite map_length; lia). rewrite !nth_error_skipn'. apply H.
        -- rewrite !nth_error_app1 by (rewrite map_length; lia). auto.
      * rewrite !nth_error_app1 by (rewrite firstn_length; lia). rewrite !nth_error_firstn' by lia. apply H.
Qed.

Lemma full_scatter_zero {A} (z : A) (xs ord : list (Z * A)) N :
  Permutation (map fst xs) (map Z.of_nat (iota N)) -> Permutation ord xs ->
  exists arr, zscatter (repeat (Some z) N) ord = Ok (map Some arr) /\ length arr = N /\
    (forall i v, In (i, v) xs -> nth_error arr (Z.to_nat i) = Some v).
Proof.
  intros HP HO. destruct (@full_scatter _ xs ord N HP HO) as (arr & E & L & V & _). exists arr. split; [|auto].
  unfold zscatter in *. destruct (existsb _ _); [discriminate|].
  unfold ga_scatter in *. eapply scatter_mono with (g' := repeat (Some z) N) in E.
  - destruct E as (h' & -> & L' & M). f_equal. apply nth_error_ext. intros i.
    destruct (nth_error (map Some arr) i) as [[v|]|] eqn:Ei.
    + now apply M.
    + rewrite nth_error_map in Ei. destruct (nth_error arr i); discriminate.
    + apply nth_error_None. rewrite L'. now apply nth_error_None.
  - now rewrite repeat_length, ga_new_length.
  - intros i v Hi. unfold ga_new in Hi. apply nth_error_In in Hi. apply repeat_spec in Hi. discriminate.
Qed.

Lemma map_combine_fun {X Y} (f : X -> Y) (a : list X) (b : list Y) : length a = length b ->
  (forall x y, In (x, y) (combine a b) -> f x = y) -> map f a = b.
Proof. revert b; induction a as [|x a IH]; intros [|y b] L H; simpl in *; try discriminate; auto. f_equal; auto. Qed.

Lemma Forall2_imp {X Y} (P Q : X -> Y -> Prop) a b : (forall x y, P x y -> Q x y) -> Forall2 P a b -> Forall2 Q a b.
Proof. intros H. induction 1; constructor; auto. Qed.

(** * Ghost exchange *)
Section Exchange.
  Context {T : Type}.
  Notation cell := (cell T).

  Lemma xc_total_spec (w : list (list cell)) : xc_total w = length (filter c_act (concat w)).
  Proof. unfold xc_total. rewrite filter_concat', <- sumn_length_concat, map_map. reflexivity. Qed.

  Lemma fill_spec (val : Z -> T) (cs : list cell) :
    Forall2 (fun c c' => c_act c' = c_act c /\ c_idx c' = c_idx c /\ (c_act c = true -> c_buf c' = c_buf c) /\
                         (c_act c = false -> c_buf c' = val (c_idx c)))
            cs (fill cs (map val (map c_idx (filter (fun c => negb (c_act c)) cs)))).
  Proof.
    induction cs as [|c cs IH]; simpl; [constructor|]. destruct (c_act c) eqn:E; simpl; constructor; auto.
    - repeat split; auto. congruence.
    - unfold c_act, c_idx, c_buf in *. simpl. repeat split; auto. congruence.
  Qed.

  Lemma oall_map_some {X Y} (f : X -> outcome Y) (l : list X) (Q : X -> Y -> Prop) :
    (forall x, In x l -> exists y, f x = Ok y /\ Q x y) -> exists ys, oall (map f l) = Ok ys /\ Forall2 Q l ys.
  Proof.
    induction l as [|x l IH]; simpl; intros H; [exists []; auto|].
    destruct (H x) as (y & E & Hq); auto. rewrite E. destruct IH as (ys & -> & F); auto. cbn [obind]. exists (y :: ys). auto.
  Qed.

  Lemma init_ok (w : list (list cell)) : exchangeable w -> init_bus_update w = Ok (xc_total w).
  Proof.
    intros [HP HF]. unfold init_bus_update. rewrite Forall_forall in HF.
    replace (forallb _ _) with true; auto. symmetry. apply forallb_forall. intros c Hc. apply HF in Hc.
    rewrite HP in Hc. apply in_map_iff in Hc as (k & <- & Hk). apply in_iota in Hk. rewrite xc_total_spec. lia.
  Qed.

  Lemma update_ok (w : list (list cell)) ord : exchangeable w -> Permutation ord (sent w) ->
    exists w', update (length (filter c_act (concat w))) w ord = Ok w' /\ updated w w'.
  Proof.
    intros [HP HF] HO. rewrite Forall_forall in HF.
    unfold update.
    destruct (@full_scatter _ (sent w) ord (length (filter c_act (concat w)))) as (arr & E & L & V & _); auto.
    { unfold sent. now rewrite map_map. }
    rewrite E. cbn [obind]. unfold updated. apply oall_map_some. intros cs Hcs.
    assert (Hr : forall c, In c cs -> (0 <= c_idx c < Z.of_nat (length arr))%Z).
    { intros c Hc. assert (Hi : In c (concat w)) by (apply in_concat; eauto). apply HF in Hi. rewrite HP in Hi.
      apply in_map_iff in Hi as (k & <- & Hk). apply in_iota in Hk. lia. }
    destruct arr as [|d arr'] eqn:Ea.
    - simpl in Hr. destruct cs as [|c cs]; [|exfalso; specialize (Hr c (or_introl eq_refl)); lia].
      exists []. split; auto.
    - rewrite <- Ea in *. rewrite zgather_full with (d := d).
      2:{ intros i Hi. apply in_map_iff in Hi as (c & <- & Hc). apply filter_In in Hc as [Hc _]. auto. }
      cbn [obind]. eexists. split; [reflexivity|].
      eapply Forall2_imp; [|apply (fill_spec (fun i => nth (Z.to_nat i) arr d))]. intros c c' (H1 & H2 & H3 & H4). repeat split; auto.
      intros Hc a Ha Hact Hi. rewrite (H4 Hc), <- Hi.
      assert (Hn : nth_error arr (Z.to_nat (c_idx a)) = Some (c_buf a)).
      { apply V. unfold sent. apply in_map_iff. exists a. split; auto. apply filter_In; auto. }
      now apply nth_error_nth with (d := d) in Hn.
  Qed.

  Lemma exchange_ok (w : list (list cell)) ord : exchangeable w -> Permutation ord (sent w) ->
    exists w', bus_exchange w ord = Ok w' /\ updated w w'.
  Proof. intros Hx HO. unfold bus_exchange. rewrite (init_ok Hx), xc_total_spec. now apply update_ok. Qed.

  Lemma exchange_throws (w : list (list cell)) ord c : In c (concat w) ->
    ~ (0 <= c_idx c < Z.of_nat (length (filter c_act (concat w))))%Z -> bus_exchange w ord = Throw.
  Proof.
    intros Hc Hn. unfold bus_exchange, init_bus_update. replace (forallb _ _) with false; auto.
    symmetry. apply Bool.not_true_is_false. intros E. rewrite forallb_forall in E. apply E in Hc. rewrite xc_total_spec in Hc. lia.
  Qed.

  Lemma branch_exchange_ub (w : list (list cell)) ord : 1 < length w -> branch_exchange w ord = UB.
  Proof. intros H. unfold branch_exchange, init_branch_update. apply Nat.ltb_lt in H. now rewrite H. Qed.
  Lemma branch_exchange_one (w : list (list cell)) ord : length w <= 1 -> branch_exchange w ord = bus_exchange w ord.
  Proof. intros H. unfold branch_exchange, init_branch_update. apply Nat.ltb_ge in H. now rewrite H. Qed.
End Exchange.

(** * MatVec indices *)
Section MatVec.
  Context {B R : Type}.
  Notation bus := (bus B). Notation branch := (branch R). Notation net := (net B R).

  Lemma set_components_spec (nets : list net) ord : indexed nets ->
    (forall n r, In n nets -> In r (n_branches n) ->
       (0 <= r_l1 r < Z.of_nat (length (n_buses n)) /\ 0 <= r_l2 r < Z.of_nat (length (n_buses n)))%Z) ->
    Permutation ord (concat (new_indices (map (@n_buses B R) nets))) ->
    exists (idx : Z -> Z) res, set_components nets ord = Ok res /\
      map idx (map (@b_glob B) (active_buses nets)) = map Z.of_nat (iota (length (active_buses nets))) /\
      Forall2 (fun n mv => fst mv = map (fun b => idx (b_glob b)) (n_buses n) /\
                           Forall2 (fun r ab => zget (fst mv) (r_l1 r) = Some (fst ab) /\ zget (fst mv) (r_l2 r) = Some (snd ab))
                                   (n_branches n) (snd mv)) nets res.
  Proof.
    intros [HP HI] HL HO. rewrite concat_combine_tile in HO.
    assert (EN : sumn (map (active_count (@b_active B)) (map (@n_buses B R) nets)) = length (active_buses nets)) by apply active_total.
    rewrite EN in HO.
    assert (EA : filter (@b_active B) (concat (map (@n_buses B R) nets)) = active_buses nets) by (unfold active_buses; now rewrite all_buses_concat).
    rewrite EA in HO. set (pairs := combine _ _) in HO.
    assert (Ef : map fst pairs = map (@b_glob B) (active_buses nets)).
    { unfold pairs. apply map_fst_combine'. unfold iota. now rewrite !map_length, seq_length. }
    destruct (@full_scatter_zero _ 0%Z pairs ord (length (active_buses nets))) as (arr & E & L & V); auto.
    { now rewrite Ef. }
    set (idx := fun z => nth (Z.to_nat z) arr 0%Z).
    assert (Hr : forall b, In b (all_buses nets) -> (0 <= b_glob b < Z.of_nat (length arr))%Z).
    { intros b Hb. apply HI in Hb. rewrite HP in Hb. apply in_map_iff in Hb as (k & <- & Hk). apply in_iota in Hk. lia. }
    assert (EB : bus_indices (map (@n_buses B R) nets) ord = Ok (map (fun n => map (fun b => idx (b_glob b)) (n_buses n)) nets)).
    { unfold bus_indices. rewrite EN, E. cbn [obind]. rewrite !map_map. apply oall_map_Ok. intros n Hn.
      rewrite zgather_full with (d := 0%Z); [now rewrite map_map|].
      intros i Hi. apply in_map_iff in Hi as (b & <- & Hb). apply Hr. unfold all_buses. apply in_flat_map. eauto. }
    exists idx. unfold set_components. rewrite EB. cbn [obind].
    set (mvs := map _ nets).
    assert (Hmv : forall p, p < length nets -> nth p mvs [] = map (fun b => idx (b_glob b)) (n_buses (nth_net nets p))).
    { intros p Hp. unfold mvs, nth_net. erewrite nth_map_in by auto. reflexivity. }
    destruct (@oall_map_some nat (list Z * list (Z * Z)) (fun p => obind (branch_indices (n_branches (nth_net nets p)) (nth p mvs []))
                              (fun bi => Ok (nth p mvs [], bi))) (iota (length nets))
       (fun p mv => fst mv = map (fun b => idx (b_glob b)) (n_buses (nth_net nets p)) /\
                           Forall2 (fun r ab => zget (fst mv) (r_l1 r) = Some (fst ab) /\ zget (fst mv) (r_l2 r) = Some (snd ab))
                                   (n_branches (nth_net nets p)) (snd mv))) as (res & Er & F).
    { intros p Hp. apply in_iota in Hp. rewrite (Hmv p Hp).
      assert (Hn : In (nth_net nets p) nets) by (apply nth_In; auto).
      set (mv := map (fun b => idx (b_glob b)) (n_buses (nth_net nets p))).
      destruct (@oall_map_some branch (Z * Z) (fun r => match zget mv (r_l1 r), zget mv (r_l2 r) with
                        | Some a, Some b => Ok (a, b) | _, _ => UB end) (n_branches (nth_net nets p))
        (fun r ab => zget mv (r_l1 r) = Some (fst ab) /\ zget mv (r_l2 r) = Some (snd ab))) as (bi & Eb & Fb).
      { intros r Hrr. destruct (HL _ _ Hn Hrr) as [H1 H2].
        assert (Z1 : exists a, zget mv (r_l1 r) = Some a).
        { unfold zget. destruct (Z.ltb_spec (r_l1 r) 0); [lia|].
          destruct (nth_error mv (Z.to_nat (r_l1 r))) eqn:En; eauto. apply nth_error_None in En. unfold mv in En. rewrite map_length in En. lia. }
        assert (Z2 : exists a, zget mv (r_l2 r) = Some a).
        { unfold zget. destruct (Z.ltb_spec (r_l2 r) 0); [lia|].
          destruct (nth_error mv (Z.to_nat (r_l2 r))) eqn:En; eauto. apply nth_error_None in En. unfold mv in En. rewrite map_length in En. lia. }
        destruct Z1 as (a & ->), Z2 as (b & ->). exists (a, b). auto. }
      exists (mv, bi). unfold branch_indices. rewrite Eb. cbn [obind]. auto. }
    exists res. split; [exact Er|]. split.
    - apply map_combine_fun; [unfold iota; now rewrite !map_length, seq_length|].
      intros x y Hxy. apply V in Hxy. now apply nth_error_nth with (d := 0%Z) in Hxy.
    - clear - F. assert (G : forall (l : list net) pre, nets = (pre ++ l)%list -> forall res,
        Forall2 (fun p mv => fst mv = map (fun b => idx (b_glob b)) (n_buses (nth_net nets p)) /\
                           Forall2 (fun r ab => zget (fst mv) (r_l1 r) = Some (fst ab) /\ zget (fst mv) (r_l2 r) = Some (snd ab))
                                   (n_branches (nth_net nets p)) (snd mv)) (seq (length pre) (length l)) res ->
        Forall2 (fun n mv => fst mv = map (fun b => idx (b_glob b)) (n_buses n) /\
                           Forall2 (fun r ab => zget (fst mv) (r_l1 r) = Some (fst ab) /\ zget (fst mv) (r_l2 r) = Some (snd ab))
                                   (n_branches n) (snd mv)) l res).
      { induction l as [|n l IH]; intros pre En res0 H; simpl in *; inversion H; subst; constructor.
        - assert (nth_net (pre ++ n :: l)%list (length pre) = n) as En by (unfold nth_net; rewrite app_nth2, Nat.sub_diag; auto).
          rewrite En in *. auto.
        - apply (IH (pre ++ [n])%list); [now rewrite <- app_assoc|]. rewrite app_length. simpl. now rewrite Nat.add_1_r. }
      apply (G nets [] eq_refl res F).
  Qed.

  (** A partitioned network meets the hypotheses above. *)
  Lemma partitioned_indexed (nets nets' : list net) part : fresh nets -> answer_ok nets part -> length nets' = length nets ->
    (forall p, p < length nets -> holds nets part p (at_rank nets' p)) ->
    indexed nets' /\
    (forall n r, In n nets' -> In r (n_branches n) ->
       (0 <= r_l1 r < Z.of_nat (length (n_buses n)) /\ 0 <= r_l2 r < Z.of_nat (length (n_buses n)))%Z).
  Proof.
    intros Hf Ha L H. destruct (@active_once B R nets nets' part Hf Ha L H) as [HB _].
    assert (HG : Permutation (map (@b_glob B) (active_buses nets')) (map (@b_glob B) (all_buses nets))).
    { apply Permutation_map with (f := fun c => snd (fst (fst c))) in HB. rewrite !map_map in HB. exact HB. }
    assert (HN : length (active_buses nets') = length (all_buses nets)).
    { apply Permutation_length in HB. now rewrite !map_length in HB. }
    destruct Hf as (_ & _ & _ & HI & _).
    assert (Hn : forall n, In n nets' -> exists p, p < length nets /\ at_rank nets' p = n).
    { intros n Hn. apply In_nth with (d := Net [] [] (-1)%Z [] []) in Hn as (p & Hp & E). exists p. split; [lia|exact E]. }
    split; [split|].
    - rewrite HG, HN. exact HI.
    - intros b Hb. apply in_flat_map in Hb as (n & Hin & Hb). destruct (b_active b) eqn:Eb.
      + apply in_map. apply filter_In. split; auto. unfold all_buses. apply in_flat_map. eauto.
      + destruct (Hn n Hin) as (p & Hp & <-). destruct (H p Hp) as (_ & _ & _ & Hgh & _).
        assert (Hc : In (bus_core b) (map bus_core (filter (fun b => negb (b_active b)) (n_buses (at_rank nets' p))))).
        { apply in_map. apply filter_In. now rewrite Eb. }
        apply Hgh in Hc as (b0 & Hb0 & Ec & _). rewrite HG.
        replace (b_glob b) with (b_glob b0) by (unfold bus_core in Ec; congruence). now apply in_map.
    - intros n r Hin Hr. destruct (Hn n Hin) as (p & Hp & <-). destruct (H p Hp) as (_ & _ & _ & _ & He & _).
      destruct (He r Hr) as (b1 & b2 & Z1 & _ & _ & Z2 & _).
      assert (G : forall (l : list bus) i b, zget l i = Some b -> (0 <= i < Z.of_nat (length l))%Z).
      { intros l i b. unfold zget. destruct (Z.ltb_spec i 0); [discriminate|]. intros Hx.
        assert (Hs : nth_error l (Z.to_nat i) <> None) by congruence. apply nth_error_Some in Hs. lia. }
      split; eapply G; eauto.
  Qed.
End MatVec.

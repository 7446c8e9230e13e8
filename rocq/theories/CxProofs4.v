(** Programs of matrix and vector calls: the real library computes the complex result. *)
From Coq Require Import Reals Lra Sorted.
From Coquelicot Require Import Complex.
From Verif Require Import Prelude CxModel CxSpec CxProofs CxProofs2 CxProofs3.
Local Open Scope nat_scope.

(** * Lists of objects *)
Lemma F2_nth {A B} (P : A -> B -> Prop) l m i b : Forall2 P l m -> nth_error m i = Some b ->
  exists a, nth_error l i = Some a /\ P a b.
Proof.
  intros H. revert i. induction H; intros [|i] E; cbn in *; try discriminate.
  - inversion E; subst. eauto.
  - eauto.
Qed.
Lemma F2_upd {A B} (P : A -> B -> Prop) l m i a b : Forall2 P l m -> P a b -> Forall2 P (upd l i a) (upd m i b).
Proof. intros H Hp. revert i. induction H; intros [|i]; cbn; constructor; auto. Qed.
Lemma F2_snoc {A B} (P : A -> B -> Prop) l m a b : Forall2 P l m -> P a b -> Forall2 P (l ++ [a]) (m ++ [b]).
Proof. intros H Hp. apply Forall2_app; auto. Qed.

Definition goodA (M : rmat) (A : amat) : Prop := good M (a_m A) (a_n A) (a_f A).
Definition rel (s : rstate) (a : astate) : Prop := Forall2 goodA (fst s) (fst a) /\ Forall2 repv (snd s) (snd a).

Lemma good_sees M A : goodA M A -> sees_m M A.
Proof.
  intros H. pose proof H as (HR & _). split; [apply (mat_rows_ok HR)|]. split; [apply (mat_cols_ok HR)|].
  split; [intros; apply (get_element_ok H); auto|]. split.
  - intros rows Hr. apply (get_row_block_ok H Hr).
  - intros owned Ho. apply (m_norm2_ok owned H Ho).
Qed.

Lemma repv_sees v z : repv v z -> sees_v v z.
Proof.
  intros H. split; [apply vec_size_ok; auto|]. split; [apply get_all_ok; auto|]. split.
  { intros p _. split; [apply vec_lo_ok|apply vec_hi_ok]; auto. }
  split.
  { intros p i _ Ho. rewrite (@v_get_ok v z p [i] H); auto. }
  split; [apply norm1_ok; auto|]. split; [apply norm2_ok; auto|]. apply norm_inf_ok; auto.
Qed.

Lemma rel_sees s a : rel s a -> sees s a.
Proof.
  intros [H1 H2]. split.
  - clear H2. induction H1; constructor; auto. apply good_sees; auto.
  - clear H1. induction H2; constructor; auto. apply repv_sees; auto.
Qed.

(** * One command *)
Lemma step_m s a r k kr a' : rel s a -> with_m a r k = Some a' ->
  (forall M A B, goodA M A -> k A = Some B -> exists M', kr M = Ok M' /\ goodA M' B) ->
  exists s', rwith_m s r kr = Ok s' /\ rel s' a'.
Proof.
  intros [H1 H2] Hw Hk. unfold with_m in Hw. destruct (nth_error (fst a) r) as [A|] eqn:E; [|discriminate].
  destruct (k A) as [B|] eqn:EB; [|discriminate]. inversion Hw; subst a'; clear Hw.
  destruct (F2_nth _ H1 E) as (M & EM & GM). destruct (Hk M A B GM EB) as (M' & EM' & GM').
  unfold rwith_m. rewrite EM, EM'. cbn [obind]. eexists. split; [reflexivity|]. split; cbn; auto. apply F2_upd; auto.
Qed.

Lemma step_v s a r k kr a' : rel s a -> with_v a r k = Some a' ->
  (forall v z y, repv v z -> k z = Some y -> exists w, kr v = Ok w /\ repv w y) ->
  exists s', rwith_v s r kr = Ok s' /\ rel s' a'.
Proof.
  intros [H1 H2] Hw Hk. unfold with_v in Hw. destruct (nth_error (snd a) r) as [A|] eqn:E; [|discriminate].
  destruct (k A) as [B|] eqn:EB; [|discriminate]. inversion Hw; subst a'; clear Hw.
  destruct (F2_nth _ H2 E) as (M & EM & GM). destruct (Hk M A B GM EB) as (M' & EM' & GM').
  unfold rwith_v. rewrite EM, EM'. cbn [obind]. eexists. split; [reflexivity|]. split; cbn; auto. apply F2_upd; auto.
Qed.

Lemma step_new s a o A a' : rel s a -> new_m a A = Some a' -> (exists M, o = Ok M /\ goodA M A) ->
  exists s', rnew_m s o = Ok s' /\ rel s' a'.
Proof.
  intros [H1 H2] Hw (M & -> & G). unfold new_m in Hw. inversion Hw; subst. cbn.
  eexists. split; [reflexivity|]. split; cbn; auto. apply F2_snoc; auto.
Qed.

Lemma get_m_ok s a r A : rel s a -> nth_error (fst a) r = Some A -> exists M, get_m s r = Ok M /\ goodA M A.
Proof. intros [H1 _] E. destruct (F2_nth _ H1 E) as (M & EM & G). exists M. unfold get_m. rewrite EM. auto. Qed.
Lemma get_v_ok s a r z : rel s a -> nth_error (snd a) r = Some z -> exists v, get_v s r = Ok v /\ repv v z.
Proof. intros [_ H2] E. destruct (F2_nth _ H2 E) as (M & EM & G). exists M. unfold get_v. rewrite EM. auto. Qed.

Lemma each_ok op M A B g : goodA M A -> op (RtoC 0) = RtoC 0 -> (forall z, op z = g z) -> each A g = Some B ->
  exists M', apply_operation op M = Ok M' /\ goodA M' B.
Proof.
  intros G H0 Hg E. unfold each in E. inversion E; subst B.
  destruct (@apply_operation_ok op M _ _ _ G H0) as (M' & E' & G'). exists M'. split; auto.
  unfold goodA. cbn. eapply good_ext; [exact G'|]. intros. apply Hg.
Qed.

Lemma eachv_ok op v z y g : repv v z -> (forall x, In x (v_elems z) -> op x = g x) -> eachv z g = Some y ->
  exists w, v_apply op v = Ok w /\ repv w y.
Proof.
  intros H Hg E. unfold eachv in E. inversion E; subst y. destruct (v_apply_ok op H) as (w & Ew & Hw).
  exists w. split; auto. rewrite <- (map_ext_in op g); auto.
Qed.

Lemma eachr_ok op v z y g : repv v z -> (forall x, op x = g x) -> eachv z g = Some y ->
  exists w, v_range_map op v = Ok w /\ repv w y.
Proof.
  intros H Hg E. unfold eachv in E. inversion E; subst y. destruct (range_map_ok op H) as (w & Ew & Hw).
  exists w. split; auto. rewrite <- (map_ext op g); auto.
Qed.

Lemma pair_ok op v z w y u g : repv v z -> repv w y -> (forall a b, op a b = g a b) -> pairv z y g = Some u ->
  exists x, v_binary op v w = Ok x /\ repv x u.
Proof.
  intros Hv Hw Hg E. unfold pairv in E. destruct (list_eq_dec _ _ _) as [El|]; [|discriminate]. inversion E; subst u.
  destruct (v_binary_ok op Hv Hw El) as (x & Ex & Hx). exists x. split; auto.
  rewrite <- (map_ext (fun p => op (fst p) (snd p)) (fun p => g (fst p) (snd p))); auto.
Qed.

Lemma op_mul_ok x z : op_mul x z = Cmult x z.
Proof. apply Cmult_comm. Qed.
Lemma op_add_ok x z : op_add x z = Cplus x z.
Proof. apply Cplus_comm. Qed.
Lemma op_exp_ok z : op_exp z = cexp_spec z.
Proof. unfold op_exp, cexp, cexp_spec, Re, Im. apply C_eq; cbn; lra. Qed.
Lemma op_recip_ok z : op_recip z = Cinv z.
Proof. unfold op_recip, Cdiv. apply Cmult_1_l. Qed.

Lemma step_ok s a c a' : rel s a -> astep a c = Some a' -> exists s', rstep s c = Ok s' /\ rel s' a'.
Proof.
  intros R E. destruct c; cbn [astep rstep] in *.
  - (* NewM *)
    destruct (in_range m n l) eqn:Er; [|discriminate]. eapply step_new; eauto.
    destruct (blank_rep m n dense) as (HB & Hmo & _).
    destruct (@set_good (blank m n dense) m n zerof l INS) as (M & EM & G); auto. { left; auto. }
    exists M. split; auto.
  - (* IdentM *)
    eapply step_new; eauto. apply identity_new_ok.
  - (* SetM *)
    eapply step_m; eauto. intros M A B G EB. cbn beta in EB. destruct (in_range _ _ l) eqn:Er; [|discriminate].
    inversion EB; subst B. pose proof G as (HR & Has & Hmo).
    destruct (@set_good M (a_m A) (a_n A) (a_f A) l INS) as (M' & EM & G'); auto. { left; auto. } exists M'. split; auto.
  - (* AddM *)
    eapply step_m; eauto. intros M A B G EB. cbn beta in EB. destruct (in_range _ _ l) eqn:Er; [|discriminate].
    inversion EB; subst B. pose proof G as (HR & Has & Hmo).
    destruct (@set_good M (a_m A) (a_n A) (a_f A) l ADD) as (M' & EM & G'); auto. { left; auto. } exists M'. split; auto.
  - (* ScaleM *)
    eapply step_m; eauto. intros M A B G EB. refine (@each_ok (op_mul x) M A B _ G _ _ EB); [|apply op_mul_ok].
    unfold op_mul. apply Cmult_0_l.
  - (* RealM *)
    eapply step_m; eauto. intros M A B G EB. refine (@each_ok op_real M A B _ G _ _ EB); auto.
  - (* ImagM *)
    eapply step_m; eauto. intros M A B G EB. refine (@each_ok op_imag M A B _ G _ _ EB); auto.
  - (* ConjM *)
    eapply step_m; eauto. intros M A B G EB. refine (@each_ok op_conj M A B _ G conj_zero _ EB). auto.
  - (* ZeroM *)
    eapply step_m; eauto. intros M A B G EB. unfold each in EB. inversion EB; subst B. apply (zero_ok G).
  - (* AddDiagM *)
    eapply step_m; eauto. intros M A B G EB. cbn beta in EB. destruct (a_m A <=? a_n A) eqn:El; [|discriminate].
    inversion EB; subst B. apply Nat.leb_le in El. apply (add_diagonal_ok x G El).
  - (* EquateM *)
    destruct (nth_error (fst a) s0) as [B|] eqn:EB; [|discriminate].
    destruct (get_m_ok _ R EB) as (MB & EMB & GB). rewrite EMB. cbn [obind].
    eapply step_m; eauto. intros M A D G ED. cbn beta in ED.
    destruct ((a_m A =? a_m B) && (a_n A =? a_n B)) eqn:El; [|discriminate]. inversion ED; subst D.
    apply andb_true_iff in El. destruct El as [E1 E2]. apply Nat.eqb_eq in E1, E2.
    unfold goodA in *. rewrite E1, E2 in G. apply (equate_ok G GB).
  - (* AddMM *)
    destruct (nth_error (fst a) s0) as [B|] eqn:EB; [|discriminate].
    destruct (get_m_ok _ R EB) as (MB & EMB & GB). rewrite EMB. cbn [obind].
    eapply step_m; eauto. intros M A D G ED. cbn beta in ED.
    destruct ((a_m A =? a_m B) && (a_n A =? a_n B)) eqn:El; [|discriminate]. inversion ED; subst D.
    apply andb_true_iff in El. destruct El as [E1 E2]. apply Nat.eqb_eq in E1, E2.
    unfold goodA in *. cbn. rewrite E1, E2 in *. apply (add_ok G GB).
  - (* CloneM *)
    destruct (nth_error (fst a) s0) as [B|] eqn:EB; [|discriminate].
    destruct (get_m_ok _ R EB) as (MB & EMB & GB). rewrite EMB. cbn [obind].
    eapply step_new; eauto. exists MB. split; auto. unfold m_clone. destruct GB as (_ & -> & _). auto.
  - (* TransM *)
    destruct (nth_error (fst a) s0) as [B|] eqn:EB; [|discriminate].
    destruct (get_m_ok _ R EB) as (MB & EMB & GB). rewrite EMB. cbn [obind].
    eapply step_new; eauto. apply (transpose_ok GB).
  - (* MulMM *)
    destruct (nth_error (fst a) s0) as [A|] eqn:EA; [|discriminate].
    destruct (nth_error (fst a) t) as [B|] eqn:EB; [|discriminate].
    destruct (get_m_ok _ R EA) as (MA & EMA & GA). destruct (get_m_ok _ R EB) as (MB & EMB & GB).
    rewrite EMA, EMB. cbn [obind]. destruct (a_n A =? a_m B) eqn:El; [|discriminate]. apply Nat.eqb_eq in El.
    eapply step_new; eauto. unfold goodA in *. rewrite <- El in GB. apply (multiply_ok GA GB).
  - (* NewV *)
    inversion E; subst a'. eexists. split; [reflexivity|]. destruct R as [R1 R2]. split; cbn; auto.
    apply F2_snoc; auto. apply vec_new_ok.
  - (* SetV *)
    eapply step_v; eauto. intros w z y H Ey. cbn beta in Ey. destruct (forallb _ l) eqn:Er; [|discriminate].
    inversion Ey; subst y. apply (@v_set_ok INS p w z l H Er).
  - (* AddV *)
    eapply step_v; eauto. intros w z y H Ey. cbn beta in Ey. destruct (forallb _ l) eqn:Er; [|discriminate].
    inversion Ey; subst y. apply (@v_set_ok ADD p w z l H Er).
  - (* ZeroV *)
    eapply step_v; eauto. intros w z y H Ey. unfold eachv in Ey. inversion Ey; subst y.
    eexists. split; [reflexivity|]. apply v_zero_ok; auto.
  - eapply step_v; eauto. intros w z y H Ey. refine (@eachv_ok (op_set x) w z y _ H _ Ey). auto.
  - eapply step_v; eauto. intros w z y H Ey. refine (@eachv_ok (op_mul x) w z y _ H _ Ey). intros; apply op_mul_ok.
  - eapply step_v; eauto. intros w z y H Ey. refine (@eachv_ok (op_add x) w z y _ H _ Ey). intros; apply op_add_ok.
  - eapply step_v; eauto. intros w z y H Ey. refine (@eachv_ok op_abs w z y _ H _ Ey). auto.
  - eapply step_v; eauto. intros w z y H Ey. refine (@eachr_ok op_real w z y _ H _ Ey). auto.
  - eapply step_v; eauto. intros w z y H Ey. refine (@eachr_ok op_imag w z y _ H _ Ey). auto.
  - eapply step_v; eauto. intros w z y H Ey. refine (@eachv_ok op_conj w z y _ H _ Ey). auto.
  - eapply step_v; eauto. intros w z y H Ey. refine (@eachv_ok op_exp w z y _ H _ Ey). intros; apply op_exp_ok.
  - eapply step_v; eauto. intros w z y H Ey. cbn beta in Ey. destruct (forallb nonzero (v_elems z)); [|discriminate].
    refine (@eachv_ok op_recip w z y _ H _ Ey). intros; apply op_recip_ok.
  - (* AddVV *)
    destruct (nth_error (snd a) w) as [y|] eqn:Ey; [|discriminate].
    destruct (get_v_ok _ R Ey) as (wv & Ew & Hw). rewrite Ew. cbn [obind].
    eapply step_v; eauto. intros u z t H Et. refine (@pair_ok (op_scale_add2 x) u z wv y t _ H Hw _ Et). auto.
  - destruct (nth_error (snd a) w) as [y|] eqn:Ey; [|discriminate].
    destruct (get_v_ok _ R Ey) as (wv & Ew & Hw). rewrite Ew. cbn [obind].
    eapply step_v; eauto. intros u z t H Et. refine (@pair_ok op_mul2 u z wv y t _ H Hw _ Et). auto.
  - destruct (nth_error (snd a) w) as [y|] eqn:Ey; [|discriminate].
    destruct (get_v_ok _ R Ey) as (wv & Ew & Hw). rewrite Ew. cbn [obind].
    eapply step_v; eauto. intros u z t H Et. cbn beta in Et. destruct (forallb nonzero (v_elems y)); [|discriminate].
    refine (@pair_ok op_div2 u z wv y t _ H Hw _ Et). auto.
  - (* EquateV *)
    destruct (nth_error (snd a) w) as [y|] eqn:Ey; [|discriminate].
    destruct (get_v_ok _ R Ey) as (wv & Ew & Hw). rewrite Ew. cbn [obind].
    eapply step_v; eauto. intros u z t H Et. cbn beta in Et. destruct (list_eq_dec _ _ _) as [El|]; [|discriminate].
    inversion Et; subst t. exists wv. split; auto. apply (v_equate_ok H Hw El).
  - (* MulMV *)
    destruct (nth_error (fst a) r) as [A|] eqn:EA; [|discriminate].
    destruct (nth_error (snd a) x) as [u|] eqn:Eu; [|discriminate].
    destruct (get_m_ok _ R EA) as (MA & EMA & GA). destruct (get_v_ok _ R Eu) as (uv & Euv & Hu).
    rewrite EMA, Euv. cbn [obind]. eapply step_v; eauto. intros w z t H Et. cbn beta in Et.
    destruct ((a_n A =? length (v_elems u)) && (a_m A =? length (v_elems z))) eqn:El; [|discriminate].
    apply andb_true_iff in El. destruct El as [E1 E2]. apply Nat.eqb_eq in E1, E2. inversion Et; subst t.
    apply (mult_ok GA Hu H E1 E2).
  - (* ColMV *)
    destruct (nth_error (fst a) r) as [A|] eqn:EA; [|discriminate].
    destruct (get_m_ok _ R EA) as (MA & EMA & GA). rewrite EMA. cbn [obind].
    eapply step_v; eauto. intros w z t H Et. cbn beta in Et.
    destruct ((c <? a_n A) && (a_m A =? length (v_elems z))) eqn:El; [|discriminate].
    apply andb_true_iff in El. destruct El as [E1 E2]. apply Nat.ltb_lt in E1. apply Nat.eqb_eq in E2. inversion Et; subst t.
    apply (column_ok GA H E1 E2).
  - (* DiagMV *)
    destruct (nth_error (fst a) r) as [A|] eqn:EA; [|discriminate].
    destruct (get_m_ok _ R EA) as (MA & EMA & GA). rewrite EMA. cbn [obind].
    eapply step_v; eauto. intros w z t H Et. cbn beta in Et.
    destruct ((a_m A =? a_n A) && (a_m A =? length (v_elems z))) eqn:El; [|discriminate].
    apply andb_true_iff in El. destruct El as [E1 E2]. apply Nat.eqb_eq in E1, E2. inversion Et; subst t.
    unfold goodA in GA. rewrite <- E1 in GA. apply (diagonal_ok GA H E2).
  - (* DiagNew *)
    destruct (nth_error (snd a) x) as [u|] eqn:Eu; [|discriminate].
    destruct (get_v_ok _ R Eu) as (uv & Euv & Hu). rewrite Euv. cbn [obind].
    eapply step_new; eauto. apply (diagonal_matrix_ok dense Hu).
  - (* AddDiagMV *)
    destruct (nth_error (snd a) x) as [u|] eqn:Eu; [|discriminate].
    destruct (get_v_ok _ R Eu) as (uv & Euv & Hu). rewrite Euv. cbn [obind].
    eapply step_m; eauto. intros M A B G EB. cbn beta in EB.
    destruct ((length (v_elems u) <=? a_m A) && (length (v_elems u) <=? a_n A)) eqn:El; [|discriminate].
    apply andb_true_iff in El. destruct El as [E1 E2]. apply Nat.leb_le in E1, E2. inversion EB; subst B.
    apply (add_diagonal_vector_ok G Hu E1 E2).
  - (* MulDiagMV *)
    destruct (nth_error (snd a) x) as [u|] eqn:Eu; [|discriminate].
    destruct (get_v_ok _ R Eu) as (uv & Euv & Hu). rewrite Euv. cbn [obind].
    eapply step_m; eauto. intros M A B G EB. cbn beta in EB.
    destruct ((length (v_elems u) <=? a_m A) && (length (v_elems u) <=? a_n A)) eqn:El; [|discriminate].
    apply andb_true_iff in El. destruct El as [E1 E2]. apply Nat.leb_le in E1, E2. inversion EB; subst B.
    apply (multiply_diagonal_ok G Hu E1 E2).
Qed.

Lemma run_ok p s a a' : rel s a -> arun p a = Some a' -> exists s', rrun p s = Ok s' /\ rel s' a'.
Proof.
  revert s a; induction p as [|c p IH]; intros s a R E; cbn [arun] in E.
  - inversion E; subst. exists s. split; auto.
  - destruct (astep a c) as [a1|] eqn:E1; [|discriminate].
    destruct (step_ok _ R E1) as (s1 & Es & R1). unfold rrun. cbn [ofold]. rewrite Es. cbn [obind].
    apply (IH s1 a1); auto.
Qed.

Lemma program_ok p a : arun p ([], []) = Some a -> exists s, rrun p ([], []) = Ok s /\ rel s a.
Proof. intros H. eapply run_ok; eauto. split; constructor. Qed.

(** * Vectors the library makes *)
Lemma any_lib l : exists z, length l = 2 * (length l / 2) -> l = to_library z.
Proof.
  remember (length l) as n eqn:En. revert l En. induction n as [n IH] using lt_wf_ind. intros l En.
  destruct l as [|a [|b l]].
  - exists []. auto.
  - exists []. cbn in En. subst n. cbn. discriminate.
  - cbn [length] in En. destruct (IH (length l)) with (l := l) as (z & Hz); auto; [lia|].
    exists ((a, b) :: z). intros H. cbn [to_library flat_map app fst snd]. fold (to_library z). rewrite <- Hz; auto.
    subst n. pose proof (Nat.div_mod_eq (S (S (length l))) 2). pose proof (Nat.div_mod_eq (length l) 2).
    pose proof (Nat.mod_upper_bound (length l) 2 ltac:(lia)).
    pose proof (Nat.mod_upper_bound (S (S (length l))) 2 ltac:(lia)). lia.
Qed.

Lemma any_repv layout v : map (@length R) v = map (fun n => n * 2) layout -> exists z, v_layout z = layout /\ repv v z.
Proof.
  intros H. assert (G : exists ps, v = map to_library ps /\ map (@length C) ps = layout).
  { revert layout H. induction v as [|a v IH]; intros [|n layout] H; try discriminate.
    - exists []. auto.
    - cbn in H. inversion H. destruct (IH layout H2) as (ps & Hps & Hl). destruct (any_lib a) as (z & Hz).
      assert (a = to_library z).
      { apply Hz. rewrite H1. rewrite Nat.div_mul; lia. }
      exists (z :: ps). subst v. cbn. split; [congruence|]. rewrite Hl. f_equal. subst a.
      rewrite to_library_length in H1. lia. }
  destruct G as (ps & Hv & Hl). exists (mkAV layout (concat ps)). split; auto. exists ps. auto.
Qed.

(** * Solutions of linear systems *)
Lemma to_library_inj a b : to_library a = to_library b -> a = b.
Proof.
  intros H. assert (E : from_library (to_library a) = from_library (to_library b)) by congruence.
  rewrite !from_to_library in E. inversion E. auto.
Qed.

Lemma repv_inj v z w : repv v z -> repv v w -> v_elems z = v_elems w.
Proof. intros H1 H2. apply to_library_inj. rewrite <- (concat_lib H1), <- (concat_lib H2). auto. Qed.

Lemma solve_ok A m n f x y b zb layout : good A m n f -> repv b zb -> m = length (v_elems zb) -> n = sumn layout ->
  map (@length R) x = map (fun n => n * 2) layout -> map (@length R) y = map (@length R) b ->
  mv_multiply A x y = Ok b ->
  exists u, repv x (mkAV layout u) /\ v_get_all x = Ok u /\ length u = n /\
    forall i, i < m -> csum n (fun k => Cmult (f i k) (ccat u k)) = ccat (v_elems zb) i.
Proof.
  intros G Hb Hm Hn Hx Hy E. destruct (any_repv _ _ Hx) as (zx & Lx & Rx).
  rewrite (repv_lengths Hb) in Hy. destruct (any_repv _ _ Hy) as (zy & Ly & Ry).
  assert (Lu : length (v_elems zx) = n) by (rewrite <- (repv_sum Rx), Lx; auto).
  destruct (mult_ok G Rx Ry) as (w & Ew & Hw); auto.
  { rewrite <- (repv_sum Ry), Ly, (repv_sum Hb). auto. }
  rewrite Ew in E. inversion E; subst w. exists (v_elems zx). subst layout. split; [destruct zx; auto|].
  split; [apply get_all_ok; auto|]. split; auto.
  intros i Hi. rewrite (repv_inj Hb Hw). cbn [v_elems]. rewrite ccat_tabulate by auto. auto.
Qed.

(** A real solution of the block system with several right-hand sides is again made of complex
    blocks, when the complex system has only the trivial kernel. *)
Lemma csum_plus n f g : csum n (fun k => Cplus (f k) (g k)) = Cplus (csum n f) (csum n g).
Proof. induction n as [|n IH]; cbn; [symmetry; apply Cplus_0_l|]. rewrite IH. apply C_eq; cbn; lra. Qed.
Lemma csum_mul n f c : csum n (fun k => Cmult (f k) c) = Cmult (csum n f) c.
Proof. induction n as [|n IH]; cbn; [symmetry; apply Cmult_0_l|]. rewrite IH. apply C_eq; cbn; lra. Qed.
Lemma csum_opp n f : csum n (fun k => Copp (f k)) = Copp (csum n f).
Proof. induction n as [|n IH]; cbn; [apply C_eq; cbn; lra|]. rewrite IH. apply C_eq; cbn; lra. Qed.

Definition real_times (A : list rrow) (X : nat -> nat -> R) (n2 : nat) (i c : nat) : R :=
  rsum (map (fun k => (rget A i k * X k c)%R) (iota n2)).

Lemma multi_solve A n k f g X : good A n n f ->
  (forall z : nat -> C, (forall i, i < n -> csum n (fun l => Cmult (f i l) (z l)) = RtoC 0) ->
                        forall l, l < n -> z l = RtoC 0) ->
  (forall i j, i < n -> j < k ->
     real_times (m_rows A) X (n * 2) (i * 2) (j * 2) = fst (g i j) /\
     real_times (m_rows A) X (n * 2) (i * 2) (j * 2 + 1) = (- snd (g i j))%R /\
     real_times (m_rows A) X (n * 2) (i * 2 + 1) (j * 2) = snd (g i j) /\
     real_times (m_rows A) X (n * 2) (i * 2 + 1) (j * 2 + 1) = fst (g i j)) ->
  let h := fun l j => (X (l * 2) (j * 2), X (l * 2 + 1) (j * 2)) in
  (forall l j, l < n -> j < k -> X (l * 2) (j * 2 + 1) = (- snd (h l j))%R /\ X (l * 2 + 1) (j * 2 + 1) = fst (h l j)) /\
  (forall i j, i < n -> j < k -> csum n (fun l => Cmult (f i l) (h l j)) = g i j).
Proof.
  intros ((A1 & A2 & (W & Cl & V)) & _) Inj HX h.
  assert (T : forall i c, i < n ->
     csum n (fun l => Cmult (f i l) (X (l * 2) c, X (l * 2 + 1) c)) =
     (real_times (m_rows A) X (n * 2) (i * 2) c, real_times (m_rows A) X (n * 2) (i * 2 + 1) c)).
  { intros i c Hi. unfold real_times. apply C_eq; cbn [fst snd].
    - rewrite fst_csum, rsum_pairs. apply rsum_map_ext. intros l Hl. apply in_iota in Hl.
      destruct (V i l Hi Hl) as (V1 & V2 & V3 & V4). rewrite V1, V2. cbn. lra.
    - rewrite snd_csum, rsum_pairs. apply rsum_map_ext. intros l Hl. apply in_iota in Hl.
      destruct (V i l Hi Hl) as (V1 & V2 & V3 & V4). rewrite V3, V4. cbn. lra. }
  assert (S : forall i j, i < n -> j < k -> csum n (fun l => Cmult (f i l) (h l j)) = g i j).
  { intros i j Hi Hj. unfold h. rewrite (T i (j * 2) Hi). destruct (HX i j Hi Hj) as (H1 & _ & H3 & _).
    rewrite H1, H3. destruct (g i j); auto. }
  split; auto. intros l j Hl Hj.
  set (d := fun l => Cminus (X (l * 2) (j * 2 + 1), X (l * 2 + 1) (j * 2 + 1)) (Cmult (h l j) Ci)).
  assert (D : d l = RtoC 0).
  { apply Inj; auto. intros i Hi.
    rewrite (@csum_ext n _ (fun l => Cplus (Cmult (f i l) (X (l * 2) (j * 2 + 1), X (l * 2 + 1) (j * 2 + 1)))
                                        (Copp (Cmult (Cmult (f i l) (h l j)) Ci)))).
    2:{ intros q Hq. unfold d. apply C_eq; cbn; lra. }
    rewrite csum_plus, csum_opp, csum_mul, (S i j Hi Hj), (T i (j * 2 + 1) Hi).
    destruct (HX i j Hi Hj) as (_ & H2 & _ & H4). rewrite H2, H4. apply C_eq; cbn; lra. }
  unfold d, h in D. unfold h. cbn [fst snd].
  assert (D1 : fst (Cminus (X (l * 2) (j * 2 + 1), X (l * 2 + 1) (j * 2 + 1)) (Cmult (X (l * 2) (j * 2), X (l * 2 + 1) (j * 2)) Ci)) = 0%R)
    by (rewrite D; auto).
  assert (D2 : snd (Cminus (X (l * 2) (j * 2 + 1), X (l * 2 + 1) (j * 2 + 1)) (Cmult (X (l * 2) (j * 2), X (l * 2 + 1) (j * 2)) Ci)) = 0%R)
    by (rewrite D; auto).
  cbn in D1, D2. split; lra.
Qed.

(** * identity on a matrix that stores its diagonal *)
Lemma set_elements_has M m n f l md M' : repM M m n f -> mode_ok M md -> in_range m n l = true ->
  set_elements M md l = Ok M' ->
  (forall a b, has (m_rows M) a b = true -> has (m_rows M') a b = true) /\
  (forall e, In e l -> has (m_rows M') (fst (fst e) * 2) (snd (fst e) * 2) = true).
Proof.
  revert M f. induction l as [|[[i j] x] l IH]; intros M f HR Hm Hr E; cbn [in_range forallb fst snd] in Hr.
  - cbn in E. inversion E; subst. split; [auto|intros e []].
  - apply andb_true_iff in Hr. destruct Hr as [H1 H2]. apply andb_true_iff in H1. destruct H1 as [Hi Hj].
    apply Nat.ltb_lt in Hi, Hj. unfold set_elements in E. cbn [ofold] in E.
    rewrite (@set_element_ok M m n f) in E by auto. cbn [obind] in E.
    set (M1 := mkMat (m_nr M) (m_nc M) (put4 md (m_rows M) i j x) false (Some md)) in *.
    destruct HR as (R1 & R2 & R3).
    assert (HR1 : repM M1 m n (cput md f (i, j, x))).
    { split; [|split]; auto. apply put4_rep; auto. }
    destruct (IH M1 (cput md f (i, j, x)) HR1) as [K1 K2]; auto.
    { right; auto. }
    destruct R3 as (W & Cl & V).
    assert (P : forall a b, has (m_rows M1) a b = ((a =? i * 2 + 1) && (b =? j * 2 + 1)) || (((a =? i * 2 + 1) && (b =? j * 2)) ||
  (((a =? i * 2) && (b =? j * 2 + 1)) || (((a =? i * 2) && (b =? j * 2)) || has (m_rows M) a b)))).
    { intros a b. cbn [M1 m_rows]. apply (@put4_has md (m_rows M) m n); auto. }
    split.
    + intros a b Hab. apply K1. rewrite P, Hab, !orb_true_r. auto.
    + intros e [<-|He]; auto. cbn [fst snd]. apply K1. rewrite P, !Nat.eqb_refl. cbn [andb orb]. rewrite !orb_true_r. auto.
Qed.

Lemma dense_has n i j : i < n * 2 -> j < n * 2 -> has (m_rows (mat_new_dense n n)) i j = true.
Proof.
  intros Hi Hj. unfold has, mat_new_dense. cbn [m_rows]. unfold elementSize. rewrite row_of_repeat by auto.
  unfold hasb. change (map (fun j0 => (j0, 0%R)) (iota (n * 2))) with (full_row (n * 2)). rewrite rfind_full.
  replace (j <? n * 2) with true by (symmetry; apply Nat.ltb_lt; auto). auto.
Qed.

Lemma identity_stored n d l : in_range n n l = true ->
  (d = true \/ forall i, i < n -> In (i, i) (map fst l)) ->
  exists M B, ready (set_elements (blank n n d) INS l) = Ok M /\ m_identity M = Ok B /\
    goodA B (mkA n n (fun i j => if i =? j then RtoC 1 else RtoC 0)).
Proof.
  intros Hr Hd. destruct (blank_rep n n d) as (HB & Hmo & _).
  assert (Hm : mode_ok (blank n n d) INS) by (left; auto).
  destruct (@set_elements_ok (blank n n d) n n zerof l INS) as (M0 & E & HR & _); auto.
  destruct (@set_elements_has (blank n n d) n n zerof l INS M0 HB Hm Hr E) as [K1 K2].
  pose proof (assemble_good HR) as G.
  destruct (@identity_ok (mat_assemble M0) n _ G) as (B & EB & GB).
  { intros i Hi. cbn [mat_assemble m_rows]. destruct Hd as [->|Hd].
    - apply K1. cbn [blank]. apply dense_has; lia.
    - apply Hd in Hi. apply in_map_iff in Hi. destruct Hi as (e & He & Hin). specialize (K2 e Hin). rewrite He in K2. auto. }
  exists (mat_assemble M0), B. unfold ready. rewrite E. split; auto.
Qed.

(** * Several right-hand sides *)
Lemma full_keys n r : map fst r = iota n -> sorted r /\ below n r /\ (forall j, hasb j r = (j <? n)).
Proof.
  intros H. split; [|split].
  - unfold sorted. rewrite H. apply seq_sorted.
  - unfold below. apply Forall_forall. intros e He. apply in_iota. rewrite <- H. apply in_map; auto.
  - intros j. rewrite hasb_exists. rewrite <- existsb_iota, <- H. clear H.
    induction r as [|e r IH]; auto. cbn. rewrite IH, Nat.eqb_sym. auto.
Qed.

Lemma matrix_solve_ok M MB X P n k f g : good M n n f -> good MB n k g ->
  (forall z : nat -> C, (forall i, i < n -> csum n (fun l => Cmult (f i l) (z l)) = RtoC 0) ->
                        forall l, l < n -> z l = RtoC 0) ->
  m_nr X = m_nr MB -> m_nc X = m_nc MB -> m_asm X = true -> m_mode X = None ->
  length (m_rows X) = m_nr X -> (forall row, In row (m_rows X) -> map fst row = iota (m_nc X)) ->
  mat_mat_mult M X = Ok P ->
  (forall i j, i < m_nr MB -> j < m_nc MB -> rget (m_rows P) i j = rget (m_rows MB) i j) ->
  exists h, sees_m X (mkA n k h) /\
    forall i j, i < n -> j < k -> csum n (fun l => Cmult (f i l) (h l j)) = g i j.
Proof.
  intros G GB Inj X1 X2 X3 X4 X5 X6 E HP.
  pose proof G as ((A1 & A2 & (W & Cl & V)) & As & Mo).
  destruct GB as ((B1 & B2 & (WB & ClB & VB)) & Bs & Bo).
  rewrite B1 in X1. rewrite B2 in X2. rewrite X1 in X5.
  assert (RX : forall i, i < n * 2 -> sorted (row_of (m_rows X) i) /\ below (k * 2) (row_of (m_rows X) i) /\
                          (forall j, hasb j (row_of (m_rows X) i) = (j <? k * 2))).
  { intros i Hi. apply full_keys. rewrite <- X2. apply X6. unfold row_of. apply nth_In. lia. }
  assert (WX : wf (m_rows X) (n * 2) (k * 2)).
  { split; auto. intros i Hi. destruct (RX i Hi) as (? & ? & _). auto. }
  unfold mat_mat_mult in E. rewrite As, X3, A2, X1, Nat.eqb_refl in E. cbn [andb] in E. inversion E; subst P; clear E.
  cbn [m_rows] in HP. rewrite A1, B1, B2 in HP.
  assert (GT : forall i c, i < n * 2 -> c < k * 2 ->
     real_times (m_rows M) (fun l c => rget (m_rows X) l c) (n * 2) i c = rget (m_rows MB) i c).
  { intros i c Hi Hc. rewrite <- HP by auto.
    destruct (mm_row_ok W WX Hi) as (_ & _ & R & _).
    transitivity (oval (rfind c (mm_row (row_of (m_rows M) i) (m_rows X)))); [symmetry; apply R|].
    unfold rget. rewrite row_of_map by auto. auto. }
  destruct (@multi_solve M n k f g (fun l c => rget (m_rows X) l c) G Inj) as [H1 H2].
  { intros i j Hi Hj. rewrite !GT by lia. apply VB; auto. }
  cbn beta in H1, H2. eexists. split; [|exact H2]. apply good_sees. unfold goodA; cbn [a_m a_n a_f].
  split; [|split]; auto. split; [|split]; auto. split; [|split]; auto.
  - intros i j Hi Hj. unfold has.
    destruct (RX (i * 2)) as (_ & _ & Q1); [lia|]. destruct (RX (i * 2 + 1)) as (_ & _ & Q2); [lia|].
    rewrite !Q1, !Q2. replace (j * 2 <? k * 2) with true by (symmetry; apply Nat.ltb_lt; lia).
    replace (j * 2 + 1 <? k * 2) with true by (symmetry; apply Nat.ltb_lt; lia). auto.
  - intros i j Hi Hj. destruct (H1 i j Hi Hj) as [Q1 Q2]. cbn [fst snd] in *. auto.
Qed.

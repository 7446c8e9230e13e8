From Verif Require Import Prelude GAModel GAProofs StrModel StrSpec DCModel DCSpec RecModel RecSpec XpModel XpSpec XpProofs.
From Coq Require Import Ascii.
Open Scope nat_scope.

(** ** Ordered lists *)
Lemma in_order_nil {A} (lt : A -> A -> Prop) : in_order lt [].
Proof. intros i j a b _ H. now destruct i. Qed.
Lemma in_order_tl {A} (lt : A -> A -> Prop) x l : in_order lt (x :: l) -> in_order lt l.
Proof. intros H i j a b Hij Ha Hb. apply (H (S i) (S j)); auto. lia. Qed.
Lemma in_order_hd {A} (lt : A -> A -> Prop) x l y : in_order lt (x :: l) -> In y l -> lt x y.
Proof. intros H Hy. apply In_nth_error in Hy as (i & Hi). apply (H 0 (S i)); auto. lia. Qed.
Arguments in_order_tl {A lt x l} _.
Arguments in_order_hd {A lt x l y} _ _.
Lemma in_order_cons {A} (lt : A -> A -> Prop) x l : (forall y, In y l -> lt x y) -> in_order lt l -> in_order lt (x :: l).
Proof.
  intros H1 H2 [|i] [|j] a b Hij Ha Hb; try lia; cbn in *.
  - inversion Ha; subst. apply H1. eapply nth_error_In; exact Hb.
  - apply (H2 i j); auto. lia.
Qed.
Lemma in_order_app {A} (lt : A -> A -> Prop) l1 l2 : in_order lt l1 -> in_order lt l2 ->
  (forall a b, In a l1 -> In b l2 -> lt a b) -> in_order lt (l1 ++ l2).
Proof.
  induction l1 as [|x l1 IH]; intros H1 H2 H; [exact H2|]. cbn [app]. apply in_order_cons.
  - intros y Hy. apply in_app_iff in Hy as [Hy|Hy]; [now apply (in_order_hd H1)|]. apply H; [now left|exact Hy].
  - apply IH; [now apply in_order_tl in H1|exact H2|]. intros a b Ha Hb. apply H; [now right|exact Hb].
Qed.
Lemma in_order_unique {A} (lt : A -> A -> Prop) : (forall a, ~ lt a a) -> (forall a b, lt a b -> lt b a -> False) ->
  forall l1 l2, in_order lt l1 -> in_order lt l2 -> Permutation l1 l2 -> l1 = l2.
Proof.
  intros Irr Asym. induction l1 as [|x l1 IH]; intros l2 H1 H2 P.
  - apply Permutation_nil in P. now subst.
  - destruct l2 as [|y l2]; [apply Permutation_sym, Permutation_nil in P; discriminate|].
    assert (x = y) as ->.
    { assert (In x (y :: l2)) as [E|Hx] by (eapply Permutation_in; [exact P|now left]); [now symmetry|].
      assert (In y (x :: l1)) as [E|Hy] by (eapply Permutation_in; [apply Permutation_sym; exact P|now left]); [assumption|].
      exfalso. apply (Asym x y); [now apply (in_order_hd H1)|now apply (in_order_hd H2)]. }
    f_equal. apply IH; [now apply in_order_tl in H1|now apply in_order_tl in H2|]. now apply Permutation_cons_inv in P.
Qed.


Fixpoint insert (p : place) (l : list place) : list place :=
  match l with [] => [p] | q :: r => if pl_global p <? pl_global q then p :: q :: r else q :: insert p r end.
Lemma insert_perm p l : Permutation (insert p l) (p :: l).
Proof.
  induction l as [|q l IH]; cbn [insert]; [apply Permutation_refl|]. destruct (pl_global p <? pl_global q); [apply Permutation_refl|].
  eapply perm_trans; [apply perm_skip; exact IH|apply perm_swap].
Qed.
Lemma insert_order p l : in_order by_index l -> ~ In (pl_global p) (map pl_global l) -> in_order by_index (insert p l).
Proof.
  induction l as [|q l IH]; cbn [insert]; intros H N.
  - apply in_order_cons; [intros y []|apply in_order_nil].
  - destruct (Nat.ltb_spec (pl_global p) (pl_global q)) as [L|L].
    + apply in_order_cons; [|exact H]. intros y [<-|Hy]; [exact L|]. pose proof (in_order_hd H Hy). unfold by_index in *. lia.
    + apply in_order_cons.
      * intros y Hy. apply (Permutation_in _ (insert_perm p l)) in Hy. destruct Hy as [<-|Hy]; [|now apply (in_order_hd H)].
        unfold by_index. assert (pl_global q <> pl_global p); [|lia]. intros E. apply N. now left.
      * apply IH; [now apply in_order_tl in H|]. intros Hi. apply N. now right.
Qed.
Lemma sortable l : NoDup (map pl_global l) -> exists s, Permutation s l /\ in_order by_index s.
Proof.
  induction l as [|p l IH]; intros H; [exists []; split; [constructor|apply in_order_nil]|]. cbn in H. inversion H; subst.
  destruct (IH H3) as (s & P & O). exists (insert p s). split.
  - eapply perm_trans; [apply insert_perm|]. now apply perm_skip.
  - apply insert_order; [exact O|]. intros X. apply H2. eapply Permutation_in; [apply Permutation_map; exact P|exact X].
Qed.

(** ** A block *)
Lemma filter_flat_map_none (tl : place -> list text_line) g l :
  (forall p x, In p l -> In x (tl p) -> tl_global x = pl_global p) -> ~ In g (map pl_global l) ->
  filter (fun x => tl_global x =? g) (flat_map tl l) = [].
Proof.
  induction l as [|p l IH]; intros H N; [reflexivity|]. cbn [flat_map]. rewrite filter_app.
  rewrite IH; [|intros q x Hq; apply H; now right|intros X; apply N; now right]. rewrite app_nil_r.
  assert (pl_global p <> g) as Ne by (intros E; apply N; now left).
  assert (forall x, In x (tl p) -> tl_global x = pl_global p) as Hp by (intros x; apply H; now left).
  induction (tl p) as [|x r IHr]; [reflexivity|]. cbn. rewrite (Hp x) by now left.
  destruct (Nat.eqb_spec (pl_global p) g); [contradiction|]. apply IHr. intros y Hy. apply Hp. now right.
Qed.
Lemma filter_all {A} (f : A -> bool) l : (forall x, In x l -> f x = true) -> filter f l = l.
Proof. induction l as [|x l IH]; intros H; [reflexivity|]. cbn. rewrite (H x) by now left. f_equal. apply IH. intros y Hy. apply H. now right. Qed.
Lemma numbered_flat_map (tl : place -> list text_line) l :
  NoDup (map pl_global l) -> (forall p, In p l -> map tl_device (tl p) = iota (length (tl p))) ->
  (forall p x, In p l -> In x (tl p) -> tl_global x = pl_global p) -> numbered (flat_map tl l).
Proof.
  intros N D G g. induction l as [|p l IH]; [exists 0; constructor|]. cbn [flat_map]. rewrite filter_app, map_app.
  cbn in N. inversion N as [|? ? N1 N2]; subst.
  destruct (Nat.eq_dec (pl_global p) g) as [E|E].
  - exists (length (tl p)). rewrite (filter_flat_map_none tl).
    + rewrite app_nil_r, filter_all; [rewrite (D p (or_introl eq_refl)); apply Permutation_refl|].
      intros x Hx. rewrite (G p x) by (auto; now left). now apply Nat.eqb_eq.
    + intros q x Hq. apply G. now right.
    + now rewrite <- E.
  - destruct IH as (n & P); auto.
    { intros q Hq. apply D. now right. } { intros q x Hq. apply G. now right. }
    exists n. replace (filter (fun x => tl_global x =? g) (tl p)) with (@nil text_line); [exact P|].
    symmetry. pose proof (@filter_flat_map_none tl g [p]) as X. cbn [flat_map] in X. rewrite app_nil_r in X. apply X.
    + intros q x [<-|[]]. apply G. now left.
    + intros [X1|[]]. contradiction.
Qed.
Lemma order_flat_map (tl : place -> list text_line) l :
  in_order by_index l -> (forall p, In p l -> map tl_device (tl p) = iota (length (tl p))) ->
  (forall p x, In p l -> In x (tl p) -> tl_global x = pl_global p) -> in_order before (flat_map tl l).
Proof.
  induction l as [|p l IH]; intros O D G; [apply in_order_nil|]. cbn [flat_map]. apply in_order_app.
  - assert (map tl_device (tl p) = iota (length (tl p))) as Dp by (apply D; now left).
    intros i j a b Hij Ha Hb. right.
    rewrite (G p a), (G p b); [|now left|eapply nth_error_In; exact Hb|now left|eapply nth_error_In; exact Ha]. split; [reflexivity|].
    assert (forall k x, nth_error (tl p) k = Some x -> tl_device x = k) as X.
    { intros k x Hk. assert (nth_error (iota (length (tl p))) k = Some (tl_device x)) as Y by (rewrite <- Dp; now apply map_nth_error).
      assert (k < length (tl p)) as Lk by (apply nth_error_Some; congruence).
      unfold iota in Y. rewrite (nth_error_nth' _ 0) in Y by now rewrite seq_length. rewrite seq_nth in Y by exact Lk. now inversion Y. }
    rewrite (X _ _ Ha), (X _ _ Hb). exact Hij.
  - apply IH; [now apply in_order_tl in O| |]; intros q; [intros Hq; apply D; now right|intros x Hq; apply G; now right].
  - intros a b Ha Hb. left. apply in_flat_map in Hb as (q & Hq & Hb). rewrite (G p a), (G q b); auto; [|now right|now left].
    exact (in_order_hd O Hq).
Qed.

Lemma flat_map_filter {A B} (f : A -> bool) (g : A -> list B) l :
  flat_map (fun x => if f x then g x else []) l = flat_map g (filter f l).
Proof. induction l as [|x l IH]; [reflexivity|]. cbn. rewrite IH. destruct (f x); reflexivity. Qed.
Lemma flat_map_concat' {A B} (g : A -> list B) l : concat (map (flat_map g) l) = flat_map g (concat l).
Proof. induction l as [|x l IH]; [reflexivity|]. cbn. rewrite IH. symmetry. apply flat_map_app. Qed.
Lemma concat_map_flat {A B} (g : A -> list B) l : concat (map g l) = flat_map g l.
Proof. induction l as [|x l IH]; [reflexivity|]. cbn. now rewrite IH. Qed.
Lemma Permutation_flat_map' {A B} (g : A -> list B) l l' : Permutation l l' -> Permutation (flat_map g l) (flat_map g l').
Proof. intros H. rewrite <- !concat_map_flat. induction H; cbn; auto.
  - now apply Permutation_app_head.
  - rewrite !app_assoc. apply Permutation_app_tail, Permutation_app_comm.
  - eapply perm_trans; eassumption.
Qed.

Lemma write_block_ok dist ord1 ord2 lines (tl : place -> list text_line) procs sorted :
  distributes dist -> reorders ord1 -> reorders ord2 -> Permutation sorted (actives procs) -> in_order by_index sorted ->
  (forall p, In p (actives procs) -> lines p = Ok (tl p) /\ map tl_device (tl p) = iota (length (tl p)) /\
     forall x, In x (tl p) -> tl_global x = pl_global p) ->
  write_block dist ord1 ord2 lines procs = Ok (map tl_text (flat_map tl sorted)).
Proof.
  intros D R1 R2 P O H. unfold write_block.
  assert (oall (map (block_lines lines) procs) = Ok (map (flat_map (fun p => if pl_active p then tl p else [])) procs)) as E.
  { apply oall_map_ok. intros ps Hps. unfold block_lines.
    rewrite (@oall_map_ok _ _ _ (fun p => if pl_active p then tl p else [])).
    - cbn [obind]. now rewrite concat_map_flat.
    - intros p Hp. destruct (pl_active p) eqn:Ea; [|reflexivity]. apply H. unfold actives. apply filter_In. split; [|exact Ea].
      apply in_concat. exists ps. split; assumption. }
  rewrite E. cbn [obind]. clear E. set (tls := map (flat_map _) procs).
  assert (concat tls = flat_map tl (actives procs)) as Ec by (unfold tls; rewrite flat_map_concat', flat_map_filter; reflexivity).
  assert (NoDup (map pl_global sorted)) as N.
  { clear -O. induction sorted as [|p l IH]; [constructor|]. cbn. constructor; [|exact (IH (in_order_tl O))].
    intros X. apply in_map_iff in X as (q & E & Hq). pose proof (in_order_hd O Hq). unfold by_index in *. lia. }
  assert (numbered (concat tls)) as Nu.
  { rewrite Ec. apply numbered_flat_map.
    - eapply Permutation_NoDup; [apply Permutation_map; exact P|exact N].
    - intros p Hp. apply H. exact Hp.
    - intros p x Hp. now apply H. }
  destruct (@write_data_block_ok dist tls (ord1 (concat tls)) (ord2 (concat tls)) D Nu (R1 _) (R2 _)) as (out & PO & OO & W).
  rewrite W. do 2 f_equal. apply (@in_order_unique _ before).
  - intros a. unfold before. lia.
  - intros a b. unfold before. lia.
  - exact OO.
  - apply order_flat_map; [exact O| |].
    + intros p Hp. apply H. eapply Permutation_in; eauto.
    + intros p x Hp. apply H. eapply Permutation_in; eauto.
  - eapply perm_trans; [exact PO|]. rewrite Ec. apply Permutation_flat_map'. now apply Permutation_sym.
Qed.

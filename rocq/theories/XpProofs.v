From Verif Require Import Prelude GAModel GAProofs StrModel StrSpec DCModel DCSpec RecModel RecSpec XpModel XpSpec.
From Coq Require Import Ascii.
Open Scope nat_scope.

(** ** Counting *)
Definition at_ (g : nat) (l : text_line) : bool := tl_global l =? g.
Definition cnt (ls : list text_line) (g : nat) : nat := length (filter (at_ g) ls).

Lemma scatter_acc_ok ev : forall g, Forall (fun l => tl_global l < length g) ev ->
  exists g', scatter_acc g ev = Ok g' /\ length g' = length g /\ forall i, i < length g -> nth i g' 0 = nth i g 0 + cnt ev i.
Proof.
  induction ev as [|l ev IH]; intros g H.
  - exists g. split; [reflexivity|]. split; [reflexivity|]. intros. unfold cnt. cbn. lia.
  - inversion H as [|? ? H1 H2]; subst. cbn [scatter_acc]. destruct (Nat.ltb_spec (tl_global l) (length g)); [|lia].
    destruct (IH (upd g (tl_global l) (nth (tl_global l) g 0 + 1))) as (g' & E & L & V).
    { rewrite upd_length. exact H2. }
    rewrite upd_length in L, V. exists g'. split; [exact E|]. split; [exact L|]. intros i Hi. rewrite V by exact Hi.
    unfold cnt. cbn [filter]. unfold at_ at 2. destruct (Nat.eqb_spec (tl_global l) i) as [<-|N]; cbn [length].
    + rewrite (nth_error_nth (upd g _ _) _ 0 (nth_error_upd_same _ _ H0)). lia.
    + assert (nth_error (upd g (tl_global l) (nth (tl_global l) g 0 + 1)) i = nth_error g i) as E2 by now apply nth_error_upd_other.
      destruct (nth_error g i) as [x|] eqn:E3; [|apply nth_error_None in E3; lia].
      rewrite (nth_error_nth _ _ 0 E2), (nth_error_nth _ _ 0 E3). lia.
Qed.

(** ** Offsets *)
Lemma local_offsets_app a : forall o b, local_offsets o (a ++ b) = (local_offsets o a ++ local_offsets (o + sumn a) b)%list.
Proof.
  induction a as [|x a IH]; intros o b; cbn [app local_offsets sumn fold_right]; [f_equal; lia|].
  rewrite IH. f_equal. cbn [sumn]. do 2 f_equal. cbn. lia.
Qed.
Lemma local_offsets_shift a : forall o k, map (fun x => x + k) (local_offsets o a) = local_offsets (o + k) a.
Proof. induction a as [|x a IH]; intros o k; [reflexivity|]. cbn. rewrite IH. do 2 f_equal. lia. Qed.
Lemma local_offsets_length a : forall o, length (local_offsets o a) = length a.
Proof. induction a; intros; [reflexivity|]. cbn. now rewrite IHa. Qed.
Lemma local_offsets_nth a : forall o i, i < length a -> nth_error (local_offsets o a) i = Some (o + sumn (firstn i a)).
Proof.
  induction a as [|x a IH]; intros o i H; [cbn in H; lia|]. destruct i as [|i]; cbn [local_offsets nth_error firstn].
  - cbn. f_equal. lia.
  - rewrite IH by (cbn in H; lia). cbn. f_equal. lia.
Qed.
Lemma cut_concat {A} sizes : forall g : list A, sumn sizes = length g -> concat (cut sizes g) = g.
Proof.
  induction sizes as [|n r IH]; intros g H; cbn in *; [destruct g; [reflexivity|discriminate]|].
  rewrite IH; [apply firstn_skipn|]. rewrite skipn_length. lia.
Qed.
Lemma sumn_concat l : sumn (map sumn l) = sumn (concat l).
Proof. induction l as [|x l IH]; [reflexivity|]. cbn [map concat]. rewrite sumn_app, <- IH. reflexivity. Qed.

Lemma go_aux blocks : forall pre,
  concat (map (fun me => map (fun x => x + sumn (firstn me (map sumn (pre ++ blocks)))) (local_offsets 0 (nth me (pre ++ blocks)%list [])))
              (seq (length pre) (length blocks)))
  = local_offsets (sumn (concat pre)) (concat blocks).
Proof.
  induction blocks as [|b r IH]; intros pre; [reflexivity|]. cbn [length seq map concat].
  rewrite local_offsets_app, local_offsets_shift. rewrite app_nth2 by lia. rewrite Nat.sub_diag. cbn [nth].
  rewrite map_app, firstn_app, map_length, Nat.sub_diag. cbn [firstn]. rewrite app_nil_r, firstn_all2 by (rewrite map_length; lia).
  rewrite sumn_concat. f_equal.
  specialize (IH (pre ++ [b])%list). rewrite app_length in IH. cbn [length] in IH. rewrite Nat.add_1_r in IH.
  rewrite <- app_assoc in IH. cbn [app] in IH. rewrite map_app in IH. cbn [map] in IH. 
  rewrite concat_app, sumn_app in IH. cbn [concat] in IH. rewrite app_nil_r in IH. exact IH.
Qed.
Lemma global_offsets_ok sizes g : sumn sizes = length g -> global_offsets (cut sizes g) = local_offsets 0 g.
Proof.
  intros H. unfold global_offsets. pose proof (go_aux (cut sizes g) []) as X. cbn [app length concat] in X.
  rewrite (cut_concat _ _ H) in X. exact X.
Qed.

(** ** Positions *)
Definition below (ls : list text_line) (g : nat) : nat := sumn (map (cnt ls) (iota g)).
Definition pos (ls : list text_line) (l : text_line) : nat := below ls (tl_global l) + tl_device l.
Lemma below_S ls g : below ls (S g) = below ls g + cnt ls g.
Proof. unfold below, iota. rewrite seq_S, map_app, sumn_app. cbn. lia. Qed.
Lemma below_le ls g h : g <= h -> below ls g <= below ls h.
Proof. intros H. induction H; [lia|]. rewrite below_S. lia. Qed.
Lemma cnt_perm a b g : Permutation a b -> cnt a g = cnt b g.
Proof.
  intros H. unfold cnt. induction H; cbn; auto; try (destruct (at_ g x); cbn; now rewrite ?IHPermutation).
  - destruct (at_ g x), (at_ g y); reflexivity.
  - congruence.
Qed.
Lemma below_perm a b g : Permutation a b -> below a g = below b g.
Proof. intros H. unfold below. f_equal. apply map_ext. intros. now apply cnt_perm. Qed.
Lemma device_lt ls l : numbered ls -> In l ls -> tl_device l < cnt ls (tl_global l).
Proof.
  intros N I. destruct (N (tl_global l)) as (n & P). pose proof (Permutation_length P) as L. rewrite map_length in L.
  unfold iota in L. rewrite seq_length in L. unfold cnt, at_. rewrite L.
  assert (In (tl_device l) (iota n)) as X.
  { eapply Permutation_in; [exact P|]. apply in_map. apply filter_In. split; [exact I|apply Nat.eqb_refl]. }
  apply in_iota in X. exact X.
Qed.
Lemma below_total ls m : Forall (fun l => tl_global l < m) ls -> below ls m = length ls.
Proof.
  induction 1 as [|l ls H _ IH].
  - unfold below, cnt. cbn. induction m; [reflexivity|]. unfold iota in *. rewrite seq_S, map_app, sumn_app, IHm. reflexivity.
  - cbn [length]. rewrite <- IH. clear -H. assert (forall k, below (l :: ls) k = below ls k + (if tl_global l <? k then 1 else 0)) as X.
    { induction k; [reflexivity|]. rewrite !below_S, IHk. unfold cnt. cbn [filter]. unfold at_ at 1.
      destruct (Nat.eqb_spec (tl_global l) k), (Nat.ltb_spec (tl_global l) k), (Nat.ltb_spec (tl_global l) (S k)); cbn [length]; lia. }
    rewrite X. destruct (Nat.ltb_spec (tl_global l) m); lia.
Qed.
Lemma pos_lt ls m l : Forall (fun l => tl_global l < m) ls -> numbered ls -> In l ls -> pos ls l < length ls.
Proof.
  intros F N I. rewrite <- (below_total F). unfold pos. pose proof (device_lt _ N I).
  assert (tl_global l < m) by (apply (proj1 (Forall_forall _ _) F); exact I).
  pose proof (below_le ls (g := S (tl_global l)) (h := m)). rewrite below_S in H1. lia.
Qed.
Lemma pos_before ls a b : numbered ls -> In a ls -> In b ls -> pos ls a < pos ls b -> before a b.
Proof.
  intros N Ia Ib H. unfold pos in H. pose proof (device_lt _ N Ia). pose proof (device_lt _ N Ib). unfold before.
  destruct (lt_eq_lt_dec (tl_global a) (tl_global b)) as [[L|E]|L].
  - now left.
  - right. rewrite E in H. lia.
  - pose proof (below_le ls (g := S (tl_global b)) (h := tl_global a) L). rewrite below_S in H2. lia.
Qed.
Lemma filter_filter {A} (f : A -> bool) l : filter f (filter f l) = filter f l.
Proof. induction l as [|x l IH]; cbn; [reflexivity|]. destruct (f x) eqn:E; cbn; rewrite ?E, IH; reflexivity. Qed.

Lemma pair_dec (x y : nat * nat) : {x = y} + {x <> y}.
Proof. decide equality; apply Nat.eq_dec. Qed.
Lemma NoDup_pairs ls : numbered ls -> NoDup (map (fun l => (tl_global l, tl_device l)) ls).
Proof.
  intros N. rewrite (NoDup_count_occ pair_dec).
  intros (g, d). destruct (N g) as (n & P).
  assert (NoDup (map tl_device (filter (fun l => tl_global l =? g) ls))) as D.
  { eapply Permutation_NoDup; [apply Permutation_sym; exact P|]. apply seq_NoDup. }
  rewrite (NoDup_count_occ Nat.eq_dec) in D. specialize (D d). clear N P n.
  etransitivity; [|exact D]. clear D. induction ls as [|l ls IH]; [apply le_n|]. cbn [map filter].
  destruct (Nat.eqb_spec (tl_global l) g) as [E|E]; cbn [map count_occ].
  - destruct (Nat.eq_dec (tl_device l) d) as [E2|E2], (pair_dec (tl_global l, tl_device l) (g, d)) as [E3|E3]; try lia.
    exfalso. inversion E3. contradiction.
  - destruct (pair_dec (tl_global l, tl_device l) (g, d)) as [E3|E3]; [|exact IH]. exfalso. inversion E3. contradiction.
Qed.

(** ** The array of lines *)
Lemma positions_ok off tot ls : forall ev, (forall l, In l ev -> nth_error off (tl_global l) = Some (below tot (tl_global l))) ->
  incl ev ls -> positions off ev = Ok (map (fun l => (pos tot l, tl_text l)) ev).
Proof.
  induction ev as [|l ev IH]; intros H I; [reflexivity|]. cbn [positions map]. rewrite (H l) by now left.
  rewrite IH; [reflexivity| |]; intros x Hx; [apply H|apply I]; now right.
Qed.

Lemma NoDup_map_inv' {A B} (f : A -> B) l : NoDup (map f l) -> forall x y, In x l -> In y l -> f x = f y -> x = y.
Proof.
  induction l as [|a l IH]; [intros _ x y []|]. cbn. intros H x y [<-|Hx] [<-|Hy] E; inversion H; subst; auto.
  - exfalso. apply H2. rewrite E. now apply in_map.
  - exfalso. apply H2. rewrite <- E. now apply in_map.
Qed.

(** Lines arranged by position. *)
Lemma arranged {A} (p : A -> nat) (l : list A) : NoDup (map p l) -> (forall x, In x l -> p x < length l) ->
  exists out, Permutation out l /\ forall i x, nth_error out i = Some x -> p x = i.
Proof.
  intros N B.
  assert (Permutation (map p l) (iota (length l))) as P.
  { apply NoDup_Permutation_bis; [exact N| |].
    - unfold iota. now rewrite seq_length, map_length.
    - intros y Hy. apply in_map_iff in Hy as (x & <- & Hx). apply in_iota. auto. }
  apply Permutation_sym in P. destruct (Permutation_map_inv _ _ P) as (out & E & P2). exists out. split; [now apply Permutation_sym|].
  intros i x Hx. assert (nth_error (iota (length l)) i = Some (p x)) as X by (rewrite E; now apply map_nth_error).
  unfold iota in X. assert (i < length l) as Hi.
  { rewrite <- (seq_length (length l) 0). apply nth_error_Some. congruence. }
  rewrite (nth_error_nth' _ 0) in X by now rewrite seq_length. rewrite seq_nth in X by exact Hi. inversion X. reflexivity.
Qed.

Lemma scatter_arranged {A} (p : A -> nat) (t : A -> str) (ev out : list A) :
  Permutation ev out -> (forall i x, nth_error out i = Some x -> p x = i) ->
  ga_scatter (ga_new str (length out)) (map (fun l => (p l, t l)) ev) = Ok (map Some (map t out)).
Proof.
  intros P O. assert (forall x, In x out -> p x < length out) as B.
  { intros x Hx. apply In_nth_error in Hx as (i & Hi). rewrite (O _ _ Hi). apply nth_error_Some. congruence. }
  assert (NoDup out) as N.
  { apply NoDup_nth_error. intros i j Hi E. destruct (nth_error out i) as [x|] eqn:Ei; [|apply nth_error_None in Ei; lia].
    rewrite <- (O _ _ Ei). apply O. congruence. }
  destruct (@ga_puts_keyed str A p (fun l => [t l]) ev (ga_new str (length out))) as (g' & E & L & V & W).
  - eapply Permutation_NoDup; [apply Permutation_sym; exact P|exact N].
  - intros k Hk. rewrite ga_new_length. cbn [length]. specialize (B k (Permutation_in _ P Hk)). lia.
  - intros k k' Hk Hk' Ne. cbn [length]. 
    assert (p k <> p k'); [|lia]. intros E. apply Ne. clear -P O E Hk Hk'.
    apply (Permutation_in _ P) in Hk, Hk'. apply In_nth_error in Hk as (i & Hi), Hk' as (j & Hj).
    pose proof (O _ _ Hi). pose proof (O _ _ Hj). congruence.
  - unfold ga_scatter. rewrite map_map. cbn [fst snd]. rewrite E. f_equal. apply nth_error_ext. intros i.
    destruct (nth_error out i) as [x|] eqn:Ei.
    + specialize (V x 0 (Permutation_in _ (Permutation_sym P) (nth_error_In _ _ Ei))). cbn in V. rewrite (O _ _ Ei), Nat.add_0_r in V.
      rewrite V by lia. rewrite map_map. symmetry. rewrite (map_nth_error _ _ _ Ei). reflexivity.
    + apply nth_error_None in Ei. transitivity (@None (option str)); [|symmetry]; apply nth_error_None.
      * rewrite L, ga_new_length. exact Ei.
      * rewrite !map_length. exact Ei.
Qed.

(** Reading the blocks of all processes gives the whole array. *)
Lemma read_blocks sizes (xs : list str) : sumn sizes = length xs ->
  exists r, oall (map (fun p => ga_get (map Some xs) (offset sizes p) (nth p sizes 0)) (iota (length sizes))) = Ok r /\ concat r = xs.
Proof.
  intros H. exists (cut sizes xs). split; [|now apply cut_concat].
  assert (forall pre suf, (pre ++ suf)%list = sizes -> 
    oall (map (fun p => ga_get (map Some xs) (offset sizes p) (nth p sizes 0)) (seq (length pre) (length suf)))
    = Ok (cut suf (skipn (sumn pre) xs))) as X; [|exact (X [] sizes eq_refl)].
  intros pre suf. revert pre. induction suf as [|n suf IH]; intros pre E; [reflexivity|]. cbn [length seq map oall cut].
  assert (offset sizes (length pre) = sumn pre) as E1.
  { unfold offset. rewrite <- E, firstn_app, Nat.sub_diag, firstn_all. cbn [firstn]. now rewrite app_nil_r. }
  assert (nth (length pre) sizes 0 = n) as E2 by (rewrite <- E, app_nth2, Nat.sub_diag by lia; reflexivity).
  assert (sumn pre + (n + sumn suf) = length xs) as E3 by (rewrite <- H, <- E, sumn_app; reflexivity).
  assert (ga_get (map Some xs) (sumn pre) n = Ok (firstn n (skipn (sumn pre) xs))) as E4.
  { unfold ga_get. rewrite map_length. destruct (Nat.leb_spec (sumn pre + n) (length xs)); [|lia].
    now rewrite skipn_map, firstn_map, all_written_map. }
  rewrite E1, E2, E4. cbn [obind].
  specialize (IH (pre ++ [n])%list). rewrite app_length in IH. cbn [length] in IH. rewrite Nat.add_1_r in IH.
  rewrite IH by (rewrite <- app_assoc; exact E). cbn [obind]. do 3 f_equal. rewrite sumn_app. cbn.
  rewrite Nat.add_0_r. clear. revert xs n. induction (sumn pre) as [|k IHk]; intros xs n; [reflexivity|].
  destruct xs; cbn [skipn Nat.add]; [now rewrite skipn_nil|]. apply IHk.
Qed.

Lemma gmax_spec procs : Forall (fun l => tl_global l < gmax procs) (concat procs).
Proof.
  induction procs as [|ls r IH]; [constructor|]. cbn [concat gmax fold_right]. fold (gmax r). apply Forall_app. split.
  - assert (Forall (fun l => tl_global l < local_gmax ls) ls) as X.
    { clear. induction ls as [|l ls IH]; constructor; cbn [local_gmax fold_right]; fold (local_gmax ls).
      - lia.
      - eapply Forall_impl; [|exact IH]. cbv beta; intros; lia. }
    eapply Forall_impl; [|exact X]. cbv beta; intros; lia.
  - eapply Forall_impl; [|exact IH]. cbv beta; intros; lia.
Qed.

Lemma write_data_block_ok dist procs ev1 ev2 :
  distributes dist -> numbered (concat procs) -> Permutation ev1 (concat procs) -> Permutation ev2 (concat procs) ->
  exists out, Permutation out (concat procs) /\ in_order before out /\
    write_data_block dist procs ev1 ev2 = Ok (map tl_text out).
Proof.
  intros D N P1 P2. set (ls := concat procs) in *. pose proof (gmax_spec procs) as G. fold ls in G.
  assert (forall l, In l ls -> pos ls l < length ls) as PL by (intros l Hl; exact (pos_lt _ G N Hl)).
  assert (NoDup (map (pos ls) ls)) as ND.
  { assert (forall k, incl k ls -> NoDup (map (fun l => (tl_global l, tl_device l)) k) -> NoDup (map (pos ls) k)) as X.
    { induction k as [|a k IH]; intros I H; [constructor|]. cbn in *. inversion H as [|? ? H1 H2]; subst. constructor.
      - intros Hi. apply H1. apply in_map_iff in Hi as (b & E & Hb). apply in_map_iff. exists b. split; [|exact Hb].
        assert (In a ls) as Ia by (apply I; now left). assert (In b ls) as Ib by (apply I; now right).
        pose proof (device_lt _ N Ia). pose proof (device_lt _ N Ib). unfold pos in E.
        destruct (lt_eq_lt_dec (tl_global a) (tl_global b)) as [[L|E']|L].
        + pose proof (below_le ls (g := S (tl_global a)) (h := tl_global b) L) as Q. rewrite below_S in Q. lia.
        + rewrite E' in *. f_equal. lia.
        + pose proof (below_le ls (g := S (tl_global b)) (h := tl_global a) L) as Q. rewrite below_S in Q. lia.
      - apply IH; [|exact H2]. intros x Hx. apply I. now right. }
    apply X; [apply incl_refl|]. now apply NoDup_pairs. }
  destruct (arranged (pos ls) ls ND PL) as (out & PO & O).
  exists out. split; [exact PO|]. split.
  { intros i j a b Hij Ha Hb. apply (pos_before _ _ N).
    - eapply Permutation_in; [exact PO|]. eapply nth_error_In; exact Ha.
    - eapply Permutation_in; [exact PO|]. eapply nth_error_In; exact Hb.
    - rewrite (O _ _ Ha), (O _ _ Hb). exact Hij. }
  unfold write_data_block. destruct (Nat.eqb_spec (gmax procs) 0) as [Z|Z].
  { rewrite Z in G. destruct ls as [|l r]; [|inversion G; lia]. apply Permutation_sym, Permutation_nil in PO. subst. reflexivity. }
  destruct (scatter_acc_ok (ev := ev1) (repeat 0 (gmax procs))) as (c & E & L & V).
  { rewrite repeat_length. eapply Permutation_Forall; [apply Permutation_sym; exact P1|exact G]. }
  rewrite repeat_length in L, V. rewrite E. cbn [obind].
  assert (c = map (cnt ls) (iota (gmax procs))) as Ec.
  { apply nth_ext with (d := 0) (d' := 0); [unfold iota; now rewrite map_length, seq_length|]. intros i Hi. rewrite L in Hi.
    rewrite V by exact Hi. rewrite nth_repeat. rewrite (nth_indep _ 0 (cnt ls 0)) by (unfold iota; now rewrite map_length, seq_length).
    unfold iota. rewrite map_nth, seq_nth by exact Hi. now apply cnt_perm. }
  assert (sumn c = length ls) as Es by (rewrite Ec; exact (below_total G)).
  rewrite global_offsets_ok by (rewrite L; apply D). rewrite sumn_concat, cut_concat by (rewrite L; apply D). rewrite Es.
  rewrite (positions_ok (local_offsets 0 c) ls (ls := ls)).
  - cbn [obind]. rewrite <- (Permutation_length PO).
    rewrite (@scatter_arranged _ (pos ls) tl_text ev2 out); [|etransitivity; [exact P2|now apply Permutation_sym]|exact O]. cbn [obind].
    destruct (@read_blocks (dist (length out)) (map tl_text out)) as (r & E1 & E2); [rewrite map_length; apply D|].
    rewrite E1. cbn [obind]. now rewrite E2.
  - intros l Hl. apply (Permutation_in _ P2) in Hl. apply (proj1 (Forall_forall _ _) G) in Hl.
    rewrite local_offsets_nth by (rewrite L; exact Hl). f_equal. cbn [Nat.add]. unfold below. rewrite Ec. f_equal.
    rewrite firstn_map. f_equal. unfold iota. rewrite <- (Nat.sub_add (tl_global l) (gmax procs)) by lia.
    rewrite Nat.add_comm, seq_app, firstn_app, seq_length, Nat.sub_diag. cbn [firstn]. rewrite app_nil_r.
    rewrite firstn_all2 by (rewrite seq_length; lia). reflexivity.
  - intros x Hx. eapply Permutation_in; [exact P2|exact Hx].
Qed.

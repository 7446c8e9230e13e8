(** Proofs about NetworkAnalytics. *)
From Verif Require Import Prelude GAModel GAProofs NetModel NetSpec NetProofs3 DCModel DCSpec DCProofs AnaModel AnaSpec.
Open Scope nat_scope.

Lemma zsum_app a b : zsum (a ++ b)%list = (zsum a + zsum b)%Z.
Proof. induction a as [|x a IH]; [reflexivity|]. unfold zsum in *. cbn [app fold_right]. lia. Qed.
Lemma zsum_perm a b : Permutation a b -> zsum a = zsum b.
Proof. induction 1; unfold zsum in *; cbn [fold_right]; lia. Qed.
Lemma zsum_concat l : zsum (map zsum l) = zsum (concat l).
Proof. induction l as [|x l IH]; [reflexivity|]. cbn [map concat]. rewrite zsum_app, <- IH. reflexivity. Qed.
Lemma zsum_filter {X} (f : X -> Z) p l : zsum (map (fun x => if p x : bool then f x else 0%Z) l) = zsum (map f (filter p l)).
Proof. induction l as [|x l IH]; [reflexivity|]. cbn [map filter]. destruct (p x); unfold zsum in *; cbn [map fold_right]; lia. Qed.

Lemma key_index name i : (0 <= i < 10000000)%Z -> key_of (Indexed name i) = Ok (name ++ ":" ++ dec i)%string.
Proof.
  intros H. apply (@slot_ok_key (Indexed name i)). cbn. lia.
Qed.

Lemma count_loop_ok d stat idx : (forall i, In i idx -> (Z.of_nat i < 10000000)%Z) ->
  count_loop d stat idx = Ok (Z.of_nat (length (filter (fun i => match int_at d (stat ++ ":" ++ dec (Z.of_nat i))%string with Some s => (0 <? s)%Z | None => true end) idx))).
Proof.
  induction idx as [|i r IH]; intros H; [reflexivity|]. cbn [count_loop filter].
  unfold get_value. rewrite key_index by (split; [lia|apply H; now left]). cbn [obind find_key]. unfold int_at at 1.
  rewrite IH by (intros; apply H; now right).
  destruct (m_find (p_ints d) _) as [s|]; cbn [option_map obind].
  - destruct (0 <? s)%Z; cbn [length]; f_equal; lia.
  - cbn [length]. f_equal. lia.
Qed.
Lemma num_devices_ok number stat d : few number d -> num_devices number stat d = Ok (Z.of_nat (length (devices number stat d))).
Proof.
  intros H. unfold num_devices, get_value, key_of. cbn [obind find_key]. unfold few, devices, int_at in *.
  destruct (m_find (p_ints d) number) as [n|]; cbn [option_map obind].
  - rewrite count_loop_ok; [reflexivity|]. intros i Hi. apply in_iota in Hi. lia.
  - reflexivity.
Qed.

Lemma all_sum_ok (l : list Z) n : length l = n -> all_sum l = repeat (zsum l) n.
Proof. intros <-. reflexivity. Qed.

Section Tot.
Variables (A : Type) (cells : anet -> list A) (act : A -> bool) (obj : A -> dc).
Variable count : dc -> outcome Z.
Variable f : dc -> Z.
Lemma total_gen nets : (forall n x, In n nets -> In x (cells n) -> act x = true -> count (obj x) = Ok (f (obj x))) ->
  obind (oall (map (fun n => obind (oall (map (fun b => if act b then count (obj b) else Ok 0%Z) (cells n))) (fun l => Ok (zsum l))) nets)) (fun l => Ok (all_sum l))
  = Ok (repeat (zsum (map (fun x => f (obj x)) (filter act (flat_map cells nets)))) (length nets)).
Proof.
  intros H.
  rewrite (@oall_map_ok anet Z _ (fun n => zsum (map (fun x => f (obj x)) (filter act (cells n))))).
  - cbn [obind]. f_equal. rewrite (@all_sum_ok _ (length nets)) by apply map_length. f_equal.
    rewrite <- (map_map (fun n => map (fun x => f (obj x)) (filter act (cells n))) zsum), zsum_concat. f_equal.
    rewrite concat_map_flat. clear. induction nets as [|n r IH]; [reflexivity|]. cbn [flat_map]. rewrite filter_app, map_app, IH. reflexivity.
  - intros n Hn. rewrite (@oall_map_ok A Z _ (fun x => if act x then f (obj x) else 0%Z)).
    + cbn [obind]. f_equal. apply zsum_filter.
    + intros x Hx. destruct (act x) eqn:E; [|reflexivity]. eapply H; eauto.
Qed.
End Tot.

(** Entries found by global index. *)
Section Find.
Variables (A : Type) (glob : A -> Z) (act : A -> bool) (g : Z).
Definition hit (x : A) : bool := (glob x =? g)%Z && act x.
Lemma local_from_spec l : forall acc, local_from glob act g l acc = match filter hit l with [] => acc | x :: r => Some (last r x) end.
Proof.
  induction l as [|x l IH]; intros acc; [reflexivity|]. cbn [local_from filter]. rewrite IH. unfold hit at 2.
  destruct (glob x =? g)%Z; cbn [andb]; [|reflexivity]. destruct (act x); [|reflexivity].
  destruct (filter hit l) as [|y r] eqn:E; [reflexivity|]. f_equal. cbn [last]. destruct r; [reflexivity|].
  clear. revert x y a. induction r as [|b r IH]; intros x y a; [reflexivity|]. cbn [last] in *. apply (IH x y b).
Qed.
End Find.

Lemma flat_one {X Y} (f : X -> list Y) l y : flat_map f l = [y] ->
  exists pre n post, l = (pre ++ n :: post)%list /\ f n = [y] /\ (forall m, In m pre \/ In m post -> f m = []).
Proof.
  induction l as [|n l IH]; cbn [flat_map]; [discriminate|]. destruct (f n) as [|z r] eqn:E.
  - cbn [app]. intros H. destruct (IH H) as (pre & m & post & -> & Hm & Ho). exists (n :: pre), m, post. split; [reflexivity|]. split; [exact Hm|].
    intros k [[<-|Hk]|Hk]; auto.
  - intros H. cbn [app] in H. injection H as -> H. apply app_eq_nil in H as (-> & H). exists [], n, l. split; [reflexivity|]. split; [exact E|].
    intros m [[]|Hm]. destruct (f m) as [|w q] eqn:Em; [reflexivity|]. exfalso.
    assert (In w (flat_map f l)) by (apply in_flat_map; exists m; rewrite Em; split; [auto|now left]). rewrite H in H0. contradiction.
Qed.
Lemma flat_none {X Y} (f : X -> list Y) l : flat_map f l = [] -> forall n, In n l -> f n = [].
Proof.
  intros H n Hn. destruct (f n) as [|w q] eqn:E; [reflexivity|]. exfalso.
  assert (In w (flat_map f l)) by (apply in_flat_map; exists n; rewrite E; split; [auto|now left]). rewrite H in H0. contradiction.
Qed.
Lemma filter_flat {X Y} (p : Y -> bool) (f : X -> list Y) l : filter p (flat_map f l) = flat_map (fun x => filter p (f x)) l.
Proof. induction l as [|x l IH]; [reflexivity|]. cbn [flat_map]. now rewrite filter_app, IH. Qed.

(** The unique active entry with index [g], seen from its process. *)
Section Where.
Variables (A C : Type) (cells : anet -> list A) (glob : A -> Z) (act : A -> bool) (obj : A -> dc).
Notation look n g := (local_from glob act g (cells n) None).
Variable nets : list anet.
Hypothesis HN : NoDup (map glob (filter act (flat_map cells nets))).
Lemma hits g : filter (hit glob act g) (flat_map cells nets) = filter (fun x => glob x =? g)%Z (filter act (flat_map cells nets)).
Proof. clear. induction (flat_map cells nets) as [|x l IH]; [reflexivity|]. cbn [filter]. unfold hit at 1. destruct (act x); cbn [filter]; destruct (glob x =? g)%Z; cbn [andb]; now rewrite ?IH. Qed.
Lemma uniq_filter (l : list A) x g : NoDup (map glob l) -> In x l -> glob x = g -> filter (fun y => glob y =? g)%Z l = [x].
Proof.
  induction l as [|a l IH]; intros Hn Hi Hg; [contradiction|]. cbn [map] in Hn. inversion Hn as [|? ? Ha Hn']; subst. cbn [filter].
  destruct Hi as [->|Hi].
  - rewrite Z.eqb_refl. f_equal. destruct (filter _ l) as [|y r] eqn:E; [reflexivity|]. exfalso.
    assert (Hy : In y (filter (fun y => glob y =? glob x)%Z l)) by (rewrite E; now left). apply filter_In in Hy as (Hy & Ey).
    apply Z.eqb_eq in Ey. apply Ha. rewrite <- Ey. now apply in_map.
  - destruct (Z.eqb_spec (glob a) (glob x)) as [Ex|]; [|now apply IH]. exfalso. apply Ha. rewrite Ex. now apply in_map.
Qed.
Lemma owner_of x g : In x (filter act (flat_map cells nets)) -> glob x = g ->
  exists pre n post, nets = (pre ++ n :: post)%list /\ look n g = Some x /\ (forall m, In m pre \/ In m post -> look m g = None).
Proof.
  intros Hx Hg. assert (E := uniq_filter _ HN Hx Hg). rewrite <- hits, filter_flat in E.
  apply flat_one in E as (pre & n & post & -> & En & Ho). exists pre, n, post. split; [reflexivity|]. split.
  - rewrite local_from_spec, En. reflexivity.
  - intros m Hm. rewrite local_from_spec, (Ho m Hm). reflexivity.
Qed.
Lemma nobody g : (forall x, In x (filter act (flat_map cells nets)) -> glob x <> g) -> forall n, In n nets -> look n g = None.
Proof.
  intros H n Hn. assert (E : flat_map (fun n => filter (hit glob act g) (cells n)) nets = []).
  { rewrite <- filter_flat, hits. destruct (filter _ (filter act _)) as [|y r] eqn:E; [reflexivity|]. exfalso.
    assert (Hy : In y (filter (fun y => glob y =? g)%Z (filter act (flat_map cells nets)))) by (rewrite E; now left). apply filter_In in Hy as (Hy & Ey).
    apply Z.eqb_eq in Ey. now apply (H y). }
  rewrite local_from_spec, (flat_none _ _ E _ Hn). reflexivity.
Qed.
End Where.

Lemma sum_one pre (c : Z) post : (forall x, In x pre \/ In x post -> x = 0%Z) -> zsum (pre ++ c :: post)%list = c.
Proof.
  intros H. rewrite zsum_app. assert (Z0 : forall l, (forall x, In x l -> x = 0%Z) -> zsum l = 0%Z).
  { induction l as [|x l IH]; intros Hl; [reflexivity|]. unfold zsum in *. cbn [fold_right]. rewrite IH by (intros; apply Hl; now right). rewrite (Hl x) by now left. reflexivity. }
  rewrite (Z0 pre) by auto. unfold zsum. cbn [fold_right]. fold (zsum post). rewrite (Z0 post) by auto. lia.
Qed.
Lemma oall_app {X} (a b : list (outcome X)) : oall (a ++ b)%list = obind (oall a) (fun x => obind (oall b) (fun y => Ok (x ++ y)%list)).
Proof.
  induction a as [|x a IH]; cbn [app oall]; [destruct (oall b); reflexivity|]. destruct x; cbn [obind]; auto. rewrite IH.
  destruct (oall a); cbn [obind]; auto. destruct (oall b); reflexivity.
Qed.

Section OnOne.
Variable look : anet -> option dc.
Lemma on_one (count : dc -> outcome Z) pre n post d c : look n = Some d -> (forall m, In m pre \/ In m post -> look m = None) -> count d = Ok c ->
  obind (oall (map (fun n => match look n with Some d => count d | None => Ok 0%Z end) (pre ++ n :: post)%list)) (fun l => Ok (all_sum l))
  = Ok (repeat c (length (pre ++ n :: post)%list)).
Proof.
  intros Hl Ho Hc.
  rewrite (@oall_map_ok anet Z _ (fun n => match look n with Some d => match count d with Ok c => c | _ => 0%Z end | None => 0%Z end)).
  - cbn [obind]. f_equal. rewrite (@all_sum_ok _ (length (pre ++ n :: post)%list)) by apply map_length. f_equal. rewrite map_app. cbn [map]. rewrite Hl, Hc.
    apply sum_one. intros x [Hx|Hx]; apply in_map_iff in Hx as (m & <- & Hm); rewrite (Ho m); auto.
  - intros m Hm. apply in_app_or in Hm as [Hm|[<-|Hm]]; [rewrite (Ho m); auto|rewrite Hl, Hc; reflexivity|rewrite (Ho m); auto].
Qed.
Lemma on_none (count : dc -> outcome Z) nets : (forall m, In m nets -> look m = None) ->
  obind (oall (map (fun n => match look n with Some d => count d | None => Ok 0%Z end) nets)) (fun l => Ok (all_sum l))
  = Ok (repeat 0%Z (length nets)).
Proof.
  intros H. rewrite (@oall_map_ok anet Z _ (fun _ => 0%Z)).
  - cbn [obind]. f_equal. rewrite (@all_sum_ok _ (length nets)) by apply map_length. f_equal. clear. induction nets as [|n r IH]; [reflexivity|]. unfold zsum in *. cbn [map fold_right]. now rewrite IH.
  - intros m Hm. now rewrite (H m).
Qed.
Lemma info_one t field dev pre n post d old : look n = Some d -> (forall m, In m pre \/ In m post -> look m = None) ->
  get_info t field dev (map look (pre ++ n :: post)%list) old =
  obind (get_value d t (if (dev <? 0)%Z then Plain field else Indexed field dev) (VInt 0))
        (fun x => Ok (map (fun v => if fst x then (true, snd x) else (false, v)) old)).
Proof.
  intros Hl Ho. unfold get_info. rewrite map_map, map_app. cbn [map]. rewrite Hl.
  assert (R : forall l, (forall m, In m l -> look m = None) -> oall (map (fun x => pick t field dev (look x)) l) = Ok (repeat None (length l))).
  { induction l as [|m l IH]; intros H; [reflexivity|]. cbn [map oall]. rewrite (H m) by now left. cbn [pick obind]. rewrite IH by (intros; apply H; now right). reflexivity. }
  rewrite oall_app, R by auto. cbn [obind oall]. unfold pick at 1.
  destruct (get_value d t _ _) as [[b v]| |]; cbn [obind fst snd]; auto. rewrite R by auto. cbn [obind].
  assert (EX : forall k, existsb (fun r : option value => match r with Some _ => true | None => false end) (repeat None k) = false).
  { induction k; [reflexivity|exact IHk]. }
  rewrite existsb_app. cbn [existsb]. rewrite !EX. destruct b; cbn [orb].
  - set (res := (repeat None (length pre) ++ Some v :: repeat None (length post))%list).
    replace (zsum _) with (Z.of_nat (length pre)).
    + rewrite Nat2Z.id. unfold res. rewrite nth_error_app2 by (rewrite repeat_length; lia). rewrite repeat_length, Nat.sub_diag. cbn [nth_error].
      f_equal. clear. induction old as [|o old IH]; [reflexivity|]. cbn [length repeat map]. now rewrite IH.
    + symmetry. unfold res, iota. rewrite app_length. cbn [length]. rewrite !repeat_length, seq_app.
      assert (CA : forall (a b : list nat) (c e : list (option value)), length a = length c -> combine (a ++ b)%list (c ++ e)%list = (combine a c ++ combine b e)%list).
      { clear. induction a as [|x a IH]; intros b [|y c] e H; cbn in *; try discriminate; auto. now rewrite IH by lia. }
      rewrite CA by now rewrite seq_length, repeat_length. rewrite map_app. cbn [seq combine map Nat.add fst snd].
      apply sum_one. intros x [Hx|Hx]; apply in_map_iff in Hx as ([i r] & <- & Hx); apply in_combine_r in Hx; apply repeat_spec in Hx; subst; reflexivity.
  - reflexivity.
Qed.
Lemma info_none t field dev nets old : (forall m, In m nets -> look m = None) ->
  get_info t field dev (map look nets) old = Ok (map (fun v => (false, v)) old).
Proof.
  intros H. unfold get_info. rewrite map_map.
  rewrite (@oall_map_ok anet (option value) _ (fun _ => None)) by (intros m Hm; now rewrite (H m)). cbn [obind].
  replace (existsb _ _) with false; [reflexivity|]. clear. induction nets; cbn; auto.
Qed.
End OnOne.

(** From the distributed network to the whole one. *)
Lemma bus_of_core {B} (l l' : list (bus B)) b : Permutation (map bus_core l) (map bus_core l') -> In b l' ->
  exists b', In b' l /\ bus_core b' = bus_core b.
Proof. intros HP Hb. apply (in_map bus_core) in Hb. rewrite <- HP in Hb. apply in_map_iff in Hb as (b' & E & Hb'). eauto. Qed.
Lemma branch_of_core {B} (l l' : list (branch B)) b : Permutation (map branch_core l) (map branch_core l') -> In b l' ->
  exists b', In b' l /\ branch_core b' = branch_core b.
Proof. intros HP Hb. apply (in_map branch_core) in Hb. rewrite <- HP in Hb. apply in_map_iff in Hb as (b' & E & Hb'). eauto. Qed.
Lemma bus_core_eq {B} (b b' : bus B) : bus_core b = bus_core b' -> b_glob b = b_glob b' /\ b_obj b = b_obj b'.
Proof. unfold bus_core. intros E. injection E; auto. Qed.
Lemma branch_core_eq {B} (b b' : branch B) : branch_core b = branch_core b' -> r_glob b = r_glob b' /\ r_obj b = r_obj b'.
Proof. unfold branch_core. intros E. injection E; auto. Qed.

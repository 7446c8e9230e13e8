(** C20: HashDistribution hands every supplied pair to every process with a copy of the bus or branch. *)
From Verif Require Import Prelude GAModel HdModel HdSpec HdProofs.
From Coq Require Import Reals.

(** Whatever the processes supply, and in whatever order their puts take effect, every process receives, for each of its local copies, exactly the values supplied for its
    key, each as often as it was supplied. The counts are ints. *)
Theorem C20_buses : forall (K V : Type) (keqb : K -> K -> bool) (ord : list nat) (ps : list (hproc K V)),
  (forall a b, keqb a b = true <-> a = b) -> Forall (fun p => length (h_keys p) = length (h_vals p)) ps -> Permutation ord (iota (length ps)) ->
  (0 < Z.of_nat (length ps) < 2 ^ 31)%Z -> (Z.of_nat (length (supplied ps)) < 2 ^ 31)%Z ->
  exists outs, distribute_buses keqb ord ps = Ok outs /\
    Forall2 (fun p out => length (fst out) = length (snd out) /\ Permutation (combine (fst out) (snd out)) (due keqb (h_local p) (supplied ps))) ps outs.
Proof.
  intros K V keqb ord ps Q E P N T.
  assert (sym : forall a b, keqb a b = keqb b a) by (intros a b; apply Bool.eq_true_iff_eq; rewrite !Q; easy).
  destruct (Nat.eq_dec (length (supplied ps)) 0) as [Z|NZ]; [| apply distribute_ok; auto; lia].
  assert (A : forall p, In p ps -> h_keys p = [] /\ h_vals p = []).
  { intros p I. rewrite Forall_forall in E. specialize (E p I).
    apply length_zero_iff_nil in Z. unfold supplied in Z. apply in_split in I as (l1 & l2 & ->). rewrite flat_map_app in Z. cbn in Z.
    apply app_eq_nil in Z as (_ & Z). apply app_eq_nil in Z as (Z & _). destruct (h_keys p), (h_vals p); try discriminate; auto. }
  exists (map (fun p => ([], h_vals p)) ps). split.
  - unfold distribute_buses, distribute. rewrite supplied_length by auto. rewrite Z.
    replace (forallb _ ps) with true; [reflexivity |]. symmetry. apply forallb_forall. rewrite Forall_forall in E. intros p I. apply Nat.eqb_eq. auto.
  - apply length_zero_iff_nil in Z. rewrite Z. clear -A. induction ps as [|p ps IH]; cbn; constructor; [| apply IH; intros; apply A; now right].
    destruct (A p) as (_ & ->); [now left |]. cbn. split; auto. unfold due. cbn. rewrite flat_map_nil. constructor.
Qed.
Print Assumptions C20_buses.

(** The same in terms of single values: a local copy receives a value exactly when some process supplied it for its key. *)
Theorem C20_buses_values : forall (K V : Type) (keqb : K -> K -> bool) (ord : list nat) (ps : list (hproc K V)),
  (forall a b, keqb a b = true <-> a = b) -> Forall (fun p => length (h_keys p) = length (h_vals p)) ps -> Permutation ord (iota (length ps)) ->
  (0 < Z.of_nat (length ps) < 2 ^ 31)%Z -> (Z.of_nat (length (supplied ps)) < 2 ^ 31)%Z ->
  exists outs, distribute_buses keqb ord ps = Ok outs /\
    Forall2 (fun p out => forall j v, In (j, v) (combine (fst out) (snd out)) <-> exists k q, nth_error (h_local p) j = Some k /\ In q ps /\ In (k, v) (combine (h_keys q) (h_vals q))) ps outs.
Proof.
  intros K V keqb ord ps Q E P N T. destruct (@C20_buses K V keqb ord ps Q E P N T) as (outs & O & F). exists outs. split; auto.
  eapply Forall2_weaken; [| exact F]. cbn beta. intros p out (_ & R) j v. split.
  - intros I. apply (Permutation_in _ R) in I. apply in_due in I as (k & k' & J & M & I). apply Q in M. subst k'. unfold supplied in I. apply in_flat_map in I as (q & I & I'). eauto.
  - intros (k & q & J & I & I'). apply (Permutation_in _ (Permutation_sym R)). apply in_due. exists k, k. repeat split; auto; [now apply Q |]. apply in_flat_map. eauto.
Qed.
Print Assumptions C20_buses_values.

(** Branches, keyed by the ordered pair of their end buses: the same when anything is supplied anywhere, or when branch_ids is passed in empty. *)
Theorem C20_branches : forall (K V : Type) (keqb : K -> K -> bool) (ord : list nat) (ps : list (hproc K V)),
  (forall a b, keqb a b = true <-> a = b) -> Forall (fun p => length (h_keys p) = length (h_vals p)) ps -> Permutation ord (iota (length ps)) ->
  (0 < Z.of_nat (length ps) < 2 ^ 31)%Z -> (Z.of_nat (length (supplied ps)) < 2 ^ 31)%Z -> (supplied ps <> [] \/ forall p, In p ps -> h_ids p = []) ->
  exists outs, distribute_branches keqb ord ps = Ok outs /\
    Forall2 (fun p out => length (fst out) = length (snd out) /\ Permutation (combine (fst out) (snd out)) (due keqb (h_local p) (supplied ps))) ps outs.
Proof.
  intros K V keqb ord ps Q E P N T D.
  assert (sym : forall a b, keqb a b = keqb b a) by (intros a b; apply Bool.eq_true_iff_eq; rewrite !Q; easy).
  destruct (Nat.eq_dec (length (supplied ps)) 0) as [Z|NZ]; [| apply distribute_ok; auto; lia].
  destruct D as [D|D]; [apply length_zero_iff_nil in Z; contradiction |].
  destruct (@C20_buses K V keqb ord ps Q E P N T) as (outs & O & F). exists outs. split; auto. rewrite <- O.
  unfold distribute_branches, distribute_buses, distribute. rewrite supplied_length by auto. rewrite Z. destruct (forallb _ ps); auto. cbn. f_equal. apply map_ext_in. intros p I. now rewrite D.
Qed.
Print Assumptions C20_branches.

(** It fails for branches otherwise: with nothing supplied, whatever branch_ids held before the call is still there and has no value beside it. *)
Theorem C20_branches_stale_refuted : forall (K V : Type) (keqb : K -> K -> bool) (k : K) (n : nat),
  exists ps : list (hproc K V), supplied ps = [] /\ Forall (fun p => length (h_keys p) = length (h_vals p)) ps /\ distribute_branches keqb [0] ps = Ok [([n], [])].
Proof. intros K V keqb k n. exists [HProc [k] [] [] [n]]. repeat split; [repeat constructor]. Qed.
Print Assumptions C20_branches_stale_refuted.

Lemma cut_1_2 : cut 2 2 1 = 1%Z.
Proof.
  unfold cut, delta. replace (IZR 2 / IZR 2)%R with (IZR 1) by field. rewrite (dbl_int 1) by lia. rewrite Rmult_1_l, (dbl_int 1) by lia. apply Flocq.Core.Raux.Ztrunc_IZR.
Qed.
(** The order is not the same everywhere: two processes with a copy of the same bus, each supplying a value for it, receive the two values in opposite orders, so a caller
    that keeps the last (or first) value ends with copies that differ. *)
Theorem C20_order_refuted : forall (K V : Type) (keqb : K -> K -> bool) (k : K) (x y : V), keqb k k = true ->
  distribute_buses keqb [0; 1] [HProc [k] [k] [x] []; HProc [k] [k] [y] []] = Ok [([0; 0], [x; y]); ([0; 0], [y; x])].
Proof.
  intros K V keqb k x y R. unfold distribute_buses, distribute. cbn [forallb map h_keys h_vals length Nat.eqb andb sumn Nat.add].
  change (ga_puts _ _) with (@Ok (garray (K * V)) [Some (k, x); Some (k, y)]). cbn [obind iota length seq combine map fst snd].
  change (Z.of_nat 2) with 2%Z. unfold collect. change (Z.to_nat 2) with 2. cbn [iota seq map].
  change ((Z.of_nat 0 + Z.of_nat 0) mod 2)%Z with 0%Z. change ((Z.of_nat 1 + Z.of_nat 0) mod 2)%Z with 1%Z.
  change ((Z.of_nat 0 + Z.of_nat 1) mod 2)%Z with 1%Z. change ((Z.of_nat 1 + Z.of_nat 1) mod 2)%Z with 0%Z.
  unfold part. change (0 <? 2 - 1)%Z with true. change (1 <? 2 - 1)%Z with false. cbv iota. change (0 + 1)%Z with 1%Z. rewrite cut_0, cut_1_2.
  unfold get_part, lookup. cbn. change (Pos.to_nat 1) with 1. cbn. rewrite R. reflexivity.
Qed.
Print Assumptions C20_order_refuted.

(** Two processes, a bus held by both and one held only by the first; the second supplies a value for each, the first one for the shared bus. *)
Definition hd_world : list (hproc nat nat) := [HProc [10; 20] [20] [7] []; HProc [20] [10; 20] [8; 9] []].
Example C20_buses_nonvacuous : Forall (fun p => length (h_keys p) = length (h_vals p)) hd_world /\ Permutation [1; 0] (iota (length hd_world)) /\
  supplied hd_world = [(20, 7); (10, 8); (20, 9)] /\ due Nat.eqb [10; 20] (supplied hd_world) = [(0, 8); (1, 7); (1, 9)] /\
  due Nat.eqb [20] (supplied hd_world) = [(0, 7); (0, 9)].
Proof. repeat split; [repeat constructor | apply perm_swap]. Qed.

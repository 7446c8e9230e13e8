(** C30: network analytics count every device of the whole network once. *)
From Verif Require Import Prelude GAModel NetModel NetSpec NetProofs3 NetProps DCModel DCSpec AnaModel AnaSpec AnaProofs.
Open Scope nat_scope.

(** ** Totals *)
(** Every process gets the number of in-service devices of the whole network, ghosts not counted. *)
Theorem C30_totals :
  forall buses branches nets, distributes buses branches nets ->
    Forall (fun b => few "GENERATOR_NUMBER" (b_obj b) /\ few "LOAD_NUMBER" (b_obj b)) buses ->
    Forall (fun r => few "BRANCH_NUM_ELEMENTS" (r_obj r)) branches ->
    total_bus num_generators nets =
      Ok (repeat (zsum (map (fun b => Z.of_nat (length (devices "GENERATOR_NUMBER" "GENERATOR_STAT" (b_obj b)))) buses)) (length nets)) /\
    total_bus num_loads nets =
      Ok (repeat (zsum (map (fun b => Z.of_nat (length (devices "LOAD_NUMBER" "LOAD_STATUS" (b_obj b)))) buses)) (length nets)) /\
    total_branch num_lines nets =
      Ok (repeat (zsum (map (fun r => Z.of_nat (length (devices "BRANCH_NUM_ELEMENTS" "BRANCH_STATUS" (r_obj r)))) branches)) (length nets)) /\
    total_buses nets = repeat (Z.of_nat (length buses)) (length nets) /\
    total_branches nets = repeat (Z.of_nat (length branches)) (length nets).
Proof.
  intros buses branches nets (HB & HR) FB FR.
  assert (KB : forall n (x : bus dc), In n nets -> In x (n_buses n) -> b_active x = true -> exists b, In b buses /\ b_obj b = b_obj x).
  { intros n x Hn Hx Ha. destruct (@bus_of_core dc buses (filter (@b_active dc) (all_buses nets)) x (Permutation_sym HB)) as (b & Hb & E).
    - apply filter_In. split; [|exact Ha]. apply in_flat_map. eauto.
    - exists b. split; [exact Hb|]. now apply bus_core_eq. }
  assert (KR : forall n (x : branch dc), In n nets -> In x (n_branches n) -> r_active x = true -> exists b, In b branches /\ r_obj b = r_obj x).
  { intros n x Hn Hx Ha. destruct (@branch_of_core dc branches (filter (@r_active dc) (all_branches nets)) x (Permutation_sym HR)) as (b & Hb & E).
    - apply filter_In. split; [|exact Ha]. apply in_flat_map. eauto.
    - exists b. split; [exact Hb|]. now apply branch_core_eq. }
  assert (PB : forall f : dc -> Z, zsum (map (fun x : bus dc => f (b_obj x)) (filter (@b_active dc) (flat_map (@n_buses dc dc) nets))) = zsum (map (fun b => f (b_obj b)) buses)).
  { intros f. apply zsum_perm. rewrite <- (map_map (@bus_core dc) (fun c => f (snd (fst c)))). rewrite <- (map_map (@bus_core dc) (fun c => f (snd (fst c)))).
    apply Permutation_map. exact HB. }
  assert (PR : forall f : dc -> Z, zsum (map (fun x : branch dc => f (r_obj x)) (filter (@r_active dc) (flat_map (@n_branches dc dc) nets))) = zsum (map (fun b => f (r_obj b)) branches)).
  { intros f. apply zsum_perm. rewrite <- (map_map (@branch_core dc) (fun c => f (snd c))). rewrite <- (map_map (@branch_core dc) (fun c => f (snd c))).
    apply Permutation_map. exact HR. }
  rewrite Forall_forall in FB, FR.
  repeat split.
  - unfold total_bus. rewrite (@total_gen _ (@n_buses dc dc) (@b_active dc) (@b_obj dc) num_generators (fun d => Z.of_nat (length (devices "GENERATOR_NUMBER" "GENERATOR_STAT" d)))).
    + now rewrite (PB (fun d => Z.of_nat (length (devices "GENERATOR_NUMBER" "GENERATOR_STAT" d)))).
    + intros n x Hn Hx Ha. destruct (KB n x Hn Hx Ha) as (b & Hb & <-). apply num_devices_ok. now apply FB.
  - unfold total_bus. rewrite (@total_gen _ (@n_buses dc dc) (@b_active dc) (@b_obj dc) num_loads (fun d => Z.of_nat (length (devices "LOAD_NUMBER" "LOAD_STATUS" d)))).
    + now rewrite (PB (fun d => Z.of_nat (length (devices "LOAD_NUMBER" "LOAD_STATUS" d)))).
    + intros n x Hn Hx Ha. destruct (KB n x Hn Hx Ha) as (b & Hb & <-). apply num_devices_ok. now apply FB.
  - unfold total_branch. rewrite (@total_gen _ (@n_branches dc dc) (@r_active dc) (@r_obj dc) num_lines (fun d => Z.of_nat (length (devices "BRANCH_NUM_ELEMENTS" "BRANCH_STATUS" d)))).
    + now rewrite (PR (fun d => Z.of_nat (length (devices "BRANCH_NUM_ELEMENTS" "BRANCH_STATUS" d)))).
    + intros n x Hn Hx Ha. destruct (KR n x Hn Hx Ha) as (b & Hb & <-). apply num_devices_ok. now apply FR.
  - unfold total_buses. rewrite (@all_sum_ok _ (length nets)) by apply map_length. f_equal.
    rewrite <- (map_length bus_core buses), <- (Permutation_length HB), map_length. unfold all_buses. clear.
    induction nets as [|n r IH]; [reflexivity|]. cbn [map flat_map]. rewrite filter_app, app_length, Nat2Z.inj_add, <- IH. reflexivity.
  - unfold total_branches. rewrite (@all_sum_ok _ (length nets)) by apply map_length. f_equal.
    rewrite <- (map_length branch_core branches), <- (Permutation_length HR), map_length. unfold all_branches. clear.
    induction nets as [|n r IH]; [reflexivity|]. cbn [map flat_map]. rewrite filter_app, app_length, Nat2Z.inj_add, <- IH. reflexivity.
Qed.
Print Assumptions C30_totals.

(** ... in particular after the network has been partitioned. *)
Theorem C30_totals_after_partition :
  forall (nets nets' : list (net dc dc)) dist ord1 ord2 part,
    fresh nets -> answer_ok nets part -> all_branches nets <> [] ->
    length dist = length nets -> sumn dist = length (all_buses nets) ->
    Permutation ord1 (map (fun b => (b_glob b, b_orig b)) (all_buses nets)) ->
    Permutation ord2 (combine (map (@b_glob dc) (all_buses nets)) (concat part)) ->
    partition nets dist ord1 ord2 part = Ok nets' ->
    distributes (all_buses nets) (all_branches nets) nets'.
Proof. intros. unfold distributes. eapply C10_active_exactly_once; eauto. Qed.
Print Assumptions C30_totals_after_partition.

(** ** One bus or branch *)
Theorem C30_on_one_bus :
  forall buses branches nets b, distributes buses branches nets -> NoDup (map (@b_glob dc) buses) -> In b buses ->
    (few "GENERATOR_NUMBER" (b_obj b) ->
       on_bus num_generators (b_glob b) nets = Ok (repeat (Z.of_nat (length (devices "GENERATOR_NUMBER" "GENERATOR_STAT" (b_obj b)))) (length nets))) /\
    (few "LOAD_NUMBER" (b_obj b) ->
       on_bus num_loads (b_glob b) nets = Ok (repeat (Z.of_nat (length (devices "LOAD_NUMBER" "LOAD_STATUS" (b_obj b)))) (length nets))) /\
    (forall t field dev old, bus_info t field dev (b_glob b) nets old =
       obind (get_value (b_obj b) t (if (dev <? 0)%Z then Plain field else Indexed field dev) (VInt 0))
             (fun x => Ok (map (fun v => if fst x then (true, snd x) else (false, v)) old))).
Proof.
  intros buses branches nets b (HB & _) HN Hb.
  destruct (@bus_of_core dc (filter (@b_active dc) (all_buses nets)) buses b HB Hb) as (b' & Hb' & E). apply bus_core_eq in E as (Eg & Eo).
  assert (HN' : NoDup (map (@b_glob dc) (filter (@b_active dc) (flat_map (@n_buses dc dc) nets)))).
  { change (fun b : bus dc => b_glob b) with (@b_glob dc) in *.
    rewrite (map_ext (@b_glob dc) (fun b => snd (fst (fst (bus_core b))))) in HN by reflexivity.
    rewrite (map_ext (@b_glob dc) (fun b => snd (fst (fst (bus_core b))))) by reflexivity.
    rewrite <- (map_map (@bus_core dc) (fun c => snd (fst (fst c)))) in HN |- *.
    eapply Permutation_NoDup; [|exact HN]. apply Permutation_map. symmetry. exact HB. }
  destruct (@owner_of (bus dc) (@n_buses dc dc) (@b_glob dc) (@b_active dc) nets HN' b' (b_glob b) Hb' Eg) as (pre & n & post & -> & Hl & Ho).
  rewrite <- Eo.
  assert (Hl' : option_map (@b_obj dc) (local_bus n (b_glob b)) = Some (b_obj b')) by (unfold local_bus; now rewrite Hl).
  assert (Ho' : forall m, In m pre \/ In m post -> option_map (@b_obj dc) (local_bus m (b_glob b)) = None) by (intros m Hm; unfold local_bus; now rewrite Ho).
  assert (OB : forall count c, count (b_obj b') = Ok c -> on_bus count (b_glob b) (pre ++ n :: post)%list = Ok (repeat c (length (pre ++ n :: post)%list))).
  { intros count c Hc. unfold on_bus. rewrite <- (@on_one (fun n => option_map (@b_obj dc) (local_bus n (b_glob b))) count pre n post _ c Hl' Ho' Hc).
    f_equal. f_equal. apply map_ext. intros m. destruct (local_bus m (b_glob b)); reflexivity. }
  split; [|split].
  - intros Hf. apply OB. now apply num_devices_ok.
  - intros Hf. apply OB. now apply num_devices_ok.
  - intros t field dev old. unfold bus_info. exact (@info_one (fun n => option_map (@b_obj dc) (local_bus n (b_glob b))) t field dev pre n post _ old Hl' Ho').
Qed.
Print Assumptions C30_on_one_bus.

Theorem C30_on_one_branch :
  forall buses branches nets r, distributes buses branches nets -> NoDup (map (@r_glob dc) branches) -> In r branches ->
    (few "BRANCH_NUM_ELEMENTS" (r_obj r) ->
       on_branch num_lines (r_glob r) nets = Ok (repeat (Z.of_nat (length (devices "BRANCH_NUM_ELEMENTS" "BRANCH_STATUS" (r_obj r)))) (length nets))) /\
    (forall t field dev old, branch_info t field dev (r_glob r) nets old =
       obind (get_value (r_obj r) t (if (dev <? 0)%Z then Plain field else Indexed field dev) (VInt 0))
             (fun x => Ok (map (fun v => if fst x then (true, snd x) else (false, v)) old))).
Proof.
  intros buses branches nets b (_ & HB) HN Hb.
  destruct (@branch_of_core dc (filter (@r_active dc) (all_branches nets)) branches b HB Hb) as (b' & Hb' & E). apply branch_core_eq in E as (Eg & Eo).
  assert (HN' : NoDup (map (@r_glob dc) (filter (@r_active dc) (flat_map (@n_branches dc dc) nets)))).
  { rewrite (map_ext (@r_glob dc) (fun b => fst (fst (fst (branch_core b))))) in HN by reflexivity.
    rewrite (map_ext (@r_glob dc) (fun b => fst (fst (fst (branch_core b))))) by reflexivity.
    rewrite <- (map_map (@branch_core dc) (fun c => fst (fst (fst c)))) in HN |- *.
    eapply Permutation_NoDup; [|exact HN]. apply Permutation_map. symmetry. exact HB. }
  destruct (@owner_of (branch dc) (@n_branches dc dc) (@r_glob dc) (@r_active dc) nets HN' b' (r_glob b) Hb' Eg) as (pre & n & post & -> & Hl & Ho).
  rewrite <- Eo.
  assert (Hl' : option_map (@r_obj dc) (local_branch n (r_glob b)) = Some (r_obj b')) by (unfold local_branch; now rewrite Hl).
  assert (Ho' : forall m, In m pre \/ In m post -> option_map (@r_obj dc) (local_branch m (r_glob b)) = None) by (intros m Hm; unfold local_branch; now rewrite Ho).
  split.
  - intros Hf. unfold on_branch.
    rewrite <- (@on_one (fun n => option_map (@r_obj dc) (local_branch n (r_glob b))) num_lines pre n post _ _ Hl' Ho' (@num_devices_ok _ _ _ Hf)).
    f_equal. f_equal. apply map_ext. intros m. destruct (local_branch m (r_glob b)); reflexivity.
  - intros t field dev old. unfold branch_info. exact (@info_one (fun n => option_map (@r_obj dc) (local_branch n (r_glob b))) t field dev pre n post _ old Hl' Ho').
Qed.
Print Assumptions C30_on_one_branch.

(** An index nobody has: no devices, no values, the caller's variables untouched. *)
Theorem C30_unknown_index :
  forall buses branches nets g, distributes buses branches nets ->
    (~ In g (map (@b_glob dc) buses) -> forall count t field dev old,
       on_bus count g nets = Ok (repeat 0%Z (length nets)) /\ bus_info t field dev g nets old = Ok (map (fun v => (false, v)) old)) /\
    (~ In g (map (@r_glob dc) branches) -> forall count t field dev old,
       on_branch count g nets = Ok (repeat 0%Z (length nets)) /\ branch_info t field dev g nets old = Ok (map (fun v => (false, v)) old)).
Proof.
  intros buses branches nets g (HB & HR). split; intros Hg count t field dev old.
  - assert (H : forall n, In n nets -> option_map (@b_obj dc) (local_bus n g) = None).
    { intros n Hn. unfold local_bus. rewrite (@nobody (bus dc) (@n_buses dc dc) (@b_glob dc) (@b_active dc) nets g); auto.
      intros x Hx E. apply Hg. destruct (@bus_of_core dc buses _ x (Permutation_sym HB) Hx) as (b & Hb & Ec). apply bus_core_eq in Ec as (Ec & _).
      rewrite <- E, <- Ec. now apply in_map. }
    split; [|exact (@info_none (fun n => option_map (@b_obj dc) (local_bus n g)) t field dev nets old H)].
    unfold on_bus. rewrite <- (@on_none (fun n => option_map (@b_obj dc) (local_bus n g)) count nets H).
    f_equal. f_equal. apply map_ext. intros m. destruct (local_bus m g); reflexivity.
  - assert (H : forall n, In n nets -> option_map (@r_obj dc) (local_branch n g) = None).
    { intros n Hn. unfold local_branch. rewrite (@nobody (branch dc) (@n_branches dc dc) (@r_glob dc) (@r_active dc) nets g); auto.
      intros x Hx E. apply Hg. destruct (@branch_of_core dc branches _ x (Permutation_sym HR) Hx) as (b & Hb & Ec). apply branch_core_eq in Ec as (Ec & _).
      rewrite <- E, <- Ec. now apply in_map. }
    split; [|exact (@info_none (fun n => option_map (@r_obj dc) (local_branch n g)) t field dev nets old H)].
    unfold on_branch. rewrite <- (@on_none (fun n => option_map (@r_obj dc) (local_branch n g)) count nets H).
    f_equal. f_equal. apply map_ext. intros m. destruct (local_branch m g); reflexivity.
Qed.
Print Assumptions C30_unknown_index.

(** Two processes, three buses (one with two generators, one of them out of service, and a ghost of it), two branches. *)
Definition gen_dc : dc := Build_dc [("GENERATOR_NUMBER", 2%Z); ("GENERATOR_STAT:0", 1%Z); ("GENERATOR_STAT:1", 0%Z); ("LOAD_NUMBER", 1%Z)]%string [] [] [] [] [] [].
Definition line_dc : dc := Build_dc [("BRANCH_NUM_ELEMENTS", 2%Z); ("BRANCH_STATUS:0", 1%Z)]%string [] [] [] [] [] [].
Definition ex_b (a : bool) (o g : Z) (nb : list nat) (d : dc) : bus dc := Bus a o g nb d false.
Definition ex_ana : list anet :=
  [Net [ex_b true 10 0 [0]%nat gen_dc; ex_b false 20 1 [0]%nat gen_dc] [Branch true 5 10 20 0 1 0 1 line_dc] (-1) [] [];
   Net [ex_b true 20 1 [0; 1]%nat gen_dc; ex_b true 30 2 [1]%nat dc_empty; ex_b false 10 0 [0]%nat gen_dc]
       [Branch false 5 10 20 0 1 2 0 line_dc; Branch true 6 20 30 1 2 0 1 line_dc] (-1) [] []]%Z.
Definition ex_buses : list (bus dc) := [ex_b true 20 1 []%nat gen_dc; ex_b true 10 0 []%nat gen_dc; ex_b true 30 2 []%nat dc_empty]%Z.
Definition ex_branches : list (branch dc) := [Branch true 5 10 20 0 1 0 1 line_dc; Branch true 6 20 30 1 2 0 1 line_dc]%Z.
Example C30_nonvacuous :
  distributes ex_buses ex_branches ex_ana /\ NoDup (map (@b_glob dc) ex_buses) /\ NoDup (map (@r_glob dc) ex_branches) /\
  Forall (fun b => few "GENERATOR_NUMBER" (b_obj b) /\ few "LOAD_NUMBER" (b_obj b)) ex_buses /\
  Forall (fun r => few "BRANCH_NUM_ELEMENTS" (r_obj r)) ex_branches /\
  total_bus num_generators ex_ana = Ok [2; 2]%Z /\ total_branch num_lines ex_ana = Ok [4; 4]%Z /\ on_bus num_loads 1 ex_ana = Ok [1; 1]%Z.
Proof.
  split; [split; [apply perm_swap|apply Permutation_refl]|].
  split; [cbn; repeat constructor; cbn; intuition discriminate|]. split; [cbn; repeat constructor; cbn; intuition discriminate|].
  split; [repeat constructor; vm_compute; discriminate|]. split; [repeat constructor; vm_compute; discriminate|].
  split; [|split]; vm_compute; reflexivity.
Qed.

(** ** Findings *)
(** The branches connected to a bus are looked up with the original bus number as position: an exception, or the branches of
    another bus. *)
Theorem C30_connected_branches_refuted :
  connected_branches 0 ex_ana = Throw /\
  connected_branches 0 [Net [ex_b true 1 0 [0]%nat dc_empty; ex_b true 2 1 [0; 1]%nat dc_empty; ex_b true 0 2 [1]%nat dc_empty]
                            [Branch true 0 1 2 0 1 0 1 dc_empty; Branch true 1 2 0 1 2 1 2 dc_empty] (-1) [] []]%Z = Ok [0; 1]%Z.
Proof. split; vm_compute; reflexivity. Qed.
Print Assumptions C30_connected_branches_refuted.
(** The ends of a branch are looked up with the global branch index as position: an exception on a process with fewer branches, ... *)
Theorem C30_branch_endpoints_refuted :
  branch_endpoints 6 ex_ana = Throw /\ branch_endpoints 0 ex_ana = Throw.
Proof. split; vm_compute; reflexivity. Qed.
Print Assumptions C30_branch_endpoints_refuted.
(** ... and it works on one process when the branches are stored in the order of their global indices. *)
Theorem C30_branch_endpoints_single_partial :
  forall n i r, (forall j x, nth_error (n_branches n) j = Some x -> r_glob x = Z.of_nat j /\ r_active x = true) ->
    nth_error (n_branches n) i = Some r -> branch_endpoints (Z.of_nat i) [n] = Ok (r_o1 r, r_o2 r).
Proof.
  intros n i r H Hi. unfold branch_endpoints. cbn [map oall].
  assert (Z1 : zget (n_branches n) (Z.of_nat i) = Some r). { unfold zget. destruct (Z.ltb_spec (Z.of_nat i) 0); [lia|]. now rewrite Nat2Z.id. }
  rewrite Z1. destruct (H _ _ Hi) as (-> & Ha). destruct (Z.ltb_spec (Z.of_nat i) 0); [lia|]. rewrite Z1, Ha. cbn. f_equal. f_equal; lia.
Qed.
Print Assumptions C30_branch_endpoints_single_partial.

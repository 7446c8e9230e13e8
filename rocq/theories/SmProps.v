(** C62: dense matrices whose rows are supplied by the components of a network. *)
From Verif Require Import Prelude GAModel NetModel NetSpec NetProofs3 IdxModel IdxSpec GenModel GenSpec GenProofs2 GenProps SmModel SmSpec SmProofs SmProofs2.
Open Scope nat_scope.

(** The whole way for a network on any number of processes: the constructor gets through on all processes; one function per kind of component explains the row indices on all
    processes, copies included, and the indices of the active components of a process are its slab of the matrix, each once; the matrix has all rows; the rows of every
    active component are where its indices say; pushing the matrix back changes nothing.
    [bval] and [rval]: the rows of a component; [bsz] and [rsz]: slabSize; [own]: the process that holds a row; [ord]: any order of the insertions of all processes.
    Partial: every process supplies a row (see C62_no_rows_refuted). *)
Theorem C62_slab_partial : forall (B R V : Type) (zero : V) (bval : B -> list (list V)) (rval : R -> list (list V)) (bsz : B -> nat * nat) (rsz : R -> nat * nat)
    (nets : list (net B R)) (ncols : nat) (own : nat -> nat),
  indexed nets -> branch_indexed nets -> Forall wired nets -> 0 < ncols ->
  (forall b, fst (bsz b) = length (bval b) /\ (0 < fst (bsz b) -> snd (bsz b) = ncols) /\ Forall (fun row => length row = ncols) (bval b)) ->
  (forall r, fst (rsz r) = length (rval r) /\ (0 < fst (rsz r) -> snd (rsz r) = ncols) /\ Forall (fun row => length row = ncols) (rval r)) ->
  let len q := elements (fun b => length (bval b)) (fun r => length (rval r)) (at_rank nets q) in
  (forall q, q < length nets -> 0 < len q) -> holds_element (length nets) len own ->
  construct (map (slab_dims bsz rsz) nets) = map (fun _ => Built ncols) nets /\
  exists offs0, oall (map (rank_offsets (fun b => fst (bsz b)) (fun r => fst (rsz r))) nets) = Ok offs0 /\
    forall ordB ordR, Permutation ordB (flat_map (bus_puts (fun b => fst (bsz b)) (fun r => fst (rsz r)) nets offs0) (iota (length nets))) ->
      Permutation ordR (flat_map (branch_puts (fun b => fst (bsz b)) (fun r => fst (rsz r)) nets offs0) (iota (length nets))) ->
      exists (fb fr : Z -> nat),
        let offs := map (fun n => (map (fun b => fb (b_glob b)) (n_buses n), map (fun r => fr (r_glob r)) (n_branches n))) nets in
        gen_indices (fun b => fst (bsz b)) (fun r => fst (rsz r)) nets ordB ordR = Ok offs /\
        (forall q, q < length nets ->
           Permutation (ranges (fun b => length (bval b)) (fun r => length (rval r)) fb fr (at_rank nets q)) (seq (sumn (map len (iota q))) (len q))) /\
        forall ord, Permutation ord (flat_map (fun q => map (pair q) (slab_loads ncols (sumn (map len (iota q))) (len q) (nth q (slab_world bval rval nets offs) (GProc [] [])))) (iota (length nets))) ->
          exists m, map_to_matrix zero own (map len (iota (length nets))) ncols ord = Ok m /\ d_rows m = sumn (map len (iota (length nets))) /\ d_cols m = ncols /\
            (forall n b j row, In n nets -> In b (n_buses n) -> b_active b = true -> nth_error (bval (b_obj b)) j = Some row -> row_is m (fb (b_glob b) + j) row) /\
            (forall n r j row, In n nets -> In r (n_branches n) -> r_active r = true -> nth_error (rval (r_obj r)) j = Some row -> row_is m (fr (r_glob r) + j) row) /\
            slab_to_network ncols m (slab_world bval rval nets offs) = Ok (slab_world bval rval nets offs).
Proof.
  intros B R V zero bval rval bsz rsz nets ncols own I1 I2 W NC HB HR len HL HO. split.
  { rewrite (@construct_uniform ncols); [now rewrite map_map|exact NC| |].
    - intros ds d I J L. apply in_map_iff in I as (n & <- & _). unfold slab_dims in J. apply in_app_or in J as [J|J]; apply in_map_iff in J as (b & <- & _); [now apply HB|now apply HR].
    - intros ds I. apply in_map_iff in I as (n & <- & I). apply In_nth with (d := Net [] [] (-1)%Z [] []) in I as (q & Hq & <-). specialize (HL q Hq). unfold len, at_rank, elements in HL.
      set (n := nth q nets (Net [] [] (-1)%Z [] [])) in *. unfold slab_dims.
      assert (X : forall {T : Type} (f : T -> nat) l, 0 < sumn (map f l) -> exists x, In x l /\ 0 < f x).
      { intros T f l. induction l as [|x l IH]; cbn [map sumn]; [cbn; lia|]. intros L. destruct (Nat.eq_dec (f x) 0) as [E|E]; [|exists x; split; [now left|lia]].
        destruct IH as (y & J & K); [change (sumn (f x :: map f l)) with (f x + sumn (map f l)) in L; lia|]. exists y. split; [now right|exact K]. }
      destruct (Nat.eq_dec (sumn (map (fun b => length (bval (b_obj b))) (filter (@b_active B) (n_buses n)))) 0) as [E|E].
      + destruct (X _ (fun r => length (rval (r_obj r))) (filter (@r_active R) (n_branches n))) as (r & J & K); [unfold n in *; lia|].
        exists (rsz (r_obj r)). split; [apply in_app_iff; right; apply in_map_iff; eauto|]. destruct (HR (r_obj r)) as (-> & _). exact K.
      + destruct (X _ (fun b => length (bval (b_obj b))) (filter (@b_active B) (n_buses n))) as (b & J & K); [lia|].
        exists (bsz (b_obj b)). split; [apply in_app_iff; left; apply in_map_iff; eauto|]. destruct (HB (b_obj b)) as (-> & _). exact K. }
  destruct (@C19_index_ranges B R (fun b => fst (bsz b)) (fun r => fst (rsz r)) nets I1 I2 W) as (offs0 & E0 & G). exists offs0. split; [exact E0|].
  intros ordB ordR PB PR. destruct (G ordB ordR PB PR) as (fb & fr & E & RG). exists fb, fr. cbv zeta. split; [exact E|].
  assert (EL : forall n, elements (fun b => fst (bsz b)) (fun r => fst (rsz r)) n = elements (fun b => length (bval b)) (fun r => length (rval r)) n).
  { intros n. unfold elements. f_equal; f_equal; apply map_ext; intros x; [apply HB|apply HR]. }
  assert (RA : forall n, ranges (fun b => fst (bsz b)) (fun r => fst (rsz r)) fb fr n = ranges (fun b => length (bval b)) (fun r => length (rval r)) fb fr n).
  { intros n. unfold ranges. f_equal; rewrite !flat_map_concat_map; f_equal; apply map_ext; intros x; [destruct (HB (b_obj x)) as (-> & _)|destruct (HR (r_obj x)) as (-> & _)]; reflexivity. }
  assert (RG' : forall q, q < length nets -> Permutation (ranges (fun b => length (bval b)) (fun r => length (rval r)) fb fr (at_rank nets q))
      (seq (sumn (map (elements (fun b => length (bval b)) (fun r => length (rval r))) (firstn q nets))) (elements (fun b => length (bval b)) (fun r => length (rval r)) (at_rank nets q)))).
  { intros q Hq. specialize (RG q Hq). rewrite RA, EL in RG. rewrite (map_ext _ _ EL) in RG. exact RG. }
  assert (SUM : forall q, q <= length nets -> sumn (map len (iota q)) = sumn (map (elements (fun b => length (bval b)) (fun r => length (rval r))) (firstn q nets))).
  { intros q Hq. f_equal. unfold len. clear - Hq. revert q Hq. induction nets as [|n ns IH]; intros q Hq; [cbn in Hq; replace q with 0 by lia; reflexivity|]. destruct q as [|q]; [reflexivity|]. cbn [firstn map]. unfold iota. cbn [seq map]. f_equal.
    rewrite <- seq_shift, map_map. rewrite <- IH by (cbn in Hq; lia). reflexivity. }
  split; [intros q Hq; rewrite SUM by lia; now apply RG'|].
  intros ord PO. set (w := slab_world bval rval nets _) in *.
  assert (SL : slabbed w len) by exact (@world_slabbed B R V bval rval nets fb fr RG').
  assert (WE : w = map (fun n => GProc (map (fun b => GComp (b_active b) (seq (fb (b_glob b)) (length (bval (b_obj b)))) (bval (b_obj b))) (n_buses n))
                      (map (fun r => GComp (r_active r) (seq (fr (r_glob r)) (length (rval (r_obj r)))) (rval (r_obj r))) (n_branches n))) nets) by apply world_eq.
  assert (LW : length w = length nets) by (rewrite WE; apply map_length).
  assert (TA : tabled ncols w).
  { rewrite WE. intros p c row Ip Ic Ir. apply in_map_iff in Ip as (n & <- & _). cbn [gp_buses gp_brs] in Ic. apply in_app_or in Ic as [Ic|Ic]; apply in_map_iff in Ic as (b & <- & _); cbn [gc_vals] in Ir.
    - destruct (HB (b_obj b)) as (_ & _ & F). rewrite Forall_forall in F. auto.
    - destruct (HR (r_obj b)) as (_ & _ & F). rewrite Forall_forall in F. auto. }
  rewrite <- LW in *. destruct (@round_ok V zero w len own ncols SL TA HO ord HL PO) as (m & EM & ER & EC & A & U).
  exists m. split; [exact EM|]. split; [exact ER|]. split; [exact EC|].
  assert (AT : forall o vals j row, map (fun i => map (d_at m i) (iota ncols)) (seq o (length vals)) = vals -> nth_error vals j = Some row -> row_is m (o + j) row).
  { intros o vals j row M N. unfold row_is. rewrite EC. rewrite <- M, nth_error_map in N. destruct (nth_error (seq o (length vals)) j) as [i|] eqn:Q; [|discriminate]. injection N as <-.
    assert (LJ : j < length vals) by (apply nth_error_Some_lt in Q || (assert (X : nth_error (seq o (length vals)) j <> None) by congruence; apply nth_error_Some in X; now rewrite seq_length in X)).
    apply nth_error_nth with (d := 0) in Q. rewrite seq_nth in Q by exact LJ. now subst. }
  split; [|split; [|exact U]].
  - intros n b j row In_ Ib Ha N. apply (AT (fb (b_glob b)) (bval (b_obj b)) j row); [|exact N].
    eapply (A _ (GComp (b_active b) (seq (fb (b_glob b)) (length (bval (b_obj b)))) (bval (b_obj b)))).
    + rewrite WE. apply in_map_iff. exists n. split; [reflexivity|exact In_].
    + unfold comps. apply filter_In. split; [|exact Ha]. apply in_app_iff. left. cbn [gp_buses]. apply in_map_iff. eauto.
  - intros n r j row In_ Ir Ha N. apply (AT (fr (r_glob r)) (rval (r_obj r)) j row); [|exact N].
    eapply (A _ (GComp (r_active r) (seq (fr (r_glob r)) (length (rval (r_obj r)))) (rval (r_obj r)))).
    + rewrite WE. apply in_map_iff. exists n. split; [reflexivity|exact In_].
    + unfold comps. apply filter_In. split; [|exact Ha]. apply in_app_iff. right. cbn [gp_brs]. apply in_map_iff. eauto.
Qed.
Print Assumptions C62_slab_partial.

(** A matrix pushed to the network and mapped again into the same matrix is the same matrix, whatever its elements were. *)
Theorem C62_matrix_network_matrix : forall (V : Type) (zero : V) (w : list (gproc (list V))) len own ncols m,
  slabbed w len -> tabled ncols w -> holds_element (length w) len own -> d_rows m = sumn (map len (iota (length w))) -> d_cols m = ncols ->
  exists w', slab_to_network ncols m w = Ok w' /\
    forall ord, Permutation ord (flat_map (fun q => map (pair q) (slab_loads ncols (sumn (map len (iota q))) (len q) (nth q w' (GProc [] [])))) (iota (length w'))) ->
      exists m', remap zero own m ord = Ok m' /\ d_rows m' = d_rows m /\ d_cols m' = d_cols m /\ forall i k, i < d_rows m -> k < d_cols m -> d_at m' i k = d_at m i k.
Proof.
  intros V zero w len own ncols m S T O R C. exists (map_to_network (fun i => map (d_at m i) (iota ncols)) w). split.
  - rewrite <- C. apply slab_to_network_ok. intros p c i I J K L. rewrite R. exact (@idx_lt _ w len S p c i I J K L).
  - intros ord PO. destruct (@remap_ok V zero w len own ncols m ord S T O R C) as (w' & E & G). apply G.
    assert (X : slab_to_network ncols m w = Ok (map_to_network (fun i => map (d_at m i) (iota ncols)) w)).
    { rewrite <- C. apply slab_to_network_ok. intros p c i I J K L. rewrite R. exact (@idx_lt _ w len S p c i I J K L). }
    rewrite E in X. injection X as ->. exact PO.
Qed.
Print Assumptions C62_matrix_network_matrix.

(** The rows of any list of indices, in any order and with repetitions, are delivered in the order asked for. *)
Theorem C62_row_block : forall (V : Type) (m : dense V) (rows : list nat), Forall (fun i => i < d_rows m) rows ->
  row_block m rows = Ok (concat (map (fun i => map (d_at m i) (iota (d_cols m))) rows)).
Proof. intros V m rows F. rewrite row_block_ok by exact F. now rewrite flat_map_concat_map. Qed.
Print Assumptions C62_row_block.

(** No process gets through the constructor unless all do, with the same number of columns, and no component supplies rows of another length (but for length 0, which the
    test does not see). *)
Theorem C62_columns_checked : forall n dss, In (Built n) (construct dss) ->
  construct dss = map (fun _ => Built n) dss /\ forall ds d, In ds dss -> In d ds -> 0 < fst d -> snd d = n \/ snd d = 0.
Proof.
  intros n dss H. destruct (construct_built _ _ H) as (E & S). split; [exact E|]. intros ds d I J L. specialize (S ds I). unfold col_scan in S.
  destruct (col_fold_ok _ _ _ S) as (_ & _ & G). auto.
Qed.
Print Assumptions C62_columns_checked.

(** Finding: whenever the test of the columns fails, process 0 throws and all others wait for it forever. *)
Theorem C62_waiting_refuted : forall dss, (forall n, construct dss <> map (fun _ => Built n) dss) ->
  construct dss = map (fun q => if q =? 0 then Raised else Waiting) (iota (length dss)).
Proof. intros dss H. destruct (construct_cases dss) as [(n & E)|E]; [destruct (H n E)|exact E]. Qed.
Print Assumptions C62_waiting_refuted.

(** Finding: a process without rows counts as one with 0 columns: if another process has rows the constructor fails, although all rows have the same length. *)
Theorem C62_no_rows_refuted : forall n dss ds0, 0 < n -> uniform n dss -> In ds0 dss -> (forall d, In d ds0 -> fst d = 0) -> (exists ds d, In ds dss /\ In d ds /\ 0 < fst d) ->
  construct dss = map (fun q => if q =? 0 then Raised else Waiting) (iota (length dss)).
Proof.
  intros n dss ds0 N U I0 Z (ds & d & I & J & L). destruct (construct_cases dss) as [(k & E)|E]; [exfalso|exact E].
  assert (B : In (Built k) (construct dss)) by (rewrite E; apply in_map_iff; eauto). destruct (construct_built _ _ B) as (_ & S).
  pose proof (S ds0 I0) as S0. pose proof (S ds I) as S1. unfold col_scan in *.
  rewrite (@col_fold_uniform n ds0) in S0 by (eauto || (right; lia)). rewrite (@col_fold_uniform n ds) in S1 by (eauto || (right; lia)).
  assert (X0 : existsb (fun d => 0 <? fst d) ds0 = false).
  { apply Bool.not_true_iff_false. intros X. apply existsb_exists in X as (y & Y & K). rewrite (Z y Y) in K. discriminate. }
  assert (X1 : existsb (fun d => 0 <? fst d) ds = true) by (apply existsb_exists; exists d; split; [exact J|now apply Nat.ltb_lt]).
  rewrite X0 in S0. rewrite X1 in S1. injection S0 as <-. injection S1 as ->. lia.
Qed.
Print Assumptions C62_no_rows_refuted.

(** Finding: the matrix made by intMapToMatrix (the Fortran interface) has the columns once for every process, and mapToNetwork with such a matrix writes past the end of its
    buffer on every process that has rows. *)
Theorem C62_fortran_matrix_refuted : forall (V : Type) (zero : V) own lens ncols ord (m : dense V),
  int_map_to_matrix zero own lens ncols ord = Ok m -> 1 < length lens -> 0 < ncols ->
  d_cols m = length lens * ncols /\
  forall cs, (forall c i, In c cs -> gc_act c = true -> In i (gc_idx c) -> i < d_rows m) -> flat_map gc_idx (filter gc_act cs) <> [] -> slab_unload ncols m cs = UB.
Proof.
  intros V zero own lens ncols ord m E L N.
  assert (G : forall ord (a b : dense V), set_cells own a ord = Ok b -> d_cols b = d_cols a).
  { induction ord0 as [|(q & (i & k) & v) r IH]; intros a b Q; cbn [set_cells] in Q; [congruence|]. destruct (_ && _); [|discriminate]. apply IH in Q. rewrite Q. now destruct (_ =? _). }
  assert (C : d_cols m = length lens * ncols) by (unfold int_map_to_matrix in E; apply G in E; exact E).
  split; [exact C|]. intros cs H NE. unfold slab_unload, slab_rows. rewrite row_block_ok.
  2:{ apply Forall_forall. intros i I. apply in_flat_map in I as (c & I & J). apply filter_In in I as (I & A). eauto. }
  cbn [obind]. set (rows := flat_map gc_idx (filter gc_act cs)) in *.
  assert (LL : forall l : list nat, length (flat_map (fun i => map (d_at m i) (iota (d_cols m))) l) = d_cols m * length l).
  { induction l as [|x l IH]; cbn [flat_map length]; [lia|]. rewrite app_length, IH. unfold iota. rewrite map_length, seq_length. lia. }
  rewrite LL, C. destruct (Nat.eqb_spec (length lens * ncols * length rows) (ncols * length rows)) as [Q|_]; [exfalso|reflexivity].
  destruct rows as [|r rows]; [contradiction|]. cbn [length] in Q.
  assert (1 * (ncols * S (length rows)) < length lens * (ncols * S (length rows))) by (apply Nat.mul_lt_mono_pos_r; [nia|exact L]). nia.
Qed.
Print Assumptions C62_fortran_matrix_refuted.

(** Two processes, three buses and two branches (the example of C19): objects are numbers of rows; a row holds the number of its component and its own. *)
Definition ex_rows (id n : nat) : list (list nat) := map (fun j => [id; j; 7]) (iota n).
Example C62_nonvacuous :
  (forall b : nat, fst (b, 3) = length (ex_rows 1 b) /\ (0 < fst (b, 3) -> snd (b, 3) = 3) /\ Forall (fun row => length row = 3) (ex_rows 1 b)) /\
  (forall q, q < 2 -> 0 < elements (fun b => length (ex_rows 1 b)) (fun r => length (ex_rows 2 r)) (at_rank ex_gen q)) /\
  construct (map (slab_dims (fun b => (b, 3)) (fun r => (r, 3))) ex_gen) = [Built 3; Built 3] /\
  match gen_indices (fun s => s) (fun s => s) ex_gen [(2%Z, 0); (1%Z, 5); (0%Z, 7)] [(1%Z, 2); (0%Z, 6)] with
  | Ok offs =>
      let w := slab_world (ex_rows 1) (ex_rows 2) ex_gen offs in
      match map_to_matrix 0 (fun i => if i <? 5 then 0 else 1) [5; 2] 3
              (map (pair 1) (slab_loads 3 5 2 (nth 1 w (GProc [] []))) ++ map (pair 0) (slab_loads 3 0 5 (nth 0 w (GProc [] []))))%list with
      | Ok m => d_rows m = 7 /\ d_cols m = 3 /\ map (fun i => map (d_at m i) (iota 3)) (iota 7) =
                [[1; 0; 7]; [1; 1; 7]; [2; 0; 7]; [2; 1; 7]; [2; 2; 7]; [1; 0; 7]; [2; 0; 7]] /\ slab_to_network 3 m w = Ok w
      | _ => False
      end
  | _ => False
  end.
Proof.
  split; [|split; [|split]].
  - intros b. cbn [fst snd]. unfold ex_rows, iota. rewrite map_length, seq_length. repeat split; auto. apply Forall_forall. intros row I. apply in_map_iff in I as (j & <- & _). reflexivity.
  - intros [|[|q]] Hq; [vm_compute; lia|vm_compute; lia|lia].
  - vm_compute. reflexivity.
  - vm_compute. repeat split.
Qed.
Example C62_round_nonvacuous :
  slabbed [GProc [GComp true [1; 0] [[3; 4]; [5; 6]]] [GComp true [2] [[7; 8]]]] (fun _ => 3) /\ tabled 2 [GProc [GComp true [1; 0] [[3; 4]; [5; 6]]] [GComp true [2] [[7; 8]]]] /\
  holds_element 1 (fun _ => 3) (fun _ => 0) /\
  slab_to_network 2 (Dense 3 2 (fun i k => 10 * i + k)) [GProc [GComp true [1; 0] [[3; 4]; [5; 6]]] [GComp true [2] [[7; 8]]]] =
    Ok [GProc [GComp true [1; 0] [[10; 11]; [0; 1]]] [GComp true [2] [[20; 21]]]].
Proof.
  split; [split|split; [|split]].
  - intros [|q] Hq; [cbn; apply perm_swap|cbn in Hq; lia].
  - intros p c [<-|[]] Hc; cbn in Hc; intuition (subst; reflexivity).
  - intros p c row [<-|[]] Hc Hr; cbn in Hc; destruct Hc as [<-|[<-|[]]]; cbn in Hr; intuition (subst; reflexivity).
  - intros [|q] i Hq Hi; lia.
  - vm_compute. reflexivity.
Qed.

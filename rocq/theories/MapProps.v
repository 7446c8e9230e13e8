(** C17, C18: matrix and vector mappers. *)
From Verif Require Import Prelude GAModel MapModel MapSpec NetProps MapProofs MapProofs2 MapProofs3.

(** * C17 *)
(** The mapper is built, the matrix has one row (column) per row (column) of every bus, and loading leaves in every
    entry the value of the block it belongs to, combined with what was there by [f]; entries of no block keep their
    value.  For every order of the concurrent operations.  [f] is replacement for mapToMatrix and overwriteMatrix,
    addition for incrementMatrix. *)
Theorem C17_full_matrix : forall (V : Type) (v0 : V) (f : V -> V -> V) w brs rs cs oI1 oI2 oJ1 oJ2 opI opJ,
  numbered w brs -> sizes_agree w brs rs cs -> values_fit w brs rs cs -> NoDup (map fst (blocks w brs)) ->
  Permutation oI1 (flat_map (@bus_I V) w) -> Permutation oI2 (flat_map (@br_I V) w) ->
  Permutation oJ1 (flat_map (@bus_J V) w) -> Permutation oJ2 (flat_map (@br_J V) w) ->
  Permutation opI (iota (length w)) -> Permutation opJ (iota (length w)) ->
  let N := length (all_active w) in
  exists m els, full_map w oI1 oI2 oJ1 oJ2 opI opJ = Ok m /\
    sumn (fm_rows m) = start rs N /\ sumn (fm_cols m) = start cs N /\
    map_elems v0 w m = Ok els /\
    forall a ord, Permutation ord (concat els) ->
      exists a', load_matrix f m a ord = Ok a' /\
        forall k l x y, k < N -> l < N -> x < rs k -> y < cs l ->
          a' (start rs k + x, start cs l + y) =
            expected v0 f (a (start rs k + x, start cs l + y)) (blocks w brs) rs k l x y.
Proof.
  intros V v0 f w brs rs cs oI1 oI2 oJ1 oJ2 opI opJ H1 H2 H3 H4 A1 A2 A3 A4 A5 A6 N.
  destruct (@full_map_ok V v0 w brs rs cs H1 H2 H3 oI1 oI2 oJ1 oJ2 opI opJ A1 A2 A3 A4 A5 A6) as (m & E & Er & Ec & els & Ee & _ & HP & _).
  exists m, els. split; [exact E|]. split; [exact Er|]. split; [exact Ec|]. split; [exact Ee|].
  intros a ord HO. exact (@load_matrix_ok V v0 w brs rs cs H1 H2 f m a els ord Er Ec HP HO H4).
Qed.
Print Assumptions C17_full_matrix.

(** Every row (column) of the matrix is one of those the theorem speaks about, in exactly one way. *)
Theorem C17_every_position : forall sz n i,
  i < start sz n -> exists k a, (k < n /\ a < sz k /\ i = start sz k + a) /\
    forall k' a', k' < n -> a' < sz k' -> i = start sz k' + a' -> k' = k /\ a' = a.
Proof.
  intros sz n i Hi. destruct (@start_covers sz n i Hi) as (k & a & Hk & Ha & E). exists k, a. split; auto. intros k' a' Hk' Ha' E'.
  apply (@start_inj sz k' k a' a Ha' Ha). congruence.
Qed.
Print Assumptions C17_every_position.

(** Every process inserts only into the rows it owns. *)
Theorem C17_rows_local : forall (V : Type) (v0 : V) w brs rs cs oI1 oI2 oJ1 oJ2 opI opJ m els,
  numbered w brs -> sizes_agree w brs rs cs -> values_fit w brs rs cs ->
  Permutation oI1 (flat_map (@bus_I V) w) -> Permutation oI2 (flat_map (@br_I V) w) ->
  Permutation oJ1 (flat_map (@bus_J V) w) -> Permutation oJ2 (flat_map (@br_J V) w) ->
  Permutation opI (iota (length w)) -> Permutation opJ (iota (length w)) ->
  full_map w oI1 oI2 oJ1 oJ2 opI opJ = Ok m -> map_elems v0 w m = Ok els ->
  forall q i j v, q < length w -> In ((i, j), v) (nth q els []) ->
    sumn (firstn q (fm_rows m)) <= i < sumn (firstn q (fm_rows m)) + nth q (fm_rows m) 0.
Proof.
  intros V v0 w brs rs cs oI1 oI2 oJ1 oJ2 opI opJ m els H1 H2 H3 A1 A2 A3 A4 A5 A6 Em Ee q i j v Hq Hin.
  destruct (@full_map_ok V v0 w brs rs cs H1 H2 H3 oI1 oI2 oJ1 oJ2 opI opJ A1 A2 A3 A4 A5 A6) as (m' & E & Er & Ec & els' & Ee' & _ & HP & HL).
  rewrite E in Em. injection Em as <-. rewrite Ee in Ee'. injection Ee' as <-. exact (HL q ((i, j), v) Hq Hin).
Qed.
Print Assumptions C17_rows_local.

(** Two processes, three buses with block sizes 2, 1 and 0 x 2, two branches, one without values; ghosts repeat the
    block sizes of their owners. *)
Definition ex_w : list (mproc Z) :=
  let r1 := MBr 0 1 (Some (2, 1)) (Some [5; 6]%Z) (Some (1, 2)) (Some [7; 8]%Z) in
  let r2 := MBr 1 2 (Some (1, 2)) None (Some (0, 1)) (Some []) in
  [MProc [MBus true 0 (Some (2, 2)) (Some [1; 2; 3; 4]%Z); MBus false 1 (Some (1, 1)) (Some [9]%Z)] [r1];
   MProc [MBus false 0 (Some (2, 2)) (Some [1; 2; 3; 4]%Z); MBus true 1 (Some (1, 1)) (Some [9]%Z); MBus true 2 None None] [r1; r2]].
Definition ex_brs : list (mbr Z) :=
  [MBr 0 1 (Some (2, 1)) (Some [5; 6]%Z) (Some (1, 2)) (Some [7; 8]%Z); MBr 1 2 (Some (1, 2)) None (Some (0, 1)) (Some [])].
Definition ex_rs (k : nat) : nat := match k with 0 => 2 | 1 => 1 | _ => 0 end.
Definition ex_cs (k : nat) : nat := match k with 0 => 2 | 1 => 1 | 2 => 2 | _ => 0 end.
Example C17_nonvacuous :
  numbered ex_w ex_brs /\ sizes_agree ex_w ex_brs ex_rs ex_cs /\ values_fit ex_w ex_brs ex_rs ex_cs /\
  NoDup (map fst (blocks ex_w ex_brs)) /\
  exists m els a', full_map ex_w (rev (flat_map (@bus_I Z) ex_w)) (flat_map (@br_I Z) ex_w) (flat_map (@bus_J Z) ex_w)
                         (flat_map (@br_J Z) ex_w) [1; 0] [0; 1] = Ok m /\ map_elems 0%Z ex_w m = Ok els /\
    map_to_matrix 0%Z m (rev (concat els)) = Ok a' /\
    map (fun i => map (fun j => a' (i, j)) (iota 5)) (iota 3) = [[1; 3; 5; 0; 0]; [2; 4; 6; 0; 0]; [7; 8; 9; 0; 0]]%Z.
Proof.
  split; [|split; [|split; [|split]]].
  - split; [reflexivity|]. split; [repeat constructor; discriminate|]. split.
    + intros p Hp. destruct p as [|[|p]]; [vm_compute; auto|vm_compute; auto|cbn in Hp; lia].
    + repeat constructor; cbn; lia.
  - split; [|split; [|split; [|split]]].
    + intros p b s Hp Hb Es. cbn in Hp. destruct Hp as [<-|[<-|[]]]; cbn in Hb; intuition (subst; cbn in *; try discriminate; injection Es as <-; cbn; auto; try lia).
    + intros r s Hr Es. cbn in Hr. destruct Hr as [<-|[<-|[]]]; cbn in Es; injection Es as <-; cbn; auto.
    + intros r s Hr Es. cbn in Hr. destruct Hr as [<-|[<-|[]]]; cbn in Es; injection Es as <-; cbn; auto.
    + intros k Hk. destruct k as [|[|k]]; [left| |cbn in Hk; lia].
      * eexists _, _, _. split; [left; reflexivity|]. split; [left; reflexivity|]. split; reflexivity.
      * left. eexists _, _, _. split; [left; reflexivity|]. split; [right; left; reflexivity|]. split; reflexivity.
    + intros k Hk. destruct k as [|[|[|k]]]; [left|left|right|cbn in Hk; lia].
      * eexists _, _, _. split; [left; reflexivity|]. split; [left; reflexivity|]. split; reflexivity.
      * eexists _, _, _. split; [left; reflexivity|]. split; [right; left; reflexivity|]. split; reflexivity.
      * eexists _, _. split; [right; left; reflexivity|]. left. split; reflexivity.
  - unfold values_fit. cbn. repeat constructor; cbn; lia.
  - cbn. repeat constructor; cbn; intuition congruence.
  - eexists _, _, _. split; [vm_compute; reflexivity|]. split; [vm_compute; reflexivity|]. split; [vm_compute; reflexivity|vm_compute; reflexivity].
Qed.

(** Finding: a process that owns no bus cannot build the mapper: the range of rows it asks for is not a range. *)
Theorem C17_process_without_buses_refuted : exists (w : list (mproc Z)) r,
  Permutation (all_active w) [0; 1] /\ full_map w (flat_map (@bus_I Z) w) [] (flat_map (@bus_J Z) w) [] [0; 1] [0; 1] = r /\ is_ok r = false.
Proof.
  exists [MProc [MBus true 0 (Some (1, 1)) (Some [3%Z]); MBus true 1 (Some (1, 1)) (Some [4%Z])] []; MProc [] []].
  eexists. split; [reflexivity|]. split; [vm_compute; reflexivity|reflexivity].
Qed.
Print Assumptions C17_process_without_buses_refuted.

(** Finding: check() reports only the last comparison: a branch that disagrees with its buses goes unnoticed. *)
Theorem C17_check_refuted : exists (p : mproc Z) (sz : nat -> nat * nat) r,
  In r (mp_brs p) /\ mr_fwd r = Some (3, 3) /\ sz (mr_i r) = (2, 2) /\ sz (mr_j r) = (2, 2) /\
  check_map false sz (0, 5) p = true.
Proof.
  exists (MProc [] [MBr 0 1 (Some (3, 3)) None None None; MBr 1 2 (Some (2, 2)) None None None]), (fun _ => (2, 2)).
  eexists. split; [left; reflexivity|]. repeat split.
Qed.
Print Assumptions C17_check_refuted.

(** * C18 *)
(** The vector is what the buses contribute, process after process and bus after bus: different buses use disjoint
    contiguous ranges and nothing is left over. *)
Theorem C18_vector : forall (V : Type) (v0 : V) (vadd : V -> V -> V), (forall v, vadd v0 v = v) -> forall w,
  Forall (Forall (@fills V)) w ->
  exists loads, oall (map (load_bus w) (iota (length w))) = Ok loads /\
    forall ord, Permutation ord (flat_map (fun q => map (pair q) (nth q loads [])) (iota (length w))) ->
      exists x, map_to_vector vadd v0 w ord = Ok x /\
        sumn (map num_values w) = length (vector_of w) /\
        forall i, i < length (vector_of w) -> x i = nth i (vector_of w) v0.
Proof.
  intros V v0 vadd Hadd w HF.
  assert (EL : oall (map (load_bus w) (iota (length w))) = Ok (map (fun q => combine (seq (vec_start w q) (length (vals_of (nth q w [])))) (vals_of (nth q w []))) (iota (length w)))).
  { apply GAProofs.oall_map_ok. intros q _. now apply load_bus_ok. }
  eexists. split; [exact EL|]. intros ord HO. destruct (@vector_ok V v0 vadd Hadd w ord HF) as (x & E & Hx); [eauto|].
  exists x. split; [exact E|]. split; [now apply total_eq|exact Hx].
Qed.
Print Assumptions C18_vector.

(** Pushing the vector back gives every bus exactly what it contributed. *)
Theorem C18_round_trip : forall (V : Type) (v0 : V) (vadd : V -> V -> V), (forall v, vadd v0 v = v) -> forall w loads ord x,
  Forall (Forall (@fills V)) w -> oall (map (load_bus w) (iota (length w))) = Ok loads ->
  Permutation ord (flat_map (fun q => map (pair q) (nth q loads [])) (iota (length w))) ->
  map_to_vector vadd v0 w ord = Ok x ->
  forall q, q < length w -> map_to_bus w x q = flat_map given (nth q w []).
Proof.
  intros V v0 vadd Hadd w loads ord x HF EL HO Ex q Hq.
  destruct (@vector_ok V v0 vadd Hadd w ord HF) as (x' & E & Hx); [eauto|]. rewrite Ex in E. injection E as <-.
  exact (@bus_ok V v0 w x q HF Hq Hx).
Qed.
Print Assumptions C18_round_trip.

(** The local offset of a bus is where its values start, relative to the process; a bus that contributes nothing has
    none. *)
Theorem C18_local_offset : forall (V : Type) (bs : list (vbus V)) k, k < length bs ->
  nth k (local_offsets 0 bs) ((-1)%Z, 0) =
    match vb_act (nth k bs (VBus false None None)), vb_size (nth k bs (VBus false None None)) with
    | true, Some s => (Z.of_nat (num_values (firstn k bs)), s)
    | _, _ => ((-1)%Z, 0)
    end.
Proof. intros V bs k Hk. exact (@local_offsets_ok V bs 0 k Hk). Qed.
Print Assumptions C18_local_offset.

Definition ex_v : list (list (vbus Z)) :=
  [[VBus true (Some 2) (Some [1; 2]%Z); VBus false (Some 1) (Some [9]%Z); VBus true None None; VBus true (Some 0) (Some [])];
   []; [VBus false (Some 2) (Some [1; 2]%Z); VBus true (Some 3) (Some [3; 4; 5]%Z)]].
Example C18_nonvacuous :
  Forall (Forall (@fills Z)) ex_v /\ vector_of ex_v = [1; 2; 3; 4; 5]%Z /\
  exists loads x, oall (map (load_bus ex_v) (iota 3)) = Ok loads /\
    map_to_vector Z.add 0%Z ex_v (rev (flat_map (fun q => map (pair q) (nth q loads [])) (iota 3))) = Ok x /\
    map x (iota 5) = [1; 2; 3; 4; 5]%Z /\ map_to_bus ex_v x 2 = [[3; 4; 5]]%Z /\ map_to_bus ex_v x 0 = [[1; 2]; []]%Z.
Proof.
  split.
  - repeat constructor; intros s Ha Es; cbn in *; try discriminate; injection Es as <-; eauto.
  - split; [reflexivity|]. eexists _, _. split; [vm_compute; reflexivity|]. split; [vm_compute; reflexivity|]. repeat split.
Qed.

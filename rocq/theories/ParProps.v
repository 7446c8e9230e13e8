(** C05-C08: distributed containers. *)
From Verif Require Import Prelude GAModel ParModel ParSpec ParProofs ParProofs2 ParProofs3.

(** * C08 Shuffler *)
Theorem C08_shuffler_delivers : forall (T : Type) (w : list (list T * list Z)),
  routable w = true -> shuffle w = Ok (map (delivered w) (iota (length w))).
Proof. exact @shuffle_correct. Qed.
Print Assumptions C08_shuffler_delivers.

Theorem C08_nothing_lost_or_duplicated : forall (T : Type) (w : list (list T * list Z)) r,
  routable w = true -> shuffle w = Ok r -> Permutation (concat r) (concat (map fst w)).
Proof.
  intros T w r H E. rewrite (shuffle_correct w H) in E. injection E as <-. exact (delivered_conserves w H).
Qed.
Print Assumptions C08_nothing_lost_or_duplicated.

Theorem C08_bad_destination_is_undefined : forall (T : Type) (w : list (list T * list Z)) p d,
  2 <= length w -> forallb (fun x => length (fst x) =? length (snd x)) w = true ->
  p < length w -> In d (snd (nth p w ([], []))) -> ~ (0 <= d < Z.of_nat (length w))%Z -> shuffle w = UB.
Proof. exact @shuffle_bad_destination. Qed.
Print Assumptions C08_bad_destination_is_undefined.

Example C08_nonvacuous :
  routable [([1; 2; 3], [1; 0; 2]%Z); ([4; 5], [1; 0]%Z); ([], [])] = true /\
  shuffle [([1; 2; 3], [1; 0; 2]%Z); ([4; 5], [1; 0]%Z); ([], [])] = Ok [[2; 5]; [4; 1]; [3]].
Proof. split; reflexivity. Qed.

(** * C06 GlobalStore *)
Theorem C06_stored_vector_is_returned : forall (A : Type) (w : list (list (Z * list A))) pw,
  let all := concat w in
  Forall (fun x => 0 <= fst x)%Z all -> NoDup (map fst all) ->
  Forall (fun x => snd x <> []) all -> all <> [] -> Permutation pw all ->
  exists s, gs_upload w pw = Ok s /\
    (forall i v, In (i, v) all -> gs_getVector s i = Ok v) /\
    (forall i, (i < 0)%Z \/ (forall j, In j (map fst all) -> (j < i)%Z) -> gs_getVector s i = Throw) /\
    (forall i j, (0 <= i)%Z -> In j (map fst all) -> (i < j)%Z -> ~ In i (map fst all) -> gs_getVector s i = UB).
Proof. exact @gs_correct. Qed.
Print Assumptions C06_stored_vector_is_returned.

Theorem C06_bad_indices_throw : forall (A : Type) (w : list (list (Z * list A))) pw,
  (Exists (fun x => fst x < 0)%Z (concat w) \/ ~ NoDup (map fst (concat w))) -> gs_upload w pw = Throw.
Proof. exact @gs_rejects. Qed.
Print Assumptions C06_bad_indices_throw.

(** Finding: the documented "indices with no data" are not readable: the request is for an empty range. *)
Theorem C06_gap_reads_empty_refuted :
  exists (w : list (list (Z * list nat))) s, gs_upload w (concat w) = Ok s /\
    (exists v, In (2%Z, v) (concat w)) /\ gs_getVector s 1 <> Ok [].
Proof.
  exists [[(0%Z, [7])]; [(2%Z, [8; 9])]]. eexists. split; [reflexivity|]. split; [exists [8; 9]; right; now left|discriminate].
Qed.
Print Assumptions C06_gap_reads_empty_refuted.

(** Finding: a store whose vectors are all empty uploads "successfully" but cannot be read. *)
Theorem C06_all_empty_store_refuted :
  exists (w : list (list (Z * list nat))) s, gs_upload w (concat w) = Ok s /\ gs_getVector s 0 = UB.
Proof. exists [[(0%Z, [])]]. eexists. split; reflexivity. Qed.
Print Assumptions C06_all_empty_store_refuted.

Example C06_nonvacuous :
  exists s, gs_upload [[(1%Z, [5; 6]); (0%Z, [7])]; [(2%Z, [8])]] [(2%Z, [8]); (1%Z, [5; 6]); (0%Z, [7])] = Ok s /\
    gs_getVector s 1 = Ok [5; 6] /\ gs_getVector s 3 = Throw.
Proof. eexists. split; [reflexivity|]. split; reflexivity. Qed.

(** * C07 GlobalVector *)
(** Correct when a barrier separates the two operations of each phase ... *)
Theorem C07_values_after_upload_partial :
  forall (A : Type) (zero : A) (own : nat -> nat) (w : list (list (Z * A))) s1 s2,
  let all := concat w in
  Forall (fun x => 0 <= fst x)%Z all -> NoDup (map fst all) -> all <> [] ->
  (forall i, i < extent all -> own i < length w) ->
  Permutation s1 (sched_ops (length w)) -> barrier s1 ->
  Permutation s2 (sched_ops (length w)) -> barrier s2 ->
  exists g, gv_upload zero own w s1 s2 = Ok g /\ length g = extent all /\
    (forall idx, Forall (fun i => 0 <= i < Z.of_nat (extent all))%Z idx ->
       gv_getData g idx = Ok (map (value_at zero all) idx)) /\
    gv_getAllData g = Ok (map (fun i => value_at zero all (Z.of_nat i)) (iota (extent all))).
Proof. exact @gv_correct. Qed.
Print Assumptions C07_values_after_upload_partial.

Theorem C07_bad_indices_throw_partial :
  forall (A : Type) (zero : A) (own : nat -> nat) (w : list (list (Z * A))) s1 s2,
  ~ NoDup (map fst (concat w)) \/ Exists (fun x => fst x < 0)%Z (concat w) \/ concat w = [] ->
  (forall i, i < extent (concat w) -> own i < length w) ->
  Permutation s1 (sched_ops (length w)) -> barrier s1 -> gv_upload zero own w s1 s2 = Throw.
Proof. exact @gv_duplicates_throw. Qed.
Print Assumptions C07_bad_indices_throw_partial.

(** ... but the code has no such barrier.  Finding: an element written by a fast rank is erased by the
    memset of the slow rank that owns it. *)
Theorem C07_values_after_upload_refuted :
  exists (own : nat -> nat) (w : list (list (Z * nat))) s1 s2 g,
  legal 2 s1 /\ legal 2 s2 /\ NoDup (map fst (concat w)) /\ In (1%Z, 42) (concat w) /\
  gv_upload 0 own w s1 s2 = Ok g /\ gv_getData g [1%Z] = Ok [0].
Proof.
  exists (fun i => i), [[(1%Z, 42)]; [(0%Z, 17)]],
    [(false, 0); (false, 1); (true, 0); (true, 1)], [(false, 0); (true, 0); (false, 1); (true, 1)]. eexists.
  split; [|split; [|split; [|split; [|split; reflexivity]]]].
  - split; [apply Permutation_refl|]. intros [|[|p]] Hp; [| |lia].
    + exists [], [(false, 1)], [(true, 1)]. reflexivity.
    + exists [(false, 0)], [(true, 0)], []. reflexivity.
  - split; [apply perm_skip, perm_swap|]. intros [|[|p]] Hp; [| |lia].
    + exists [], [], [(false, 1); (true, 1)]. reflexivity.
    + exists [(false, 0); (true, 0)], [], []. reflexivity.
  - repeat constructor; simpl; intuition lia.
  - now left.
Qed.
Print Assumptions C07_values_after_upload_refuted.

(** Finding: duplicates may go unnoticed when the owner checks before the other rank has counted. *)
Theorem C07_duplicates_throw_refuted :
  exists (own : nat -> nat) (w : list (list (Z * nat))) s1 s2 g,
  legal 2 s1 /\ legal 2 s2 /\ ~ NoDup (map fst (concat w)) /\ gv_upload 0 own w s1 s2 = Ok g.
Proof.
  exists (fun i => 0), [[(0%Z, 42)]; [(0%Z, 17)]],
    [(false, 0); (true, 0); (false, 1); (true, 1)], [(false, 0); (true, 0); (false, 1); (true, 1)]. eexists.
  assert (L : legal 2 [(false, 0); (true, 0); (false, 1); (true, 1)]).
  { split; [apply perm_skip, perm_swap|]. intros [|[|p]] Hp; [| |lia].
    + exists [], [], [(false, 1); (true, 1)]. reflexivity.
    + exists [(false, 0); (true, 0)], [], []. reflexivity. }
  split; [exact L|]. split; [exact L|]. split; [|reflexivity].
  intros H. inversion H as [|? ? Hn _]. apply Hn. now left.
Qed.
Print Assumptions C07_duplicates_throw_refuted.

(** reload after resetElements replaces exactly the named elements (indices that are too large are skipped). *)
Theorem C07_reload_replaces_exactly : forall (A : Type) (g : garray A) (xs order : list (Z * A)),
  Forall (fun x => 0 <= fst x)%Z xs -> NoDup (map fst xs) ->
  Permutation order (gv_reset_keep (length g) xs) ->
  exists g', gv_reload g order = Ok g' /\ length g' = length g /\
    (forall i v, In (i, v) xs -> (i < Z.of_nat (length g))%Z -> gv_getData g' [i] = Ok [v]) /\
    (forall i, ~ In i (map fst xs) -> gv_getData g' [i] = gv_getData g [i]).
Proof. exact (fun A => @gv_reload_correct A (fun i => i)). Qed.
Print Assumptions C07_reload_replaces_exactly.

Example C07_nonvacuous : barrier (sched_ops 2) /\ Permutation (sched_ops 2) (sched_ops 2) /\
  exists g, gv_upload 0 (fun i => i mod 2) [[(2%Z, 42)]; [(0%Z, 17)]] (sched_ops 2) (sched_ops 2) = Ok g /\
    gv_getAllData g = Ok [17; 0; 42] /\
    gv_reset_keep (length g) [(1%Z, 5); (7%Z, 6)] = [(1%Z, 5)].
Proof.
  split; [|split].
  - exists [(false, 0); (false, 1)], [(true, 0); (true, 1)]. repeat split.
  - apply Permutation_refl.
  - eexists. split; [reflexivity|]. split; reflexivity.
Qed.

(** * C05 distributed hash map *)
Theorem C05_int_keys : forall (V : Type) old (w : list (list (Z * V))) (qs : list (list Z)) vs ev pw ev1 pw1 ev2 pw2,
  let P := length w in
  0 < P -> length qs = P ->
  Forall (fun kv => 0 <= fst kv)%Z (concat w) -> concat w <> [] ->
  Forall (fun k => 0 <= k)%Z (concat qs) -> concat qs <> [] ->
  Permutation ev (all_pairs P) -> Permutation pw (all_pairs P) ->
  Permutation ev1 (all_pairs P) -> Permutation pw1 (all_pairs P) ->
  Permutation ev2 (all_pairs P) -> Permutation pw2 (all_pairs P) ->
  exists tabs res, add_pairs hash_int old w ev pw = Ok tabs /\
    get_values Z.eqb hash_int tabs qs vs ev1 pw1 ev2 pw2 = Ok res /\
    forall p, p < P -> exists l, nth p res ([], []) = (map fst l, map snd l) /\
       Permutation l (answers Z.eqb (concat w) (nth p qs [])).
Proof. exact @int_keys. Qed.
Print Assumptions C05_int_keys.

Theorem C05_pair_keys : forall (V : Type) old (w : list (list (Z * Z * V))) (qs : list (list (Z * Z))) vs ev pw ev1 pw1 ev2 pw2,
  let P := length w in
  0 < P -> length qs = P ->
  Forall (fun kv => pair_key_ok (fst kv)) (concat w) -> concat w <> [] ->
  Forall pair_key_ok (concat qs) -> concat qs <> [] ->
  Permutation ev (all_pairs P) -> Permutation pw (all_pairs P) ->
  Permutation ev1 (all_pairs P) -> Permutation pw1 (all_pairs P) ->
  Permutation ev2 (all_pairs P) -> Permutation pw2 (all_pairs P) ->
  exists tabs res, add_pairs hash_pair old w ev pw = Ok tabs /\
    get_values pair_eqb hash_pair tabs qs vs ev1 pw1 ev2 pw2 = Ok res /\
    forall p, p < P -> exists l, nth p res ([], []) = (map fst l, map snd l) /\
       Permutation l (answers pair_eqb (concat w) (nth p qs [])).
Proof. exact @pair_keys. Qed.
Print Assumptions C05_pair_keys.

(** An addPairs call with no pairs on any rank leaves the previous content in place. *)
Theorem C05_empty_add_keeps_content : forall (V : Type) old (w : list (list (Z * V))) ev pw,
  concat w = [] -> Permutation ev (all_pairs (length w)) -> Permutation pw (all_pairs (length w)) ->
  add_pairs hash_int old w ev pw = Ok old.
Proof. intros V. exact (@add_pairs_empty Z V hash_int (fun _ _ => 0)). Qed.
Print Assumptions C05_empty_add_keeps_content.

(** Finding: when no rank asks for anything, the output argument [values] is left as it was instead of
    being cleared. *)
Theorem C05_no_query_leaves_values : forall (V : Type) tabs (qs : list (list Z)) (vs : list (list V)) ev1 pw1 ev2 pw2,
  let P := length qs in
  concat qs = [] -> Permutation ev1 (all_pairs P) -> Permutation pw1 (all_pairs P) ->
  get_values Z.eqb hash_int tabs qs vs ev1 pw1 ev2 pw2 = Ok (map (fun p => ([], nth p vs [])) (iota P)).
Proof. intros V. exact (@get_values_no_query Z V Z.eqb hash_int). Qed.
Print Assumptions C05_no_query_leaves_values.

(** Finding: a negative key (not a multiple of the number of ranks) makes addPairs index out of range. *)
Theorem C05_negative_key_is_undefined : forall (V : Type) old (w : list (list (Z * V))) p k v ev pw,
  In (k, v) (nth p w []) -> (Z.rem k (Z.of_nat (length w)) < 0)%Z -> p < length w ->
  add_pairs hash_int old w ev pw = UB.
Proof. exact @negative_key_UB. Qed.
Print Assumptions C05_negative_key_is_undefined.

Example C05_nonvacuous :
  let w := [[(3%Z, 30); (4%Z, 40)]; [(3%Z, 31)]] in
  let ev := [(1, 1); (0, 1); (0, 0); (1, 0)] in
  Permutation ev (all_pairs 2) /\ Permutation (all_pairs 2) (all_pairs 2) /\
  exists tabs, add_pairs hash_int [] w ev (all_pairs 2) = Ok tabs /\
    get_values Z.eqb hash_int tabs [[3%Z]; [4%Z; 3%Z; 9%Z]] [[]; []] ev (all_pairs 2) (all_pairs 2) ev =
      Ok [([3%Z; 3%Z], [30; 31]); ([4%Z; 3%Z; 3%Z], [40; 30; 31])].
Proof.
  split; [|split; [apply Permutation_refl|eexists; split; reflexivity]].
  apply NoDup_Permutation.
  - repeat constructor; simpl; intuition congruence.
  - repeat constructor; simpl; intuition congruence.
  - intros x. simpl. tauto.
Qed.

(** Properties of serial output (C27). *)
From Verif Require Import Prelude GAModel GAProofs IOModel IOSpec IOProofs.
From Coq Require Import Sorted.

(** Whatever an earlier call left in the string array, in whatever order the scatters of the processes take effect and
    however the array is distributed (no process without cells): the head process prints exactly the answers of the
    active components that have one, in the order of their global indices. *)
Theorem C27_prints_in_global_order :
  forall A (fits : A -> bool) (w : list (list (comp A))) strings blocks,
    Forall (Forall (steady fits)) w ->
    NoDup (map fst (printed w)) -> (forall i v, In (i, v) (printed w) -> i < length strings) ->
    sumn blocks = length strings -> Forall (fun n => 0 < n) blocks ->
  exists cs, oall (map (contribution fits) w) = Ok cs /\
    forall ws wm, Permutation ws (concat cs) -> Permutation wm (concat cs) ->
    exists out s', write_all strings blocks ws wm = Ok (map snd out, s') /\ length s' = length strings /\
      Permutation out (printed w) /\ StronglySorted lt (map fst out).
Proof.
  intros A fits w strings blocks HF HN Hb HS Hp. exists (map (flat_map prints) w). split.
  - apply oall_map_ok. intros l Hl. apply contribution_steady. rewrite Forall_forall in HF. now apply HF.
  - intros ws wm. rewrite <- flat_map_concat_map. apply write_all_spec; auto.
Qed.
Print Assumptions C27_prints_in_global_order.

Definition ex_short (s : string) : bool := String.length s <? 8.
Definition ex_world : list (list (comp string)) :=
  [ [Build_comp true 2 (Some "c") (Some "c"); Build_comp true 0 (Some "a") (Some "a"); Build_comp false 1 (Some "b") (Some "b")];
    [Build_comp true 3 None None; Build_comp true 1 (Some "b") (Some "b"); Build_comp false 0 (Some "zz") None] ]%string.
Example C27_nonvacuous :
  Forall (Forall (steady ex_short)) ex_world /\ NoDup (map fst (printed ex_world)) /\
  write_all [Some "old"; None; Some "x"; Some "y"]%string [3; 1] (printed ex_world) (rev (printed ex_world))
    = Ok (["a"; "b"; "c"], [Some "a"; Some "b"; Some "c"; Some "y"])%string.
Proof.
  split; [|split].
  - repeat constructor; try discriminate; intros a E; injection E as <-; reflexivity.
  - vm_compute. repeat constructor; simpl; intuition discriminate.
  - vm_compute. reflexivity.
Qed.

(** Serial output needs a cell of the array on every process: if some process has none (as with fewer buses than
    processes) the head process asks Global Arrays for an empty range. *)
Theorem C27_process_without_cells_refuted :
  forall A strings blocks (ws wm : list (nat * A)) out, In 0 blocks -> write_all strings blocks ws wm <> Ok out.
Proof.
  intros A strings blocks ws wm out H0. unfold write_all. destruct (ga_scatter strings ws) as [s| |]; try discriminate. cbn [obind].
  destruct (ga_scatter _ _) as [m| |]; try discriminate. cbn [obind].
  assert (X : forall lo r, head s m lo blocks <> Ok r).
  { clear -H0. induction blocks as [|n b IH]; [destruct H0|]. intros lo r. cbn [head]. destruct H0 as [->|H0]; [discriminate|].
    destruct (head_block s m lo n); try discriminate. cbn [obind]. specialize (IH H0 (lo + n)).
    destruct (head s m (lo + n) b) as [y| |]; try discriminate. now destruct (IH y). }
  specialize (X 0). destruct (head s m 0 blocks) as [y| |]; try discriminate. now destruct (X y).
Qed.
Print Assumptions C27_process_without_cells_refuted.
Example C27_process_without_cells_nonvacuous :
  exists m : garray nat, ga_scatter (repeat (Some 0) 1) [(0, 1)] = Ok m /\ write_all [None] [1; 0] [(0, "a"%string)] [(0, "a"%string)] = UB.
Proof. eexists. split; reflexivity. Qed.

(** A component that answers when the strings are counted but not when they are written (the code asks twice) makes the
    scatter use index pointers that were never set. *)
Theorem C27_unsteady_component_refuted :
  forall A fits (x y : A) i j, fits x = true -> fits y = true ->
    contribution fits [Build_comp true i (Some x) None; Build_comp true j (Some y) (Some y)] = UB.
Proof. intros A fits x y i j Hx Hy. unfold contribution, counted. cbn. rewrite Hx, Hy. cbn. reflexivity. Qed.
Print Assumptions C27_unsteady_component_refuted.

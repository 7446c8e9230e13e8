(** Specifications for the generalised mappers. *)
From Verif Require Import Prelude NetModel NetSpec IdxSpec GenModel.

Section Spec.
  Context {B R : Type}.
  Notation bus := (bus B). Notation branch := (branch R). Notation net := (net B R).
  (** A process's part of a partitioned network without self loops: every branch ends at two different local buses;
      the neighbour list of a bus names the branches that end there, in order; an active branch ends at an active
      bus, and a branch between two active buses is active. *)
  Definition wired (n : net) : Prop :=
    (forall r, In r (n_branches n) -> r_l1 r <> r_l2 r /\
       exists b1 b2, zget (n_buses n) (r_l1 r) = Some b1 /\ zget (n_buses n) (r_l2 r) = Some b2 /\
         (r_active r = true -> b_active b1 || b_active b2 = true) /\
         (b_active b1 && b_active b2 = true -> r_active r = true)) /\
    (forall i b, nth_error (n_buses n) i = Some b ->
       b_nbr b = flat_map (fun jr : nat * branch =>
                   ((if r_l1 (snd jr) =? Z.of_nat i then [fst jr] else []) ++
                    (if r_l2 (snd jr) =? Z.of_nat i then [fst jr] else []))%Z%list)
                 (combine (iota (length (n_branches n))) (n_branches n))).
  (** Global branch indices, as [indexed] for buses. *)
  Definition branch_indexed (nets : list net) : Prop :=
    Permutation (map (@r_glob R) (active_branches nets)) (map Z.of_nat (iota (length (active_branches nets)))) /\
    (forall r, In r (all_branches nets) -> In (r_glob r) (map (@r_glob R) (active_branches nets))).
  (** All indices given to the active components of one process, when a component with global number [g] starts at
      [fb g] (bus) or [fr g] (branch). *)
  Definition ranges (bsz : B -> nat) (rsz : R -> nat) (fb fr : Z -> nat) (n : net) : list nat :=
    (flat_map (fun b => seq (fb (b_glob b)) (bsz (b_obj b))) (filter (@b_active B) (n_buses n)) ++
     flat_map (fun r => seq (fr (r_glob r)) (rsz (r_obj r))) (filter (@r_active R) (n_branches n)))%list.
  (** Number of elements of the active components of a process. *)
  Definition elements (bsz : B -> nat) (rsz : R -> nat) (n : net) : nat :=
    sumn (map (fun b => bsz (b_obj b)) (filter (@b_active B) (n_buses n))) +
    sumn (map (fun r => rsz (r_obj r)) (filter (@r_active R) (n_branches n))).
End Spec.

Section VecSpec.
  Context {V : Type}.
  (** What C19_index_ranges provides for the vector mapper: the indices of the active components of process [q] are
      the slab of the process, each index once; every component has as many values as indices. *)
  Definition slabbed (w : list (gproc V)) (len : nat -> nat) : Prop :=
    (forall q, q < length w ->
       Permutation (flat_map gc_idx (filter gc_act (gp_buses (nth q w (GProc [] [])) ++ gp_brs (nth q w (GProc [] [])))))
                   (seq (sumn (map len (iota q))) (len q))) /\
    (forall p c, In p w -> In c (gp_buses p ++ gp_brs p)%list -> length (gc_vals c) = length (gc_idx c)).
  (** The process holding element [i]. *)
  Definition holds_element (n : nat) (len : nat -> nat) (own : nat -> nat) : Prop :=
    forall q i, q < n -> sumn (map len (iota q)) <= i < sumn (map len (iota q)) + len q -> own i = q.
End VecSpec.

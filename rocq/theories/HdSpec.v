(** Specification for C20. *)
From Verif Require Import Prelude HdModel.
Section Spec.
Variables K V : Type.
Variable keqb : K -> K -> bool.
(** What the processes supply, together. *)
Definition supplied (ps : list (hproc K V)) : list (K * V) := flat_map (fun p => combine (h_keys p) (h_vals p)) ps.
(** What a process holding the keys [local] has to receive: for every local copy every value supplied for its key. *)
Definition due (local : list K) (all : list (K * V)) : list (nat * V) :=
  flat_map (fun jk => map (fun kv => (fst jk, snd kv)) (filter (fun kv => keqb (fst kv) (snd jk)) all)) (combine (iota (length local)) local).
End Spec.

(** What configuration paths mean. *)
From Verif Require Import Prelude StrModel ConfModel.
From Coq Require Import Ascii.
Open Scope nat_scope.

(** [n] is the node reached from [t] by going to the first child named k1, then the first child named k2, ... *)
Inductive reaches : ptree -> list str -> ptree -> Prop :=
| reach_here t : reaches t [] t
| reach_child s before k c after p n :
    ~ In k (map fst before) -> reaches c p n -> reaches (Node s (before ++ (k, c) :: after)%list) (k :: p) n.
(** Element names, as in "a.b.c". *)
Definition element (k : str) : Prop := k <> [] /\ ~ In dot k.
Fixpoint dotted (ks : list str) : str :=
  match ks with [] => [] | [k] => k | k :: r => (k ++ dot :: dotted r)%list end.
(** A path to which ".key" can be added. *)
Definition prefix_path (p : str) : Prop := exists q c, p = (q ++ [c])%list /\ c <> dot.
(** Text without blanks at its ends. *)
Definition padded (n m : nat) (s : str) : str := (repeat sp n ++ s ++ repeat sp m)%list.
Definition tight (s : str) : Prop := (forall c r, s = c :: r -> c <> sp) /\ (forall c r, s = (r ++ [c])%list -> c <> sp).

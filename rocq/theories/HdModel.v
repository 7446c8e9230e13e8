(** Model of HashDistribution (/repo/src/parser/hash_distr.hpp) as compiled: SYSTOLIC is defined at line 25. Buses are keyed by their original index and branches by the
    ordered pair of original indices of their ends; both are a type of keys here. The versions for single values and for arrays of values (115-231 and 518-650, 983-1100 and
    1404-1540) do the same with a different type of values; the arrays are packed in bytes, and alignment is not modelled. *)
From Verif Require Import Prelude GAModel.
From Coq Require Import Reals.
From Flocq Require Import Core.

(** IEEE double: the nearest representable number, ties to even; overflow is not reached by the numbers below. *)
Definition dbl (x : R) : R := round radix2 (FLT_exp (-1074) 53) ZnearestE x.
(** hash_distr.hpp:206-212: delta, and static_cast<int>(delta*static_cast<double>(k)) *)
Definition delta (total n : Z) : R := dbl (IZR total / IZR n).
Definition cut (total n k : Z) : Z := Ztrunc (dbl (delta total n * IZR k)).
(** :209-214 the part [idx] of the array: lo and hi *)
Definition part (total n idx : Z) : Z * Z :=
  (cut total n idx, if (idx <? n - 1)%Z then (cut total n (idx + 1) - 1)%Z else (total - 1)%Z).

Section Distr.
Variables K V : Type.
Variable keqb : K -> K -> bool.

(** A process: the keys of its buses or branches by local index, the arguments keys, values and (for branches) branch_ids. *)
Record hproc := HProc { h_local : list K; h_keys : list K; h_vals : list V; h_ids : list nat }.

(** :193-199 and 222-229: the multimap from keys to local indices, read with find and upper_bound; find is taken to return the first of several equal keys, as libstdc++ does *)
Definition lookup (local : list K) (k : K) : list nat :=
  map fst (filter (fun x => keqb (snd x) k) (combine (iota (length local)) local)).
(** :216-231 one part: its pairs in order, each for all local copies *)
Definition get_part (g : garray (K * V)) (local : list K) (lh : Z * Z) : outcome (list (nat * V)) :=
  let '(lo, hi) := lh in
  if (lo <=? hi)%Z then
    if (lo <? 0)%Z then UB
    else obind (ga_get g (Z.to_nat lo) (Z.to_nat (hi - lo + 1))) (fun l => Ok (flat_map (fun kv => map (fun j => (j, snd kv)) (lookup local (fst kv))) l))
  else Ok [].
(** :203-236 the loop over the parts, starting with the own one; keys and values are appended together *)
Definition collect (g : garray (K * V)) (total n : Z) (me : nat) (p : hproc) : outcome (list (nat * V)) :=
  obind (oall (map (fun i => get_part g (h_local p) (part total n ((i + Z.of_nat me) mod n))) (map Z.of_nat (iota (Z.to_nat n))))) (fun l => Ok (concat l)).
Definition pairs (p : hproc) : list (K * V) := combine (h_keys p) (h_vals p).
(** The call on all processes: [ord] is the order in which the NGA_Put take effect. Lists of different length throw (121-129). With no pair at all it returns without
    touching its arguments (147-151); [clear] is what keys (empty then) or branch_ids hold in that case. *)
Definition distribute (untouched : hproc -> list nat) (ord : list nat) (ps : list hproc) : outcome (list (list nat * list V)) :=
  if forallb (fun p => length (h_keys p) =? length (h_vals p)) ps then
    let sizes := map (fun p => length (h_keys p)) ps in
    let total := sumn sizes in
    if total =? 0 then Ok (map (fun p => (untouched p, h_vals p)) ps)
    else obind (ga_puts (ga_new (K * V) total) (map (fun i => (offset sizes i, match nth_error ps i with Some p => pairs p | None => [] end)) ord)) (fun g =>
         oall (map (fun q => obind (collect g (Z.of_nat total) (Z.of_nat (length ps)) (fst q) (snd q)) (fun l => Ok (map fst l, map snd l))) (combine (iota (length ps)) ps)))
  else Throw.
(** The keys of the bus version are its output; when there is no pair they are empty. *)
Definition distribute_buses : list nat -> list hproc -> outcome (list (list nat * list V)) := distribute (fun _ => []).
Definition distribute_branches : list nat -> list hproc -> outcome (list (list nat * list V)) := distribute h_ids.
End Distr.

(** Specifications for the distributed containers, independent of their implementation. *)
From Verif Require Import Prelude.

(** ** Shuffler *)
(** The items of one rank that are destined for rank [p], in order. *)
Definition items_for {T} (p : nat) (x : list T * list Z) : list T :=
  map fst (filter (fun td => snd td =? Z.of_nat p)%Z (combine (fst x) (snd x))).

(** What rank [p] must hold afterwards: its own items first, then those of the other ranks by rank. *)
Definition delivered {T} (w : list (list T * list Z)) (p : nat) : list T :=
  (items_for p (nth p w ([], [])) ++
   concat (map (fun s => if s =? p then [] else items_for p (nth s w ([], []))) (iota (length w))))%list.

(** Every item has a destination, and it is a rank of the communicator. *)
Definition routable {T} (w : list (list T * list Z)) : bool :=
  forallb (fun x => (length (fst x) =? length (snd x)) &&
                    forallb (fun d => (0 <=? d) && (d <? Z.of_nat (length w)))%Z (snd x)) w.

(** ** Association: the value added under an index, if any. *)
Fixpoint added {A} (i : Z) (xs : list (Z * A)) : option A :=
  match xs with
  | [] => None
  | (j, v) :: r => if (j =? i)%Z then Some v else added i r
  end.

(** The value under index [i], [dflt] if none was added. *)
Definition value_at {A} (dflt : A) (xs : list (Z * A)) (i : Z) : A :=
  match added i xs with Some v => v | None => dflt end.

(** One more than the largest index used. *)
Definition extent {A} (xs : list (Z * A)) : nat := S (Z.to_nat (fold_left Z.max (map fst xs) (-1)%Z)).

(** ** Distributed hash map: the answers to a list of keys, given all stored pairs. *)
Definition answers {K V} (keq : K -> K -> bool) (stored : list (K * V)) (ks : list K) : list (K * V) :=
  flat_map (fun k => map (fun kv => (k, snd kv)) (filter (fun kv => keq (fst kv) k) stored)) ks.

(** Keys for which the hash functions are defined. *)
Definition pair_key_ok (k : Z * Z) : Prop :=
  (-2147483648 <= snd k * 1009 <= 2147483647 /\ 0 <= snd k * 1009 + fst k <= 2147483647)%Z.
Definition pair_eqb (a b : Z * Z) : bool := ((fst a =? fst b) && (snd a =? snd b))%Z.

(** Random numbers: /repo/src/parallel/random.cpp.  The library generator (boost) is a parameter: [sd] makes a state from a seed, [next]
    gives a number and the next state.  Doubles are real numbers; [None] is "not a number". *)
From Verif Require Import Prelude.
From Coq Require Import Reals Lra.
Open Scope R_scope.

Definition num := option R.
(** random.cpp:54-56, 78-80: the absolute value of the seed plus the number of the process, as ints *)
Definition seed_of (rank : nat) (s : Z) : outcome Z :=
  obind (if (s <? 0)%Z then if (s =? -2147483648)%Z then UB else Ok (- s)%Z else Ok s) (fun a =>
  if (a + Z.of_nat rank <=? 2147483647)%Z then Ok (a + Z.of_nat rank)%Z else UB).

Section Gen.
Context {G : Type} (sd : Z -> G) (next : G -> R * G).
(** p_generator, p_iset, p_gset *)
Record rnd := Rnd { r_gen : G; r_set : bool; r_saved : num }.
(** random.cpp:49-62 Random(seed) *)
Definition new_random (rank : nat) (s : Z) : outcome rnd := obind (seed_of rank s) (fun z => Ok (Rnd (sd z) false (Some 0))).
(** random.cpp:76-81 seed *)
Definition reseed (rank : nat) (s : Z) (t : rnd) : outcome rnd := obind (seed_of rank s) (fun z => Ok (Rnd (sd z) (r_set t) (r_saved t))).
(** random.cpp:86-92 drand *)
Definition drand (t : rnd) : R * rnd := let d := next (r_gen t) in (fst d, Rnd (snd d) (r_set t) (r_saved t)).
(** random.cpp:103-109: the loop of grand; None: it has not ended after [fuel] rounds *)
Fixpoint draw (fuel : nat) (g : G) : option (R * R * R * G) :=
  match fuel with
  | O => None
  | S k => let a := next g in let b := next (snd a) in
           let x := 2 * fst a - 1 in let y := 2 * fst b - 1 in let r := x * x + y * y in
           if Rlt_dec r 1 then Some (x, y, r, snd b) else draw k (snd b)
  end.
(** random.cpp:98-120 grand; for r = 0 the logarithm is minus infinity and both results are zero times infinity *)
Definition grand (fuel : nat) (t : rnd) : option (num * rnd) :=
  if r_set t then Some (r_saved t, Rnd (r_gen t) false (r_saved t))
  else match draw fuel (r_gen t) with
       | None => None
       | Some (x, y, r, g) =>
           if Req_EM_T r 0 then Some (None, Rnd g true None)
           else let m := sqrt (-2 * ln r / r) in Some (Some (y * m), Rnd g true (Some (x * m)))
       end.
(** A program that uses the object; Throw stands for a loop that has not ended within [fuel] rounds *)
Inductive use := Draw | Gauss | Seed (s : Z).
Fixpoint run (fuel rank : nat) (us : list use) (t : rnd) : outcome (list num) :=
  match us with
  | [] => Ok []
  | Draw :: r => let d := drand t in obind (run fuel rank r (snd d)) (fun l => Ok (Some (fst d) :: l))
  | Gauss :: r => match grand fuel t with None => Throw | Some d => obind (run fuel rank r (snd d)) (fun l => Ok (fst d :: l)) end
  | Seed s :: r => obind (reseed rank s t) (run fuel rank r)
  end.
End Gen.

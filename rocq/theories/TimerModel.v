(** Model of CoarseTimer (/repo/src/timer/coarse_timer.cpp).  Clock readings are exact integers (ticks); MPI_Wtime is an argument of
    the call that reads it.  The mean and RMS lines of the report are not modelled. *)
From Verif Require Import Prelude.
Open Scope nat_scope.

(** coarse_timer.hpp:96-104.  p_title_map maps the titles to their positions in p_title. *)
Record timer := Timer {
  t_map : list (string * nat); t_title : list string; t_start : list Z; t_time : list Z; t_istart : list Z; t_istop : list Z; t_on : bool }.
(** coarse_timer.cpp:280-289 *)
Definition new_timer : timer := Timer [] [] [] [] [] [] true.

Fixpoint map_find (m : list (string * nat)) (k : string) : option nat :=
  match m with [] => None | (k', v) :: r => if String.eqb k' k then Some v else map_find r k end.

Inductive call := Create (title : string) | Start (idx : Z) (now : Z) | Stop (idx : Z) (now : Z) | Config (flag : bool).

(** :35-51 *)
Definition create (t : timer) (title : string) : timer * nat :=
  match map_find (t_map t) title with
  | Some i => (t, i)
  | None => let idx := length (t_title t) in
      (Timer ((title, idx) :: t_map t) (t_title t ++ [title]) (t_start t ++ [0%Z]) (t_time t ++ [0%Z]) (t_istart t ++ [0%Z]) (t_istop t ++ [0%Z]) (t_on t), idx)%list
  end.
Definition zat (l : list Z) (i : nat) : Z := nth i l 0%Z.
(** :57-62; an index outside the vectors is UB. *)
Definition start (t : timer) (idx now : Z) : outcome timer :=
  if negb (t_on t) then Ok t
  else if (0 <=? idx)%Z && (idx <? Z.of_nat (length (t_title t)))%Z then
    let i := Z.to_nat idx in
    Ok (Timer (t_map t) (t_title t) (upd (t_start t) i now) (t_time t) (upd (t_istart t) i (zat (t_istart t) i + 1)%Z) (t_istop t) (t_on t))
  else UB.
(** :68-73 *)
Definition stop (t : timer) (idx now : Z) : outcome timer :=
  if negb (t_on t) then Ok t
  else if (0 <=? idx)%Z && (idx <? Z.of_nat (length (t_title t)))%Z then
    let i := Z.to_nat idx in
    Ok (Timer (t_map t) (t_title t) (t_start t) (upd (t_time t) i (zat (t_time t) i + (now - zat (t_start t) i))%Z) (t_istart t)
              (upd (t_istop t) i (zat (t_istop t) i + 1)%Z) (t_on t))
  else UB.
(** :262-265 *)
Definition config (t : timer) (f : bool) : timer := Timer (t_map t) (t_title t) (t_start t) (t_time t) (t_istart t) (t_istop t) f.

(** A sequence of calls: the timer afterwards and the handles returned by the createCategory calls, in order. *)
Fixpoint run (t : timer) (cs : list call) : outcome (timer * list nat) :=
  match cs with
  | [] => Ok (t, [])
  | Create s :: r => let '(t', i) := create t s in obind (run t' r) (fun x => Ok (fst x, i :: snd x))
  | Start i now :: r => obind (start t i now) (fun t' => run t' r)
  | Stop i now :: r => obind (stop t i now) (fun t' => run t' r)
  | Config f :: r => run (config t f) r
  end.

(** :78-158 dump, for category [i] on the processes [ts] after the check of the numbers of categories: what process 0 prints. *)
Inductive report := Nothing | Statistics (title : string) (tmax tmin : Z) | NotPaired (title : string).
Definition dump_one (ts : list timer) (i : nat) : report :=
  let used t := (0 <? zat (t_istop t) i)%Z || (0 <? zat (t_start t) i)%Z in
  let title := match ts with t :: _ => nth i (t_title t) EmptyString | [] => EmptyString end in
  let times := map (fun t => zat (t_time t) i) ts in
  if existsb used ts
  then if forallb (fun t => (zat (t_istop t) i - zat (t_istart t) i =? 0)%Z) ts
       then Statistics title (fold_left Z.max times (hd 0%Z times)) (fold_left Z.min times (hd 0%Z times))
       else NotPaired title
  else Nothing.
(** The number of collective operations process [me] takes part in: two, then three per category, but process 0 gives up after the
    first two when the numbers of categories differ (:98-104). *)
Definition sizes (ts : list timer) : list nat := map (fun t => length (t_title t)) ts.
Definition collectives (ts : list timer) (me : nat) : nat :=
  let s := sizes ts in
  if negb (forallb (fun k => k =? hd 0 s) s) && (me =? 0) then 2 else 2 + 3 * nth me s 0.
(** The call returns when all processes take part in the same number of collective operations; otherwise it hangs ([None]). *)
Definition dump (ts : list timer) : option (list report) :=
  if forallb (fun me => collectives ts me =? collectives ts 0) (iota (length ts))
  then Some (if forallb (fun k => k =? hd 0 (sizes ts)) (sizes ts) then map (dump_one ts) (iota (hd 0 (sizes ts))) else [])
  else None.

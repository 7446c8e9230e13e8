(** The shuffler over Global Arrays: /repo/src/parallel/ga_shuffler.hpp.  Unlike the model of the MPI shuffler, the ranks run
    concurrently here: a schedule says which rank takes its next step, and the only order between ranks is the one the
    calls of sync enforce. *)
From Coq Require Import Ascii.
From Verif Require Import Prelude GAModel ParModel.

(** ga_shuffler.hpp:193-196 p_gaType and gaBufferType: an int, as its four characters *)
Definition word := list ascii.
(** ga_shuffler.hpp:119-123: MA_sizeof rounds the number of characters up to ints, resize fills with zeros, memcpy overwrites
    the characters that there are *)
Fixpoint words (s : list ascii) : list word :=
  match s with
  | a :: b :: c :: d :: r => [a; b; c; d] :: words r
  | [] => []
  | _ => [(s ++ repeat Ascii.zero (4 - length s))%list]
  end.

(** The communication calls of one rank, ga_shuffler.hpp:140-180.  sync is split into arriving and going on. *)
Inductive op := PutSizes | PutRow (p : nat) | GetSize | GetRow | Arrive | Go.
(** ga_shuffler.hpp:141-179: one pass of the loop over src on rank me *)
Definition round (n me src : nat) : list op :=
  ((if me =? src then PutSizes :: map PutRow (filter (fun p => negb (p =? me)) (iota n)) else []) ++ [Arrive; Go] ++
   (if me =? src then [] else [GetSize; GetRow]) ++ [Arrive; Go])%list.
(** ga_shuffler.hpp:140 *)
Definition program (n me : nat) : list op := flat_map (round n me) (iota n).

Section GaShuffler.
  Context {T : Type}.
  (** Writing a vector to a binary archive and reading one from it (Boost.Serialization is not part of /repo); reading may
      fail *)
  Variable ser : list T -> list ascii.
  Variable unser : list ascii -> option (list T).

  (** A rank during the loop: what it still has to do, how often it arrived at a sync and went on from one, mybufsize, locthings;
      and what does not change: p_gaBufferSize and p_gaBuffers (the entry of the rank itself is only a temporary) *)
  Record rank := Rank { rk_todo : list op; rk_in : nat; rk_out : nat; rk_size : nat; rk_loc : list T;
    rk_sizes : list nat; rk_bufs : list (list word) }.
  (** gasize, ga (by rows) and the ranks *)
  Record gstate := Gstate { gs_sizes : garray nat; gs_rows : list (garray word); gs_ranks : list rank }.

  Definition with_todo (r : rank) (l : list op) : rank := Rank l (rk_in r) (rk_out r) (rk_size r) (rk_loc r) (rk_sizes r) (rk_bufs r).
  Definition set_rank (s : gstate) (q : nat) (r : rank) : gstate := Gstate (gs_sizes s) (gs_rows s) (upd (gs_ranks s) q r).

  (** One step of rank q; None: nothing left to do, or waiting in a sync for others to arrive.  ga_shuffler.hpp:142-143 (sizes),
      150-152 (a row; an empty range is an error of the library), 159-160 (the size), 161-177 (the row, the archive and the
      things in it). *)
  Definition gstep (s : gstate) (q : nat) : option (outcome gstate) :=
    match nth_error (gs_ranks s) q with
    | None => None
    | Some r =>
      match rk_todo r with
      | [] => None
      | PutSizes :: l =>
          Some (obind (ga_put (gs_sizes s) 0 (rk_sizes r)) (fun g =>
                Ok (Gstate g (gs_rows s) (upd (gs_ranks s) q (with_todo r l)))))
      | PutRow p :: l =>
          let b := nth p (rk_bufs r) [] in
          Some (match b with [] => UB | _ =>
                match nth_error (gs_rows s) p with
                | None => UB
                | Some row => obind (ga_put row 0 b) (fun row' =>
                    Ok (Gstate (gs_sizes s) (upd (gs_rows s) p row') (upd (gs_ranks s) q (with_todo r l))))
                end end)
      | GetSize :: l =>
          Some (obind (ga_get (gs_sizes s) q 1) (fun x =>
                Ok (set_rank s q (Rank l (rk_in r) (rk_out r) (hd 0 x) (rk_loc r) (rk_sizes r) (rk_bufs r)))))
      | GetRow :: l =>
          Some (if rk_size r =? 0 then UB else
                match nth_error (gs_rows s) q with
                | None => UB
                | Some row => obind (ga_get row 0 (rk_size r)) (fun b =>
                    match unser (concat b) with
                    | None => Throw
                    | Some v => Ok (set_rank s q (Rank l (rk_in r) (rk_out r) (rk_size r) (rk_loc r ++ v)%list (rk_sizes r) (rk_bufs r)))
                    end)
                end)
      | Arrive :: l =>
          Some (Ok (set_rank s q (Rank l (S (rk_in r)) (rk_out r) (rk_size r) (rk_loc r) (rk_sizes r) (rk_bufs r))))
      | Go :: l =>
          if forallb (fun x => rk_out r <? rk_in x) (gs_ranks s)
          then Some (Ok (set_rank s q (Rank l (rk_in r) (S (rk_out r)) (rk_size r) (rk_loc r) (rk_sizes r) (rk_bufs r))))
          else None
      end
    end.

  (** A schedule: the ranks in the order in which they try to take a step *)
  Fixpoint grun (sched : list nat) (s : gstate) : outcome gstate :=
    match sched with
    | [] => Ok s
    | q :: l => match gstep s q with None => grun l s | Some o => obind o (grun l) end
    end.

  (** ga_shuffler.hpp:114-126: the buffers of rank me, from what is to be sent *)
  Definition buffers (n me : nat) (tosend : list (list T)) : list (list word) :=
    map (fun p => if p =? me then [] else words (ser (nth p tosend []))) (iota n).
  Definition maxl (l : list nat) : nat := fold_right Nat.max 0 l.
  (** ga_shuffler.hpp:128-140: the arrays (cells with unknown content) and the ranks before the loop *)
  Definition prepare (rs : list (list T * list (list T))) : gstate :=
    let n := length rs in
    let ranks := map (fun q => let x := nth q rs ([], []) in let b := buffers n q (snd x) in
                               Rank (program n q) 0 0 0 (fst x) (map (@length _) b) b) (iota n) in
    Gstate (ga_new nat n) (repeat (ga_new word (S (maxl (map (fun r => maxl (rk_sizes r)) ranks)))) n) ranks.

  (** ga_shuffler.hpp:74-140: everything before the loop.  inl: the call returns at :81 or :86 and leaves the lists alone.
      :104-112 is the text of shuffler.hpp:103-113 (route).  The assertion :76 is taken as a precondition. *)
  Definition ga_start (w : list (list T * list Z)) : outcome (list (list T) + gstate) :=
    let n := length w in
    if negb (forallb (fun x => length (fst x) =? length (snd x)) w) then UB
    else if n <=? 1 then Ok (inl (map fst w))
    else if sumn (map (fun x => length (fst x)) w) =? 0 then Ok (inl (map fst w))
    else obind (oall (map (fun p => let x := nth p w ([], []) in
                                    route n p (combine (fst x) (snd x)) [] (repeat [] n)) (iota n)))
         (fun rs => Ok (inr (prepare rs))).
  (** The whole call under a schedule: the lists when the call returned at once, or the state that is reached *)
  Definition ga_call (w : list (list T * list Z)) (sched : list nat) : outcome (list (list T) + gstate) :=
    obind (ga_start w) (fun x => match x with
                                 | inl r => Ok (inl r)
                                 | inr s => obind (grun sched s) (fun s' => Ok (inr s'))
                                 end).
  (** All ranks have returned *)
  Definition returned (s : gstate) : bool := forallb (fun r => match rk_todo r with [] => true | _ => false end) (gs_ranks s).
  Definition things (s : gstate) : list (list T) := map rk_loc (gs_ranks s).
End GaShuffler.

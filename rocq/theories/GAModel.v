(** One-dimensional Global Arrays as used by the parallel utilities, and the two-step "reserve space with
    NGA_Read_inc, then NGA_Put into the reserved range" exchange.

    The Global Arrays library is not part of /repo: the definitions in the first half are the assumed
    behaviour of GA_Create/GA_Allocate, NGA_Put, NGA_Get, NGA_Scatter and NGA_Read_inc.  A global array is
    a list of cells, [None] standing for a cell that nobody has written yet; access outside the array or
    reading an unwritten cell is UB.  Puts are atomic here; concurrent puts of different processes are
    modelled by quantifying over all orders of the puts. *)
From Verif Require Import Prelude.

Definition garray (A : Type) := list (option A).

(** GA_Create_handle / GA_Set_data / GA_Allocate: [n] cells with unspecified content. *)
Definition ga_new (A : Type) (n : nat) : garray A := repeat None n.

(** NGA_Put of the contiguous range [lo, lo+length xs-1]. *)
Definition ga_put {A} (g : garray A) (lo : nat) (xs : list A) : outcome (garray A) :=
  if lo + length xs <=? length g
  then Ok (firstn lo g ++ map Some xs ++ skipn (lo + length xs) g)%list
  else UB.

(** A sequence of puts. *)
Fixpoint ga_puts {A} (g : garray A) (ws : list (nat * list A)) : outcome (garray A) :=
  match ws with
  | [] => Ok g
  | (lo, xs) :: r => obind (ga_put g lo xs) (fun g' => ga_puts g' r)
  end.

Fixpoint all_written {A} (l : list (option A)) : outcome (list A) :=
  match l with
  | [] => Ok []
  | None :: _ => UB
  | Some x :: r => obind (all_written r) (fun xs => Ok (x :: xs))
  end.

(** NGA_Get (or NGA_Access of the local block) of the [n] cells from [lo]. *)
Definition ga_get {A} (g : garray A) (lo n : nat) : outcome (list A) :=
  if lo + n <=? length g then all_written (firstn n (skipn lo g)) else UB.

(** NGA_Scatter: element-wise puts. *)
Definition ga_scatter {A} (g : garray A) (ws : list (nat * A)) : outcome (garray A) :=
  ga_puts g (map (fun w => (fst w, [snd w])) ws).

(** NGA_Gather. *)
Fixpoint ga_gather {A} (g : garray A) (idx : list nat) : outcome (list A) :=
  match idx with
  | [] => Ok []
  | i :: r => obind (ga_get g i 1) (fun x => obind (ga_gather g r) (fun xs => Ok (x ++ xs)%list))
  end.

(** Sequencing of per-rank results. *)
Fixpoint oall {A} (l : list (outcome A)) : outcome (list A) :=
  match l with
  | [] => Ok []
  | x :: r => obind x (fun a => obind (oall r) (fun b => Ok (a :: b)))
  end.

(** Start of block [p] when consecutive blocks have the given sizes: the mapc array, e.g.
    parallel/index_hash.cpp:185-189. *)
Definition offset (sizes : list nat) (p : nat) : nat := sumn (firstn p sizes).

Section Exchange.
  Variable A : Type.
  Variable P : nat.                          (* number of processes *)
  Variable bins : nat -> nat -> list A.      (* bins s d: what source s sends to destination d *)

  (** parallel/index_hash.cpp:146-154: every process reserves room on every destination it has data for
      with NGA_Read_inc.  [ev] is the order in which the Read_inc operations of all processes happen to be
      executed; the result lists the offsets handed out, and the final counters (numValues, :157-170). *)
  Fixpoint reserve (cnt : list nat) (ev : list (nat * nat)) : list ((nat * nat) * nat) * list nat :=
    match ev with
    | [] => ([], cnt)
    | (s, d) :: r =>
        if length (bins s d) =? 0 then reserve cnt r
        else let o := nth d cnt 0 in
             let '(l, c) := reserve (upd cnt d (o + length (bins s d))) r in
             (((s, d), o) :: l, c)
    end.

  Fixpoint assoc_off (l : list ((nat * nat) * nat)) (s d : nat) : nat :=
    match l with
    | [] => 0
    | ((s', d'), o) :: r => if (s =? s') && (d =? d') then o else assoc_off r s d
    end.

  (** parallel/index_hash.cpp:199-214: the puts; a source without data for a destination skips it.
      [pw] is the order in which the puts of all processes take effect. *)
  Definition put_list (offs : list ((nat * nat) * nat)) (num : list nat) (pw : list (nat * nat))
    : list (nat * list A) :=
    map (fun sd => (offset num (snd sd) + assoc_off offs (fst sd) (snd sd), bins (fst sd) (snd sd)))
        (filter (fun sd => negb (length (bins (fst sd) (snd sd)) =? 0)) pw).

  (** parallel/index_hash.cpp:133-229 (also :335-416, :566-674 and :695-777): reserve, create an array of
      total+1 cells, put, sync, and let every process read its own block.  The result is [None] when
      there was nothing to send anywhere.  Records of two or three ints that the code flattens into an int
      array (:634-638, :746-753) are single cells here. *)
  Definition exchange (ev pw : list (nat * nat)) : outcome (option (list (list A))) :=
    let '(offs, num) := reserve (repeat 0 P) ev in
    if sumn num =? 0 then Ok None
    else obind (ga_puts (ga_new A (S (sumn num))) (put_list offs num pw)) (fun g =>
         obind (oall (map (fun d => if nth d num 0 =? 0 then Ok []
                                    else ga_get g (offset num d) (nth d num 0)) (iota P)))
               (fun r => Ok (Some r))).
End Exchange.

(** All (source, destination) pairs. *)
Definition all_pairs (P : nat) : list (nat * nat) :=
  flat_map (fun s => map (fun d => (s, d)) (iota P)) (iota P).

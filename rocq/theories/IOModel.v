(** Model of SerialBusIO and SerialBranchIO (/repo/src/serial_io/serial_io.hpp).  The two classes differ only in the kind
    of component; write, writeStrings and gatherData differ only in what is done with the items on the head process
    (printed, collected as strings, collected as data).  The content of a cell of p_stringGA (max_str_len bytes) is an
    element of [A]; [fits] says that a component's answer fits into it (serialWrite gets p_size and is trusted by the code
    to respect it). *)
From Verif Require Import Prelude GAModel.

Section IO.
Variable A : Type.
Variable fits : A -> bool.

(** A local bus or branch: active flag, global index, and the answers of its serialWrite (getDataItem) in the counting
    loop and in the writing loop. *)
Record comp := { c_active : bool; c_index : nat; c_count : option A; c_write : option A }.

(** serial_io.hpp:524-530 (buses), :1062-1066 (branches): how many strings this process is going to write. *)
Definition counted (l : list comp) : outcome nat :=
  fold_right (fun c r => if c_active c then match c_count c with
                                            | Some a => if fits a then obind r (fun n => Ok (S n)) else UB
                                            | None => r
                                            end else r) (Ok 0) l.
(** :546-557 (:1082-1094): the loop filling the buffers; it stops when [left] items have been stored. *)
Fixpoint filled (left : nat) (l : list comp) : outcome (list (nat * A)) :=
  match l, left with
  | c :: r, S k =>
    if c_active c then match c_write c with
                       | Some a => if fits a then obind (filled k r) (fun xs => Ok ((c_index c, a) :: xs)) else UB
                       | None => filled left r
                       end
    else filled left r
  | _, _ => Ok []
  end.
(** :533-565 (:1072-1101): what the process scatters.  The scatters take nwrites elements although only ncnt index
    pointers have been set. *)
Definition contribution (l : list comp) : outcome (list (nat * A)) :=
  obind (counted l) (fun nwrites => obind (filled nwrites l) (fun xs =>
  if length xs =? 0 then Ok [] else if length xs =? nwrites then Ok xs else UB)).

(** :573-628: the head process reads the mask block of process [p], cells [lo, lo+n-1], and then the marked strings.  A
    request for an empty range is outside the contract of NGA_Get. *)
Definition head_block (strings : garray A) (mask : garray nat) (lo n : nat) : outcome (list A) :=
  if n =? 0 then UB
  else obind (ga_get mask lo n) (fun m =>
       ga_gather strings (map fst (filter (fun jm => snd jm =? 1) (combine (seq lo n) m)))).
Fixpoint head (strings : garray A) (mask : garray nat) (lo : nat) (blocks : list nat) : outcome (list A) :=
  match blocks with
  | [] => Ok []
  | n :: r => obind (head_block strings mask lo n) (fun xs =>
              obind (head strings mask (lo + n) r) (fun ys => Ok (xs ++ ys)%list))
  end.

(** :536-631, after every process has prepared its contribution.  [strings]: p_stringGA as an earlier call left it; the
    mask array is zeroed (:536) and has as many cells; [ws], [wm]: the contributions of all processes in the orders in which
    they take effect on the two arrays; [blocks]: the distribution of the mask array over the processes. *)
Definition write_all (strings : garray A) (blocks : list nat)
    (ws wm : list (nat * A)) : outcome (list A * garray A) :=
  obind (ga_scatter strings ws) (fun s =>
  obind (ga_scatter (repeat (Some 0) (length strings)) (map (fun x => (fst x, 1)) wm)) (fun m =>
  obind (head s m 0 blocks) (fun out => Ok (out, s)))).
End IO.

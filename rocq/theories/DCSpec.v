(** What a user of DataCollection relies on, stated on the history of calls only. *)
From Verif Require Import Prelude DCModel.
From Coq Require Import Ascii.
Open Scope string_scope.

(** The type of a value. *)
Definition type_of (v : value) : dtype :=
  match v with
  | VInt _ => TInt | VLong _ => TLong | VBool _ => TBool | VString _ => TString
  | VFloat _ => TFloat | VDouble _ => TDouble | VComplex _ _ => TComplex
  end.

(** [history s t calls r]: after the add/set calls (oldest first) entry [s] of type [t] holds [r].
    A value appears at the first addition to exactly this entry and type, later additions do not change it,
    and a later setValue to exactly this entry and type replaces it; no other call matters. *)
Inductive history (s : slot) (t : dtype) : list call -> option value -> Prop :=
| h_nil : history s t [] None
| h_add_first : forall cs v, history s t cs None -> type_of v = t -> history s t (cs ++ [CAdd s v])%list (Some v)
| h_add_again : forall cs v w, history s t cs (Some w) -> type_of v = t -> history s t (cs ++ [CAdd s v])%list (Some w)
| h_set : forall cs v w, history s t cs (Some w) -> type_of v = t -> history s t (cs ++ [CSet s v])%list (Some v)
| h_set_missing : forall cs v, history s t cs None -> type_of v = t -> history s t (cs ++ [CSet s v])%list None
| h_other_add : forall cs r s' v, history s t cs r -> (s' <> s \/ type_of v <> t) -> history s t (cs ++ [CAdd s' v])%list r
| h_other_set : forall cs r s' v, history s t cs r -> (s' <> s \/ type_of v <> t) -> history s t (cs ++ [CSet s' v])%list r.

(** Names as used throughout GridPACK's dictionary: no colon. *)
Fixpoint no_colon (s : string) : bool :=
  match s with EmptyString => true | String c r => negb (Ascii.eqb c ":"%char) && no_colon r end.

Definition slot_name (s : slot) : string := match s with Plain n => n | Indexed n _ => n end.

(** An index whose decimal text fits the 8 byte buffer. *)
Definition slot_ok (s : slot) : bool :=
  match s with Plain _ => true | Indexed _ i => ((-999999 <=? i) && (i <=? 9999999))%Z end.

Definition slot_good (s : slot) : bool := slot_ok s && no_colon (slot_name s).

Definition call_good (c : call) : bool :=
  match c with CAdd s _ => slot_good s | CSet s _ => slot_good s | CAssign _ => false end.

(** Model of the configuration database (/repo/src/configuration/configuration.cpp).  boost::property_tree is not part of
    /repo: [ptree], [fragments], [walk] and [add_child] are its assumed behaviour (property_tree/string_path.hpp: reduce,
    single; property_tree/detail/ptree_implementation.hpp: walk_path, force_path, add_child, get_optional).  A tree node has
    text and named children in file order; a path is cut at the dots; the first child with a name is taken.  The
    conversion of text to bool, int and double (stream_translator) and the XML reader are parameters. *)
From Verif Require Import Prelude StrModel.
From Coq Require Import Ascii.
Open Scope nat_scope.

Inductive ptree := Node (text : str) (kids : list (str * ptree)).
Definition text_of (t : ptree) : str := match t with Node s _ => s end.
Definition kids_of (t : ptree) : list (str * ptree) := match t with Node _ k => k end.

Definition dot : ascii := "."%char.
(** string_path: reduce takes the part up to the next dot; the path is empty when nothing is left. *)
Fixpoint fragments_from (acc : str) (s : str) : list str :=
  match s with
  | [] => match acc with [] => [] | _ => [acc] end
  | c :: r => if Ascii.eqb c dot then acc :: fragments_from [] r else fragments_from (acc ++ [c])%list r
  end.
Definition fragments (path : str) : list str := fragments_from [] path.
(** ptree::find *)
Fixpoint find_kid (k : str) (l : list (str * ptree)) : option ptree :=
  match l with [] => None | (n, t) :: r => if str_eqb n k then Some t else find_kid k r end.
(** walk_path / get_child_optional *)
Fixpoint walk (p : list str) (t : ptree) : option ptree :=
  match p with [] => Some t | k :: r => match find_kid k (kids_of t) with Some c => walk r c | None => None end end.

Section Conv.
Variable T : Type.
Variable conv : str -> option T.
(** get_optional *)
Definition get_optional (t : ptree) (key : str) : option T :=
  match walk (fragments key) t with Some n => conv (text_of n) | None => None end.
(** configuration.cpp:264-266 get0, used by :279, :281, :283 *)
Definition get0 (t : ptree) (key : str) (default_value : T) : T :=
  match get_optional t key with Some v => v | None => default_value end.
(** :268-277 get0_bool, used by :280, :282, :284; the second component is *output afterwards. *)
Definition get0_bool (t : ptree) (key : str) (output : T) : bool * T :=
  match get_optional t key with Some v => (true, v) | None => (false, output) end.
End Conv.

(** :289-290 and :297-298, blanks removed at both ends. *)
Definition strip (s : str) : str :=
  let a := drop_while (fun c => Ascii.eqb c sp) s in rev (drop_while (fun c => Ascii.eqb c sp) (rev a)).
(** :285-292; text is always convertible to a string. *)
Definition get_string (t : ptree) (key : str) (default_value : str) : str := strip (get0 (@Some str) t key default_value).
(** :293-300 *)
Definition get_string_out (t : ptree) (key : str) (output : str) : bool * str :=
  let '(ret, out) := get0_bool (@Some str) t key output in (ret, strip out).
(** :323-330; the new object holds a copy of the subtree. *)
Definition get_cursor (t : ptree) (key : str) : option ptree := walk (fragments key) t.
Section Vec.
Variable conv : str -> option Z.     (* text to double, as bit pattern *)
Variable zero : Z.                   (* 0.0 *)
Definition xyz (c : ptree) : list Z :=
  [get0 conv c (s_ "x") zero; get0 conv c (s_ "y") zero; get0 conv c (s_ "z") zero].
(** :302-310 *)
Definition get_vector (t : ptree) (key : str) (default_value : list Z) : list Z :=
  match get_cursor t key with Some c => xyz c | None => default_value end.
(** :311-318 *)
Definition get_vector_out (t : ptree) (key : str) (output : list Z) : bool * list Z :=
  match get_cursor t key with Some c => (true, output ++ xyz c)%list | None => (false, output) end.
End Vec.
(** :332-340 and :342-354 *)
Definition children (t : ptree) : list (str * ptree) := kids_of t.

(** add_child(path, child), with force_path: the parents are the first children with the names, created if missing. *)
Fixpoint on_kid (k : str) (f : ptree -> ptree) (l : list (str * ptree)) : list (str * ptree) :=
  match l with
  | [] => [(k, f (Node [] []))]
  | (n, t) :: r => if str_eqb n k then (n, f t) :: r else (n, t) :: on_kid k f r
  end.
Fixpoint add_child (p : list str) (child : ptree) (t : ptree) : ptree :=
  match p with
  | [] => t                      (* not reached: path not empty *)
  | [k] => Node (text_of t) (kids_of t ++ [(k, child)])%list
  | k :: r => Node (text_of t) (on_kid k (add_child r child) (kids_of t))
  end.
(** :30-40 merge_trees with the path "" of :223: the top elements of a file are added one after the other.  boost asserts that
    the last piece of the path is not empty. *)
Definition good_name (n : str) : bool := match rev n with [] => false | c :: _ => negb (Ascii.eqb c dot) end.
Fixpoint merge (t : ptree) (l : list (str * ptree)) : outcome ptree :=
  match l with
  | [] => Ok t
  | (n, c) :: r => if good_name n then merge (add_child (fragments n) c t) r else UB
  end.

Section Open.
Variable read_xml : str -> option (list (str * ptree)).     (* None: exception *)
(** :218-225 and the try blocks :142-149, :199-206, :247-254 *)
Definition initialize (t : ptree) (input : str) : outcome (bool * ptree) :=
  match read_xml input with
  | None => Ok (false, t)
  | Some l => obind (merge t l) (fun t' => Ok (true, t'))
  end.
(** :237-256 initialize_internal on a process other than 0, with the n and the text broadcast by process 0 *)
Definition internal (n : Z) (input : str) (t : ptree) : outcome (bool * ptree) :=
  if (n =? 0)%Z then Ok (false, t)
  else if ((0 <? n) && (n <? 2 ^ 30))%Z then initialize t input else UB.   (* assert *)
(** :97-161 / :164-216 on process 0 *)
Definition at_root (n : Z) (input : str) (t : ptree) : outcome (bool * ptree) :=
  if (0 <? n)%Z then initialize t input else Ok (false, t).
(** The collective call: [ts] are the trees of the processes; result and tree of every process. *)
Fixpoint oall2 {A} (l : list (outcome A)) : outcome (list A) :=
  match l with [] => Ok [] | x :: r => obind x (fun a => obind (oall2 r) (fun b => Ok (a :: b))) end.
Definition open_with (n : Z) (input : str) (ts : list ptree) : outcome (list (bool * ptree)) :=
  match ts with
  | [] => Ok []
  | t :: r => oall2 (at_root n input t :: map (internal n input) r)
  end.
(** open: the content of the file as process 0 reads it. *)
Definition open_file (content : str) : list ptree -> outcome (list (bool * ptree)) := open_with (slen content) content.
(** openStringFile :175-187: n stays -1 for an empty vector. *)
Definition open_strings (file : list str) : list ptree -> outcome (list (bool * ptree)) :=
  let s := concat file in open_with (match file with [] => (-1)%Z | _ => slen s end) s.
End Open.

(** Properties of the configuration database (C28). *)
From Verif Require Import Prelude StrModel ConfModel ConfSpec ConfProofs.
From Coq Require Import Ascii.
Open Scope nat_scope.

(** get(path, default) for bool, int and double ([conv] is the conversion): the converted text of the node the path leads
    to, the default if there is none or its text cannot be converted. *)
Theorem C28_get_value :
  forall T (conv : str -> option T) t ks dflt, Forall element ks ->
    (forall n v, reaches t ks n -> conv (text_of n) = Some v -> get0 conv t (dotted ks) dflt = v) /\
    (forall n, reaches t ks n -> conv (text_of n) = None -> get0 conv t (dotted ks) dflt = dflt) /\
    ((forall n, ~ reaches t ks n) -> get0 conv t (dotted ks) dflt = dflt).
Proof.
  intros T conv t ks dflt H. unfold get0, get_optional. rewrite fragments_dotted by auto. repeat split.
  - intros n v R C. apply walk_reaches in R. now rewrite R, C.
  - intros n R C. apply walk_reaches in R. now rewrite R, C.
  - intros N. destruct (walk ks t) as [n|] eqn:E; [|reflexivity]. apply walk_reaches in E. now destruct (N n).
Qed.
Print Assumptions C28_get_value.
(** get(path, &output): true and the value under the same conditions; false leaves the output alone. *)
Theorem C28_get_output :
  forall T (conv : str -> option T) t key out,
    (fst (get0_bool conv t key out) = true -> forall dflt, snd (get0_bool conv t key out) = get0 conv t key dflt) /\
    (fst (get0_bool conv t key out) = false -> snd (get0_bool conv t key out) = out /\ forall dflt, get0 conv t key dflt = dflt) .
Proof.
  intros T conv t key out. unfold get0_bool, get0. destruct (get_optional conv t key) as [v|]; split; cbn; intros H; try discriminate; auto.
Qed.
Print Assumptions C28_get_output.
(** Strings: the text of the node without the blanks around it. *)
Theorem C28_get_string_partial :
  forall t ks dflt, Forall element ks ->
    (forall n a b s, reaches t ks n -> text_of n = padded a b s -> tight s -> get_string t (dotted ks) dflt = s) /\
    (forall a b s, (forall n, ~ reaches t ks n) -> dflt = padded a b s -> tight s -> get_string t (dotted ks) dflt = s).
Proof.
  intros t ks dflt H. unfold get_string, get0, get_optional. rewrite fragments_dotted by auto. split.
  - intros n a b s R E Ts. apply walk_reaches in R. rewrite R, E. now apply strip_padded.
  - intros a b s N -> Ts. destruct (walk ks t) as [n|] eqn:E; [apply walk_reaches in E; now destruct (N n)|]. now apply strip_padded.
Qed.
Print Assumptions C28_get_string_partial.
(** A cursor answers like the database asked with the longer path, for every type and both forms of get. *)
Theorem C28_cursor :
  forall t p k, prefix_path p ->
    match get_cursor t p with
    | Some c =>
        (forall T (conv : str -> option T) d, get0 conv c k d = get0 conv t (p ++ dot :: k) d /\ get0_bool conv c k d = get0_bool conv t (p ++ dot :: k) d) /\
        (forall d, get_string c k d = get_string t (p ++ dot :: k) d /\ get_string_out c k d = get_string_out t (p ++ dot :: k) d) /\
        (forall conv z d, get_vector conv z c k d = get_vector conv z t (p ++ dot :: k) d /\
                          get_vector_out conv z c k d = get_vector_out conv z t (p ++ dot :: k) d) /\
        get_cursor c k = get_cursor t (p ++ dot :: k)
    | None => forall T (conv : str -> option T) d, get0 conv t (p ++ dot :: k) d = d
    end.
Proof.
  intros t p k Hp. unfold get_cursor at 1. pose proof (walk_path k t Hp) as W. destruct (walk (fragments p) t) as [c|].
  - unfold get0, get0_bool, get_string, get_string_out, get_vector, get_vector_out, get_cursor, get0, get0_bool, get_optional.
    repeat split; intros; rewrite W; reflexivity.
  - intros T conv d. unfold get0, get_optional. now rewrite W.
Qed.
Print Assumptions C28_cursor.
Definition ex_conf : ptree :=
  Node [] [(s_ "Configuration", Node [] [(s_ "Powerflow", Node [] [(s_ "networkFile", Node (s_ " IEEE14.raw  ") []); (s_ "n", Node (s_ "7") [])]);
                                         (s_ "Powerflow", Node [] [(s_ "other", Node (s_ "3") [])])])].
Definition ex_conv (s : str) : option Z := match atoi s with Ok z => if str_eqb s (s_ "0") || negb (z =? 0)%Z then Some z else None | _ => None end.
Example C28_nonvacuous :
  prefix_path (s_ "Configuration.Powerflow") /\ Forall element [s_ "Configuration"; s_ "Powerflow"; s_ "n"] /\
  s_ "Configuration.Powerflow.n" = dotted [s_ "Configuration"; s_ "Powerflow"; s_ "n"] /\
  (exists n, reaches ex_conf [s_ "Configuration"; s_ "Powerflow"; s_ "n"] n /\ ex_conv (text_of n) = Some 7%Z) /\
  get_cursor ex_conf (s_ "Configuration.Powerflow") <> None /\
  get0 ex_conv ex_conf (s_ "Configuration.Powerflow.n") 1%Z = 7%Z /\
  get_string ex_conf (s_ "Configuration.Powerflow.networkFile") (s_ "x") = s_ "IEEE14.raw" /\
  get0 ex_conv ex_conf (s_ "Configuration.Powerflow.other") 1%Z = 1%Z.
Proof.
  split; [exists (s_ "Configuration.Powerflo"), "w"%char; split; [reflexivity|discriminate]|].
  split; [repeat constructor; try discriminate; cbn; intuition discriminate|]. split; [reflexivity|].
  split; [eexists; split; [apply walk_reaches; vm_compute; reflexivity|vm_compute; reflexivity]|].
  split; [vm_compute; discriminate|]. split; [vm_compute; reflexivity|]. split; vm_compute; reflexivity.
Qed.

(** The children of a cursor, in file order; a name leads to the first child that has it. *)
Theorem C28_children :
  forall t k, element k ->
    (forall before c after, children t = (before ++ (k, c) :: after)%list -> ~ In k (map fst before) -> get_cursor t k = Some c) /\
    (~ In k (map fst (children t)) -> get_cursor t k = None).
Proof.
  intros t k [Hk Hd]. unfold get_cursor, fragments, children. rewrite fragments_dotfree by auto. cbn [app].
  replace (match k with [] => [] | a :: l => [a :: l] end) with [k] by (destruct k; [congruence|reflexivity]). cbn [walk]. split.
  - intros b c a -> H. now rewrite find_kid_first.
  - intros H. destruct (find_kid k (kids_of t)) as [c|] eqn:E; [|reflexivity]. apply find_kid_split in E as (b & a & E & _).
    exfalso. apply H. rewrite E, map_app. apply in_app_iff. right. now left.
Qed.
Print Assumptions C28_children.
Example C28_children_nonvacuous : map fst (children (match get_cursor ex_conf (s_ "Configuration") with Some c => c | None => ex_conf end)) = [s_ "Powerflow"; s_ "Powerflow"].
Proof. vm_compute. reflexivity. Qed.

(** The string form strips the caller's variable even when the key is missing and false is returned. *)
Theorem C28_failed_get_keeps_string_refuted :
  get_string_out ex_conf (s_ "Missing") (s_ " mine ") = (false, s_ "mine").
Proof. vm_compute. reflexivity. Qed.
Print Assumptions C28_failed_get_keeps_string_refuted.
(** A vector is read from the three entries x, y and z below its path, each 0 when missing; without the path the default is returned, or the output left alone. *)
Theorem C28_vector :
  forall conv zero t ks, Forall element ks -> ks <> [] ->
    let at_key k := get0 conv t (dotted (ks ++ [s_ k])) zero in
    (forall n, reaches t ks n ->
       (forall d, get_vector conv zero t (dotted ks) d = [at_key "x"%string; at_key "y"%string; at_key "z"%string]) /\
       get_vector_out conv zero t (dotted ks) [] = (true, [at_key "x"%string; at_key "y"%string; at_key "z"%string])) /\
    ((forall n, ~ reaches t ks n) -> forall d, get_vector conv zero t (dotted ks) d = d /\ get_vector_out conv zero t (dotted ks) d = (false, d)).
Proof.
  intros conv zero t ks H Hne at_key.
  assert (EL : forall k, In k ["x"; "y"; "z"]%string -> element (s_ k)).
  { intros k K. split; [|intros D]; repeat (destruct K as [<-|K]; [try discriminate; cbn in D; repeat (destruct D as [D|D]; try discriminate D; try destruct D)|]); destruct K. }
  assert (W : forall k n, In k ["x"; "y"; "z"]%string -> reaches t ks n -> get0 conv n (s_ k) zero = at_key k).
  { intros k n K R. unfold at_key, get0, get_optional. rewrite (fragments_dotted (ks := ks ++ [s_ k])) by (apply Forall_app; split; auto).
    replace (fragments (s_ k)) with [s_ k] by (repeat (destruct K as [<-|K]; [reflexivity|]); destruct K).
    apply walk_reaches in R. rewrite walk_app, R. reflexivity. }
  unfold get_vector, get_vector_out, get_cursor. rewrite fragments_dotted by auto. split.
  - intros n R. pose proof R as R'. apply walk_reaches in R'. rewrite R'. unfold xyz. rewrite !(W _ n) by (auto; cbn; auto). split; reflexivity.
  - intros N d. destruct (walk ks t) as [n|] eqn:E; [apply walk_reaches in E; now destruct (N n)|]. split; reflexivity.
Qed.
Print Assumptions C28_vector.
(** The vector form adds its three numbers to those the caller's vector already has. *)
Theorem C28_vector_get_replaces_refuted :
  forall conv zero t key out c, get_cursor t key = Some c ->
    length (snd (get_vector_out conv zero t key out)) = length out + 3 /\ firstn (length out) (snd (get_vector_out conv zero t key out)) = out.
Proof.
  intros conv zero t key out c H. unfold get_vector_out. rewrite H. cbn [snd]. rewrite app_length. split; [reflexivity|].
  rewrite firstn_app, Nat.sub_diag, firstn_all. apply app_nil_r.
Qed.
Print Assumptions C28_vector_get_replaces_refuted.
Example C28_vector_nonvacuous : get_cursor ex_conf (s_ "Configuration") <> None. Proof. vm_compute. discriminate. Qed.
(** A path that starts with a dot is not the path below the root. *)
Theorem C28_empty_prefix_refuted :
  get_cursor ex_conf [] = Some ex_conf /\ get_cursor ex_conf (s_ "Configuration") <> None /\ get_cursor ex_conf ([] ++ dot :: s_ "Configuration") = None.
Proof. repeat split; vm_compute; try reflexivity. discriminate. Qed.
Print Assumptions C28_empty_prefix_refuted.

(** ** Opening files *)
(** All processes return the same answer and hold the same database. *)
Theorem C28_processes_agree :
  forall read_xml content t P, (0 < P) -> (slen content < 2 ^ 30)%Z ->
    open_file read_xml content (repeat t P) = UB \/
    exists ok t', open_file read_xml content (repeat t P) = Ok (repeat (ok, t') P) /\
      (ok = false -> t' = t) /\
      (ok = true -> exists l, read_xml content = Some l /\ merge t l = Ok t').
Proof.
  intros read_xml content t P HP HL. unfold open_file, open_with. destruct P as [|P]; [lia|]. cbn [repeat].
  assert (Hn : (0 <= slen content)%Z) by (unfold slen; lia).
  destruct (Z.eqb_spec (slen content) 0) as [E0|E0].
  - right. exists false, t. split; [|split; [auto|discriminate]]. unfold at_root, internal. rewrite E0. cbn [Z.ltb Z.compare Z.eqb oall2 obind repeat].
    assert (H : oall2 (map (fun t => Ok (false, t)) (repeat t P)) = Ok (repeat (false, t) P)).
    { clear. induction P as [|P IH]; [reflexivity|]. cbn [repeat map oall2 obind]. rewrite IH. reflexivity. }
    rewrite H. reflexivity.
  - assert (I : map (internal read_xml (slen content) content) (repeat t P) = repeat (initialize read_xml t content) P).
    { replace (map (internal read_xml (slen content) content) (repeat t P)) with (repeat (internal read_xml (slen content) content t) P) by (clear; induction P as [|P IH]; cbn; congruence). f_equal. unfold internal. destruct (Z.eqb_spec (slen content) 0); [lia|].
      destruct (Z.ltb_spec 0 (slen content)); [|lia]. destruct (Z.ltb_spec (slen content) (2 ^ 30)); [reflexivity|lia]. }
    rewrite I. unfold at_root. destruct (Z.ltb_spec 0 (slen content)) as [Hlt|]; [|lia].
    assert (H : forall b, initialize read_xml t content = Ok b -> oall2 (initialize read_xml t content :: repeat (initialize read_xml t content) P) = Ok (repeat b (S P))).
    { intros b Eb. rewrite Eb. clear. cbn [oall2 obind repeat].
      assert (H : oall2 (repeat (Ok b) P) = Ok (repeat b P)). { induction P as [|P IH]; [reflexivity|]. cbn [repeat oall2 obind]. rewrite IH. reflexivity. }
      rewrite H. reflexivity. }
    unfold initialize in *. destruct (read_xml content) as [l|] eqn:R.
    + destruct (merge t l) as [t'| |] eqn:M; cbn [obind] in *.
      * right. exists true, t'. split; [now apply H|]. split; [discriminate|]. intros _. exists l. auto.
      * exfalso. revert M. clear. revert t. induction l as [|[n c] l IH]; intros t; cbn [merge]; [discriminate|]. destruct (good_name n); [apply IH|discriminate].
      * left. reflexivity.
    + right. exists false, t. split; [now apply H|]. split; [auto|discriminate].
Qed.
Print Assumptions C28_processes_agree.
Definition ex_read (s : str) : option (list (str * ptree)) :=
  if str_eqb s (s_ "one") then Some [(s_ "Configuration", Node [] [(s_ "a", Node (s_ "1") [])])]
  else if str_eqb s (s_ "two") then Some [(s_ "Configuration", Node [] [(s_ "a", Node (s_ "2") []); (s_ "b", Node (s_ "3") [])])] else None.
Example C28_processes_agree_nonvacuous :
  open_file ex_read (s_ "one") (repeat (Node [] []) 3) = Ok (repeat (true, Node [] [(s_ "Configuration", Node [] [(s_ "a", Node (s_ "1") [])])]) 3) /\
  open_file ex_read (s_ "bad") (repeat (Node [] []) 3) = Ok (repeat (false, Node [] []) 3).
Proof. split; vm_compute; reflexivity. Qed.
(** An empty vector of strings is reported as an error on process 0 while the others fail an assertion. *)
Theorem C28_empty_string_file_refuted :
  forall read_xml t t' r, open_strings read_xml [] [t] = Ok [(false, t)] /\ open_strings read_xml [] (t :: t' :: r) = UB.
Proof. intros. split; reflexivity. Qed.
Print Assumptions C28_empty_string_file_refuted.
(** Opening another file never changes a value that could be read before. *)
Theorem C28_open_keeps_values :
  forall T (conv : str -> option T) t l t' key v dflt, merge t l = Ok t' -> get_optional conv t key = Some v -> get0 conv t' key dflt = v.
Proof.
  intros T conv t l t' key v dflt M. unfold get0, get_optional. destruct (walk (fragments key) t) as [n|] eqn:W; [|discriminate]. intros C.
  destruct (merge_walk _ _ _ M W) as (n' & -> & ->). now rewrite C.
Qed.
Print Assumptions C28_open_keeps_values.
(** ... but the values of the second file cannot be read when its top element is called like that of the first. *)
Theorem C28_second_file_refuted :
  forall T (conv : str -> option T) t l t' k c key dflt, Forall (fun e => element (fst e)) l -> merge t l = Ok t' ->
    find_kid k (kids_of t) = Some c -> (exists r, fragments key = k :: r) -> get0 conv t' key dflt = get0 conv t key dflt.
Proof.
  intros T conv t l t' k c key dflt HF M F (r & E). unfold get0, get_optional. rewrite E. cbn [walk]. rewrite F.
  now rewrite (@merge_shadow _ _ _ _ _ HF M F).
Qed.
Print Assumptions C28_second_file_refuted.
Example C28_second_file_nonvacuous :
  exists t1 t2, open_file ex_read (s_ "one") [Node [] []] = Ok [(true, t1)] /\ open_file ex_read (s_ "two") [t1] = Ok [(true, t2)] /\
    get0 ex_conv t2 (s_ "Configuration.a") 0%Z = 1%Z /\ get0 ex_conv t2 (s_ "Configuration.b") 0%Z = 0%Z.
Proof. do 2 eexists. split; [vm_compute; reflexivity|]. split; [vm_compute; reflexivity|]. split; vm_compute; reflexivity. Qed.

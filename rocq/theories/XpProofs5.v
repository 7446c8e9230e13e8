From Verif Require Import Prelude GAModel GAProofs StrModel StrSpec StrProofs StrProofs2 StrProofs3 DCModel DCSpec DCProofs RecModel RecSpec
  RecProofs RecProofs2 RecProofs3 RecProofs4 XpModel XpSpec XpProofs XpProofs2 XpProofs3 XpProofs4.
From Coq Require Import Ascii.
Open Scope nat_scope.

(** ** Bus records *)
Lemma first_split (c : ascii) t : In c t -> exists u v, t = (u ++ c :: v)%list /\ lacks c u.
Proof.
  induction t as [|x t IH]; [intros []|]. intros H. destruct (ascii_dec x c) as [->|N].
  - exists [], t. split; [reflexivity|intros []].
  - destruct H as [H|H]; [congruence|]. destruct (IH H) as (u & v & -> & L). exists (x :: u), v. split; [reflexivity|].
    intros [X|X]; [congruence|now apply L].
Qed.
Lemma name_tok t : name_text t -> field (quote t) /\ lacks ","%char (quote t).
Proof.
  intros (H1 & H2 & H3 & _). split.
  - right. exists qt1. split; [now left|]. exists t. auto.
  - unfold quote. intros [X|X]; [discriminate|]. apply in_app_iff in X as [X|[X|[]]]; [now apply H2|discriminate].
Qed.
Lemma name_read t : name_text t -> check_string (quote t) = Ok (true, t).
Proof.
  intros (H1 & _ & _ & _ & [->|(L & T1 & T2)]); [reflexivity|].
  pose proof (@check_string_quoted 0 0 t 0 [] (conj T1 T2) H1) as X. cbn [repeat app] in X. unfold quote. apply X. lia.
Qed.

Section B.
Variable atof : str -> Z.
Variable fmt : Z -> str.
Hypothesis fmt_plain : forall x, plain_text (fmt x).
Notation reread := (reread atof fmt).

Lemma bus_record_line b name toks : (1 <= b <= 2147483647)%Z -> name_text name -> Forall (fun bt => tok_ok (snd bt)) toks -> toks <> [] ->
  record_line (commas (map render ((0, s_ (dec b)) :: (1, quote name) :: toks))) (s_ (dec b) :: quote name :: map snd toks).
Proof.
  intros Hb Hn F Hne. destruct (line_start (z := b) (1, quote name) toks Hb) as [T C]. split; [exact T|]. split; [exact C|].
  set (l := commas (map render ((0, s_ (dec b)) :: (1, quote name) :: toks))) in *.
  assert (split_of l = Ok (s_ (dec b) :: quote name :: map snd toks)) as S.
  { unfold l. rewrite split_render; [reflexivity|discriminate|]. destruct (plain_tok (dec_plain b)) as (X1 & X2 & _).
    constructor; [auto|]. constructor; [apply name_tok; exact Hn|]. eapply Forall_impl; [|exact F]. intros bt (Y1 & Y2 & _). auto. }
  assert (Forall (lacks "/"%char) (map render toks)) as Ls.
  { apply Forall_forall. intros x Hx. apply in_map_iff in Hx as (bt & <- & Hb'). rewrite Forall_forall in F. destruct (F _ Hb') as (_ & _ & Y).
    unfold render. apply lacks_app. split; [apply lacks_repeat; discriminate|exact Y]. }
  destruct (plain_tok (dec_plain b)) as (_ & _ & Ld).
  assert (clean_comment l = l) as ->; [|exact S].
  destruct (in_dec ascii_dec slash name) as [I|N].
  - destruct (first_split _ _ I) as (u & v & E & Lu). destruct Hn as (Q & _).
    assert (exists rest, l = ((s_ (dec b) ++ [","%char; sp]) ++ qt1 :: u ++ slash :: v ++ qt1 :: rest)%list) as (rest & El).
    { unfold l. destruct toks as [|t0 tr]; [contradiction|]. exists (","%char :: commas (map render (t0 :: tr))).
      cbn [map commas]. change (render (0, s_ (dec b))) with (s_ (dec b)). unfold render at 1. cbn [fst snd blanks repeat app].
      unfold quote. rewrite E. rewrite <- !app_assoc. cbn [app]. rewrite <- !app_assoc. cbn [app]. rewrite <- !app_assoc. reflexivity. }
    rewrite El. assert (forall c, ~ plain_char c -> lacks c (s_ (dec b))) as P by (intros c; now apply plain_lacks, dec_plain).
    assert (lacks qt1 u /\ lacks qt1 v) as (Qu & Qv).
    { rewrite E in Q. split; intros X; apply Q; apply in_app_iff; [now left|right; now right]. }
    apply clean_comment_quoted; auto.
    + apply lacks_app. split; [apply P; notplain|]. cbn. intros [X|[X|[]]]; discriminate.
    + apply lacks_app. split; [apply P; notplain|]. cbn. intros [X|[X|[]]]; discriminate.
    + apply lacks_app. split; [exact Ld|]. cbn. intros [X|[X|[]]]; discriminate.
    + apply lacks_app. auto.
    + discriminate.
  - apply clean_comment_none. unfold l. apply lacks_commas; [discriminate|]. cbn [map]. constructor; [exact Ld|]. constructor; [|exact Ls].
    unfold render. cbn [fst snd]. apply lacks_app. split; [apply lacks_repeat; discriminate|]. unfold quote.
    intros [X|X]; [discriminate|]. apply in_app_iff in X as [X|[X|[]]]; [now apply N|discriminate].
Qed.

Lemma print_first d orig j r1 r2 df x : slot_good (slot_of r1 j) = true -> slot_good (slot_of r2 j) = true ->
  look d TDouble (slot_of r2 j) = Some (VDouble x) ->
  exists y, print fmt d orig j (XDbl [r1; r2] df) = Ok [render (1, fmt y)] /\
    Some (VDouble y) = match look d TDouble (slot_of r1 j) with Some v => Some v | None => look d TDouble (slot_of r2 j) end.
Proof.
  intros G1 G2 L. destruct (look d TDouble (slot_of r1 j)) as [v|] eqn:E.
  - pose proof (look_type _ _ _ E) as T. destruct v; try discriminate. eexists. split; [apply print_dbl; eassumption|reflexivity].
  - eexists. split; [apply print_dbl2; eassumption|now rewrite L].
Qed.
Lemma print_name d orig j name s : no_colon name = true -> look d TString (Plain name) = Some (VString s) -> lacks qt1 (s_ s) ->
  print fmt d orig j (XName name) = Ok [render (1, quote (s_ s))].
Proof.
  intros G L Q. cbn [print]. rewrite (@key_good (Of name)) by exact G. cbn [obind slot_of]. rewrite L. rewrite (find_c_none Q). reflexivity.
Qed.

Definition bus_spec (d : dc) (b : Z) (name : string) (t : str) (r : list str) : Prop :=
  record_line t r /\ bus_readable r /\ bus_number r = Some b /\ bus_text r = Some (s_ name) /\
  forall c n k, In (c, n, k) bus_layout -> bind_opt (nth_error r c) (kind_of atof k) = option_map reread (current d (kind_type k) (Plain n)).

Ltac good := first [apply good_of; vm_compute; reflexivity].
Ltac tok := first [assumption | apply plain_tok; apply fmt_plain | apply dec_tok | apply plain_tok; assumption | apply plain_tok; plain].

Lemma bus_line p b name : (1 <= b <= 2147483647)%Z -> look (pl_data p) TInt (Plain "BUS_NUMBER") = Some (VInt b) ->
  look (pl_data p) TString (Plain "BUS_NAME") = Some (VString name) -> name_text (s_ name) ->
  (forall n ty, In (n, ty) bus_entries -> exists v, look (pl_data p) ty (Plain n) = Some v /\ writable v) ->
  exists t r, bus_lines fmt p = Ok [Build_text_line (pl_global p) 0 t] /\ bus_spec (pl_data p) b name t r.
Proof.
  intros Hb L0 L1 Hn H. set (d := pl_data p) in *.
  destruct (@int_entry d (Plain "BUS_TYPE") (H "BUS_TYPE"%string TInt ltac:(cbn; tauto))) as (z1 & K1 & A1).
  destruct (@int_entry d (Plain "BUS_AREA") (H "BUS_AREA"%string TInt ltac:(cbn; tauto))) as (z2 & K2 & A2).
  destruct (@int_entry d (Plain "BUS_ZONE") (H "BUS_ZONE"%string TInt ltac:(cbn; tauto))) as (z3 & K3 & A3).
  destruct (@int_entry d (Plain "BUS_OWNER") (H "BUS_OWNER"%string TInt ltac:(cbn; tauto))) as (z4 & K4 & A4).
  destruct (@dbl_entry d (Plain "BUS_BASEKV") (H "BUS_BASEKV"%string TDouble ltac:(cbn; tauto))) as (x1 & M1).
  destruct (@dbl_entry d (Plain "BUS_VOLTAGE_MAG") (H "BUS_VOLTAGE_MAG"%string TDouble ltac:(cbn; tauto))) as (x2 & M2).
  destruct (@dbl_entry d (Plain "BUS_VOLTAGE_ANG") (H "BUS_VOLTAGE_ANG"%string TDouble ltac:(cbn; tauto))) as (x3 & M3).
  destruct (@dbl_entry d (Plain "BUS_VOLTAGE_MAX") (H "BUS_VOLTAGE_MAX"%string TDouble ltac:(cbn; tauto))) as (x4 & M4).
  destruct (@dbl_entry d (Plain "BUS_VOLTAGE_MIN") (H "BUS_VOLTAGE_MIN"%string TDouble ltac:(cbn; tauto))) as (x5 & M5).
  destruct (@print_first d (pl_orig p) 0%Z (Of "BUS_PF_VMAG") (Of "BUS_VOLTAGE_MAG") (Some (s_ "1.000000")) x2) as (vm & Evm & Cvm); [good|good|exact M2|].
  destruct (@print_first d (pl_orig p) 0%Z (Of "BUS_PF_VANG") (Of "BUS_VOLTAGE_ANG") (Some (s_ "0.000000")) x3) as (va & Eva & Cva); [good|good|exact M3|].
  set (tk := [(1, fmt x1); (1, s_ (dec z1)); (1, s_ (dec z2)); (1, s_ (dec z3)); (1, s_ (dec z4)); (1, fmt vm); (1, fmt va); (1, fmt x4);
              (1, fmt x5); (1, s_ "1.1"); (1, s_ "0.9")]).
  assert (pieces fmt d (pl_orig p) 0 bus33_line = Ok (map render ((0, s_ (dec b)) :: (1, quote (s_ name)) :: tk))) as E.
  { unfold bus33_line, tk. eapply eq_trans; [|reflexivity]. eapply eq_trans.
    - repeat (eapply pieces_cons; [first
        [ apply print_lit
        | eapply print_int; [good|eassumption]
        | eassumption
        | apply print_name; [vm_compute; reflexivity|eassumption|apply Hn]
        | eapply print_dbl; [good|eassumption] ]|]). apply pieces_nil.
    - reflexivity. }
  exists (commas (map render ((0, s_ (dec b)) :: (1, quote (s_ name)) :: tk))), (s_ (dec b) :: quote (s_ name) :: map snd tk). split.
  - unfold bus_lines, line_of. fold d. rewrite E. reflexivity.
  - pose proof (dec_text b (pos_is_int Hb)) as (_ & _ & Ab).
    assert (bus_number (s_ (dec b) :: quote (s_ name) :: map snd tk) = Some b) as Nb by (cbn [bus_number]; now rewrite Ab).
    assert (bus_text (s_ (dec b) :: quote (s_ name) :: map snd tk) = Some (s_ name)) as Tb by (cbn [bus_text]; now rewrite name_read).
    split; [|split; [|split; [exact Nb|split; [exact Tb|]]]].
    + apply bus_record_line; auto; [|discriminate]. unfold tk. repeat (constructor; [cbn [snd]; tok|]). constructor.
    + split; [exists b; split; [exact Nb|lia]|]. split; [rewrite Tb; discriminate|].
      intros c n t I. unfold tk. cbn [map snd]. cbn in I. cases I; cbn [nth_error]; (let X := fresh in intros X; inversion X; subst; eexists; eassumption).
    + intros c n k I. unfold tk. cbn [map snd]. cbn in I. cases I; cbn [nth_error bind_opt kind_of kind_type];
        first
        [ rewrite current_plain by reflexivity;
          (match goal with L : look d _ _ = Some _ |- context [look d _ _] => rewrite L end); cbn [option_map XpSpec.reread];
          unfold int_of, dbl_of; known; reflexivity
        | change (current d TDouble (Plain "BUS_VOLTAGE_MAG")) with
            (match look d TDouble (Plain "BUS_PF_VMAG") with Some v => Some v | None => look d TDouble (Plain "BUS_VOLTAGE_MAG") end);
          cbn [slot_of] in Cvm; rewrite <- Cvm; reflexivity
        | change (current d TDouble (Plain "BUS_VOLTAGE_ANG")) with
            (match look d TDouble (Plain "BUS_PF_VANG") with Some v => Some v | None => look d TDouble (Plain "BUS_VOLTAGE_ANG") end);
          cbn [slot_of] in Cva; rewrite <- Cva; reflexivity ].
Qed.
End B.

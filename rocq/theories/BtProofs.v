(** Proofs for C61: lines. *)
From Verif Require Import Prelude StrModel StrSpec StrProofs StrProofs2 StrProofs3 StreamModel StreamProps GAModel HdModel HdSpec HdProofs DCModel DCProofs BtModel BtSpec.
From Coq Require Import Ascii.
Open Scope nat_scope.
Ltac Zify.zify_post_hook ::= Z.to_euclidean_division_equations.

Lemma nonspace_blank c : isspace c = false -> blank_ws c = c.
Proof.
  intros H. unfold blank_ws. destruct (Ascii.eqb_spec c lf) as [->|]; [discriminate|]. destruct (Ascii.eqb_spec c tab) as [->|]; [discriminate|].
  destruct (Ascii.eqb_spec c cr) as [->|]; [discriminate|]. reflexivity.
Qed.
Lemma white_space a : Forall white a -> forallb isspace a = true.
Proof. intros H. apply forallb_forall. rewrite Forall_forall in H. intros x I. now apply H. Qed.
Lemma blanks_space a : forallb isspace a = true -> forallb isspace (map blank_ws a) = true.
Proof. intros H. rewrite forallb_forall in *. intros x I. apply in_map_iff in I as (y & <- & I). apply isspace_blank. auto. Qed.
Lemma trim_core a t b : forallb isspace a = true -> forallb isspace b = true ->
  (exists c r, t = c :: r /\ isspace c = false) -> (exists u d, t = (u ++ [d])%list /\ isspace d = false) ->
  trim (a ++ t ++ b) = map blank_ws t.
Proof.
  intros Ha Hb (c & r & E & Hc) (u & d & E2 & Hd). unfold trim. fold blank_ws. rewrite !map_app.
  rewrite drop_while_all by now apply blanks_space.
  rewrite E at 1. cbn [app map]. rewrite (nonspace_blank _ Hc). rewrite drop_while_head by assumption.
  replace (c :: map blank_ws r ++ map blank_ws b)%list with (map blank_ws t ++ map blank_ws b)%list by (rewrite E; cbn [map app]; now rewrite (nonspace_blank _ Hc)).
  rewrite rev_app_distr, drop_while_all by (rewrite forallb_rev; now apply blanks_space).
  rewrite E2. rewrite map_app, rev_app_distr. cbn [map rev app]. rewrite (nonspace_blank _ Hd), drop_while_head by assumption.
  cbn [rev]. now rewrite rev_involutive.
Qed.
Lemma trim_space a : forallb isspace a = true -> trim a = [].
Proof.
  intros H. unfold trim. fold blank_ws. rewrite <- (app_nil_r (map blank_ws a)), drop_while_all by now apply blanks_space. reflexivity.
Qed.

Lemma csplit_none t : lacks sp t -> csplit t = [t].
Proof.
  induction t as [|c t IH]; intros H; [reflexivity|]. cbn [csplit].
  destruct (Ascii.eqb_spec c sp) as [->|N]; [exfalso; apply H; now left|]. rewrite IH; [reflexivity|]. intros X. apply H. now right.
Qed.
Lemma csplit_gap n s : (exists c r, s = c :: r /\ c <> sp) -> csplit (repeat sp (S n) ++ s) = [] :: csplit s.
Proof.
  intros (c & r & -> & N). induction n as [|n IH].
  - cbn [repeat app]. cbn [csplit]. rewrite Ascii.eqb_refl. destruct (Ascii.eqb_spec c sp); [contradiction|reflexivity].
  - replace (repeat sp (S (S n)) ++ c :: r)%list with (sp :: repeat sp (S n) ++ c :: r)%list by reflexivity.
    change (csplit (sp :: repeat sp (S n) ++ c :: r)) with (csplit (repeat sp (S n) ++ c :: r)). exact IH.
Qed.
Lemma csplit_app t n s : lacks sp t -> (exists c r, s = c :: r /\ c <> sp) -> csplit (t ++ repeat sp (S n) ++ s) = t :: csplit s.
Proof.
  intros L H. induction t as [|c t IH]; [now apply csplit_gap|].
  cbn [app csplit]. destruct (Ascii.eqb_spec c sp) as [->|N]; [exfalso; apply L; now left|].
  rewrite IH; [reflexivity|]. intros X. apply L. now right.
Qed.
Lemma piece_blank t : piece_of t -> map blank_ws t = t /\ lacks sp t /\ lacks lf t.
Proof.
  intros (_ & F). rewrite Forall_forall in F. split; [|split].
  - rewrite <- (map_id t) at 2. apply map_ext_in. intros c I. apply nonspace_blank. auto.
  - intros I. specialize (F _ I). discriminate.
  - intros I. specialize (F _ I). discriminate.
Qed.
Lemma between_blank g : between g -> map blank_ws g = repeat sp (length g) /\ lacks lf g.
Proof.
  intros (_ & F). split.
  - induction F as [|c g H F IH]; [reflexivity|]. cbn [map length repeat]. rewrite IH. f_equal. destruct H as [-> | [-> | ->]]; reflexivity.
  - intros I. rewrite Forall_forall in F. destruct (F _ I) as [E | [E | E]]; discriminate.
Qed.
Lemma white_lf a : Forall white a -> lacks lf a.
Proof. intros F I. rewrite Forall_forall in F. now destruct (F _ I). Qed.
Lemma piece_head t : piece_of t -> exists c r, t = c :: r /\ isspace c = false.
Proof. intros (N & F). destruct t as [|c r]; [contradiction|]. inversion F; subst. eauto. Qed.
Lemma piece_last t : piece_of t -> exists u d, t = (u ++ [d])%list /\ isspace d = false.
Proof. intros (N & F). destruct (exists_last N) as (u & d & ->). apply Forall_app in F as (_ & F). inversion F; subst. eauto. Qed.

(** The part of a line from the first piece to the last. *)
Lemma line_core ts l : line_of ts l -> exists a core b, l = (a ++ core ++ b)%list /\ Forall white a /\ Forall white b /\
  (exists c r, core = c :: r /\ isspace c = false) /\ (exists u d, core = (u ++ [d])%list /\ isspace d = false) /\
  csplit (map blank_ws core) = ts /\ lacks lf core /\ (exists t r, ts = t :: r /\ exists q, core = (t ++ q)%list).
Proof.
  induction 1 as [a t b P A B | a t g ts l P A G L IH H].
  - destruct (piece_blank P) as (M & S & L). exists a, t, b. repeat split; auto using piece_head, piece_last.
    + now rewrite M, csplit_none.
    + exists t, []. split; [reflexivity|]. exists []. now rewrite app_nil_r.
  - destruct IH as (a' & core & b' & E & A' & B' & (c & r & Ec & Hc) & (u & d & Ed & Hd) & SC & LC & _).
    destruct H as (c2 & r2 & El & Hl).
    assert (a' = []) as ->.
    { destruct a' as [|x a']; [reflexivity|]. rewrite El in E. cbn [app] in E. injection E as -> _. inversion A' as [|y z (W & _)]; subst. congruence. }
    cbn [app] in E. destruct (piece_blank P) as (M & S & LT). destruct (between_blank G) as (MG & LG).
    exists a, (t ++ g ++ core)%list, b'. split; [now rewrite E, <- !app_assoc|]. split; [exact A|]. split; [exact B'|]. split; [|split; [|split; [|split]]].
    + destruct (piece_head P) as (x & y & -> & Hx). exists x, (y ++ g ++ core)%list. auto.
    + exists (t ++ g ++ u)%list, d. rewrite Ed. rewrite <- !app_assoc. auto.
    + rewrite !map_app, M, MG. destruct G as (NG & _). destruct g as [|x g]; [contradiction|]. cbn [length]. rewrite csplit_app; [now rewrite SC|exact S|].
      exists c, (map blank_ws r). rewrite Ec. cbn [map]. rewrite (nonspace_blank _ Hc). split; [reflexivity|]. intros ->. discriminate.
    + intros I. apply in_app_or in I as [I|I]; [auto|]. apply in_app_or in I as [I|I]; auto.
    + exists t, ts. split; [reflexivity|]. now exists (g ++ core)%list.
Qed.
Lemma line_head ts l : line_of ts l -> forall t r, ts = t :: r -> piece_of t.
Proof. intros [a t b P A B | a t g ts' l' P A G L H] t0 r E; injection E as <- _; exact P. Qed.
Lemma line_pieces ts l : line_of ts l -> csplit (trim l) = ts /\ lacks lf l /\
  exists a core b t r, l = (a ++ core ++ b)%list /\ Forall white a /\ trim l = map blank_ws core /\ ts = t :: r /\ piece_of t /\ exists q, core = (t ++ q)%list.
Proof.
  intros L. destruct (line_core L) as (a & core & b & E & A & B & H & D & S & LC & (t & r & Et & q & Eq)).
  assert (trim l = map blank_ws core) as T by (rewrite E; apply trim_core; auto using white_space).
  split; [now rewrite T|]. split.
  - rewrite E. intros I. apply in_app_or in I as [I|I]; [exact (white_lf A I)|]. apply in_app_or in I as [I|I]; [auto|exact (white_lf B I)].
  - exists a, core, b, t, r. split; [exact E|]. split; [exact A|]. split; [exact T|]. split; [exact Et|]. split; [|now exists q].
    exact (line_head L Et).
Qed.

Lemma dec_head z : is_int z = true -> exists c r, s_ (dec z) = c :: r /\ c <> hash /\ c <> sp.
Proof.
  intros Hz. pose proof (is_int_bounds _ Hz) as B. unfold dec. destruct (Z.ltb_spec z 0).
  - unfold s_. cbn [list_ascii_of_string]. eexists _, _. split; [reflexivity|]. split; discriminate.
  - assert (Z.to_N z < 10000000000)%N as Hm by lia. destruct (digits_nil_spec Hm) as (U & A & N).
    destruct (digits 10 (Z.to_N z) EmptyString) as [|c s]; [contradiction|]. cbn [alldigits] in A. destruct A as [(n & Hn & ->) As].
    unfold s_. cbn [list_ascii_of_string]. eexists _, _. split; [reflexivity|].
    split; (apply digit_not; [assumption | left; cbn; lia]).
Qed.

Section Rows.
Context {D : Type}.
Variable atof : str -> D.
Lemma canonical_two t : ident t -> length t <= 2 -> firstn 2 (canonical t) = canonical t.
Proof. intros (N & _) L. destruct t as [|a [|b [|c t]]]; cbn in *; try contradiction; try reflexivity. lia. Qed.
Lemma parse_row_ok r l nval : row_line r l -> length (r_vals r) = nval ->
  parse_row atof nval l = Ok (r_bus r, canonical (r_tag r), map atof (r_vals r)).
Proof.
  intros (Hi & Id & L2 & tag & Sp & L) Hn. destruct (line_pieces L) as (S & _). unfold parse_row. rewrite S.
  rewrite (clean2char_spelling Id Sp). cbn [obind]. destruct (dec_text _ Hi) as (_ & _ & A). rewrite A. cbn [obind].
  rewrite canonical_two by assumption. rewrite Hn, Nat.leb_refl, <- Hn, firstn_all. reflexivity.
Qed.
End Rows.
Lemma row_line_lf r l : row_line r l -> lacks lf l.
Proof. intros (_ & _ & _ & tag & _ & L). now destruct (line_pieces L). Qed.
Lemma row_line_hash r l : row_line r l -> is_hash l = false /\ is_hash (trim l) = false.
Proof.
  intros (Hi & _ & _ & tag & _ & L). destruct (line_pieces L) as (_ & _ & a & core & b & t & q & E & A & T & Et & P & w & Ew).
  injection Et as <- _. destruct (dec_head _ Hi) as (c & r2 & Ed & Nc & _). rewrite Ed in *. destruct (piece_head P) as (c' & r' & X & Sc). injection X as <- <-.
  rewrite T, E, Ew. split.
  - destruct a as [|x a]; cbn [app is_hash]; [now apply Ascii.eqb_neq|]. inversion A as [|y z (W & _)]; subst. apply Ascii.eqb_neq. intros ->. discriminate.
  - cbn [app map is_hash]. rewrite (nonspace_blank _ Sc). now apply Ascii.eqb_neq.
Qed.
Lemma row_line_count r l : row_line r l -> length (csplit (trim l)) = S (S (length (r_vals r))).
Proof. intros (_ & _ & _ & tag & _ & L). destruct (line_pieces L) as (S & _). now rewrite S. Qed.

(** ** Comments *)
Lemma comment_hash l : comment l -> is_hash l = true /\ lacks lf l.
Proof.
  intros (r & -> & L). split; [reflexivity|]. intros [X|X]; [discriminate|auto].
Qed.
Lemma text_comment l h : comment_text l h -> comment l.
Proof.
  intros (a & b & -> & A & B & L & _ & _ & _). eexists. split; [reflexivity|]. intros I. apply in_app_or in I as [I|I]; [exact (white_lf A I)|].
  apply in_app_or in I as [I|I]; [auto|exact (white_lf B I)].
Qed.
Lemma header_text l h : comment_text l h -> trim (sp :: tl l) = h.
Proof.
  intros (a & b & -> & A & B & L1 & L2 & L3 & [-> | (X & Y)]); cbn [tl].
  - cbn [app]. apply trim_space. cbn [forallb]. rewrite forallb_app. rewrite !white_space by assumption. reflexivity.
  - change (sp :: a ++ h ++ b)%list with ((sp :: a) ++ h ++ b)%list. apply trim_spec; auto.
    + cbn [forallb]. now rewrite white_space.
    + now apply white_space.
Qed.
Lemma header_first l h : comment_text l h -> is_hash (trim l) = true /\ trim (sp :: tl (trim l)) = h.
Proof.
  intros (a & b & -> & A & B & L1 & L2 & L3 & [-> | (X & Y)]).
  - cbn [app]. replace (hash :: a ++ b)%list with ([] ++ [hash] ++ (a ++ b))%list by reflexivity.
    change ("#"%char :: a ++ b)%list with ([] ++ [hash] ++ (a ++ b))%list.
    rewrite trim_core; [split; reflexivity|reflexivity| |exists hash, []; auto|exists [], hash; auto]. rewrite forallb_app. now rewrite !white_space.
  - destruct Y as (u & d & E & Hd).
    change ("#"%char :: a ++ h ++ b)%list with ([] ++ (hash :: a ++ h ++ b))%list.
    replace (hash :: a ++ h ++ b)%list with ((hash :: a ++ h) ++ b)%list by (cbn [app]; now rewrite <- app_assoc).
    rewrite trim_core; [|reflexivity|now apply white_space|exists hash, (a ++ h)%list; auto|exists (hash :: a ++ u)%list, d; rewrite E; split; [cbn [app]; now rewrite <- app_assoc|auto]].
    cbn [map]. change (blank_ws hash) with hash. split; [reflexivity|]. cbn [tl]. rewrite map_app.
    assert (map blank_ws h = h) as ->.
    { rewrite <- (map_id h) at 2. apply map_ext_in. intros x Hx. unfold blank_ws.
      destruct (Ascii.eqb_spec x lf); [subst; contradiction|]. destruct (Ascii.eqb_spec x tab); [subst; contradiction|].
      destruct (Ascii.eqb_spec x cr); [subst; contradiction|]. reflexivity. }
    replace (sp :: map blank_ws a ++ h)%list with ((sp :: map blank_ws a) ++ h ++ [])%list by (rewrite app_nil_r; reflexivity).
    apply trim_spec; auto; [|exists u, d; auto]. cbn [forallb]. rewrite blanks_space by now apply white_space. reflexivity.
Qed.

From Verif Require Import Prelude GAModel GAProofs StrModel StrSpec StrProofs StrProofs2 StrProofs3 DCModel DCSpec DCProofs RecModel RecSpec
  RecProofs RecProofs2 RecProofs3 RecProofs4 RecProps XpModel XpSpec XpProofs XpProofs2 XpProofs3 XpProofs4 XpProofs5 XpProofs6.
From Coq Require Import Ascii.
Open Scope nat_scope.

(** ** Branches *)
Definition ends (p : place) : Z * Z := match branch_ends (pl_data p) with Some e => e | None => (0, 0)%Z end.
Lemma first_pairs_skip seen e k rest : existsb (same_ends e) seen = true -> first_pairs seen (repeat e k ++ rest) = first_pairs seen rest.
Proof. intros H. induction k as [|k IH]; [reflexivity|]. cbn [repeat app first_pairs]. now rewrite H. Qed.
Lemma first_pairs_groups (n : place -> nat) : forall l seen, NoDup l -> (forall p, In p l -> 0 < n p) ->
  (forall p q, In p l -> In q l -> same_ends (ends p) (ends q) = true -> p = q) ->
  (forall p, In p l -> existsb (same_ends (ends p)) seen = false) ->
  first_pairs seen (flat_map (fun p => repeat (ends p) (n p)) l) = map ends l.
Proof.
  induction l as [|p l IH]; intros seen N P I S; [reflexivity|]. inversion N as [|? ? N1 N2]; subst. cbn [flat_map map].
  specialize (P p (or_introl eq_refl)) as Pp. destruct (n p) as [|k]; [lia|]. cbn [repeat app first_pairs].
  rewrite (S p (or_introl eq_refl)). f_equal. rewrite first_pairs_skip by (cbn; now rewrite same_ends_refl).
  apply IH; auto.
  - intros q Hq. apply P. now right.
  - intros q r Hq Hr. apply I; now right.
  - intros q Hq. cbn [existsb]. rewrite (S q (or_intror Hq)), orb_false_r. destruct (same_ends (ends q) (ends p)) eqn:E; [|reflexivity].
    assert (q = p) by (apply I; [now right|now left|exact E]). subst. contradiction.
Qed.
Lemma Forall2_nth {A B} (R : A -> B -> Prop) l m : length l = length m ->
  (forall i a b, nth_error l i = Some a -> nth_error m i = Some b -> R a b) -> Forall2 R l m.
Proof.
  revert m. induction l as [|a l IH]; intros [|b m] L H; try discriminate; constructor.
  - now apply (H 0).
  - apply IH; [now inversion L|]. intros i. apply (H (S i)).
Qed.
Lemma Forall2_at {A B} (R : A -> B -> Prop) l m i a b : Forall2 R l m -> nth_error l i = Some a -> nth_error m i = Some b -> R a b.
Proof.
  intros F. revert i. induction F as [|x y l m H _ IH]; intros [|i] Ha Hb; try discriminate; cbn in *.
  - congruence.
  - eauto.
Qed.
Lemma Forall2_len {A B} (R : A -> B -> Prop) l m : Forall2 R l m -> length l = length m.
Proof. induction 1; cbn; congruence. Qed.

Section Chain.
Variable atof : str -> Z.
Variable fmt : Z -> str.
Lemma branch_chain zero names sorted :
  (forall p, In p sorted -> written (line_lines fmt) (devices (pl_data p) "BRANCH_NUM_ELEMENTS")
      (fun j r => exists t, line_ok atof fmt p j (ends p) t r) p /\ 0 < devices (pl_data p) "BRANCH_NUM_ELEMENTS") ->
  (forall p, In p sorted -> branch_ends (pl_data p) = Some (ends p)) ->
  NoDup sorted -> (forall p q, In p sorted -> In q sorted -> same_ends (ends p) (ends q) = true -> p = q) ->
  sumn (map (fun p => devices (pl_data p) "BRANCH_NUM_ELEMENTS") sorted) <= Z.to_nat 9999999 ->
  exists br, Forall2 (fun p d' => same_branch atof fmt (pl_data p) d') sorted (br_data br) /\
    forall fuel term rest, test_end term = false -> length (block_text (line_lines fmt) sorted) < fuel ->
      parse fuel (branch_record atof (branch33 zero) names) (block_text (line_lines fmt) sorted ++ term :: rest)%list (Build_branches [] [] 0)
        = Some (Ok (br, rest)).
Proof.
  intros W E N I S. set (lines := line_lines fmt) in *.
  assert (forall p r, In p sorted -> In r (recs lines p) -> exists j t, nth_error (recs lines p) j = Some r /\ line_ok atof fmt p j (ends p) t r) as Q.
  { intros p r Hp Hr. apply In_nth_error in Hr as (j & Hj). destruct (W p Hp) as [(_ & _ & _ & _ & _ & X) _].
    destruct (X j r Hj) as (_ & t & Ht). eauto. }
  pose proof (@block_reads lines _ _ sorted (fun p Hp => proj1 (W p Hp))) as R.
  assert (first_pairs [] (all_ends names (block_recs lines sorted)) = map ends sorted) as FP.
  { rewrite <- (@first_pairs_groups (fun p => length (recs lines p)) sorted []); auto.
    - f_equal. unfold all_ends, block_recs. clear R. revert Q. clear. induction sorted as [|p l IH]; intros Q; [reflexivity|]. cbn [flat_map].
      rewrite flat_map_app, IH by (intros q r Hq; apply Q; now right). f_equal.
      assert (forall r, In r (recs lines p) -> ends_of names r = Some (ends p)) as X.
      { intros r Hr. destruct (Q p r (or_introl eq_refl) Hr) as (j & t & _ & (_ & B & _)). apply B. }
      revert X. clear. induction (recs lines p) as [|r l IH]; intros X; [reflexivity|]. cbn [flat_map length repeat]. rewrite X by now left. cbn.
      f_equal. apply IH. intros y Hy. apply X. now right.
    - intros p Hp. destruct (W p Hp) as [(_ & _ & _ & L & _) P]. unfold recs. rewrite map_length, L. exact P. }
  destruct (@C21_branch_section_33_partial atof zero names _ _ R) as (br & Lb & Hb & P).
  { rewrite (@block_length lines _ _ sorted (fun p Hp => proj1 (W p Hp))). exact S. }
  { intros r Hr. destruct (@block_in lines _ _ sorted (fun p Hp => proj1 (W p Hp)) r Hr) as (p & j & Hp & _ & _ & (t & _ & B & Rd & _)).
    split; [rewrite B; discriminate|exact Rd]. }
  exists br. split; [|exact P]. rewrite FP in Lb, Hb. rewrite map_length in Lb. apply Forall2_nth; [congruence|].
  intros l p d' Hp Hd. specialize (Hb l (ends p) d'). rewrite nth_error_map, Hp in Hb. specialize (Hb eq_refl Hd).
  assert (In p sorted) as Ip by (eapply nth_error_In; exact Hp). destruct (W p Ip) as [Wp _].
  assert (filter (joins names (ends p)) (block_recs lines sorted) = recs lines p) as Ef.
  { unfold block_recs. apply filter_group; auto.
    - intros x Hx. destruct (Q p x Ip Hx) as (j & t & _ & (_ & B & _)). unfold joins. rewrite B. apply same_ends_refl.
    - intros q x Hq Ne Hx. destruct (Q q x Hq Hx) as (j & t & _ & (_ & B & _)). unfold joins. rewrite B.
      destruct (same_ends (ends q) (ends p)) eqn:Es; [|reflexivity]. exfalso. apply Ne. now apply I. }
  rewrite Ef in Hb. assert (length (recs lines p) = devices (pl_data p) "BRANCH_NUM_ELEMENTS") as Lr.
  { unfold recs. rewrite map_length. apply Wp. }
  destruct Hb as (_ & B1 & B2 & B3 & B4 & _). split; [|split].
  - unfold branch_ends at 1. rewrite B1, B2, E by exact Ip. now destruct (ends p).
  - split; [unfold devices at 1; rewrite B3, Nat2Z.id; exact Lr|].
    intros j name ty Hj In0. destruct (nth_error (recs lines p) j) as [r|] eqn:Hr; [|apply nth_error_None in Hr; lia].
    destruct Wp as (_ & _ & _ & _ & _ & X). destruct (X j r Hr) as (_ & t & _ & _ & _ & Ee). specialize (Ee name ty In0).
    unfold all_expect in Ee. apply in_flat_map in Ee as ((c, it) & Hc0 & He). destruct (B4 j r Hr) as (_ & _ & _ & B5). exact (B5 c it _ _ _ _ Hc0 He).
  - intros j Hj. destruct (nth_error (recs lines p) j) as [r|] eqn:Hr; [|apply nth_error_None in Hr; lia].
    destruct (B4 j r Hr) as (B5 & _). rewrite B5. destruct Wp as (_ & _ & _ & _ & _ & X). destruct (X j r Hr) as (_ & t & _ & B & _).
    unfold is_reversed. rewrite B. assert (pair_eqb (ends p) (ends p) = true) as -> by now apply pair_eqb_spec. reflexivity.
Qed.

(** ** The header *)
Variable fmtg : Z -> str.
Hypothesis fmtg_plain : forall x, plain_text (fmtg x).
Lemma split_on_lacks sep a r : lacks sep a -> split_on sep (a ++ sep :: r) = a :: split_on sep r.
Proof.
  induction a as [|c a IH]; intros H; cbn [app split_on]; [now rewrite Ascii.eqb_refl|].
  destruct (Ascii.eqb_spec c sep) as [->|N]; [exfalso; apply H; now left|]. rewrite IH; [reflexivity|]. intros X. apply H. now right.
Qed.
Lemma header_read rank0 p ps sb rest : rank0 = p :: ps -> look (pl_data p) TDouble (Plain "CASE_SBASE") = Some (VDouble sb) ->
  look (pl_data p) TDouble (Plain "CASE_ID") = None ->
  case_record atof (header fmtg rank0 ++ rest)%list = Ok (0%Z, atof (sp :: sp :: fmtg sb), rest).
Proof.
  intros -> H1 H2. unfold header. rewrite look_good in H1, H2 by reflexivity. cbn [slot_key] in H1, H2. rewrite H1, H2.
  cbn [app case_record]. set (l := ((s_ "0" ++ s_ ",  " ++ fmtg sb ++ s_ ",  33, 0, 0, 60.0")%list)).
  assert (l = ("0"%char :: ","%char :: (sp :: sp :: fmtg sb) ++ ","%char :: s_ "  33, 0, 0, 60.0")%list) as El by reflexivity.
  assert (check_comment l = false) as -> by reflexivity.
  assert (clean_comment l = l) as ->.
  { apply clean_comment_none. rewrite El. intros [X|[X|X]]; try discriminate. apply in_app_iff in X as [[X|[X|X]]|[X|X]]; try discriminate.
    - revert X. apply plain_lacks; [apply fmtg_plain|notplain].
    - cbn in X. repeat (destruct X as [X|X]; [discriminate|]). exact X. }
  assert (split_on ","%char l = [s_ "0"; sp :: sp :: fmtg sb; s_ "  33"; s_ " 0"; s_ " 0"; s_ " 60.0"]) as ->.
  { rewrite El. change ("0"%char :: ","%char :: ?x)%list with ([ "0"%char ] ++ ","%char :: x)%list.
    rewrite split_on_lacks by (intros [X|[]]; discriminate). rewrite split_on_lacks; [reflexivity|].
    intros [X|[X|X]]; try discriminate. revert X. apply plain_lacks; [apply fmtg_plain|notplain]. }
  reflexivity.
Qed.
End Chain.

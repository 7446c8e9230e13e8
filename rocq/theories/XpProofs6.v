From Verif Require Import Prelude GAModel GAProofs StrModel StrSpec StrProofs StrProofs2 StrProofs3 DCModel DCSpec DCProofs RecModel RecSpec
  RecProofs RecProofs2 RecProofs3 RecProofs4 XpModel XpSpec XpProofs XpProofs2 XpProofs3 XpProofs4 XpProofs5.
From Coq Require Import Ascii.
Open Scope nat_scope.

(** ** Lines and records of a place *)
Definition tls (lines : place -> outcome (list text_line)) (p : place) : list text_line := match lines p with Ok l => l | _ => [] end.
Definition rec_of (t : str) : list str := match split_of (clean_comment t) with Ok r => r | _ => [] end.
Definition recs (lines : place -> outcome (list text_line)) (p : place) : list (list str) := map (fun x => rec_of (tl_text x)) (tls lines p).
Lemma rec_of_line t r : record_line t r -> rec_of t = r.
Proof. intros (_ & _ & H). unfold rec_of. now rewrite H. Qed.

(** What the loop over the devices of a place writes. *)
Definition written (lines : place -> outcome (list text_line)) (n : nat) (Q : nat -> list str -> Prop) (p : place) : Prop :=
  lines p = Ok (tls lines p) /\ map tl_device (tls lines p) = iota (length (tls lines p)) /\
  (forall x, In x (tls lines p) -> tl_global x = pl_global p) /\ length (tls lines p) = n /\
  (forall x, In x (tls lines p) -> record_line (tl_text x) (rec_of (tl_text x))) /\
  forall j r, nth_error (recs lines p) j = Some r -> j < n /\ Q j r.

Lemma written_lines lines n (tt : nat -> str) (Q : nat -> list str -> Prop) p :
  lines p = Ok (map (fun j => Build_text_line (pl_global p) j (tt j)) (iota n)) ->
  (forall j, j < n -> exists r, record_line (tt j) r /\ Q j r) -> written lines n Q p.
Proof.
  intros E H. assert (tls lines p = map (fun j => Build_text_line (pl_global p) j (tt j)) (iota n)) as T by (unfold tls; now rewrite E).
  assert (forall j, j < n -> record_line (tt j) (rec_of (tt j)) /\ Q j (rec_of (tt j))) as H'.
  { intros j Hj. destruct (H j Hj) as (r & Hr & HQ). rewrite (rec_of_line Hr). auto. }
  unfold written. rewrite T. split; [exact E|]. split; [|split; [|split; [|split]]].
  - rewrite map_map, map_length. cbn [tl_device]. rewrite map_id. unfold iota. now rewrite seq_length.
  - intros x Hx. apply in_map_iff in Hx as (j & <- & _). reflexivity.
  - rewrite map_length. apply seq_length.
  - intros x Hx. apply in_map_iff in Hx as (j & <- & Hj). cbn [tl_text]. apply in_iota in Hj. now apply H'.
  - intros j r Hr. unfold recs in Hr. rewrite T, map_map in Hr. cbn [tl_text] in Hr. rewrite nth_error_map in Hr.
    destruct (nth_error (iota n) j) as [i|] eqn:Ei; [|discriminate]. cbn in Hr. inversion Hr; subst.
    assert (j < n) as Hj by (rewrite <- (seq_length n 0); apply nth_error_Some; unfold iota in Ei; congruence).
    unfold iota in Ei. rewrite (nth_error_nth' _ 0), seq_nth in Ei by (rewrite ?seq_length; exact Hj). inversion Ei; subst. cbn.
    split; [exact Hj|now apply H'].
Qed.

Lemma device_lines_written fmt count skip xs (Q : nat -> list str -> Prop) p :
  (forall j, j < how_many (pl_data p) count -> exists t r,
     device_line fmt skip xs p j = Ok [Build_text_line (pl_global p) j t] /\ record_line t r /\ Q j r) ->
  written (device_lines fmt count skip xs) (how_many (pl_data p) count) Q p.
Proof.
  intros H. set (n := how_many (pl_data p) count) in *.
  set (tt := fun j => match device_line fmt skip xs p j with Ok (x :: _) => tl_text x | _ => [] end).
  assert (forall j, j < n -> device_line fmt skip xs p j = Ok [Build_text_line (pl_global p) j (tt j)] /\ exists r, record_line (tt j) r /\ Q j r) as H'.
  { intros j Hj. destruct (H j Hj) as (t & r & E & R & HQ). unfold tt. rewrite E. cbn [tl_text]. eauto. }
  apply (@written_lines (device_lines fmt count skip xs) n tt Q p); [|intros j Hj; now apply H'].
  unfold device_lines. fold n. rewrite (@oall_map_ok _ _ _ (fun j => [Build_text_line (pl_global p) j (tt j)])).
  - cbn [obind]. f_equal. rewrite concat_map_flat. clear. induction (iota n) as [|j l IH]; [reflexivity|]. cbn. now rewrite IH.
  - intros j Hj. apply in_iota in Hj. now apply H'.
Qed.

(** ** Records of a block *)
Section Block.
Variable lines : place -> outcome (list text_line).
Variable count : place -> nat.
Variable Q : place -> nat -> list str -> Prop.
Variable ps : list place.
Hypothesis Hps : forall p, In p ps -> written lines (count p) (Q p) p.
Definition block_text : list str := map tl_text (flat_map (tls lines) ps).
Definition block_recs : list (list str) := flat_map (recs lines) ps.

Lemma block_reads : reads block_text block_recs.
Proof.
  unfold block_text, block_recs. revert Hps. induction ps as [|p l IH]; intros H; [constructor|]. cbn [flat_map]. rewrite map_app.
  assert (forall x, In x (tls lines p) -> record_line (tl_text x) (rec_of (tl_text x))) as Hp by (apply H; now left).
  unfold recs at 1. induction (tls lines p) as [|x t IHt]; cbn [map app].
  - apply IH. intros q Hq. apply H. now right.
  - constructor; [apply Hp; now left|]. apply IHt. intros y Hy. apply Hp. now right.
Qed.
Lemma recs_length p : In p ps -> length (recs lines p) = count p.
Proof. intros H. unfold recs. rewrite map_length. apply (Hps p H). Qed.
Lemma block_length : length block_recs = sumn (map count ps).
Proof.
  unfold block_recs. assert (forall p, In p ps -> length (recs lines p) = count p) as H by (intros p; apply recs_length).
  clear Hps. revert H. induction ps as [|p l IH]; intros H; [reflexivity|]. cbn [flat_map map sumn]. rewrite app_length, IH, H; auto.
  - now left.
  - intros q Hq. apply H. now right.
Qed.
Lemma block_text_length : length block_text = length block_recs.
Proof.
  unfold block_text, block_recs. clear Hps. rewrite map_length. induction ps as [|p l IH]; [reflexivity|]. cbn [flat_map]. rewrite !app_length, IH.
  f_equal. unfold recs. now rewrite map_length.
Qed.
Lemma block_in r : In r block_recs -> exists p j, In p ps /\ j < count p /\ nth_error (recs lines p) j = Some r /\ Q p j r.
Proof.
  unfold block_recs. intros H. apply in_flat_map in H as (p & Hp & Hr). apply In_nth_error in Hr as (j & Hj). exists p, j.
  destruct (Hps p Hp) as (_ & _ & _ & _ & _ & X). destruct (X j r Hj). auto.
Qed.
End Block.
Lemma filter_group {B} (f : B -> bool) (g : place -> list B) l p : NoDup l -> In p l -> (forall x, In x (g p) -> f x = true) ->
  (forall q x, In q l -> q <> p -> In x (g q) -> f x = false) -> filter f (flat_map g l) = g p.
Proof.
  induction l as [|q l IH]; intros N I H1 H2; [destruct I|]. inversion N as [|? ? N1 N2]; subst. cbn [flat_map]. rewrite filter_app.
  assert (forall m, (forall q, In q m -> q <> p -> forall x, In x (g q) -> f x = false) -> ~ In p m -> filter f (flat_map g m) = []) as Z.
  { clear. induction m as [|q m IH]; intros H N; [reflexivity|]. cbn [flat_map]. rewrite filter_app, IH; [|intros r Hr; apply H; now right|intros X; apply N; now right].
    rewrite app_nil_r. assert (q <> p) as Ne by (intros ->; apply N; now left). specialize (H q (or_introl eq_refl) Ne).
    induction (g q) as [|x t IHt]; [reflexivity|]. cbn. rewrite H by now left. apply IHt. intros y Hy. apply H. now right. }
  destruct I as [->|I].
  - rewrite filter_all by exact H1. rewrite Z; [apply app_nil_r| |exact N1]. intros q Hq Ne x Hx. apply (H2 q x); auto. now right.
  - assert (q <> p) as Ne by (intros ->; contradiction). rewrite IH; auto; [|intros r x Hr; apply H2; now right].
    assert (filter f (g q) = []) as ->; [|reflexivity].
    assert (forall x, In x (g q) -> f x = false) as H by (intros x; apply H2; auto; now left).
    revert H. induction (g q) as [|x t IHt]; intros H; [reflexivity|]. cbn. rewrite H by now left. apply IHt. intros y Hy. apply H. now right.
Qed.
Lemma sumn_in {A} (f : A -> nat) l x : In x l -> f x <= sumn (map f l).
Proof. induction l as [|y l IH]; intros H; [destruct H|]. cbn [map sumn]. destruct H as [->|H]; [lia|]. specialize (IH H). lia. Qed.
Lemma sumn_perm {A} (f : A -> nat) l l' : Permutation l l' -> sumn (map f l) = sumn (map f l').
Proof. induction 1; cbn [map sumn]; lia. Qed.

Lemma how_many_devices d count : no_colon count = true -> how_many d count = devices d count.
Proof.
  intros H. unfold how_many, devices. rewrite look_good by exact H. cbn [slot_key]. destruct (find_key d TInt count) as [[]|]; reflexivity.
Qed.

(** ** One section of devices *)
Definition num (p : place) : Z := match look (pl_data p) TInt (Plain "BUS_NUMBER") with Some (VInt b) => b | _ => 0%Z end.
Section Chain.
Variable atof : str -> Z.
Variable fmt : Z -> str.
Lemma dev_chain dv its count entries lines sorted names bmap bs :
  compiles (columns 0 its) (dv_body dv) -> dv_count dv = count ->
  distinct (dv_count dv :: flat_map item_names its) = true -> forallb no_colon (dv_count dv :: flat_map item_names its) = true ->
  (forall p, In p sorted -> (1 <= num p <= 2147483647)%Z /\
     written lines (devices (pl_data p) count) (fun j r => exists t, device_ok atof fmt its entries (pl_data p) (num p) j t r) p) ->
  NoDup sorted -> (forall p q, In p sorted -> In q sorted -> num p = num q -> p = q) ->
  sumn (map (fun p => devices (pl_data p) count) sorted) <= Z.to_nat 9999999 ->
  (forall l p, nth_error sorted l = Some p -> zfind bmap (num p) = Some l) -> length bs = length sorted -> bus_map_ok bmap (length bs) ->
  Forall (fresh (count :: flat_map item_names its)) bs ->
  exists bs', length bs' = length bs /\
    (forall fuel term rest, test_end term = false -> length (block_text lines sorted) < fuel ->
       parse fuel (dev_record atof dv names bmap) (block_text lines sorted ++ term :: rest)%list bs = Some (Ok (bs', rest))) /\
    forall l p d0 d', nth_error sorted l = Some p -> nth_error bs l = Some d0 -> nth_error bs' l = Some d' ->
      same_devices atof fmt (pl_data p) d' count entries /\
      forall t s, slot_good s = true -> ~ In (slot_name s) (count :: flat_map item_names its) -> look d' t s = look d0 t s.
Proof.
  intros C <- D K W N I S Hz Hl M F.
  pose proof (@block_reads lines _ _ sorted (fun p Hp => proj2 (W p Hp))) as R.
  destruct (@dev_section atof dv its names bmap bs _ _ C D K M F R) as (bs' & [A1 A2] & P).
  { split.
    - rewrite (@block_length lines _ _ sorted (fun p Hp => proj2 (W p Hp))). exact S.
    - intros r Hr. destruct (@block_in lines _ _ sorted (fun p Hp => proj2 (W p Hp)) r Hr) as (p & j & Hp & _ & _ & (t & _ & B & Rd & _)).
      exists (num p). split; [apply B|intros _; exact Rd]. }
  exists bs'. split; [exact A1|]. split; [exact P|]. intros l p d0 d' Hp H0 H1.
  assert (In p sorted) as Ip by (eapply nth_error_In; exact Hp). destruct (W p Ip) as [Bp Wp].
  destruct (A2 l d0 d' H0 H1) as [A _]. destruct (A (num p)) as (Hd & Hc & Ho); [now apply Hz|lia|].
  assert (filter (names_bus names (num p)) (block_recs lines sorted) = recs lines p) as Ef.
  { unfold block_recs. apply filter_group; auto.
    - intros x Hx. apply In_nth_error in Hx as (j & Hj). destruct Wp as (_ & _ & _ & _ & _ & X). destruct (X j x Hj) as (_ & t & _ & B & _).
      unfold names_bus. rewrite B. apply Z.eqb_refl.
    - intros q x Hq Ne Hx. apply In_nth_error in Hx as (j & Hj). destruct (W q Hq) as (_ & (_ & _ & _ & _ & _ & X)).
      destruct (X j x Hj) as (_ & t & _ & B & _). unfold names_bus. rewrite B. apply Z.eqb_neq. intros E. apply Ne. now apply I. }
  rewrite Ef in Hd, Hc. assert (length (recs lines p) = devices (pl_data p) (dv_count dv)) as Lr.
  { unfold recs. rewrite map_length. apply Wp. }
  split; [|exact Ho]. split.
  - unfold devices at 1. rewrite Hc. unfold counter. destruct (recs lines p) as [|r0 rr] eqn:Er; [now rewrite <- Lr|].
    rewrite Nat2Z.id. exact Lr.
  - intros j name ty Hj In0. destruct (nth_error (recs lines p) j) as [r|] eqn:Hr; [|apply nth_error_None in Hr; lia].
    destruct Wp as (_ & _ & _ & _ & _ & X). destruct (X j r Hr) as (_ & t & _ & _ & _ & E). specialize (E name ty In0).
    unfold all_expect in E. apply in_flat_map in E as ((c, it) & Hc0 & He). destruct Hd as [Hd _]. exact (Hd j r c it _ _ _ Hr Hc0 He).
Qed.
End Chain.

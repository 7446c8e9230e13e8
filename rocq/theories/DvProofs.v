(** Proofs for C57: the matrix and the switching of single devices. *)
From Verif Require Import Prelude.
From Coq Require Import Reals Lra.
From Coquelicot Require Import Complex.
From Verif Require Import StrModel StrSpec StrProofs3 YbModel YbSpec YbProofs DvModel DvSpec.
Open Scope R_scope.
Open Scope C_scope.

(** ** Sums *)
Lemma total_cons : forall x l, total (x :: l) = x + total l. Proof. reflexivity. Qed.
Lemma total_app : forall l r, total (l ++ r) = total l + total r.
Proof. induction l as [|x l IH]; intros r; cbn [app]; [change (total []) with (RtoC 0); ring|]. rewrite !total_cons, IH. ring. Qed.
Lemma total_zero : forall A (f : A -> C) l, (forall a, In a l -> f a = RtoC 0) -> total (map f l) = RtoC 0.
Proof. induction l as [|a l IH]; intros H; cbn [map]; [reflexivity|]. rewrite total_cons, IH by (intros; apply H; right; auto). rewrite H by (left; reflexivity). ring. Qed.
Lemma total_plus : forall A (f g : A -> C) l, total (map (fun a => f a + g a) l) = total (map f l) + total (map g l).
Proof. induction l as [|a l IH]; cbn [map]; [cbn; ring|]. rewrite !total_cons, IH. ring. Qed.
Lemma total_ext : forall A (f g : A -> C) l, (forall a, In a l -> f a = g a) -> total (map f l) = total (map g l).
Proof. intros A f g l H. f_equal. apply map_ext_in; auto. Qed.
(** one index *)
Lemma total_pick : forall A (f : A -> nat) (c : A -> C) l k, NoDup (map f l) ->
  (forall a, In a l -> f a = k -> total (map (fun b => if (f b =? k)%nat then c b else RtoC 0) l) = c a).
Proof.
  induction l as [|b l IH]; intros k N a Ia E; [destruct Ia|]. cbn [map] in *. inversion N as [|? ? N1 N2]; subst.
  rewrite total_cons. destruct Ia as [-> | Ia].
  - rewrite Nat.eqb_refl. rewrite total_zero; [ring|]. intros x Ix. destruct (Nat.eqb_spec (f x) (f a)) as [E|E]; auto.
    exfalso. apply N1. rewrite <- E. apply in_map; auto.
  - rewrite (IH (f a) N2 a Ia eq_refl). destruct (Nat.eqb_spec (f b) (f a)) as [E|E]; [|ring].
    exfalso. apply N1. rewrite E. apply in_map; auto.
Qed.
Lemma total_none : forall A (f : A -> nat) (c : A -> C) l k, (forall a, In a l -> f a <> k) ->
  total (map (fun b => if (f b =? k)%nat then c b else RtoC 0) l) = RtoC 0.
Proof. intros. apply total_zero. intros a Ia. destruct (Nat.eqb_spec (f a) k) as [E|E]; auto. exfalso; eapply H; eauto. Qed.

(** ** Adding an element to the matrix *)
Lemma times_add : forall n i j v Y V k, (j < n)%nat ->
  times n (add_at i j v Y) V k = times n Y V k + (if (k =? i)%nat then v * V j else RtoC 0).
Proof.
  intros n i j v Y V k Hj. unfold times, add_at. destruct (Nat.eqb_spec k i) as [->|E].
  - rewrite (@total_ext _ _ (fun m => Y i m * V m + (if (m =? j)%nat then v * V m else RtoC 0))).
    + rewrite total_plus. f_equal. apply (@total_pick _ (fun x => x) (fun m => v * V m)); auto.
      * rewrite map_id. apply seq_NoDup.
      * apply in_seq; lia.
    + intros m _. cbn [andb]. destruct (m =? j)%nat; ring.
  - cbn [andb]. rewrite Cplus_0_r. reflexivity.
Qed.
Lemma times_out : forall n i j v Y V k, k <> i -> times n (add_at i j v Y) V k = times n Y V k.
Proof. intros. unfold times, add_at. destruct (Nat.eqb_spec k i); [easy|]. reflexivity. Qed.

(** ** The buses of a process *)
Definition bval (m : mode) (b : dbus) : C := if bu_act b then match fst (diag_change m b) with Some y => y | None => RtoC 0 end else RtoC 0.
Definition bnext (m : mode) (b : dbus) : dbus := if bu_act b then snd (diag_change m b) else b.
Lemma inc_buses_fst : forall m l Y, fst (inc_buses m l Y) = map (bnext m) l.
Proof.
  induction l as [|b l IH]; intros Y; auto. cbn [inc_buses map]. unfold bnext at 1. destruct (bu_act b).
  - destruct (diag_change m b) as [v b'] eqn:D. specialize (IH (match v with Some y => add_at (bu_idx b) (bu_idx b) y Y | None => Y end)).
    destruct (inc_buses m l _). cbn in *. rewrite IH; auto.
  - specialize (IH Y). destruct (inc_buses m l Y). cbn in *. rewrite IH; auto.
Qed.
Lemma inc_buses_snd : forall m n V k l Y, (forall b, In b l -> (bu_idx b < n)%nat) ->
  times n (snd (inc_buses m l Y)) V k = times n Y V k + total (map (fun b => if (bu_idx b =? k)%nat then bval m b else RtoC 0) l) * V k.
Proof.
  induction l as [|b l IH]; intros Y Hb; [cbn; ring|]. cbn [inc_buses map]. rewrite total_cons. unfold bval at 1.
  assert (Hl : forall b, In b l -> (bu_idx b < n)%nat) by (intros; apply Hb; right; auto).
  assert (Hi : (bu_idx b < n)%nat) by (apply Hb; left; auto).
  destruct (bu_act b).
  - destruct (diag_change m b) as [v b'] eqn:D. cbn [fst]. destruct v as [y|].
    + specialize (IH (add_at (bu_idx b) (bu_idx b) y Y) Hl). destruct (inc_buses m l _). cbn [snd] in *. rewrite IH, times_add by auto.
      rewrite (Nat.eqb_sym k). destruct (Nat.eqb_spec (bu_idx b) k) as [->|]; ring.
    + specialize (IH Y Hl). destruct (inc_buses m l Y). cbn [snd] in *. rewrite IH. destruct (bu_idx b =? k)%nat; ring.
  - specialize (IH Y Hl). destruct (inc_buses m l Y). cbn [snd] in *. rewrite IH. destruct (bu_idx b =? k)%nat; ring.
Qed.
Lemma increment_buses : forall m n V k w Y, m <> LineChange -> (forall p b, In p w -> In b (pr_bus p) -> (bu_idx b < n)%nat) ->
  fst (increment m w Y) = map (fun p => Proc (map (bnext m) (pr_bus p)) (pr_br p)) w /\
  times n (snd (increment m w Y)) V k =
    times n Y V k + total (map (fun b => if (bu_idx b =? k)%nat then bval m b else RtoC 0) (flat_map pr_bus w)) * V k.
Proof.
  intros m n V k w; induction w as [|p w IH]; intros Y Hm Hb; [cbn; split; [auto|ring]|]. cbn [increment flat_map map].
  pose proof (inc_buses_fst m (pr_bus p) Y) as F. pose proof (@inc_buses_snd m n V k (pr_bus p) Y (fun b Hi => Hb p b (or_introl eq_refl) Hi)) as S0.
  destruct (inc_buses m (pr_bus p) Y) as [bs Y1]. cbn [fst snd] in *.
  assert (E : (match m with LineChange => inc_brs bs (pr_br p) Y1 | _ => (pr_br p, Y1) end) = (pr_br p, Y1)) by (destruct m; congruence).
  rewrite E. destruct (IH Y1 Hm (fun q b Hq => Hb q b (or_intror Hq))) as [I1 I2]. destruct (increment m w Y1) as [w' Y2]. cbn [fst snd] in *.
  split; [congruence|]. rewrite I2, S0, map_app, total_app. ring.
Qed.

(** every node is active once *)
Lemma active_pick : forall n (c : dbus -> C) l k b, Permutation (map bu_idx (filter bu_act l)) (seq 0 n) ->
  (forall b, bu_act b = false -> c b = RtoC 0) -> In b l -> bu_act b = true -> bu_idx b = k ->
  total (map (fun b => if (bu_idx b =? k)%nat then c b else RtoC 0) l) = c b.
Proof.
  intros n c l k b Hp Hc Hi Ha Hk.
  assert (E : total (map (fun b => if (bu_idx b =? k)%nat then c b else RtoC 0) l) = total (map (fun b => if (bu_idx b =? k)%nat then c b else RtoC 0) (filter bu_act l))).
  { clear - Hc. induction l as [|x l IH]; auto. cbn [filter map]. rewrite total_cons, IH. destruct (bu_act x) eqn:A; cbn [map]; rewrite ?total_cons; auto.
    rewrite (Hc x A). destruct (bu_idx x =? k)%nat; ring. }
  rewrite E. apply total_pick; auto.
  - apply (Permutation_NoDup (Permutation_sym Hp)), seq_NoDup.
  - apply filter_In; auto.
Qed.
Lemma active_ex : forall n l k, Permutation (map bu_idx (filter bu_act l)) (seq 0 n) -> (k < n)%nat -> exists b, In b l /\ bu_act b = true /\ bu_idx b = k.
Proof.
  intros n l k Hp Hk. assert (I : In k (map bu_idx (filter bu_act l))) by (apply (Permutation_in _ (Permutation_sym Hp)), in_seq; lia).
  apply in_map_iff in I as (b & E & I). apply filter_In in I as [I A]. eauto.
Qed.

(** ** Finding *)
Lemma find_pos_some : forall A (f : A -> bool) l k, find_pos f l = Some k -> exists a, nth_error l k = Some a /\ f a = true /\ (forall j a', (j < k)%nat -> nth_error l j = Some a' -> f a' = false).
Proof.
  induction l as [|a l IH]; intros k H; [discriminate|]. cbn in H. destruct (f a) eqn:F.
  - injection H as <-. exists a. repeat split; auto. intros; lia.
  - destruct (find_pos f l) as [i|]; [|discriminate]. injection H as <-. destruct (IH i eq_refl) as (x & X1 & X2 & X3). exists x. repeat split; auto.
    intros [|j] a' Hj E; cbn in E; [injection E as <-; auto|]. apply (X3 j); auto. lia.
Qed.
Lemma find_pos_none : forall A (f : A -> bool) l, find_pos f l = None -> forall a, In a l -> f a = false.
Proof.
  induction l as [|a l IH]; intros H x Hx; [destruct Hx|]. cbn in H. destruct (f a) eqn:F; [discriminate|]. destruct Hx as [<-|Hx]; auto.
  destruct (find_pos f l); [discriminate|]. auto.
Qed.
Lemma upd_map : forall A (f : A -> bool) (g : A -> A) l k a, nth_error l k = Some a -> f a = true ->
  (forall j a', nth_error l j = Some a' -> f a' = true -> j = k) -> upd l k (g a) = map (fun x => if f x then g x else x) l.
Proof.
  induction l as [|b l IH]; intros [|k] a E F U; cbn in E; try discriminate.
  - injection E as ->. cbn [upd map]. rewrite F. f_equal. rewrite <- (map_id l) at 1. apply map_ext_in. intros x Hx. destruct (f x) eqn:Fx; auto.
    apply In_nth_error in Hx as (j & Hj). specialize (U (S j) x Hj Fx). lia.
  - cbn [upd map]. destruct (f b) eqn:Fb; [specialize (U 0%nat b eq_refl Fb); lia|]. f_equal. apply IH; auto.
    intros j a' Hj Ha. specialize (U (S j) a' Hj Ha). lia.
Qed.
Lemma map_if_none : forall A (f : A -> bool) (g : A -> A) l, (forall a, In a l -> f a = false) -> map (fun x => if f x then g x else x) l = l.
Proof. intros A f g l H. rewrite <- (map_id l) at 2. apply map_ext_in. intros a Ha. rewrite H; auto. Qed.

(** changing the bus with a number on one process *)
Definition on_num (n : Z) (f : dbus -> dbus) (b : dbus) : dbus := if Z.eqb (bu_num b) n then f b else b.
Lemma on_bus_num : forall n (f : dbus -> outcome dbus) (g : dbus -> dbus) l k, NoDup (map bu_num l) -> bus_pos l n = Some k ->
  (forall b, In b l -> bu_num b = n -> f b = Ok (g b)) -> on_bus f l k = Ok (map (on_num n g) l).
Proof.
  intros n f g l k N H F. destruct (find_pos_some _ _ H) as (b & B1 & B2 & B3). apply Z.eqb_eq in B2.
  unfold on_bus. rewrite B1, (F b) by (auto; eapply nth_error_In; eauto). cbn [obind]. f_equal.
  apply (@upd_map _ (fun b => Z.eqb (bu_num b) n) g); auto. { rewrite B2; apply Z.eqb_refl. }
  intros j b' Hj Hb'. apply Z.eqb_eq in Hb'. apply (proj1 (NoDup_nth_error (map bu_num l)) N).
  - rewrite map_length. apply nth_error_Some; congruence.
  - rewrite !nth_error_map, Hj, B1. cbn. congruence.
Qed.
Lemma on_num_none : forall n f l, bus_pos l n = None -> map (on_num n f) l = l.
Proof. intros n f l H. apply map_if_none. exact (find_pos_none _ _ H). Qed.

(** ** Where a number is *)
Lemma where_some : forall n l k, where_ n l = Some k -> nth_error l k = Some n.
Proof.
  induction l as [|a l IH]; intros k H; [discriminate|]. cbn in H. destruct (Z.eqb_spec a n) as [->|E]; [injection H as <-; reflexivity|].
  destruct (where_ n l); [|discriminate]. injection H as <-. cbn. auto.
Qed.
Lemma where_nodup : forall n l k, NoDup l -> nth_error l k = Some n -> where_ n l = Some k.
Proof.
  induction l as [|a l IH]; intros k N E; [destruct k; discriminate|]. cbn. inversion N as [|? ? N1 N2]; subst. destruct k as [|k]; cbn in E.
  - injection E as ->. rewrite Z.eqb_refl. reflexivity.
  - destruct (Z.eqb_spec a n) as [->|E1]; [exfalso; apply N1; eapply nth_error_In; eauto|]. rewrite (IH k); auto.
Qed.
Lemma clean_ok : forall tag c, stands_for tag c -> clean tag = Ok c.
Proof. intros tag c (t & T1 & T2 & ->). unfold clean. rewrite (clean2char_spelling T1 T2). reflexivity. Qed.

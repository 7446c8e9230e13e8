(** Proofs for C59, second part: a contingency is the network with its elements out, and it is undone completely. *)
From Verif Require Import Prelude PqModel PqSpec FmModel FmSpec FmProofs GAModel CaModel CaSpec CaProofs.
From Coq Require Import Reals.
Open Scope R_scope.

(** ** Properties of single buses kept by contingencies *)
Section Inv.
Variable P : fbus -> Prop.
Hypothesis Hset : forall b t x q, P b -> set_gen_status (u_q b) t x = Ok q -> P (with_q b q).
Hypothesis Hiso : forall b x, P b -> P (with_iso b x).
Lemma Forall_upd bs j b : Forall P bs -> P b -> Forall P (upd bs j b).
Proof. revert j. induction bs as [| a bs IH]; intros [| j] F B; cbn; auto; inversion F; subst; constructor; auto. Qed.
Lemma nth_P bs j b : Forall P bs -> nth_error bs j = Some b -> P b.
Proof. intros F N. rewrite Forall_forall in F. apply F. eapply nth_error_In; eauto. Qed.
Lemma inv_trip ids t : forall bs sv bs' sv', Forall P bs -> trip_gens bs ids t sv = Ok (bs', sv') -> Forall P bs'.
Proof.
  induction ids as [| j ids IH]; intros bs sv bs' sv' F E; cbn in E; [congruence |]. destruct (nth_error bs j) as [b |] eqn:B; [| eauto].
  destruct (set_gen_status (u_q b) t false) as [q | |] eqn:Q; cbn in E; try discriminate. eapply IH; [| exact E]. apply Forall_upd; auto. eapply Hset; eauto. eapply nth_P; eauto.
Qed.
Lemma inv_back ids t x : forall bs bs', Forall P bs -> back_gens bs ids t x = Ok bs' -> Forall P bs'.
Proof.
  induction ids as [| j ids IH]; intros bs bs' F E; cbn in E; [congruence |]. destruct (nth_error bs j) as [b |] eqn:B; [| eauto].
  destruct (set_gen_status (u_q b) t x) as [q | |] eqn:Q; cbn in E; try discriminate. eapply IH; [| exact E]. apply Forall_upd; auto. eapply Hset; eauto. eapply nth_P; eauto.
Qed.
Lemma inv_set_gens l : forall bs bs' l' ok, Forall P bs -> set_gens_out bs l = Ok (bs', l', ok) -> Forall P bs'.
Proof.
  induction l as [| [[i t] sv] l IH]; intros bs bs' l' ok F E; cbn in E; [congruence |]. destruct (trip_gens bs (local_bus bs i) t sv) as [[b1 s1] | |] eqn:T; cbn in E; try discriminate.
  destruct (set_gens_out b1 l) as [[[b2 r2] ok2] | |] eqn:S; cbn in E; try discriminate. injection E as <- <- <-. eapply IH; [| exact S]. eapply inv_trip; eauto.
Qed.
Lemma inv_unset_gens l : forall bs bs' ok, Forall P bs -> unset_gens bs l = Ok (bs', ok) -> Forall P bs'.
Proof.
  induction l as [| [[i t] sv] l IH]; intros bs bs' ok F E; cbn in E; [congruence |]. destruct (back_gens bs (local_bus bs i) t sv) as [b1 | |] eqn:T; cbn in E; try discriminate.
  destruct (unset_gens b1 l) as [[b2 ok2] | |] eqn:S; cbn in E; try discriminate. injection E as <- <-. eapply IH; [| exact S]. eapply inv_back; eauto.
Qed.
Lemma inv_mark brs l : Forall P l -> Forall P (fst (fst (mark_lone brs l))).
Proof. induction l as [| b l IH]; cbn; intros F; auto. inversion F as [| ? ? F1 F2]; subst. specialize (IH F2). destruct (mark_lone brs l) as [[r sv] ok]. destruct (u_act b && lone brs b); cbn in *; constructor; auto. Qed.
Lemma inv_unmark brs l : forall sv l', Forall P l -> unmark_lone brs l sv = Ok l' -> Forall P l'.
Proof.
  induction l as [| b l IH]; intros sv l' F E; cbn in E; [congruence |]. inversion F; subst. destruct (u_act b && lone brs b).
  - destruct sv as [| x sv]; [discriminate |]. destruct (unmark_lone brs l sv) as [r | |] eqn:U; cbn in E; try discriminate. injection E as <-. constructor; eauto.
  - destruct (unmark_lone brs l sv) as [r | |] eqn:U; cbn in E; try discriminate. injection E as <-. constructor; eauto.
Qed.
Lemma inv_set s e s1 e1 ok : Forall P (s_bus s) -> set_contingency s e = Ok (s1, e1, ok) -> Forall P (s_bus s1).
Proof.
  intros F. unfold set_contingency. destruct e as [l | l |].
  - destruct (set_gens_out (s_bus s) l) as [[[bs l'] o] | |] eqn:G; cbn [obind]; try discriminate. intros E. injection E as <- <- <-. rewrite check_lone1_eq. cbn [with_sav with_bus s_bus s_brs]. apply inv_mark. eapply inv_set_gens; eauto.
  - destruct (set_lines (s_brs s) l) as [[brs l'] o]. intros E. injection E as <- <- <-. rewrite check_lone1_eq. cbn. now apply inv_mark.
  - intros E. injection E as <- <- <-. rewrite check_lone1_eq. cbn. now apply inv_mark.
Qed.
Lemma inv_unset s e s1 ok : Forall P (s_bus s) -> unset_contingency s e = Ok (s1, ok) -> Forall P (s_bus s1).
Proof.
  intros F. unfold unset_contingency. destruct (clear_lone1 s) as [s0 | |] eqn:C; cbn [obind]; try discriminate.
  assert (F0 : Forall P (s_bus s0)).
  { unfold clear_lone1 in C. destruct (s_sav s); [congruence |]. destruct (unmark_lone (s_brs s) (s_bus s) (b :: l)) as [r | |] eqn:U; cbn in C; try discriminate. injection C as <-. eapply inv_unmark; eauto. }
  destruct e as [l | l |].
  - destruct (unset_gens (s_bus s0) l) as [[bs o] | |] eqn:G; cbn [obind]; try discriminate. intros E. injection E as <- <-. cbn. eapply inv_unset_gens; eauto.
  - destruct (unset_lines (s_brs s0) l) as [brs o]. intros E. injection E as <- <-. exact F0.
  - congruence.
Qed.
End Inv.

(** Named generators keep going with their status. *)
Definition settled_bus (e : event) (b : fbus) : Prop := forall p, In p (pairs b) -> named_gen e b (snd p) = true -> settled_gen p.
Lemma settled_iff e s : settled e s <-> Forall (settled_bus e) (s_bus s).
Proof. unfold settled, settled_bus, pairs. rewrite Forall_forall. firstorder. Qed.
Lemma switch_settled x p : settled_gen (switch_gen x p).
Proof. destruct x; unfold settled_gen; cbn; auto. Qed.
Lemma named_with_q e b q g : named_gen e (with_q b q) g = named_gen e b g. Proof. destruct e; reflexivity. Qed.
Lemma named_with_iso e b x g : named_gen e (with_iso b x) g = named_gen e b g. Proof. destruct e; reflexivity. Qed.
Lemma in_upd_first A (p : A -> bool) f l y : In y (upd_first p f l) -> In y l \/ exists x, In x l /\ y = f x.
Proof. induction l as [| a l IH]; cbn; [tauto |]. destruct (p a); cbn; intros [<- | H]; eauto. destruct (IH H) as [| (x & X & E)]; eauto. Qed.
Lemma settled_set e b t x q : settled_bus e b -> set_gen_status (u_q b) t x = Ok q -> settled_bus e (with_q b q).
Proof.
  intros S E p I N. rewrite named_with_q in N. apply gen_status_parts in E as (_ & ->). unfold pairs in I. cbn in I. rewrite combine_fs in I. apply in_upd_first in I as [I | (y & _ & ->)]; [now apply S | apply switch_settled].
Qed.
Lemma settled_iso e b x : settled_bus e b -> settled_bus e (with_iso b x).
Proof. intros S p I N. rewrite named_with_iso in N. now apply S. Qed.

(** ** Skeleton and statuses determine the input of a solution *)
Lemma pair_eq A B (p q : A * B) : fst p = fst q -> snd p = snd q -> p = q.
Proof. destruct p, q; cbn; congruence. Qed.
Lemma named_ids e b b' g g' : u_id b = u_id b' -> g_id g = g_id g' -> named_gen e b g = named_gen e b' g'.
Proof. intros E F. destruct e; cbn; auto. now rewrite E, F. Qed.
Lemma pair_determined e b b' p p' : u_id b = u_id b' -> strip1 e b p = strip1 e b' p' -> g_id (snd p) = g_id (snd p') -> negb (fst p =? 0)%Z = negb (fst p' =? 0)%Z ->
  (named_gen e b (snd p) = true -> settled_gen p) -> (named_gen e b' (snd p') = true -> settled_gen p') -> p = p'.
Proof.
  intros I S G O A B. pose proof (named_ids e b b' _ _ I G) as N. unfold strip1 in S. rewrite N in *. destruct (named_gen e b' (snd p')); [| exact S]. specialize (A eq_refl). specialize (B eq_refl).
  destruct p as [st g], p' as [st' g']. unfold shut, settled_gen in *. cbn in *. injection S as E1 E2 E3 E4 E5 E6 E7 E8. destruct g, g'; cbn in *.
  destruct A as [(-> & -> & -> & ->) | (-> & -> & -> & ->)], B as [(-> & -> & -> & ->) | (-> & -> & -> & ->)]; cbn in O; try discriminate; congruence.
Qed.
Lemma pairs_determined e b b' l : forall l', u_id b = u_id b' -> map (strip1 e b) l = map (strip1 e b') l' ->
  map (fun p => (g_id (snd p), negb (fst p =? 0)%Z)) l = map (fun p => (g_id (snd p), negb (fst p =? 0)%Z)) l' ->
  (forall p, In p l -> named_gen e b (snd p) = true -> settled_gen p) -> (forall p, In p l' -> named_gen e b' (snd p) = true -> settled_gen p) -> l = l'.
Proof.
  induction l as [| p l IH]; intros [| p' l'] I S G A B; try discriminate; auto. cbn [map] in S, G.
  assert (S1 : strip1 e b p = strip1 e b' p') by congruence. assert (S2 : map (strip1 e b) l = map (strip1 e b') l') by congruence. clear S.
  assert (G1 : g_id (snd p) = g_id (snd p')) by congruence. assert (G2 : negb (fst p =? 0)%Z = negb (fst p' =? 0)%Z) by congruence.
  f_equal.
  - eapply pair_determined; eauto; intros; [apply A | apply B]; auto; now left.
  - apply IH; auto; [congruence | |]; intros; [apply A | apply B]; auto; now right.
Qed.
Definition okb (b : fbus) : Prop := length (q_gst (u_q b)) = length (q_gens (u_q b)).
Lemma combine_parts A B (l : list A) (m : list B) : length l = length m -> l = map fst (combine l m) /\ m = map snd (combine l m).
Proof. revert m. induction l as [| a l IH]; intros [| b m] E; try discriminate; auto. injection E as E. destruct (IH _ E) as [E1 E2]. cbn. split; f_equal; auto. Qed.
Lemma bus_determined e b b' : skelb e b = skelb e b' -> gen_states b = gen_states b' -> u_iso b = u_iso b' -> settled_bus e b -> settled_bus e b' -> okb b -> okb b' -> blank_bus b = blank_bus b'.
Proof.
  intros S G I A B L L'. assert (D : u_id b = u_id b') by (apply (f_equal u_id) in S; exact S).
  assert (M : map (strip1 e b) (pairs b) = map (strip1 e b') (pairs b')).
  { rewrite <- (combine_fs (map (strip1 e b) (pairs b))), <- (combine_fs (map (strip1 e b') (pairs b'))). f_equal; [apply (f_equal (fun b => q_gst (u_q b))) in S | apply (f_equal (fun b => q_gens (u_q b))) in S]; exact S. }
  assert (Q : pairs b = pairs b') by (eapply pairs_determined; eauto).
  destruct (combine_parts _ _ L) as [L1 L2], (combine_parts _ _ L') as [L1' L2']. fold (pairs b) in L1, L2. fold (pairs b') in L1', L2'. rewrite Q in L1, L2. rewrite <- L1' in L1. rewrite <- L2' in L2.
  destruct b as [a1 a2 a3 a4 a5 a6 a7 a8 a9 q], b' as [c1 c2 c3 c4 c5 c6 c7 c8 c9 q']. destruct q, q'. unfold skelb, blank_bus, with_iso, with_q, unzip_gens, set_gens, bq, set_s, set_Qi in *. cbn in *.
  inversion S. subst. reflexivity.
Qed.
Lemma line_determined l l' : skell l = skell l' -> n_on l = n_on l' -> blank_line l = blank_line l'.
Proof. destruct l, l'. unfold skell, blank_line. cbn. intros E ->. congruence. Qed.
Lemma lines_determined l : forall l', map skell l = map skell l' -> map (fun x => (n_tag x, n_on x)) l = map (fun x => (n_tag x, n_on x)) l' -> map blank_line l = map blank_line l'.
Proof.
  induction l as [| x l IH]; intros [| y l'] E F; try discriminate; auto. cbn [map] in E, F. cbn [map]. f_equal; [apply line_determined; congruence | apply IH; congruence].
Qed.
Definition blank_br (f : fbr) : fbr := with_lines f (map blank_line (f_lines f)).
Lemma br_determined f f' : skelf f = skelf f' -> line_states f = line_states f' -> blank_br f = blank_br f'.
Proof.
  unfold skelf, line_states, blank_br, with_lines. intros E L. assert (M : map skell (f_lines f) = map skell (f_lines f')) by (apply (f_equal f_lines) in E; exact E).
  rewrite (lines_determined _ _ M L). congruence.
Qed.
Lemma map_determined A B C (h k : A -> B) (g : A -> C) l : forall l', (forall x y, In x l -> In y l' -> h x = h y -> g x = g y -> k x = k y) -> map h l = map h l' -> map g l = map g l' -> map k l = map k l'.
Proof. induction l as [| x l IH]; intros [| y l'] H E F; try discriminate; auto. cbn [map] in *. f_equal; [apply H; try congruence; now left |]. apply IH; try congruence. intros; apply H; auto; now right. Qed.
Lemma state_determined e s s' : skel e s = skel e s' -> topology s = topology s' -> Forall (settled_bus e) (s_bus s) -> Forall (settled_bus e) (s_bus s') -> Forall okb (s_bus s) -> Forall okb (s_bus s') ->
  blank s = blank s'.
Proof.
  unfold skel, topology, blank. intros S T A B L L'. injection S as S1 S2 S3. injection T as T1 T2. rewrite Forall_forall in *. rewrite S3. f_equal.
  - refine (map_determined (skelb e) blank_bus (fun b => (u_iso b, gen_states b)) _ _ _ S1 _).
    + intros b b' I I' E F. injection F as F1 F2. eapply bus_determined; eauto.
    + apply (f_equal (map (fun x : bool * Z * list nat * bool * list (string * bool) => (snd (fst x), snd x)))) in T2. rewrite !map_map in T2. exact T2.
  - refine (map_determined skelf blank_br line_states _ _ _ S2 _).
    + intros f f' _ _ E F. now apply br_determined.
    + apply (f_equal (map snd)) in T1. rewrite !map_map in T1. exact T1.
Qed.

(** ** Voltages and computed values *)
Lemma mapi_ext A B (f g : nat -> A -> B) l : forall i, (forall k x, In x l -> f k x = g k x) -> mapi f i l = mapi g i l.
Proof. induction l as [| x l IH]; intros i H; cbn; auto. f_equal; [apply H; now left | apply IH; intros; apply H; now right]. Qed.
Lemma map_mapi A B C (f : nat -> A -> B) (g : B -> C) l : forall i, map g (mapi f i l) = mapi (fun k x => g (f k x)) i l.
Proof. induction l as [| x l IH]; intros i; cbn; auto. now rewrite IH. Qed.
Lemma mapi_map A B C (f : A -> B) (g : nat -> B -> C) l : forall i, mapi g i (map f l) = mapi (fun k x => g k (f x)) i l.
Proof. induction l as [| x l IH]; intros i; cbn; auto. now rewrite IH. Qed.
Lemma mapi_const A B (f : A -> B) l : forall i, mapi (fun _ => f) i l = map f l.
Proof. induction l as [| x l IH]; intros i; cbn; auto. now rewrite IH. Qed.
Lemma mapi_length A B (f : nat -> A -> B) l : forall i, length (mapi f i l) = length l.
Proof. induction l as [| x l IH]; intros i; cbn; auto. Qed.
Lemma in_mapi A B (f : nat -> A -> B) l y : forall i, In y (mapi f i l) -> exists k x, In x l /\ y = f k x.
Proof. induction l as [| x l IH]; intros i; cbn; [tauto |]. intros [<- | H]; [eauto |]. apply IH in H as (k & z & Z & E). eauto. Qed.

Definition resetb (b : fbus) : fbus := with_q b (reset_voltage (u_q b)).
Lemma reset_all s : (forall b, In b (s_bus s) -> u_act b = true) -> s_bus (reset_voltages s) = map resetb (s_bus s).
Proof. intros H. unfold reset_voltages. cbn. apply map_ext_in. intros b I. now rewrite H. Qed.
Lemma pairs_reset b : pairs (resetb b) = pairs b. Proof. reflexivity. Qed.
Lemma skelb_reset e b : skelb e (resetb b) = resetb (skelb e b).
Proof.
  unfold skelb. rewrite pairs_reset. unfold resetb. assert (M : map (strip1 e (with_q b (reset_voltage (u_q b)))) (pairs b) = map (strip1 e b) (pairs b)) by (apply map_ext; intros p; unfold strip1; now rewrite named_with_q).
  rewrite M. reflexivity.
Qed.
Section Place.
Variable isref : nat -> bool.
Lemma place_topology z s : topology (place isref z s) = topology s.
Proof.
  unfold topology, place. cbn [s_brs s_bus]. rewrite !map_mapi. f_equal.
  - rewrite <- (mapi_const (fun f => (f_1 f, f_2 f, line_states f)) (s_brs s) 0). apply mapi_ext. intros k f _. unfold line_states, with_lines. cbn [f_1 f_2 f_lines]. rewrite map_mapi. f_equal. cbn. now rewrite mapi_const.
  - rewrite <- (mapi_const (fun b => (u_act b, u_id b, u_near b, u_iso b, gen_states b)) (s_bus s) 0). apply mapi_ext. intros k b _. unfold place_bus, gen_states, with_q, set_volt. cbn. destruct (u_iso b || isref k); reflexivity.
Qed.
Lemma place_reset z i b : resetb (place_bus isref z i b) = with_q b (set_volt (if u_iso b || isref i then u_q b else set_Qi (u_q b) (z_Q z i)) (q_volt (u_q b)) (q_angle (u_q b)) (rebuf (q_xc (u_q b)) (q_volt (u_q b)) (q_angle (u_q b)))).
Proof. unfold resetb, place_bus, with_q, reset_voltage, set_volt, set_Qi. cbn. destruct (q_xc (u_q b)) as [[[a v] p] |]; destruct (u_iso b || isref i); reflexivity. Qed.
Lemma place_skelb e z i b : skelb e (resetb (place_bus isref z i b)) = skelb e (resetb b).
Proof.
  rewrite place_reset. unfold skelb, resetb. set (q := set_volt _ _ _ _). assert (P : pairs (with_q b q) = pairs b) by (unfold pairs, q; cbn; destruct (u_iso b || isref i); reflexivity).
  assert (P2 : pairs (with_q b (reset_voltage (u_q b))) = pairs b) by reflexivity. rewrite P, P2.
  assert (M : forall q, map (strip1 e (with_q b q)) (pairs b) = map (strip1 e b) (pairs b)) by (intros q0; apply map_ext; intros p; unfold strip1; now rewrite named_with_q). rewrite !M.
  unfold q, with_iso, with_q, unzip_gens, set_gens, bq, set_s, set_Qi, set_volt, reset_voltage. cbn. destruct (u_iso b || isref i); reflexivity.
Qed.
Lemma place_skel e z s : (forall b, In b (s_bus s) -> u_act b = true) -> skel e (reset_voltages (place isref z s)) = skel e (reset_voltages s).
Proof.
  intros A. unfold skel. rewrite !reset_all; auto.
  2:{ intros b I. unfold place in I. cbn in I. apply in_mapi in I as (k & x & X & ->). unfold place_bus. cbn. auto. }
  unfold place, reset_voltages. cbn [s_bus s_brs s_rateB with_bus]. f_equal. f_equal.
  - rewrite !map_map, map_mapi. rewrite <- (mapi_const (fun x => skelb e (resetb x)) (s_bus s) 0). apply mapi_ext. intros k b _. apply place_skelb.
  - rewrite map_mapi. rewrite <- (mapi_const skelf (s_brs s) 0). apply mapi_ext. intros k f _. unfold skelf, with_lines. cbn. f_equal. rewrite map_mapi. now rewrite <- (mapi_const skell (f_lines f) 0).
Qed.
End Place.
Lemma skel_reset e s s' : (forall b, In b (s_bus s) -> u_act b = true) -> (forall b, In b (s_bus s') -> u_act b = true) -> skel e s = skel e s' -> skel e (reset_voltages s) = skel e (reset_voltages s').
Proof.
  intros A A' E. unfold skel in *. rewrite !reset_all by auto. cbn [reset_voltages with_bus s_brs s_rateB]. injection E as E1 E2 E3. rewrite E2, E3. f_equal. f_equal. rewrite !map_map.
  rewrite !(map_ext (fun x => skelb e (resetb x)) (fun x => resetb (skelb e x))) by (intros; apply skelb_reset). rewrite <- !(map_map (skelb e) resetb). now rewrite E1.
Qed.
Lemma reset_topology s : topology (reset_voltages s) = topology s.
Proof. unfold topology, reset_voltages. cbn. f_equal. rewrite map_map. apply map_ext. intros b. destruct (u_act b) eqn:E; [unfold with_q; cbn; rewrite E | rewrite E]; reflexivity. Qed.

(** ** The contingency that has been set *)
Lemma strip_strip e b b' p : u_id b' = u_id b -> strip1 e b' (strip1 e b p) = strip1 e b p.
Proof.
  intros I. unfold strip1 at 2 3. destruct (named_gen e b (snd p)) eqn:N.
  - unfold strip1. destruct (named_gen e b' (snd (shut p))); reflexivity.
  - unfold strip1. rewrite (named_ids e b' b _ (snd p)) by auto. now rewrite N.
Qed.
Lemma pairs_out e b : pairs (gens_out e b) = map (strip1 e b) (pairs b).
Proof. unfold gens_out, pairs. cbn. now rewrite combine_fs. Qed.
Lemma skelb_out e b x : skelb e (with_iso (gens_out e b) x) = skelb e b.
Proof.
  rewrite skelb_iso. unfold skelb. rewrite pairs_out, map_map.
  assert (M : map (fun p => strip1 e (gens_out e b) (strip1 e b p)) (pairs b) = map (strip1 e b) (pairs b)) by (apply map_ext; intros p; now apply strip_strip).
  rewrite M. reflexivity.
Qed.
Lemma skelf_out e f : skelf (lines_out e f) = skelf f.
Proof. unfold skelf, lines_out, with_lines. cbn. f_equal. rewrite map_map. reflexivity. Qed.
Lemma skel_out e s : skel e (outage e s) = skel e s.
Proof. unfold skel, outage. cbn. rewrite !map_map. f_equal. f_equal; apply map_ext; intros x; [apply skelb_out | apply skelf_out]. Qed.
Lemma settled_out e s : settled e s -> Forall (settled_bus e) (s_bus (outage e s)).
Proof.
  rewrite settled_iff, !Forall_forall. unfold outage. cbn. intros S b I. apply in_map_iff in I as (b0 & <- & I). apply settled_iso. intros p P N. rewrite pairs_out in P. apply in_map_iff in P as (p0 & <- & P).
  change (named_gen e (with_q b0 (u_q (gens_out e b0))) (snd (strip1 e b0 p0)) = true) in N. rewrite named_with_q in N. unfold strip1 in *. destruct (named_gen e b0 (snd p0)) eqn:M; [| now rewrite M in N]. right. cbn. auto.
Qed.
Lemma okb_out e s : Forall okb (s_bus (outage e s)).
Proof. rewrite Forall_forall. unfold outage. cbn. intros b I. apply in_map_iff in I as (b0 & <- & I). unfold okb. cbn. now rewrite !map_length. Qed.
Lemma okb_gens s : gens_ok s <-> Forall okb (s_bus s).
Proof. rewrite Forall_forall. reflexivity. Qed.
Lemma okb_set b t x q : okb b -> set_gen_status (u_q b) t x = Ok q -> okb (with_q b q).
Proof. intros O E. apply gen_status_parts in E as (_ & ->). unfold okb. cbn. now rewrite !map_length. Qed.
Lemma okb_iso b x : okb b -> okb (with_iso b x). Proof. auto. Qed.

Lemma map_nth_eq A B (h : A -> B) l : forall l', length l = length l' -> (forall i x y, nth_error l i = Some x -> nth_error l' i = Some y -> h x = h y) -> map h l = map h l'.
Proof.
  induction l as [| x l IH]; intros [| y l'] E H; try discriminate; auto. cbn. f_equal; [apply (H 0%nat); reflexivity |]. apply IH; [now injection E |]. intros i. apply (H (S i)).
Qed.
Lemma assoc_eq (l : list (string * bool)) : forall l', map fst l = map fst l' -> NoDup (map fst l) -> (forall t, In (t, true) l <-> In (t, true) l') -> l = l'.
Proof.
  induction l as [| [a x] l IH]; intros [| [b y] l'] E N H; try discriminate; auto. cbn in E. injection E as <- E. cbn in N. inversion N as [| ? ? N1 N2]; subst.
  assert (N1' : forall z, ~ In (a, z) l') by (intros z I; apply N1; rewrite E; apply in_map_iff; exists (a, z); auto). assert (N0 : forall z, ~ In (a, z) l) by (intros z I; apply N1; apply in_map_iff; exists (a, z); auto).
  f_equal.
  - f_equal. specialize (H a). cbn in H. destruct x, y; auto.
    + destruct (proj1 H (or_introl eq_refl)) as [X | X]; [congruence | now apply N1' in X].
    + destruct (proj2 H (or_introl eq_refl)) as [X | X]; [congruence | now apply N0 in X].
  - apply IH; auto. intros t. specialize (H t). cbn in H. split; intros I.
    + destruct (proj1 H (or_intror I)) as [X | X]; auto. injection X as <- _. now apply N0 in I.
    + destruct (proj2 H (or_intror I)) as [X | X]; auto. injection X as <- _. now apply N1' in I.
Qed.
Lemma named_line_iff e f l : named_line e f l = true <-> names_line e f (n_tag l).
Proof.
  destruct e as [| es |]; cbn; [split; [discriminate | tauto] | | split; [discriminate | tauto]]. rewrite existsb_exists. split.
  - intros ([[[a b] t] sv] & I & E). apply andb_prop in E as [E T]. apply String.eqb_eq in T. subst t. exists a, b, sv. split; auto. unfold joins.
    apply orb_prop in E as [E | E]; apply andb_prop in E as [E1 E2]; apply Z.eqb_eq in E1, E2; auto.
  - intros (a & b & sv & I & J). eexists. split; [exact I |]. cbn. rewrite String.eqb_refl, andb_true_r. destruct J as [[-> ->] | [-> ->]]; rewrite !Z.eqb_refl; auto using orb_true_r.
Qed.
Lemma named_gen_iff e b g : named_gen e b g = true <-> names_gen e b (g_id g).
Proof.
  destruct e as [es | |]; cbn; [| split; [discriminate | tauto] | split; [discriminate | tauto]]. rewrite existsb_exists. split.
  - intros ([[i t] sv] & I & E). apply andb_prop in E as [E T]. apply String.eqb_eq in T. apply Z.eqb_eq in E. subst. eauto.
  - intros (sv & I). eexists. split; [exact I |]. cbn. now rewrite String.eqb_refl, Z.eqb_refl.
Qed.
Lemma line_on_out e f t : line_on (lines_out e f) t <-> line_on f t /\ ~ names_line e f t.
Proof.
  unfold line_on, lines_out, with_lines. cbn. split.
  - intros (l & I & T & O). apply in_map_iff in I as (l0 & <- & I). cbn in *. apply andb_prop in O as [O N]. split; [eauto |]. intros X. rewrite <- T in X. apply named_line_iff in X. rewrite X in N. discriminate.
  - intros [(l & I & T & O) N]. eexists. split; [apply in_map; exact I |]. cbn. split; auto. rewrite O. cbn. apply negb_true_iff, not_true_iff_false. intros X. apply named_line_iff in X. rewrite T in X. auto.
Qed.
Lemma gen_on_out e b x t : gen_on (with_iso (gens_out e b) x) t <-> gen_on b t /\ ~ names_gen e b t.
Proof.
  unfold gen_on, gen_states. change (combine (q_gst (u_q (with_iso (gens_out e b) x))) (q_gens (u_q (with_iso (gens_out e b) x)))) with (pairs (gens_out e b)). rewrite pairs_out. fold (pairs b). rewrite map_map. rewrite !in_map_iff. split.
  - intros (p & E & I). unfold strip1 in E. destruct (named_gen e b (snd p)) eqn:N; [cbn in E; discriminate |]. split; [eauto |]. intros X. injection E as E _. rewrite <- E in X. apply named_gen_iff in X. congruence.
  - intros [(p & E & I) N]. exists p. split; auto. unfold strip1. destruct (named_gen e b (snd p)) eqn:M; auto. exfalso. apply N. apply named_gen_iff in M. injection E as <- _. exact M.
Qed.
Lemma without_lone brs b : without_lines brs b = lone brs b.
Proof.
  unfold without_lines, lone. induction (u_near b) as [| j r IH]; cbn; auto. rewrite IH, negb_orb. f_equal. destruct (nth_error brs j) as [f |]; cbn; auto. induction (f_lines f) as [| l ls IHl]; cbn; auto. now rewrite IHl, negb_orb.
Qed.
Lemma skel_ids e s s' : skel e s = skel e s' -> map (fun b => (u_act b, u_id b, u_near b, map (fun p => g_id (snd p)) (pairs (skelb e b)))) (s_bus s) = map (fun b => (u_act b, u_id b, u_near b, map (fun p => g_id (snd p)) (pairs (skelb e b)))) (s_bus s') /\
  map (fun f => (f_1 f, f_2 f, map n_tag (f_lines f))) (s_brs s) = map (fun f => (f_1 f, f_2 f, map n_tag (f_lines f))) (s_brs s').
Proof.
  intros E. unfold skel in E. injection E as E1 E2 _. split.
  - apply (f_equal (map (fun b => (u_act b, u_id b, u_near b, map (fun p => g_id (snd p)) (pairs b))))) in E1. rewrite !map_map in E1. exact E1.
  - assert (M : forall l, map (fun f => (f_1 f, f_2 f, map n_tag (f_lines f))) (map skelf l) = map (fun f => (f_1 f, f_2 f, map n_tag (f_lines f))) l) by (intros l; rewrite map_map; apply map_ext; intros f; unfold skelf, with_lines; cbn; rewrite map_map; reflexivity).
    rewrite <- (M (s_brs s)), <- (M (s_brs s')). now rewrite E2.
Qed.
Lemma skelb_gids e b : map (fun p => g_id (snd p)) (pairs (skelb e b)) = map fst (gen_states b).
Proof.
  unfold skelb, pairs at 1. cbn. rewrite combine_fs, map_map. unfold gen_states. rewrite map_map. fold (pairs b). apply map_ext. intros p. unfold strip1. destruct (named_gen e b (snd p)); reflexivity.
Qed.
Lemma set_outage s e s1 e1 ok : well_formed s -> tags_ok s -> ids_ok s -> (forall b, In b (s_bus s) -> u_act b = true) -> settled e s -> set_contingency s e = Ok (s1, e1, ok) ->
  topology s1 = topology (outage e s) /\ blank s1 = blank (outage e s).
Proof.
  intros W T I A S E. pose proof (skel_set _ _ E) as K. pose proof (skel_out e s) as K'.
  destruct (takes_out e W T I) as (s1' & e1' & ok' & E' & _ & L1 & L2 & HL & HB). rewrite E in E'. injection E' as <- <- <-.
  assert (Lines : map (fun f => (f_1 f, f_2 f, line_states f)) (s_brs s1) = map (fun f => (f_1 f, f_2 f, line_states f)) (s_brs (outage e s))).
  { apply map_nth_eq; [unfold outage; cbn; rewrite map_length; exact L1 |]. intros i f g F G. unfold outage in G. cbn in G. rewrite nth_error_map in G. destruct (nth_error (s_brs s) i) as [f0 |] eqn:F0; [| discriminate]. injection G as <-.
    destruct (skel_ids K) as [_ K1]. destruct (nth_same _ _ _ i K1 F) as (f0' & F0' & K2). rewrite F0 in F0'. injection F0' as <-. injection K2 as K2 K3 K4. cbn [lines_out with_lines f_1 f_2]. f_equal; [congruence |].
    apply assoc_eq.
    - unfold line_states, lines_out. cbn. rewrite !map_map. cbn. symmetry. exact K4.
    - unfold line_states. rewrite map_map. change (NoDup (map n_tag (f_lines f))). rewrite <- K4. apply T. eapply nth_error_In; eauto.
    - intros t. rewrite <- !line_on_iff. rewrite line_on_out. now apply (HL i). }
  assert (LL : labs (s_brs s1) = labs (s_brs (outage e s))) by (apply (f_equal (map snd)) in Lines; rewrite !map_map in Lines; exact Lines).
  assert (TT : topology s1 = topology (outage e s)).
  { unfold topology. f_equal; [exact Lines |]. apply map_nth_eq; [unfold outage; cbn; rewrite map_length; exact L2 |]. intros i b b' B G. unfold outage in G. cbn in G. rewrite nth_error_map in G. destruct (nth_error (s_bus s) i) as [b0 |] eqn:B0; [| discriminate]. injection G as <-.
    destruct (skel_ids K) as [K1 _]. destruct (nth_same _ _ _ i K1 B) as (b0' & B0' & K2). rewrite B0 in B0'. injection B0' as <-. injection K2 as K2 K3 K4 K5. rewrite !skelb_gids in K5.
    destruct (HB i b0 b B0 B) as [HG HI]. assert (A0 : u_act b0 = true) by (apply A; eapply nth_error_In; eauto). change (u_act (with_iso (gens_out e b0) (u_iso b0 || without_lines (map (lines_out e) (s_brs s)) b0))) with (u_act b0).
    change (u_id (with_iso (gens_out e b0) (u_iso b0 || without_lines (map (lines_out e) (s_brs s)) b0))) with (u_id b0). change (u_near (with_iso (gens_out e b0) (u_iso b0 || without_lines (map (lines_out e) (s_brs s)) b0))) with (u_near b0).
    f_equal; [f_equal; [congruence |] |].
    - cbn [with_iso u_iso]. rewrite without_lone. change (map (lines_out e) (s_brs s)) with (s_brs (outage e s)). rewrite <- (@lone_abs _ _ b0 b0 LL eq_refl).
      apply eq_true_iff_eq. rewrite HI, orb_true_iff, lone_cut. tauto.
    - apply assoc_eq.
      + rewrite <- K5. rewrite <- (skelb_gids e (with_iso _ _)). rewrite skelb_out, skelb_gids. reflexivity.
      + rewrite <- K5. apply I. eapply nth_error_In; eauto.
      + intros t. change (gen_on b t <-> gen_on (with_iso (gens_out e b0) (u_iso b0 || without_lines (map (lines_out e) (s_brs s)) b0)) t). rewrite gen_on_out. apply HG. }
  split; auto. apply (@state_determined e); auto.
  - congruence.
  - eapply inv_set; [| | | exact E]; [intros; eapply settled_set; eauto | intros; now apply settled_iso | now apply settled_iff].
  - now apply settled_out.
  - eapply inv_set; [| | | exact E]; [intros; eapply okb_set; eauto | intros; now apply okb_iso |]. apply okb_gens, W.
  - apply okb_out.
Qed.

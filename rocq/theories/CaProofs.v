(** Proofs for C59, first part: setting and unsetting a contingency leaves everything else alone. *)
From Verif Require Import Prelude PqModel PqSpec FmModel FmSpec FmProofs GAModel CaModel CaSpec.
From Coq Require Import Reals.
Open Scope R_scope.

(** ** Skeletons: statuses and computed values removed *)
Definition bq (q : qbus) : qbus := set_s (set_Qi q 0) 0 0.
Definition strip1 (e : event) (b : fbus) (p : Z * gen) : Z * gen := if named_gen e b (snd p) then shut p else p.
Definition pairs (b : fbus) : list (Z * gen) := combine (q_gst (u_q b)) (q_gens (u_q b)).
Definition skelb (e : event) (b : fbus) : fbus :=
  with_iso (with_q b (unzip_gens (bq (u_q b)) (map (strip1 e b) (pairs b)))) false.
Definition skell (l : line) : line := Line (n_tag l) false (n_A l) (n_B l) (n_ign l) 0.
Definition skelf (f : fbr) : fbr := with_lines f (map skell (f_lines f)).
Definition skel (e : event) (s : proc) := (map (skelb e) (s_bus s), map skelf (s_brs s), s_rateB s).

Lemma map_upd_same A B (h : A -> B) l j x y : nth_error l j = Some y -> h x = h y -> map h (upd l j x) = map h l.
Proof.
  intros N E. rewrite map_upd, E. revert j N. induction l as [| a l IH]; intros [| j] N; try discriminate.
  - injection N as ->. reflexivity.
  - cbn in *. rewrite IH; auto.
Qed.
Lemma skell_on l x : skell (with_on l x) = skell l. Proof. reflexivity. Qed.
Lemma skelf_set f t x : skelf (with_lines f (set_line_status (f_lines f) t x)) = skelf f.
Proof.
  unfold skelf, with_lines. cbn. f_equal. unfold set_line_status. induction (f_lines f) as [| l r IH]; cbn; auto. destruct (tagged t l); cbn; [reflexivity | now rewrite IH].
Qed.
Lemma skelf_trip ids : forall brs t sv, map skelf (fst (trip_lines brs ids t sv)) = map skelf brs.
Proof.
  induction ids as [| j ids IH]; intros brs t sv; cbn; auto. destruct (nth_error brs j) as [f |] eqn:N; auto. rewrite IH. eapply map_upd_same; eauto. apply skelf_set.
Qed.
Lemma skelf_back ids : forall brs t sv, map skelf (back_lines brs ids t sv) = map skelf brs.
Proof.
  induction ids as [| j ids IH]; intros brs t sv; cbn; auto. rewrite IH. destruct (nth_error brs j) as [f |] eqn:N; auto. eapply map_upd_same; eauto. apply skelf_set.
Qed.
Lemma skelf_set_lines l : forall brs, map skelf (fst (fst (set_lines brs l))) = map skelf brs.
Proof.
  induction l as [| [[[a b] t] sv] l IH]; intros brs; cbn; auto. pose proof (skelf_trip (local_branch brs a b) brs t sv) as T. destruct (trip_lines brs (local_branch brs a b) t sv) as [b1 s1].
  specialize (IH b1). destruct (set_lines b1 l) as [[b2 r2] ok]. cbn in *. congruence.
Qed.
Lemma skelf_unset_lines l : forall brs, map skelf (fst (unset_lines brs l)) = map skelf brs.
Proof.
  induction l as [| [[[a b] t] sv] l IH]; intros brs; cbn; auto. specialize (IH (back_lines brs (local_branch brs a b) t sv)). rewrite skelf_back in IH. destruct (unset_lines (back_lines brs (local_branch brs a b) t sv) l). exact IH.
Qed.

(** ** Generators *)
Definition names_it (e : event) (i : Z) (t : string) : Prop := exists l sv, e = EGen l /\ In (i, t, sv) l.
Lemma named_of e b t g : names_it e (u_id b) t -> String.eqb (g_id g) t = true -> named_gen e b g = true.
Proof.
  intros (l & sv & -> & I) E. cbn. apply existsb_exists. eexists. split; [exact I |]. cbn. rewrite Z.eqb_refl, String.eqb_sym, E. reflexivity.
Qed.
Lemma named_id e b g g' : g_id g = g_id g' -> named_gen e b g = named_gen e b g'.
Proof. intros E. destruct e; cbn; auto. now rewrite E. Qed.
Lemma switch_id x p : g_id (snd (switch_gen x p)) = g_id (snd p). Proof. destruct x; reflexivity. Qed.
Lemma shut_switch x p : shut (switch_gen x p) = shut p. Proof. destruct x; reflexivity. Qed.
Lemma gen_status_parts q t x q' : set_gen_status q t x = Ok q' -> length (q_gst q) = length (q_gens q) /\
  q' = unzip_gens q (upd_first (fun p => String.eqb (g_id (snd p)) t) (switch_gen x) (combine (q_gst q) (q_gens q))).
Proof. unfold set_gen_status, aligned. destruct (Nat.eqb_spec (length (q_gst q)) (length (q_gens q))); cbn; [| discriminate]. intros E. inversion E. auto. Qed.
Lemma skelb_set e b t x q : names_it e (u_id b) t -> set_gen_status (u_q b) t x = Ok q -> skelb e (with_q b q) = skelb e b.
Proof.
  intros N E. apply gen_status_parts in E as (L & ->). unfold skelb, with_iso, with_q, pairs. cbn [u_q u_act u_id u_area u_zone u_iso u_ign u_vmin u_vmax u_near]. f_equal. unfold unzip_gens, set_gens, bq, set_s, set_Qi. cbn [q_gst q_gens q_gsave q_savePg q_lds q_saveL q_sb q_pv q_save q_save2 q_v q_a q_volt q_angle q_xc q_P0 q_Q0 q_Qi].
  rewrite combine_fs. assert (M : map (strip1 e (Fbus (u_act b) (u_id b) (u_area b) (u_zone b) (u_iso b) (u_ign b) (u_vmin b) (u_vmax b) (u_near b)
      (QBus (map fst (upd_first (fun p => String.eqb (g_id (snd p)) t) (switch_gen x) (combine (q_gst (u_q b)) (q_gens (u_q b))))) (q_gsave (u_q b)) (map snd (upd_first (fun p => String.eqb (g_id (snd p)) t) (switch_gen x) (combine (q_gst (u_q b)) (q_gens (u_q b))))) (q_savePg (u_q b)) (q_lds (u_q b)) (q_saveL (u_q b)) (q_sb (u_q b)) (q_Qi (u_q b)) (q_pv (u_q b)) (q_save (u_q b)) (q_save2 (u_q b)) (q_v (u_q b)) (q_a (u_q b)) (q_volt (u_q b)) (q_angle (u_q b)) (q_xc (u_q b)) (q_P0 (u_q b)) (q_Q0 (u_q b)))))
      (upd_first (fun p => String.eqb (g_id (snd p)) t) (switch_gen x) (combine (q_gst (u_q b)) (q_gens (u_q b)))) = map (strip1 e b) (combine (q_gst (u_q b)) (q_gens (u_q b)))); [| now rewrite M].
  generalize (combine (q_gst (u_q b)) (q_gens (u_q b))) at 3 4. intros l. induction l as [| p l IH]; cbn; auto. destruct (String.eqb (g_id (snd p)) t) eqn:E; cbn.
  - f_equal. + unfold strip1. rewrite shut_switch. assert (H : named_gen e b (snd p) = true) by (eapply named_of; eauto). rewrite (named_id e b (snd p) (snd (switch_gen x p))) in H by (symmetry; apply switch_id).
      rewrite (@named_of e b t (snd p)) by auto. unfold named_gen in *. destruct e; try discriminate. cbn [u_id] in *. now rewrite H.
  - f_equal. exact IH.
Qed.
Lemma nth_upd_id bs j k b q c i : nth_error bs j = Some b -> u_id b = i -> nth_error (upd bs j (with_q b q)) k = Some c -> (forall d, nth_error bs k = Some d -> u_id d = i) -> u_id c = i.
Proof.
  intros N I M H. pose proof (f_equal (fun l => nth_error l k) (map_upd u_id bs j (with_q b q))) as E. cbn beta in E. rewrite nth_error_map, M in E. cbn in E.
  rewrite <- (map_upd u_id bs j b) in E. rewrite nth_error_map in E. destruct (nth_error (upd bs j b) k) as [d |] eqn:D; [| discriminate]. injection E as E. rewrite E.
  replace (upd bs j b) with bs in D; [auto |]. clear -N. revert j N. induction bs as [| a bs IH]; intros [| j] N; try discriminate; cbn in *; [congruence | now rewrite <- IH].
Qed.
Lemma skelb_trip e i t : names_it e i t -> forall ids bs sv bs' sv', (forall j b, In j ids -> nth_error bs j = Some b -> u_id b = i) ->
  trip_gens bs ids t sv = Ok (bs', sv') -> map (skelb e) bs' = map (skelb e) bs.
Proof.
  intros N. induction ids as [| j ids IH]; intros bs sv bs' sv' H E; cbn in E; [congruence |]. destruct (nth_error bs j) as [b |] eqn:B; [| eapply IH; eauto; intros k c K C; apply (H k c); auto; now right].
  destruct (set_gen_status (u_q b) t false) as [q | |] eqn:Q; cbn in E; try discriminate. apply IH in E.
  - rewrite E. eapply map_upd_same; eauto. assert (I : u_id b = i) by (apply (H j b); auto; now left). eapply skelb_set; eauto. now rewrite I.
  - intros k c K C. refine (@nth_upd_id _ _ _ _ _ _ _ B _ C _); [apply (H j b); auto; now left |]. intros d D. apply (H k d); auto. now right.
Qed.
Lemma skelb_back e i t x : names_it e i t -> forall ids bs bs', (forall j b, In j ids -> nth_error bs j = Some b -> u_id b = i) ->
  back_gens bs ids t x = Ok bs' -> map (skelb e) bs' = map (skelb e) bs.
Proof.
  intros N. induction ids as [| j ids IH]; intros bs bs' H E; cbn in E; [congruence |]. destruct (nth_error bs j) as [b |] eqn:B; [| eapply IH; eauto; intros k c K C; apply (H k c); auto; now right].
  destruct (set_gen_status (u_q b) t x) as [q | |] eqn:Q; cbn in E; try discriminate. apply IH in E.
  - rewrite E. eapply map_upd_same; eauto. assert (I : u_id b = i) by (apply (H j b); auto; now left). eapply skelb_set; eauto. now rewrite I.
  - intros k c K C. refine (@nth_upd_id _ _ _ _ _ _ _ B _ C _); [apply (H j b); auto; now left |]. intros d D. apply (H k d); auto. now right.
Qed.
Lemma local_ids bs i j b : In j (local_bus bs i) -> nth_error bs j = Some b -> u_id b = i.
Proof. intros J B. apply local_bus_in in J as (c & C & E). congruence. Qed.
Lemma skelb_set_gens e l : (forall i t sv, In (i, t, sv) l -> names_it e i t) -> forall bs bs' l' ok, set_gens_out bs l = Ok (bs', l', ok) -> map (skelb e) bs' = map (skelb e) bs.
Proof.
  intros N. induction l as [| [[i t] sv] l IH]; intros bs bs' l' ok E; cbn in E; [congruence |]. destruct (trip_gens bs (local_bus bs i) t sv) as [[b1 s1] | |] eqn:T; cbn in E; try discriminate.
  destruct (set_gens_out b1 l) as [[[b2 r2] ok2] | |] eqn:S; cbn in E; try discriminate. injection E as <- <- <-. rewrite (IH ltac:(intros; eapply N; right; eauto) _ _ _ _ S).
  eapply skelb_trip; [| | exact T]; [eapply N; now left | intros; eapply local_ids; eauto].
Qed.
Lemma skelb_unset_gens e l : (forall i t sv, In (i, t, sv) l -> names_it e i t) -> forall bs bs' ok, unset_gens bs l = Ok (bs', ok) -> map (skelb e) bs' = map (skelb e) bs.
Proof.
  intros N. induction l as [| [[i t] sv] l IH]; intros bs bs' ok E; cbn in E; [congruence |]. destruct (back_gens bs (local_bus bs i) t sv) as [b1 | |] eqn:T; cbn in E; try discriminate.
  destruct (unset_gens b1 l) as [[b2 ok2] | |] eqn:S; cbn in E; try discriminate. injection E as <- <-. rewrite (IH ltac:(intros; eapply N; right; eauto) _ _ _ S).
  eapply skelb_back; [| | exact T]; [eapply N; now left | intros; eapply local_ids; eauto].
Qed.
Lemma skelb_iso e b x : skelb e (with_iso b x) = skelb e b.
Proof. unfold skelb, with_iso, with_q, pairs. cbn. f_equal. Qed.
Lemma skelb_mark e brs l : map (skelb e) (fst (fst (mark_lone brs l))) = map (skelb e) l.
Proof. induction l as [| b l IH]; cbn; auto. destruct (mark_lone brs l) as [[r sv] ok]. cbn in IH. destruct (u_act b && lone brs b); cbn; rewrite IH; auto. Qed.
Lemma skelb_unmark e brs l : forall sv l', unmark_lone brs l sv = Ok l' -> map (skelb e) l' = map (skelb e) l.
Proof.
  induction l as [| b l IH]; intros sv l' E; cbn in E; [congruence |]. destruct (u_act b && lone brs b).
  - destruct sv as [| x sv]; [discriminate |]. destruct (unmark_lone brs l sv) as [r | |] eqn:U; cbn in E; try discriminate. injection E as <-. cbn. rewrite (IH _ _ U). now rewrite skelb_iso.
  - destruct (unmark_lone brs l sv) as [r | |] eqn:U; cbn in E; try discriminate. injection E as <-. cbn. now rewrite (IH _ _ U).
Qed.

(** ** Contingencies *)
Definition unsaved (e : event) : event :=
  match e with EGen l => EGen (map (fun x => (fst x, false)) l) | ELine l => ELine (map (fun x => (fst x, false)) l) | EOther => EOther end.
Lemma named_line_unsaved e f l : named_line (unsaved e) f l = named_line e f l.
Proof. destruct e as [| es |]; cbn; auto. induction es as [| [[[a b] t] sv] es IH]; cbn; auto. now rewrite IH. Qed.
Lemma named_gen_unsaved e b g : named_gen (unsaved e) b g = named_gen e b g.
Proof. destruct e as [es | |]; cbn; auto. induction es as [| [[i t] sv] es IH]; cbn; auto. now rewrite IH. Qed.
Lemma skelb_same e e' b : unsaved e = unsaved e' -> skelb e b = skelb e' b.
Proof.
  intros E. unfold skelb. do 3 f_equal. apply map_ext. intros p. unfold strip1. now rewrite <- (named_gen_unsaved e), <- (named_gen_unsaved e'), E.
Qed.
Lemma skel_set s e s1 e1 ok : set_contingency s e = Ok (s1, e1, ok) -> skel e s1 = skel e s.
Proof.
  unfold set_contingency, skel. destruct e as [l | l |].
  - destruct (set_gens_out (s_bus s) l) as [[[bs l'] o] | |] eqn:G; cbn [obind]; try discriminate. intros E. injection E as <- <- <-. rewrite check_lone1_eq. cbn [with_sav with_bus s_bus s_brs s_rateB].
    rewrite skelb_mark. rewrite (@skelb_set_gens (EGen l) l) with (2 := G); auto. intros i t sv I. exists l, sv. auto.
  - pose proof (skelf_set_lines l (s_brs s)) as F. destruct (set_lines (s_brs s) l) as [[brs l'] o]. intros E. injection E as <- <- <-. rewrite check_lone1_eq. cbn in *. now rewrite skelb_mark, F.
  - intros E. injection E as <- <- <-. rewrite check_lone1_eq. cbn. now rewrite skelb_mark.
Qed.
Lemma skel_clear e s s' : clear_lone1 s = Ok s' -> skel e s' = skel e s.
Proof.
  unfold clear_lone1. destruct (s_sav s); [congruence |]. destruct (unmark_lone (s_brs s) (s_bus s) (b :: l)) as [r | |] eqn:U; cbn; try discriminate. intros E. injection E as <-.
  unfold skel. cbn. now rewrite (skelb_unmark e _ _ _ U).
Qed.
Lemma skel_unset s e s1 ok : unset_contingency s e = Ok (s1, ok) -> skel e s1 = skel e s.
Proof.
  unfold unset_contingency. destruct (clear_lone1 s) as [s0 | |] eqn:C; cbn [obind]; try discriminate. rewrite <- (skel_clear e _ C). clear C s. destruct e as [l | l |].
  - destruct (unset_gens (s_bus s0) l) as [[bs o] | |] eqn:G; cbn [obind]; try discriminate. intros E. injection E as <- <-. unfold skel. cbn [with_bus s_bus s_brs s_rateB fst].
    rewrite (@skelb_unset_gens (EGen l) l) with (2 := G); auto. intros i t sv I. exists l, sv. auto.
  - pose proof (skelf_unset_lines l (s_brs s0)) as F. destruct (unset_lines (s_brs s0) l) as [brs o]. intros E. injection E as <- <-. unfold skel. cbn in *. now rewrite F.
  - intros E. injection E as <- <-. reflexivity.
Qed.
Lemma set_event s e s1 e1 ok : set_contingency s e = Ok (s1, e1, ok) -> unsaved e1 = unsaved e.
Proof.
  assert (U : forall (X : Type) (l l' : list (X * bool)), map fst l = map fst l' -> map (fun x => (fst x, false)) l = map (fun x => (fst x, false)) l').
  { intros X l l' E. rewrite <- (map_map fst (fun y => (y, false))), E, map_map. reflexivity. }
  unfold set_contingency. destruct e as [l | l |].
  - destruct (set_gens_out (s_bus s) l) as [[[bs l'] o] | |] eqn:G; cbn [obind]; try discriminate. intros E. injection E as <- <- <-. cbn. f_equal. apply U. clear -G. revert l' o G. generalize (s_bus s). induction l as [| [[i t] sv] l IH]; intros b0 l' o E; cbn in E; [congruence |].
    destruct (trip_gens b0 (local_bus b0 i) t sv) as [[b1 s1] | |] eqn:T; cbn in E; try discriminate.
    destruct (set_gens_out b1 l) as [[[b2 r2] ok2] | |] eqn:S; cbn in E; try discriminate. injection E as <- <- <-. cbn. f_equal. eauto.
  - pose proof (set_lines_abs l (s_brs s)) as F. destruct (set_lines (s_brs s) l) as [[brs l'] o]. intros E. injection E as <- <- <-. cbn. f_equal. apply U. intuition.
  - congruence.
Qed.

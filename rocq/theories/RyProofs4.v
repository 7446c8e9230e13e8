(** Proofs for C60: what the relays see in a run, and the lines in a run. *)
From Verif Require Import Prelude RyModel RySpec RyProofs RyProofs2 RyProofs3.
From Coq Require Import Reals Lra.
From Coquelicot Require Import Complex.
Open Scope R_scope.

(** ** A relay over several updates *)
Lemma relay_after_shift X A (u : X -> relay A -> relay A) x n r : relay_after u x (S n) r = relay_after u (fun i => x (S i)) n (fst (operate (u (x 0%nat)) r)).
Proof. induction n as [| n IH]; [reflexivity |]. cbn [relay_after] in *. now rewrite IH. Qed.
Lemma relay_after_op X A (u : X -> relay A -> relay A) x n r : (forall y s, r_op (u y s) = r_op s) -> r_op r = true ->
  r_op (relay_after u x n r) = false <-> exists m, (m < n)%nat /\ operated u x m r.
Proof.
  intros H R. induction n as [| n IH]; [cbn; split; [congruence | intros (m & L & _); lia] |]. cbn [relay_after]. destruct (@operate_op _ (u (x n)) (relay_after u x n r) (H (x n))) as [O1 O2]. rewrite O1.
  destruct (snd (operate (u (x n)) (relay_after u x n r))) eqn:E.
  - rewrite andb_false_r. split; [| reflexivity]. intros _. exists n. split; [lia | exact E].
  - rewrite andb_true_r, IH. split; intros (m & L & O); exists m; (split; [| exact O]); [lia |]. destruct (Nat.eq_dec m n) as [-> | N]; [unfold operated in O; congruence | lia].
Qed.

(** ** One step *)
Definition all_ok (s : rsys) : Prop := forall c, In c (s_bus s) -> bus_ok c.
Lemma same_bus_ok b c : same b c -> bus_ok b -> bus_ok c.
Proof. intros (_ & _ & _ & E) H. unfold bus_ok. now rewrite <- E. Qed.
Lemma step_buses dt (first : bool) V s : exists b1 b2 fb b3 ls fl,
  b1 = map (compute_freq dt) (if first then map old_volt (with_volts 0 V (s_bus s)) else with_volts 0 V (s_bus s)) /\
  update_buses dt false b1 = (b2, fb) /\ update_lines dt 0 false (s_line s) b2 = (ls, b3, fl) /\
  relay_step dt first V s = Rsys (map old_volt b3) ls (if fl then inc_off ls (inc_diag 0 b3 ls (if fb then overwrite 0 b3 (s_mat s) else s_mat s)) else (if fb then overwrite 0 b3 (s_mat s) else s_mat s)).
Proof.
  unfold relay_step. set (b1 := map (compute_freq dt) _). destruct (update_buses dt false b1) as [b2 fb] eqn:E1. destruct (update_lines dt 0 false (s_line s) b2) as [[ls b3] fl] eqn:E2. exists b1, b2, fb, b3, ls, fl. auto.
Qed.
Lemma prepared_same dt (first : bool) v c : same c (compute_freq dt (if first then old_volt (set_volts v c) else set_volts v c)).
Proof. destruct (compute_same dt (if first then old_volt (set_volts v c) else set_volts v c)) as (Q1 & Q2 & Q3 & Q4). unfold same. rewrite Q1, Q2, Q3, Q4. destruct first; repeat split. Qed.
Lemma prepared_v dt (first : bool) v c : rb_v (compute_freq dt (if first then old_volt (set_volts v c) else set_volts v c)) = v.
Proof. unfold compute_freq. destruct first; cbn; destruct (rb_cf c); reflexivity. Qed.
Lemma prepared_flag dt (first : bool) v c : rb_brflag (compute_freq dt (if first then old_volt (set_volts v c) else set_volts v c)) = rb_brflag c.
Proof. unfold compute_freq. destruct first; cbn; destruct (rb_cf c); reflexivity. Qed.
Lemma step_all_ok dt first V s : all_ok s -> all_ok (relay_step dt first V s).
Proof.
  intros H. destruct (step_buses dt first V s) as (b1 & b2 & fb & b3 & ls & fl & E1 & E2 & E3 & ->). intros c I. cbn [s_bus] in I. apply in_map_iff in I. destruct I as (d & <- & I). apply In_nth_error in I. destruct I as [k Ek].
  assert (LU := update_lines_unmarked dt (s_line s) 0 false b2). rewrite E3 in LU. cbn [fst snd] in LU. destruct (@unmarked_nth _ _ _ _ LU Ek) as (e & Ee & Ue). destruct (unmarked_parts Ue) as (_ & _ & _ & _ & _ & Q1 & Q2 & Q3 & Q4 & Q5).
  assert (UN := @update_buses_nth dt b1 k e). rewrite E2 in UN. cbn [fst snd] in UN. destruct (UN Ee) as (f & Ef & Hf). assert (Of : bus_ok f). { rewrite E1, prepared in Ef. destruct (nth_error (s_bus s) k) as [g |] eqn:Eg; [| discriminate]. cbn [option_map] in Ef. injection Ef as <-. eapply same_bus_ok; [apply prepared_same |]. apply H. eapply nth_error_In; eauto. }
  assert (Oe : bus_ok e). { destruct Hf as [(-> & _) | (-> & _)]; [exact Of |]. assert (U := @bus_update_eq dt f Of). destruct (bus_update dt f) as [f' t]. apply U. }
  unfold bus_ok. cbn. rewrite <- Q4. exact Oe.
Qed.
Lemma second_all_ok dt V s : all_ok s -> all_ok (second_solution dt V s).
Proof.
  intros H c I. apply In_nth_error in I. destruct I as [k Ek]. cbn [second_solution s_bus] in Ek. rewrite nth_error_map, with_volts_nth in Ek. destruct (nth_error (s_bus s) k) as [d |] eqn:Ed; [| discriminate]. cbn in Ek. injection Ek as <-.
  eapply same_bus_ok; [apply (prepared_same dt false) |]. apply H. eapply nth_error_In; eauto.
Qed.
Definition gens_seen (dt : R) (f : R) (l : list rgen) : list rgen :=
  map (fun g => if rg_stat g then Rgen true (snd (fst (fst (gen_relays dt f (rg_y g) (rg_relays g) (rg_on g) (RtoC 0))))) (rg_y g)
                       (map (fun x => (fst x, fst (operate (fq_update (fst x) dt f) (snd x)))) (rg_relays g)) else g) l.
Lemma step_seen dt first V s k b0 : all_ok s -> nth_error (s_bus s) k = Some b0 ->
  (forall j c, (j < k)%nat -> nth_error (s_bus (relay_step dt first V s)) j = Some c -> rb_trip c = false) ->
  exists b, nth_error (s_bus (relay_step dt first V s)) k = Some b /\ rb_lv b = map (fun x => (fst x, fst (operate (lv_update (fst x) dt (V k)) (snd x)))) (rb_lv b0) /\ rb_gens b = gens_seen dt (rb_f b) (rb_gens b0).
Proof.
  intros Ok E0 N. destruct (step_buses dt first V s) as (b1 & b2 & fb & b3 & ls & fl & E1 & E2 & E3 & R). rewrite R in *. cbn [s_bus] in *. clear R.
  assert (LU := update_lines_unmarked dt (s_line s) 0 false b2). rewrite E3 in LU. cbn [fst snd] in LU. assert (P := prepared dt first V (s_bus s) k). rewrite <- E1, E0 in P. cbn [option_map] in P. set (c1 := compute_freq dt _) in P.
  assert (Ok1 : forall c, In c b1 -> bus_ok c). { intros c I. apply In_nth_error in I. destruct I as [j Ej]. rewrite E1, prepared in Ej. destruct (nth_error (s_bus s) j) as [d |] eqn:Ed; [| discriminate]. cbn [option_map] in Ej. injection Ej as <-. eapply same_bus_ok; [apply prepared_same |]. apply Ok. eapply nth_error_In; eauto. }
  assert (US := @update_buses_seen dt b1 k c1 P). rewrite E2 in US. cbn [fst] in US. assert (B2 : nth_error b2 k = Some (fst (bus_update dt c1))).
  { apply US; [| exact Ok1]. intros j c L Ec. symmetry in LU. destruct (@unmarked_nth _ _ _ _ LU Ec) as (d & Ed & Ud). destruct (unmarked_parts Ud) as (_ & _ & _ & _ & _ & _ & _ & _ & _ & Q5). rewrite <- Q5. specialize (N j (old_volt d) L). rewrite nth_error_map, Ed in N. exact (N eq_refl). }
  symmetry in LU. destruct (@unmarked_nth _ _ _ _ LU B2) as (d & Ed & Ud). destruct (unmarked_parts Ud) as (_ & _ & Q0 & _ & _ & _ & _ & Q3 & Q4 & _). exists (old_volt d). rewrite nth_error_map, Ed. split; [reflexivity |].
  assert (U := @bus_update_eq dt c1 (Ok1 c1 (nth_error_In _ _ P))). destruct (bus_update dt c1) as [c2 t]. cbn [fst] in *. destruct U as (_ & _ & _ & _ & _ & U6 & U7 & _). destruct (prepared_same dt first (V k) b0) as (_ & _ & S3 & S4). fold c1 in S3, S4.
  assert (Vc : rb_v c1 = V k) by apply prepared_v. cbn [old_volt rb_lv rb_gens rb_f]. rewrite Q3, U6, Q4, U7, Vc, <- S3, <- S4, Q0. split; reflexivity.
Qed.
Lemma second_seen dt V s k b0 : nth_error (s_bus s) k = Some b0 -> exists b, nth_error (s_bus (second_solution dt V s)) k = Some b /\ rb_lv b = rb_lv b0 /\ rb_gens b = rb_gens b0.
Proof.
  intros E. cbn [second_solution s_bus]. rewrite nth_error_map, with_volts_nth, E. cbn [option_map Nat.add]. eexists. split; [reflexivity |]. destruct (@prepared_same dt false (V k) b0) as (_ & _ & A & B). auto.
Qed.
Lemma gens_seen_nth dt f l e g0 : nth_error l e = Some g0 -> rg_stat g0 = true ->
  exists g, nth_error (gens_seen dt f l) e = Some g /\ rg_stat g = true /\ rg_relays g = map (fun x => (fst x, fst (operate (fq_update (fst x) dt f) (snd x)))) (rg_relays g0).
Proof. intros E St. unfold gens_seen. rewrite nth_error_map, E. cbn [option_map]. rewrite St. eexists. split; [reflexivity |]. cbn. auto. Qed.

(** ** A run *)
Lemma run_seen dt k Vs : forall first s n s' b0 b v F, nth_error (steps dt first Vs s) n = Some s' -> nth_error (s_bus s) k = Some b0 -> nth_error (s_bus s') k = Some b -> all_ok s ->
  (forall i si j c, (i <= n)%nat -> nth_error (steps dt first Vs s) i = Some si -> (j < k)%nat -> nth_error (s_bus si) j = Some c -> rb_trip c = false) ->
  (forall i p, (i <= n)%nat -> nth_error Vs i = Some p -> v i = fst p k) ->
  (forall i si c, (i <= n)%nat -> nth_error (steps dt first Vs s) i = Some si -> nth_error (s_bus si) k = Some c -> F i = rb_f c) ->
  rb_lv b = map (fun x => (fst x, relay_after (lv_update (fst x) dt) v (S n) (snd x))) (rb_lv b0) /\
  forall e g0, nth_error (rb_gens b0) e = Some g0 -> rg_stat g0 = true -> exists g, nth_error (rb_gens b) e = Some g /\ rg_stat g = true /\
    rg_relays g = map (fun x => (fst x, relay_after (fq_update (fst x) dt) F (S n) (snd x))) (rg_relays g0).
Proof.
  induction Vs as [| [V1 V2] Vs IH]; intros first s n s' b0 b v F E E0 Eb Ok N Hv HF; [destruct n; discriminate |]. cbn [steps] in E, N, HF.
  destruct (@step_seen dt first V1 s k b0 Ok E0) as (c & Ec & Lc & Gc); [intros j c L Ec; exact (N 0%nat _ j c ltac:(lia) eq_refl L Ec) |].
  assert (v0 : v 0%nat = V1 k) by exact (Hv 0%nat _ ltac:(lia) eq_refl). assert (F0 : F 0%nat = rb_f c) by exact (HF 0%nat _ c ltac:(lia) eq_refl Ec). destruct n as [| n].
  - cbn in E. injection E as <-. rewrite Ec in Eb. injection Eb as <-. split.
    + rewrite Lc. apply map_ext. intros [p r]. cbn. now rewrite v0.
    + intros e g0 Eg St. rewrite Gc. destruct (gens_seen_nth dt (rb_f c) _ _ Eg St) as (g & G1 & G2 & G3). exists g. split; [exact G1 |]. split; [exact G2 |]. rewrite G3. apply map_ext. intros [p r]. cbn. now rewrite F0.
  - cbn [nth_error] in E. destruct (@second_seen dt V2 _ k c Ec) as (d & Ed & Ld & Gd).
    specialize (IH false (second_solution dt V2 (relay_step dt first V1 s)) n s' d b (fun i => v (S i)) (fun i => F (S i)) E Ed Eb (second_all_ok dt V2 (step_all_ok dt first V1 Ok))).
    destruct IH as [I1 I2]. { intros i si j e L Ei. exact (N (S i) si j e ltac:(lia) Ei). } { intros i p L Ei. exact (Hv (S i) p ltac:(lia) Ei). } { intros i si e L Ei. exact (HF (S i) si e ltac:(lia) Ei). } split.
    + rewrite I1, Ld, Lc, map_map. apply map_ext. intros [p r]. cbn [fst snd]. f_equal. rewrite (relay_after_shift _ v (S n)), v0. reflexivity.
    + intros e g0 Eg St. rewrite Gd, Gc in I2. destruct (gens_seen_nth dt (rb_f c) _ _ Eg St) as (g1 & G1 & G2 & G3). destruct (I2 e g1 G1 G2) as (g & H1 & H2 & H3). exists g. split; [exact H1 |]. split; [exact H2 |]. rewrite H3, G3, map_map. apply map_ext. intros [p r]. cbn [fst snd]. f_equal. rewrite (relay_after_shift _ F (S n)), F0. reflexivity.
Qed.

(** ** Lines in a run *)
Lemma bus_update_trip dt b : rb_trip (fst (bus_update dt b)) = snd (bus_update dt b) /\ rb_brflag (fst (bus_update dt b)) = rb_brflag b /\ rb_v (fst (bus_update dt b)) = rb_v b.
Proof.
  unfold bus_update. destruct (load_relays _ _ _ _ _) as [[ls y] t]. destruct (all_gens _ _ _ _) as [[gs y'] t']. cbn [fst snd rb_trip rb_brflag rb_v]. split; [reflexivity |]. unfold compute_freq. destruct (0 <? length (rb_gens b))%nat; [destruct (rb_cf b) |]; split; reflexivity.
Qed.
Lemma update_buses_trip dt l : snd (update_buses dt false l) = true -> exists b, In b (fst (update_buses dt false l)) /\ rb_trip b = true.
Proof.
  induction l as [| b l IH]; [discriminate |]. cbn [update_buses]. destruct (bus_update_trip dt b) as (A & _). destruct (bus_update dt b) as [b' [|]]; cbn [fst snd] in A.
  - rewrite update_buses_true. intros _. exists b'. split; [now left | exact A].
  - destruct (update_buses dt false l) as [l' f]. cbn [fst snd] in *. intros H. destruct (IH H) as (c & I & T). exists c. split; [now right | exact T].
Qed.
Lemma update_buses_keep dt l : forall k, (option_map rb_brflag (nth_error (fst (update_buses dt false l)) k) = option_map rb_brflag (nth_error l k)) /\ option_map rb_v (nth_error (fst (update_buses dt false l)) k) = option_map rb_v (nth_error l k).
Proof.
  intros k. destruct (nth_error (fst (update_buses dt false l)) k) as [b' |] eqn:E.
  - destruct (@update_buses_nth dt l k b' E) as (b & Eb & [(-> & _) | (-> & _)]); rewrite Eb; cbn [option_map]; [split; reflexivity |]. destruct (bus_update_trip dt b) as (_ & A & B). rewrite A, B. split; reflexivity.
  - apply nth_error_None in E. rewrite update_buses_len in E. apply nth_error_None in E. rewrite E. split; reflexivity.
Qed.
Lemma flag_opt l l' j : option_map rb_brflag (nth_error l j) = option_map rb_brflag (nth_error l' j) -> flag_at l j = flag_at l' j.
Proof. unfold flag_at. destruct (nth_error l j), (nth_error l' j); cbn; congruence. Qed.
Definition ends_only (s : rsys) : Prop := forall j, flag_at (s_bus s) j = true -> exists x, In x (s_line s) /\ an_end x j.
Definition line_inv (s : rsys) : Prop := lines_ok s /\ ends_only s /\ (tripped s \/ clean s).
Definition rest (s : rsys) (a b : nat) : C := (s_mat s a b - in_service (s_line s) a b)%C.
Lemma line_step dt first V s : line_inv s -> calm (relay_step dt first V s) -> ~ (tripped s /\ tripped (relay_step dt first V s)) ->
  line_inv (relay_step dt first V s) /\ length (s_bus (relay_step dt first V s)) = length (s_bus s) /\ forall a b, rest (relay_step dt first V s) a b = rest s a b.
Proof.
  intros (Ok & Ends & TC) Calm NT. destruct (step_buses dt first V s) as (b1 & b2 & fb & b3 & ls & fl & E1 & E2 & E3 & R). rewrite R in *. clear R.
  assert (LU := update_lines_unmarked dt (s_line s) 0 false b2). rewrite E3 in LU. cbn [fst snd] in LU. assert (FB : fb = false).
  { destruct fb; [| reflexivity]. exfalso. assert (T := @update_buses_trip dt b1). rewrite E2 in T. destruct (T eq_refl) as (c & I & Tc). cbn [fst] in I. apply In_nth_error in I. destruct I as [k Ek]. symmetry in LU. destruct (@unmarked_nth _ _ _ _ LU Ek) as (d & Ed & Ud). destruct (unmarked_parts Ud) as (_ & _ & _ & _ & _ & _ & _ & _ & _ & Q5).
    assert (C := Calm (old_volt d)). cbn [s_bus] in C. rewrite in_map_iff in C. specialize (C (ex_intro _ d (conj eq_refl (nth_error_In _ _ Ed)))). cbn in C. congruence. }
  subst fb. assert (L2 : length b2 = length (s_bus s)). { assert (L := update_buses_len dt b1 false). rewrite E2 in L. cbn [fst] in L. rewrite L, E1, map_length. destruct first; rewrite ?map_length; apply with_volts_len. }
  assert (FL : forall j, flag_at b2 j = flag_at (s_bus s) j).
  { intros j. destruct (@update_buses_keep dt b1 j) as [K _]. rewrite E2 in K. cbn [fst] in K. rewrite (@flag_opt b2 b1 j K). apply flag_opt. rewrite E1, prepared. destruct (nth_error (s_bus s) j); [| reflexivity]. cbn [option_map]. now rewrite prepared_flag. }
  assert (FO : forall j, flag_at (map old_volt b3) j = flag_at b3 j) by (intros j; apply flag_opt; rewrite nth_error_map; destruct (nth_error b3 j); reflexivity).
  assert (L3 : length b3 = length b2) by (rewrite <- (map_length unmarked b3), LU; apply map_length).
  assert (P := @lines_part dt (s_line s) b2 (s_mat s) (length b2) eq_refl). rewrite E3 in P. destruct P as (P1 & P2 & P3 & P4 & P5); [intros x I; rewrite L2; now apply Ok |].
  assert (EN : forall j, (exists x, In x (s_line s) /\ an_end x j) -> exists x, In x ls /\ an_end x j).
  { intros j (x & I & A). apply (in_map (fun x => (rl_1 x, rl_2 x))) in I. rewrite <- P4 in I. apply in_map_iff in I. destruct I as (y & Ey & I). injection Ey as Y1 Y2. exists y. split; [exact I |]. unfold an_end in *. now rewrite Y1, Y2. }
  split; [split; [| split] | split].
  - intros x I. cbn [s_bus s_line] in *. rewrite map_length, L3. now apply P1.
  - intros j. cbn [s_bus s_line]. rewrite FO. intros H. apply EN. destruct (P5 j H) as [H1 | H1]; [| exact H1]. rewrite FL in H1. now apply Ends.
  - destruct fl; [left; destruct (P3 eq_refl) as [T _]; exact T | right]. destruct (P2 eq_refl) as (Q1 & Q2 & _). split; [exact Q1 |]. intros j. cbn [s_bus]. rewrite FO. apply Q2. destruct (flag_at b2 j) eqn:Fj; [right | now left]. rewrite FL in Fj. now apply Ends.
  - cbn. rewrite map_length. congruence.
  - intros a b. unfold rest. cbn [s_mat s_line]. destruct fl.
    + destruct (P3 eq_refl) as [T Q]. assert (Cl : clean s). { destruct TC as [Ts | Cl]; [| exact Cl]. exfalso. apply NT. split; [exact Ts | exact T]. } destruct Cl as [C1 C2]. rewrite Q; [ring | exact C1 |]. intros j. rewrite FL. apply C2.
    + destruct (P2 eq_refl) as (_ & _ & Q3 & _). now rewrite Q3.
Qed.
Lemma second_line dt V s : line_inv s -> line_inv (second_solution dt V s).
Proof.
  intros (A & B & D). assert (F : forall j, flag_at (s_bus (second_solution dt V s)) j = flag_at (s_bus s) j).
  { intros j. apply flag_opt. cbn [second_solution s_bus]. rewrite nth_error_map, with_volts_nth. destruct (nth_error (s_bus s) j) as [c |]; [| reflexivity]. cbn [option_map]. f_equal. apply (prepared_flag dt false). }
  split; [| split].
  - intros x I. cbn [second_solution s_bus s_line] in *. rewrite map_length, with_volts_len. now apply A.
  - intros j. rewrite F. apply B.
  - destruct D as [T | [C1 C2]]; [now left | right]. split; [exact C1 |]. intros j. rewrite F. apply C2.
Qed.
Lemma line_run dt Vs : forall first s, line_inv s -> (forall s', In s' (steps dt first Vs s) -> calm s') ->
  (forall s1, nth_error (steps dt first Vs s) 0 = Some s1 -> ~ (tripped s /\ tripped s1)) ->
  (forall i s1 s2, nth_error (steps dt first Vs s) i = Some s1 -> nth_error (steps dt first Vs s) (S i) = Some s2 -> ~ (tripped s1 /\ tripped s2)) ->
  forall s', In s' (steps dt first Vs s) -> lines_ok s' /\ forall a b, rest s' a b = rest s a b.
Proof.
  induction Vs as [| [V1 V2] Vs IH]; intros first s Inv Calm N0 N s' I; [destruct I |]. cbn [steps] in *.
  destruct (@line_step dt first V1 s Inv) as (A & _ & B); [apply Calm; now left | apply N0; reflexivity |]. destruct I as [<- | I]; [split; [apply A | exact B] |].
  destruct (IH false (second_solution dt V2 (relay_step dt first V1 s))) with (s' := s') as [C1 C2]; [now apply second_line | intros; apply Calm; now right | | | exact I |].
  - intros s1 E. exact (N 0%nat _ s1 eq_refl E).
  - intros i s1 s2 Ei. exact (N (S i) s1 s2 Ei).
  - split; [exact C1 |]. intros a b. rewrite C2. apply B.
Qed.

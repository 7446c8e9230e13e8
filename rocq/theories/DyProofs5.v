(** Proofs: buses, the network and the time steps. *)
From Coq Require Import Reals Lra.
From Coquelicot Require Import Complex.
From Verif Require Import Prelude CbModel CbSpec CbProofs DbModel DyModel DySpec DyProofs DyProofs2 DyProofs3 DyProofs4.
Open Scope R_scope.

(** ** The machines of a bus *)
Inductive gens_at (P : mach -> C -> option report -> Prop) : list slot -> list mach -> list C -> list (option report) -> Prop :=
| GA0 : gens_at P [] [] [] []
| GA1 s m J r sl ms Js rs : sl_on s = true -> P m J r -> gens_at P sl ms Js rs -> gens_at P (s :: sl) (m :: ms) (J :: Js) (r :: rs)
| GA2 s m sl ms Js rs : sl_on s = false -> gens_at P sl ms Js rs -> gens_at P (s :: sl) (m :: ms) (RtoC 0 :: Js) (None :: rs).
Lemma for_loop A B (f : A -> outcome B) skip sl l : length sl = length l -> for_gens f skip sl l = loop_on f skip sl l.
Proof. intros H. destruct l; [|reflexivity]. destruct sl; [reflexivity|discriminate]. Qed.
Lemma gens_len P sl ms Js rs : gens_at P sl ms Js rs -> length sl = length ms.
Proof. induction 1; cbn; auto. Qed.
Lemma for_gens_at (P P' : mach -> C -> option report -> Prop) f sl ms Js rs :
  (forall m J r, P m J r -> exists m', f m = Ok m' /\ P' m' J r) -> gens_at P sl ms Js rs ->
  exists ms', for_gens f (fun m => m) sl ms = Ok ms' /\ gens_at P' sl ms' Js rs.
Proof.
  intros F G. rewrite for_loop by (eapply gens_len, G). induction G as [|s m J r sl ms Js rs O H G IH|s m sl ms Js rs O G IH]; cbn [loop_on].
  - eexists. split; [reflexivity|constructor].
  - rewrite O. destruct (F m J r H) as (m' & -> & H'). cbn [obind]. destruct IH as (ms' & -> & G'). cbn [obind]. eexists. split; [reflexivity|]. now constructor.
  - rewrite O. cbn [obind]. destruct IH as (ms' & -> & G'). cbn [obind]. eexists. split; [reflexivity|]. now constructor.
Qed.
Lemma for_IN (P : mach -> C -> option report -> Prop) sl ms Js rs : (forall m J r, P m J r -> m_IN m = J) -> gens_at P sl ms Js rs -> for_gens (fun m => Ok (m_IN m)) (fun _ => RtoC 0) sl ms = Ok Js.
Proof.
  intros F G. rewrite for_loop by (eapply gens_len, G). induction G as [|s m J r sl ms Js rs O H G IH|s m sl ms Js rs O G IH]; cbn [loop_on].
  - reflexivity.
  - rewrite O. cbn [obind]. rewrite IH. cbn. now rewrite (F m J r H).
  - rewrite O. cbn [obind]. now rewrite IH.
Qed.

(** ** The start of a bus *)
Definition gen_ok (sb : R) (V : C) (g : gdata) : Prop :=
  0 <= gd_pg g /\
  match gd_model g with
  | None => gd_on g = true
  | Some None => False
  | Some (Some m) => if gd_on g then machine_ok sb (with_pq m sb (gd_pg g) (gd_qg g)) V else exists m0, m_load (with_pq m sb (gd_pg g) (gd_qg g)) = Ok m0
  end.
Definition gsum (l : list gdata) : C := fold_right (fun g s => if gd_on g then Cplus (gd_pg g, gd_qg g) s else s) (RtoC 0) l.
Definition nodyn (mag : R) (s : slot) : C := match sl_nodyn s with Some pq => neg_adm mag pq | None => RtoC 0 end.
Lemma div_add a b v : Cconj (Cdiv (Cplus a b) v) = Cplus (Cconj (Cdiv a v)) (Cconj (Cdiv b v)).
Proof. unfold Cdiv. rewrite Cmult_plus_distr_r. destruct (Cmult a (Cinv v)), (Cmult b (Cinv v)). unfold Cconj, Cplus. cbn. f_equal. ring. Qed.
Lemma div_0 v : Cconj (Cdiv (RtoC 0) v) = RtoC 0.
Proof. unfold Cdiv. rewrite Cmult_0_l. unfold Cconj, RtoC. cbn. f_equal. ring. Qed.
Lemma neg_adm_V mag ang pq : 0 < mag -> Cmult (neg_adm mag pq) (mag * cos ang, mag * sin ang) = Copp (Cconj (Cdiv pq (mag * cos ang, mag * sin ang))).
Proof.
  intros H. destruct pq as [P Q]. pose proof (stator_cur P Q ang H) as E. unfold stator_current in E. rewrite E. unfold g_cur, neg_adm, Cmult, Copp. cbn [fst snd]. f_equal; field; lra.
Qed.
Lemma load_adm_V mag ang P Q : 0 < mag -> Cmult (P / (mag * mag), - Q / (mag * mag)) (mag * cos ang, mag * sin ang) = Cconj (Cdiv (P, Q) (mag * cos ang, mag * sin ang)).
Proof.
  intros H. pose proof (stator_cur P Q ang H) as E. unfold stator_current in E. rewrite E. unfold g_cur, Cmult. cbn [fst snd]. f_equal; field; lra.
Qed.
Definition good (sb : R) (V : C) (l : list gdata) (gs : list mach) (rs : list (option report)) : Prop :=
  forall k g m, nth_error l k = Some g -> gd_on g = true -> gd_model g = Some (Some m) ->
  exists m0 r, nth_error gs k = Some m0 /\ nth_error rs k = Some (Some r) /\ report0 m0 = Some r /\ steady (with_pq m sb (gd_pg g) (gd_qg g)) V r.
Lemma good_cons sb V g l m r gs rs : (forall d, gd_on g = true -> gd_model g = Some (Some d) -> exists r', r = Some r' /\ report0 m = Some r' /\ steady (with_pq d sb (gd_pg g) (gd_qg g)) V r') ->
  good sb V l gs rs -> good sb V (g :: l) (m :: gs) (r :: rs).
Proof.
  intros H G [|k] g' d E O M; cbn in *; [|eapply G; eauto]. inversion E; subst g'. destruct (H d O M) as (r' & -> & A & B). exists m, r'. auto.
Qed.

Lemma power_adm_eq mag ang P Q : 0 < mag -> power_adm (P, Q) (mag * cos ang, mag * sin ang) = (P / (mag * mag), - Q / (mag * mag)).
Proof.
  intros H. unfold power_adm. assert (M : Cmod (mag * cos ang, mag * sin ang) = mag) by (apply Cmod_phasor; lra). rewrite M. unfold Cconj, Cdiv, Cmult, Cinv, RtoC. cbn [fst snd]. f_equal; field; lra.
Qed.
Lemma neg_adm_eq mag ang P Q : 0 < mag -> neg_adm mag (P, Q) = Copp (power_adm (P, Q) (mag * cos ang, mag * sin ang)).
Proof. intros H. rewrite power_adm_eq by exact H. unfold neg_adm, Copp. cbn [fst snd]. f_equal; field; lra. Qed.
Lemma m_adm sb d V m0 y : machine_ok sb d V -> m_load d = Ok m0 -> m_norton m0 = Ok y -> y = machine_adm d.
Proof.
  assert (GP : forall p, gpar_ok p -> rou_norton p = Cdiv (RtoC (g_base p / g_sb p)) (g_Ra p, g_Xdpp p)).
  { intros p (Hs & Hb & _ & _ & _ & _ & Hz & _). unfold rou_norton, g_G, g_B, Cdiv, Cmult, Cinv, RtoC. cbn [fst snd].
    replace (g_Ra p ^ 2 + g_Xdpp p ^ 2) with (g_Ra p * g_Ra p + g_Xdpp p * g_Xdpp p) by ring. f_equal; field; split; lra. }
  destruct d as [p|p ex gv|p ex gv]; cbn [machine_ok m_load machine_adm].
  - intros (_ & Hm & Hr & Hd & Ht & _) L. inversion L; subst m0. cbn [m_norton]. unfold cls_norton. destruct (Req_EM_T (c_dstr p) 0); [|contradiction]. intros N. inversion N. rewrite Hr.
    unfold Cdiv, Cmult, Cplus, Cinv, RtoC, Ci, cl_sbase. cbn [fst snd]. f_equal; field; lra.
  - intros (Hg & _) L. destruct (omap gov_load gv); try discriminate. cbn [obind] in L. destruct (omap exc_load ex); try discriminate. cbn [obind] in L. inversion L; subst m0. cbn [m_norton].
    intros N. inversion N. rewrite <- GP by exact Hg. destruct Hg as (Hs & Hb & _ & _ & _ & _ & Hz & _). now apply sal_norton_eq.
  - intros (Hg & _) L. destruct (omap gov_load gv); try discriminate. cbn [obind] in L. destruct (omap exc_load ex); try discriminate. cbn [obind] in L. inversion L; subst m0. cbn [m_norton].
    intros N. inversion N. now apply GP.
Qed.

Lemma gens_start sb mag ang l : 0 < mag -> let V := (mag * cos ang, mag * sin ang) in Forall (gen_ok sb V) l ->
  exists ms sl ys gs Js rs,
  (forall ms0 neg sl0, load_gens sb l (length ms0) ms0 neg sl0 = Ok (ms0 ++ ms, neg, sl0 ++ sl)) /\ length sl = length ms /\
  Forall (fun s => 0 <= sl_pg s) sl /\
  loop_on m_norton (fun _ => RtoC 0) sl ms = Ok ys /\ loop_on (m_init mag ang) MRAW sl ms = Ok gs /\
  gens_at (fun m J r => m_at PREDICTOR true m V J r) sl gs Js rs /\
  Cplus (Cmult (ctotal (map (nodyn mag) sl)) V) (Cmult (ctotal ys) V) = Cminus (ctotal Js) (Cconj (Cdiv (gsum l) V)) /\ good sb V l gs rs /\
  Cplus (ctotal (map (nodyn mag) sl)) (ctotal ys) = fold_right (fun g s => Cplus (gen_adm sb V g) s) (RtoC 0) l.
Proof.
  intros Hm V F. induction F as [|g l Hg F IH].
  - exists [], [], [], [], [], []. cbn. split; [intros; now rewrite !app_nil_r|]. split; [auto|]. split; [constructor|]. split; [auto|]. split; [auto|]. split; [constructor|].
    split; [|split; [intros [|k] g m E; discriminate|ring]]. rewrite div_0. ring.
  - destruct IH as (ms & sl & ys & gs & Js & rs & L & Len & Fp & Ey & Eg & GA & EQ & GG & ADM). destruct Hg as [Hp Hg].
    assert (GS : Cconj (Cdiv (gsum (g :: l)) V) = Cplus (if gd_on g then Cconj (Cdiv (gd_pg g, gd_qg g) V) else RtoC 0) (Cconj (Cdiv (gsum l) V))).
    { cbn [gsum fold_right]. fold (gsum l). destruct (gd_on g); [apply div_add|ring]. }
    destruct (gd_model g) as [[d|]|] eqn:Em; [|contradiction|].
    + destruct (gd_on g) eqn:On.
      * destruct (@m_start d sb (gd_pg g) (gd_qg g) mag ang Hm Hp Hg) as (m0 & y & m1 & r & A1 & A2 & A3 & A4 & A5 & A6). fold V in A4, A6.
        exists (m0 :: ms), (Slot true (gd_pg g) (gd_qg g) None :: sl), (y :: ys), (m1 :: gs), (Cplus (Cmult y V) (Cconj (Cdiv (gd_pg g, gd_qg g) V)) :: Js), (Some r :: rs).
        split. { intros ms0 neg sl0. cbn [load_gens]. destruct (Rle_dec 0 (gd_pg g)); [|contradiction]. rewrite Em, Nat.eqb_refl, A1, On. cbn [obind].
          replace (S (length ms0)) with (length (ms0 ++ [m0])) by (rewrite app_length; cbn; lia). rewrite L, <- !app_assoc. reflexivity. }
        split; [cbn; auto|]. split; [constructor; auto|]. split; [cbn [loop_on sl_on]; rewrite A2; cbn [obind]; now rewrite Ey|]. split; [cbn [loop_on sl_on]; rewrite A3; cbn [obind]; now rewrite Eg|].
        split; [apply GA1; auto|]. split; [|split; [apply good_cons; auto; intros d' _ Md; assert (d = d') by congruence; subst d'; eauto|]].
        2:{ cbn [map ctotal nodyn sl_nodyn fold_right]. rewrite <- ADM. unfold gen_adm. rewrite On, Em, <- (@m_adm sb _ V m0 y Hg A1 A2). ring. }
        rewrite GS. cbn [map ctotal nodyn sl_nodyn]. rewrite Cplus_0_l.
        transitivity (Cplus (Cmult y V) (Cplus (Cmult (ctotal (map (nodyn mag) sl)) V) (Cmult (ctotal ys) V))); [ring|]. rewrite EQ. ring.
      * destruct Hg as (m0 & A1).
        exists (m0 :: ms), (Slot false (gd_pg g) (gd_qg g) None :: sl), (RtoC 0 :: ys), (MRAW m0 :: gs), (RtoC 0 :: Js), (None :: rs).
        split. { intros ms0 neg sl0. cbn [load_gens]. destruct (Rle_dec 0 (gd_pg g)); [|contradiction]. rewrite Em, Nat.eqb_refl, A1, On. cbn [obind].
          replace (S (length ms0)) with (length (ms0 ++ [m0])) by (rewrite app_length; cbn; lia). rewrite L, <- !app_assoc. reflexivity. }
        split; [cbn; auto|]. split; [constructor; auto|]. split; [cbn [loop_on sl_on obind]; now rewrite Ey|]. split; [cbn [loop_on sl_on obind]; now rewrite Eg|].
        split; [apply GA2; auto|]. split; [|split; [apply good_cons; auto; congruence|]].
        2:{ cbn [map ctotal nodyn sl_nodyn fold_right]. rewrite <- ADM. unfold gen_adm. rewrite On. ring. }
        rewrite GS. cbn [map ctotal nodyn sl_nodyn]. rewrite !Cplus_0_l. exact EQ.
    + exists (LBASE :: ms), (Slot (gd_on g) (gd_pg g) (gd_qg g) (Some (gd_pg g, gd_qg g)) :: sl), (RtoC 0 :: ys), (MBASE :: gs), (RtoC 0 :: Js), (None :: rs).
      split. { intros ms0 neg sl0. cbn [load_gens]. destruct (Rle_dec 0 (gd_pg g)); [|contradiction]. rewrite Em. cbn [obind].
          replace (S (length ms0)) with (length (ms0 ++ [LBASE])) by (rewrite app_length; cbn; lia). rewrite L, <- !app_assoc. reflexivity. }
      split; [cbn; auto|]. split; [constructor; auto|]. rewrite Hg in *. split; [cbn [loop_on sl_on m_norton obind]; now rewrite Ey|]. split; [cbn [loop_on sl_on m_init obind]; now rewrite Eg|].
      split; [apply GA1; cbn; auto|]. split; [|split; [apply good_cons; auto; congruence|]].
      2:{ cbn [map ctotal nodyn sl_nodyn fold_right]. rewrite <- ADM. unfold gen_adm. rewrite Hg, Em, (@neg_adm_eq mag ang) by exact Hm. fold V. ring. }
      rewrite GS. cbn [map ctotal nodyn sl_nodyn]. rewrite Cmult_plus_distr_r. unfold V at 1. rewrite neg_adm_V by exact Hm. fold V. rewrite !Cplus_0_l.
      transitivity (Cplus (Copp (Cconj (Cdiv (gd_pg g, gd_qg g) V))) (Cplus (Cmult (ctotal (map (nodyn mag) sl)) V) (Cmult (ctotal ys) V))); [ring|]. rewrite EQ. ring.
Qed.
Lemma no_neg mag sl : Forall (fun s => 0 <= sl_pg s) sl ->
  ctotal (map (fun s => if sl_on s then if Rlt_dec (sl_pg s) 0 then neg_adm mag (sl_pg s, sl_qg s) else RtoC 0 else RtoC 0) sl) = RtoC 0.
Proof. induction 1 as [|s sl H F IH]; [reflexivity|]. cbn [map ctotal]. rewrite IH. destruct (sl_on s); [|ring]. destruct (Rlt_dec _ _); [lra|ring]. Qed.
Lemma loads_eq sb d : (forall x, In x (bd_loads d) -> ld_ip x = 0 /\ ld_iq x = 0 /\ ld_yp x = 0 /\ ld_yq x = 0) ->
  load_power sb d = (sum_pl (bd_loads d) / sb, sum_ql (bd_loads d) / sb).
Proof.
  unfold load_power. induction (bd_loads d) as [|x l IH]; intros H; cbn [fold_right sum_pl sum_ql].
  - unfold RtoC. f_equal; unfold Rdiv; ring.
  - destruct (H x (or_introl eq_refl)) as (-> & -> & -> & ->). rewrite IH by (intros; apply H; now right). destruct (ld_on x); [|now rewrite !Rplus_0_l].
    unfold Cplus. cbn [fst snd]. f_equal; unfold Rdiv; ring.
Qed.

Definition bus_at (X : mach -> C -> option report -> Prop) (st : stage) (f : bool) (b : bus) (V J : C) (rs : list (option report)) : Prop :=
  exists Js, gens_at (fun m j r => m_at st f m V j r /\ X m j r) (u_slots b) (u_gens b) Js rs /\ J = ctotal Js.
Definition X0 (m : mach) (J : C) (r : option report) : Prop := True.
Definition XI (m : mach) (J : C) (r : option report) : Prop := m_IN m = J.
Definition XR (m : mach) (J : C) (r : option report) : Prop := report1 m = r.
Lemma gens_imp (P P' : mach -> C -> option report -> Prop) sl ms Js rs : (forall m J r, P m J r -> P' m J r) -> gens_at P sl ms Js rs -> gens_at P' sl ms Js rs.
Proof. intros H. induction 1; [apply GA0|apply GA1|apply GA2]; auto. Qed.
Theorem bus_start sb y d : bus_ok sb d -> let V := phasor d in
  exists y' b J rs, bus_setup sb y d = Ok (y', b) /\ bus_at X0 PREDICTOR true b V J rs /\
  Cmult y' V = Cplus (Cmult y V) (Cminus J (Cconj (Cdiv (Cminus (gen_power d) (load_power sb d)) V))) /\ good sb V (bd_gens d) (u_gens b) rs /\ y' = Cplus y (bus_adm sb d).
Proof.
  intros (Hm & Hl & Hg) V. set (ang := bd_deg d * PI / 180).
  destruct (@gens_start sb (bd_mag d) ang (bd_gens d) Hm) as (ms & sl & ys & gs & Js & rs & L & Len & Fp & Ey & Eg & GA & EQ & GG & ADM).
  { apply Forall_forall. intros g Ig. exact (Hg g Ig). }
  exists (Cplus (Cplus (Cplus y (sum_pl (bd_loads d) / sb / (bd_mag d * bd_mag d), - (sum_ql (bd_loads d) / sb) / (bd_mag d * bd_mag d))) (pg_adm (bd_mag d) sl [])) (ctotal ys)),
    (Bus sl gs), (ctotal Js), rs.
  split; [|split; [|split; [|split]]].
  - unfold bus_setup. specialize (L [] [] []). cbn [app length] in L. rewrite L. cbn [obind]. rewrite !for_loop by exact Len. fold ang. rewrite Ey. cbn [obind]. rewrite Eg. reflexivity.
  - exists Js. split; [|reflexivity]. eapply gens_imp, GA. cbn. unfold X0. auto.
  - unfold pg_adm. rewrite (no_neg _ Fp). cbn [map ctotal]. rewrite !Cplus_0_l. fold (nodyn (bd_mag d)). rewrite (loads_eq _ _ Hl).
    assert (EL := @load_adm_V (bd_mag d) ang (sum_pl (bd_loads d) / sb) (sum_ql (bd_loads d) / sb) Hm). change (bd_mag d * cos ang, bd_mag d * sin ang) with V in *.
    set (la := (sum_pl (bd_loads d) / sb / (bd_mag d * bd_mag d), - (sum_ql (bd_loads d) / sb) / (bd_mag d * bd_mag d)) : C) in *.
    set (S := (sum_pl (bd_loads d) / sb, sum_ql (bd_loads d) / sb) : C) in *. change (gen_power d) with (gsum (bd_gens d)).
    transitivity (Cplus (Cplus (Cmult y V) (Cmult la V)) (Cplus (Cmult (ctotal (map (nodyn (bd_mag d)) sl)) V) (Cmult (ctotal ys) V))); [unfold nodyn; ring|].
    rewrite EQ, EL. unfold Cminus at 3. rewrite div_add. 
    assert (EO : Cconj (Cdiv (Copp S) V) = Copp (Cconj (Cdiv S V))). { unfold Cdiv. replace (Cmult (Copp S) (Cinv V)) with (Copp (Cmult S (Cinv V))) by ring. reflexivity. }
    rewrite EO. ring.
  - exact GG.
  - unfold pg_adm. rewrite (no_neg _ Fp). cbn [map ctotal]. rewrite !Cplus_0_l. fold (nodyn (bd_mag d)). unfold bus_adm. rewrite (loads_eq _ _ Hl).
    change (phasor d) with (bd_mag d * cos ang, bd_mag d * sin ang). rewrite power_adm_eq by exact Hm. rewrite <- ADM. unfold nodyn. ring.
Qed.

(** ** One step *)
Definition tgt := (C * C * list (option report))%type.
Definition tV (t : tgt) : C := fst (fst t).
Definition tJ (t : tgt) : C := snd (fst t).
Definition net_at X st f (bs : list bus) (ts : list tgt) : Prop := Forall2 (fun b t => bus_at X st f b (tV t) (tJ t) (snd t)) bs ts.
Lemma omapl_at A B (f : A -> outcome B) T (Q : A -> T -> Prop) (Q' : B -> T -> Prop) l ts :
  (forall a t, Q a t -> exists b, f a = Ok b /\ Q' b t) -> Forall2 Q l ts -> exists l', omapl f l = Ok l' /\ Forall2 Q' l' ts.
Proof.
  intros H. induction 1 as [|a t l ts q F IH]; cbn.
  - eexists. split; [reflexivity|constructor].
  - destruct (H a t q) as (b & -> & q'). cbn. destruct IH as (l' & -> & F'). cbn. eexists. split; [reflexivity|]. now constructor.
Qed.
Lemma bus_for_at (X X' : mach -> C -> option report -> Prop) st st' f f' (g : mach -> outcome mach) b V J rs :
  (forall m j r, m_at st f m V j r -> X m j r -> exists m', g m = Ok m' /\ m_at st' f' m' V j r /\ X' m' j r) -> bus_at X st f b V J rs ->
  exists b', bus_for g b = Ok b' /\ bus_at X' st' f' b' V J rs.
Proof.
  intros H (Js & G & E). unfold bus_for. destruct (fun F => @for_gens_at _ (fun m j r => m_at st' f' m V j r /\ X' m j r) g _ _ _ _ F G) as (ms' & -> & G').
  - cbn. intros m j r [A B]. apply H; auto.
  - cbn. eexists. split; [reflexivity|]. exists Js. auto.
Qed.
Lemma bus_IN_at st f b V J rs : bus_at XI st f b V J rs -> bus_IN b = Ok J.
Proof. intros (Js & G & ->). unfold bus_IN. rewrite (@for_IN _ _ _ _ _ (fun m J r (H : m_at st f m V J r /\ XI m J r) => proj2 H) G). reflexivity. Qed.
Lemma net_IN st f bs ts : net_at XI st f bs ts -> omapl bus_IN bs = Ok (map tJ ts).
Proof. induction 1 as [|b t bs ts H F IH]; [reflexivity|]. cbn. rewrite (bus_IN_at H). cbn. now rewrite IH. Qed.
Lemma set_volts_at X st f bs ts : net_at X st f bs ts -> exists bs', set_volts bs (map tV ts) = Ok bs' /\ net_at X0 st f bs' ts.
Proof.
  induction 1 as [|b t bs ts H F IH]; cbn.
  - eexists. split; [reflexivity|constructor].
  - destruct (@bus_for_at X X0 st st f f (m_setV (tV t)) b (tV t) (tJ t) (snd t)) as (b' & -> & B'); [|exact H|].
    + intros m j r A _. destruct (@m_setV_at _ _ _ _ _ _ A) as (m' & E & A'). exists m'. unfold X0. auto.
    + cbn. destruct IH as (bs' & -> & F'). cbn. eexists. split; [reflexivity|]. now constructor.
Qed.
Section Run.
  Variables (solve : list C -> list C) (ts : list tgt).
  Hypothesis Hsolve : solve (map tJ ts) = map tV ts.
  Lemma solve_net_at st f bs : net_at XI st f bs ts -> exists bs', solve_net solve bs = Ok (bs', map tV ts) /\ net_at X0 st f bs' ts.
  Proof. intros H. unfold solve_net. rewrite (net_IN H). cbn [obind]. rewrite Hsolve. destruct (set_volts_at H) as (bs' & -> & B). cbn. eauto. Qed.
  Lemma one_step_at X dt f bs : net_at X PREDICTOR f bs ts -> exists bs', one_step solve dt f bs = Ok (bs', [map tV ts; map tV ts]) /\ net_at XR PREDICTOR false bs' ts.
  Proof.
    intros H. unfold one_step.
    destruct (fun F => @omapl_at _ _ (bus_for (m_pcur f)) _ _ (fun b t => bus_at XI PREDICTOR f b (tV t) (tJ t) (snd t)) _ _ F H) as (b1 & -> & B1).
    { intros b t B. eapply bus_for_at, B. intros m j r A _. destruct (@m_pcur_at _ _ _ _ _ A) as (m' & E & A' & I). exists m'. auto. }
    cbn [obind]. destruct (@solve_net_at PREDICTOR f b1 B1) as (b2 & -> & B2). cbn [obind].
    destruct (fun F => @omapl_at _ _ (bus_for (m_pred dt f)) _ _ (fun b t => bus_at X0 CORRECTOR f b (tV t) (tJ t) (snd t)) _ _ F B2) as (b3 & -> & B3).
    { intros b t B. eapply bus_for_at, B. intros m j r A _. destruct (@m_pred_at _ _ _ _ _ dt A) as (m' & E & A'). exists m'. unfold X0. auto. }
    cbn [obind].
    destruct (fun F => @omapl_at _ _ (bus_for m_ccur) _ _ (fun b t => bus_at XI CORRECTOR f b (tV t) (tJ t) (snd t)) _ _ F B3) as (b4 & -> & B4).
    { intros b t B. eapply bus_for_at, B. intros m j r A _. destruct (@m_ccur_at _ _ _ _ _ A) as (m' & E & A' & I). exists m'. auto. }
    cbn [obind]. destruct (@solve_net_at CORRECTOR f b4 B4) as (b5 & -> & B5). cbn [obind].
    destruct (fun F => @omapl_at _ _ (bus_for (m_corr dt)) _ _ (fun b t => bus_at XR PREDICTOR false b (tV t) (tJ t) (snd t)) _ _ F B5) as (b6 & -> & B6).
    { intros b t B. eapply bus_for_at, B. intros m j r A _. destruct (@m_corr_at _ _ _ _ _ dt A) as (m' & E & A' & I). exists m'. auto. }
    cbn [obind]. eauto.
  Qed.
  Lemma steps_at dts : forall X dt f bs, net_at X PREDICTOR f bs ts ->
    exists bs', steps solve f (dt :: dts) bs = Ok (bs', repeat (map tV ts) (2 * length (dt :: dts))) /\ net_at XR PREDICTOR false bs' ts.
  Proof.
    induction dts as [|dt' dts IH]; intros X dt f bs H.
    - cbn [steps]. destruct (one_step_at dt H) as (bs' & -> & B). cbn. eauto.
    - remember (dt' :: dts) as l. cbn [steps]. destruct (one_step_at dt H) as (bs' & -> & B). cbn [obind]. subst l. destruct (IH XR dt' false bs' B) as (bs'' & -> & B'). cbn [obind].
      exists bs''. split; [|exact B']. do 2 f_equal. cbn [length]. rewrite !Nat.mul_succ_r. rewrite !Nat.add_comm with (m := 2%nat). reflexivity.
  Qed.
End Run.

(** ** The network equations *)
Lemma csum_ext n f g : (forall j, (j < n)%nat -> f j = g j) -> csum n f = csum n g.
Proof. induction n as [|n IH]; intros H; cbn; [reflexivity|]. rewrite IH by (intros; apply H; lia). now rewrite (H n) by lia. Qed.
Lemma csum_minus n f g : csum n (fun j => Cminus (f j) (g j)) = Cminus (csum n f) (csum n g).
Proof. induction n as [|n IH]; cbn; [ring|]. rewrite IH. ring. Qed.
Lemma csum_change n i f x : (i < n)%nat -> csum n (fun j => if Nat.eqb i j then x else f j) = Cplus (csum n f) (Cminus x (f i)).
Proof.
  induction n as [|n IH]; intros H; [lia|]. cbn. destruct (Nat.eq_dec i n) as [->|N].
  - rewrite Nat.eqb_refl. rewrite (@csum_ext n _ f); [ring|]. intros j Hj. destruct (Nat.eqb_spec n j); [lia|reflexivity].
  - rewrite IH by lia. destruct (Nat.eqb_spec i n); [contradiction|]. ring.
Qed.
Lemma solve_unique n A solve b x : linear_solver n A solve -> regular n A -> length b = n -> solves n A b x -> solve b = x.
Proof.
  intros L Rg Lb (Lx & Sx). destruct (L b Lb) as (Ly & Sy).
  set (z := map (fun j => Cminus (nth j (solve b) (RtoC 0)) (nth j x (RtoC 0))) (seq 0 n)).
  assert (Nz : forall j, (j < n)%nat -> nth j z (RtoC 0) = Cminus (nth j (solve b) (RtoC 0)) (nth j x (RtoC 0))).
  { intros j Hj. unfold z. rewrite nth_indep with (d' := (fun j => Cminus (nth j (solve b) (RtoC 0)) (nth j x (RtoC 0))) 0%nat) by (rewrite map_length, seq_length; exact Hj).
    rewrite map_nth with (f := fun j => Cminus (nth j (solve b) (RtoC 0)) (nth j x (RtoC 0))). now rewrite seq_nth. }
  assert (Z : forall i, (i < n)%nat -> nth i z (RtoC 0) = RtoC 0).
  { apply Rg; [unfold z; now rewrite map_length, seq_length|]. intros i Hi.
    rewrite (@csum_ext n _ (fun j => Cminus (Cmult (A i j) (nth j (solve b) (RtoC 0))) (Cmult (A i j) (nth j x (RtoC 0))))) by (intros j Hj; rewrite Nz by exact Hj; ring).
    rewrite csum_minus, (Sx i Hi), (Sy i Hi). ring. }
  apply nth_ext with (d := RtoC 0) (d' := RtoC 0); [congruence|]. rewrite Ly. intros j Hj. specialize (Z j Hj). rewrite Nz in Z by exact Hj.
  transitivity (Cplus (Cminus (nth j (solve b) (RtoC 0)) (nth j x (RtoC 0))) (nth j x (RtoC 0))); [ring|]. rewrite Z. ring.
Qed.

Lemma setup_at sb xs : (forall y d, In (y, d) xs -> bus_ok sb d) -> exists ybs ts, setup sb xs = Ok ybs /\ net_at X0 PREDICTOR true (map snd ybs) ts /\ map tV ts = map (fun x => phasor (snd x)) xs /\
  length ybs = length xs /\
  forall i y d, nth_error xs i = Some (y, d) -> exists y' b t, nth_error ybs i = Some (y', b) /\ nth_error ts i = Some t /\
    Cmult y' (phasor d) = Cplus (Cmult y (phasor d)) (Cminus (tJ t) (Cconj (Cdiv (Cminus (gen_power d) (load_power sb d)) (phasor d)))) /\ good sb (phasor d) (bd_gens d) (u_gens b) (snd t) /\ y' = Cplus y (bus_adm sb d).
Proof.
  unfold setup. induction xs as [|[y d] xs IH]; intros H.
  - exists [], []. cbn. split; [auto|]. split; [constructor|]. split; [auto|]. split; [auto|]. intros [|i]; discriminate.
  - destruct IH as (ybs & ts & E & N & V & L & G); [intros; eapply H; right; eauto|]. cbn [omapl fst snd].
    destruct (@bus_start sb y d (H y d (or_introl eq_refl))) as (y' & b & J & rs & -> & B & Q & GG & AA). cbn [obind]. rewrite E. cbn [obind].
    exists ((y', b) :: ybs), ((phasor d, J, rs) :: ts). split; [reflexivity|]. split; [constructor; [exact B|exact N]|]. split; [cbn; now rewrite V|]. split; [cbn; auto|].
    intros [|i] y0 d0 Hi; cbn in *; [|now apply G]. inversion Hi; subst. do 3 eexists. split; [reflexivity|]. split; [reflexivity|]. cbn. auto.
Qed.

Theorem undisturbed sb Y xs :
  (forall i y d, nth_error xs i = Some (y, d) -> y = Y i i /\ bus_ok sb d) -> power_flow sb Y (map snd xs) ->
  exists ybs, setup sb xs = Ok ybs /\
  (forall i y d, nth_error xs i = Some (y, d) -> exists b, nth_error ybs i = Some ((y + bus_adm sb d)%C, b)) /\
  forall solve, linear_solver (length xs) (system Y ybs) solve -> regular (length xs) (system Y ybs) ->
  forall dt dts, exists bs', steps solve true (dt :: dts) (map snd ybs) = Ok (bs', repeat (map phasor (map snd xs)) (2 * length (dt :: dts))) /\
  forall i y d, nth_error xs i = Some (y, d) -> exists y' b b', nth_error ybs i = Some (y', b) /\ nth_error bs' i = Some b' /\ DySpec.at_rest sb d b b'.
Proof.
  intros H PF. destruct (@setup_at sb xs) as (ybs & ts & E & N & EV & L & G).
  { intros y d I. apply In_nth_error in I. destruct I as (i & I). now apply (H i y d). }
  exists ybs. split; [exact E|]. split; [intros i y d Ei; destruct (G i y d Ei) as (y' & b & t & Ey & _ & _ & _ & ->); eauto|]. intros solve LS RG dt dts.
  assert (LT : length ts = length xs) by (rewrite <- (map_length tV ts), EV; apply map_length).
  assert (SV : solve (map tJ ts) = map tV ts).
  { eapply solve_unique; [exact LS|exact RG|rewrite map_length; exact LT|]. split; [rewrite map_length; exact LT|]. intros i Hi.
    destruct (nth_error xs i) as [[y d]|] eqn:Ei; [|apply nth_error_None in Ei; lia].
    destruct (G i y d Ei) as (y' & b & t & Ey & Et & Q & _ & _). destruct (H i y d Ei) as [Hy Hb].
    assert (NV : nth i (map tV ts) (RtoC 0) = phasor d). { rewrite EV. apply nth_error_nth. rewrite nth_error_map, Ei. reflexivity. }
    assert (NJ : nth i (map tJ ts) (RtoC 0) = tJ t). { apply nth_error_nth. rewrite nth_error_map, Et. reflexivity. }
    rewrite NJ. 
    rewrite (@csum_ext _ _ (fun j => if Nat.eqb i j then Cmult y' (phasor d) else Cmult (Y i j) (nth j (map tV ts) (RtoC 0)))).
    2:{ intros j Hj. unfold system. destruct (Nat.eqb_spec i j) as [<-|]; [rewrite Ey, NV; reflexivity|reflexivity]. }
    rewrite csum_change by exact Hi. rewrite NV, <- Hy, Q.
    specialize (PF i d). rewrite nth_error_map, Ei in PF. specialize (PF eq_refl). rewrite map_length, map_map, <- EV in PF.
    set (T := csum (length xs) (fun j => Cmult (Y i j) (nth j (map tV ts) (RtoC 0)))) in *.
    assert (VZ : phasor d <> RtoC 0). { intros Z. assert (M : Cmod (phasor d) = bd_mag d) by (apply Cmod_phasor; destruct Hb; lra). rewrite Z, Cmod_0 in M. destruct Hb. lra. }
    rewrite <- PF. replace (Cdiv (Cmult (phasor d) (Cconj T)) (phasor d)) with (Cconj T) by (field; exact VZ). rewrite Cconj_conj. ring. }
  destruct (@steps_at solve ts SV dts X0 dt true (map snd ybs) N) as (bs' & Es & B).
  exists bs'. split; [rewrite Es, EV, map_map; reflexivity|]. intros i y d Ei. destruct (G i y d Ei) as (y' & b & t & Ey & Et & _ & GG & _).
  assert (Bi : exists b', nth_error bs' i = Some b' /\ bus_at XR PREDICTOR false b' (tV t) (tJ t) (snd t)).
  { revert i Et Ei Ey. clear - B. unfold net_at in B. induction B as [|b0 t0 l l' HH F IH]; intros [|i] Et Ei Ey; try discriminate; cbn in *.
    - inversion Et; subst. eauto.
    - clear Ei Ey. revert Et. clear - F. revert i. induction F as [|b1 t1 l l' H1 F IH]; intros [|i] Et; try discriminate; cbn in *; [inversion Et; subst; eauto|now apply IH]. }
  destruct Bi as (b' & Eb & Js & GA & _). exists y', b, b'. split; [exact Ey|]. split; [exact Eb|].
  intros k g m Eg On Md. destruct (GG k g m Eg On Md) as (m0 & r & A1 & A2 & A3 & A4). 
  assert (M1 : exists m1, nth_error (u_gens b') k = Some m1 /\ report1 m1 = Some r).
  { revert A2. clear - GA. revert k. induction GA as [|s m J r0 sl ms Js rs O [_ P] G IH|s m sl ms Js rs O G IH]; intros [|k] A2; try discriminate; cbn in *; auto.
    - inversion A2; subst. exists m. split; [reflexivity|exact P]. }
  destruct M1 as (m1 & E1 & E2). exists m0, m1, r. auto 10.
Qed.

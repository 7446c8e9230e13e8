(** C66: components and their neighbours. *)
From Verif Require Import Prelude GAModel ParModel NetModel NetSpec ClnModel CmpModel CmpSpec CmpProofs CmpProofs2.

(** C66: setting up the components of a network succeeds, and afterwards every bus knows its number, its branches and the buses at
    their other ends, in the order of the network; every branch knows the buses at its ends and their numbers; the reference bus knows
    that it is one.  Nothing that the components held before matters, except whether they were said to be the reference bus. *)
Theorem C66_set_components : forall n mv s0, ready n -> length mv = length (n_buses n) ->
  exists s, set_comps (make_factory n) n mv s0 = Ok s /\ wired n mv s0 s.
Proof. intros. now apply set_comps_ok. Qed.
Print Assumptions C66_set_components.

(** What [wired] says determines every component of the network. *)
Theorem C66_determined : forall n mv s0 s0' s s', (forall b, In b (n_buses n) -> cb_ref (sb s0 (b_obj b)) = cb_ref (sb s0' (b_obj b))) ->
  wired n mv s0 s -> wired n mv s0' s' ->
  (forall b, In b (n_buses n) -> sb s (b_obj b) = sb s' (b_obj b)) /\ (forall r, In r (n_branches n) -> sr s (r_obj r) = sr s' (r_obj r)).
Proof. intros. eapply wired_fun; eassumption. Qed.
Print Assumptions C66_determined.

(** Setting up again changes nothing. *)
Theorem C66_again : forall n mv s0 s1, ready n -> length mv = length (n_buses n) -> set_comps (make_factory n) n mv s0 = Ok s1 ->
  exists s2, set_comps (make_factory n) n mv s1 = Ok s2 /\
    (forall b, In b (n_buses n) -> sb s2 (b_obj b) = sb s1 (b_obj b)) /\ (forall r, In r (n_branches n) -> sr s2 (r_obj r) = sr s1 (r_obj r)).
Proof.
  intros n mv s0 s1 RD L E. destruct (@set_comps_ok n mv RD L s0) as (s1' & E' & W). rewrite E in E'. injection E' as <-.
  destruct (@set_comps_ok n mv RD L s1) as (s2 & E2 & W2). exists s2. split; [exact E2|].
  apply (@wired_fun n mv s0 s0 s2 s1 (fun b _ => eq_refl)); [|exact W]. destruct W as [W1 _]. destruct W2 as [W2 W3]. split; [|exact W3].
  intros i b Hb. destruct (W2 i b Hb) as [A1 A2 A3 A4 A5 A6]. constructor; auto. rewrite A6, (bk_ref (W1 i b Hb)). now destruct (n_ref n =? Z.of_nat i)%Z.
Qed.
Print Assumptions C66_again.

(** After the network was linked (as partitioning does last), setting up succeeds, and the branches a bus knows are exactly those of
    the network that end at it. *)
Theorem C66_after_setup : forall (n : cnet) mv s0, self_contained n -> NoDup (map (@b_obj nat) (n_buses n)) -> NoDup (map (@r_obj nat) (n_branches n)) ->
  n_ref n = (-1)%Z \/ (0 <= n_ref n < Z.of_nat (length (n_buses n)))%Z -> length mv = length (n_buses n) ->
  exists n' s, setup n = Ok n' /\ set_comps (make_factory n') n' mv s0 = Ok s /\ wired n' mv s0 s /\
    forall i b, nth_error (n_buses n') i = Some b ->
      Forall2 (fun j p => exists r, nth_error (n_branches n') j = Some r /\ r_obj r = p) (incident (n_branches n) (b_glob b)) (cb_branches (sb s (b_obj b))).
Proof.
  intros n mv s0 SC NB NR RF L. destruct (setup_ready SC NB NR RF) as (n' & E & RD & OB & OR & HN).
  assert (L' : length mv = length (n_buses n')) by (rewrite L, <- (map_length (@b_obj nat)), <- OB, map_length; reflexivity).
  destruct (@set_comps_ok n' mv RD L' s0) as (s & Es & W). exists n', s. split; [exact E|]. split; [exact Es|]. split; [exact W|].
  intros i b Hb. rewrite <- (HN i b Hb). exact (bk_branches (proj1 W i b Hb)).
Qed.
Print Assumptions C66_after_setup.

(** A network with a branch whose ends are not known (one that was not partitioned) is refused. *)
Theorem C66_unlinked_throws : forall (n : cnet) mv s r, In r (n_branches n) ->
  (~ (0 <= r_l1 r < Z.of_nat (length (n_buses n)))%Z \/ ~ (0 <= r_l2 r < Z.of_nat (length (n_buses n)))%Z) -> set_comps (make_factory n) n mv s = Throw.
Proof. intros. eapply no_end_throws; eassumption. Qed.
Print Assumptions C66_unlinked_throws.

(** Loading the components makes the last bus that says so the reference bus; if none does, the reference bus stays as it was. *)
Theorem C66_load : forall flags (bs : list (bus nat)) ref,
  (load_ref flags bs 0 ref = ref /\ forall b, In b bs -> flags (b_obj b) = false) \/
  (exists i b, nth_error bs i = Some b /\ flags (b_obj b) = true /\ load_ref flags bs 0 ref = Z.of_nat i /\
     forall j b', i < j -> nth_error bs j = Some b' -> flags (b_obj b') = false).
Proof. intros. apply (load_ref_ok flags bs 0 ref). Qed.
Print Assumptions C66_load.

(** Saving writes the state of every component into the data of its own bus. *)
Theorem C66_save : forall (alive : nat -> bool) (n : cnet), (forall b, In b (n_buses n) -> alive (b_obj b) = true) ->
  save_data (make_factory n) alive n = Ok (map (fun b => (b_obj b, b_obj b)) (n_buses n)).
Proof. intros. now apply save_ok. Qed.
Print Assumptions C66_save.

(** A bus that was the reference bus stays marked as one: when the reference bus of the network is changed and the components are set
    up again, both buses say that they are the reference bus (base_factory.hpp:122-126 only ever sets the mark). *)
Theorem C66_old_reference_stays_refuted : forall (n : cnet) ref mv s0 s1 i b i' b',
  ready n -> length mv = length (n_buses n) -> n_ref n = Z.of_nat i -> nth_error (n_buses n) i = Some b ->
  ref = Z.of_nat i' -> nth_error (n_buses n) i' = Some b' -> set_comps (make_factory n) n mv s0 = Ok s1 ->
  let n' := Net (n_buses n) (n_branches n) ref (n_busmap n) (n_branchmap n) in
  exists s2, set_comps (make_factory n') n' mv s1 = Ok s2 /\ cb_ref (sb s2 (b_obj b)) = true /\ cb_ref (sb s2 (b_obj b')) = true.
Proof.
  intros n ref mv s0 s1 i b i' b' RD L Hr Hb Hr' Hb' E n'. destruct (@set_comps_ok n mv RD L s0) as (s1' & E' & W). rewrite E in E'. injection E' as <-.
  assert (RD' : ready n').
  { destruct RD as [R1 R2 R3 R4 R5]. constructor; auto. right. cbn. rewrite Hr'. assert (i' < length (n_buses n)) by (apply nth_error_Some; congruence). lia. }
  destruct (@set_comps_ok n' mv RD' L s1) as (s2 & E2 & W2). exists s2. split; [exact E2|]. split.
  - rewrite (bk_ref (proj1 W2 i b Hb)), (bk_ref (proj1 W i b Hb)), Hr, Z.eqb_refl. apply orb_true_r.
  - rewrite (bk_ref (proj1 W2 i' b' Hb')). cbn. now rewrite Hr', Z.eqb_refl.
Qed.

(** A factory remembers how many buses the network had when it was made: setting up the components of buses added since then neither
    happens nor raises an exception. *)
Theorem C66_stale_factory_refuted :
  let n := Net [Bus true 10 0 [] 0 false] [] (-1) [] [] : cnet in
  let n' := Net [Bus true 10 0 [0] 0 false; Bus true 20 1 [0] 1 false] [Branch true 0 10 20 0 1 0 1 7] (-1) [] [] : cnet in
  ready n' /\ exists s, set_comps (make_factory n) n' [5; 6]%Z all_new = Ok s /\ sb s 1 = new_cbus /\ sr s 7 = new_cbranch /\ cb_branches (sb s 0) = [7].
Proof.
  cbv zeta. split.
  2:{ match goal with |- exists s, ?e = Ok s /\ _ => assert (X : match e with Ok s => sb s 1 = new_cbus /\ sr s 7 = new_cbranch /\ cb_branches (sb s 0) = [7] | _ => False end)
        by (vm_compute; auto); destruct e as [s| |]; [exists s; auto|destruct X|destruct X] end. }
  constructor; cbn; [repeat constructor; cbn; lia|repeat constructor; cbn; lia|intros r [<-|[]]; cbn; lia| |auto].
  intros b j [<-|[<-|[]]]; cbn; lia.
Qed.

(** Saving with a factory that was made before the ghosts were removed calls components that no longer exist (the factory keeps plain
    pointers, base_factory.hpp:49-58). *)
Theorem C66_save_after_clean_refuted :
  let n := Net [Bus true 10 0 [] 0 false; Bus false 20 1 [] 1 false] [] (-1) [] [] : cnet in
  let alive c := existsb (fun b => b_obj b =? c) (n_buses (clean n)) in
  save_data (make_factory n) alive (clean n) = UB.
Proof. vm_compute. reflexivity. Qed.

(** Not vacuous: three buses in a row and a second line between the first two. *)
Definition row : cnet :=
  Net [Bus true 10 0 [] 4 false; Bus true 20 1 [] 5 false; Bus false 30 2 [] 6 false]
      [Branch true 0 10 20 0 1 0 0 7; Branch false 1 30 20 2 1 0 0 8; Branch true 2 20 10 1 0 0 0 9] 1 [] [].
Example C66_nonvacuous : self_contained row /\ exists n', setup row = Ok n' /\ ready n' /\
  exists s, set_comps (make_factory n') n' [100; 101; 102]%Z all_new = Ok s /\ cb_buses (sb s 5) = [4; 6; 4] /\ cb_branches (sb s 5) = [7; 8; 9] /\
    cr_b1 (sr s 8) = Some 6 /\ cr_o1 (sr s 8) = 30%Z /\ cr_mv2 (sr s 8) = 101%Z /\ cb_ref (sb s 5) = true /\ cb_ref (sb s 4) = false.
Proof.
  assert (SC : self_contained row). { split; [repeat constructor; cbn; lia|]. repeat constructor; cbn; lia. }
  split; [exact SC|]. destruct (@setup_ready row SC) as (n' & E & RD & _); [repeat constructor; cbn; lia|repeat constructor; cbn; lia|right; cbn; lia|].
  exists n'. split; [exact E|]. split; [exact RD|]. clear RD. vm_compute in E. injection E as <-.
  match goal with |- exists s, ?e = Ok s /\ @?P s => assert (X : match e with Ok s => P s | _ => False end) by (vm_compute; repeat split); destruct e as [s| |]; [exists s; auto|destruct X|destruct X] end.
Qed.
Example C66_unlinked_nonvacuous : set_comps (make_factory (Net [Bus true 10 0 [] 0 false] [Branch true 0 10 10 0 0 (-1) (-1) 1] (-1) [] [] : cnet))
  (Net [Bus true 10 0 [] 0 false] [Branch true 0 10 10 0 0 (-1) (-1) 1] (-1) [] []) [0%Z] all_new = Throw.
Proof. reflexivity. Qed.

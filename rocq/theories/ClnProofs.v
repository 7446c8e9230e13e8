(** Proofs about copying a network. *)
From Verif Require Import Prelude GAModel ParModel NetModel ClnModel ClnSpec.

Lemma zget_of_nat {A} (l : list A) k : zget l (Z.of_nat k) = nth_error l k.
Proof. unfold zget. destruct (Z.ltb_spec (Z.of_nat k) 0); [lia|]. now rewrite Nat2Z.id. Qed.
Lemma nth_last {A} (l : list A) x : nth_error (l ++ [x]) (length l) = Some x.
Proof. rewrite nth_error_app2 by lia. now rewrite Nat.sub_diag. Qed.
Lemma upd_last {A} (l : list A) x y : upd (l ++ [x]) (length l) y = (l ++ [y])%list.
Proof. induction l as [|z l IH]; cbn; auto. now rewrite IH. Qed.
Lemma zget_map {A C} (f : A -> C) l i : zget (map f l) i = option_map f (zget l i).
Proof. unfold zget. destruct (i <? 0)%Z; [reflexivity|]. now rewrite nth_error_map. Qed.

Section P.
  Context {B R B' R' D : Type} (nb : B') (nr : R') (nd : D).
  Notation old_net := (net (B * D) (R * D)).
  Notation new_net := (net (B' * D) (R' * D)).

  Definition conv (b : bus (B * D)) : bus (B' * D) := Bus (b_active b) (b_orig b) (b_glob b) (b_nbr b) (nb, snd (b_obj b)) false.
  Definition glob_at (o : old_net) (i : Z) : Z := match zget (n_buses o) i with Some b => b_glob b | None => 0%Z end.
  Definition rconv (o : old_net) (r : branch (R * D)) : branch (R' * D) :=
    Branch (r_active r) (r_glob r) (r_o1 r) (r_o2 r) (glob_at o (r_l1 r)) (glob_at o (r_l2 r)) (r_l1 r) (r_l2 r) (nr, snd (r_obj r)).

  Lemma mod_last (n : new_net) pre x f : n_buses n = (pre ++ [x])%list -> mod_bus n (Z.of_nat (length pre)) f = set_buses n (pre ++ [f x])%list.
  Proof. intros E. unfold mod_bus. rewrite zget_of_nat, E, nth_last, Nat2Z.id, upd_last. reflexivity. Qed.
  Lemma rmod_last (n : new_net) pre x f : n_branches n = (pre ++ [x])%list -> mod_branch n (Z.of_nat (length pre)) f = set_branches n (pre ++ [f x])%list.
  Proof. intros E. unfold mod_branch. rewrite zget_of_nat, E, nth_last, Nat2Z.id, upd_last. reflexivity. Qed.

  Lemma mod_last' (n : new_net) pre x f : mod_bus (set_buses n (pre ++ [x])%list) (Z.of_nat (length pre)) f = set_buses n (pre ++ [f x])%list.
  Proof. now rewrite (@mod_last _ pre x). Qed.
  Lemma rmod_last' (n : new_net) pre x f : mod_branch (set_branches n (pre ++ [x])%list) (Z.of_nat (length pre)) f = set_branches n (pre ++ [f x])%list.
  Proof. now rewrite (@rmod_last _ pre x). Qed.
  Lemma get_last (n : new_net) pre x : zget (n_buses (set_buses n (pre ++ [x])%list)) (Z.of_nat (length pre)) = Some x.
  Proof. cbn. now rewrite zget_of_nat, nth_last. Qed.
  Lemma rget_last (n : new_net) pre x : zget (n_branches (set_branches n (pre ++ [x])%list)) (Z.of_nat (length pre)) = Some x.
  Proof. cbn. now rewrite zget_of_nat, nth_last. Qed.
  Lemma fold_nbr l : forall (n : new_net) pre x, n_buses n = (pre ++ [x])%list ->
    fold_left (fun m j => mod_bus m (Z.of_nat (length pre)) (fun b => set_nbr b (b_nbr b ++ [j])%list)) l n = set_buses n (pre ++ [set_nbr x (b_nbr x ++ l)%list])%list.
  Proof.
    induction l as [|j l IH]; intros n pre x E; cbn [fold_left].
    - rewrite app_nil_r. destruct x, n. cbn in *. now rewrite E.
    - rewrite (mod_last _ _ _ _ E). rewrite (IH (set_buses n (pre ++ [set_nbr x (b_nbr x ++ [j])])%list) pre (set_nbr x (b_nbr x ++ [j])%list) eq_refl).
      cbn. now rewrite <- app_assoc.
  Qed.

  Lemma clone_bus_ok (o : old_net) (n : new_net) b : nth_error (n_buses o) (length (n_buses n)) = Some b ->
    clone_bus nb nd o n (length (n_buses n)) = Ok (set_buses n (n_buses n ++ [conv b])%list).
  Proof.
    intros E. set (pre := n_buses n) in *. unfold clone_bus, at_bus, get_connected_branches. rewrite !zget_of_nat, E. cbn [obind].
    unfold add_bus. fold pre. rewrite mod_last'. unfold put_bus_data, at_bus. rewrite get_last. cbn [obind]. rewrite !mod_last'.
    rewrite (@fold_nbr _ (set_buses n _) pre _ eq_refl). reflexivity.
  Qed.
  Lemma clone_buses_ok (o : old_net) : forall m k (n : new_net), k + m = length (n_buses o) -> n_buses n = map conv (firstn k (n_buses o)) ->
    each (clone_bus nb nd o) (seq k m) n = Ok (set_buses n (map conv (n_buses o))).
  Proof.
    induction m as [|m IH]; intros k n Hk En; cbn [seq each].
    - rewrite firstn_all2 in En by lia. rewrite <- En. now destruct n.
    - assert (Lk : length (n_buses n) = k) by (rewrite En, map_length, firstn_length; lia).
      destruct (nth_error (n_buses o) k) as [b|] eqn:Eb; [|apply nth_error_None in Eb; lia].
      rewrite <- Lk at 1. rewrite (@clone_bus_ok o n b) by (now rewrite Lk). cbn [obind]. rewrite IH; [reflexivity|lia|].
      cbn [set_buses n_buses]. rewrite En. clear - Eb. revert k Eb. induction (n_buses o) as [|x l IHl]; intros [|k] Eb; try discriminate.
      + injection Eb as ->. reflexivity.
      + cbn in *. now rewrite IHl.
  Qed.

  Definition end_ok (o : old_net) (i : Z) : Prop := (0 <= i < Z.of_nat (length (n_buses o)))%Z.
  Lemma at_end (o : old_net) i : end_ok o i -> at_bus o i b_glob = Ok (glob_at o i).
  Proof.
    intros H. unfold at_bus, glob_at. destruct (zget (n_buses o) i) eqn:E; [reflexivity|]. unfold zget in E. destruct (Z.ltb_spec i 0); [destruct H; lia|].
    apply nth_error_None in E. destruct H. lia.
  Qed.
  Lemma at_end_bad (o : old_net) i : ~ end_ok o i -> at_bus o i b_glob = Throw.
  Proof.
    intros H. unfold at_bus, zget. destruct (Z.ltb_spec i 0); [reflexivity|]. destruct (nth_error (n_buses o) (Z.to_nat i)) eqn:E; [|reflexivity].
    assert (Z.to_nat i < length (n_buses o)) by (apply nth_error_Some; congruence). exfalso. apply H. unfold end_ok. lia.
  Qed.

  Lemma clone_branch_ok (o : old_net) (n : new_net) r : nth_error (n_branches o) (length (n_branches n)) = Some r ->
    end_ok o (r_l1 r) -> end_ok o (r_l2 r) ->
    clone_branch nr nd o n (length (n_branches n)) = Ok (set_branches n (n_branches n ++ [rconv o r])%list).
  Proof.
    intros E H1 H2. set (pre := n_branches n) in *. unfold clone_branch, at_branch. rewrite !zget_of_nat, E. cbn [obind fst snd].
    unfold add_branch. fold pre. rewrite rmod_last'. unfold put_branch_data, at_branch. rewrite rget_last. cbn [obind].
    rewrite (at_end H1). cbn [obind]. rewrite (at_end H2). cbn [obind]. rewrite !rmod_last'. reflexivity.
  Qed.
  Lemma clone_branch_bad (o : old_net) (n : new_net) r : nth_error (n_branches o) (length (n_branches n)) = Some r ->
    (~ end_ok o (r_l1 r) \/ ~ end_ok o (r_l2 r)) -> clone_branch nr nd o n (length (n_branches n)) = Throw.
  Proof.
    intros E H. set (pre := n_branches n) in *. unfold clone_branch, at_branch. rewrite !zget_of_nat, E. cbn [obind fst snd].
    unfold add_branch. fold pre. rewrite rmod_last'. unfold put_branch_data, at_branch. rewrite rget_last. cbn [obind].
    assert (D1 : {end_ok o (r_l1 r)} + {~ end_ok o (r_l1 r)}).
    { unfold end_ok. destruct (Z_le_dec 0 (r_l1 r)); [|right; lia]. destruct (Z_lt_dec (r_l1 r) (Z.of_nat (length (n_buses o)))); [left; lia|right; lia]. }
    destruct D1 as [H1|H1].
    - rewrite (at_end H1). cbn [obind]. destruct H as [H|H]; [contradiction|]. rewrite (at_end_bad H). reflexivity.
    - rewrite (at_end_bad H1). reflexivity.
  Qed.
  Lemma clone_branches_ok (o : old_net) : (forall r, In r (n_branches o) -> end_ok o (r_l1 r) /\ end_ok o (r_l2 r)) ->
    forall m k (n : new_net), k + m = length (n_branches o) -> n_branches n = map (rconv o) (firstn k (n_branches o)) ->
    each (clone_branch nr nd o) (seq k m) n = Ok (set_branches n (map (rconv o) (n_branches o))).
  Proof.
    intros HL. induction m as [|m IH]; intros k n Hk En; cbn [seq each].
    - rewrite firstn_all2 in En by lia. rewrite <- En. now destruct n.
    - assert (Lk : length (n_branches n) = k) by (rewrite En, map_length, firstn_length; lia).
      destruct (nth_error (n_branches o) k) as [b|] eqn:Eb; [|apply nth_error_None in Eb; lia].
      rewrite <- Lk at 1. destruct (HL b) as [H1 H2]; [now apply nth_error_In in Eb|].
      rewrite (@clone_branch_ok o n b) by (rewrite ?Lk; assumption). cbn [obind]. rewrite IH; [reflexivity|lia|].
      cbn [set_branches n_branches]. rewrite En. clear - Eb. set (rc := rconv o). clearbody rc. revert k Eb. induction (n_branches o) as [|x l IHl]; intros [|k] Eb; try discriminate.
      + injection Eb as ->. reflexivity.
      + cbn in *. now rewrite IHl.
  Qed.
  Lemma clone_branches_bad (o : old_net) r : In r (n_branches o) -> (~ end_ok o (r_l1 r) \/ ~ end_ok o (r_l2 r)) ->
    forall m k (n : new_net), k + m = length (n_branches o) -> length (n_branches n) = k -> ~ In r (firstn k (n_branches o)) ->
    each (clone_branch nr nd o) (seq k m) n = Throw.
  Proof.
    intros Hr Hb. induction m as [|m IH]; intros k n Hk Ln Hk'; cbn [seq each].
    - exfalso. apply Hk'. now rewrite firstn_all2 by lia.
    - destruct (nth_error (n_branches o) k) as [x|] eqn:Ex; [|apply nth_error_None in Ex; lia].
      assert (Dec : forall i, {end_ok o i} + {~ end_ok o i}).
      { intros i. unfold end_ok. destruct (Z_le_dec 0 i); [|right; lia]. destruct (Z_lt_dec i (Z.of_nat (length (n_buses o)))); [left; lia|right; lia]. }
      destruct (Dec (r_l1 x)) as [H1|H1]; [destruct (Dec (r_l2 x)) as [H2|H2]|].
      + rewrite <- Ln at 1. rewrite (@clone_branch_ok o n x) by (rewrite ?Ln; assumption). cbn [obind]. apply IH; [lia|cbn; rewrite app_length; cbn; lia|].
        intros Hin. assert (Es : firstn (S k) (n_branches o) = (firstn k (n_branches o) ++ [x])%list).
        { clear - Ex. revert k Ex. induction (n_branches o) as [|y l IHl]; intros [|k] Ex; try discriminate.
          - injection Ex as ->. reflexivity.
          - cbn in *. now rewrite (IHl _ Ex). }
        rewrite Es in Hin. apply in_app_or in Hin as [Hin|[->|[]]]; [contradiction|]. destruct Hb; contradiction.
      + rewrite <- Ln at 1. rewrite (@clone_branch_bad o n x) by (rewrite ?Ln; auto). reflexivity.
      + rewrite <- Ln at 1. rewrite (@clone_branch_bad o n x) by (rewrite ?Ln; auto). reflexivity.
  Qed.

  (** What the copy is *)
  Definition copy_buses (o : old_net) : list (bus (B' * D)) :=
    if (n_ref o =? -1)%Z then map conv (n_buses o)
    else match zget (map conv (n_buses o)) (n_ref o) with
         | Some b => upd (map conv (n_buses o)) (Z.to_nat (n_ref o)) (Bus (b_active b) (b_orig b) (b_glob b) (b_nbr b) (b_obj b) true)
         | None => map conv (n_buses o)
         end.
  Lemma ref_ok (o : old_net) (t : new_net) :
    (if (n_ref o =? -1)%Z then set_buses (clear_net t) (map conv (n_buses o)) else set_reference (set_buses (clear_net t) (map conv (n_buses o))) (n_ref o)) =
    Net (copy_buses o) [] (n_ref o) (n_busmap t) (n_branchmap t).
  Proof.
    unfold copy_buses. destruct (Z.eqb_spec (n_ref o) (-1)) as [E|E]; [now rewrite E|].
    unfold set_reference, mod_bus. cbn. destruct (zget (map conv (n_buses o)) (n_ref o)); reflexivity.
  Qed.
  Lemma clone_eq (o : dnet B R D) (t : dnet B' R' D) : linked o ->
    clone nb nr nd o t = Ok (DNet (set_map (Net (copy_buses (d_net o)) (map (rconv (d_net o)) (n_branches (d_net o))) (n_ref (d_net o)) [] [])) (d_data o)).
  Proof.
    intros H. unfold clone. cbn [clear_dnet d_net]. unfold iota.
    rewrite (@clone_buses_ok (d_net o) (length (n_buses (d_net o))) 0) by (cbn; auto). cbn [obind].
    rewrite ref_ok. rewrite (@clone_branches_ok (d_net o) H (length (n_branches (d_net o))) 0) by (cbn; auto). cbn [obind]. reflexivity.
  Qed.
  Lemma clone_bad (o : dnet B R D) (t : dnet B' R' D) r : In r (n_branches (d_net o)) ->
    (~ end_ok (d_net o) (r_l1 r) \/ ~ end_ok (d_net o) (r_l2 r)) -> clone nb nr nd o t = Throw.
  Proof.
    intros Hr Hb. unfold clone. cbn [clear_dnet d_net]. unfold iota.
    rewrite (@clone_buses_ok (d_net o) (length (n_buses (d_net o))) 0) by (cbn; auto). cbn [obind].
    rewrite ref_ok. rewrite (@clone_branches_bad (d_net o) r Hr Hb (length (n_branches (d_net o))) 0) by (cbn; auto). reflexivity.
  Qed.

  Lemma copy_nth (o : old_net) i : nth_error (copy_buses o) i = option_map (fun b =>
    Bus (b_active b) (b_orig b) (b_glob b) (b_nbr b) (nb, snd (b_obj b)) (if (n_ref o =? Z.of_nat i)%Z then true else false)) (nth_error (n_buses o) i).
  Proof.
    unfold copy_buses. destruct (Z.eqb_spec (n_ref o) (-1)) as [E|E].
    - rewrite nth_error_map. destruct (Z.eqb_spec (n_ref o) (Z.of_nat i)); [lia|]. reflexivity.
    - rewrite zget_map. unfold zget. destruct (Z.ltb_spec (n_ref o) 0) as [H|H].
      + cbn. rewrite nth_error_map. destruct (Z.eqb_spec (n_ref o) (Z.of_nat i)); [lia|]. reflexivity.
      + destruct (nth_error (n_buses o) (Z.to_nat (n_ref o))) as [b|] eqn:Eb; cbn [option_map].
        * destruct (Z.eqb_spec (n_ref o) (Z.of_nat i)) as [Ei|Ei].
          -- rewrite Ei, Nat2Z.id in *. rewrite nth_error_upd_same; [|rewrite map_length; apply nth_error_Some; congruence]. rewrite Eb. reflexivity.
          -- rewrite nth_error_upd_other by lia. rewrite nth_error_map. reflexivity.
        * rewrite nth_error_map. destruct (Z.eqb_spec (n_ref o) (Z.of_nat i)) as [Ei|Ei]; [|reflexivity].
          rewrite Ei, Nat2Z.id in Eb. now rewrite Eb.
  Qed.
  Lemma copy_len (o : old_net) : length (copy_buses o) = length (n_buses o).
  Proof.
    unfold copy_buses. destruct (n_ref o =? -1)%Z; [apply map_length|]. destruct (zget (map conv (n_buses o)) (n_ref o)); rewrite ?upd_length; apply map_length.
  Qed.
End P.

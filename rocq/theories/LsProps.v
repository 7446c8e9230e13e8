(** C53: the linear solvers. *)
From Verif Require Import Prelude LsModel LsSpec LsProofs LsProofs2 LsProofs3.

(** Without ForceSerial (or on one process) every program of calls is answered right, whatever the library solver is, as long
    as what it returns is accepted: solutions for the present matrix, on the processes that hold x; columns of a matrix of right
    hand sides in their places; exceptions exactly when the library gives up, and for resolve before solve. *)
Theorem C53_direct : forall (F M : Type) (ksp : M -> list F -> option (list F) -> option (list F)) (z0 : F) (solves : M -> list F -> list F -> Prop),
  sound ksp solves ->
  forall nproc force const zero lay, force = false \/ nproc <= 1 -> forall A cs, Forall (good_call lay) cs ->
  right z0 solves (fails ksp) A Unsolved cs (run ksp z0 (configure nproc force const zero) A new_solver cs).
Proof.
  intros F M ksp z0 solves HS nproc force const zero lay HF A cs HG.
  apply (@direct_right F M ksp z0 solves HS (configure nproc force const zero) lay); auto.
  - unfold configure; cbn [o_serial]. destruct HF as [->|H]; auto. destruct (Nat.ltb_spec 1 nproc); [lia|]. apply andb_false_r.
  - split; reflexivity.
Qed.
Print Assumptions C53_direct.

(** With ForceSerial on several processes: what is solved instead, for every program. *)
Theorem C53_serial : forall (F M : Type) (ksp : M -> list F -> option (list F) -> option (list F)) (z0 : F) (solves : M -> list F -> list F -> Prop),
  sound ksp solves ->
  forall nproc const zero lay, 1 < nproc -> 0 < sumn lay -> forall A cs, Forall (good_call lay) cs ->
  serial_right z0 solves (fails ksp) const A None None cs (run ksp z0 (configure nproc true const zero) A new_solver cs).
Proof.
  intros F M ksp z0 solves HS nproc const zero lay HN HL A cs HG.
  apply (@serial_program F M ksp z0 solves HS (configure nproc true const zero) (sumn lay) lay); auto.
  - unfold configure; cbn [o_serial]. destruct (Nat.ltb_spec 1 nproc); auto; lia.
  - apply new_serial.
Qed.
Print Assumptions C53_serial.

(** So it is right if all right hand sides end with the same element (and the matrix declared constant is).
    Missing for the full claim, and false: other right hand sides. *)
Theorem C53_serial_partial : forall (F M : Type) (ksp : M -> list F -> option (list F) -> option (list F)) (z0 : F) (solves : M -> list F -> list F -> Prop),
  sound ksp solves ->
  forall nproc const zero lay e, 1 < nproc -> 0 < sumn lay -> forall A cs, Forall (good_call lay) cs ->
  (forall c b, In c cs -> In b (rhs_of z0 c) -> last b z0 = e) -> (const = true -> existsb (@changes F M) cs = false) ->
  right z0 solves (fails ksp) A Unsolved cs (run ksp z0 (configure nproc true const zero) A new_solver cs).
Proof.
  intros F M ksp z0 solves HS nproc const zero lay e HN HL A cs HG HE HC.
  eapply (@serial_alike F M ksp z0 solves const lay e HL cs A None None Unsolved); auto.
  eapply C53_serial; eauto.
Qed.
Print Assumptions C53_serial_partial.

(** With InitialGuessZero what x holds before a call has no effect on the results of the program, in serial mode or not. *)
Theorem C53_zero_guess : forall (F M : Type) (ksp : M -> list F -> option (list F) -> option (list F)) (z0 : F) nproc force const A cs cs',
  Forall2 (@but_guess F M) cs cs' ->
  run ksp z0 (configure nproc force const true) A new_solver cs = run ksp z0 (configure nproc force const true) A new_solver cs'.
Proof. intros. apply run_zero; auto. Qed.
Print Assumptions C53_zero_guess.

(** Without it (and without ForceSerial) solve gives what the library finds from x as the initial guess, after every program. *)
Theorem C53_guess : forall (F M : Type) (ksp : M -> list F -> option (list F) -> option (list F)) (z0 : F) nproc force const,
  force = false \/ nproc <= 1 -> forall A cs,
  Forall (fun r => r <> UB) (run ksp z0 (configure nproc force const false) A new_solver cs) ->
  forall b x y, ksp (final A cs) (concat b) (Some (concat x)) = Some y -> length y = sumn (layout x) ->
  exists d, run ksp z0 (configure nproc force const false) A new_solver (cs ++ [Solve b x]) =
            run ksp z0 (configure nproc force const false) A new_solver cs ++ [Ok (RVec d)] /\ concat d = y /\ layout d = layout x.
Proof.
  intros F M ksp z0 nproc force const HF A cs HU b x y HY HN. apply run_last; auto.
  - unfold configure; cbn [o_serial]. destruct HF as [->|H]; auto. destruct (Nat.ltb_spec 1 nproc); [lia|]. apply andb_false_r.
  - cbn. discriminate.
Qed.
Print Assumptions C53_guess.

(** A library for the examples: it offers the right hand side as the solution and checks it. *)
Definition mult (A : list (list Z)) (x : list Z) : list Z := map (fun row => fold_right Z.add 0%Z (map (fun p => fst p * snd p)%Z (combine row x))) A.
Definition msolves (A : list (list Z)) (b x : list Z) : Prop := mult A x = b.
Definition lib (A : list (list Z)) (b : list Z) (g : option (list Z)) : option (list Z) :=
  if list_eq_dec Z.eq_dec (mult A b) b then Some b else None.
Lemma lib_sound : sound lib msolves.
Proof. intros A b g y. unfold lib. destruct (list_eq_dec _ _ _); [|discriminate]. intros E; injection E; intros <-. split; auto. Qed.
Definition id2 : list (list Z) := [[1; 0]; [0; 1]]%Z.
Definition swap2 : list (list Z) := [[0; 1]; [1; 0]]%Z.
Definition two_solves : list (call Z (list (list Z))) := [Solve [[1]; [2]] [[0]; [0]]; Resolve [[3]; [4]] [[0]; [0]]]%Z.

(** Finding: the second right hand side keeps the last element of the first. *)
Theorem C53_serial_refuted : exists ksp (A : list (list Z)) lay cs,
  sound ksp msolves /\ Forall (good_call lay) cs /\ 0 < sumn lay /\
  run ksp 0%Z (configure 2 true false false) A new_solver cs = [Ok (RVec [[1]; [2]]); Ok (RVec [[3]; [2]])]%Z /\
  ~ right 0%Z msolves (fails ksp) A Unsolved cs (run ksp 0%Z (configure 2 true false false) A new_solver cs).
Proof.
  exists lib, id2, [1; 1], two_solves. split; [exact lib_sound|]. split; [repeat constructor|]. split; [cbn; lia|]. split; [reflexivity|].
  replace (run lib 0%Z (configure 2 true false false) id2 new_solver two_solves) with ([Ok (RVec [[1]; [2]]); Ok (RVec [[3]; [2]])]%Z : list (outcome (result Z))) by reflexivity.
  cbn [right two_solves]. intros [_ [[(y & E & _ & H)|(E & _)] _]]; [|discriminate].
  injection E as <-. cbv in H. discriminate.
Qed.
Print Assumptions C53_serial_refuted.

(** Finding: so the inverse computed column by column (solve with the identity matrix) loses its last column. *)
Theorem C53_serial_inverse_refuted : exists ksp (A : list (list Z)) B,
  sound ksp msolves /\ layout B = [1; 1] /\ concat B = id2 /\ A = id2 /\
  run ksp 0%Z (configure 2 true false false) A new_solver [SolveAll B 2] = [Ok (RMat [[[1; 0]]; [[0; 0]]])]%Z.
Proof. exists lib, id2, [[[1; 0]]; [[0; 1]]]%Z. split; [exact lib_sound|]. repeat split. Qed.
Print Assumptions C53_serial_inverse_refuted.

(** Finding: with no unknowns at all the serial mode uses the first element of an empty buffer. *)
Theorem C53_serial_empty_refuted : forall F M (ksp : M -> list F -> option (list F) -> option (list F)) (z0 : F) A,
  run ksp z0 (configure 2 true false false) A new_solver [Solve [[]; []] [[]; []]] = [UB].
Proof. reflexivity. Qed.
Print Assumptions C53_serial_empty_refuted.

(** The solver for matrices of right hand sides solves with the matrix as it was when the solver was made,
    however often it is called. *)
Theorem C53_matrix_solver : forall (M K D : Type) (lu : M -> option K) (msolve : K -> D -> option D) (solves : M -> D -> D -> Prop),
  (forall A k B X, lu A = Some k -> msolve k B = Some X -> solves A B X) ->
  forall A cs,
  Forall2 (fun B r => (exists X, r = Ok X /\ solves A B X) \/ (r = Throw /\ (lu A = None \/ exists k, lu A = Some k /\ msolve k B = None)))
          (mrhs_of cs) (mrun lu msolve (new_msolver K A) cs).
Proof. intros M K D lu msolve solves H A cs. apply (@mrun_right M K D lu msolve solves H A); auto. Qed.
Print Assumptions C53_matrix_solver.

(** Finding: unlike LinearSolver it does not see a later change of the matrix. *)
Theorem C53_matrix_solver_change_refuted : exists (A A' : list (list Z)) b,
  mrun (fun A => Some A) (fun A b => lib A b None) (new_msolver _ A) [MSetMatrix A'; MSolve b] = [Ok b] /\ ~ msolves A' b b.
Proof. exists id2, swap2, [1; 2]%Z. split; [reflexivity|]. cbv. discriminate. Qed.
Print Assumptions C53_matrix_solver_change_refuted.

(** The hypotheses are met by programs with changes of the matrix, unsuccessful solves and several columns. *)
Definition long_program : list (call Z (list (list Z))) :=
  [Resolve [[1]; [1]] [[0]; [0]]; Solve [[1]; [2]] [[0]; [0]]; Resolve [[3]; [4]] [[0]; [0]]; SetMatrix swap2; Solve [[1]; [2]] [[0]; [0]];
   Solve [[5]; [5]] [[0]; [0]]; SetMatrix id2; SolveAll [[[1; 0; 7]]; [[0; 1; 8]]] 3]%Z.
Example C53_direct_nonvacuous : Forall (good_call [1; 1]) long_program /\ sound lib msolves /\
  run lib 0%Z (configure 2 false false false) id2 new_solver long_program =
  [Throw; Ok (RVec [[1]; [2]]); Ok (RVec [[3]; [4]]); Throw; Ok (RVec [[5]; [5]]); Ok (RMat [[[1; 0; 7]]; [[0; 1; 8]]])]%Z.
Proof. split; [|split; [exact lib_sound|reflexivity]]. repeat constructor; cbn; intros row H; intuition; subst; reflexivity. Qed.
Example C53_serial_nonvacuous : Forall (good_call [1; 1]) long_program /\
  run lib 0%Z (configure 2 true true false) id2 new_solver long_program =
  [Throw; Ok (RVec [[1]; [1]]); Ok (RVec [[3]; [1]]); Ok (RVec [[1]; [1]]); Ok (RVec [[5]; [1]]); Ok (RMat [[[1; 0; 7]]; [[1; 1; 1]]])]%Z.
Proof. split; [apply C53_direct_nonvacuous|reflexivity]. Qed.
(** A library that refines its guess: the hypotheses of C53_guess are met, and there the guess matters. *)
Example C53_guess_nonvacuous :
  let refine (A : list (list Z)) (b : list Z) (g : option (list Z)) := match g with Some x => Some x | None => Some b end in
  Forall (fun r => r <> UB) (run refine 0%Z (configure 2 false false false) id2 new_solver two_solves) /\
  run refine 0%Z (configure 2 false false false) id2 new_solver (two_solves ++ [Solve [[1]; [2]] [[5]; [6]]])%Z =
    [Ok (RVec [[0]; [0]]); Ok (RVec [[0]; [0]]); Ok (RVec [[5]; [6]])]%Z /\
  run refine 0%Z (configure 2 false false true) id2 new_solver (two_solves ++ [Solve [[1]; [2]] [[5]; [6]]])%Z =
    [Ok (RVec [[1]; [2]]); Ok (RVec [[3]; [4]]); Ok (RVec [[1]; [2]])]%Z.
Proof. cbv zeta. split; [|split; reflexivity]. repeat constructor; discriminate. Qed.
Definition alike_program : list (call Z (list (list Z))) :=
  [Solve [[1]; [2]] [[0]; [0]]; Resolve [[3]; [2]] [[0]; [0]]; SetMatrix swap2; SolveAll [[[1; 2]]; [[2; 2]]] 2]%Z.
Example C53_serial_partial_nonvacuous : Forall (good_call [1; 1]) alike_program /\
  (forall c b, In c alike_program -> In b (rhs_of 0%Z c) -> last b 0%Z = 2%Z) /\
  run lib 0%Z (configure 2 true false true) id2 new_solver alike_program = [Ok (RVec [[1]; [2]]); Ok (RVec [[3]; [2]]); Throw]%Z.
Proof.
  split; [repeat constructor; cbn; intros row H; intuition; subst; reflexivity|]. split; [|reflexivity].
  intros c b H. cbn in H. decompose [or] H; subst; cbn; intuition; subst; reflexivity.
Qed.
Example C53_matrix_solver_nonvacuous :
  mrun (fun A => if list_eq_dec Z.eq_dec (concat A) (concat id2) then Some A else None) (fun A b => lib A b None) (new_msolver _ id2)
       [MSolve [1; 2]; MSolve [3; 4]; MSetMatrix swap2; MSolve [5; 6]]%Z = [Ok [1; 2]; Ok [3; 4]; Ok [5; 6]]%Z.
Proof. reflexivity. Qed.

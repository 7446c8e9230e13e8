(** Theorems about complex linear algebra on a library for real numbers (property C52). *)
From Coq Require Import Reals Lra.
From Coquelicot Require Import Complex.
From Verif Require Import Prelude CxModel CxSpec CxProofs CxProofs2 CxProofs3 CxProofs4.
Local Open Scope nat_scope.

(** Every program of matrix and vector calls whose arguments fit runs without an exception on the
    real library, and what the user then reads from every matrix and vector (sizes, elements, row
    blocks, all elements, index ranges, norms) is what the same program computes in complex
    arithmetic.  Missing from the full claim (see below): transposeMultiply and identity on an
    existing matrix, which do not compute what they promise. *)
Theorem C52_programs_partial : forall p a,
  arun p ([], []) = Some a -> exists s, rrun p ([], []) = Ok s /\ sees s a.
Proof. intros p a H. destruct (program_ok _ H) as (s & E & R). exists s. split; auto. apply rel_sees; auto. Qed.

(** When the library finds a vector x with A x = b for the real system that stands for a complex
    one, the complex elements of x solve the complex system. *)
Theorem C52_linear_solve : forall p a s r A M ib b br layout x y,
  arun p ([], []) = Some a -> rrun p ([], []) = Ok s ->
  nth_error (fst a) r = Some A -> nth_error (fst s) r = Some M ->
  nth_error (snd a) ib = Some b -> nth_error (snd s) ib = Some br ->
  a_m A = length (v_elems b) -> a_n A = sumn layout ->
  map (@length R) x = map (fun n => n * 2) layout ->          (* a vector with these local sizes *)
  map (@length R) y = map (@length R) br ->
  mv_multiply M x y = Ok br ->
  exists u, v_get_all x = Ok u /\ length u = a_n A /\
    forall i, i < a_m A -> csum (a_n A) (fun k => Cmult (a_f A i k) (ccat u k)) = ccat (v_elems b) i.
Proof.
  intros p a s r A M ib b br layout x y Ha Hs HA HM Hb Hbr Hm Hn Hx Hy E.
  destruct (program_ok _ Ha) as (s' & E' & [R1 R2]). rewrite Hs in E'. inversion E'; subst s'.
  destruct (F2_nth _ R1 HA) as (M' & EM & G). rewrite HM in EM. inversion EM; subst M'.
  destruct (F2_nth _ R2 Hb) as (b' & Eb & Gb). rewrite Hbr in Eb. inversion Eb; subst b'.
  destruct (solve_ok _ _ _ G Gb Hm Hn Hx Hy E) as (u & _ & H1 & H2 & H3). exists u. auto.
Qed.

(** The same for several right-hand sides and for inverses (LinearMatrixSolver): the library returns
    a dense real matrix X with A X = B; when the complex matrix A is not singular, X is a proper
    complex matrix and solves the complex system. *)
Theorem C52_matrix_solve : forall p a s r A M ib B MB X P,
  arun p ([], []) = Some a -> rrun p ([], []) = Ok s ->
  nth_error (fst a) r = Some A -> nth_error (fst s) r = Some M ->
  nth_error (fst a) ib = Some B -> nth_error (fst s) ib = Some MB ->
  a_m A = a_n A -> a_m B = a_n A ->
  (forall z : nat -> C,
     (forall i, i < a_m A -> csum (a_n A) (fun l => Cmult (a_f A i l) (z l)) = RtoC 0) ->
     forall l, l < a_n A -> z l = RtoC 0) ->
  m_nr X = m_nr MB -> m_nc X = m_nc MB -> m_asm X = true -> m_mode X = None ->
  length (m_rows X) = m_nr X ->
  (forall row, In row (m_rows X) -> map fst row = iota (m_nc X)) ->   (* dense storage *)
  mat_mat_mult M X = Ok P ->
  (forall i j, i < m_nr MB -> j < m_nc MB -> rget (m_rows P) i j = rget (m_rows MB) i j) ->
  exists h, sees_m X (mkA (a_n A) (a_n B) h) /\
    forall i j, i < a_m A -> j < a_n B -> csum (a_n A) (fun l => Cmult (a_f A i l) (h l j)) = a_f B i j.
Proof.
  intros p a s r A M ib B MB X P Ha Hs HA HM HB HMB Hsq Hbn Inj X1 X2 X3 X4 X5 X6 E HP.
  destruct (program_ok _ Ha) as (s' & E' & [R1 R2]). rewrite Hs in E'. inversion E'; subst s'.
  destruct (F2_nth _ R1 HA) as (M' & EM & G). rewrite HM in EM. inversion EM; subst M'.
  destruct (F2_nth _ R1 HB) as (B' & Eb & Gb). rewrite HMB in Eb. inversion Eb; subst B'.
  unfold goodA in G, Gb. rewrite Hsq in *. rewrite Hbn in *.
  eapply matrix_solve_ok; eauto.
Qed.

(** identity on an assembled matrix gives the identity when the matrix stores its diagonal: dense,
    or every diagonal element was set before. *)
Theorem C52_identity_stored : forall n d l,
  in_range n n l = true -> (d = true \/ forall i, i < n -> In (i, i) (map fst l)) ->
  exists M B, ready (set_elements (blank n n d) INS l) = Ok M /\ m_identity M = Ok B /\
    sees_m B (mkA n n (fun i j => if i =? j then RtoC 1 else RtoC 0)).
Proof.
  intros n d l H1 H2. destruct (identity_stored _ H1 H2) as (M & B & E1 & E2 & G).
  exists M, B. split; auto. split; auto. apply good_sees; auto.
Qed.

(** transposeMultiply computes the product with the conjugate transpose. *)
Theorem C52_transpose_multiply : forall p a s r A M ix x xr iy y yr,
  arun p ([], []) = Some a -> rrun p ([], []) = Ok s ->
  nth_error (fst a) r = Some A -> nth_error (fst s) r = Some M ->
  nth_error (snd a) ix = Some x -> nth_error (snd s) ix = Some xr ->
  nth_error (snd a) iy = Some y -> nth_error (snd s) iy = Some yr ->
  a_m A = length (v_elems x) -> a_n A = length (v_elems y) ->
  exists w, mv_transpose_multiply M xr yr = Ok w /\
    sees_v w (mkAV (v_layout y)
      (tabulate (a_n A) (fun j => csum (a_m A) (fun i => Cmult (cconj (a_f A i j)) (ccat (v_elems x) i))))).
Proof.
  intros p a s r A M ix x xr iy y yr Ha Hs HA HM Hx Hxr Hy Hyr H1 H2.
  destruct (program_ok _ Ha) as (s' & E' & [R1 R2]). rewrite Hs in E'. inversion E'; subst s'.
  destruct (F2_nth _ R1 HA) as (M' & EM & G). rewrite HM in EM. inversion EM; subst M'.
  destruct (F2_nth _ R2 Hx) as (x' & Ex & Gx). rewrite Hxr in Ex. inversion Ex; subst x'.
  destruct (F2_nth _ R2 Hy) as (y' & Ey & Gy). rewrite Hyr in Ey. inversion Ey; subst y'.
  destruct (transpose_mult_ok G Gx Gy H1 H2) as (w & Ew & Hw). exists w. split; auto. apply repv_sees; auto.
Qed.

(** So it is not the product with the transpose: the 1 x 1 matrix [i] times the vector [1] gives -i. *)
Theorem C52_transpose_multiply_refuted :
  exists M w, ready (set_elements (mat_new 1 1) INS [(0, 0, Ci)]) = Ok M /\
    mv_transpose_multiply M [[1%R; 0%R]] [[0%R; 0%R]] = Ok w /\
    exists z, v_get_all w = Ok [z] /\ z <> Cmult Ci (RtoC 1).
Proof.
  eexists. eexists. split; [cbn; reflexivity|]. split; [cbn; reflexivity|]. eexists. split; [cbn; reflexivity|].
  cbn. intros H. inversion H. lra.
Qed.

(** identity on an assembled sparse matrix that does not store its diagonal stores real diagonal
    positions outside the 2 x 2 blocks: the next elementwise operation reads past its row. *)
Theorem C52_identity_refuted :
  exists M B, ready (set_elements (mat_new 2 2) INS [(0, 1, RtoC 5)]) = Ok M /\
    m_identity M = Ok B /\ m_scale (RtoC 2) B = UB.
Proof. eexists. eexists. split; [cbn; reflexivity|]. split; cbn; reflexivity. Qed.

(** identity on a matrix that is not assembled yet keeps the elements set before. *)
Theorem C52_identity_pending_refuted :
  exists M B z, set_elements (mat_new 2 2) INS [(0, 1, RtoC 5)] = Ok M /\
    m_identity M = Ok B /\ get_element B 0 1 = Ok z /\ z <> RtoC 0.
Proof.
  eexists. eexists. eexists. split; [cbn; reflexivity|]. split; [cbn; reflexivity|]. split; [cbn; reflexivity|].
  cbn. intros H. inversion H. lra.
Qed.

(** ** The hypotheses are met *)
Definition demo : list cmd :=
  [ NewM 2 2 false [(0, 0, (1%R, 2%R)); (1, 0, (0%R, 1%R)); (1, 1, (3%R, 0%R))];
    ScaleM 0 Ci; TransM 0; AddM 1 [(0, 1, (4%R, 5%R))]; MulMM 0 1; ConjM 2; AddMM 2 0; IdentM 2 true;
    NewV [1; 1]; SetV 0 0 [(0, (1%R, 1%R))]; SetV 0 1 [(1, (2%R, 0%R)); (0, (9%R, 9%R))]; NewV [2; 0];
    MulMV 2 0 1; ImagV 1; AddVV 0 0 Ci; DiagMV 1 0; MulDiagMV 1 0; DiagNew 0 false; AddDiagM 4 (RtoC 7) ].

Example C52_programs_nonvacuous : exists a, arun demo ([], []) = Some a /\ length (fst a) = 5 /\ length (snd a) = 2.
Proof.
  assert (H : match arun demo ([], []) with
              | Some a => (length (fst a), length (snd a)) | None => (0, 0) end = (5, 2)) by (vm_compute; reflexivity).
  destruct (arun demo ([], [])) as [a|]; [|discriminate]. exists a. inversion H. auto.
Qed.

Example C52_solve_nonvacuous :
  exists a s, arun [NewM 1 1 false [(0, 0, Ci)]; NewV [1]; FillV 0 (RtoC 1); NewM 1 1 true [(0, 0, RtoC 1)]] ([], []) = Some a /\
              rrun [NewM 1 1 false [(0, 0, Ci)]; NewV [1]; FillV 0 (RtoC 1); NewM 1 1 true [(0, 0, RtoC 1)]] ([], []) = Ok s /\
  exists A M b br, nth_error (fst a) 0 = Some A /\ nth_error (fst s) 0 = Some M /\
    nth_error (snd a) 0 = Some b /\ nth_error (snd s) 0 = Some br /\
    a_m A = length (v_elems b) /\ a_n A = sumn [1] /\
    exists x, map (@length R) x = [2] /\ mv_multiply M x [[0%R; 0%R]] = Ok br.
Proof.
  eexists. eexists. split; [cbn; reflexivity|]. split; [cbn; reflexivity|].
  eexists. eexists. eexists. eexists. split; [cbn; reflexivity|]. split; [cbn; reflexivity|]. split; [cbn; reflexivity|]. split; [cbn; reflexivity|].
  split; [cbn; reflexivity|]. split; [cbn; reflexivity|]. exists [[0%R; (-1)%R]]. split; [cbn; reflexivity|].
  unfold mv_multiply, mat_mult. cbn. f_equal. f_equal. f_equal; [lra|]. f_equal. lra.
Qed.

Example C52_matrix_solve_nonvacuous :
  exists M MB P,
    ready (set_elements (mat_new 1 1) INS [(0, 0, Ci)]) = Ok M /\
    ready (set_elements (mat_new_dense 1 1) INS [(0, 0, RtoC 1)]) = Ok MB /\
    let X := mkMat 2 2 [[(0, 0%R); (1, 1%R)]; [(0, (-1)%R); (1, 0%R)]] true None in
    mat_mat_mult M X = Ok P /\ length (m_rows X) = m_nr X /\
    (forall row, In row (m_rows X) -> map fst row = iota (m_nc X)) /\
    forall i j, i < m_nr MB -> j < m_nc MB -> rget (m_rows P) i j = rget (m_rows MB) i j.
Proof.
  eexists. eexists. eexists. split; [cbn; reflexivity|]. split; [cbn; reflexivity|]. cbn zeta. split; [cbn; reflexivity|].
  split; [cbn; reflexivity|]. split.
  - intros row [<-|[<-|[]]]; reflexivity.
  - intros i j Hi Hj. cbn in Hi, Hj.
    destruct i as [|[|i]]; [| |lia]; (destruct j as [|[|j]]; [| |lia]); cbn; lra.
Qed.

Print Assumptions C52_programs_partial.
Print Assumptions C52_linear_solve.
Print Assumptions C52_matrix_solve.
Print Assumptions C52_identity_stored.
Print Assumptions C52_transpose_multiply.
Print Assumptions C52_transpose_multiply_refuted.
Print Assumptions C52_identity_refuted.
Print Assumptions C52_identity_pending_refuted.

(** Properties of the PSS/E version 33 export (C55). *)
From Verif Require Import Prelude GAModel StrModel StrSpec DCModel DCSpec RecModel RecSpec XpModel XpSpec XpProofs XpProofs2 XpProofs3 XpProofs4
  XpProofs5 XpProofs6 XpProofs7 XpProofs8 XpProofs9.
From Coq Require Import Ascii.
Open Scope nat_scope.

(** ** Order of the lines *)
(** Whatever the distribution of lines and arrays on the processes and the order in which the operations of the processes
    take effect: rank 0 writes every line once, by global index and then by device index. *)
Theorem C55_block_order :
  forall dist procs ev1 ev2, distributes dist -> numbered (concat procs) ->
    Permutation ev1 (concat procs) -> Permutation ev2 (concat procs) ->
  exists out, Permutation out (concat procs) /\ in_order before out /\ write_data_block dist procs ev1 ev2 = Ok (map tl_text out).
Proof. exact write_data_block_ok. Qed.
Print Assumptions C55_block_order.
(** The order fixes the text: it does not depend on the distribution. *)
Theorem C55_block_deterministic :
  forall out out', in_order before out -> in_order before out' -> Permutation out out' -> out = out'.
Proof.
  apply (@in_order_unique _ before).
  - intros a. unfold before. lia.
  - intros a b. unfold before. lia.
Qed.
Print Assumptions C55_block_deterministic.
Definition ex_procs : list (list text_line) :=
  [[Build_text_line 3 0 (s_ "d"); Build_text_line 1 1 (s_ "c")]; []; [Build_text_line 0 0 (s_ "a"); Build_text_line 1 0 (s_ "b")]].
Example C55_block_nonvacuous :
  distributes (fun n => [n / 2; n - n / 2; 0]) /\ numbered (concat ex_procs) /\
  write_data_block (fun n => [n / 2; n - n / 2; 0]) ex_procs (rev (concat ex_procs)) (concat ex_procs) = Ok [s_ "a"; s_ "b"; s_ "c"; s_ "d"].
Proof.
  split; [|split; [|vm_compute; reflexivity]].
  - intros n. cbn [sumn]. pose proof (Nat.div_le_upper_bound n 2 n ltac:(lia) ltac:(lia)). lia.
  - intros [|[|[|[|g]]]]; cbn.
    + exists 1. apply Permutation_refl.
    + exists 2. apply perm_swap.
    + exists 0. apply Permutation_refl.
    + exists 1. apply Permutation_refl.
    + exists 0. apply Permutation_refl.
Qed.

(** ** Reading back *)
(** Buses with their loads, fixed shunts and generators and lines come back from an exported case in the order of their
    global indices, whatever the distribution of the network and of the arrays, with every entry of the records; solved
    voltages and generator powers replace the ones they were computed from; real numbers are read back from their printed
    text.  Partial: cases of lines only, without owners of lines and generator step-up transformers, which the exporter
    loses or moves (refuted below); the transformer and the later blocks are not modelled. *)
Theorem C55_export_import_partial :
  forall atof fmt fmtg one zero,
    (forall x, plain_text (fmt x)) -> (forall x, plain_text (fmtg x)) ->
  forall dist ord1 ord2, distributes dist -> reorders ord1 -> reorders ord2 ->
  forall buses branches, exportable_buses buses -> exportable_branches branches ->
  forall p0 ps sb, hd [] buses = p0 :: ps -> look (pl_data p0) TDouble (Plain "CASE_SBASE") = Some (VDouble sb) ->
    look (pl_data p0) TDouble (Plain "CASE_ID") = None ->
  exists sorted sortedl file,
    Permutation sorted (actives buses) /\ in_order by_index sorted /\
    Permutation sortedl (actives branches) /\ in_order by_index sortedl /\
    export33 fmt fmtg dist ord1 ord2 buses branches = Ok file /\
    forall rest, exists b ds br, import33 atof one zero (file ++ rest) = Ok (b, ds, br, rest) /\
      Forall2 (fun p d' => same_bus atof fmt (pl_data p) d' /\
                           look d' TDouble (Plain "CASE_SBASE") = Some (VDouble (atof (sp :: sp :: fmtg sb)))) sorted ds /\
      Forall2 (fun p d' => same_branch atof fmt (pl_data p) d') sortedl (br_data br).
Proof. intros. eapply export_import; eassumption. Qed.
Print Assumptions C55_export_import_partial.

(** A case read from a file.  Real numbers of the example are whole numbers. *)
Definition ex_atof (t : str) : Z := match atoi t with Ok z => z | _ => 0%Z end.
Definition ex_fmt (x : Z) : str := s_ (dec x).
Definition places (ds : list dc) (i : nat) : list place := map (fun k => Build_place true (i + k) 0 (nth k ds dc_empty)) (iota (length ds)).
Definition loaded (file : list str) : list dc * list dc :=
  match import33 ex_atof 1 0 file with Ok (_, ds, br, _) => (ds, br_data br) | _ => ([], []) end.
(** Read, export on one process, read. *)
Definition again (file : list str) : outcome (list dc * list dc) :=
  let '(ds, br) := loaded file in
  obind (export33 ex_fmt ex_fmt (fun n => [n]) (fun l => l) (fun l => l) [places ds 0] [places br 0]) (fun f =>
  obind (import33 ex_atof 1 0 f) (fun '(_, ds', br', _) => Ok (ds', br_data br'))).

Definition ex_header : list str := [s_ "0, 100, 33, 0, 0, 60.0"; s_ "two buses"; s_ ""].
Definition ex_gen (b : string) : str :=
  s_ (b ++ ", 'G1', 50, 5, 99, -99, 1, 0, 100, 0, 1, 3, 4, 1, 1, 100, 80, 10, 1, 1, 0, 1, 0, 1, 0, 1, 0, 1")%string.
Definition ex_file : list str :=
  (ex_header ++ [s_ "101, 'NORTH/A', 138, 3, 1, 1, 1, 1, 0, 2, 0"; s_ "7, '', 69, 1, 1, 2, 1, 1, -5, 2, 0"; s_ "55, 'SOUTH   ', 138, 2, 1, 1, 1, 1, 0, 2, 0";
   s_ "0 /";
   s_ "7, '1', 1, 1, 2, 25, 5, 0, 0, 0, 0, 1"; s_ "7, 'AB', 0, 1, 2, 0, 5, 0, 0, 0, 0, 1"; s_ "101, '1', 1, 1, 1, 3, 4, 0, 0, 0, 0, 1"; s_ "0 /";
   s_ "55, '1', 1, 0, 15"; s_ "0 /"; ex_gen "101"; ex_gen "55"; s_ "0 /";
   s_ "101, 7, '1', 1, 2, 3, 40, 40, 40, 0, 0, 0, 0, 1, 1, 6"; s_ "7, 55, 'B2', 1, 2, 3, 40, 40, 40, 0, 0, 0, 0, 1, 1, 6";
   s_ "101, 7, '2', 4, 5, 6, 40, 40, 40, 0, 0, 0, 0, 0, 1, 6"; s_ "0 /"])%list.
Definition ex_ds : list dc := Eval vm_compute in fst (loaded ex_file).
Definition ex_br : list dc := Eval vm_compute in snd (loaded ex_file).
Definition solve_bus (d : dc) : dc := add_key (add_key d "BUS_PF_VMAG" (VDouble 7)) "BUS_PF_VANG" (VDouble (-3)).
(** Three buses on two processes in the order of global indices 2, 0, 1, one of them also as a ghost; two branches. *)
Definition ex_buses : list (list place) :=
  [[Build_place true 2 101 (nth 0 ex_ds dc_empty); Build_place false 0 7 dc_empty];
   [Build_place true 0 7 (solve_bus (nth 1 ex_ds dc_empty)); Build_place true 1 55 (nth 2 ex_ds dc_empty)]].
Definition ex_branches : list (list place) :=
  [[Build_place true 1 0 (nth 0 ex_br dc_empty)]; [Build_place true 0 0 (nth 1 ex_br dc_empty)]].
Example C55_nonvacuous :
  exportable_buses ex_buses /\ exportable_branches ex_branches /\ (forall x, plain_text (ex_fmt x)) /\
  length (actives ex_buses) = 3 /\ length (actives ex_branches) = 2 /\
  map (fun p => devices (pl_data p) "LOAD_NUMBER") (actives ex_buses) = [1; 2; 0] /\
  map (fun p => devices (pl_data p) "BRANCH_NUM_ELEMENTS") (actives ex_branches) = [2; 1].
Proof.
  split; [apply busesb_ok; vm_compute; reflexivity|]. split; [apply branchesb_ok; vm_compute; reflexivity|].
  split; [intros x; apply dec_plain|]. repeat split; vm_compute; reflexivity.
Qed.
(** With the whole of the example: reading, exporting on two processes and reading again. *)
Example C55_round_nonvacuous :
  exists file, export33 ex_fmt ex_fmt (fun n => [n / 2; n - n / 2]) (@rev _) (fun l => l) ex_buses ex_branches = Ok file /\
    nth 3 file [] = s_ "7, '', 69, 1, 1, 2, 1, 7, -3, 2, 0, 1.1, 0.9" /\ length file = 20.
Proof. eexists. split; [vm_compute; reflexivity|]. split; vm_compute; reflexivity. Qed.

(** ** What does not come back *)
Definition ex_bus (n : string) : str := s_ (n ++ ", 'NORTH', 138, 1, 1, 1, 1, 1, 0, 2, 0")%string.
Definition ex_case (buses loads gens lines : list str) : list str :=
  (ex_header ++ buses ++ s_ "0 /" :: loads ++ [s_ "0 /"; s_ "0 /"] ++ gens ++ s_ "0 /" :: lines ++ [s_ "0 /"])%list.
Definition readable (file : list str) : Prop := exists r, import33 ex_atof 1 0 file = Ok r.

(** A load without constant power (a constant current or constant admittance load) is left out, but the loads after it on
    the same bus keep their device index: the line is stored outside the array of lines. *)
Theorem C55_zero_power_load_refuted :
  exists file, readable file /\ length (fst (loaded file)) = 1 /\ again file = UB.
Proof.
  exists (ex_case [ex_bus "7"] [s_ "7, '1', 1, 1, 1, 0, 0, 20, 5, 0, 0, 1"; s_ "7, '2', 1, 1, 1, 25, 5, 0, 0, 0, 0, 1"] [] []).
  split; [eexists; vm_compute; reflexivity|]. split; vm_compute; reflexivity.
Qed.
Print Assumptions C55_zero_power_load_refuted.

(** With a load on another bus the two lines are stored in the same place: which of them is lost depends on the order in
    which the processes write, and another line of the block is never written. *)
Theorem C55_lines_overwritten_refuted :
  exists tls, block_lines (load_lines ex_fmt) (places (fst (loaded
      (ex_case [ex_bus "7"; ex_bus "8"] [s_ "7, '1', 1, 1, 1, 0, 0, 20, 5, 0, 0, 1"; s_ "7, '2', 1, 1, 1, 25, 5, 0, 0, 0, 0, 1";
                                          s_ "8, '1', 1, 1, 1, 30, 5, 0, 0, 0, 0, 1"] [] []))) 0) = Ok tls /\
    map (fun l => (tl_global l, tl_device l)) tls = [(0, 1); (1, 0)] /\
    exists off p q, positions off tls = Ok [(p, tl_text (nth 0 tls (Build_text_line 0 0 []))); (q, tl_text (nth 1 tls (Build_text_line 0 0 [])))] /\
      off = global_offsets [[1; 1]] /\ p = q.
Proof.
  eexists. split; [vm_compute; reflexivity|]. split; [reflexivity|]. eexists _, _, _. split; [|split]; [| |].
  2: vm_compute; reflexivity. 2: reflexivity. vm_compute. reflexivity.
Qed.
Print Assumptions C55_lines_overwritten_refuted.

(** Line and transformer between the same two buses: the transformer, read after the line, is the second element of the
    branch, but the only one of the transformer block.  Its lines are stored outside the array.  [key_of] gives the key of
    an entry with an index. *)
Definition ex_mixed : dc :=
  match key_of (Indexed "TRANSFORMER_WINDV1" 1), key_of (Indexed "TRANSFORMER_WINDV2" 1) with
  | Ok k1, Ok k2 => add_key (add_key (add_key (nth 0 (snd (loaded (ex_case [ex_bus "7"; ex_bus "8"] [] []
      [s_ "7, 8, '1', 1, 2, 3, 40, 40, 40, 0, 0, 0, 0, 1, 1, 6"; s_ "7, 8, '2', 1, 2, 3, 40, 40, 40, 0, 9, 0, 0, 1, 1, 6"])))
        dc_empty) k1 (VDouble 3)) k2 (VDouble 1)) "CASE_SBASE" (VDouble 100)
  | _, _ => dc_empty
  end.
(** Line and transformer between the same two buses: the lines of the transformer are stored outside the array of the
    transformer block. *)
Theorem C55_transformer_block_refuted :
  look ex_mixed TDouble (Indexed "TRANSFORMER_WINDV1" 1) = Some (VDouble 3) /\
  (exists l, write_block (fun n => [n]) (fun l => l) (fun l => l) (line_lines ex_fmt) [[Build_place true 0 0 ex_mixed]] = Ok [l]) /\
  (exists tl, xform_lines ex_fmt (Build_place true 0 0 ex_mixed) = Ok [tl] /\ tl_device tl = 1) /\
  write_block (fun n => [n]) (fun l => l) (fun l => l) (xform_lines ex_fmt) [[Build_place true 0 0 ex_mixed]] = UB.
Proof.
  split; [vm_compute; reflexivity|]. split; [eexists; vm_compute; reflexivity|]. split; [|vm_compute; reflexivity].
  eexists. split; vm_compute; reflexivity.
Qed.
Print Assumptions C55_transformer_block_refuted.

(** The direction of an element that was given with its ends exchanged: the export always writes the ends of the branch
    in the order of the first element, so the element comes back with its from end where its to end was. *)
Theorem C55_reversed_element_refuted :
  exists file d d' bs', readable file /\ snd (loaded file) = [d] /\ again file = Ok (bs', [d']) /\
    look d TBool (Indexed "BRANCH_SWITCHED" 1) = Some (VBool true) /\ look d' TBool (Indexed "BRANCH_SWITCHED" 1) = Some (VBool false) /\
    look d' TDouble (Indexed "BRANCH_SHUNT_ADMTTNC_B1" 1) = look d TDouble (Indexed "BRANCH_SHUNT_ADMTTNC_B1" 1).
Proof.
  exists (ex_case [ex_bus "7"; ex_bus "8"] [] [] [s_ "7, 8, '1', 1, 2, 3, 40, 40, 40, 0, 0, 0, 0, 1, 1, 6"; s_ "8, 7, '2', 1, 2, 3, 40, 40, 40, 0, 9, 0, 0, 1, 1, 6"]).
  eexists _, _, _. split; [eexists; vm_compute; reflexivity|]. split; [vm_compute; reflexivity|].
  split; [vm_compute; reflexivity|]. repeat split; vm_compute; reflexivity.
Qed.
Print Assumptions C55_reversed_element_refuted.

(** The step-up transformer of a generator is read into one complex entry and exported from two real ones that no parser
    writes: it comes back as zero. *)
Theorem C55_generator_transformer_refuted :
  exists file d d', readable file /\ fst (loaded file) = [d] /\ again file = Ok ([d'], []) /\
    look d TComplex (Indexed "GENERATOR_XTRAN" 0) = Some (VComplex 3 4) /\ look d' TComplex (Indexed "GENERATOR_XTRAN" 0) = Some (VComplex 0 0).
Proof.
  exists (ex_case [ex_bus "7"] [] [ex_gen "7"] []). eexists _, _. split; [eexists; vm_compute; reflexivity|]. split; [vm_compute; reflexivity|].
  split; [vm_compute; reflexivity|]. split; vm_compute; reflexivity.
Qed.
Print Assumptions C55_generator_transformer_refuted.

(** The owners of a line are lost: its shares are stored as ints and looked for as reals. *)
Theorem C55_line_owners_refuted :
  exists file d d' bs', readable file /\ snd (loaded file) = [d] /\ again file = Ok (bs', [d']) /\
    look d TInt (Indexed "BRANCH_O1" 0) = Some (VInt 12) /\ look d' TInt (Indexed "BRANCH_O1" 0) = None.
Proof.
  exists (ex_case [ex_bus "7"; ex_bus "8"] [] [] [s_ "7, 8, '1', 1, 2, 3, 40, 40, 40, 0, 0, 0, 0, 1, 1, 6, 12, 1"]).
  eexists _, _, _. split; [eexists; vm_compute; reflexivity|]. split; [vm_compute; reflexivity|].
  split; [vm_compute; reflexivity|]. split; vm_compute; reflexivity.
Qed.
Print Assumptions C55_line_owners_refuted.

(** The header takes the base power from the first bus of rank 0: if the partition leaves rank 0 without a bus, the file
    says that the base power is 0, and every power of the case is then divided by zero by whoever reads it. *)
Theorem C55_header_refuted :
  exists file, export33 ex_fmt ex_fmt (fun n => [0; n]) (fun l => l) (fun l => l) [[]; concat ex_buses] ex_branches = Ok file /\
    exportable_buses [[]; concat ex_buses] /\
    look (nth 0 ex_ds dc_empty) TDouble (Plain "CASE_SBASE") = Some (VDouble 100) /\
    exists id st, case_record ex_atof file = Ok (id, 0%Z, st).
Proof.
  eexists. split; [vm_compute; reflexivity|]. split; [apply busesb_ok; vm_compute; reflexivity|]. split; [vm_compute; reflexivity|].
  eexists _, _. vm_compute. reflexivity.
Qed.
Print Assumptions C55_header_refuted.

(** A comma in the name of a bus (set with setValue: the parser cannot read one) splits the name when the export is read: the later fields of
    the record move one place on, here the base voltage. *)
Theorem C55_name_comma_refuted :
  exists d d', bus_okb d = true /\
    (exists f, export33 ex_fmt ex_fmt (fun n => [n]) (fun l => l) (fun l => l) [[Build_place true 0 7 (fst (set_key d "BUS_NAME" (VString "A, B")))]] [[]] = Ok f /\
       exists b, import33 ex_atof 1 0 f = Ok (b, [d'], Build_branches [] [] 0, [])) /\
    look d TDouble (Plain "BUS_BASEKV") = Some (VDouble 138) /\ look d' TDouble (Plain "BUS_BASEKV") <> Some (VDouble 138).
Proof.
  exists (nth 0 (fst (loaded (ex_case [ex_bus "7"] [] [] []))) dc_empty). eexists. split; [vm_compute; reflexivity|].
  split; [eexists; split; [vm_compute; reflexivity|]; eexists; vm_compute; reflexivity|]. split; [vm_compute; reflexivity|].
  vm_compute. discriminate.
Qed.
Print Assumptions C55_name_comma_refuted.

(** A bus name of one character comes back as that character and a blank. *)
Theorem C55_short_name_refuted :
  exists d d', bus_okb d = true /\
    (exists f, export33 ex_fmt ex_fmt (fun n => [n]) (fun l => l) (fun l => l) [[Build_place true 0 7 (fst (set_key d "BUS_NAME" (VString "A")))]] [[]] = Ok f /\
       exists b, import33 ex_atof 1 0 f = Ok (b, [d'], Build_branches [] [] 0, [])) /\
    look d' TString (Plain "BUS_NAME") <> Some (VString "A").
Proof.
  exists (nth 0 (fst (loaded (ex_case [ex_bus "7"] [] [] []))) dc_empty). eexists. split; [vm_compute; reflexivity|].
  split; [eexists; split; [vm_compute; reflexivity|]; eexists; vm_compute; reflexivity|].
  vm_compute. discriminate.
Qed.
Print Assumptions C55_short_name_refuted.

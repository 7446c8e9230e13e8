(** Specification for contingency analysis (C59). *)
From Verif Require Import Prelude StrModel StrSpec PqModel FmModel FmSpec CaModel.
From Verif Require DCModel.
From Coq Require Import Reals.
Open Scope R_scope.

(** ** The network a contingency stands for *)
(** The contingency names the line, written from either end, or the generator. *)
Definition named_line (e : event) (f : fbr) (l : line) : bool :=
  match e with
  | ELine es => existsb (fun x => let '(a, b, t, _) := x in
      (((f_1 f =? a) && (f_2 f =? b)) || ((f_1 f =? b) && (f_2 f =? a)))%Z && String.eqb t (n_tag l)) es
  | _ => false
  end.
Definition named_gen (e : event) (b : fbus) (g : gen) : bool :=
  match e with EGen es => existsb (fun x => let '(i, t, _) := x in (i =? u_id b)%Z && String.eqb t (g_id g)) es | _ => false end.
(** A generator out of service has no reactive limits and no share. *)
Definition shut (p : Z * gen) : Z * gen :=
  let g := snd p in (0%Z, Gen (g_id g) (g_pg g) (g_qg g) 0 0 (g_qmaxo g) (g_qmino g) (g_pt g) (g_pb g) 0 (g_faco g)).
(** The named elements are out of service and the buses without any line in service are isolated. *)
Definition lines_out (e : event) (f : fbr) : fbr :=
  with_lines f (map (fun l => Line (n_tag l) (n_on l && negb (named_line e f l)) (n_A l) (n_B l) (n_ign l) (n_S l)) (f_lines f)).
Definition without_lines (brs : list fbr) (b : fbus) : bool :=
  forallb (fun j => match nth_error brs j with Some f => forallb (fun l => negb (n_on l)) (f_lines f) | None => true end) (u_near b).
Definition gens_out (e : event) (b : fbus) : fbus :=
  let l := map (fun p => if named_gen e b (snd p) then shut p else p) (combine (q_gst (u_q b)) (q_gens (u_q b))) in
  with_q b (set_gens (u_q b) (map fst l) (map snd l)).
Definition outage (e : event) (s : proc) : proc :=
  let brs := map (lines_out e) (s_brs s) in
  Proc (map (fun b => with_iso (gens_out e b) (u_iso b || without_lines brs b)) (s_bus s)) brs (s_viol s) (s_sav s) (s_rateB s).
(** The voltages are those of the case, nothing has been computed. *)
Definition start (s : proc) : proc := blank (reset_voltages s).
(** The buses that are not to be checked: in the code those within their limits in the solution [z] of the base case. *)
Definition flagged (z : sol) (s : proc) : proc :=
  with_bus s (mapi (fun i b => with_ign b (u_ign b || negb (if Rlt_dec (u_vmax b) (z_v z i) then true else if Rlt_dec (z_v z i) (u_vmin b) then true else false))) 0 (s_bus s)).

(** ** What is to be reported for it *)
Section Expected.
Variable newton : proc -> sol.
Variables isref orig : nat -> bool.
Definition loads_on (f : ld -> R) (b : fbus) : R := fold_right Rplus 0 (map f (filter (fun l => (l_st l =? 1)%Z) (q_lds (u_q b)))).
(** A checked bus is out of its limits, a checked line carries more than its rating. *)
Definition bus_bad (x : proc) (z : sol) : bool :=
  existsb (fun o => o) (mapi (fun i b => negb (u_ign b) && (if Rlt_dec (u_vmax b) (z_v z i) then true else if Rlt_dec (z_v z i) (u_vmin b) then true else false)) 0 (s_bus x)).
Definition line_bad (x : proc) (z : sol) : bool :=
  existsb (fun o => o) (concat (mapi (fun k f => mapi (fun j l => negb (n_ign l) &&
    match rating (s_rateB x) l with Some r => if Rlt_dec 0 r then if Rlt_dec r (cabs (z_flow z k j)) then true else false else false | None => false end) 0 (f_lines f)) 0 (s_brs x))).
Definition verdict (x : proc) (z : sol) : Z :=
  match bus_bad x z, line_bad x z with false, false => 1 | true, false => 2 | false, true => 3 | true, true => 4 end%Z.
(** Output of a generator: at the reference bus a share of what the bus needs; at another bus with controlled voltage a share of
    the reactive power, if it is in service; else as given. *)
Definition injected (z : sol) (i : nat) (b : fbus) : R := if u_iso b then snd (z_inj z i) else z_Q z i.
Definition output_p (z : sol) (i : nat) (b : fbus) (g : gen) : R :=
  if isref i then g_fac g * (fst (z_inj z i) * q_sb (u_q b) + loads_on l_pl b) else g_pg g.
Definition output_q (z : sol) (i : nat) (b : fbus) (st : Z) (g : gen) : R :=
  if isref i then g_fac g * (snd (z_inj z i) * q_sb (u_q b) + loads_on l_ql b)
  else if q_pv (u_q b) then if (st =? 0)%Z then 0 else g_fac g * (injected z i b * q_sb (u_q b) + loads_on l_ql b)
  else g_qg g.
Definition per_gen (h : nat -> fbus -> Z -> gen -> R * Z) (x : proc) : list (R * Z) :=
  concat (mapi (fun i b => map (fun p => h i b (fst p) (snd p)) (combine (q_gst (u_q b)) (q_gens (u_q b)))) 0 (s_bus x)).
(** A line that is out of service or ends at an isolated bus carries nothing; mask 2 marks a line above rating A. *)
Definition dead (x : proc) (f : fbr) (l : line) : bool :=
  negb (n_on l) || existsb (fun i => match nth_error (s_bus x) i with Some b => u_iso b | None => false end) [f_b1 f; f_b2 f].
Definition loading (z : sol) (k j : nat) (l : line) : R :=
  match n_A l with Some a => if Rlt_dec 0 a then cabs (z_flow z k j) / a else 0 | None => 0 end.
Definition per_line (h : nat -> fbr -> nat -> line -> R * Z) (x : proc) : list (R * Z) :=
  concat (mapi (fun k f => mapi (h k f) 0 (f_lines f)) 0 (s_brs x)).
Definition above_a (z : sol) (k j : nat) (l : line) : Z := if Rlt_dec 1 (loading z k j l) then 2%Z else 1%Z.
(** Magnitudes are listed of the buses without voltage control that were not isolated in the case. *)
Definition per_mag (h : nat -> R * Z) (x : proc) : list (R * Z) :=
  concat (mapi (fun i b => if q_pv (u_q b) || orig i then [] else [h i]) 0 (s_bus x)).
Definition report (ok : bool) (code : Z) (x : proc) (z : sol) : result :=
  Res ok code (per_mag (fun i => (z_v z i, 1%Z)) x) (mapi (fun i _ => (z_a z i * 180 / PI, 1%Z)) 0 (s_bus x))
    (per_gen (fun i b _ g => (output_p z i b g, 1%Z)) x) (per_gen (fun i b st g => (output_q z i b st g, 1%Z)) x)
    (per_line (fun k f j l => (if dead x f l then 0 else fst (z_flow z k j), above_a z k j l)) x)
    (per_line (fun k f j l => (if dead x f l then 0 else snd (z_flow z k j), above_a z k j l)) x)
    (per_line (fun k f j l => ((loading z k j l) ^ 2, above_a z k j l)) x).
Definition no_report (x : proc) : result :=
  let z0 := (0, 0%Z) in
  Res false 0 (per_mag (fun _ => z0) x) (map (fun _ => z0) (s_bus x)) (per_gen (fun _ _ _ _ => z0) x) (per_gen (fun _ _ _ _ => z0) x)
    (per_line (fun _ _ _ _ => z0) x) (per_line (fun _ _ _ _ => z0) x) (per_line (fun _ _ _ _ => z0) x).
(** The network [x] with the contingency is solved by itself. *)
Definition expected (x : proc) : result :=
  let z := newton x in match z_end z with Converged => report true (verdict x z) x z | _ => no_report x end.
End Expected.

(** ** When it applies *)
(** The process holds the whole network, which has been loaded: exchange buffers are set, the type of every bus is the saved one, and
    identifiers of lines and of generators differ. *)
Definition whole (s : proc) : Prop :=
  (forall b, In b (s_bus s) -> u_act b = true /\ q_xc (u_q b) <> None /\ q_save (u_q b) = Some (q_pv (u_q b)) /\ NoDup (map g_id (q_gens (u_q b)))) /\
  (forall f, In f (s_brs s) -> f_act f = true).
(** A generator named by the contingency has status 0 or 1 and the limits and share that go with it. *)
Definition settled_gen (p : Z * gen) : Prop :=
  let g := snd p in
  (fst p = 1%Z /\ g_qmax g = g_qmaxo g /\ g_qmin g = g_qmino g /\ g_fac g = g_faco g) \/ (fst p = 0%Z /\ g_qmax g = 0 /\ g_qmin g = 0 /\ g_fac g = 0).
Definition settled (e : event) (s : proc) : Prop :=
  forall b p, In b (s_bus s) -> In p (combine (q_gst (u_q b)) (q_gens (u_q b))) -> named_gen e b (snd p) = true -> settled_gen p.
(** A contingency names no element twice and has a name the messages have room for. *)
Definition usable (s : proc) (c : string * event) : Prop :=
  distinct_elements (snd c) /\ settled (snd c) s /\ (String.length (fst c) <= 92)%nat.
(** Every process has called nextTask until it was refused. *)
Definition all_called (n P : nat) (cs : list nat) : Prop :=
  (forall r, In r cs -> (r < P)%nat) /\ forall r, (r < P)%nat -> count_occ Nat.eq_dec cs r = S (length (tasks_of n P cs r)).

(** ** The list of contingencies *)
(** The value under a key is a list of words between blanks. *)
Definition holds (c : list (string * string)) (key : string) (ws : list str) : Prop :=
  exists text fs trail, DCModel.m_find c key = Some text /\ list_ascii_of_string text = write fs trail /\ fs <> [] /\ well_written fs trail /\ map snd fs = ws.
Definition number (i : Z) (w : str) : Prop := DCModel.is_int i = true /\ w = list_ascii_of_string (DCModel.dec i).
Definition tag (t w : str) : Prop := ident t /\ spelling t w.
Definition tag_of (t : str) : string := string_of_list_ascii (canonical t).
Inductive describes (c : list (string * string)) : string * event -> Prop :=
| d_line name (es : list (Z * Z * str)) bs ts :
    DCModel.m_find c "contingencyName" = Some name -> DCModel.m_find c "contingencyType" = Some "Line"%string ->
    holds c "contingencyLineBuses" bs -> holds c "contingencyLineNames" ts ->
    Forall2 number (flat_map (fun x => [fst (fst x); snd (fst x)]) es) bs -> Forall2 tag (map snd es) ts ->
    describes c (name, ELine (map (fun x => (fst (fst x), snd (fst x), tag_of (snd x), true)) es))
| d_gen name (es : list (Z * str)) bs ts :
    DCModel.m_find c "contingencyName" = Some name -> DCModel.m_find c "contingencyType" = Some "Generator"%string ->
    holds c "contingencyBuses" bs -> holds c "contingencyGenerators" ts ->
    Forall2 number (map fst es) bs -> Forall2 tag (map snd es) ts ->
    describes c (name, EGen (map (fun x => (fst x, tag_of (snd x), true)) es)).

(** Property C84: a run depends only on the flow field at and next to the cells its particles visit. *)
From Coq Require Import ZArith Bool String List Lia.
From Verif Require Import Num F64 F64Laws Py NumFacts NumMore Walker ParticleTrack SpecWeights SpecPick SpecWalk SpecHist SpecInit SpecApi SpecLocal
  ProofLocal Examples ExamplesReach.
Import ListNotations.
Open Scope Z_scope.

(** C84 Run a program (any sequence of admissible calls) on the flow field p1.  If p2 has the same parameters and the same array values at every cell that a particle
    is recorded in at any time, and at the eight neighbours of these cells, then the same program with the same random stream runs to the end on p2 too, returns
    the same walk data and leaves the generator in the same state. *)
Theorem C84_locality :
  forall G lm L W (p1 p2 : params f64) P1 P2 p1' p2' draws pos os s,
    standard lm L W p1 -> init lm p1 = Ok (P1, p1') -> init lm p2 = Ok (P2, p2') -> unit_stream G draws ->
    Forall (op_ok G lm P1) os -> do_ops lm P1 draws os (init_sim lm P1 pos) = Ok s ->
    params_agree (around (recorded lm P1 draws os (init_sim lm P1 pos))) p1 p2 ->
    exists t, do_ops lm P2 draws os (init_sim lm P2 pos) = Ok t /\
      s_walk t = s_walk s /\ s_np t = s_np s /\ w_pos (s_wst t) = w_pos (s_wst s).
Proof. intros G. exact local_program. Qed.
Print Assumptions C84_locality.

(** The example field, and a copy in which the depth of the rows 7 to 9 is larger by one; two particles start at (3,3) and make a step. *)
Definition lo_params : params f64 :=
  {| p_dx := Some (nofZ 10); p_depth := Some (Arr 10 9 (fun i j => if 7 <=? i then nadd (cell gx_depth i j) n1 else cell gx_depth i j)); p_stage := Some gx_stage; p_topo := None;
     p_model := Some "DeltaRCM"%string; p_qx := Some gx_qx; p_qy := Some gx_qy; p_u := None; p_v := None;
     p_theta := Some n1; p_gamma := None; p_diff := None; p_dry := None; p_ct := None; p_steep := None;
     p_dist := None; p_ivec := None; p_jvec := None; p_iwalk := None; p_jwalk := None; p_angles := None;
     p_roi := None; p_vars := Some ["depth"%string] |}.
Definition lo_ops : list (op f64) := [OpGen 2 [3] [3] n0 Exact None; OpRun].
Definition lo_run (n : nat) := do_ops ex_lm ex_P ex_draws (firstn n lo_ops) (init_sim ex_lm ex_P 0).
Definition rows_near (r : res (psim f64)) : bool :=
  match r with
  | Ok s => match s_walk s with Some w => forallb (forallb (fun x => (2 <=? x) && (x <=? 4))) (xinds w) | None => true end
  | Err _ => false
  end.
Lemma lo_rows : rows_near (lo_run 0) && rows_near (lo_run 1) && rows_near (lo_run 2) = true.
Proof. vm_compute. reflexivity. Qed.
Lemma lo_recorded x y : recorded ex_lm ex_P ex_draws lo_ops (init_sim ex_lm ex_P 0) x y -> 2 <= x <= 4.
Proof.
  pose proof lo_rows as C. apply andb_true_iff in C as (C & C2). apply andb_true_iff in C as (C0 & C1).
  assert (ALL : forall n, (n < 3)%nat -> rows_near (lo_run n) = true) by (intros [|[|[|n]]] Hn; [exact C0 | exact C1 | exact C2 | lia]).
  intros (o1 & o2 & s & w & EO & E & SW & q & m & Hq & Hm & EX & _).
  assert (LO : (length o1 < 3)%nat) by (apply (f_equal (@length _)) in EO; rewrite app_length in EO; cbn in EO; lia).
  specialize (ALL _ LO). unfold lo_run in ALL. rewrite EO, firstn_app, firstn_all, Nat.sub_diag in ALL. cbn [firstn] in ALL. rewrite app_nil_r, E in ALL. cbn [rows_near] in ALL. rewrite SW in ALL.
  rewrite forallb_forall in ALL. specialize (ALL (nth q (xinds w) []) (nth_In _ _ Hq)). rewrite forallb_forall in ALL. specialize (ALL _ (nth_In _ 0 Hm)). rewrite EX in ALL. lia.
Qed.
Lemma rows_near_ok r : rows_near r = true -> exists s, r = Ok s.
Proof. destruct r as [s|e]; intros C; [exists s; reflexivity | discriminate C]. Qed.
Lemma lo_run_2 : lo_run 2 = do_ops ex_lm ex_P ex_draws lo_ops (init_sim ex_lm ex_P 0).
Proof. unfold lo_run. exact (f_equal (fun l => do_ops ex_lm ex_P ex_draws l (init_sim ex_lm ex_P 0)) (eq_refl lo_ops)). Qed.
Lemma lo_ok : exists s, do_ops ex_lm ex_P ex_draws lo_ops (init_sim ex_lm ex_P 0) = Ok s.
Proof. rewrite <- lo_run_2. apply rows_near_ok. exact (proj2 (andb_prop _ _ lo_rows)). Qed.
Definition lo_P : pobj f64 := fst (unerr (gx_none, lo_params) (init ex_lm lo_params)).
Example C84_example : exists p1' p2' s,
  standard ex_lm 10 9 ex_params /\ init ex_lm ex_params = Ok (ex_P, p1') /\ init ex_lm lo_params = Ok (lo_P, p2') /\ unit_stream any_draw ex_draws /\
  Forall (op_ok any_draw ex_lm ex_P) lo_ops /\ do_ops ex_lm ex_P ex_draws lo_ops (init_sim ex_lm ex_P 0) = Ok s /\
  params_agree (around (recorded ex_lm ex_P ex_draws lo_ops (init_sim ex_lm ex_P 0))) ex_params lo_params /\
  neqb (cell (o_depth ex_P) 8 4) (cell (o_depth lo_P) 8 4) = false.
Proof.
  destruct ex_init as (p1' & E1). destruct lo_ok as (s & E2). exists p1', (snd (unerr (gx_none, lo_params) (init ex_lm lo_params))), s.
  split; [exact ex_standard|]. split; [exact E1|]. split; [unfold lo_P; rewrite <- surjective_pairing; apply is_ok_unerr; vm_compute; reflexivity|].
  split; [exact ex_stream_any|]. split.
  { constructor; [|constructor; [split; exact I | constructor]]. split; [|exact I]. cbn [seeds_ok]. split; [lia|]. split; [reflexivity|].
    intros x y [H|[]]. injection H as <- <-. right. vm_compute. repeat split; congruence. }
  split; [exact E2|].
  split; [|vm_compute; reflexivity].
  repeat split. intros i j (x & y & RC & Hi & Hj). apply lo_recorded in RC. cbn [cell ex_params lo_params gx_params gx_depth]. destruct (Z.leb_spec 7 i); [lia | reflexivity].
Qed.

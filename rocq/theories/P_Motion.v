(** Properties C11 - C18: motion of particles and travel times. *)
From Coq Require Import ZArith Bool String List Lia QArith Qcanon.
From Verif Require Import Num XQ XQLaws F64 F64Laws Py NumFacts NumMore Walker ParticleTrack SpecWeights SpecPick SpecWalk SpecHist SpecInit
  SpecMotion SpecExact SpecApi ProofInit ProofTimeExact ProofTimeApi ProofApi2 ProofInside ProofStuck Examples ExamplesReach ExamplesExact ExamplesQ ExamplesND.
Import ListNotations.
Open Scope Z_scope.

(** The concrete session used in the examples: five particles on a 10 x 9 grid. *)
Lemma ex_session : session any_draw ex_lm 10 9 ex_params ex_P ex_draws ex_s.
Proof. split; [exact ex_standard|]. split; [exact ex_init|]. split; [exact ex_stream_any | apply ex_reached]. Qed.
Lemma ex_session_G : session ex_G ex_lm 10 9 ex_params ex_P ex_draws ex_s.
Proof. split; [exact ex_standard|]. split; [exact ex_init|]. split; [exact ex_stream_G | apply ex_reached]. Qed.

(** C11 Consecutive recorded positions differ by at most one row and one column. *)
Theorem C11_one_cell_per_step :
  forall G lm L W (p : params f64) P draws s w q i,
    session G lm L W p P draws s -> s_walk s = Some w -> (q < count w)%nat -> (S i < length (r_x (hist P w q)))%nat ->
    Z.abs (xat (hist P w q) (S i) - xat (hist P w q) i) <= 1 /\ Z.abs (yat (hist P w q) (S i) - yat (hist P w q) i) <= 1.
Proof. intros G. exact session_step_size. Qed.
Print Assumptions C11_one_cell_per_step.
Example C11_example : session any_draw ex_lm 10 9 ex_params ex_P ex_draws ex_s /\ s_walk ex_s = Some ex_w /\ (1 < count ex_w)%nat /\
  r_x (hist ex_P ex_w 1) = [2; 2; 3; 4; 5; 6; 7; 8] /\ r_y (hist ex_P ex_w 1) = [5; 6; 6; 6; 6; 5; 4; 5].
Proof. split; [exact ex_session|]. split; [apply ex_walk|]. split; [rewrite (proj2 ex_walk); lia|]. exact ex_row1. Qed.

(** C12 A particle next to an edge cell is left as it is by every run, with or without a target time. *)
Theorem C12_sticky_edges :
  forall G lm L W (p : params f64) P draws os, Forall is_run os ->
  forall s s' w q, session G lm L W p P draws s -> s_walk s = Some w -> (q < count w)%nat ->
    edge_nearby P (last_x (hist P w q)) (last_y (hist P w q)) ->
    do_ops lm P draws os s = Ok s' -> exists w', s_walk s' = Some w' /\ hist P w' q = hist P w q.
Proof. intros G lm L W p P draws os F s s' w q SS EW Hq EN. exact (session_stuck_runs lm L W p P draws os F s s' w q SS EW Hq (or_intror EN)). Qed.
Print Assumptions C12_sticky_edges.
Example C12_example : edge_nearby ex_P (last_x (hist ex_P ex_w 1)) (last_y (hist ex_P ex_w 1)) /\
  exists s', do_ops ex_lm ex_P ex_draws [OpRun; OpRunTo (nofZ 60) 5] ex_s = Ok s'.
Proof.
  split.
  - change (last_x (hist ex_P ex_w 1)) with (nth (length (r_x (row (tvars ex_P) ex_w 1)) - 1) (r_x (row (tvars ex_P) ex_w 1)) 0).
    change (last_y (hist ex_P ex_w 1)) with (nth (length (r_x (row (tvars ex_P) ex_w 1)) - 1) (r_y (row (tvars ex_P) ex_w 1)) 0).
    destruct ex_row1 as (-> & ->). exists 9, 5. cbn [length nth Nat.sub]. split; [split; [change (nrow (o_depth ex_P)) with 10 | change (ncol (o_depth ex_P)) with 9]; lia|].
    split; [lia|]. split; [lia|]. vm_compute. reflexivity.
  - eexists. apply (is_ok_unerr ex_s). destruct ex_facts as (_ & _ & _ & _ & _ & _ & _ & _ & _ & F & _). exact F.
Qed.

(** C13 With all seeds strictly inside the outer ring, every recorded position is strictly inside it. *)
Theorem C13_never_leaves_domain :
  forall G lm L W (p : params f64) P draws s w q i,
    session_inside G lm L W p P draws s -> s_walk s = Some w -> (q < count w)%nat -> (i < length (r_x (hist P w q)))%nat ->
    1 <= xat (hist P w q) i < L - 1 /\ 1 <= yat (hist P w q) i < W - 1.
Proof. intros G. exact session_stays_inside. Qed.
Print Assumptions C13_never_leaves_domain.
Example C13_example : session_inside any_draw ex_lm 10 9 ex_params ex_P ex_draws ex_s.
Proof.
  split; [exact ex_standard|]. split; [exact ex_init|]. split; [exact ex_stream_any|]. exists 0%nat, ex_ops. split; [|exact ex_run].
  assert (SI : forall x y, 1 <= x < 9 -> 1 <= y < 8 -> inside ex_P x y).
  { intros x y Hx Hy. split; [change (nrow (o_depth ex_P)) with 10 | change (ncol (o_depth ex_P)) with 9]; lia. }
  destruct (ex_reached any_draw) as (pos & os & _). clear pos os.
  assert (SS : forall x y, inside ex_P x y -> safe_pos ex_P x y).
  { intros x y (A & B). right. change (nrow (o_depth ex_P)) with 10 in *. change (ncol (o_depth ex_P)) with 9 in *. lia. }
  unfold ex_ops, gx_ops. constructor; [|constructor; [|constructor; [|constructor; [|constructor; [|constructor]]]]].
  - assert (Q : forall x y, In x [2; 3] -> In y [3; 5] -> inside ex_P x y) by (intros x y; cbn [In]; intros; apply SI; lia).
    split; [split; [split; [lia | intros x y Hx Hy; apply SS, Q; assumption] | exact I] | split; [exact Q | reflexivity]].
  - split; [split; exact I | exact I].
  - assert (Q : forall x y, In (x, y) (combine [3] [4]) -> inside ex_P x y) by (intros x y; cbn [In combine]; intros [H|[]]; injection H as <- <-; apply SI; lia).
    split; [split; [split; [lia | split; [reflexivity | intros x y H; apply SS, Q, H]] | exact I] | split; [exact Q | reflexivity]].
  - split; [split; exact I | exact I].
  - split; [split; exact I | exact I].
Qed.

(** C14 The claim is false for seeds in row 0 or column 0 (other than (0,0)): one step can lead off the grid. *)
Theorem C14_ring_seed_refuted :
  exists lm (p : params f64) P p' draws s w,
    standard lm 10 9 p /\ init lm p = Ok (P, p') /\ unit_stream any_draw draws /\
    do_ops lm P draws [OpGen 1 [0] [3] n0 Exact None; OpRun] (init_sim lm P 0) = Ok s /\ s_walk s = Some w /\
    r_x (hist P w 0) = [0; -1] /\ r_y (hist P w 0) = [3; 2].
Proof.
  destruct ex_init as (p' & EI).
  set (ops := [OpGen 1 [0] [3] n0 Exact None; OpRun]).
  set (s := unerr ex_s (do_ops ex_lm ex_P ex_draws ops (init_sim ex_lm ex_P 0))).
  set (w := dflt (s_walk s) ex_w).
  exists ex_lm, ex_params, ex_P, p', ex_draws, s, w.
  split; [exact ex_standard|]. split; [exact EI|]. split; [exact ex_stream_any|].
  split; [apply (is_ok_unerr ex_s); vm_compute; reflexivity|].
  split. { assert (E : match s_walk s with Some _ => true | None => false end = true) by (vm_compute; reflexivity).
    unfold w. destruct (s_walk s); [reflexivity | discriminate]. }
  split; vm_compute; reflexivity.
Qed.
Print Assumptions C14_ring_seed_refuted.
(** The part that holds: seeds on the bottom row, the right column, at (0,0) or inside never leave the grid.  Missing: the top row
    and the left column. *)
Theorem C14_ring_seed_partial :
  forall G lm L W (p : params f64) P draws s w q i,
    session G lm L W p P draws s -> s_walk s = Some w -> (q < count w)%nat -> (i < length (r_x (hist P w q)))%nat ->
    0 <= xat (hist P w q) i < L /\ 0 <= yat (hist P w q) i < W.
Proof. intros G. exact session_positions. Qed.
Print Assumptions C14_ring_seed_partial.
Definition c14_ops : list (op f64) := [OpGen 3 [9; 5; 0] [4; 8; 0] n0 Exact None; OpRun; OpRunTo (nofZ 5) 4].
Definition c14_s := unerr ex_s (do_ops ex_lm ex_P ex_draws c14_ops (init_sim ex_lm ex_P 0)).
Lemma c14_session : session any_draw ex_lm 10 9 ex_params ex_P ex_draws c14_s.
Proof.
  split; [exact ex_standard|]. split; [exact ex_init|]. split; [exact ex_stream_any|]. exists 0%nat, c14_ops.
  split; [|apply (is_ok_unerr ex_s); vm_compute; reflexivity].
  constructor; [|repeat (constructor; [split; exact I|]); constructor]. split; [|exact I]. split; [lia|]. split; [reflexivity|].
  intros x y H. cbn [In combine] in H. unfold safe_pos. change (nrow (o_depth ex_P)) with 10. change (ncol (o_depth ex_P)) with 9.
  destruct H as [H|[H|[H|[]]]]; injection H as <- <-; [right; lia | right; lia | left; reflexivity].
Qed.
Example C14_example : session any_draw ex_lm 10 9 ex_params ex_P ex_draws c14_s /\ exists w, s_walk c14_s = Some w /\ count w = 3%nat.
Proof.
  split; [exact c14_session|]. exists (dflt (s_walk c14_s) ex_w).
  assert (E : match s_walk c14_s with Some _ => true | None => false end = true) by (vm_compute; reflexivity).
  split; [destruct (s_walk c14_s); [reflexivity | discriminate] | vm_compute; reflexivity].
Qed.

(** C15 A particle at cell (0,0) is left as it is by every run. *)
Theorem C15_origin_absorbing :
  forall G lm L W (p : params f64) P draws os, Forall is_run os ->
  forall s s' w q, session G lm L W p P draws s -> s_walk s = Some w -> (q < count w)%nat ->
    last_x (hist P w q) = 0 -> last_y (hist P w q) = 0 ->
    do_ops lm P draws os s = Ok s' -> exists w', s_walk s' = Some w' /\ hist P w' q = hist P w q.
Proof.
  intros G lm L W p P draws os F s s' w q SS EW Hq X0 Y0. apply (session_stuck_runs lm L W p P draws os F s s' w q SS EW Hq).
  left. rewrite X0, Y0. reflexivity.
Qed.
Print Assumptions C15_origin_absorbing.
Example C15_example : let w := dflt (s_walk c14_s) ex_w in
  session any_draw ex_lm 10 9 ex_params ex_P ex_draws c14_s /\ last_x (hist ex_P w 2) = 0 /\ last_y (hist ex_P w 2) = 0.
Proof. cbv zeta. split; [exact c14_session|]. split; vm_compute; reflexivity. Qed.

(** C16 Every newly recorded position is wet and not land, or the previous one was a dead end and the new one is a deepest cell
    next to it.  Draws that map to exactly zero are excluded. *)
Theorem C16_travels_on_wet_cells :
  forall G lm L W (p : params f64) P draws s w q i,
    session G lm L W p P draws s -> s_walk s = Some w -> (q < count w)%nat -> nisnan (o_dry P) = false ->
    (forall u, G u -> clear_draw lm P u) -> (S i < length (r_x (hist P w q)))%nat ->
    wet_arrival lm P (xat (hist P w q) i) (yat (hist P w q) i) (xat (hist P w q) (S i)) (yat (hist P w q) (S i)).
Proof. intros G. exact session_wet. Qed.
Print Assumptions C16_travels_on_wet_cells.
Example C16_example : session ex_G ex_lm 10 9 ex_params ex_P ex_draws ex_s /\ nisnan (o_dry ex_P) = false /\
  (forall u, ex_G u -> clear_draw ex_lm ex_P u).
Proof. split; [exact ex_session_G|]. split; [vm_compute; reflexivity | exact ex_clear]. Qed.

(** C17 Travel times never decrease, in IEEE double arithmetic, rounding and overflow included. *)
Theorem C17_times_never_decrease :
  forall G lm L W (p : params f64) P draws s w q i j,
    session G lm L W p P draws s -> time_params lm p -> s_walk s = Some w -> (q < count w)%nat ->
    nisfin (tat (hist P w q) 0) = true -> (i <= j)%nat -> (j < length (r_x (hist P w q)))%nat ->
    nleb (tat (hist P w q) i) (tat (hist P w q) j) = true.
Proof. intros G. exact session_times. Qed.
Print Assumptions C17_times_never_decrease.
Example C17_example : session any_draw ex_lm 10 9 ex_params ex_P ex_draws ex_s /\ time_params ex_lm ex_params /\
  nisfin (tat (hist ex_P ex_w 1) 0) = true /\ nltb (tat (hist ex_P ex_w 1) 0) (tat (hist ex_P ex_w 1) 7) = true.
Proof.
  split; [exact ex_session|]. split.
  - split; [exact ex_cos_ok|]. split; [|intros d H; discriminate]. intros dx H. injection H as <-.
    split; [vm_compute; reflexivity|]. split; vm_compute; reflexivity.
  - destruct ex_facts as (_ & _ & _ & _ & _ & F1 & F2 & _). split; [exact F1 | exact F2].
Qed.

(** C18 In exact arithmetic: distance * dx * max(0, cos) * mean of the inverse velocities * (1 + diff), |diff| <= diff_coeff / 2. *)
Theorem C18_travel_time_formula :
  forall G lm L W (p : params xq) P draws s w q i,
    session G lm L W p P draws s -> finite_field lm P -> s_walk s = Some w -> (q < count w)%nat ->
    nisfin (tat (hist P w q) 0) = true -> (S i < length (r_x (hist P w q)))%nat ->
    exists k d dx c v v' dc diff t t', let r := hist P w q in
      (k < 9)%nat /\ xat r (S i) = xat r i + nth k (o_jwalk P) 0 /\ yat r (S i) = yat r i + nth k (o_iwalk P) 0 /\
      nth k (o_dist P) n0 = XFin d /\ o_dx P = XFin dx /\
      m_cos lm (nsub (nth k (o_angles P) n0) (cell (o_vang P) (xat r i) (yat r i))) = XFin c /\
      cell (o_vel P) (xat r i) (yat r i) = XFin v /\ cell (o_vel P) (xat r (S i)) (yat r (S i)) = XFin v' /\
      o_diff P = XFin dc /\ (qabs diff <= dc * qhalf)%Qc /\ tat r i = XFin t /\ tat r (S i) = XFin t' /\
      t' = (t + d * dx * qpos c * ((1 / v + 1 / v') * qhalf) * (1 + diff))%Qc.
Proof. intros G. exact session_time_exact. Qed.
Print Assumptions C18_travel_time_formula.
(** With diff_coeff = 0 the bound leaves no room: the time does not depend on the random stream.  Two steps between the same cells take equally long, whatever streams the
    two sessions have, whichever particles take the steps and at whatever times. *)
Lemma default_steps_differ k k' : (k < 9)%nat -> (k' < 9)%nat -> nth k default_jwalk 0 = nth k' default_jwalk 0 -> nth k default_iwalk 0 = nth k' default_iwalk 0 -> k = k'.
Proof. intros H H'. do 9 (destruct k as [|k]; [do 9 (destruct k' as [|k']; [cbn; intros; try lia; reflexivity|]); lia|]). lia. Qed.
Theorem C18_no_diffusion :
  forall G lm L W (p : params xq) P draws1 draws2 s1 s2 w1 w2 q1 q2 i1 i2,
    session G lm L W p P draws1 s1 -> session G lm L W p P draws2 s2 -> finite_field lm P -> o_diff P = n0 ->
    s_walk s1 = Some w1 -> s_walk s2 = Some w2 -> (q1 < count w1)%nat -> (q2 < count w2)%nat ->
    let r1 := hist P w1 q1 in let r2 := hist P w2 q2 in
    nisfin (tat r1 0) = true -> nisfin (tat r2 0) = true -> (S i1 < length (r_x r1))%nat -> (S i2 < length (r_x r2))%nat ->
    xat r1 i1 = xat r2 i2 -> yat r1 i1 = yat r2 i2 -> xat r1 (S i1) = xat r2 (S i2) -> yat r1 (S i1) = yat r2 (S i2) ->
    nsub (tat r1 (S i1)) (tat r1 i1) = nsub (tat r2 (S i2)) (tat r2 i2) /\ nisfin (nsub (tat r1 (S i1)) (tat r1 i1)) = true.
Proof.
  intros G lm L W p P draws1 draws2 s1 s2 w1 w2 q1 q2 i1 i2 SS1 SS2 FF OD W1 W2 Q1 Q2 r1 r2 F1 F2 I1 I2 EX EY EX' EY'.
  destruct (C18_travel_time_formula _ _ _ _ _ _ _ _ _ _ _ SS1 FF W1 Q1 F1 I1) as (k & d & dx & c & v & v' & dc & diff & t & t' & K & HX & HY & HD & HDX & HC & HV & HV' & HDC & B & T & T' & E).
  destruct (C18_travel_time_formula _ _ _ _ _ _ _ _ _ _ _ SS2 FF W2 Q2 F2 I2) as (k2 & d2 & dx2 & c2 & v2 & v2' & dc2 & diff2 & t2 & t2' & K2 & HX2 & HY2 & HD2 & HDX2 & HC2 & HV2 & HV2' & HDC2 & B2 & T2 & T2' & E2).
  fold r1 in HX, HY, HC, HV, HV', T, T'. fold r2 in HX2, HY2, HC2, HV2, HV2', T2, T2'.
  assert (TB : o_iwalk P = default_iwalk /\ o_jwalk P = default_jwalk).
  { destruct SS1 as ((_ & _ & _ & DT & _) & (p' & EI) & _). destruct (init_ok lm p P p' EI) as (? & ? & ? & ? & ? & ? & HH).
    decompose [and] HH. destruct DT as (_ & _ & _ & D1 & D2 & _). rewrite D1 in *. rewrite D2 in *. cbn [dflt] in *. split; assumption. }
  destruct TB as (TI & TJ). rewrite TI, TJ in *. assert (k = k2) as -> by (apply default_steps_differ; try assumption; lia).
  rewrite OD in HDC, HDC2. injection HDC as <-. injection HDC2 as <-. apply no_diffusion in B, B2. subst diff diff2.
  assert (d = d2) as -> by congruence. assert (dx = dx2) as -> by congruence. rewrite EX, EY in HC, HV. rewrite EX', EY' in HV'.
  assert (c = c2) as -> by congruence. assert (v = v2) as -> by congruence. assert (v' = v2') as -> by congruence.
  rewrite T, T', T2, T2', E, E2. split; [|reflexivity]. unfold nsub; cbn -[Qcplus Qcminus Qcmult]. apply f_equal. ring.
Qed.
Print Assumptions C18_no_diffusion.
Example C18_example : session (fun _ => True) eq_lm 10 9 eq_params eq_P eq_draws eq_s /\ finite_field eq_lm eq_P /\
  s_walk eq_s = Some eq_w /\ count eq_w = 3%nat /\ nisfin (tat (hist eq_P eq_w 1) 0) = true /\ length (r_x (hist eq_P eq_w 1)) = 5%nat.
Proof.
  split; [exact eq_session|]. split; [exact eq_finite|]. split; [apply eq_walk|]. split; [apply eq_walk|].
  destruct eq_facts as (_ & _ & _ & _ & F). split; [exact F | exact eq_row1].
Qed.
(** Two sessions with different streams; particle 1 of the first and particle 0 of the second both go from (3, 4) to (4, 3), having come there from the same
    seed on different draws. *)
Example C18_no_diffusion_example :
  session (fun _ => True) eq_lm 10 9 nd_params nd_P nd_draws1 (nd_s nd_draws1) /\ session (fun _ => True) eq_lm 10 9 nd_params nd_P nd_draws2 (nd_s nd_draws2) /\
  finite_field eq_lm nd_P /\ o_diff nd_P = n0 /\ s_walk (nd_s nd_draws1) = Some (nd_w nd_draws1) /\ s_walk (nd_s nd_draws2) = Some (nd_w nd_draws2) /\
  (let r1 := hist nd_P (nd_w nd_draws1) 1 in let r2 := hist nd_P (nd_w nd_draws2) 0 in
   nisfin (tat r1 0) = true /\ nisfin (tat r2 0) = true /\ length (r_x r1) = 4%nat /\ length (r_x r2) = 4%nat /\
   xat r1 1 = 3 /\ yat r1 1 = 4 /\ xat r1 2 = 4 /\ yat r1 2 = 3 /\ xat r2 1 = 3 /\ yat r2 1 = 4 /\ xat r2 2 = 4 /\ yat r2 2 = 3).
Proof.
  destruct nd_checked as (C1 & C2). pose proof (nd_facts _ _ C1) as F1. pose proof (nd_facts _ _ C2) as F2.
  split; [exact (nd_session _ _ eq_stream C1)|]. split; [exact (nd_session _ _ nd_stream2 C2)|]. split; [exact nd_finite|]. split; [exact nd_diff|].
  cbv zeta. tauto.
Qed.

(** Properties C29 - C33 and C69: seeding particles. *)
From Coq Require Import ZArith Bool String List Lia QArith Qcanon.
From Verif Require Import Num XQ XQLaws F64 F64Laws Py NumFacts NumMore Walker ParticleTrack Gen SpecWeights SpecPick SpecWalk SpecHist SpecInit
  SpecMotion SpecApi ProofApi2 ProofHist ProofCall ProofSeed Examples ExamplesReach P_Motion.
Import ListNotations.
Open Scope Z_scope.

(** C29 Exact seeding: particle i starts at pair number (i mod m). *)
Theorem C29_exact_round_robin :
  forall G lm L W (p : params f64) P draws s np xl yl t0 prev s',
    session G lm L W p P draws s -> op_ok G lm P (OpGen np xl yl t0 Exact prev) ->
    generate_particles P draws np xl yl t0 Exact prev s = Ok s' ->
    exists w', s_walk s' = Some w' /\ forall i, (i < Z.to_nat np)%nat ->
      let r := hist P w' (opt_count prev + stored_count s + i) in
      r_x r = [nth (i mod length xl) xl 0] /\ r_y r = [nth (i mod length xl) yl 0] /\ r_t r = [t0].
Proof.
  intros G lm L W p P draws s np xl yl t0 prev s' SS O H.
  destruct (session_generate lm L W p P draws s np xl yl t0 Exact prev s' SS O H) as (w' & xs & ys & A & (_ & _ & K) & _ & _ & _ & D).
  exists w'. split; [exact A|]. intros i Hi. cbv zeta. rewrite (D i Hi). destruct (K i Hi) as (-> & ->). split; [|split]; reflexivity.
Qed.
Print Assumptions C29_exact_round_robin.
(** ... so location j of m receives floor(n/m) particles, plus one if j < n mod m. *)
Theorem C29_balanced :
  forall n m j, (0 < m)%nat -> (j < m)%nat ->
    length (filter (fun i => (i mod m =? j)%nat) (seq 0 n)) = (n / m + (if (j <? n mod m)%nat then 1 else 0))%nat.
Proof. exact balanced. Qed.
Print Assumptions C29_balanced.
(** Such requests are accepted (also with method 'random'). *)
Theorem C29_accepted :
  forall G lm L W (p : params f64) P draws s np xl yl t0 m prev,
    session G lm L W p P draws s -> op_ok G lm P (OpGen np xl yl t0 m prev) -> vars_ok P -> xl <> [] -> yl <> [] ->
    Z.of_nat (length xl) <= 9007199254740992 -> Z.of_nat (length yl) <= 9007199254740992 ->
    exists s', generate_particles P draws np xl yl t0 m prev s = Ok s'.
Proof. intros G. exact generate_accepts. Qed.
Print Assumptions C29_accepted.
Definition c29_xl : list Z := [2; 3; 4]. Definition c29_yl : list Z := [3; 5; 6].
Lemma c29_safe x y : In x c29_xl -> In y c29_yl -> safe_pos ex_P x y.
Proof.
  unfold c29_xl, c29_yl. cbn [In]. intros Hx Hy. right. change (nrow (o_depth ex_P)) with 10. change (ncol (o_depth ex_P)) with 9. lia.
Qed.
(** Five particles, none of them moved yet. *)
Definition sd_ops : list (op f64) := [OpGen 5 [2; 3] [3; 5] n0 Random None].
Definition sd_s := unerr ex_s (do_ops ex_lm ex_P ex_draws sd_ops (init_sim ex_lm ex_P 0)).
Lemma sd_session : session any_draw ex_lm 10 9 ex_params ex_P ex_draws sd_s.
Proof.
  split; [exact ex_standard|]. split; [exact ex_init|]. split; [exact ex_stream_any|]. exists 0%nat, sd_ops.
  split; [|apply (is_ok_unerr ex_s); vm_compute; reflexivity].
  constructor; [|constructor]. split; [|exact I]. split; [lia|].
  intros x y H1 H2. cbn [In] in H1, H2. right. change (nrow (o_depth ex_P)) with 10. change (ncol (o_depth ex_P)) with 9. lia.
Qed.
Example C29_example : session any_draw ex_lm 10 9 ex_params ex_P ex_draws sd_s /\ vars_ok ex_P /\
  op_ok any_draw ex_lm ex_P (OpGen 7 c29_xl c29_yl n0 Exact None) /\ op_ok any_draw ex_lm ex_P (OpGen 7 c29_xl c29_yl n0 Random None) /\
  is_ok (generate_particles ex_P ex_draws 7 c29_xl c29_yl n0 Exact None sd_s) = true /\
  is_ok (generate_particles ex_P ex_draws 7 c29_xl c29_yl n0 Random None sd_s) = true.
Proof.
  split; [exact sd_session|].
  split. { intros v H. change (tvars ex_P) with ["depth"%string] in H. destruct H as [<-|[]]. right. eexists. reflexivity. }
  split. { split; [|exact I]. split; [lia|]. split; [reflexivity|]. intros x y H. apply c29_safe; [eapply in_combine_l | eapply in_combine_r]; exact H. }
  split. { split; [|exact I]. split; [lia|]. exact c29_safe. }
  split; vm_compute; reflexivity.
Qed.

(** C30 Random seeding: rows from seed_xloc, columns from seed_yloc. *)
Theorem C30_random_in_lists :
  forall G lm L W (p : params f64) P draws s np xl yl t0 prev s',
    session G lm L W p P draws s -> op_ok G lm P (OpGen np xl yl t0 Random prev) ->
    generate_particles P draws np xl yl t0 Random prev s = Ok s' ->
    exists w', s_walk s' = Some w' /\ forall i, (i < Z.to_nat np)%nat ->
      let r := hist P w' (opt_count prev + stored_count s + i) in
      exists x y, In x xl /\ In y yl /\ r_x r = [x] /\ r_y r = [y] /\ r_t r = [t0].
Proof.
  intros G lm L W p P draws s np xl yl t0 prev s' SS O H.
  destruct (session_generate lm L W p P draws s np xl yl t0 Random prev s' SS O H) as (w' & xs & ys & A & (LX & LY & FX & FY) & _ & _ & _ & D).
  exists w'. split; [exact A|]. intros i Hi. cbv zeta. rewrite (D i Hi). rewrite Forall_forall in FX, FY.
  exists (nth i xs 0), (nth i ys 0). split; [apply FX, nth_In; lia|]. split; [apply FY, nth_In; lia|]. split; [|split]; reflexivity.
Qed.
Print Assumptions C30_random_in_lists.
(* hypotheses: see C29_example *)

(** C31 False: row and column are drawn independently, so the pair need not be listed. *)
Theorem C31_pairs_refuted :
  exists lm L W (p : params f64) P draws s w,
    session any_draw lm L W p P draws s /\
    generate_particles P draws 3 [2; 3] [3; 5] n0 Random None (init_sim lm P 0) = Ok s /\ s_walk s = Some w /\
    r_x (hist P w 1) = [2] /\ r_y (hist P w 1) = [5] /\ ~ In (2, 5) (combine [2; 3] [3; 5]).
Proof.
  set (g := generate_particles ex_P ex_draws 3 [2; 3] [3; 5] n0 Random None (init_sim ex_lm ex_P 0)).
  set (s := unerr ex_s g).
  assert (E : g = Ok s) by (apply (is_ok_unerr ex_s); vm_compute; reflexivity).
  exists ex_lm, 10, 9, ex_params, ex_P, ex_draws, s, (dflt (s_walk s) ex_w).
  split.
  { split; [exact ex_standard|]. split; [exact ex_init|]. split; [exact ex_stream_any|].
    exists 0%nat, [OpGen 3 [2; 3] [3; 5] n0 Random None]. split; [|cbn [do_ops do_op]; fold g; rewrite E; reflexivity].
    constructor; [|constructor]. split; [|exact I]. split; [lia|]. intros x y; cbn [In]; intros. right.
    change (nrow (o_depth ex_P)) with 10. change (ncol (o_depth ex_P)) with 9. lia. }
  split; [exact E|].
  split. { assert (Q : match s_walk s with Some _ => true | None => false end = true) by (vm_compute; reflexivity).
    destruct (s_walk s); [reflexivity | discriminate]. }
  split; [vm_compute; reflexivity|]. split; [vm_compute; reflexivity|].
  cbn [In combine]. intros [H|[H|[]]]; discriminate.
Qed.
Print Assumptions C31_pairs_refuted.

(** What does hold: when the seeds lie in one row or in one column, every particle starts at one of the listed pairs. *)
Lemma in_combine_const_l (xl yl : list Z) y : length xl = length yl -> (forall x x', In x xl -> In x' xl -> x = x') -> In y yl -> forall x, In x xl -> In (x, y) (combine xl yl).
Proof.
  intros E C Hy x Hx. destruct (In_nth _ _ 0 Hy) as (k & Lk & <-). rewrite (C x (nth k xl 0) Hx) by (apply nth_In; lia).
  rewrite <- combine_nth by exact E. apply nth_In. rewrite combine_length. lia.
Qed.
Lemma in_combine_const_r (xl yl : list Z) x : length xl = length yl -> (forall y y', In y yl -> In y' yl -> y = y') -> In x xl -> forall y, In y yl -> In (x, y) (combine xl yl).
Proof.
  intros E C Hx y Hy. destruct (In_nth _ _ 0 Hx) as (k & Lk & <-). rewrite (C y (nth k yl 0) Hy) by (apply nth_In; lia).
  rewrite <- combine_nth by exact E. apply nth_In. rewrite combine_length. lia.
Qed.
Theorem C31_pairs_partial :
  forall G lm L W (p : params f64) P draws s np xl yl t0 prev s',
    session G lm L W p P draws s -> op_ok G lm P (OpGen np xl yl t0 Random prev) ->
    generate_particles P draws np xl yl t0 Random prev s = Ok s' -> length xl = length yl ->
    (forall x x', In x xl -> In x' xl -> x = x') \/ (forall y y', In y yl -> In y' yl -> y = y') ->
    exists w', s_walk s' = Some w' /\ forall i, (i < Z.to_nat np)%nat ->
      let r := hist P w' (opt_count prev + stored_count s + i) in
      exists x y, In (x, y) (combine xl yl) /\ r_x r = [x] /\ r_y r = [y] /\ r_t r = [t0].
Proof.
  intros G lm L W p P draws s np xl yl t0 prev s' SS O H E C.
  destruct (C30_random_in_lists G lm L W p P draws s np xl yl t0 prev s' SS O H) as (w' & A & B). exists w'. split; [exact A|].
  intros i Hi. destruct (B i Hi) as (x & y & Hx & Hy & R). exists x, y. split; [|exact R].
  destruct C as [C|C]; [exact (in_combine_const_l _ _ y E C Hy x Hx) | exact (in_combine_const_r _ _ x E C Hx y Hy)].
Qed.
Print Assumptions C31_pairs_partial.
Example C31_partial_example : op_ok any_draw ex_lm ex_P (OpGen 7 [2; 2; 2] c29_yl n0 Random None) /\ length [2; 2; 2] = length c29_yl /\
  (forall x x', In x [2; 2; 2] -> In x' [2; 2; 2] -> x = x') /\ is_ok (generate_particles ex_P ex_draws 7 [2; 2; 2] c29_yl n0 Random None sd_s) = true.
Proof.
  split. { split; [|exact I]. split; [lia|]. intros x y Hx. apply c29_safe. cbn [In] in *. left. lia. }
  split; [reflexivity|]. split; [intros x x'; cbn [In]; lia|]. vm_compute. reflexivity.
Qed.

(** C32 If previous_walk_data lists every tracked variable for all its particles, the result is aligned. *)
Theorem C32_aligned_partial :
  forall G lm L W (p : params f64) P draws s np xl yl t0 m prev s',
    session G lm L W p P draws s -> seeds_ok P (OpGen np xl yl t0 m prev) ->
    (forall w, prev = Some w -> shaped (tvars P) w) ->
    generate_particles P draws np xl yl t0 m prev s = Ok s' ->
    exists w', s_walk s' = Some w' /\ forall v, In v (tvars P) -> exists l, dget v (opts w') = Some l /\ length l = length (xinds w').
Proof. intros G. exact generate_aligned. Qed.
Print Assumptions C32_aligned_partial.
(* hypotheses: see C20_example *)
(** Otherwise it is not: data saved without the variable makes the variable's list too short. *)
Definition c32_prev : walk f64 := {| xinds := [[2; 3]; [4]]; yinds := [[3; 4]; [5]]; times := [[n0; n1]; [n0]]; opts := [] |}.
Theorem C32_misaligned_refuted :
  exists lm L W (p : params f64) P draws s s' w' l prev,
    session any_draw lm L W p P draws s /\ seeds_ok P (OpGen 1 [2] [3] n0 Exact (Some prev)) /\
    length (xinds prev) = 2%nat /\ length (yinds prev) = 2%nat /\ length (times prev) = 2%nat /\
    generate_particles P draws 1 [2] [3] n0 Exact (Some prev) s = Ok s' /\ s_walk s' = Some w' /\
    In "depth"%string (tvars P) /\ dget "depth"%string (opts w') = Some l /\ length (xinds w') = 8%nat /\ length l = 6%nat.
Proof.
  set (g := generate_particles ex_P ex_draws 1 [2] [3] n0 Exact (Some c32_prev) sd_s).
  set (s := unerr ex_s g). set (w := dflt (s_walk s) ex_w).
  exists ex_lm, 10, 9, ex_params, ex_P, ex_draws, sd_s, s, w, (dflt (dget "depth"%string (opts w)) []), c32_prev.
  split; [exact sd_session|].
  split. { split; [lia|]. split; [reflexivity|]. intros x y H. cbn [In combine] in H. right.
    change (nrow (o_depth ex_P)) with 10. change (ncol (o_depth ex_P)) with 9. destruct H as [H|[]]; injection H as <- <-; lia. }
  split; [reflexivity|]. split; [reflexivity|]. split; [reflexivity|].
  split; [apply (is_ok_unerr ex_s); vm_compute; reflexivity|].
  split. { assert (Q : match s_walk s with Some _ => true | None => false end = true) by (vm_compute; reflexivity).
    unfold w. destruct (s_walk s); [reflexivity | discriminate]. }
  split; [vm_compute; left; reflexivity|].
  split. { assert (Q : match dget "depth"%string (opts w) with Some _ => true | None => false end = true) by (vm_compute; reflexivity).
    destruct (dget "depth"%string (opts w)); [reflexivity | discriminate]. }
  split; vm_compute; reflexivity.
Qed.
Print Assumptions C32_misaligned_refuted.

(** C33 A request that is rejected, by the input check or later, leaves walk data and particle count alone. *)
Theorem C33_rejected_changes_nothing :
  forall (P : pobj f64) draws q prev s e s',
    call_generate P draws q prev s = (Err e, s') -> s_walk s' = s_walk s /\ s_np s' = s_np s.
Proof. intros P draws q prev s e s' H. destruct (rejected_changes_nothing P draws q prev s e s' H) as (A & B & _). split; assumption. Qed.
Print Assumptions C33_rejected_changes_nothing.
(** A request that is not rejected does what the theorems about generate_particles say. *)
Theorem C33_accepted_is_generate :
  forall (P : pobj f64) draws q prev s a s',
    call_generate P draws q prev s = (Ok a, s') ->
    exists np xl yl t0 m, gen_input_check q = Ok (np, xl, yl, t0, m) /\ generate_particles P draws np xl yl t0 m prev s = Ok s'.
Proof. intros P draws q prev s a s' H. pose proof (call_generate_spec P draws q prev s) as Q. rewrite H in Q. exact Q. Qed.
Print Assumptions C33_accepted_is_generate.
Definition c33_bad : request f64 := {| q_np := Some 2; q_x := Some [2; 40]; q_y := Some [3; 3]; q_time := Some n0; q_method := Some "exact"%string |}.
Definition c33_good : request f64 := {| q_np := Some 2; q_x := Some [2; 3]; q_y := Some [3; 3]; q_time := Some n0; q_method := Some "random"%string |}.
Example C33_example : fst (call_generate ex_P ex_draws c33_bad None sd_s) = Err IndexError /\
  fst (call_generate ex_P ex_draws c33_good None sd_s) = Ok tt.
Proof. split; vm_compute; reflexivity. Qed.

(** C69 In exact arithmetic the random choice of a seed location is uniform: location k of n is chosen exactly for the draws in
    (k/n, (k+1)/n] (closed at 0 for k = 0). *)
Theorem C69_uniform_seed_choice :
  forall (c : list Z) (u : Qc), c <> [] -> Z.of_nat (length c) <= 9007199254740992 -> (0 <= u)%Qc -> (u < 1)%Qc ->
    exists k, random_pick_seed c (XFin u) = Ok (nth k c 0) /\ (k < length c)%nat /\
      (k = 0%nat \/ inject_Z (Z.of_nat k) / inject_Z (Z.of_nat (length c)) < this u)%Q /\
      (this u <= inject_Z (Z.of_nat (S k)) / inject_Z (Z.of_nat (length c)))%Q.
Proof. intros c u. exact (uniform_choice c u 0). Qed.
Print Assumptions C69_uniform_seed_choice.
Example C69_example : random_pick_seed [4; 7; 9] (XFin (Q2Qc (1 # 2))) = Ok 7.
Proof. vm_compute. reflexivity. Qed.

(** Properties C19 - C28: the recorded walk data. *)
From Coq Require Import ZArith Bool String List Lia QArith Qcanon.
From Verif Require Import Num XQ XQLaws F64 F64Laws Py NumFacts NumMore Walker ParticleTrack SpecWeights SpecPick SpecWalk SpecHist SpecInit
  SpecMotion SpecExact SpecApi ProofTimeExact ProofTimeApi ProofApi2 ProofHist ProofEmpty ProofPick ProofStep Examples ExamplesReach P_Motion.
Import ListNotations.
Open Scope Z_scope.

(** C10 over all histories: whatever calls were made before, a visit of any cell with any draw chooses the direction that it would choose with the weights as they
    were when the object was constructed (or fails with the same error). *)
Theorem C10_every_history :
  forall G lm L W (p : params f64) P draws s, session G lm L W p P draws s ->
    forall x y (later : nat -> f64) n, in_grid P x y ->
    (r <- get_weight P later (x, y) {| w_arr := w_arr (s_wst s); w_pos := n |} ;; Ok (fst r))%res =
    (r <- get_weight P later (x, y) {| w_arr := make_weight lm P; w_pos := n |} ;; Ok (fst r))%res.
Proof.
  intros G lm L W p P draws s SS x y later n Hg. destruct (session_field _ _ _ _ _ _ _ SS) as (FO & _ & U & R & _).
  destruct (reached_inv lm P draws s FO U R) as ((WR & WC & WV) & _). destruct FO as (Hw & Hga & Hp & _).
  assert (NN := weights_no_negative lm P x y Hw Hga Hp Hg).
  assert (EV : pick_vector P (cell (w_arr (s_wst s)) x y) = pick_vector P (weights_of lm P x y)).
  { destruct (WV x y Hg) as [Q|Q]; rewrite Q; [reflexivity | apply pick_vector_idem, NN]. }
  unfold get_weight. cbn [fst snd w_arr w_pos]. rewrite WR, WC. change (nrow (make_weight lm P)) with (nrow (o_depth P)). change (ncol (make_weight lm P)) with (ncol (o_depth P)).
  rewrite !norm_ix_in by (unfold in_grid in Hg; lia). rewrite !pickfn_pick, EV. change (cell (make_weight lm P) x y) with (weights_of lm P x y).
  destruct (pick (pick_vector P (weights_of lm P x y)) (later n)); reflexivity.
Qed.
Print Assumptions C10_every_history.
Example C10_history_example : session any_draw ex_lm 10 9 ex_params ex_P ex_draws ex_s /\ s_walk ex_s = Some ex_w /\ xinds ex_w = ex_xs /\ in_grid ex_P 4 6.
Proof. split; [exact ex_session|]. split; [apply ex_walk|]. destruct ex_facts as (_ & _ & -> & _). split; [reflexivity|]. vm_compute. repeat split; congruence. Qed.

(** C19 All fields list the same particles, and all lists of one particle are equally long and not empty. *)
Theorem C19_rectangular :
  forall G lm L W (p : params f64) P draws s w, session G lm L W p P draws s -> s_walk s = Some w ->
    length (yinds w) = length (xinds w) /\ length (times w) = length (xinds w) /\
    (forall v, In v (tvars P) -> exists l, dget v (opts w) = Some l /\ length l = length (xinds w)) /\
    (forall q, (q < length (xinds w))%nat -> let n := length (nth q (xinds w) []) in
       (0 < n)%nat /\ length (nth q (yinds w) []) = n /\ length (nth q (times w) []) = n /\
       forall v l, In v (tvars P) -> dget v (opts w) = Some l -> length (nth q l []) = n).
Proof. intros G. exact session_rect. Qed.
Print Assumptions C19_rectangular.
Example C19_example : session any_draw ex_lm 10 9 ex_params ex_P ex_draws ex_s /\ s_walk ex_s = Some ex_w /\ tvars ex_P = ["depth"%string] /\
  map (@length Z) (xinds ex_w) = [6; 8; 6; 6; 6]%nat.
Proof. split; [exact ex_session|]. split; [apply ex_walk|]. split; [vm_compute; reflexivity|]. destruct ex_facts as (_ & _ & -> & _). reflexivity. Qed.

(** C20 Nothing recorded is ever altered or dropped. *)
Theorem C20_run_appends :
  forall G lm L W (p : params f64) P draws s w w' s' q,
    session G lm L W p P draws s -> s_walk s = Some w -> run_step lm P draws s = Ok (w', s') -> (q < count w)%nat ->
    s_walk s' = Some w' /\ exists n, grown n (hist P w q) (hist P w' q).
Proof.
  intros G lm L W p P draws s w w' s' q SS E H Hq. destruct (session_run lm L W p P draws s w w' s' q SS E H) as (A & _ & C).
  split; [exact A|]. destruct (C Hq); eauto.
Qed.
Print Assumptions C20_run_appends.
Theorem C20_run_to_appends :
  forall G lm L W (p : params f64) P draws s w w' wl s' target mi q,
    session G lm L W p P draws s -> s_walk s = Some w -> run_target lm P draws target mi s = Ok (w', wl, s') -> (q < count w)%nat ->
    s_walk s' = Some w' /\ exists n, grown n (hist P w q) (hist P w' q).
Proof.
  intros G lm L W p P draws s w w' wl s' target mi q SS E H Hq.
  destruct (session_run_to lm L W p P draws s w w' wl s' target mi q SS E H) as (A & _ & C).
  split; [exact A|]. destruct (C Hq) as (n & C1 & _). eauto.
Qed.
Print Assumptions C20_run_to_appends.
Theorem C20_generate_keeps :
  forall G lm L W (p : params f64) P draws s w np xl yl t0 m prev s' q,
    session G lm L W p P draws s -> s_walk s = Some w -> op_ok G lm P (OpGen np xl yl t0 m prev) ->
    generate_particles P draws np xl yl t0 m prev s = Ok s' -> (q < count w)%nat ->
    exists w', s_walk s' = Some w' /\ hist P w' (opt_count prev + q) = hist P w q.
Proof.
  intros G lm L W p P draws s w np xl yl t0 m prev s' q SS E O H Hq.
  destruct (session_generate lm L W p P draws s np xl yl t0 m prev s' SS O H) as (w' & xs & ys & A & _ & _ & _ & D & _).
  exists w'. split; [exact A|]. unfold stored_count in D. rewrite E in D. exact (D q Hq).
Qed.
Print Assumptions C20_generate_keeps.
Example C20_example : session any_draw ex_lm 10 9 ex_params ex_P ex_draws ex_s /\ is_ok (run_step ex_lm ex_P ex_draws ex_s) = true /\
  is_ok (run_target ex_lm ex_P ex_draws (nofZ 60) 5 ex_s) = true /\
  op_ok any_draw ex_lm ex_P (OpGen 4 [2; 3; 4] [3; 5; 6] n0 Exact (Some ex_w)) /\
  is_ok (generate_particles ex_P ex_draws 4 [2; 3; 4] [3; 5; 6] n0 Exact (Some ex_w) ex_s) = true.
Proof.
  destruct ex_facts as (_ & _ & _ & _ & _ & _ & _ & F1 & F2 & _ & F3).
  split; [exact ex_session|]. split; [exact F1|]. split; [exact F2|]. split; [|exact F3].
  split.
  - split; [lia|]. split; [reflexivity|]. intros x y H. cbn [In combine] in H. right.
    change (nrow (o_depth ex_P)) with 10. change (ncol (o_depth ex_P)) with 9. destruct H as [H|[H|[H|[]]]]; injection H as <- <-; lia.
  - cbn [prev_of]. destruct (session_field _ _ _ _ _ _ _ ex_session) as (FO & _ & U & R & _).
    pose proof (reached_inv _ _ _ _ FO U R) as (_ & IN). rewrite (proj1 ex_walk) in IN. apply IN.
Qed.

(** C21 Two consecutive recorded positions differ. *)
Theorem C21_no_standing_still :
  forall G lm L W (p : params f64) P draws s w q i,
    session G lm L W p P draws s -> s_walk s = Some w -> (q < count w)%nat -> (S i < length (r_x (hist P w q)))%nat ->
    (xat (hist P w q) (S i), yat (hist P w q) (S i)) <> (xat (hist P w q) i, yat (hist P w q) i).
Proof. intros G. exact session_moves. Qed.
Print Assumptions C21_no_standing_still.
(* hypotheses: see C11_example *)

(** C22 Every value of a tracked variable is the grid value at the position recorded at the same index. *)
Theorem C22_tracked_variables_agree :
  forall G lm L W (p : params f64) P draws s w q v l i,
    session G lm L W p P draws s -> s_walk s = Some w -> (q < count w)%nat -> In v (tvars P) -> dget v (opts w) = Some l ->
    (i < length (nth q (xinds w) []))%nat ->
    nth i (nth q l []) None = field_value P v (nth i (nth q (xinds w) []) 0) (nth i (nth q (yinds w) []) 0).
Proof. intros G. exact session_vars. Qed.
Print Assumptions C22_tracked_variables_agree.
Example C22_example : session any_draw ex_lm 10 9 ex_params ex_P ex_draws ex_s /\ s_walk ex_s = Some ex_w /\ In "depth"%string (tvars ex_P) /\
  exists l, dget "depth"%string (opts ex_w) = Some l /\ length (nth 1 l []) = 8%nat.
Proof.
  split; [exact ex_session|]. split; [apply ex_walk|]. split; [vm_compute; left; reflexivity|].
  destruct ex_facts as (_ & _ & _ & _ & F & _). exact F.
Qed.

(** C23 Runs keep the number and order of particles (particle q stays at index q, see C20); generate_particles adds exactly np
    particles behind previous_walk_data and the stored ones. *)
Theorem C23_run_conserves :
  forall G lm L W (p : params f64) P draws s w w' s',
    session G lm L W p P draws s -> s_walk s = Some w -> run_step lm P draws s = Ok (w', s') -> count w' = count w.
Proof.
  intros G lm L W p P draws s w w' s' SS E H. apply (session_run lm L W p P draws s w w' s' 0 SS E H).
Qed.
Print Assumptions C23_run_conserves.
Theorem C23_run_to_conserves :
  forall G lm L W (p : params f64) P draws s w w' wl s' target mi,
    session G lm L W p P draws s -> s_walk s = Some w -> run_target lm P draws target mi s = Ok (w', wl, s') -> count w' = count w.
Proof. intros G lm L W p P draws s w w' wl s' target mi SS E H. apply (session_run_to lm L W p P draws s w w' wl s' target mi 0 SS E H). Qed.
Print Assumptions C23_run_to_conserves.
Theorem C23_generate_order :
  forall G lm L W (p : params f64) P draws s np xl yl t0 m prev s',
    session G lm L W p P draws s -> op_ok G lm P (OpGen np xl yl t0 m prev) ->
    generate_particles P draws np xl yl t0 m prev s = Ok s' ->
    exists w' xs ys, s_walk s' = Some w' /\ seeded m np xl yl xs ys /\
      count w' = (opt_count prev + stored_count s + Z.to_nat np)%nat /\
      (forall q, (q < opt_count prev)%nat -> hist P w' q = opt_row (tvars P) prev q) /\
      (forall q, (q < stored_count s)%nat -> hist P w' (opt_count prev + q) = opt_row (tvars P) (s_walk s) q) /\
      (forall q, (q < Z.to_nat np)%nat -> hist P w' (opt_count prev + stored_count s + q) =
          seed_row P (tvars P) (nth q xs 0) (nth q ys 0) t0).
Proof. intros G. exact session_generate. Qed.
Print Assumptions C23_generate_order.
(* hypotheses: see C20_example *)

(** C24 run_iteration() without a target appends nothing or exactly one record to a particle. *)
Theorem C24_at_most_one_step :
  forall G lm L W (p : params f64) P draws s w w' s' q,
    session G lm L W p P draws s -> s_walk s = Some w -> run_step lm P draws s = Ok (w', s') -> (q < count w)%nat ->
    grown 0 (hist P w q) (hist P w' q) \/ grown 1 (hist P w q) (hist P w' q).
Proof. intros G lm L W p P draws s w w' s' q SS E H Hq. apply (session_run lm L W p P draws s w w' s' q SS E H), Hq. Qed.
Print Assumptions C24_at_most_one_step.
(* hypotheses: see C20_example *)

(** C25 Why a target-time run stops: limit reached, particle cannot move, or going on is not estimated to come as close. *)
Theorem C25_stopping_rule :
  forall G lm L W (p : params f64) P draws s w w' wl s' target mi q,
    session G lm L W p P draws s -> s_walk s = Some w -> run_target lm P draws target mi s = Ok (w', wl, s') -> (q < count w)%nat ->
    exists n, grown n (hist P w q) (hist P w' q) /\ stopped G lm P target mi n (hist P w' q).
Proof. intros G. exact session_run_to_stop. Qed.
Print Assumptions C25_stopping_rule.
(** In exact arithmetic, a particle that stopped for the last reason is less than half an estimated step short of the target. *)
Theorem C25_close_to_target :
  forall t d target : Qc, (0 < d)%Qc -> (qabs (t - target) < qabs (t + d - target))%Qc -> (target - d * qhalf < t)%Qc.
Proof. exact stop_close. Qed.
Print Assumptions C25_close_to_target.
Example C25_example : exists t d target : Qc, (0 < d)%Qc /\ (qabs (t - target) < qabs (t + d - target))%Qc.
Proof. exists (Q2Qc 3), (Q2Qc 2), (Q2Qc (7 # 2)). split; vm_compute; reflexivity. Qed.
(* further hypotheses: see C20_example *)

(** C26 A target-time run appends at most max(1, max_iter) records to a particle; it always returns. *)
Theorem C26_bounded :
  forall G lm L W (p : params f64) P draws s w w' wl s' target mi q,
    session G lm L W p P draws s -> s_walk s = Some w -> run_target lm P draws target mi s = Ok (w', wl, s') -> (q < count w)%nat ->
    exists n, grown n (hist P w q) (hist P w' q) /\ Z.of_nat n <= Z.max 1 mi.
Proof. intros G lm L W p P draws s w w' wl s' target mi q SS E H Hq. apply (session_run_to lm L W p P draws s w w' wl s' target mi q SS E H), Hq. Qed.
Print Assumptions C26_bounded.
Theorem C26_returns :
  forall G lm L W (p : params f64) P draws s w target mi,
    session G lm L W p P draws s -> weights_finite lm P -> s_walk s = Some w -> (0 < count w)%nat ->
    exists w' wl s', run_target lm P draws target mi s = Ok (w', wl, s').
Proof. intros G. exact session_run_to_ok. Qed.
Print Assumptions C26_returns.
Example C26_example : session any_draw ex_lm 10 9 ex_params ex_P ex_draws ex_s /\ weights_finite ex_lm ex_P /\ s_walk ex_s = Some ex_w /\ (0 < count ex_w)%nat.
Proof. split; [exact ex_session|]. split; [exact ex_weights_finite|]. split; [apply ex_walk|]. rewrite (proj2 ex_walk). lia. Qed.

(** C27 False: only the last particle can be listed in the warning.  Two particles, limit 1, distant target: both get one record,
    both are due for more, but particle 0 is not listed. *)
Definition c27_ops : list (op f64) := [OpGen 2 [3] [5] n0 Exact None].
Definition c27_s := unerr ex_s (do_ops ex_lm ex_P ex_draws c27_ops (init_sim ex_lm ex_P 0)).
Lemma c27_session : session any_draw ex_lm 10 9 ex_params ex_P ex_draws c27_s.
Proof.
  split; [exact ex_standard|]. split; [exact ex_init|]. split; [exact ex_stream_any|]. exists 0%nat, c27_ops.
  split; [|apply (is_ok_unerr ex_s); vm_compute; reflexivity].
  constructor; [|constructor]. split; [|exact I]. split; [lia|]. split; [reflexivity|].
  intros x y H. cbn [In combine] in H. right. change (nrow (o_depth ex_P)) with 10. change (ncol (o_depth ex_P)) with 9.
  destruct H as [H|[]]; injection H as <- <-; lia.
Qed.
Theorem C27_warning_incomplete_refuted :
  exists lm L W (p : params f64) P draws s w' wl s',
    session any_draw lm L W p P draws s /\ run_target lm P draws (nofZ 1000) 1 s = Ok (w', wl, s') /\
    length (r_x (hist P w' 0)) = 2%nat /\ goes_on (nofZ 1000) 1 (hist P w' 0) /\
    length (r_x (hist P w' 1)) = 2%nat /\ goes_on (nofZ 1000) 1 (hist P w' 1) /\ wl = [1].
Proof.
  set (d := (ex_w, [0], ex_s)). set (r := unerr d (run_target ex_lm ex_P ex_draws (nofZ 1000) 1 c27_s)).
  exists ex_lm, 10, 9, ex_params, ex_P, ex_draws, c27_s, (fst (fst r)), (snd (fst r)), (snd r).
  split; [exact c27_session|].
  split. { rewrite <- surjective_pairing, <- surjective_pairing. apply (is_ok_unerr d). vm_compute. reflexivity. }
  split; [vm_compute; reflexivity|]. split; [vm_compute; reflexivity|]. split; [vm_compute; reflexivity|].
  split; vm_compute; reflexivity.
Qed.
Print Assumptions C27_warning_incomplete_refuted.
(** The part that holds: the list names at most the last particle, and names it exactly if it got as many records as the limit allows.
    Missing: all other particles. *)
Theorem C27_warning_partial :
  forall G lm L W (p : params f64) P draws s w w' wl s' target mi,
    session G lm L W p P draws s -> s_walk s = Some w -> run_target lm P draws target mi s = Ok (w', wl, s') ->
    exists n, grown n (hist P w (count w - 1)) (hist P w' (count w - 1)) /\
      wl = if Z.of_nat n =? Z.max 1 mi then [Z.of_nat (count w) - 1] else [].
Proof. intros G. exact session_warning. Qed.
Print Assumptions C27_warning_partial.

(** C28 Without particles run_iteration() returns empty walk data ... *)
Theorem C28_empty_run_partial :
  forall G lm L W (p : params f64) P draws s w,
    session G lm L W p P draws s -> s_walk s = Some w -> count w = 0%nat ->
    exists w' s', run_step lm P draws s = Ok (w', s') /\ xinds w' = [] /\ yinds w' = [] /\ times w' = [].
Proof. intros G. exact session_empty_run. Qed.
Print Assumptions C28_empty_run_partial.
(** ... but with a target time it always raises UnboundLocalError. *)
Theorem C28_empty_target_run_refuted :
  forall G lm L W (p : params f64) P draws s w target mi,
    session G lm L W p P draws s -> s_walk s = Some w -> count w = 0%nat ->
    run_target lm P draws target mi s = Err UnboundLocalError.
Proof. intros G. exact session_empty_run_to. Qed.
Print Assumptions C28_empty_target_run_refuted.
Definition c28_ops : list (op f64) := [OpGen 0 [3] [5] n0 Random None].
Definition c28_s := unerr ex_s (do_ops ex_lm ex_P ex_draws c28_ops (init_sim ex_lm ex_P 0)).
Example C28_example : session any_draw ex_lm 10 9 ex_params ex_P ex_draws c28_s /\ exists w, s_walk c28_s = Some w /\ count w = 0%nat.
Proof.
  split.
  - split; [exact ex_standard|]. split; [exact ex_init|]. split; [exact ex_stream_any|]. exists 0%nat, c28_ops.
    split; [|apply (is_ok_unerr ex_s); vm_compute; reflexivity].
    constructor; [|constructor]. split; [|exact I]. split; [lia|].
    intros x y H1 H2. cbn [In] in H1, H2. right. change (nrow (o_depth ex_P)) with 10. change (ncol (o_depth ex_P)) with 9. lia.
  - exists (dflt (s_walk c28_s) ex_w).
    assert (E : match s_walk c28_s with Some _ => true | None => false end = true) by (vm_compute; reflexivity).
    split; [destruct (s_walk c28_s); [reflexivity | discriminate] | vm_compute; reflexivity].
Qed.

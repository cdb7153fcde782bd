(** Properties C85, C86 and C87: the clock, the cell size and the vertical datum (exact arithmetic). *)
From Coq Require Import ZArith Bool String List QArith Qcanon Lia.
From Verif Require Import Num Py XQ XQLaws Walker ParticleTrack SpecWeights SpecWalk SpecSim SpecShift ProofShift ExamplesExact ExamplesQ.
Import ListNotations.
Open Scope Z_scope.

(** C85 Adding a constant to every time handed to a program (start times, target times, the times in walk data handed over) adds it to every time in its walk data
    and changes nothing else: positions, tracked values, number of particles, random numbers used, and the error if there is one. *)
Theorem C85_clock :
  forall lm (P : pobj xq) draws os c pos,
    match_res (retimed (later c)) (do_ops lm P draws os (init_sim lm P pos)) (do_ops lm P draws (map (retime_op (later c)) os) (init_sim lm P pos)).
Proof. exact later_program. Qed.
Print Assumptions C85_clock.

(** The example session (three particles, two steps, a run to time 40) started at time 100 and run to time 140. *)
Example C85_example : let f := later (Qcofz 100) in
  exists t, do_ops eq_lm eq_P eq_draws (map (retime_op f) eq_ops) (init_sim eq_lm eq_P 0) = Ok t /\ s_walk t = Some (retime_walk f eq_w) /\ count (retime_walk f eq_w) = 3%nat.
Proof.
  intros f. pose proof (C85_clock eq_lm eq_P eq_draws eq_ops (Qcofz 100) 0) as H. fold f in H. rewrite eq_run in H. destruct (do_ops _ _ _ (map _ _) _) as [t|]; [|contradiction].
  exists t. split; [reflexivity|]. destruct H as (_ & H & _). rewrite (proj1 eq_walk) in H. split; [exact H | exact (proj2 eq_walk)].
Qed.

(** C86 Multiplying dx (and the times handed to the program) by k > 0 multiplies every time in the walk data by k and changes nothing else, for every program
    without target times. *)
Theorem C86_cell_size :
  forall lm (p : params xq) k, (0 < k)%Qc ->
    match_res (fun a b => forall draws os pos, Forall plain_op os ->
        match_res (retimed (times_k k)) (do_ops lm (fst a) draws os (init_sim lm (fst a) pos)) (do_ops lm (fst b) draws (map (retime_op (times_k k)) os) (init_sim lm (fst b) pos)))
      (init lm p) (init lm (with_dx (option_map (times_k k) (p_dx p)) p)).
Proof. exact scaled_program. Qed.
Print Assumptions C86_cell_size.

Lemma eq_prefix : exists s, do_ops eq_lm eq_P eq_draws [OpGen 3 [2; 3] [3; 5] n0 Random None; OpRun; OpRun] (init_sim eq_lm eq_P 0) = Ok s.
Proof.
  pose proof eq_run as H. unfold eq_ops in H. cbn [do_ops] in H |- *.
  destruct (do_op eq_lm eq_P eq_draws _ (init_sim eq_lm eq_P 0)) as [s1|]; [|discriminate]. cbn [bind] in *.
  destruct (do_op eq_lm eq_P eq_draws OpRun s1) as [s2|]; [|discriminate]. cbn [bind] in *.
  destruct (do_op eq_lm eq_P eq_draws OpRun s2) as [s3|]; [|discriminate]. exists s3. reflexivity.
Qed.
(** The example session on cells three times as large. *)
Example C86_example : exists Q q t, init eq_lm (with_dx (option_map (times_k (Qcofz 3)) (p_dx eq_params)) eq_params) = Ok (Q, q) /\
  do_ops eq_lm Q eq_draws [OpGen 3 [2; 3] [3; 5] (times_k (Qcofz 3) n0) Random None; OpRun; OpRun] (init_sim eq_lm Q 0) = Ok t.
Proof.
  destruct eq_init as (p' & EI). assert (K : (0 < Qcofz 3)%Qc) by reflexivity. pose proof (C86_cell_size eq_lm eq_params (Qcofz 3) K) as H. unfold eq_params in *. rewrite EI in H.
  destruct (init eq_lm (with_dx _ _)) as [(Q & q)|]; [|contradiction]. cbn [match_res fst] in H.
  specialize (H eq_draws [OpGen 3 [2; 3] [3; 5] n0 Random None; OpRun; OpRun] 0%nat ltac:(repeat constructor)). destruct eq_prefix as (s & ES). rewrite ES in H.
  cbn [map retime_op option_map] in H. destruct (do_ops eq_lm Q _ _ _) as [t|] eqn:ET; [|contradiction]. exists Q, q, t. split; [reflexivity | exact ET].
Qed.

(** C87 Measuring all elevations from another datum (a constant added to stage and topography, the depth unchanged) changes nothing but the tracked 'stage' values,
    which are raised by the constant, for every program. *)
Theorem C87_datum :
  forall lm (p : params xq) c,
    match_res (fun a b => forall draws os pos, match_res (raised c) (do_ops lm (fst a) draws os (init_sim lm (fst a) pos)) (do_ops lm (fst b) draws (map (raise_op c) os) (init_sim lm (fst b) pos)))
      (init lm p) (init lm (with_datum c p)).
Proof. exact datum_program. Qed.
Print Assumptions C87_datum.

(** The example session 7 length units higher. *)
Example C87_example : exists Q q t, init eq_lm (with_datum (Qcofz 7) eq_params) = Ok (Q, q) /\
  do_ops eq_lm Q eq_draws eq_ops (init_sim eq_lm Q 0) = Ok t /\ s_walk t = Some (raise_stage (Qcofz 7) eq_w) /\ count (raise_stage (Qcofz 7) eq_w) = 3%nat.
Proof.
  destruct eq_init as (p' & EI). pose proof (C87_datum eq_lm eq_params (Qcofz 7)) as H. unfold eq_params in *. rewrite EI in H.
  destruct (init eq_lm (with_datum _ _)) as [(Q & q)|]; [|contradiction]. cbn [match_res fst] in H. specialize (H eq_draws eq_ops 0%nat). rewrite eq_run in H.
  change (map (raise_op (Qcofz 7)) eq_ops) with eq_ops in H. destruct (do_ops eq_lm Q _ _ _) as [t|] eqn:ET; [|contradiction]. exists Q, q, t. split; [reflexivity|]. split; [exact ET|].
  destruct H as (_ & H & _). rewrite (proj1 eq_walk) in H. split; [exact H | exact (proj2 eq_walk)].
Qed.

(** Property C79: what each random number decides; particles do not interact. *)
From Coq Require Import ZArith Bool String List Lia.
From Verif Require Import Num F64 F64Laws Py NumFacts NumMore Walker ParticleTrack SpecWeights SpecPick SpecWalk SpecHist SpecInit
  SpecMotion SpecApi SpecDraw ProofDrawRun P_Motion Examples ExamplesReach.
Import ListNotations.
Open Scope Z_scope.

(** C79 In one iteration, numbers are drawn in particle order: first one direction number for every particle that is not at (0,0), then one
    diffusion number for every particle that moved, if diffusion is on.  What happens to a particle is one_step with its own two numbers.
    (Without diffusion the second number has no effect.) *)
Theorem C79_step_draws :
  forall G lm L W (p : params f64) P draws s w w' s',
    session G lm L W p P draws s -> s_walk s = Some w -> run_step lm P draws s = Ok (w', s') ->
    let n := w_pos (s_wst s) in let a := tally (awake P w) in let b := tally (grew P w w') in
    (forall q, (q < count w)%nat ->
       one_step lm P (hist P w q) (draws (n + a q)%nat) (draws (n + a (count w) + b q)%nat) (hist P w' q)) /\
    w_pos (s_wst s') = (n + a (count w) + if nltb n0 (o_diff P) then b (count w) else 0)%nat.
Proof. intros G. exact session_draws. Qed.
Print Assumptions C79_step_draws.

(** The effect is determined: same history and same two numbers, same new history - whatever the other particles, the rest of the stream and
    the number of the particle. *)
Theorem C79_no_interaction :
  forall G lm L W (p : params f64) P draws1 draws2 s1 s2 w1 w2 w1' w2' s1' s2' q1 q2,
    session G lm L W p P draws1 s1 -> session G lm L W p P draws2 s2 -> s_walk s1 = Some w1 -> s_walk s2 = Some w2 ->
    run_step lm P draws1 s1 = Ok (w1', s1') -> run_step lm P draws2 s2 = Ok (w2', s2') ->
    (q1 < count w1)%nat -> (q2 < count w2)%nat -> hist P w1 q1 = hist P w2 q2 ->
    draws1 (w_pos (s_wst s1) + tally (awake P w1) q1)%nat = draws2 (w_pos (s_wst s2) + tally (awake P w2) q2)%nat ->
    draws1 (w_pos (s_wst s1) + tally (awake P w1) (count w1) + tally (grew P w1 w1') q1)%nat =
      draws2 (w_pos (s_wst s2) + tally (awake P w2) (count w2) + tally (grew P w2 w2') q2)%nat ->
    hist P w1' q1 = hist P w2' q2.
Proof. intros G. exact session_no_interaction. Qed.
Print Assumptions C79_no_interaction.

(** With a target time, every particle makes its own journey on a segment of the stream, the segments following each other in particle order. *)
Theorem C79_target_draws :
  forall G lm L W (p : params f64) P draws target max_iter s w w' wl s',
    session G lm L W p P draws s -> s_walk s = Some w -> run_target lm P draws target max_iter s = Ok (w', wl, s') ->
    exists pos : nat -> nat, pos 0%nat = w_pos (s_wst s) /\ pos (count w) = w_pos (s_wst s') /\
    forall q, (q < count w)%nat -> journey lm P draws target max_iter 0 (pos q) (hist P w q) (pos (S q)) (hist P w' q).
Proof. intros G. exact session_journeys. Qed.
Print Assumptions C79_target_draws.

(** So the first k particles end up the same whatever particles follow them. *)
Theorem C79_later_particles_do_not_matter :
  forall G lm L W (p : params f64) P draws1 draws2 target max_iter s1 s2 w1 w2 w1' w2' wl1 wl2 s1' s2' k,
    session G lm L W p P draws1 s1 -> session G lm L W p P draws2 s2 -> s_walk s1 = Some w1 -> s_walk s2 = Some w2 ->
    run_target lm P draws1 target max_iter s1 = Ok (w1', wl1, s1') -> run_target lm P draws2 target max_iter s2 = Ok (w2', wl2, s2') ->
    (k <= count w1)%nat -> (k <= count w2)%nat -> (forall q, (q < k)%nat -> hist P w1 q = hist P w2 q) ->
    (forall i, draws2 (w_pos (s_wst s2) + i)%nat = draws1 (w_pos (s_wst s1) + i)%nat) ->
    forall q, (q < k)%nat -> hist P w1' q = hist P w2' q.
Proof. intros G. exact session_prefix. Qed.
Print Assumptions C79_later_particles_do_not_matter.

Lemma run_then_target lm (P : pobj f64) draws d t n s : do_ops lm P draws [OpRun; OpRunTo t n] s = Ok (unerr d (do_ops lm P draws [OpRun; OpRunTo t n] s)) ->
  exists w' s', run_step lm P draws s = Ok (w', s') /\ exists w'' wl s'', run_target lm P draws t n s' = Ok (w'', wl, s'').
Proof.
  generalize (unerr d (do_ops lm P draws [OpRun; OpRunTo t n] s)). intros r F. cbn [do_ops do_op] in F.
  destruct (run_step lm P draws s) as [(w', s')|e] eqn:E; [|discriminate]. exists w', s'. split; [reflexivity|].
  cbn [bind] in F. destruct (run_target lm P draws t n s') as [((w'', wl), s'')|e]; [|discriminate]. eexists _, _, _. reflexivity.
Qed.
Example C79_example : session any_draw ex_lm 10 9 ex_params ex_P ex_draws ex_s /\ s_walk ex_s = Some ex_w /\ (1 < count ex_w)%nat /\
  exists w' s', run_step ex_lm ex_P ex_draws ex_s = Ok (w', s') /\ exists w'' wl s'', run_target ex_lm ex_P ex_draws (nofZ 60) 5 s' = Ok (w'', wl, s'').
Proof.
  split; [exact ex_session|]. split; [apply ex_walk|]. split; [rewrite (proj2 ex_walk); lia|].
  destruct ex_facts as (_ & _ & _ & _ & _ & _ & _ & _ & _ & F & _).
  apply (is_ok_unerr ex_s) in F. exact (run_then_target _ _ _ _ _ _ _ F).
Qed.

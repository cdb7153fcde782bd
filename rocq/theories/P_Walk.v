(** Properties C70 and C71: what a session records, and that runs succeed. *)
From Coq Require Import ZArith Bool String List Lia.
From Verif Require Import Num F64 F64Laws Py NumFacts NumMore Walker ParticleTrack SpecWeights SpecPick SpecWalk SpecHist SpecInit
  SpecMotion SpecApi ProofApi2 Examples ExamplesReach P_Motion.
Import ListNotations.
Open Scope Z_scope.

(** C70 Every record follows from the previous one by a documented step ([documented_step], SpecWalk.v), starting at the seed. *)
Theorem C70_documented_history :
  forall G lm L W (p : params f64) P draws s w q,
    session G lm L W p P draws s -> s_walk s = Some w -> (q < count w)%nat -> history_ok G lm P (hist P w q).
Proof. intros G. exact session_hist. Qed.
Print Assumptions C70_documented_history.
(* hypotheses: see C11_example *)

(** C71 run_iteration never raises on a session (target-time runs: C26_returns). *)
Theorem C71_run_never_raises :
  forall G lm L W (p : params f64) P draws s w,
    session G lm L W p P draws s -> weights_finite lm P -> s_walk s = Some w ->
    exists w' s', run_step lm P draws s = Ok (w', s').
Proof. intros G. exact session_run_ok. Qed.
Print Assumptions C71_run_never_raises.
Theorem C71_target_run_never_raises :
  forall G lm L W (p : params f64) P draws s w target mi,
    session G lm L W p P draws s -> weights_finite lm P -> s_walk s = Some w -> (0 < count w)%nat ->
    exists w' wl s', run_target lm P draws target mi s = Ok (w', wl, s').
Proof. intros G. exact session_run_to_ok. Qed.
Print Assumptions C71_target_run_never_raises.
Example C71_example : session any_draw ex_lm 10 9 ex_params ex_P ex_draws ex_s /\ weights_finite ex_lm ex_P /\ s_walk ex_s = Some ex_w /\ (0 < count ex_w)%nat.
Proof. split; [exact ex_session|]. split; [exact ex_weights_finite|]. split; [apply ex_walk|]. rewrite (proj2 ex_walk). lia. Qed.

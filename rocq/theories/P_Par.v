(** Properties C56, C57 (parallel runs) and C75 (reproducibility). *)
From Coq Require Import ZArith Bool String List Lia.
From Verif Require Import Num F64 F64Laws Py NumFacts NumMore Walker ParticleTrack Gen SpecWeights SpecPick SpecWalk SpecHist SpecInit
  SpecMotion SpecApi Parallel SpecPar ProofApi2 ProofHist ProofDraws ProofParallel Examples ExamplesReach P_Motion P_Seed.
Import ListNotations.
Open Scope Z_scope.

Lemma session_SInv G lm L W (p : params f64) P draws s : session G lm L W p P draws s -> field_ok lm P /\ SInv (GV := G) lm P s.
Proof. intros SS. destruct (session_field lm L W p P draws s SS) as (FO & _ & U & R & _). split; [exact FO | exact (reached_inv lm P draws s FO U R)]. Qed.

(** C56 For every schedule: a complete execution that succeeds returns num_cores blocks in task order; every block is what run_iter returns
    for a copy of the caller's object (on some worker's stream, from some position).  In it the new particles come last; each of them
    starts at time 0 in a listed row and a listed column and moves by at most num_iter documented steps; the particles that the object
    already holds are advanced in every block. *)
Theorem C56_every_schedule :
  forall G lm L W (p : params f64) P draws s wdraws start num_iter np xl yl num_cores es w,
    session G lm L W p P draws s -> (forall k, unit_stream G (wdraws k)) -> op_ok G lm P (OpGen np xl yl n0 Random None) ->
    parallel_routing lm P wdraws start num_iter np xl yl num_cores s es = Some (Ok w) ->
    let K := (stored_count s + Z.to_nat np)%nat in
    count w = (Z.to_nat num_cores * K)%nat /\ shaped (tvars P) w /\
    forall t, (t < Z.to_nat num_cores)%nat -> exists k pos wt s',
      run_iter lm P (wdraws k) num_iter np xl yl (with_pos s pos) = Ok (wt, s') /\ count wt = K /\
      (forall q, (q < K)%nat -> hist P w (t * K + q) = hist P wt q) /\
      (forall q, (q < stored_count s)%nat -> exists m, (m <= Z.to_nat num_iter)%nat /\
         extends G lm P m (opt_row (tvars P) (s_walk s) q) (hist P w (t * K + q))) /\
      (forall q, (q < Z.to_nat np)%nat -> exists x y m, In x xl /\ In y yl /\ (m <= Z.to_nat num_iter)%nat /\
         extends G lm P m (seed_row P (tvars P) x y n0) (hist P w (t * K + (stored_count s + q)))).
Proof.
  intros G lm L W p P draws s wdraws start num np xl yl cores es w SS U OK E K. destruct (session_SInv _ _ _ _ _ _ _ _ SS) as (FO & SI).
  destruct (par_segments lm P wdraws start num np xl yl cores s es w FO U SI OK E) as (C & SH & wk & a & b & wt & H & _). fold K in C, H.
  split; [exact C|]. split; [exact SH|]. intros t Ht. destruct (H t Ht) as ((s' & R & _) & CT & HR). exists (wk t), (a t), (wt t), s'.
  destruct (run_iter_spec lm P _ _ _ _ _ _ _ _ FO (U _) (SInv_pos lm P s (a t) SI) OK R) as (_ & _ & OLD & NEW). change (stored_count (with_pos s (a t))) with (stored_count s) in OLD, NEW.
  split; [exact R|]. split; [exact CT|]. split; [exact HR|]. split.
  - intros q Hq. unfold hist. rewrite HR by (unfold K; lia). exact (OLD q Hq).
  - intros q Hq. unfold hist. rewrite HR by (unfold K; lia). exact (NEW q Hq).
Qed.
Print Assumptions C56_every_schedule.
(** No schedule makes the call fail. *)
Theorem C56_never_fails :
  forall G lm L W (p : params f64) P draws s wdraws start num_iter np xl yl num_cores es r,
    session G lm L W p P draws s -> weights_finite lm P -> (forall k, unit_stream G (wdraws k)) -> op_ok G lm P (OpGen np xl yl n0 Random None) ->
    vars_ok P -> xl <> [] -> yl <> [] -> Z.of_nat (length xl) <= 9007199254740992 -> Z.of_nat (length yl) <= 9007199254740992 ->
    1 <= num_iter -> 1 <= num_cores ->
    parallel_routing lm P wdraws start num_iter np xl yl num_cores s es = Some r -> exists w, r = Ok w.
Proof.
  intros G lm L W p P draws s wdraws start num np xl yl cores es r SS WF U OK VO NX NY BX BY Hn Hc. destruct (session_SInv _ _ _ _ _ _ _ _ SS) as (FO & SI).
  exact (par_total lm P wdraws start num np xl yl cores s es FO U SI OK r WF VO NX NY BX BY Hn Hc).
Qed.
Print Assumptions C56_never_fails.
(** Except with num_iter = 0, which always fails (the worker returns a variable that was never assigned). *)
Theorem C56_no_iterations_fail :
  forall G lm L W (p : params f64) P draws s wdraws start num_iter np xl yl num_cores es r,
    session G lm L W p P draws s -> (forall k, unit_stream G (wdraws k)) -> op_ok G lm P (OpGen np xl yl n0 Random None) ->
    vars_ok P -> xl <> [] -> yl <> [] -> Z.of_nat (length xl) <= 9007199254740992 -> Z.of_nat (length yl) <= 9007199254740992 ->
    num_iter <= 0 -> 1 <= num_cores ->
    parallel_routing lm P wdraws start num_iter np xl yl num_cores s es = Some r -> r = Err UnboundLocalError.
Proof.
  intros G lm L W p P draws s wdraws start num np xl yl cores es r SS U OK VO NX NY BX BY Hn Hc. destruct (session_SInv _ _ _ _ _ _ _ _ SS) as (FO & SI).
  exact (par_no_iter lm P wdraws start num np xl yl cores s es FO U OK r Hn Hc VO NX NY BX BY).
Qed.
Print Assumptions C56_no_iterations_fail.

(** C57 Not independent: with the 'fork' start method the workers inherit the caller's stream and position; if no worker takes two tasks,
    all blocks are identical. *)
Theorem C57_workers_repeat_refuted :
  forall G lm L W (p : params f64) P draws s start num_iter np xl yl num_cores es w,
    session G lm L W p P draws s -> op_ok G lm P (OpGen np xl yl n0 Random None) ->
    NoDup (takers es) ->
    parallel_routing lm P (fun _ => draws) (fun _ => start) num_iter np xl yl num_cores s es = Some (Ok w) ->
    let K := (stored_count s + Z.to_nat np)%nat in
    forall t t' q, (t < Z.to_nat num_cores)%nat -> (t' < Z.to_nat num_cores)%nat -> (q < K)%nat -> hist P w (t * K + q) = hist P w (t' * K + q).
Proof.
  intros G lm L W p P draws s start num np xl yl cores es w SS OK ND E K. destruct (session_SInv _ _ _ _ _ _ _ _ SS) as (FO & SI). destruct SS as (_ & _ & U & _).
  exact (par_same lm P (fun _ => draws) (fun _ => start) num np xl yl cores s es w FO (fun _ => U) SI OK start (fun _ => eq_refl) (fun _ => eq_refl) ND E).
Qed.
Print Assumptions C57_workers_repeat_refuted.
(** What holds: tasks executed by the same worker use disjoint segments of that worker's stream, at least 2*Np draws long, and the result of a
    task depends only on its own segment.  (Workers whose streams are independent of each other therefore walk independently.) *)
Theorem C57_same_worker_partial :
  forall G lm L W (p : params f64) P draws s wdraws start num_iter np xl yl num_cores es w,
    session G lm L W p P draws s -> (forall k, unit_stream G (wdraws k)) -> op_ok G lm P (OpGen np xl yl n0 Random None) ->
    parallel_routing lm P wdraws start num_iter np xl yl num_cores s es = Some (Ok w) ->
    let K := (stored_count s + Z.to_nat np)%nat in
    exists (wk a b : nat -> nat) (wt : nat -> walk f64),
      (forall t, (t < Z.to_nat num_cores)%nat -> (a t + 2 * Z.to_nat np <= b t)%nat /\ (forall q, (q < K)%nat -> hist P w (t * K + q) = hist P (wt t) q) /\
         exists s', forall d, agree (wdraws (wk t)) d (a t) (b t) -> run_iter lm P d num_iter np xl yl (with_pos s (a t)) = Ok (wt t, s')) /\
      forall t t', (t < Z.to_nat num_cores)%nat -> (t' < Z.to_nat num_cores)%nat -> t <> t' -> wk t = wk t' -> (b t <= a t' \/ b t' <= a t)%nat.
Proof.
  intros G lm L W p P draws s wdraws start num np xl yl cores es w SS U OK E K. destruct (session_SInv _ _ _ _ _ _ _ _ SS) as (FO & SI).
  destruct (par_segments lm P wdraws start num np xl yl cores s es w FO U SI OK E) as (C & SH & wk & a & b & wt & H & D). fold K in C, H.
  exists wk, a, b, wt. split; [|exact D]. intros t Ht. destruct (H t Ht) as ((s' & R & EB) & _ & HR). destruct (run_iter_loc _ _ _ _ _ _ _ _ _ _ R) as (A & B). cbn [with_pos s_wst w_pos] in A, B. rewrite EB in A, B.
  split; [exact A|]. split; [exact HR|]. exists s'. exact B.
Qed.
Print Assumptions C57_same_worker_partial.

(** A fresh object, two workers that run at the same time; three workers of which one does two tasks. *)
Definition par_es : list event := [Take 0; Take 1; Done 1; Done 0].
Definition par_es3 : list event := [Take 0; Take 2; Done 2; Take 2; Done 0; Done 2].
Definition par_run es c num := parallel_routing ex_lm ex_P (fun _ => ex_draws) (fun _ => 0%nat) num 2 [4] [4] c (init_sim ex_lm ex_P 0) es.
Definition opt_ok {A} (o : option (res A)) : bool := match o with Some (Ok _) => true | _ => false end.
Example C56_example :
  session any_draw ex_lm 10 9 ex_params ex_P ex_draws (init_sim ex_lm ex_P 0) /\ weights_finite ex_lm ex_P /\ unit_stream any_draw ex_draws /\
  op_ok any_draw ex_lm ex_P (OpGen 2 [4] [4] n0 Random None) /\ vars_ok ex_P /\ NoDup (takers par_es) /\
  opt_ok (par_run par_es 2 2) && opt_ok (par_run par_es3 3 1) = true /\ par_run par_es 2 0 = Some (Err UnboundLocalError).
Proof.
  split. { split; [exact ex_standard|]. split; [exact ex_init|]. split; [exact ex_stream_any|]. exists 0%nat, []. split; [constructor | reflexivity]. }
  split; [exact ex_weights_finite|]. split; [exact ex_stream_any|].
  split. { split; [|exact I]. split; [lia|]. intros x y [<-|[]] [<-|[]]. right. change (nrow (o_depth ex_P)) with 10. change (ncol (o_depth ex_P)) with 9. lia. }
  split. { intros v H. change (tvars ex_P) with ["depth"%string] in H. destruct H as [<-|[]]. right. eexists. reflexivity. }
  split. { repeat constructor; cbn; intuition discriminate. }
  split; vm_compute; reflexivity.
Qed.

(** C75 Reproducibility: a program that ran successfully consumed a contiguous segment of the random stream, and any run from the same state on
    a stream with the same values in that segment gives the same final state (particles, histories, generator position). *)
Theorem C75_reproducible :
  forall lm (P : pobj f64) draws os s s',
    do_ops lm P draws os s = Ok s' ->
    (w_pos (s_wst s) <= w_pos (s_wst s'))%nat /\
    forall draws', agree draws draws' (w_pos (s_wst s)) (w_pos (s_wst s')) -> do_ops lm P draws' os s = Ok s'.
Proof. exact do_ops_loc. Qed.
Print Assumptions C75_reproducible.
(** ... likewise for the values returned by the two forms of run_iteration. *)
Theorem C75_results :
  forall lm (P : pobj f64) draws s,
    (forall w s', run_step lm P draws s = Ok (w, s') ->
       forall draws', agree draws draws' (w_pos (s_wst s)) (w_pos (s_wst s')) -> run_step lm P draws' s = Ok (w, s')) /\
    (forall target max_iter w wl s', run_target lm P draws target max_iter s = Ok (w, wl, s') ->
       forall draws', agree draws draws' (w_pos (s_wst s)) (w_pos (s_wst s')) -> run_target lm P draws' target max_iter s = Ok (w, wl, s')).
Proof. intros lm P draws s. split; intros; [eapply run_step_loc | eapply run_target_loc]; eassumption. Qed.
Print Assumptions C75_results.
Example C75_example : do_ops ex_lm ex_P ex_draws sd_ops (init_sim ex_lm ex_P 0) = Ok sd_s /\ w_pos (s_wst sd_s) = 10%nat.
Proof. split; [apply (is_ok_unerr ex_s); vm_compute; reflexivity | vm_compute; reflexivity]. Qed.

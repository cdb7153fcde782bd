(** Property C123: after clear_walk_data an object behaves like a newly constructed one. *)
From Coq Require Import ZArith Bool String List Lia.
From Verif Require Import Num F64 F64Laws Py NumFacts NumMore Walker ParticleTrack SpecWeights SpecPick SpecWalk SpecHist SpecInit SpecMotion SpecApi SpecSim SpecSave
  ProofWeights ProofWeightLaws ProofInit ProofPick ProofStep ProofRun ProofHist ProofApi2 ProofSim ProofSave Examples ExamplesReach P_Fields.
Import ListNotations.
Open Scope Z_scope.

(** While there are no walk data, the number of particles that the object remembers is not used. *)
Lemma np_unused lm (P : pobj f64) draws os : forall a b ws,
  match do_ops lm P draws os {| s_np := a; s_walk := None; s_wst := ws |}, do_ops lm P draws os {| s_np := b; s_walk := None; s_wst := ws |} with
  | Ok x, Ok y => s_walk x = s_walk y /\ w_pos (s_wst x) = w_pos (s_wst y) /\ (s_walk x <> None -> s_np x = s_np y)
  | Err e, Err e' => e = e'
  | _, _ => False end.
Proof.
  induction os as [|o os IH]; intros a b ws; cbn [do_ops]; [cbn; split; [reflexivity|]; split; [reflexivity | congruence]|].
  destruct o as [np xl yl t0 m prev| |tg mi|]; cbn [do_op]; [| reflexivity | reflexivity | apply IH].
  change (generate_particles P draws np xl yl t0 m prev {| s_np := b; s_walk := None; s_wst := ws |}) with (generate_particles P draws np xl yl t0 m prev {| s_np := a; s_walk := None; s_wst := ws |}).
  destruct (generate_particles P draws np xl yl t0 m prev _) as [s1|e]; [|reflexivity]. cbn [bind]. destruct (do_ops lm P draws os s1); [|reflexivity]. split; [reflexivity|]. split; reflexivity.
Qed.

(** C123 Any session, any further calls and random numbers: if clear_walk_data is called first, the calls return normally or raise as they do on an object that was just
    constructed from the same parameters (the generator being in the same state n), and leave the same walk data, generator state and, if there are particles, number
    of particles. *)
Theorem C123_clear_is_a_new_start :
  forall G lm L W (p : params f64) P draws s, session G lm L W p P draws s -> forall later n os,
    match do_ops lm P later (OpClear :: os) (at_pos n s), do_ops lm P later os (init_sim lm P n) with
    | Ok a, Ok b => s_walk a = s_walk b /\ w_pos (s_wst a) = w_pos (s_wst b) /\ (s_walk a <> None -> s_np a = s_np b)
    | Err e, Err e' => e = e'
    | _, _ => False end.
Proof.
  intros G lm L W p P draws s SS later n os. destruct (session_field lm L W p P draws s SS) as (FO & _ & U & R & _). destruct (reached_inv lm P draws s FO U R) as (WI & _).
  pose proof FO as (WF & GA & PW & _). cbn [do_ops do_op bind]. unfold clear_walk_data. cbn [at_pos s_np s_wst].
  pose proof (np_unused lm P later os (s_np s) (s_np (init_sim lm P n)) {| w_arr := w_arr (s_wst s); w_pos := n |}) as A.
  assert (B : match_res same_data (do_ops lm P later os {| s_np := s_np (init_sim lm P n); s_walk := None; s_wst := {| w_arr := w_arr (s_wst s); w_pos := n |} |}) (do_ops lm P later os (init_sim lm P n))).
  { apply alike_continue. split; [reflexivity|]. split; [reflexivity|].
    destruct WI as (WR & WC & WV). destruct (winv_init lm P WF) as (MR & MC & MV). cbn [s_wst init_sim w_pos w_arr]. split; [reflexivity|]. split; [cbn; congruence|]. split; [cbn; congruence|].
    intros i j Hi Hj. assert (IG : in_grid P i j) by (split; [rewrite <- WR | rewrite <- WC]; assumption). pose proof (weights_no_negative lm P i j WF GA PW IG) as NN.
    assert (EV : forall v, v = weights_of lm P i j \/ v = pick_vector P (weights_of lm P i j) -> pick_vector P v = pick_vector P (weights_of lm P i j)) by (intros v [-> | ->]; [reflexivity | apply pick_vector_idem, NN]).
    unfold visited_like. cbn [w_arr]. rewrite (EV _ (WV i j IG)), (EV _ (MV i j IG)). split; [reflexivity | apply pick_vector_idem, NN]. }
  destruct (do_ops lm P later os {| s_np := s_np s; s_walk := None; s_wst := {| w_arr := w_arr (s_wst s); w_pos := n |} |}) as [a|e];
    destruct (do_ops lm P later os {| s_np := s_np (init_sim lm P n); s_walk := None; s_wst := {| w_arr := w_arr (s_wst s); w_pos := n |} |}) as [c|e'];
    destruct (do_ops lm P later os (init_sim lm P n)) as [b|e'']; cbn [match_res] in B; try contradiction.
  - destruct A as (A1 & A2 & A3). destruct B as (B1 & B2 & B3). split; [congruence|]. split; [congruence|]. intros H. rewrite (A3 H). congruence.
  - congruence.
Qed.
Print Assumptions C123_clear_is_a_new_start.
(** The session of P_Fields.v; after clearing, its program runs again. *)
Example C123_example : session any_draw ex_lm 10 9 fx_params fx_P ex_draws fx_s /\ (exists w, s_walk fx_s = Some w) /\ exists s', do_ops ex_lm fx_P ex_draws fx_ops (init_sim ex_lm fx_P 0) = Ok s'.
Proof.
  destruct C22_named_example as (A & w & _ & _ & _ & _ & _ & _ & B & _). split; [exact A|]. split; [exists w; exact B|].
  destruct (fx_check_ok _ _ fx_checked) as (C & _). eexists. exact C.
Qed.

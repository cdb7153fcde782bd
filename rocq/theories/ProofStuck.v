(** Particles that cannot move stay as they are through any number of runs. *)
From Coq Require Import ZArith Bool String List Lia.
From Verif Require Import Num Py NumFacts NumMore Walker ParticleTrack Gen SpecWeights SpecPick SpecWalk SpecHist SpecInit SpecApi
  ProofInit ProofStep ProofStepper ProofRun ProofRunTo ProofGen ProofHist ProofApi ProofApi2 ProofInside.
Import ListNotations.
Open Scope Z_scope.

Section S.
Context {T : Type} {N : Num T} {NL : NumLaws T} {NM : NumMore T} {G : T -> Prop}.
Lemma session_op lm L W p (P : pobj T) draws s o s' : session G lm L W p P draws s -> op_ok G lm P o -> do_op lm P draws o s = Ok s' ->
  session G lm L W p P draws s'.
Proof.
  intros (A & B & C & pos & os & F & E) OK H. split; [exact A|]. split; [exact B|]. split; [exact C|].
  exists pos, (os ++ [o]). split; [apply Forall_app; split; [exact F | constructor; [exact OK | constructor]]|].
  rewrite do_ops_app, E. cbn [bind]. exact H.
Qed.
Lemma run_op_ok lm (P : pobj T) (o : op T) : is_run o -> op_ok G lm P o.
Proof. destruct o; intros H; try contradiction; split; exact I. Qed.
Lemma session_stuck_runs lm L W p (P : pobj T) draws os : Forall is_run os -> forall s s' w q, session G lm L W p P draws s -> s_walk s = Some w -> (q < count w)%nat ->
  (last_x (hist P w q), last_y (hist P w q)) = (0, 0) \/ edge_nearby P (last_x (hist P w q)) (last_y (hist P w q)) ->
  do_ops lm P draws os s = Ok s' -> exists w', s_walk s' = Some w' /\ hist P w' q = hist P w q.
Proof.
  induction 1 as [|o os RO F IH]; intros s s' w q SS EW Hq ST H; cbn [do_ops] in H.
  - injection H as <-. exists w. split; [exact EW | reflexivity].
  - apply bind_ok in H as (s1 & E1 & E2).
    assert (Q : exists w1, s_walk s1 = Some w1 /\ count w1 = count w /\ hist P w1 q = hist P w q).
    { destruct o as [| |target mi|]; try contradiction; cbn [do_op] in E1.
      - destruct (run_step lm P draws s) as [(w1, s2)|] eqn:E; [|discriminate]. injection E1 as ->.
        destruct (session_run lm L W p P draws s w w1 s1 q SS EW E) as (A & B & _). exists w1. split; [exact A|]. split; [exact B|].
        eapply session_stuck_run; eassumption.
      - destruct (run_target lm P draws target mi s) as [((w1, wl), s2)|] eqn:E; [|discriminate]. injection E1 as ->.
        destruct (session_run_to lm L W p P draws s w w1 wl s1 target mi q SS EW E) as (A & B & _). exists w1. split; [exact A|]. split; [exact B|].
        eapply session_stuck_run_to; eassumption. }
    destruct Q as (w1 & A & B & C). rewrite <- C in ST. destruct (IH s1 s' w1 q) as (w' & D & E); try assumption.
    + eapply session_op; [exact SS | apply run_op_ok, RO | exact E1].
    + lia.
    + exists w'. split; [exact D | congruence].
Qed.
End S.

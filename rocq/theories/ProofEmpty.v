(** Runs without particles. *)
From Coq Require Import ZArith Bool String List Lia.
From Verif Require Import Num Py NumFacts NumMore Walker ParticleTrack Gen SpecWeights SpecPick SpecWalk SpecHist SpecInit SpecApi
  ProofInit ProofStep ProofStepper ProofRun ProofRunTo ProofGen ProofHist ProofApi ProofApi2.
Import ListNotations.
Open Scope Z_scope.

Section S.
Context {T : Type} {N : Num T} {NL : NumLaws T} {NM : NumMore T} {G : T -> Prop}.

Lemma optional_outputs_empty (P : pobj T) vars : forall acc, exists r, optional_outputs P vars [] acc = Ok r.
Proof.
  induction vars as [|v vars IH]; intros acc; cbn [optional_outputs]; [eauto|].
  destruct (_ : bool); [apply IH|]. destruct (dget v (avail_vars P)); cbn [mapM bind]; apply IH.
Qed.
Lemma stepper_empty lm (P : pobj T) draws vars s : exists o, particle_stepper lm P draws [] [] vars s = Ok ([], [], o, s).
Proof.
  unfold particle_stepper. cbn [mapS bind combine mapM map2 length Z.of_nat zrange Z.to_nat Z.sub Z.add seq map].
  destruct s as [wa ps].
  assert (Q : check_for_boundary [] [] (o_ct P) = []) by reflexivity. rewrite Q.
  destruct (o_roi P); cbn [mapM bind]; match goal with |- context[optional_outputs P vars [] ?a] => destruct (optional_outputs_empty P vars a) as (r & ->) end; cbn [bind]; eexists; reflexivity.
Qed.
Lemma session_empty lm L W p (P : pobj T) draws s w : session G lm L W p P draws s -> s_walk s = Some w -> count w = 0%nat ->
  s_np s = 0 /\ xinds w = [] /\ yinds w = [] /\ times w = [].
Proof.
  intros SS E C. destruct (session_field lm L W p P draws s SS) as (FO & _ & U & R & _). pose proof (reached_inv lm P draws s FO U R) as (_ & IN).
  rewrite E in IN. destruct IN as (_ & NP & _ & (SH & _)). destruct SH as (A & B & _). unfold count in *. rewrite C in *.
  split; [exact NP|]. split; [|split]; apply length_zero_iff_nil; assumption.
Qed.
Lemma session_empty_run lm L W p (P : pobj T) draws s w : session G lm L W p P draws s -> s_walk s = Some w -> count w = 0%nat ->
  exists w' s', run_step lm P draws s = Ok (w', s') /\ xinds w' = [] /\ yinds w' = [] /\ times w' = [].
Proof.
  intros SS E C. destruct (session_empty lm L W p P draws s w SS E C) as (NP & X & Y & Tm).
  unfold run_step. rewrite E, NP, X, Y, Tm. cbn [Z.eqb length Z.of_nat]. change (zrange 0 0) with (@nil Z). cbn [mapM bind].
  set (ov := read_opts _ _ _ _).
  destruct (mapM_total (fun _ : string * list (list (option T)) => Ok (@nil (option T))) ov) as (l & ->); [eauto|]. cbn [bind combine].
  destruct (stepper_empty lm P draws (map fst ov) (s_wst s)) as (o & ->). cbn [bind map2].
  destruct (mapM_total (append_opt [] o) ov) as (ov' & ->).
  { intros a _. unfold append_opt. destruct (dget (fst a) o); cbn [existsb]; eauto. }
  cbn [bind map append_where]. eexists _, _. split; [reflexivity|]. split; [|split]; reflexivity.
Qed.
Lemma session_empty_run_to lm L W p (P : pobj T) draws s w target mi : session G lm L W p P draws s -> s_walk s = Some w -> count w = 0%nat ->
  run_target lm P draws target mi s = Err UnboundLocalError.
Proof.
  intros SS E C. destruct (session_empty lm L W p P draws s w SS E C) as (NP & X & Y & Tm).
  unfold run_target. rewrite E, NP, X, Y, Tm. cbn [Z.eqb length Z.of_nat]. change (zrange 0 0) with (@nil Z). cbn [mapM bind].
  set (ov := read_opts _ _ _ _).
  destruct (mapM_total (fun _ : string * list (list (option T)) => Ok (@nil (option T))) ov) as (l & ->); [eauto|]. reflexivity.
Qed.
End S.

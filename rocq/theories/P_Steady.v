(** Property C115 (unsteady runs in a steady flow). *)
From Coq Require Import ZArith Bool String List Lia.
From Verif Require Import Num F64 F64Laws Py NumFacts NumMore Walker ParticleTrack Gen SpecWeights SpecPick SpecWalk SpecHist SpecInit SpecApi SpecPost SpecRout PostProc Grid Routines
  Unsteady SpecUnst ProofInit ProofHist ProofUnst ProofSteady Examples ExamplesReach P_Unst.
Import ListNotations.
Open Scope Z_scope.

(** C115 If all flow fields are the same, unsteady_plots returns what one Particles object returns that is built from this field, seeded once, and run to the target times
    (one timestep, two timesteps, ...) one after the other: same positions, same times, same use of the random numbers. *)
Theorem C115_steady_flow :
  forall G lm dx L W draws np xl yl num_steps timestep pos (f : field f64) fields P w,
    unsteady_input G lm dx L W draws np xl yl fields -> (forall g, In g fields -> g = f) -> built lm dx f P ->
    unsteady_plots lm draws pos dx np xl yl num_steps timestep fields = Ok w ->
    exists s, do_ops lm P draws (OpGen np xl yl n0 Random None :: map (fun i => OpRunTo (target_time timestep i) 10000) (seq 0 (used num_steps fields))) (init_sim lm P pos) = Ok s /\
      s_walk s = Some w.
Proof.
  intros G lm dx L W draws np xl yl num ts pos f fields P w (L3 & W3 & SQ & PW & DX & FS & NP & SE & US) EQ BP H.
  assert (SH : field_shape L W f). { destruct fields as [|g fields]; [|rewrite <- (EQ g (or_introl eq_refl)); exact (Forall_inv FS)]. destruct (unsteady_canon lm dx draws pos np xl yl num ts [] w H) as (C & _). cbn in C. lia. }
  destruct (steady_run lm dx L W L3 W3 SQ PW DX draws US f P pos np xl yl num ts fields w SH BP) as (s & DO & SW); [apply Forall_forall; exact EQ | exact NP | exact SE | exact H|].
  exists s. split; [|exact SW]. unfold targets in DO. rewrite map_map in DO. exact DO.
Qed.
Print Assumptions C115_steady_flow.
(** The hypotheses hold: the first field of C67_example, twice. *)
Definition uf_same : list (field f64) := [uf 1; uf 1].
Lemma uf_same_run : xs_of (unsteady_plots ex_lm ex_draws 0 (nofZ 2) 2 [4] [2; 3] 2 (nofZ 4) uf_same) = [[4; 3]; [4; 3; 2]].
Proof. vm_compute. reflexivity. Qed.
Example C115_example : unsteady_input any_draw ex_lm (nofZ 2) 9 6 ex_draws 2 [4] [2; 3] uf_same /\ (forall g, In g uf_same -> g = uf 1) /\ (exists P, built ex_lm (nofZ 2) (uf 1) P) /\
  exists w, unsteady_plots ex_lm ex_draws 0 (nofZ 2) 2 [4] [2; 3] 2 (nofZ 4) uf_same = Ok w /\ xinds w = [[4; 3]; [4; 3; 2]].
Proof.
  split. { pose proof C67_hypotheses as (A & B & C & D & E & F & H). split; [exact A|]. split; [exact B|]. split; [exact C|]. split; [exact D|]. split; [exact E|]. split; [repeat constructor | exact H]. }
  split; [intros g [<-|[<-|[]]]; reflexivity|]. split; [apply built_exists | exact (xs_ok _ _ _ uf_same_run)].
Qed.

(** Unsteady runs through equal flow fields. *)
From Coq Require Import ZArith Bool String List Lia.
From Verif Require Import Num Py NumFacts NumMore Walker ParticleTrack Gen SpecWeights SpecPick SpecWalk SpecHist SpecInit SpecApi SpecSim SpecRout PostProc SpecPost Grid Routines Unsteady SpecUnst
  SpecSave ProofStep ProofHist ProofInit ProofCall ProofApi2 ProofInside ProofUnst ProofSave.
Import ListNotations.
Open Scope Z_scope.
Open Scope res_scope.

Section S.
Context {T : Type} {N : Num T} {NL : NumLaws T} {NM : NumMore T} {GV : T -> Prop}.
Variable lm : Libm T.
Variable dx : T.
Variables L W : Z.
Hypothesis L3 : 3 <= L. Hypothesis W3 : 3 <= W.
Hypothesis SQ : sqrt_ok lm.
Hypothesis PW : forall d, nleb d (ntenth : T) = false -> nltb (m_pow lm d n1) n0 = false.
Hypothesis DX : neqb dx n0 = false.
Variable draws : nat -> T.
Hypothesis US : unit_stream GV draws.

Lemma run_target_walk (P : pobj T) target mi s w wl s' : run_target lm P draws target mi s = Ok (w, wl, s') -> s_walk s' = Some w.
Proof.
  unfold run_target. destruct (s_walk s); [|discriminate]. cbv zeta. intros H. do 4 (apply bind_ok in H as (? & _ & H)). apply bind_ok in H as (r & _ & H). destruct r as (((wd & ov) & ws) & [wl'|]); [|discriminate]. injection H as <- _ <-. reflexivity.
Qed.
(** One pass is two calls on a new object. *)
Lemma step_ops q np xl yl (f : field T) P target prev pos w p1 pos1 : built lm dx f P -> gen_input_check q = Ok (np, xl, yl, n0, Random) ->
  unsteady_step lm draws q f target prev (unsteady_params dx) pos = Ok (w, p1, pos1) ->
  (forall f', set_field f' p1 = set_field f' (unsteady_params dx)) /\
  exists s, do_ops lm P draws [OpGen np xl yl n0 Random prev; OpRunTo target 10000] (init_sim lm P pos) = Ok s /\ s_walk s = Some w /\ w_pos (s_wst s) = pos1.
Proof.
  intros (p' & BP) EC H. unfold unsteady_step in H. rewrite BP in H. cbn [bind] in H.
  pose proof (call_generate_spec P draws q prev (init_sim lm P pos)) as CG. destruct (call_generate _ _ _ _ _) as ([u|] & s1); [|discriminate]. cbn [bind] in H.
  destruct CG as (np' & xl' & yl' & t0 & m & EC' & GE). rewrite EC in EC'. injection EC' as <- <- <- <- <-.
  destruct (run_target lm P draws target 10000 s1) as [((w2 & wl) & s2)|] eqn:RT; [|discriminate]. cbn [bind] in H.
  assert (E : w2 = w /\ p' = p1 /\ w_pos (s_wst s2) = pos1). { repeat (apply bind_ok in H as (? & _ & H)). injection H as <- <- <-. auto. } destruct E as (-> & -> & E).
  split; [intros f'; eapply params_kept; exact BP|]. exists s2. cbn [do_ops do_op]. rewrite GE. cbn [bind]. rewrite RT. cbn [bind]. split; [reflexivity|]. split; [exact (run_target_walk _ _ _ _ _ _ _ RT) | exact E].
Qed.
Definition targets (ts : list T) : list (op T) := map (fun t => OpRunTo t 10000) ts.
Lemma same_pos (s : psim T) n : w_pos (s_wst s) = n -> SpecSave.at_pos n s = s.
Proof. intros <-. destruct s as [a b [c d]]. reflexivity. Qed.
Lemma loop_steady f (P : pobj T) : field_shape L W f -> built lm dx f P -> forall fts, Forall (fun ft => fst ft = f) fts -> forall s w p r, session GV lm L W (set_field f (unsteady_params dx)) P draws s -> s_walk s = Some w ->
  (forall f', set_field f' p = set_field f' (unsteady_params dx)) -> unsteady_loop lm draws fts later_request (Some w) p (w_pos (s_wst s)) = Ok r ->
  forall ts, map snd fts = map Some ts -> exists s' w', do_ops lm P draws (targets ts) s = Ok s' /\ s_walk s' = Some w' /\ r = Some w'.
Proof.
  intros SH BP. induction fts as [|(f' & ot) fts IH]; intros FE s w p r SS SW PP H ts ET.
  - destruct ts; [|discriminate]. injection H as <-. exists s, w. auto.
  - pose proof (Forall_inv FE) as E. pose proof (Forall_inv_tail FE) as FE'. cbn [fst] in E. subst f'. destruct ts as [|t ts]; [discriminate|]. cbn [map snd] in ET. injection ET as -> ET. cbn [unsteady_loop] in H.
    rewrite (step_params lm dx draws _ _ _ _ _ _ PP) in H. destruct (unsteady_step _ _ _ _ _ _ _ _) as [((w1 & p1) & pos1)|] eqn:ST; [|discriminate]. cbn [bind] in H.
    destruct (step_ops later_request 0 [] [] f P t (Some w) _ w1 p1 pos1 BP eq_refl ST) as (PP1 & s1 & D1 & W1 & E1).
    pose proof (resume lm L W _ P draws s w SS SW draws (w_pos (s_wst s)) n0 [OpRunTo t 10000]) as RE. rewrite (same_pos s _ eq_refl), D1 in RE.
    destruct (do_ops lm P draws [OpRunTo t 10000] s) as [s2|] eqn:D2; [|contradiction]. destruct RE as (_ & EW & EP). rewrite W1 in EW. rewrite E1 in EP.
    cbn [do_ops] in D2. apply bind_ok in D2 as (s3 & D2 & E3). injection E3 as ->.
    assert (SS2 : session GV lm L W (set_field f (unsteady_params dx)) P draws s2).
    { destruct SS as (A & B & C & pos & os & OK & DO). split; [exact A|]. split; [exact B|]. split; [exact C|]. exists pos, (os ++ [OpRunTo t 10000]). split; [apply Forall_app; split; [exact OK | constructor; [split; exact I | constructor]]|].
      rewrite do_ops_app, DO. exact D2. }
    rewrite EP in H. symmetry in EW. destruct (IH FE' s2 w1 p1 r SS2 EW PP1 H ts ET) as (s' & w' & DO & SW' & ->). exists s', w'. split; [|split; [exact SW' | reflexivity]].
    cbn [targets map do_ops]. rewrite D2. exact DO.
Qed.
Lemma steady_run f (P : pobj T) pos np xl yl num timestep fields w : field_shape L W f -> built lm dx f P -> Forall (fun g => g = f) fields -> 0 <= np -> (forall x y, In x xl -> In y yl -> safe_seed L W x y) ->
  unsteady_plots lm draws pos dx np xl yl num timestep fields = Ok w ->
  exists s, do_ops lm P draws (OpGen np xl yl n0 Random None :: targets (map (target_time timestep) (seq 0 (used num fields)))) (init_sim lm P pos) = Ok s /\ s_walk s = Some w.
Proof.
  intros SH BP FE NP SE H. destruct (unsteady_canon lm dx draws pos np xl yl num timestep fields w H) as (N0 & LO). unfold used. set (n := Nat.min _ _) in *.
  assert (FE' : Forall (fun ft : field T * option T => fst ft = f) (combine (firstn n fields) (map (fun i => Some (target_time timestep i)) (seq 0 n)))).
  { apply Forall_forall. intros (g & o) I. apply in_combine_l in I. rewrite Forall_forall in FE. cbn [fst]. apply FE. rewrite <- (firstn_skipn n fields). apply in_or_app. left. exact I. }
  assert (ES : map snd (combine (firstn n fields) (map (fun i => Some (target_time timestep i)) (seq 0 n))) = map Some (map (target_time timestep) (seq 0 n))).
  { destruct (combine_maps _ _ (firstn n fields) (map (fun i => Some (target_time timestep i)) (seq 0 n))) as (_ & ->); [rewrite firstn_length, map_length, seq_length; lia|]. rewrite map_map. reflexivity. }
  revert FE' ES LO. generalize (combine (firstn n fields) (map (fun i => Some (target_time timestep i)) (seq 0 n))). intros fts. destruct n as [|n]; [lia|]. cbn [seq map]. generalize (map (target_time timestep) (seq 1 n)). intros ts FE' ES LO.
  destruct fts as [|(g & o) fts]; [discriminate|]. cbn [map snd] in ES. injection ES as -> ES. pose proof (Forall_inv FE') as E. pose proof (Forall_inv_tail FE') as FE2. cbn [fst] in E. subst g. cbn [unsteady_loop] in LO.
  destruct (unsteady_step _ _ _ _ _ _ _ _) as [((w1 & p1) & pos1)|] eqn:ST; [|discriminate]. cbn [bind] in LO.
  destruct (step_ops (first_request np xl yl) np xl yl f P _ None pos w1 p1 pos1 BP eq_refl ST) as (PP1 & s1 & D1 & W1 & E1). rewrite <- E1 in LO.
  assert (SS1 : session GV lm L W (set_field f (unsteady_params dx)) P draws s1).
  { split; [apply field_standard; assumption|]. split; [exact BP|]. split; [exact US|]. exists pos, [OpGen np xl yl n0 Random None; OpRunTo (target_time timestep 0) 10000]. split; [|exact D1].
    constructor; [split; [split; [exact NP|] | exact I] | constructor; [split; exact I | constructor]]. destruct (built_facts lm dx L W L3 W3 SQ PW DX f P SH BP) as (_ & A & B & _). intros x y Hx Hy. apply (safe_seed_pos L W P); auto. }
  destruct (loop_steady f P SH BP fts FE2 s1 w1 p1 _ SS1 W1 PP1 LO ts ES) as (s' & w' & DO & SW' & E). injection E as <-. exists s'. split; [|exact SW'].
  cbn [targets map target_time] in *. cbn [do_ops] in D1 |- *. apply bind_ok in D1 as (sa & GA & D1). rewrite GA. cbn [bind]. apply bind_ok in D1 as (sb & GB & D1). injection D1 as ->. rewrite GB. exact DO.
Qed.
End S.

(** Property C121: what get_state shows of an iteration that a particle has made does not change when the simulation goes on. *)
From Coq Require Import ZArith Bool String List Lia.
From Verif Require Import Num F64 F64Laws Py NumFacts Walker ParticleTrack SpecWeights SpecPick SpecWalk SpecHist SpecInit SpecMotion SpecApi Routines SpecRout
  ProofInit ProofPick ProofStep ProofRun ProofHist ProofApi2 ProofInside ProofRout Examples ExamplesReach P_Motion P_Rout P_Unst.
Import ListNotations.
Open Scope Z_scope.

(** Calls that add to the walk data: runs, and new particles without walk data of an earlier simulation. *)
Definition adds (o : op f64) : Prop := match o with OpClear => False | OpGen _ _ _ _ _ (Some _) => False | _ => True end.

Lemma session_adds_grown G lm L W (p : params f64) P draws os : Forall (fun o => op_ok G lm P o /\ adds o) os -> forall s s' w, session G lm L W p P draws s -> s_walk s = Some w ->
  do_ops lm P draws os s = Ok s' -> session G lm L W p P draws s' /\ exists w', s_walk s' = Some w' /\ (count w <= count w')%nat /\
    forall q, (q < count w)%nat -> exists n, grown n (hist P w q) (hist P w' q).
Proof.
  induction 1 as [|o os (OK & AD) F IH]; intros s s' w SS SW DO; cbn [do_ops] in DO.
  - injection DO as <-. split; [exact SS|]. exists w. split; [exact SW|]. split; [lia|]. intros q Hq. exists 0%nat. apply grown_refl.
  - destruct (do_op lm P draws o s) as [s1|e] eqn:D1; [|discriminate]. cbn [bind] in DO.
    assert (S1 : session G lm L W p P draws s1).
    { destruct SS as (A & B & C & pos & l & F0 & D0). split; [exact A|]. split; [exact B|]. split; [exact C|]. exists pos, (l ++ [o]).
      split; [apply Forall_app; split; [exact F0 | constructor; [exact OK | constructor]]|]. rewrite do_ops_app, D0. exact D1. }
    assert (Q : exists w1, s_walk s1 = Some w1 /\ (count w <= count w1)%nat /\ forall q, (q < count w)%nat -> exists n, grown n (hist P w q) (hist P w1 q)).
    { destruct o as [np xl yl t0 m prev| |tg mi|]; cbn [do_op] in D1; [destruct prev; [destruct AD|]| | |destruct AD].
      - destruct (session_generate lm L W p P draws s np xl yl t0 m None s1 SS OK D1) as (w1 & xs & ys & A & _ & C & _ & D & _). unfold stored_count in C, D. rewrite SW in C, D. cbn [opt_count] in C, D.
        exists w1. split; [exact A|]. split; [lia|]. intros q Hq. exists 0%nat. specialize (D q Hq). rewrite Nat.add_0_l in D. rewrite D. apply grown_refl.
      - destruct (run_step lm P draws s) as [(w1 & s2)|e] eqn:R; [|discriminate]. injection D1 as ->. exists w1.
        split; [apply (session_run lm L W p P draws s w w1 s1 0%nat SS SW R)|]. split; [destruct (session_run lm L W p P draws s w w1 s1 0%nat SS SW R) as (_ & -> & _); lia|].
        intros q Hq. destruct (session_run lm L W p P draws s w w1 s1 q SS SW R) as (_ & _ & C). destruct (C Hq); eauto.
      - destruct (run_target lm P draws tg mi s) as [((w1 & wl) & s2)|e] eqn:R; [|discriminate]. injection D1 as ->. exists w1.
        split; [apply (session_run_to lm L W p P draws s w w1 wl s1 tg mi 0%nat SS SW R)|]. split; [destruct (session_run_to lm L W p P draws s w w1 wl s1 tg mi 0%nat SS SW R) as (_ & -> & _); lia|].
        intros q Hq. destruct (session_run_to lm L W p P draws s w w1 wl s1 tg mi q SS SW R) as (_ & _ & C). destruct (C Hq) as (n & C1 & _); eauto. }
    destruct Q as (w1 & W1 & C1 & G1). destruct (IH s1 s' w1 S1 W1 DO) as (S' & w' & W' & C' & G'). split; [exact S'|]. exists w'. split; [exact W'|]. split; [lia|].
    intros q Hq. destruct (G1 q Hq) as (n & A). destruct (G' q ltac:(lia)) as (m & B). exists (n + m)%nat. eapply grown_trans; eassumption.
Qed.

(** C121 The walk data w of any session; more calls follow (runs with and without target time, new particles), after which the walk data are w'.  For every iteration
    number n and every particle that had made it when the data were w: get_state(w', n) shows for this particle what get_state(w, n) showed, that is record n of w,
    in every field.  The particles of w are still there, under the same numbers. *)
Theorem C121_past_states_stay :
  forall G lm L W (p : params f64) P draws os s s' w, session G lm L W p P draws s -> s_walk s = Some w ->
    Forall (fun o => op_ok G lm P o /\ adds o) os -> do_ops lm P draws os s = Ok s' ->
    exists w', s_walk s' = Some w' /\ (count w <= count w')%nat /\
      forall n, exists st k st' k', get_state w (Z.of_nat n) = Ok (st, k) /\ get_state w' (Z.of_nat n) = Ok (st', k') /\
        forall q, (q < count w)%nat -> (n < length (nth q (xinds w) []))%nat ->
          nth q (st_x st) 0 = nth n (nth q (xinds w) []) 0 /\ nth q (st_y st) 0 = nth n (nth q (yinds w) []) 0 /\ nth q (st_t st) n0 = nth n (nth q (times w) []) n0 /\
          nth q (st_x st') 0 = nth q (st_x st) 0 /\ nth q (st_y st') 0 = nth q (st_y st) 0 /\ nth q (st_t st') n0 = nth q (st_t st) n0 /\
          forall v, In v (tvars P) -> exists d c d' c', st_o st = Some d /\ dget v d = Some c /\ st_o st' = Some d' /\ dget v d' = Some c' /\ nth q c' None = nth q c None.
Proof.
  intros G lm L W p P draws os s s' w SS SW F DO. destruct (session_adds_grown G lm L W p P draws os F s s' w SS SW DO) as (SS' & w' & SW' & CT & GR).
  exists w'. split; [exact SW'|]. split; [exact CT|]. intros n.
  destruct (C49_reachable G lm L W p P draws s w SS SW) as (R & FI). destruct (C49_reachable G lm L W p P draws s' w' SS' SW') as (R' & FI').
  destruct (C49_slice w (Z.of_nat n) R) as (st & k & E & SL & _). destruct (C49_slice w' (Z.of_nat n) R') as (st' & k' & E' & SL' & _).
  exists st, k, st', k'. split; [exact E|]. split; [exact E'|]. intros q Hq Hn.
  destruct SL as (_ & _ & _ & SL & ON & OD). destruct SL' as (_ & _ & _ & SL' & ON' & OD').
  destruct (SL q Hq) as (_ & X & Y & TT). destruct (SL' q ltac:(lia)) as (_ & X' & Y' & T').
  assert (RI : forall len, (n < len)%nat -> record_ix (Z.of_nat n) len = n).
  { intros len H. unfold record_ix, has_record. replace (- Z.of_nat len <=? Z.of_nat n) with true by (symmetry; apply Z.leb_le; lia). replace (Z.of_nat n <? Z.of_nat len) with true by (symmetry; apply Z.ltb_lt; lia).
    cbn [andb]. replace (Z.of_nat n <? 0) with false by (symmetry; apply Z.ltb_ge; lia). apply Nat2Z.id. }
  destruct (GR q Hq) as (m & (lx & GX & _) & (ly & GY & _) & (lt & GT & _) & _ & GO).
  assert (RR : row_rect (record_of w q)) by (apply R; exact Hq). destruct RR as (_ & LY & LT & LO).
  unfold hist, row in GX, GY, GT, GO. cbn [r_x r_y r_t r_o] in GX, GY, GT, GO. unfold record_of, row in LY, LT, LO. cbn [r_x r_y r_t r_o] in LY, LT, LO.
  assert (Hn' : (n < length (nth q (xinds w') []))%nat) by (rewrite GX, app_length; lia).
  unfold record_of, row, xat, yat, tat in X, Y, TT, X', Y', T'. cbn [r_x r_y r_t] in X, Y, TT, X', Y', T'. rewrite (RI _ Hn) in X, Y, TT. rewrite (RI _ Hn') in X', Y', T'.
  split; [exact X|]. split; [exact Y|]. split; [exact TT|].
  split; [rewrite X', X, GX; apply app_nth1; exact Hn|]. split; [rewrite Y', Y, GY; apply app_nth1; lia|]. split; [rewrite T', TT, GT; apply app_nth1; lia|].
  intros v Iv. 
  assert (PR : exists col, dget v (opts w) = Some col) by (destruct R as (_ & (_ & _ & S) & _); rewrite FI in S; destruct (S v Iv) as (l & D & _); eauto).
  assert (PR' : exists col, dget v (opts w') = Some col) by (destruct R' as (_ & (_ & _ & S) & _); rewrite FI' in S; destruct (S v Iv) as (l & D & _); eauto).
  destruct PR as (col & DC). destruct PR' as (col' & DC').
  destruct (st_o st) as [d|]; [|exfalso; rewrite FI in ON; rewrite (proj1 ON eq_refl) in Iv; destruct Iv].
  destruct (st_o st') as [d'|]; [|exfalso; rewrite FI' in ON'; rewrite (proj1 ON' eq_refl) in Iv; destruct Iv].
  destruct (OD d eq_refl) as (_ & H). destruct (H v col DC) as (c & Dc & _ & V). destruct (OD' d' eq_refl) as (_ & H'). destruct (H' v col' DC') as (c' & Dc' & _ & V').
  exists d, c, d', c'. split; [reflexivity|]. split; [exact Dc|]. split; [reflexivity|]. split; [exact Dc'|]. rewrite (V q Hq), (V' q ltac:(lia)).
  unfold record_of, row. cbn [r_x]. rewrite (RI _ Hn), (RI _ Hn').
  destruct (In_nth_error _ _ Iv) as (j & Hj).
  assert (NE : nth_error (map (fun u => (u, nth q (dflt (dget u (opts w)) []) [])) (tvars P)) j = Some (v, nth q col [])) by (rewrite (map_nth_error _ _ _ Hj), DC; reflexivity).
  destruct (GO j _ _ NE) as (l' & NE' & _). rewrite (map_nth_error _ _ _ Hj), DC' in NE'. cbn [dflt] in NE'. injection NE' as NE'. rewrite NE'. apply app_nth1.
  specialize (LO (v, nth q col [])). rewrite FI in LO. cbn [snd] in LO. rewrite LO; [exact Hn|]. apply (nth_error_In _ j), NE.
Qed.
Print Assumptions C121_past_states_stay.
Example C121_example : session any_draw ex_lm 10 9 ex_params ex_P ex_draws ex_s /\ s_walk ex_s = Some ex_w /\ length (nth 1 (xinds ex_w) []) = 8%nat /\
  Forall (fun o => op_ok any_draw ex_lm ex_P o /\ adds o) [OpRun; OpRunTo (nofZ 60) 5] /\ exists s', do_ops ex_lm ex_P ex_draws [OpRun; OpRunTo (nofZ 60) 5] ex_s = Ok s'.
Proof.
  split; [exact ex_session|]. split; [apply ex_walk|]. destruct ex_facts as (_ & _ & -> & _ & _ & _ & _ & _ & _ & F & _). split; [reflexivity|].
  split; [constructor; [split; [split; exact I | exact I]|]; constructor; [split; [split; exact I | exact I] | constructor]|].
  exists (unerr ex_s (do_ops ex_lm ex_P ex_draws [OpRun; OpRunTo (nofZ 60) 5] ex_s)). apply is_ok_unerr, F.
Qed.

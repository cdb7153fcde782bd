(** Property C122: what get_time_state shows of a time that a particle has reached does not change when the simulation goes on. *)
From Coq Require Import ZArith Bool String List Lia Reals Lra.
From Flocq Require Import IEEE754.BinarySingleNaN.
From Verif Require Import Num F64 F64Laws Py NumFacts Walker ParticleTrack SpecWeights SpecPick SpecWalk SpecHist SpecInit SpecMotion SpecApi Routines SpecRout
  ProofInit ProofPick ProofStep ProofRun ProofHist ProofApi2 ProofInside ProofRout Examples ExamplesReach P_Motion P_Rout P_Unst P_Fields P_Past.
Import ListNotations.
Open Scope Z_scope.

Lemma abs_le_self (a : f64) : Bleb (fofZ 0) a = true -> Bleb (Babs a) a = true.
Proof. destruct a as [[|]|[|]| |[|] m e H]; intros L; try discriminate L; try reflexivity. cbn [Babs]. rewrite Bleb_correct by reflexivity. apply Raux.Rle_bool_true. lra. Qed.
Lemma self_le_abs (a : f64) : is_nan a = false -> Bleb a (Babs a) = true.
Proof. destruct a as [[|]|[|]| |[|] m e H]; intros L; try discriminate L; try reflexivity. cbn [Babs]. rewrite Bleb_correct by reflexivity. apply Raux.Rle_bool_true. lra. Qed.
(** A number further beyond t is not nearer to t, also after rounding. *)
Lemma further_away (t l u : f64) : is_finite t = true -> is_finite l = true -> is_finite u = true -> Bleb t l = true -> Bleb l u = true ->
  nleb (nabs (nsub l t)) (nabs (nsub u t)) = true.
Proof.
  intros Ft Fl Fu A B. rewrite Bleb_correct in A by assumption. rewrite Bleb_correct in B by assumption.
  destruct (Raux.Rle_bool_spec (B2R t) (B2R l)) as [A'|]; [|discriminate]. destruct (Raux.Rle_bool_spec (B2R l) (B2R u)) as [B'|]; [|discriminate].
  pose proof (fsub_V l t Fl Ft) as VL. pose proof (fsub_V u t Fu Ft) as VU.
  change (Bleb (Babs (fsub l t)) (Babs (fsub u t)) = true).
  eapply f_leb_trans; [apply abs_le_self, (V_sign_nn _ _ VL); lra|]. eapply f_leb_trans; [apply (V_mono _ _ _ _ VL VU); lra|]. apply self_le_abs, (V_nan _ _ VU).
Qed.
Lemma first_min_unique (l : list f64) i j : first_min l i -> first_min l j -> i = j.
Proof.
  intros (A1 & A2 & A3) (B1 & B2 & B3). destruct (Nat.lt_trichotomy i j) as [H|[H|H]]; [|exact H|]; exfalso.
  - specialize (B3 i H). specialize (A2 j B1). rewrite ltb_def, A2, andb_false_r in B3. discriminate.
  - specialize (A3 j H). specialize (B2 i A1). rewrite ltb_def, B2, andb_false_r in A3. discriminate.
Qed.
Lemma first_min_app (l e : list f64) i : first_min l i -> (forall x, In x e -> nleb (last l n0) x = true) -> first_min (l ++ e) i.
Proof.
  intros (A & B & C) H. assert (NE : l <> []) by (intros ->; cbn in A; lia). assert (LA : last l n0 = nth (length l - 1) l n0).
  { clear - NE. destruct (exists_last NE) as (l' & x & ->). rewrite last_last, app_length. cbn [length]. rewrite app_nth2 by lia. replace (length l' + 1 - 1 - length l')%nat with 0%nat by lia. reflexivity. }
  split; [rewrite app_length; lia|]. split.
  - intros j Hj. rewrite (app_nth1 _ _ _ A). destruct (Nat.lt_ge_cases j (length l)) as [K|K]; [rewrite app_nth1 by exact K; apply B, K|].
    rewrite app_nth2 by exact K. rewrite app_length in Hj. eapply leb_trans; [apply (B (length l - 1)%nat); lia|]. rewrite <- LA. apply H, nth_In. lia.
  - intros j Hj. rewrite !app_nth1 by lia. apply C, Hj.
Qed.

(** C122 As C121 for get_time_state: for every target time and every particle whose last recorded time was not before the target time when the data were w,
    get_time_state(w', target) shows for this particle what get_time_state(w, target) showed.  (Set-ups in which C17 holds, finite times.) *)
Theorem C122_past_times_stay :
  forall G lm L W (p : params f64) P draws os s s' w w' target, session G lm L W p P draws s -> s_walk s = Some w -> time_params lm p ->
    Forall (fun o => op_ok G lm P o /\ adds o) os -> do_ops lm P draws os s = Ok s' -> s_walk s' = Some w' ->
    (forall q t, (q < count w')%nat -> In t (nth q (times w') []) -> nisfin t = true) -> nisfin target = true ->
    exists st late st' late', get_time_state w target = Ok (st, late) /\ get_time_state w' target = Ok (st', late') /\
      forall q, (q < count w)%nat -> nleb target (last (nth q (times w) []) n0) = true ->
        nth q (st_x st') 0 = nth q (st_x st) 0 /\ nth q (st_y st') 0 = nth q (st_y st) 0 /\ nth q (st_t st') n0 = nth q (st_t st) n0 /\
        forall v, In v (tvars P) -> exists d c d' c', st_o st = Some d /\ dget v d = Some c /\ st_o st' = Some d' /\ dget v d' = Some c' /\ nth q c' None = nth q c None.
Proof.
  intros G lm L W p P draws os s s' w w' target SS SW TP F DO SW' FIN FT. destruct (session_adds_grown G lm L W p P draws os F s s' w SS SW DO) as (SS' & w2 & SW2 & CT & GR).
  assert (w2 = w') as -> by congruence. clear SW2.
  destruct (C49_reachable G lm L W p P draws s w SS SW) as (R & FI). destruct (C49_reachable G lm L W p P draws s' w' SS' SW') as (R' & FI').
  assert (FINW : forall q t, (q < count w)%nat -> In t (nth q (times w) []) -> nisfin t = true).
  { intros q t Hq It. destruct (GR q Hq) as (m & _ & _ & (lt & GT & _) & _). unfold hist, row in GT. cbn [r_t] in GT. apply (FIN q); [lia|]. rewrite GT. apply in_app_iff. left. exact It. }
  destruct (C50_nearest w target R FT FINW) as (ix & st & late & E & SL & FM & _). destruct (C50_nearest w' target R' FT FIN) as (ix' & st' & late' & E' & SL' & FM' & _).
  exists st, late, st', late'. split; [exact E|]. split; [exact E'|]. intros q Hq TL.
  destruct SL as (_ & _ & _ & SL & ON & OD). destruct SL' as (_ & _ & _ & SL' & ON' & OD').
  destruct (SL q Hq) as (Hn & X & Y & TT). destruct (SL' q ltac:(lia)) as (_ & X' & Y' & T').
  destruct (GR q Hq) as (m & (lx & GX & _) & (ly & GY & _) & (lt & GT & _) & _ & GO).
  assert (RR : row_rect (record_of w q)) by (apply R; exact Hq). destruct RR as (L0 & LY & LT & LO).
  assert (RR' : row_rect (record_of w' q)) by (apply R'; lia). destruct RR' as (_ & _ & LT' & _).
  unfold hist, row in GX, GY, GT, GO. cbn [r_x r_y r_t r_o] in GX, GY, GT, GO. unfold record_of, row in LY, LT, LO, L0, LT', Hn. cbn [r_x r_y r_t r_o] in LY, LT, LO, L0, LT', Hn.
  assert (IX : ix' q = ix q).
  { specialize (FM q Hq). specialize (FM' q ltac:(lia)). unfold record_of, row in FM, FM'. cbn [r_t] in FM, FM'. rewrite GT, map_app in FM'.
    eapply first_min_unique; [exact FM'|]. apply first_min_app; [exact FM|]. intros x Ix. apply in_map_iff in Ix as (t & <- & It).
    assert (NE : nth q (times w) [] <> []) by (intros Z; rewrite Z in LT; cbn in LT; lia).
    destruct (exists_last NE) as (l0 & a & EL). rewrite EL, map_app. cbn [map]. rewrite last_last. rewrite EL, last_last in TL.
    assert (Fa : nisfin a = true) by (apply (FINW q _ Hq); rewrite EL; apply in_app_iff; right; left; reflexivity).
    assert (Fu : nisfin t = true) by (apply (FIN q); [lia|]; rewrite GT; apply in_app_iff; right; exact It).
    apply further_away; [exact FT | exact Fa | exact Fu | exact TL|].
    destruct (In_nth _ _ n0 It) as (j & Hj & EJ).
    pose proof (C17_times_never_decrease G lm L W p P draws s' w' q (length l0) (length (l0 ++ [a]) + j)%nat SS' TP SW' ltac:(lia)) as K.
    unfold hist, row, tat in K. cbn [r_t r_x] in K. rewrite <- LT', GT, EL in K. 
    rewrite (app_nth1 (l0 ++ [a])) in K by (rewrite app_length; cbn; lia).
    rewrite (app_nth1 (l0 ++ [a]) lt) in K by (rewrite app_length; cbn; lia).
    rewrite app_nth2 with (n := length l0) in K by lia. rewrite Nat.sub_diag in K. cbn [nth] in K.
    rewrite (app_nth2 (l0 ++ [a]) lt) in K by lia. replace (length (l0 ++ [a]) + j - length (l0 ++ [a]))%nat with j in K by lia. rewrite EJ in K.
    apply K; [|rewrite app_length; cbn; lia|rewrite (app_length (l0 ++ [a])); lia].
    apply (FINW q _ Hq). rewrite EL. apply nth_In. rewrite app_length. cbn. lia. }
  rewrite IX in X', Y', T'. unfold record_of, row, xat, yat, tat in X, Y, TT, X', Y', T'. cbn [r_x r_y r_t] in X, Y, TT, X', Y', T'.
  split; [rewrite X', X, GX; apply app_nth1; exact Hn|]. split; [rewrite Y', Y, GY; apply app_nth1; lia|]. split; [rewrite T', TT, GT; apply app_nth1; lia|].
  intros v Iv. 
  assert (PR : exists col, dget v (opts w) = Some col) by (destruct R as (_ & (_ & _ & S) & _); rewrite FI in S; destruct (S v Iv) as (l & D & _); eauto).
  assert (PR' : exists col, dget v (opts w') = Some col) by (destruct R' as (_ & (_ & _ & S) & _); rewrite FI' in S; destruct (S v Iv) as (l & D & _); eauto).
  destruct PR as (col & DC). destruct PR' as (col' & DC').
  destruct (st_o st) as [d|]; [|exfalso; rewrite FI in ON; rewrite (proj1 ON eq_refl) in Iv; destruct Iv].
  destruct (st_o st') as [d'|]; [|exfalso; rewrite FI' in ON'; rewrite (proj1 ON' eq_refl) in Iv; destruct Iv].
  destruct (OD d eq_refl) as (_ & H). destruct (H v col DC) as (c & Dc & _ & V0). destruct (OD' d' eq_refl) as (_ & H'). destruct (H' v col' DC') as (c' & Dc' & _ & V').
  exists d, c, d', c'. split; [reflexivity|]. split; [exact Dc|]. split; [reflexivity|]. split; [exact Dc'|]. rewrite (V0 q Hq), (V' q ltac:(lia)), IX.
  destruct (In_nth_error _ _ Iv) as (j & Hj).
  assert (NE : nth_error (map (fun u => (u, nth q (dflt (dget u (opts w)) []) [])) (tvars P)) j = Some (v, nth q col [])) by (rewrite (map_nth_error _ _ _ Hj), DC; reflexivity).
  destruct (GO j _ _ NE) as (l' & NE' & _). rewrite (map_nth_error _ _ _ Hj), DC' in NE'. cbn [dflt] in NE'. injection NE' as NE'. rewrite NE'. apply app_nth1.
  specialize (LO (v, nth q col [])). rewrite FI in LO. cbn [snd] in LO. rewrite LO; [exact Hn|]. apply (nth_error_In _ j), NE.
Qed.
Print Assumptions C122_past_times_stay.

(** The session of P_Fields.v goes on with one step; particle 0 has reached the time 5. *)
Definition py_check (d : psim f64) (r : res (psim f64)) (f : psim f64 -> res (psim f64)) : bool :=
  is_ok r && match s_walk (unerr d r) with
  | Some w => nleb (nofZ 5) (last (nth 0 (times w) []) n0) && (0 <? count w)%nat &&
      match f (unerr d r) with
      | Ok s' => match s_walk s' with Some w' => forallb (forallb nisfin) (times w') && (length (times w') =? count w')%nat && (3 <? length (nth 0 (times w') []))%nat | None => false end
      | Err _ => false end
  | None => false end.
Lemma py_check_ok d r f : py_check d r f = true -> exists w s' w', s_walk (unerr d r) = Some w /\ f (unerr d r) = Ok s' /\ s_walk s' = Some w' /\
  (forall q t, (q < count w')%nat -> In t (nth q (times w') []) -> nisfin t = true) /\ (0 < count w)%nat /\ nleb (nofZ 5) (last (nth 0 (times w) []) n0) = true /\
  (3 < length (nth 0 (times w') []))%nat.
Proof.
  unfold py_check. intros H. apply andb_true_iff in H as (_ & H). destruct (s_walk (unerr d r)) as [w|]; [|discriminate]. apply andb_true_iff in H as (H0 & H). apply andb_true_iff in H0 as (A & B).
  destruct (f (unerr d r)) as [s'|]; [|discriminate]. destruct (s_walk s') as [w'|] eqn:E; [|discriminate]. apply andb_true_iff in H as (H & D). apply andb_true_iff in H as (C & LE).
  exists w, s', w'. split; [reflexivity|]. split; [reflexivity|]. split; [exact E|]. split.
  - intros q t Hq It. apply Nat.eqb_eq in LE. rewrite forallb_forall in C. specialize (C (nth q (times w') []) ltac:(apply nth_In; lia)). rewrite forallb_forall in C. apply C, It.
  - split; [apply Nat.ltb_lt, B|]. split; [exact A | apply Nat.ltb_lt, D].
Qed.
Lemma py_checked : py_check (init_sim ex_lm fx_P 0) (do_ops ex_lm fx_P ex_draws fx_ops (init_sim ex_lm fx_P 0)) (do_ops ex_lm fx_P ex_draws [OpRun]) = true.
Proof. vm_compute. reflexivity. Qed.
Example C122_example : session any_draw ex_lm 10 9 fx_params fx_P ex_draws fx_s /\ time_params ex_lm fx_params /\ Forall (fun o => op_ok any_draw ex_lm fx_P o /\ adds o) [OpRun] /\
  exists w s' w', s_walk fx_s = Some w /\ do_ops ex_lm fx_P ex_draws [OpRun] fx_s = Ok s' /\ s_walk s' = Some w' /\
    (forall q t, (q < count w')%nat -> In t (nth q (times w') []) -> nisfin t = true) /\ (0 < count w)%nat /\ nleb (nofZ 5) (last (nth 0 (times w) []) n0) = true /\
    (3 < length (nth 0 (times w') []))%nat.
Proof.
  split; [exact (proj1 C22_named_example)|]. split.
  { split; [exact ex_cos_ok|]. split; [|intros d H; discriminate]. intros dx H. injection H as <-. split; [vm_compute; reflexivity|]. split; vm_compute; reflexivity. }
  split; [constructor; [split; [split; exact I | exact I] | constructor]|]. exact (py_check_ok _ _ _ py_checked).
Qed.

(** Property C92: exposure times grow with the region and as the run goes on (IEEE doubles, rounding included). *)
From Coq Require Import ZArith Bool String List Lia QArith Qcanon.
From Verif Require Import Num NumFacts NumMore NumPost XQ F64 F64Laws F64Lin Py Walker ParticleTrack SpecWeights SpecPick SpecWalk SpecHist SpecInit SpecMotion SpecApi SpecPost SpecRout PostProc Grid Spatial
  ProofStep ProofExposure ProofPost ProofSpat ProofApi2 ProofStuck Examples ExamplesReach P_Motion P_Seed P_Post.
Import ListNotations.
Open Scope Z_scope.

(** C92 A larger region: no exposure time is smaller. *)
Theorem C92_larger_region :
  forall (a b : arr Z) (w : walk f64) ea la eb lb q,
    binary a -> binary b -> nrow a = nrow b -> ncol a = ncol b ->
    (forall i j, 0 <= i < nrow a -> 0 <= j < ncol a -> cell a i j = 1 -> cell b i j = 1) ->
    walk_on (nrow a) (ncol a) w -> exposure_time w a = Ok (ea, la) -> exposure_time w b = Ok (eb, lb) -> (q < count w)%nat ->
    (forall i, (i < length (r_x (path w q)))%nat -> nisfin (tat (path w q) i) = true) ->
    (forall i, (S i < length (r_x (path w q)))%nat -> nleb (tat (path w q) i) (tat (path w q) (S i)) = true) ->
    nleb (nth q ea nnan) (nth q eb nnan) = true.
Proof.
  intros a b w ea la eb lb q BA BB ER EC SUB ON EA EB Hq F M.
  rewrite (exposure_nth a w ea la q BA ON EA Hq), (exposure_nth b w eb lb q BB) by (rewrite <- ?ER, <- ?EC; assumption).
  destruct ON as (_ & ON). destruct (ON q Hq) as (RR & PP).
  apply (et_acc_mono f_half_le _ (nrow a) (ncol a)); [split; assumption | exact SUB | exact F | exact M | destruct RR; unfold last_ix; lia].
Qed.
Print Assumptions C92_larger_region.

(** A longer history of the same particle (the same records, and perhaps more after them): its exposure time is not smaller. *)
Lemma et_acc_longer roi (r r' : prow f64) : (length (r_x r) <= length (r_x r'))%nat ->
  (forall i, (i < length (r_x r))%nat -> xat r' i = xat r i /\ yat r' i = yat r i /\ tat r' i = tat r i) ->
  forall k, (k < length (r_x r))%nat -> et_acc roi r' k = et_acc roi r k.
Proof.
  intros LE EQ. induction k as [|k IH]; intros Hk; [reflexivity|]. cbn [et_acc]. rewrite IH by lia. unfold inregion.
  destruct (EQ k ltac:(lia)) as (-> & -> & ->). destruct (EQ (S k) Hk) as (-> & -> & ->). reflexivity.
Qed.
Lemma et_acc_grows roi (r : prow f64) : (forall i, (i < length (r_x r))%nat -> nisfin (tat r i) = true) ->
  (forall i, (S i < length (r_x r))%nat -> nleb (tat r i) (tat r (S i)) = true) ->
  forall k k', (k <= k')%nat -> (k' < length (r_x r))%nat -> nleb (et_acc roi r k) (et_acc roi r k') = true.
Proof.
  intros F M k k' LE. induction LE as [|k' LE IH]; intros Hk.
  - apply leb_refl. assert (N : nn (et_acc roi r k)) by (apply et_acc_nn; intros; [apply F | apply M]; lia). exact (leb_nan_r _ _ N).
  - specialize (IH ltac:(lia)). eapply leb_trans; [exact IH|].
    assert (N : nn (et_acc roi r k')) by (apply et_acc_nn; intros; [apply F | apply M]; lia).
    assert (Q : nn (nsub (tat r (S k')) (tat r k'))) by (apply sub_nn; [apply F | apply F | apply M]; lia). pose proof (half_nn _ Q) as Hh.
    cbn [et_acc]. destruct (inregion roi r k'), (inregion roi r (S k')); try (apply add_nn_l; assumption); apply leb_refl; exact (leb_nan_r _ _ N).
Qed.
Theorem C92_longer_history :
  forall (roi : arr Z) (w w' : walk f64) e l e' l' q q',
    binary roi -> walk_on (nrow roi) (ncol roi) w -> walk_on (nrow roi) (ncol roi) w' ->
    exposure_time w roi = Ok (e, l) -> exposure_time w' roi = Ok (e', l') -> (q < count w)%nat -> (q' < count w')%nat ->
    (length (r_x (path w q)) <= length (r_x (path w' q')))%nat ->
    (forall i, (i < length (r_x (path w q)))%nat ->
      xat (path w' q') i = xat (path w q) i /\ yat (path w' q') i = yat (path w q) i /\ tat (path w' q') i = tat (path w q) i) ->
    (forall i, (i < length (r_x (path w' q')))%nat -> nisfin (tat (path w' q') i) = true) ->
    (forall i, (S i < length (r_x (path w' q')))%nat -> nleb (tat (path w' q') i) (tat (path w' q') (S i)) = true) ->
    nleb (nth q e nnan) (nth q' e' nnan) = true.
Proof.
  intros roi w w' e l e' l' q q' B ON ON' E E' Hq Hq' LE EQ F M.
  rewrite (exposure_nth roi w e l q B ON E Hq), (exposure_nth roi w' e' l' q' B ON' E' Hq').
  destruct ON as (_ & ON). destruct (ON q Hq) as ((LP & _) & _). destruct ON' as (_ & ON'). destruct (ON' q' Hq') as ((LP' & _) & _).
  rewrite <- (et_acc_longer roi (path w q) (path w' q') LE EQ) by (unfold last_ix; lia). apply et_acc_grows; [exact F | exact M | |]; unfold last_ix; lia.
Qed.
Print Assumptions C92_longer_history.

(** A session that is continued by any number of run_iteration calls: no particle's exposure time decreases. *)
Lemma session_runs_grown G lm L W (p : params f64) P draws os : Forall is_run os -> forall s s' w q, session G lm L W p P draws s -> s_walk s = Some w -> (q < count w)%nat ->
  do_ops lm P draws os s = Ok s' -> session G lm L W p P draws s' /\ exists w', s_walk s' = Some w' /\ count w' = count w /\ exists n, grown n (hist P w q) (hist P w' q).
Proof.
  induction 1 as [|o os RO F IH]; intros s s' w q SS EW Hq H; cbn [do_ops] in H.
  - injection H as <-. split; [exact SS|]. exists w. split; [exact EW|]. split; [reflexivity|]. exists 0%nat.
    repeat split; try (exists []; rewrite app_nil_r; split; reflexivity). intros k v l Hk. exists []. rewrite app_nil_r. split; [exact Hk | reflexivity].
  - apply bind_ok in H as (s1 & E1 & E2).
    assert (Q : exists w1, s_walk s1 = Some w1 /\ count w1 = count w /\ exists n, grown n (hist P w q) (hist P w1 q)).
    { destruct o as [| |target mi|]; try contradiction; cbn [do_op] in E1.
      - destruct (run_step lm P draws s) as [(w1, s2)|] eqn:E; [|discriminate]. injection E1 as ->.
        destruct (session_run lm L W p P draws s w w1 s1 q SS EW E) as (A & B & C). exists w1. split; [exact A|]. split; [exact B|]. destruct (C Hq); eauto.
      - destruct (run_target lm P draws target mi s) as [((w1, wl), s2)|] eqn:E; [|discriminate]. injection E1 as ->.
        destruct (session_run_to lm L W p P draws s w w1 wl s1 target mi q SS EW E) as (A & B & C). exists w1. split; [exact A|]. split; [exact B|].
        destruct (C Hq) as (n & C1 & _). eauto. }
    destruct Q as (w1 & A & B & n & C). destruct (IH s1 s' w1 q) as (SS' & w' & D & D' & m & G2); try assumption; [eapply session_op; [exact SS | apply run_op_ok, RO | exact E1] | lia |].
    split; [exact SS'|]. exists w'. split; [exact D|]. split; [congruence|]. exists (n + m)%nat.
    destruct C as ((lx & X1 & X2) & (ly & Y1 & Y2) & (lt & T1 & T2) & K1 & K2). destruct G2 as ((mx & X3 & X4) & (my & Y3 & Y4) & (mt & T3 & T4) & K3 & K4).
    split; [exists (lx ++ mx); rewrite X3, X1, app_assoc, app_length; split; [reflexivity | lia]|].
    split; [exists (ly ++ my); rewrite Y3, Y1, app_assoc, app_length; split; [reflexivity | lia]|].
    split; [exists (lt ++ mt); rewrite T3, T1, app_assoc, app_length; split; [reflexivity | lia]|]. split; [congruence|].
    intros k v l Hk. destruct (K2 k v l Hk) as (l1 & H1 & L1). destruct (K4 k v _ H1) as (l2 & H2 & L2). exists (l1 ++ l2). rewrite app_assoc, app_length. split; [exact H2 | lia].
Qed.
Theorem C92_session :
  forall G lm L W (p : params f64) P draws os s s' w w' roi e l e' l' q,
    session G lm L W p P draws s -> time_params lm p -> Forall is_run os -> do_ops lm P draws os s = Ok s' -> s_walk s = Some w -> s_walk s' = Some w' ->
    binary roi -> nrow roi = L -> ncol roi = W -> exposure_time w roi = Ok (e, l) -> exposure_time w' roi = Ok (e', l') ->
    (q < count w)%nat -> (forall i, (i < length (r_x (hist P w' q)))%nat -> nisfin (tat (hist P w' q) i) = true) ->
    nleb (nth q e nnan) (nth q e' nnan) = true.
Proof.
  intros G lm L W p P draws os s s' w w' roi e l e' l' q SS TP F DO EW EW' B EL EC E E' Hq FT.
  destruct (session_runs_grown G lm L W p P draws os F s s' w q SS EW Hq DO) as (SS' & w2 & D & CT & n & ((lx & X1 & X2) & (ly & Y1 & Y2) & (lt & T1 & T2) & _)).
  rewrite EW' in D. injection D as <-.
  assert (ON : walk_on (nrow roi) (ncol roi) w) by (rewrite EL, EC; exact (session_walk_on G lm L W p P draws s w SS EW)).
  assert (ON' : walk_on (nrow roi) (ncol roi) w') by (rewrite EL, EC; exact (session_walk_on G lm L W p P draws s' w' SS' EW')).
  pose proof (session_hist lm L W p P draws s w q SS EW Hq) as ((L0 & LY & LT & _) & _).
  change (r_x (path w' q)) with (r_x (hist P w' q)) in *. change (r_x (path w q)) with (r_x (hist P w q)) in *.
  apply (C92_longer_history roi w w' e l e' l' q q B ON ON' E E' Hq ltac:(lia)).
  - change (r_x (path w' q)) with (r_x (hist P w' q)). change (r_x (path w q)) with (r_x (hist P w q)). rewrite X1, app_length. lia.
  - intros i Hi. change (r_x (path w q)) with (r_x (hist P w q)) in Hi. unfold xat, yat, tat.
    change (r_x (path w' q)) with (r_x (hist P w' q)). change (r_x (path w q)) with (r_x (hist P w q)).
    change (r_y (path w' q)) with (r_y (hist P w' q)). change (r_y (path w q)) with (r_y (hist P w q)).
    change (r_t (path w' q)) with (r_t (hist P w' q)). change (r_t (path w q)) with (r_t (hist P w q)).
    rewrite X1, Y1, T1, !app_nth1 by lia. split; [reflexivity|]. split; reflexivity.
  - exact FT.
  - intros i Hi. apply (C17_times_never_decrease G lm L W p P draws s' w' q i (S i) SS' TP EW'); [lia | | lia | exact Hi].
    apply FT. change (r_x (path w' q)) with (r_x (hist P w' q)) in Hi. lia.
Qed.
Print Assumptions C92_session.
(** Five particles, four calls; the region is the lower part of the grid.  At least one exposure time is strictly larger afterwards. *)
Definition c92_roi : arr Z := Arr 10 9 (fun i _ => if 3 <=? i then 1 else 0).
Definition c92_small : arr Z := Arr 10 9 (fun i _ => if 5 <=? i then 1 else 0).
Definition c92_ops : list (op f64) := [OpRun; OpRun; OpRun; OpRunTo (nofZ 200) 4].
Definition c92_check : bool :=
  match do_ops ex_lm ex_P ex_draws c92_ops sd_s with
  | Ok s' => match s_walk sd_s, s_walk s' with
             | Some w, Some w' =>
                 match exposure_time w c92_roi, exposure_time w' c92_roi, exposure_time w' c92_small with
                 | Ok (e, _), Ok (e', _), Ok (es, _) =>
                     existsb (fun q => nltb (nth q e nnan) (nth q e' nnan)) (seq 0 5) && existsb (fun q => nltb (nth q es nnan) (nth q e' nnan)) (seq 0 5) &&
                     forallb (fun q => forallb (fun i => nisfin (tat (hist ex_P w' q) i)) (seq 0 (length (r_x (hist ex_P w' q))))) (seq 0 5)
                 | _, _, _ => false end
             | _, _ => false end
  | Err _ => false end.
Example C92_example : session any_draw ex_lm 10 9 ex_params ex_P ex_draws sd_s /\ time_params ex_lm ex_params /\ Forall is_run c92_ops /\ binary c92_roi /\ binary c92_small /\
  (forall i j, cell c92_small i j = 1 -> cell c92_roi i j = 1) /\ c92_check = true.
Proof.
  split; [exact sd_session|]. split; [exact (proj1 (proj2 C17_example))|]. split; [repeat constructor|].
  split; [intros i j _ _; cbn; destruct (3 <=? i); auto|]. split; [intros i j _ _; cbn; destruct (5 <=? i); auto|].
  split; [|vm_compute; reflexivity]. intros i j. cbn. destruct (Z.leb_spec 5 i), (Z.leb_spec 3 i); first [reflexivity | discriminate | lia].
Qed.

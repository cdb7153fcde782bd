(** Properties C105, C106: repeated target-time runs. *)
From Coq Require Import ZArith Bool String List Lia QArith Qcanon Lqa.
From Verif Require Import Num NumFacts NumMore F64 F64Laws XQ XQLaws XQFacts Py Walker ParticleTrack SpecWeights SpecPick SpecWalk SpecHist SpecInit SpecExact SpecApi SpecDraw SpecSplit
  ProofStep ProofApi ProofInit ProofApi2 ProofDrawRun ProofStuck ProofSplit Examples ExamplesReach ExamplesExact ExamplesQ P_Motion P_Time.
Import ListNotations.
Open Scope Z_scope.

(** C105 Running to a target time again, with whatever random numbers, leaves a particle's history as it is, provided that the first run was not cut short by max_iter, that the
    last step of the first run took more than 0.1 seconds (or the run took no step), and that the particle is not in a place where the random pick may select the own cell. *)
Theorem C105_run_again_partial :
  forall G lm L W (p : params f64) P draws s w w1 wl1 s1 w2 wl2 s2 target mi mi' q,
    session G lm L W p P draws s -> s_walk s = Some w ->
    run_target lm P draws target mi s = Ok (w1, wl1, s1) -> run_target lm P draws target mi' s1 = Ok (w2, wl2, s2) -> (q < count w)%nat ->
    let r := hist P w q in let r1 := hist P w1 q in
    (new_records r r1 = 0%nat \/ Z.of_nat (new_records r r1) < mi) -> (new_records r r1 = 0%nat \/ last_step_long r1) ->
    rests_or_moves G lm P (last_x r1) (last_y r1) ->
    hist P w2 q = hist P w1 q.
Proof.
  intros G lm L W p P draws s w w1 wl1 s1 w2 wl2 s2 target mi mi' q SS SW R1 R2 Hq r r1 LIM LONG AM.
  destruct (session_field lm L W p P draws s SS) as (_ & _ & U & _).
  destruct (session_run_to lm L W p P draws s w w1 wl1 s1 target mi q SS SW R1) as (SW1 & CW & _).
  assert (SS1 : session G lm L W p P draws s1).
  { apply (session_op lm L W p P draws s (OpRunTo target mi) s1 SS); [split; exact I|]. cbn [do_op]. rewrite R1. reflexivity. }
  destruct (session_journeys lm L W p P draws target mi s w w1 wl1 s1 SS SW R1) as (pos & _ & _ & J). specialize (J q Hq).
  destruct (session_journeys lm L W p P draws target mi' s1 w1 w2 wl2 s2 SS1 SW1 R2) as (pos' & _ & _ & J'). specialize (J' q ltac:(lia)).
  assert (RR : rect3 (hist P w q)) by (destruct (session_hist lm L W p P draws s w q SS SW Hq) as ((A & B & C & _) & _); split; [exact A | exact C]).
  exact (journey_again G lm P draws target mi mi' _ _ _ _ _ _ _ U J RR LIM LONG AM J').
Qed.
Print Assumptions C105_run_again_partial.

(** ** C106, exact arithmetic *)
Lemma this_plus (a b : Qc) : (this (a + b)%Qc == this a + this b)%Q.
Proof. unfold Qcplus. cbn [this Q2Qc]. apply Qred_correct. Qed.
Lemma this_opp (a : Qc) : (this (- a)%Qc == - this a)%Q.
Proof. unfold Qcopp. cbn [this Q2Qc]. apply Qred_correct. Qed.
Lemma closer_later (t d a b : Qc) : (0 <= d)%Qc -> (a <= b)%Qc -> (qabs (t + d - a) <= qabs (t - a))%Qc -> (qabs (t + d - b) <= qabs (t - b))%Qc.
Proof.
  unfold qabs, Qcminus. intros D AB H.
  destruct (Qclt_le_dec (t + d + - a) 0) as [C1|C1], (Qclt_le_dec (t + - a) 0) as [C2|C2], (Qclt_le_dec (t + d + - b) 0) as [C3|C3], (Qclt_le_dec (t + - b) 0) as [C4|C4];
    unfold Qcle, Qclt in *; rewrite ?this_opp, ?this_plus, ?this_opp in *; change (this 0%Qc) with 0%Q in *; lra.
Qed.
Lemma xq_abs a : nabs (XFin a) = XFin (qabs a).
Proof.
  cbn. unfold qabs. destruct (Qcleb qc0 a) eqn:E.
  - apply Qcleb_true in E. destruct (Qclt_le_dec a 0) as [C|C]; [|reflexivity]. unfold Qclt in C. change (this qc0) with 0%Q in E. change (this 0%Qc) with 0%Q in C. exfalso. lra.
  - apply Qcleb_false in E. destruct (Qclt_le_dec a 0) as [C|C]; [reflexivity|]. unfold Qcle in C. change (this qc0) with 0%Q in E. change (this 0%Qc) with 0%Q in C. exfalso. lra.
Qed.
Lemma tenth_xq : exists a, (ntenth : xq) = XFin a /\ (0 < a)%Qc.
Proof. eexists. split; [reflexivity|]. vm_compute. reflexivity. Qed.
Lemma goes_on_later (t1 t2 : xq) n r : nisfin t1 = true -> nisfin t2 = true -> nleb t1 t2 = true -> rect3 r -> times_in_order r -> goes_on t1 n r -> goes_on t2 n r.
Proof.
  intros F1 F2 LE (R & RT) (TF & TM) H. destruct (xfin_ex _ F1) as (a & ->). destruct (xfin_ex _ F2) as (b & ->). apply xq_leb in LE.
  assert (TL : exists t, tat r (last_ix r) = XFin t) by (apply xfin_ex, TF; unfold last_ix; lia). destruct TL as (t & ET).
  destruct tenth_xq as (z & EZ & ZP).
  assert (DT : (1 < length (r_x r))%nat -> exists d, nsub (tat r (last_ix r)) (tat r (last_ix r - 1)) = XFin d /\ (0 <= d)%Qc).
  { intros LR. assert (TP : exists t', tat r (last_ix r - 1) = XFin t') by (apply xfin_ex, TF; unfold last_ix; lia). destruct TP as (t' & EP).
    specialize (TM (last_ix r - 1)%nat). replace (S (last_ix r - 1)) with (last_ix r) in TM by (unfold last_ix; lia). specialize (TM ltac:(unfold last_ix; lia)).
    rewrite ET, EP in *. apply xq_leb in TM. exists (t - t')%Qc. split; [reflexivity|]. unfold Qcle in *. unfold Qcminus. rewrite this_plus, this_opp. change (this 0%Qc) with 0%Q. lra. }
  assert (ND : exists d, next_dt n r = XFin d /\ (0 <= d)%Qc).
  { destruct n as [|n]; cbn [next_dt]; rewrite ?RT.
    - destruct (Nat.ltb_spec 1 (length (r_x r))) as [LR|LR]; [apply DT, LR|]. exists z. split; [exact EZ | apply Qclt_le_weak, ZP].
    - unfold py_max. destruct (nltb ntenth _) eqn:E; [|exists z; split; [exact EZ | apply Qclt_le_weak, ZP]].
      destruct (Nat.lt_ge_cases 1 (length (r_x r))) as [LR|LR]; [apply DT, LR|]. exfalso. replace (last_ix r - 1)%nat with (last_ix r) in E by (unfold last_ix; lia).
      rewrite ET, EZ, xq_sub in E. apply xq_ltb in E. replace (t - t)%Qc with 0%Qc in E by ring. unfold Qclt in *. change (this 0%Qc) with 0%Q in *. lra. }
  destruct ND as (d & ED & D0). unfold goes_on in *. rewrite ET, ED in *. rewrite !xq_add, !xq_sub, !xq_abs in *. apply xq_leb. apply xq_leb in H.
  exact (closer_later t d a b D0 LE H).
Qed.
Lemma prefix_times r r' : prefix_of r r' -> rect3 r -> times_in_order r' -> times_in_order r.
Proof.
  intros (lx & lt & A & B) (_ & RT) (F & M). unfold tat in *. rewrite A, B in *. rewrite app_length in *. split.
  - intros i Hi. specialize (F i ltac:(lia)). rewrite app_nth1 in F by lia. exact F.
  - intros i Hi. specialize (M i ltac:(lia)). rewrite !app_nth1 in M by lia. exact M.
Qed.

(** C106 One particle, first run to the time t1 and then to a later time t2: its history is the same, record for record, as if it had been run to t2 directly with the same random
    numbers.  Conditions as in C105; the whole way must not reach max_iter. *)
Theorem C106_stop_on_the_way_partial :
  forall G lm L W (p : params xq) P draws s w w1 wl1 s1 w2 wl2 s2 w3 wl3 s3 t1 t2 mi,
    session G lm L W p P draws s -> s_walk s = Some w -> count w = 1%nat ->
    nisfin t1 = true -> nisfin t2 = true -> nleb t1 t2 = true ->
    run_target lm P draws t1 mi s = Ok (w1, wl1, s1) -> run_target lm P draws t2 mi s1 = Ok (w2, wl2, s2) ->
    run_target lm P draws t2 mi s = Ok (w3, wl3, s3) ->
    let r := hist P w 0 in let r1 := hist P w1 0 in let r2 := hist P w2 0 in
    times_in_order r1 -> (new_records r r1 = 0%nat \/ last_step_long r1) -> rests_or_moves G lm P (last_x r1) (last_y r1) ->
    Z.of_nat (new_records r r2) < mi ->
    hist P w3 0 = hist P w2 0.
Proof.
  intros G lm L W p P draws s w w1 wl1 s1 w2 wl2 s2 w3 wl3 s3 t1 t2 mi SS SW CW F1 F2 LE R1 R2 R3 r r1 r2 TO LONG AM LIM.
  destruct (session_field lm L W p P draws s SS) as (_ & _ & U & _).
  destruct (session_run_to lm L W p P draws s w w1 wl1 s1 t1 mi 0%nat SS SW R1) as (SW1 & CW1 & _).
  assert (SS1 : session G lm L W p P draws s1).
  { apply (session_op lm L W p P draws s (OpRunTo t1 mi) s1 SS); [split; exact I|]. cbn [do_op]. rewrite R1. reflexivity. }
  destruct (session_journeys lm L W p P draws t1 mi s w w1 wl1 s1 SS SW R1) as (pos & A0 & A1 & J). specialize (J 0%nat ltac:(lia)).
  destruct (session_journeys lm L W p P draws t2 mi s1 w1 w2 wl2 s2 SS1 SW1 R2) as (pos' & B0 & _ & J'). specialize (J' 0%nat ltac:(lia)).
  destruct (session_journeys lm L W p P draws t2 mi s w w3 wl3 s3 SS SW R3) as (pos'' & C0 & _ & J''). specialize (J'' 0%nat ltac:(lia)).
  rewrite CW in A1. rewrite A0, A1 in J. rewrite B0 in J'. rewrite C0 in J''.
  assert (RR : rect3 (hist P w 0)) by (destruct (session_hist lm L W p P draws s w 0%nat SS SW ltac:(lia)) as ((A & B & C & _) & _); split; [exact A | exact C]).
  assert (MONO : forall n r', prefix_of r' (hist P w1 0) -> rect3 r' -> goes_on t1 n r' -> goes_on t2 n r').
  { intros n r' PR R'. exact (goes_on_later t1 t2 n r' F1 F2 LE R' (prefix_times _ _ PR R' TO)). }
  destruct (journey_split G lm P draws t1 t2 mi 0 _ _ _ _ _ _ U J RR (or_introl eq_refl) MONO AM LONG J' LIM) as (c' & K).
  symmetry. exact (proj2 (journey_fun lm P draws draws t2 mi 0 _ _ _ _ K _ _ _ (fun i => eq_refl) J'')).
Qed.
Print Assumptions C106_stop_on_the_way_partial.

(** ** Concrete cases *)
Section Check.
Context {T : Type} {N : Num T}.
Variables (lm : Libm T) (P : pobj T) (d : nat -> T) (s : psim T) (t1 t2 : T) (mi : Z) (vals : list T).
Definition moves_check (x y : Z) : bool :=
  forallb (fun u => match (if o_steep P then steep_descent else random_pick) (weights_of lm P x y) u with
                    | Ok (k, _) => negb (k =? 4)%nat && negb ((nth k (o_jwalk P) 0 =? 0) && (nth k (o_iwalk P) 0 =? 0)) | Err _ => true end) vals.
Lemma moves_check_ok x y : moves_check x y = true -> always_moves_on (fun u => In u vals) lm P x y.
Proof.
  intros H k u Hk _ Hu (v & E). unfold moves_check in H. rewrite forallb_forall in H. specialize (H u Hu). rewrite E in H. apply andb_true_iff in H as (A & B).
  apply negb_true_iff in A, B. split; [apply Nat.eqb_neq, A|]. intros C. injection C as C1 C2. rewrite C1, C2 in B. discriminate.
Qed.
Definition order_check (r : prow T) : bool :=
  forallb (fun i => nisfin (tat r i)) (seq 0 (length (r_x r))) && forallb (fun i => nleb (tat r i) (tat r (S i))) (seq 0 (length (r_x r) - 1)).
Lemma order_check_ok r : order_check r = true -> times_in_order r.
Proof.
  intros H. apply andb_true_iff in H as (A & B). rewrite forallb_forall in A, B. split; intros i Hi; [apply A | apply B]; apply in_seq; lia.
Qed.
(** The runs to t1 and on to t2, and the run to t2 directly: how many records the particle has after each. *)
Definition split_check (long : bool) (n1 n2 n3 : nat) : bool :=
  match s_walk s, run_target lm P d t1 mi s, run_target lm P d t2 mi s with
  | Some w, Ok (w1, _, s1), Ok (w3, _, _) =>
      match run_target lm P d t2 mi s1 with
      | Ok (w2, _, _) =>
          let r := hist P w 0 in let r1 := hist P w1 0 in let r2 := hist P w2 0 in let r3 := hist P w3 0 in
          (count w =? 1)%nat && (length (r_x r) =? 1)%nat && (length (r_x r1) =? n1)%nat && (length (r_x r2) =? n2)%nat && (length (r_x r3) =? n3)%nat &&
          Bool.eqb (nltb ntenth (nsub (tat r1 (last_ix r1)) (tat r1 (last_ix r1 - 1)))) long && moves_check (last_x r1) (last_y r1) && order_check r1
      | Err _ => false
      end
  | _, _, _ => false
  end.
Lemma split_check_ok long n1 n2 n3 : split_check long n1 n2 n3 = true ->
  exists w w1 l1 s1 w2 l2 s2 w3 l3 s3, s_walk s = Some w /\ count w = 1%nat /\ run_target lm P d t1 mi s = Ok (w1, l1, s1) /\ run_target lm P d t2 mi s1 = Ok (w2, l2, s2) /\
    run_target lm P d t2 mi s = Ok (w3, l3, s3) /\ length (r_x (hist P w 0)) = 1%nat /\ length (r_x (hist P w1 0)) = n1 /\ length (r_x (hist P w2 0)) = n2 /\ length (r_x (hist P w3 0)) = n3 /\
    (long = true -> last_step_long (hist P w1 0)) /\ always_moves_on (fun u => In u vals) lm P (last_x (hist P w1 0)) (last_y (hist P w1 0)) /\ times_in_order (hist P w1 0).
Proof.
  unfold split_check. destruct (s_walk s) as [w|] eqn:E; [|discriminate]. destruct (run_target lm P d t1 mi s) as [((w1, l1), s1)|] eqn:E1; [|discriminate].
  destruct (run_target lm P d t2 mi s) as [((w3, l3), s3)|] eqn:E3; [|discriminate]. destruct (run_target lm P d t2 mi s1) as [((w2, l2), s2)|] eqn:E2; [|discriminate].
  cbv zeta. rewrite !andb_true_iff, !Nat.eqb_eq. intros (((((((C1 & C2) & C3) & C4) & C5) & C6) & C7) & C8).
  exists w, w1, l1, s1, w2, l2, s2, w3, l3, s3. repeat (split; [first [reflexivity | assumption]|]). split; [|split; [apply moves_check_ok, C7 | apply order_check_ok, C8]].
  intros -> _. apply eqb_prop in C6. exact C6.
Qed.
End Check.
(** The example field with another cell size. *)
Definition sized {T} {N : Num T} (dx : T) : params T :=
  {| p_dx := Some dx; p_depth := Some gx_depth; p_stage := Some gx_stage; p_topo := None;
     p_model := Some "DeltaRCM"%string; p_qx := Some gx_qx; p_qy := Some gx_qy; p_u := None; p_v := None;
     p_theta := Some n1; p_gamma := None; p_diff := None; p_dry := None; p_ct := None; p_steep := None;
     p_dist := None; p_ivec := None; p_jvec := None; p_iwalk := None; p_jwalk := None; p_angles := None;
     p_roi := None; p_vars := Some ["depth"%string] |}.
Definition sz_seed {T} {N : Num T} : list (op T) := [OpGen 1 [2] [5] n0 Exact None].
(* binary64 *)
Definition sf_P (dx : f64) : pobj f64 := fst (unerr (gx_none, sized dx) (init ex_lm (sized dx))).
Definition sf_s (dx : f64) : psim f64 := unerr (init_sim ex_lm (sf_P dx) 0) (do_ops ex_lm (sf_P dx) ex_draws sz_seed (init_sim ex_lm (sf_P dx) 0)).
Definition vals_G {T} (vals : list T) (u : T) : Prop := In u vals.
Lemma sf_session dx : is_ok (init ex_lm (sized dx)) && is_ok (do_ops ex_lm (sf_P dx) ex_draws sz_seed (init_sim ex_lm (sf_P dx) 0)) && negb (neqb dx n0) &&
  (nrow (o_depth (sf_P dx)) =? 10) && (ncol (o_depth (sf_P dx)) =? 9) = true -> session (vals_G ex_vals) ex_lm 10 9 (sized dx) (sf_P dx) ex_draws (sf_s dx).
Proof.
  rewrite !andb_true_iff, negb_true_iff, !Z.eqb_eq. intros ((((I1 & I2) & D) & NR) & NC). split.
  { split. { repeat split; try lia; try (intros; discriminate);
      match goal with |- nrow ?a = _ => idtac | |- ncol ?a = _ => idtac end;
      match goal with H : _ = Some ?a |- _ => injection H as <-; reflexivity end. }
    split; [lia|]. split; [lia|]. split; [repeat split|]. split; [intros ct Hc; discriminate|]. split; [intros g Hg; discriminate|].
    split; [exact ex_pow_ok|]. split; [exact ex_sqrt_ok|]. intros dx' Hd. injection Hd as <-. exact D. }
  split. { exists (snd (unerr (gx_none, sized dx) (init ex_lm (sized dx)))). unfold sf_P. rewrite <- surjective_pairing. apply is_ok_unerr, I1. }
  split; [exact ex_stream_G|]. exists 0%nat, sz_seed. split; [|apply is_ok_unerr, I2].
  constructor; [|constructor]. split; [|exact I]. split; [lia|]. split; [reflexivity|]. intros x y [H|[]]. injection H as <- <-. right. rewrite NR, NC. lia.
Qed.
Lemma sf_session_10 : session (vals_G ex_vals) ex_lm 10 9 (sized (nofZ 10)) (sf_P (nofZ 10)) ex_draws (sf_s (nofZ 10)).
Proof. apply sf_session. vm_compute. reflexivity. Qed.
Lemma sf_session_small : session (vals_G ex_vals) ex_lm 10 9 (sized (ndiv n1 (nofZ 64))) (sf_P (ndiv n1 (nofZ 64))) ex_draws (sf_s (ndiv n1 (nofZ 64))).
Proof. apply sf_session. vm_compute. reflexivity. Qed.
(** Cells of 10 m, to 20 s and again to 20 s. *)
Example C105_example : session (vals_G ex_vals) ex_lm 10 9 (sized (nofZ 10)) (sf_P (nofZ 10)) ex_draws (sf_s (nofZ 10)) /\
  exists w w1 l1 s1 w2 l2 s2, s_walk (sf_s (nofZ 10)) = Some w /\ count w = 1%nat /\
    run_target ex_lm (sf_P (nofZ 10)) ex_draws (nofZ 20) 100 (sf_s (nofZ 10)) = Ok (w1, l1, s1) /\ run_target ex_lm (sf_P (nofZ 10)) ex_draws (nofZ 20) 100 s1 = Ok (w2, l2, s2) /\
    let r := hist (sf_P (nofZ 10)) w 0 in let r1 := hist (sf_P (nofZ 10)) w1 0 in
    new_records r r1 = 2%nat /\ last_step_long r1 /\ rests_or_moves (vals_G ex_vals) ex_lm (sf_P (nofZ 10)) (last_x r1) (last_y r1).
Proof.
  split; [exact sf_session_10|].
  assert (C : split_check ex_lm (sf_P (nofZ 10)) ex_draws (sf_s (nofZ 10)) (nofZ 20) (nofZ 20) 100 ex_vals true 3 3 3 = true) by (vm_compute; reflexivity).
  destruct (split_check_ok _ _ _ _ _ _ _ _ _ _ _ _ C) as (w & w1 & l1 & s1 & w2 & l2 & s2 & w3 & l3 & s3 & A1 & A2 & A3 & A4 & _ & A5 & A6 & _ & _ & A7 & A8 & _).
  exists w, w1, l1, s1, w2, l2, s2. repeat (split; [assumption|]). cbv zeta. split; [unfold new_records; rewrite A5, A6; reflexivity|]. split; [exact (A7 eq_refl)|]. right; right. exact A8.
Qed.
(** Without the condition on the last step the claim is false: in cells of 1/64 m, with steps of a few hundredths of a second, the second run to the same time takes one more step.  (While it runs,
    the code estimates the next step at 0.1 s or more; a new call estimates it by the last step alone.) *)
Theorem C105_short_steps_refuted :
  ~ (forall G lm L W (p : params f64) P draws s w w1 wl1 s1 w2 wl2 s2 target mi mi' q,
       session G lm L W p P draws s -> s_walk s = Some w ->
       run_target lm P draws target mi s = Ok (w1, wl1, s1) -> run_target lm P draws target mi' s1 = Ok (w2, wl2, s2) -> (q < count w)%nat ->
       Z.of_nat (new_records (hist P w q) (hist P w1 q)) < mi -> always_moves_on G lm P (last_x (hist P w1 q)) (last_y (hist P w1 q)) ->
       hist P w2 q = hist P w1 q).
Proof.
  intros H. set (dx := ndiv n1 (nofZ 64) : f64).
  assert (C : split_check ex_lm (sf_P dx) ex_draws (sf_s dx) (ndiv (nofZ 7) (nofZ 128)) (ndiv (nofZ 7) (nofZ 128)) 100 ex_vals false 2 3 2 = true) by (vm_compute; reflexivity).
  destruct (split_check_ok _ _ _ _ _ _ _ _ _ _ _ _ C) as (w & w1 & l1 & s1 & w2 & l2 & s2 & w3 & l3 & s3 & A1 & A2 & A3 & A4 & _ & A5 & A6 & A9 & _ & A7 & A8 & _).
  pose proof (H _ _ _ _ _ _ _ _ _ _ _ _ _ _ _ _ 100 100 0%nat sf_session_small A1 A3 A4 ltac:(lia)) as Q. fold dx in Q. rewrite Q in A9; [rewrite A6 in A9; discriminate | | exact A8].
  unfold new_records. rewrite A5, A6. reflexivity.
Qed.
Print Assumptions C105_short_steps_refuted.

(* exact arithmetic *)
Definition sq_vals : list xq := map (fun k => ndiv (nofZ k) (nofZ 8)) [1; 2; 3; 4; 5; 6; 7].
Definition sq_P (dx : xq) : pobj xq := fst (unerr (gx_none, sized dx) (init eq_lm (sized dx))).
Definition sq_s (dx : xq) : psim xq := unerr (init_sim eq_lm (sq_P dx) 0) (do_ops eq_lm (sq_P dx) eq_draws sz_seed (init_sim eq_lm (sq_P dx) 0)).
Lemma sq_stream : unit_stream (vals_G sq_vals) eq_draws.
Proof.
  intros n. split; [apply eq_stream|]. unfold vals_G, sq_vals, eq_draws, gx_draws. apply in_map_iff. set (r := (3 * Z.of_nat n) mod 7).
  assert (0 <= r < 7) by (apply Z.mod_pos_bound; lia). exists (1 + r). split; [reflexivity|]. cbn [In]. lia.
Qed.
Lemma sq_session dx : is_ok (init eq_lm (sized dx)) && is_ok (do_ops eq_lm (sq_P dx) eq_draws sz_seed (init_sim eq_lm (sq_P dx) 0)) && negb (neqb dx n0) &&
  (nrow (o_depth (sq_P dx)) =? 10) && (ncol (o_depth (sq_P dx)) =? 9) = true -> session (vals_G sq_vals) eq_lm 10 9 (sized dx) (sq_P dx) eq_draws (sq_s dx).
Proof.
  rewrite !andb_true_iff, negb_true_iff, !Z.eqb_eq. intros ((((I1 & I2) & D) & NR) & NC). split.
  { destruct eq_standard as (A1 & A2 & A3 & A4 & A5 & A6 & A7 & A8 & _). split; [exact A1|]. split; [exact A2|]. split; [exact A3|]. split; [exact A4|]. split; [exact A5|].
    split; [exact A6|]. split; [exact A7|]. split; [exact A8|]. intros dx' Hd. injection Hd as <-. exact D. }
  split. { exists (snd (unerr (gx_none, sized dx) (init eq_lm (sized dx)))). unfold sq_P. rewrite <- surjective_pairing. apply is_ok_unerr, I1. }
  split; [exact sq_stream|]. exists 0%nat, sz_seed. split; [|apply is_ok_unerr, I2].
  constructor; [|constructor]. split; [|exact I]. split; [lia|]. split; [reflexivity|]. intros x y [H|[]]. injection H as <- <-. right. rewrite NR, NC. lia.
Qed.
Lemma sq_session_10 : session (vals_G sq_vals) eq_lm 10 9 (sized (nofZ 10)) (sq_P (nofZ 10)) eq_draws (sq_s (nofZ 10)).
Proof. apply sq_session. vm_compute. reflexivity. Qed.
Lemma sq_session_small : session (vals_G sq_vals) eq_lm 10 9 (sized (ndiv n1 (nofZ 64))) (sq_P (ndiv n1 (nofZ 64))) eq_draws (sq_s (ndiv n1 (nofZ 64))).
Proof. apply sq_session. vm_compute. reflexivity. Qed.
(** Cells of 10 m, to 12 s (one step) and then to 25 s (another step). *)
Example C106_example : session (vals_G sq_vals) eq_lm 10 9 (sized (nofZ 10)) (sq_P (nofZ 10)) eq_draws (sq_s (nofZ 10)) /\
  exists w w1 l1 s1 w2 l2 s2 w3 l3 s3, s_walk (sq_s (nofZ 10)) = Some w /\ count w = 1%nat /\
    run_target eq_lm (sq_P (nofZ 10)) eq_draws (nofZ 12) 100 (sq_s (nofZ 10)) = Ok (w1, l1, s1) /\ run_target eq_lm (sq_P (nofZ 10)) eq_draws (nofZ 25) 100 s1 = Ok (w2, l2, s2) /\
    run_target eq_lm (sq_P (nofZ 10)) eq_draws (nofZ 25) 100 (sq_s (nofZ 10)) = Ok (w3, l3, s3) /\
    let r := hist (sq_P (nofZ 10)) w 0 in let r1 := hist (sq_P (nofZ 10)) w1 0 in let r2 := hist (sq_P (nofZ 10)) w2 0 in
    times_in_order r1 /\ new_records r r1 = 1%nat /\ last_step_long r1 /\ rests_or_moves (vals_G sq_vals) eq_lm (sq_P (nofZ 10)) (last_x r1) (last_y r1) /\ new_records r r2 = 2%nat.
Proof.
  split; [exact sq_session_10|].
  assert (C : split_check eq_lm (sq_P (nofZ 10)) eq_draws (sq_s (nofZ 10)) (nofZ 12) (nofZ 25) 100 sq_vals true 2 3 3 = true) by (vm_compute; reflexivity).
  destruct (split_check_ok _ _ _ _ _ _ _ _ _ _ _ _ C) as (w & w1 & l1 & s1 & w2 & l2 & s2 & w3 & l3 & s3 & A1 & A2 & A3 & A4 & A4' & A5 & A6 & A6' & _ & A7 & A8 & A9).
  exists w, w1, l1, s1, w2, l2, s2, w3, l3, s3. repeat (split; [assumption|]). cbv zeta. split; [unfold new_records; rewrite A5, A6; reflexivity|]. split; [exact (A7 eq_refl)|].
  split; [right; right; exact A8|]. unfold new_records. rewrite A5, A6'. reflexivity.
Qed.
(** With steps below 0.1 s a stop on the way does change the result. *)
Theorem C106_short_steps_refuted :
  ~ (forall G lm L W (p : params xq) P draws s w w1 wl1 s1 w2 wl2 s2 w3 wl3 s3 t1 t2 mi,
       session G lm L W p P draws s -> s_walk s = Some w -> count w = 1%nat ->
       nisfin t1 = true -> nisfin t2 = true -> nleb t1 t2 = true ->
       run_target lm P draws t1 mi s = Ok (w1, wl1, s1) -> run_target lm P draws t2 mi s1 = Ok (w2, wl2, s2) ->
       run_target lm P draws t2 mi s = Ok (w3, wl3, s3) ->
       let r := hist P w 0 in let r1 := hist P w1 0 in let r2 := hist P w2 0 in
       times_in_order r1 -> rests_or_moves G lm P (last_x r1) (last_y r1) -> Z.of_nat (new_records r r2) < mi ->
       hist P w3 0 = hist P w2 0).
Proof.
  intros H. set (dx := ndiv n1 (nofZ 64) : xq).
  assert (C : split_check eq_lm (sq_P dx) eq_draws (sq_s dx) (ndiv n1 (nofZ 16)) (ndiv n1 (nofZ 16)) 100 sq_vals false 2 3 2 = true) by (vm_compute; reflexivity).
  destruct (split_check_ok _ _ _ _ _ _ _ _ _ _ _ _ C) as (w & w1 & l1 & s1 & w2 & l2 & s2 & w3 & l3 & s3 & A1 & A2 & A3 & A4 & A4' & A5 & A6 & A6' & A6'' & A7 & A8 & A9).
  assert (F : nisfin (ndiv n1 (nofZ 16) : xq) = true) by (vm_compute; reflexivity). assert (LE : nleb (ndiv n1 (nofZ 16)) (ndiv n1 (nofZ 16) : xq) = true) by (vm_compute; reflexivity).
  pose proof (H _ _ _ _ _ _ _ _ _ _ _ _ _ _ _ _ _ _ _ _ 100 sq_session_small A1 A2 F F LE A3 A4 A4' A9 (or_intror (or_intror A8))) as Q. fold dx in Q.
  rewrite Q in A6''; [rewrite A6' in A6''; discriminate|]. unfold new_records. rewrite A5, A6'. reflexivity.
Qed.
Print Assumptions C106_short_steps_refuted.

(** C105, a target time that has passed: a particle whose last recorded time is not before the target does not move, provided that its last step took some time. *)
Lemma abs_grows (t d a : Qc) : (0 < d)%Qc -> (a <= t)%Qc -> ~ (qabs (t + d - a) <= qabs (t - a))%Qc.
Proof.
  unfold qabs, Qcminus. intros D AB H.
  destruct (Qclt_le_dec (t + d + - a) 0) as [C1|C1], (Qclt_le_dec (t + - a) 0) as [C2|C2];
    unfold Qcle, Qclt in *; rewrite ?this_opp, ?this_plus, ?this_opp in *; change (this 0%Qc) with 0%Q in *; lra.
Qed.
Theorem C105_already_past_partial :
  forall G lm L W (p : params xq) P draws s w w1 wl1 s1 target mi q,
    session G lm L W p P draws s -> s_walk s = Some w -> run_target lm P draws target mi s = Ok (w1, wl1, s1) -> (q < count w)%nat ->
    let r := hist P w q in
    nisfin target = true -> nisfin (tat r (last_ix r)) = true -> nleb target (tat r (last_ix r)) = true ->
    ((1 < length (r_x r))%nat -> nisfin (tat r (last_ix r - 1)) = true /\ nltb (tat r (last_ix r - 1)) (tat r (last_ix r)) = true) ->
    hist P w1 q = hist P w q.
Proof.
  intros G lm L W p P draws s w w1 wl1 s1 target mi q SS SW R Hq r FT FL LE ST.
  destruct (session_journeys lm L W p P draws target mi s w w1 wl1 s1 SS SW R) as (pos & _ & _ & J). specialize (J q Hq).
  assert (RR : rect3 (hist P w q)) by (destruct (session_hist lm L W p P draws s w q SS SW Hq) as ((A & B & C & _) & _); split; [exact A | exact C]).
  refine (journey_still lm P draws target mi _ _ _ _ J (or_introl _)). intros GO. fold r in RR, GO.
  destruct (xfin_ex _ FT) as (a & ->). destruct (xfin_ex _ FL) as (t & ET). rewrite ET in LE. apply xq_leb in LE.
  assert (ND : exists d, next_dt 0 r = XFin d /\ (0 < d)%Qc).
  { destruct RR as (_ & RT). cbn [next_dt]. rewrite RT. destruct (Nat.ltb_spec 1 (length (r_x r))) as [LR|LR]; [|exact tenth_xq].
    destruct (ST LR) as (FP & LT). destruct (xfin_ex _ FP) as (t' & EP). rewrite ET, EP in *. apply xq_ltb in LT. exists (t - t')%Qc. split; [reflexivity|].
    unfold Qclt in *. unfold Qcminus. rewrite this_plus, this_opp. change (this 0%Qc) with 0%Q. lra. }
  destruct ND as (d & ED & D0). unfold goes_on in GO. rewrite ET, ED, !xq_add, !xq_sub, !xq_abs in GO. apply xq_leb in GO. exact (abs_grows t d a D0 LE GO).
Qed.
Print Assumptions C105_already_past_partial.

(** The session of C93 (P_Time): the first step of particle 1 took no time, the second did. *)
Definition past_check (s : psim xq) (q n n' : nat) (zero : bool) : bool :=
  match s_walk s with
  | Some w => match run_target eq_lm zt_P eq_draws n0 100 s with
      | Ok (w1, _, _) => let r := hist zt_P w q in Nat.ltb q (count w) && Nat.eqb (length (r_x r)) n && Nat.eqb (length (r_x (hist zt_P w1 q))) n' && Nat.ltb 1 n &&
          nisfin (tat r (last_ix r)) && nleb n0 (tat r (last_ix r)) && nisfin (tat r (last_ix r - 1)) && Bool.eqb zero (negb (nltb (tat r (last_ix r - 1)) (tat r (last_ix r))))
      | Err _ => false
      end
  | None => false
  end.
Lemma past_check_ok s q n n' zero : past_check s q n n' zero = true -> exists w w1 l1 s1, s_walk s = Some w /\ run_target eq_lm zt_P eq_draws n0 100 s = Ok (w1, l1, s1) /\ (q < count w)%nat /\
  let r := hist zt_P w q in (1 < length (r_x r))%nat /\ length (r_x r) = n /\ length (r_x (hist zt_P w1 q)) = n' /\ nisfin (tat r (last_ix r)) = true /\ nleb n0 (tat r (last_ix r)) = true /\
  nisfin (tat r (last_ix r - 1)) = true /\ nltb (tat r (last_ix r - 1)) (tat r (last_ix r)) = negb zero.
Proof.
  unfold past_check. destruct (s_walk s) as [w|]; [|discriminate]. destruct (run_target eq_lm zt_P eq_draws n0 100 s) as [[[w1 l1] s1]|e]; [|discriminate]. cbv zeta.
  rewrite !andb_true_iff, !Nat.eqb_eq, !Nat.ltb_lt, eqb_true_iff. intros (((((((A & B) & C) & D) & E) & F) & H) & I). exists w, w1, l1, s1.
  split; [reflexivity|]. split; [reflexivity|]. split; [exact A|]. rewrite B. repeat (split; [assumption || reflexivity|]). rewrite I, negb_involutive. reflexivity.
Qed.
Example C105_past_example : session (fun _ => True) eq_lm 10 9 zt_params zt_P eq_draws zt_s /\
  exists w w1 l1 s1, s_walk zt_s = Some w /\ run_target eq_lm zt_P eq_draws n0 100 zt_s = Ok (w1, l1, s1) /\ (1 < count w)%nat /\
  let r := hist zt_P w 1 in length (r_x r) = 3%nat /\ nisfin (tat r (last_ix r)) = true /\ nleb n0 (tat r (last_ix r)) = true /\
  nisfin (tat r (last_ix r - 1)) = true /\ nltb (tat r (last_ix r - 1)) (tat r (last_ix r)) = true /\ length (r_x (hist zt_P w1 1)) = 3%nat.
Proof.
  split; [exact zt_session|]. assert (C : past_check zt_s 1 3 3 false = true) by (vm_compute; reflexivity).
  destruct (past_check_ok _ _ _ _ _ C) as (w & w1 & l1 & s1 & A & B & D & F). exists w, w1, l1, s1. cbv zeta in *. cbn [negb] in F. tauto.
Qed.
Definition pa_ops : list (op xq) := [OpGen 3 [2; 3] [3; 5] n0 Random None; OpRun].
Definition pa_s : psim xq := unerr (init_sim eq_lm zt_P 0) (do_ops eq_lm zt_P eq_draws pa_ops (init_sim eq_lm zt_P 0)).
Lemma pa_session : session (fun _ => True) eq_lm 10 9 zt_params zt_P eq_draws pa_s.
Proof.
  split; [exact zt_standard|]. split; [exact zt_init|]. split; [exact eq_stream|]. exists 0%nat, pa_ops. split; [|apply is_ok_unerr; vm_compute; reflexivity].
  constructor; [|constructor; [split; exact I | constructor]]. split; [|exact I].
  split; [lia|]. intros x y; cbn [In]; intros. right. change (nrow (o_depth zt_P)) with 10. change (ncol (o_depth zt_P)) with 9. lia.
Qed.
(** After a step that took no time a run to the present time still moves the particle. *)
Theorem C105_past_target_refuted :
  ~ (forall G lm L W (p : params xq) P draws s w w1 wl1 s1 target mi q,
       session G lm L W p P draws s -> s_walk s = Some w -> run_target lm P draws target mi s = Ok (w1, wl1, s1) -> (q < count w)%nat ->
       let r := hist P w q in
       nisfin target = true -> nisfin (tat r (last_ix r)) = true -> nleb target (tat r (last_ix r)) = true ->
       ((1 < length (r_x r))%nat -> nisfin (tat r (last_ix r - 1)) = true) ->
       hist P w1 q = hist P w q).
Proof.
  intros H. assert (C : past_check pa_s 1 2 3 true = true) by (vm_compute; reflexivity).
  destruct (past_check_ok _ _ _ _ _ C) as (w & w1 & l1 & s1 & A & B & D & F). cbv zeta in F. destruct F as (F1 & F2 & F3 & F4 & F5 & F6 & _).
  specialize (H _ _ _ _ _ _ _ _ _ _ _ _ n0 100 1%nat pa_session A B D eq_refl F4 F5 (fun _ => F6)). rewrite H, F2 in F3. discriminate.
Qed.
Print Assumptions C105_past_target_refuted.

(** Property C97: the same flow at another speed (exact arithmetic). *)
From Coq Require Import ZArith Bool String List Lia QArith Qpower Qcanon Lqa.
From Verif Require Import Num NumFacts NumMore XQ XQLaws XQFacts Py Walker ParticleTrack SpecWeights SpecPick SpecWalk SpecHist SpecInit SpecApi SpecDraw SpecShift SpecFast
  ProofStep ProofWeightLaws ProofApi ProofInit ProofApi2 ProofShift ProofDrawStep ProofDrawRun ProofStuck ProofFast Examples ExamplesExact ExamplesQ.
Import ListNotations.
Open Scope Z_scope.

(** The cells a particle has been recorded in. *)
Definition recorded_all (Q : Z -> Z -> Prop) (r : prow xq) : Prop := forall i, (i < length (r_x r))%nat -> Q (xat r i) (yat r i).

Section Steps.
Variables (lm : Libm xq) (k : Qc) (P Q : pobj xq).
Hypothesis K : (0 < k)%Qc.
Hypothesis HO : homogeneous lm k.
Hypothesis FO : fast_obj k lm P Q.
Hypothesis FP : field_ok lm P.
Hypothesis FQ : field_ok lm Q.
Notation fine := (fun x y => above_floor P x y /\ above_floor Q x y).
Lemma edge_fast x y : edge_nearby Q x y <-> edge_nearby P x y.
Proof. destruct FO as ((D & _ & C & _) & _). unfold edge_nearby, in_grid. rewrite D, C. reflexivity. Qed.
Lemma free_inside x y : in_grid P x y -> ~ edge_nearby P x y -> inside P x y.
Proof.
  intros Hg NE. destruct FP as (_ & _ & _ & RC & _). destruct (Z_le_dec 1 x), (Z_lt_dec x (nrow (o_depth P) - 1)), (Z_le_dec 1 y), (Z_lt_dec y (ncol (o_depth P) - 1));
    try (split; lia); exfalso; apply NE; exists x, y; (split; [exact Hg|]; split; [lia|]; split; [lia|]; apply RC; split; [exact Hg|]; unfold inside; lia).
Qed.
Lemma selects_fast x y u a b : in_grid P x y -> ~ edge_nearby P x y -> selects lm P x y u a -> selects lm Q x y u b -> a = b.
Proof.
  intros Hg NE (v1 & E1) (v2 & E2). rewrite (weights_faster k K lm P Q x y (proj1 FP) (proj1 FQ) FO (free_inside x y Hg NE)) in E2.
  destruct FO as ((_ & _ & _ & _ & _ & _ & _ & _ & _ & _ & _ & _ & _ & ST & _) & _). rewrite ST in E2. congruence.
Qed.
Lemma last_same r r' : same_way k r r' -> last_x r' = last_x r /\ last_y r' = last_y r /\ tat r' (last_ix r') = times_k (/ k) (tat r (last_ix r)).
Proof.
  intros (A & B & C). unfold last_x, last_y, xat, yat, tat, last_ix. rewrite A, B, C. split; [reflexivity|]. split; [reflexivity|].
  rewrite <- (f_n0 (/ k)) at 1. apply map_nth.
Qed.
Lemma step_fast r r' u v r1 r1' : row_rect r -> in_grid P (last_x r) (last_y r) -> same_way k r r' -> one_step lm P r u v r1 -> one_step lm Q r' u v r1' -> recorded_all fine r1 -> same_way k r1 r1'.
Proof.
  intros (L1 & L2 & L3 & _) Hg SW S1 S2 AF. destruct (last_same r r' SW) as (EX & EY & ET). pose proof SW as (A & B & C).
  assert (IW : o_iwalk Q = o_iwalk P) by apply FO. assert (JW : o_jwalk Q = o_jwalk P) by apply FO.
  unfold one_step in S1, S2. cbv zeta in S1, S2. rewrite EX, EY, ET, IW, JW in S2. rewrite edge_fast in S2.
  destruct S1 as [(C1 & ->)|(Z1 & E1 & k1 & K1 & N1 & S1 & D1 & ->)], S2 as [(C2 & ->)|(Z2 & E2 & k2 & K2 & N2 & S2 & D2 & ->)].
  - exact SW.
  - exfalso. destruct C1 as [Q1|[Q1|(m & Hm & Sm & Q1)]]; [contradiction|contradiction|].
    rewrite (selects_fast _ _ _ m k2 Hg E2 Sm S2) in Q1. destruct Q1 as [Q1|(U & V)]; [contradiction|]. apply D2. rewrite U, V, !Z.add_0_r. reflexivity.
  - exfalso. destruct C2 as [Q1|[Q1|(m & Hm & Sm & Q1)]]; [contradiction|contradiction|].
    rewrite <- (selects_fast _ _ _ k1 m Hg E1 S1 Sm) in Q1. destruct Q1 as [Q1|(U & V)]; [contradiction|]. apply D1. rewrite U, V, !Z.add_0_r. reflexivity.
  - rewrite <- (selects_fast _ _ _ k1 k2 Hg E1 S1 S2). unfold same_way, with_record. cbn [r_x r_y r_t]. rewrite A, B, C, map_app. split; [reflexivity|]. split; [reflexivity|].
    f_equal. cbn [map]. f_equal. rewrite <- (f_add (/ k) (inv_k k K)). f_equal.
    assert (A1 : fine (last_x r) (last_y r)).
    { specialize (AF (last_ix r)). unfold with_record, xat, yat in AF. cbn [r_x r_y] in AF. rewrite app_length, !app_nth1 in AF by (unfold last_ix; lia). apply AF. unfold last_ix. lia. }
    assert (A2 : fine (last_x r + nth k1 (o_jwalk P) 0) (last_y r + nth k1 (o_iwalk P) 0)).
    { specialize (AF (length (r_x r))). unfold with_record, xat, yat in AF. cbn [r_x r_y] in AF. rewrite app_length, nth_middle in AF.
      replace (nth (length (r_x r)) (r_y r ++ _) 0) with (last_y r + nth k1 (o_iwalk P) 0) in AF by (rewrite <- L2; symmetry; apply nth_middle). apply AF. cbn. lia. }
    destruct A1, A2. apply time_faster; assumption.
Qed.
End Steps.

(** Runs of single steps: histories are only appended to. *)
Definition starts (r r' : prow xq) : Prop := exists lx ly, r_x r' = r_x r ++ lx /\ r_y r' = r_y r ++ ly.
Lemma starts_all A r r' : starts r r' -> row_rect r -> recorded_all A r' -> recorded_all A r.
Proof.
  intros (lx & ly & X & Y) (_ & E & _) H i Hi. specialize (H i). unfold xat, yat in *. rewrite X, Y, app_length in H. rewrite !app_nth1 in H by lia. apply H. lia.
Qed.
Definition single (o : op xq) : Prop := o = OpRun.
Lemma run_starts G lm L W p (P : pobj xq) draws s w s' : session G lm L W p P draws s -> s_walk s = Some w -> do_op lm P draws OpRun s = Ok s' ->
  session G lm L W p P draws s' /\ exists w', s_walk s' = Some w' /\ run_step lm P draws s = Ok (w', s') /\ count w' = count w /\ forall q, (q < count w)%nat -> starts (hist P w q) (hist P w' q).
Proof.
  intros SS EW H. split; [eapply session_op; [exact SS | | exact H]; apply run_op_ok; exact I|]. cbn [do_op] in H.
  destruct (run_step lm P draws s) as [(w1 & s1)|] eqn:E; [|discriminate]. injection H as ->. exists w1.
  destruct (session_run lm L W p P draws s w w1 s' 0 SS EW E) as (A & B & _). split; [exact A|]. split; [reflexivity|]. split; [exact B|]. intros q Hq.
  destruct (session_draws lm L W p P draws s w w1 s' SS EW E) as (D & _). destruct (D q Hq) as [(_ & ->)|(_ & _ & m & _ & _ & _ & _ & ->)].
  - exists [], []. rewrite !app_nil_r. auto.
  - do 2 eexists. cbn [with_record r_x r_y]. split; reflexivity.
Qed.
Lemma runs_start G lm L W p (P : pobj xq) draws os : Forall single os -> forall s w s', session G lm L W p P draws s -> s_walk s = Some w -> do_ops lm P draws os s = Ok s' ->
  exists w', s_walk s' = Some w' /\ count w' = count w /\ forall q, (q < count w)%nat -> starts (hist P w q) (hist P w' q).
Proof.
  induction 1 as [|o os RO F IH]; intros s w s' SS EW H; cbn [do_ops] in H.
  - injection H as <-. exists w. split; [exact EW|]. split; [reflexivity|]. intros q _. exists [], []. rewrite !app_nil_r. auto.
  - apply bind_ok in H as (s1 & E1 & E2). red in RO. subst o. destruct (run_starts G lm L W p P draws s w s1 SS EW E1) as (S1 & w1 & A & _ & C & D).
    destruct (IH s1 w1 s' S1 A E2) as (w' & A' & C' & D'). exists w'. split; [exact A'|]. split; [congruence|]. intros q Hq.
    destruct (D q Hq) as (lx & ly & X & Y). destruct (D' q ltac:(lia)) as (mx & my & X' & Y'). exists (lx ++ mx), (ly ++ my). rewrite X', Y', X, Y, !app_assoc. auto.
Qed.

(** C97 Multiply all discharges and velocities by k > 0: single steps lead every particle through the same cells, and every time is divided by k. *)
Theorem C97_flow_speed :
  forall G lm L W (p : params xq) P Q k draws s t w os s' t' w',
    (0 < k)%Qc -> homogeneous lm k ->
    session G lm L W p P draws s -> session G lm L W (faster k p) Q draws t -> same_ways k P Q s t -> s_walk s = Some w ->
    Forall single os -> do_ops lm P draws os s = Ok s' -> do_ops lm Q draws os t = Ok t' -> s_walk s' = Some w' ->
    (forall q, (q < count w)%nat -> recorded_all (fun x y => above_floor P x y /\ above_floor Q x y) (hist P w' q)) ->
    same_ways k P Q s' t'.
Proof.
  intros G lm L W p P Q k draws s t w os s' t' w' K HO S1 S2 SW EW RO. revert s t w S1 S2 SW EW.
  induction RO as [|o os RO RF IH]; intros s t w S1 S2 SW EW D1 D2 EW' AF; cbn [do_ops] in D1, D2.
  - injection D1 as <-. injection D2 as <-. exact SW.
  - apply bind_ok in D1 as (s1 & O1 & D1). apply bind_ok in D2 as (t1 & O2 & D2). red in RO. subst o.
    destruct SW as (EP & SW). rewrite EW in SW. destruct (s_walk t) as [v|] eqn:EV; [|contradiction]. destruct SW as (CV & SW).
    destruct (run_starts G lm L W p P draws s w s1 S1 EW O1) as (S1' & w1 & A1 & R1 & C1 & ST1).
    destruct (run_starts G lm L W (faster k p) Q draws t v t1 S2 EV O2) as (S2' & v1 & A2 & R2 & C2 & ST2).
    destruct (runs_start G lm L W p P draws os RF s1 w1 s' S1' A1 D1) as (w'' & A3 & C3 & ST3). assert (w'' = w') as -> by congruence.
    apply (IH s1 t1 w1); try assumption; [|intros q Hq; apply AF; lia].
    destruct (session_draws lm L W p P draws s w w1 s1 S1 EW R1) as (DR1 & PS1).
    destruct (session_draws lm L W (faster k p) Q draws t v v1 t1 S2 EV R2) as (DR2 & PS2).
    destruct S1 as (ST & (p' & I1) & S1). destruct S2 as (ST' & (q' & I2) & S2). pose proof (init_faster k K lm p P Q p' q' I1 I2) as FO.
    pose proof (standard_field_ok lm L W p P p' ST I1) as (FP & EL & EWd & _). pose proof (standard_field_ok lm L W (faster k p) Q q' ST' I2) as (FQ & _).
    assert (SS : session G lm L W p P draws s) by (split; [exact ST|]; split; [eauto | exact S1]).
    assert (AW : forall q, (q <= count w)%nat -> tally (awake Q v) q = tally (awake P w) q).
    { intros q Hq. apply tally_ext. intros m Hm. unfold awake. destruct (last_same k _ _ (SW m ltac:(lia))) as (-> & -> & _). reflexivity. }
    assert (ONE : forall q, (q < count w)%nat -> forall u d2, one_step lm P (hist P w q) (draws (w_pos (s_wst s) + tally (awake P w) q)%nat) d2 (hist P w1 q) ->
      one_step lm Q (hist Q v q) u d2 (hist Q v1 q) -> u = draws (w_pos (s_wst s) + tally (awake P w) q)%nat -> same_way k (hist P w1 q) (hist Q v1 q)).
    { intros q Hq u d2 H1 H2 ->. pose proof (session_hist lm L W p P draws s w q SS EW Hq) as (RR & _).
      apply (step_fast lm k P Q K HO FO FP FQ (hist P w q) (hist Q v q) (draws (w_pos (s_wst s) + tally (awake P w) q)%nat) d2); try assumption; [|apply SW, Hq|].
      - unfold in_grid. rewrite EL, EWd. apply (session_positions lm L W p P draws s w q (last_ix (hist P w q)) SS EW Hq). destruct RR. unfold last_ix. lia.
      - pose proof (session_hist lm L W p P draws s1 w1 q S1' A1 ltac:(lia)) as (RR1 & _). apply (starts_all _ _ (hist P w' q)); [apply ST3; lia | exact RR1 | apply AF, Hq]. }
    assert (ALL : forall q, (q <= count w)%nat -> (forall m, (m < q)%nat -> same_way k (hist P w1 m) (hist Q v1 m)) /\ tally (grew Q v v1) q = tally (grew P w w1) q).
    { induction q as [|q IHq]; intros Hq; [split; [lia | reflexivity]|]. destruct (IHq ltac:(lia)) as (B1 & B2).
      assert (NEW : same_way k (hist P w1 q) (hist Q v1 q)).
      { specialize (DR1 q ltac:(lia)). specialize (DR2 q ltac:(lia)). cbv zeta in DR1, DR2. rewrite CV, EP, !AW, B2 in DR2 by lia. eapply ONE; [lia | exact DR1 | exact DR2 | reflexivity]. }
      split; [intros m Hm; destruct (Nat.eq_dec m q) as [->|]; [exact NEW | apply B1; lia]|].
      rewrite !tally_S, B2. f_equal. unfold grew. destruct (SW q ltac:(lia)) as (-> & _). destruct NEW as (-> & _). reflexivity. }
    destruct (ALL (count w) (Nat.le_refl _)) as (B1 & B2).
    split; [|rewrite A1, A2; split; [congruence|]; intros q Hq; apply B1; lia].
    cbv zeta in PS1, PS2. rewrite PS1, PS2, EP, CV, AW, B2 by lia. destruct FO as ((_ & _ & _ & _ & _ & _ & _ & _ & _ & _ & _ & _ & -> & _) & _). reflexivity.
Qed.
Print Assumptions C97_flow_speed.

(** ** A library with sqrt (4 x) = 2 sqrt x: powers of two. *)
Definition expo (q : Qc) : Z := Z.log2 (Qnum (this q)) - Z.log2 (Zpos (Qden (this q))).
Definition pw (n : Z) : Qc := Q2Qc (Qpower 2 n).
Definition two : Qc := Qcofz 2.
Lemma pw_S n : pw (n + 1) = (pw n * two)%Qc.
Proof.
  apply Qc_is_canon. rewrite this_mul. unfold pw. cbn [this Q2Qc]. rewrite !Qred_correct, Qpower_plus by discriminate. reflexivity.
Qed.
Lemma expo_two q : (0 < q)%Qc -> expo (q * two)%Qc = expo q + 1.
Proof.
  intros Hq. unfold expo. destruct q as ((a & b) & C). cbn [this Qnum Qden]. unfold Qclt in Hq. cbn [this] in Hq. change (this 0%Qc) with 0%Q in Hq. unfold Qlt in Hq. cbn [Qnum Qden] in Hq.
  assert (A : 0 < a) by lia. assert (GC : Z.gcd a (Zpos b) = 1).
  { unfold Qred in C. pose proof (Z.ggcd_gcd a (Zpos b)) as G. pose proof (Z.ggcd_correct_divisors a (Zpos b)) as D. destruct (Z.ggcd a (Zpos b)) as (g & (x & y)). cbn [fst snd] in *. subst g.
    destruct D as (D1 & D2). injection C as C1 C2. rewrite C1 in D1. nia. }
  change (this (Qcmult _ two)) with (Qred (Qmult (a # b) (2 # 1))). unfold Qmult. cbn [Qnum Qden]. rewrite Pos.mul_1_r.
  unfold Qred. pose proof (Z.ggcd_gcd (a * 2) (Zpos b)) as G. pose proof (Z.ggcd_correct_divisors (a * 2) (Zpos b)) as D. destruct (Z.ggcd (a * 2) (Zpos b)) as (g & (x & y)). cbn [fst snd] in *.
  destruct D as (D1 & D2). assert (G2 : g = 1 \/ g = 2).
  { assert (DV : (g | 2)). { apply (Z.gauss g a 2); [subst g; apply Z.gcd_divide_l|]. apply Z.gcd_unique; [lia | apply Z.divide_1_l | apply Z.divide_1_l |].
      intros q Q1 Q2. rewrite <- GC. apply Z.gcd_greatest; [exact Q2|]. etransitivity; [exact Q1|]. exists y. lia. }
    assert (0 <= g) by (subst g; apply Z.gcd_nonneg). pose proof (Z.divide_pos_le g 2 ltac:(lia) DV). assert (g <> 0) by (intros ->; destruct DV; lia). lia. }
  cbn [Qnum Qden]. destruct G2 as [->| ->].
  - replace x with (2 * a) by lia. replace y with (Zpos b) by lia. cbn [Z.to_pos]. rewrite Z.log2_double by lia. lia.
  - replace x with a by lia. assert (Y : 0 < y) by lia. rewrite Z2Pos.id by exact Y. rewrite D2. rewrite Z.log2_double by exact Y. lia.
Qed.
Definition rough_sqrt (x : xq) : xq :=
  match x with
  | XNaN => XNaN
  | XInf _ => XInf false
  | XFin q => if nleb x n0 then n0 else XFin (pw (expo q / 2))
  end.
Definition fa_lm : Libm xq := gx_lm rough_sqrt.
Lemma two_pos : (0 < two)%Qc.
Proof. reflexivity. Qed.
Lemma abs_f x : nabs (times_k two x) = times_k two (nabs x).
Proof.
  destruct x as [|b|q]; [reflexivity | rewrite (f_inf two two_pos); reflexivity|]. rewrite f_fin. cbn [nabs XQnum xabs].
  replace (Qcleb qc0 (q * two)) with (Qcleb qc0 q); [destruct (Qcleb qc0 q); rewrite f_fin; f_equal; ring|].
  apply eq_iff_eq_true. rewrite !Qcleb_true, this_mul. change (this qc0) with 0%Q. change (this two) with 2%Q. split; intros H; Lqa.nra.
Qed.
Lemma fa_homogeneous : homogeneous fa_lm two.
Proof.
  split.
  - intros x. cbn [fa_lm gx_lm m_sqrt]. destruct x as [|b|q]; [reflexivity | rewrite !(f_inf two two_pos); reflexivity|]. rewrite !f_fin. unfold rough_sqrt.
    rewrite <- !f_fin, !(f_le0 two two_pos). destruct (nleb (XFin q) n0) eqn:E; [symmetry; apply f_n0|]. rewrite f_fin. f_equal.
    assert (Q0 : (0 < q)%Qc). { destruct (Qclt_le_dec 0 q) as [A|A]; [exact A|]. rewrite n0_xq in E. apply xq_leb in A. congruence. }
    assert (Q1 : (0 < q * two)%Qc). { pose proof two_pos. unfold Qclt in *. rewrite this_mul. change (this 0%Qc) with 0%Q in *. Lqa.nra. }
    rewrite !expo_two by assumption. rewrite <- Z.add_assoc. change (1 + 1) with (1 * 2). rewrite Z.div_add by lia. apply pw_S.
  - intros y x. cbn [fa_lm gx_lm m_atan2]. unfold gx_atan2. rewrite (f_lt0 two two_pos), !abs_f, (f_add two two_pos), (f_div_both two two_pos). reflexivity.
Qed.

(** ** The example field with flow in both directions everywhere, and the same field with twice the flow. *)
Definition fa_params : params xq :=
  {| p_dx := Some (nofZ 10); p_depth := Some gx_depth; p_stage := Some gx_stage; p_topo := None;
     p_model := Some "DeltaRCM"%string; p_qx := Some gx_qx; p_qy := Some (Arr 10 9 (fun i j => ndiv (nofZ (2 * j - 5)) (nofZ 4))); p_u := None; p_v := None;
     p_theta := Some n1; p_gamma := None; p_diff := None; p_dry := None; p_ct := None; p_steep := None;
     p_dist := None; p_ivec := None; p_jvec := None; p_iwalk := None; p_jwalk := None; p_angles := None;
     p_roi := None; p_vars := Some ["depth"%string] |}.
Definition fa_P : pobj xq := fst (unerr (gx_none, fa_params) (init fa_lm fa_params)).
Definition fa_Q : pobj xq := fst (unerr (gx_none, fa_params) (init fa_lm (faster two fa_params))).
Definition fa_seed : list (op xq) := [OpGen 2 [2; 3] [3; 6] n0 Exact None].
Definition fa_runs : list (op xq) := [OpRun; OpRun; OpRun].
Section Check.
Variables (lm : Libm xq) (k : Qc) (P Q : pobj xq) (d : nat -> xq) (seed os : list (op xq)).
Definition fine_b (R : pobj xq) (x y : Z) : bool := nltb neps8 (nabs (cell (o_u R) x y)) && nltb neps8 (nabs (cell (o_v R) x y)) && nltb neps8 (cell (o_vel R) x y).
Fixpoint same_times (a b : list xq) : bool :=
  match a, b with
  | [], [] => true
  | XFin p :: a, XFin q :: b => neqb (times_k (/ k) (XFin p)) (XFin q) && same_times a b
  | _, _ => false
  end.
Lemma same_times_ok : forall a b, same_times a b = true -> b = map (times_k (/ k)) a.
Proof.
  induction a as [|[|[|]|p] a IH]; intros [|[|[|]|q] b] H; try discriminate; [reflexivity|]. cbn [same_times] in H. apply andb_true_iff in H as (A & B). cbn [map]. rewrite (IH b B).
  rewrite f_fin in *. apply xq_eqb in A. rewrite A. reflexivity.
Qed.
Definition ways_b (r r' : prow xq) : bool :=
  (if list_eq_dec Z.eq_dec (r_x r') (r_x r) then true else false) && (if list_eq_dec Z.eq_dec (r_y r') (r_y r) then true else false) && same_times (r_t r) (r_t r').
Lemma ways_b_ok r r' : ways_b r r' = true -> same_way k r r'.
Proof.
  unfold ways_b, same_way. destruct (list_eq_dec Z.eq_dec (r_x r') (r_x r)); [|discriminate]. destruct (list_eq_dec Z.eq_dec (r_y r') (r_y r)); [|discriminate].
  intros H. split; [assumption|]. split; [assumption|]. apply same_times_ok, H.
Qed.
(** All facts about two runs in one computation. *)
Definition fast_check : bool :=
  match do_ops lm P d seed (init_sim lm P 0), do_ops lm Q d seed (init_sim lm Q 0) with
  | Ok s, Ok t =>
      match s_walk s, s_walk t with
      | Some w, Some v =>
          (w_pos (s_wst t) =? w_pos (s_wst s))%nat && (count w =? 2)%nat && (count v =? 2)%nat && forallb (fun q => ways_b (hist P w q) (hist Q v q)) (seq 0 2) &&
          match do_ops lm P d os s, do_ops lm Q d os t with
          | Ok s', Ok t' =>
              match s_walk s' with
              | Some w' => forallb (fun q => let xs := r_x (hist P w' q) in let ys := r_y (hist P w' q) in
                             (length xs =? 4)%nat && (length ys =? 4)%nat && forallb (fun c => fine_b P (fst c) (snd c) && fine_b Q (fst c) (snd c)) (combine xs ys)) (seq 0 2)
              | None => false
              end
          | _, _ => false
          end
      | _, _ => false
      end
  | _, _ => false
  end.
Lemma fast_check_ok : fast_check = true -> exists s t w s' t' w', do_ops lm P d seed (init_sim lm P 0) = Ok s /\ do_ops lm Q d seed (init_sim lm Q 0) = Ok t /\ same_ways k P Q s t /\ s_walk s = Some w /\ count w = 2%nat /\
  do_ops lm P d os s = Ok s' /\ do_ops lm Q d os t = Ok t' /\ s_walk s' = Some w' /\
  forall q, (q < count w)%nat -> recorded_all (fun x y => above_floor P x y /\ above_floor Q x y) (hist P w' q) /\ length (r_x (hist P w' q)) = 4%nat.
Proof.
  unfold fast_check. destruct (do_ops lm P d seed (init_sim lm P 0)) as [s|]; [|discriminate]. destruct (do_ops lm Q d seed (init_sim lm Q 0)) as [t|]; [|discriminate].
  destruct (s_walk s) as [w|] eqn:EW; [|discriminate]. destruct (s_walk t) as [v|] eqn:EV; [|discriminate]. rewrite !andb_true_iff, !Nat.eqb_eq.
  intros ((((C1 & C2) & C3) & C4) & H). destruct (do_ops lm P d os s) as [s'|] eqn:O1; [|discriminate]. destruct (do_ops lm Q d os t) as [t'|] eqn:O2; [|discriminate].
  destruct (s_walk s') as [w'|] eqn:EW'; [|discriminate]. exists s, t, w, s', t', w'. rewrite forallb_forall in C4, H.
  split; [reflexivity|]. split; [reflexivity|].
  split; [split; [exact C1|]; rewrite EW, EV; split; [congruence|]; intros q Hq; apply ways_b_ok, C4, in_seq; lia|].
  split; [exact EW|]. split; [exact C2|]. split; [exact O1|]. split; [exact O2|]. split; [exact EW'|].
  intros q Hq. specialize (H q ltac:(apply in_seq; lia)). cbv zeta in H. rewrite !andb_true_iff, !Nat.eqb_eq, forallb_forall in H. destruct H as ((A & B) & C). split; [|exact A].
  intros i Hi. specialize (C (xat (hist P w' q) i, yat (hist P w' q) i)). unfold xat, yat in *. rewrite <- combine_nth in C at 1 by congruence.
  specialize (C ltac:(apply nth_In; rewrite combine_length; lia)). unfold fine_b in C. cbn [fst snd] in C. rewrite !andb_true_iff in C. unfold above_floor. tauto.
Qed.
End Check.
Lemma fa_standard k : standard fa_lm 10 9 (faster k fa_params) /\ standard fa_lm 10 9 fa_params.
Proof.
  assert (PW : forall d, nleb d ntenth = false -> nltb d n0 = false).
  { intros d H. destruct (nltb d n0) eqn:E; [|reflexivity]. rewrite (leb_trans d n0 ntenth) in H; [discriminate | apply lt_le, E | apply lt_le, tenth_ok]. }
  assert (SQ : sqrt_ok fa_lm).
  { split; [vm_compute; reflexivity|]. split; [vm_compute; reflexivity|]. intros [|b|q] H; [discriminate | reflexivity|]. cbn [fa_lm gx_lm m_sqrt rough_sqrt]. destruct (nleb (XFin q) n0); reflexivity. }
  split; (split; [repeat split; try lia; try (intros; discriminate);
    match goal with |- nrow ?a = _ => idtac | |- ncol ?a = _ => idtac end;
    match goal with H : _ = Some ?a |- _ => injection H as <-; reflexivity end|];
    split; [lia|]; split; [lia|]; split; [repeat split|]; split; [intros ct Hc; discriminate|]; split; [intros g Hg; discriminate|];
    split; [exact PW|]; split; [exact SQ|]; intros dx Hd; injection Hd as <-; vm_compute; reflexivity).
Qed.
Lemma fa_session p P s : (exists p', init fa_lm p = Ok (P, p')) -> standard fa_lm 10 9 p -> do_ops fa_lm P eq_draws fa_seed (init_sim fa_lm P 0) = Ok s ->
  session (fun _ => True) fa_lm 10 9 p P eq_draws s.
Proof.
  intros (p' & E) ST H. split; [exact ST|]. split; [eauto|]. split; [exact eq_stream|]. exists 0%nat, fa_seed. split; [|exact H].
  destruct (standard_field_ok fa_lm 10 9 p P p' ST E) as (_ & EL & EW & _).
  constructor; [|constructor]. split; [|exact I]. split; [lia|]. split; [reflexivity|].
  intros x y [C|[C|[]]]; injection C as <- <-; right; rewrite EL, EW; lia.
Qed.
Example C97_example : homogeneous fa_lm two /\ exists s t w s' t' w',
  session (fun _ => True) fa_lm 10 9 fa_params fa_P eq_draws s /\ session (fun _ => True) fa_lm 10 9 (faster two fa_params) fa_Q eq_draws t /\ same_ways two fa_P fa_Q s t /\
  s_walk s = Some w /\ count w = 2%nat /\ Forall single fa_runs /\ do_ops fa_lm fa_P eq_draws fa_runs s = Ok s' /\ do_ops fa_lm fa_Q eq_draws fa_runs t = Ok t' /\ s_walk s' = Some w' /\
  forall q, (q < count w)%nat -> recorded_all (fun x y => above_floor fa_P x y /\ above_floor fa_Q x y) (hist fa_P w' q) /\ length (r_x (hist fa_P w' q)) = 4%nat.
Proof.
  split; [exact fa_homogeneous|].
  assert (I1 : exists p', init fa_lm fa_params = Ok (fa_P, p')) by (exists (snd (unerr (gx_none, fa_params) (init fa_lm fa_params))); unfold fa_P; rewrite <- surjective_pairing; apply is_ok_unerr; vm_compute; reflexivity).
  assert (I2 : exists p', init fa_lm (faster two fa_params) = Ok (fa_Q, p')) by (exists (snd (unerr (gx_none, fa_params) (init fa_lm (faster two fa_params)))); unfold fa_Q; rewrite <- surjective_pairing; apply is_ok_unerr; vm_compute; reflexivity).
  destruct (fast_check_ok fa_lm two fa_P fa_Q eq_draws fa_seed fa_runs) as (s & t & w & s' & t' & w' & H); [vm_compute; reflexivity|].
  destruct H as (D1 & D2 & SW & A & B & C & D & E & F). exists s, t, w, s', t', w'.
  split; [apply fa_session; [exact I1 | apply (fa_standard two) | exact D1]|]. split; [apply fa_session; [exact I2 | apply fa_standard | exact D2]|].
  split; [exact SW|]. split; [exact A|]. split; [exact B|]. split; [repeat constructor|]. split; [exact C|]. split; [exact D|]. split; [exact E | exact F].
Qed.

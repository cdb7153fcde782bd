(** Property C96: steepest descent without diffusion does not depend on the random numbers. *)
From Coq Require Import ZArith Bool String List Lia.
From Verif Require Import Num NumFacts NumMore F64 F64Laws Py Walker ParticleTrack SpecWeights SpecPick SpecWalk SpecHist SpecInit SpecApi SpecDraw
  ProofStep ProofWeightLaws ProofPick ProofApi ProofInit ProofApi2 ProofDrawRun ProofStuck Examples ExamplesReach P_Motion P_Expo.
Import ListNotations.
Open Scope Z_scope.

(** At cell (x,y) one direction has a larger weight than all others (the own cell included), and no number of the generator is scaled to zero. *)
Definition one_steepest (G : f64 -> Prop) (lm : Libm f64) (P : pobj f64) (x y : Z) : Prop :=
  let w := weights_of lm P x y in
  (exists m, (m < 9)%nat /\ forall k, (k < 9)%nat -> k <> m -> nltb (nth k w n0) (nth m w n0) = true) /\
  forall u, G u -> nltb n0 (mapped_draw (steep_prune w) u) = true.
(** The cells a particle has been recorded in. *)
Definition all_recorded (Q : Z -> Z -> Prop) (r : prow f64) : Prop := forall i, (i < length (r_x r))%nat -> Q (xat r i) (yat r i).

Section Steep.
Variables (G : f64 -> Prop) (lm : Libm f64) (P : pobj f64).
Hypothesis WF : wf_obj P.
Hypothesis GOK : gamma_ok P.
Hypothesis POK : pow_ok lm P.
Hypothesis SD : o_steep P = true.
Hypothesis ND : nltb n0 (o_diff P) = false.

Lemma steepest_selects x y u1 u2 k1 k2 : in_grid P x y -> one_steepest G lm P x y -> G u1 -> G u2 -> unit_draw u1 -> unit_draw u2 ->
  (k1 < 9)%nat -> (k2 < 9)%nat -> selects lm P x y u1 k1 -> selects lm P x y u2 k2 -> k1 = k2.
Proof.
  intros Hg ((m & Hm & MX) & PD) G1 G2 U1 U2 K1 K2 (v1 & E1) (v2 & E2). rewrite SD in E1, E2.
  assert (NN : no_negative (weights_of lm P x y)) by (intros k; apply weights_never_negative; assumption).
  destruct (steep_pick_max _ _ _ _ NN U1 E1 (PD u1 G1)) as (_ & _ & _ & M1). destruct (steep_pick_max _ _ _ _ NN U2 E2 (PD u2 G2)) as (_ & _ & _ & M2).
  assert (ONE : forall k, (k < 9)%nat -> (forall j, nisnan (nth j (weights_of lm P x y) n0) = false -> nleb (nth j (weights_of lm P x y) n0) (nth k (weights_of lm P x y) n0) = true) -> k = m).
  { intros k Hk MK. destruct (Nat.eq_dec k m) as [Q|Q]; [exact Q|]. exfalso. specialize (MX k Hk Q).
    specialize (MK m (lt_nan_r _ _ MX)). rewrite (lt_not_le _ _ MX) in MK. discriminate. }
  rewrite (ONE k1 K1 M1), (ONE k2 K2 M2). reflexivity.
Qed.
Lemma travel_no_draw k x y x' y' v1 v2 : travel_time lm P k x y x' y' v1 = travel_time lm P k x y x' y' v2.
Proof. unfold travel_time, diffusion. rewrite ND. reflexivity. Qed.
Lemma one_step_steep r u1 v1 r1 u2 v2 r2 : in_grid P (last_x r) (last_y r) ->
  (~ edge_nearby P (last_x r) (last_y r) -> (last_x r, last_y r) <> (0, 0) -> one_steepest G lm P (last_x r) (last_y r)) ->
  G u1 -> G u2 -> unit_draw u1 -> unit_draw u2 ->
  one_step lm P r u1 v1 r1 -> one_step lm P r u2 v2 r2 -> r1 = r2.
Proof.
  intros Hg OS G1 G2 U1 U2 S1 S2. cbv zeta in *.
  assert (D : forall k1 k2, (k1 < 9)%nat -> (k2 < 9)%nat -> ~ edge_nearby P (last_x r) (last_y r) -> (last_x r, last_y r) <> (0, 0) ->
    selects lm P (last_x r) (last_y r) u1 k1 -> selects lm P (last_x r) (last_y r) u2 k2 -> k1 = k2)
    by (intros k1 k2 K1 K2 NE NZ S1' S2'; exact (steepest_selects _ _ u1 u2 k1 k2 Hg (OS NE NZ) G1 G2 U1 U2 K1 K2 S1' S2')).
  destruct S1 as [(C1 & ->)|(Z1 & E1 & k1 & K1 & N1 & S1 & D1 & ->)], S2 as [(C2 & ->)|(Z2 & E2 & k2 & K2 & N2 & S2 & D2 & ->)].
  - reflexivity.
  - exfalso. destruct C1 as [C|[C|(k & Hk & Sk & C)]]; [contradiction|contradiction|].
    rewrite (D k k2 Hk K2 E2 Z2 Sk S2) in C. destruct C as [C|(A & B)]; [contradiction|]. apply D2. rewrite A, B, !Z.add_0_r. reflexivity.
  - exfalso. destruct C2 as [C|[C|(k & Hk & Sk & C)]]; [contradiction|contradiction|].
    rewrite <- (D k1 k K1 Hk E1 Z1 S1 Sk) in C. destruct C as [C|(A & B)]; [contradiction|]. apply D1. rewrite A, B, !Z.add_0_r. reflexivity.
  - rewrite (D k1 k2 K1 K2 E1 Z1 S1 S2). f_equal. f_equal. apply travel_no_draw.
Qed.

(** Histories whose cells are in the grid and, where a direction is picked, have one steepest direction. *)
Definition pick_cell (x y : Z) : Prop := in_grid P x y /\ (~ edge_nearby P x y -> (x, y) <> (0, 0) -> one_steepest G lm P x y).
Definition rect2 (r : prow f64) : Prop := (1 <= length (r_x r))%nat /\ length (r_y r) = length (r_x r).
Definition starts_with (r r' : prow f64) : Prop := exists lx ly, r_x r' = r_x r ++ lx /\ r_y r' = r_y r ++ ly.
Lemma starts_trans a b c : starts_with a b -> starts_with b c -> starts_with a c.
Proof. intros (lx & ly & A & B) (mx & my & C & D). exists (lx ++ mx), (ly ++ my). rewrite C, D, A, B, !app_assoc. auto. Qed.
Lemma starts_refl r : starts_with r r.
Proof. exists [], []. rewrite !app_nil_r. auto. Qed.
Lemma recorded_prefix r r' : starts_with r r' -> rect2 r -> all_recorded pick_cell r' -> all_recorded pick_cell r.
Proof.
  intros (lx & ly & A & B) (_ & E) H i Hi. specialize (H i). unfold xat, yat in *. rewrite A, B, app_length in H. rewrite !app_nth1 in H by lia. apply H. lia.
Qed.
Lemma recorded_last r : rect2 r -> all_recorded pick_cell r -> pick_cell (last_x r) (last_y r).
Proof. intros (A & _) H. apply (H (last_ix r)). unfold last_ix. lia. Qed.
Lemma one_step_starts r u v r' : one_step lm P r u v r' -> starts_with r r' /\ (rect2 r -> rect2 r').
Proof.
  intros [(_ & ->)|(_ & _ & k & _ & _ & _ & _ & ->)]; [split; [apply starts_refl | auto]|]. split.
  - do 2 eexists. cbn [with_record r_x r_y]. split; reflexivity.
  - intros (A & B). split; cbn [with_record r_x r_y]; rewrite !app_length; cbn; lia.
Qed.
Lemma journey_starts d target mi m a r b r' : journey lm P d target mi m a r b r' -> starts_with r r'.
Proof.
  induction 1; try apply starts_refl. eapply starts_trans; [|eassumption]. eapply one_step_starts; eassumption.
Qed.
Lemma step_steep d1 d2 r a a' r1 r2 : unit_stream G d1 -> unit_stream G d2 -> rect2 r -> all_recorded pick_cell r ->
  one_step lm P r (d1 a) (d1 (S a)) r1 -> one_step lm P r (d2 a') (d2 (S a')) r2 -> r1 = r2.
Proof.
  intros U1 U2 RR AR. destruct (recorded_last r RR AR) as (A & B). destruct (U1 a), (U2 a'). apply one_step_steep; assumption.
Qed.
Lemma journey_steep d1 d2 target mi m a r b1 r1 : unit_stream G d1 -> unit_stream G d2 -> journey lm P d1 target mi m a r b1 r1 ->
  rect2 r -> all_recorded pick_cell r1 -> forall a' b2 r2, journey lm P d2 target mi m a' r b2 r2 -> r1 = r2.
Proof.
  intros U1 U2 J. induction J as [m a r A B|m a r A|m a r A|a r A|m a r A B C E F|m a r r1 b r2 A B C L J IH]; intros RR AR a' b2 rr J2;
    inversion J2; subst; auto; try lia; try contradiction;
    repeat match goal with H : one_step _ _ ?r _ _ ?x, L : length (r_x ?x) = Datatypes.S (length (r_x ?r)) |- _ =>
             lazymatch goal with Q : (last_x r, last_y r) <> (0, 0), Q' : ~ edge_nearby _ (last_x r) (last_y r) |- _ => fail | _ => 
               destruct (one_step_awake _ _ _ _ _ _ H L) as (?Q1 & ?Q2) end end; try contradiction;
    try (exfalso; match goal with E : ~ (_ /\ _) |- _ => apply E; solve [auto] end).
  - exfalso. match goal with H : one_step _ _ _ _ _ ?x, L : length (r_x ?x) = _ |- _ => rewrite <- (step_steep d1 d2 _ _ _ _ _ U1 U2 RR AR F H) in L; lia end.
  - exfalso. pose proof (recorded_prefix _ _ (starts_trans _ _ _ (proj1 (one_step_starts _ _ _ _ C)) (journey_starts _ _ _ _ _ _ _ _ J)) RR AR) as AR'.
    match goal with H : one_step _ _ ?q _ _ ?q |- _ => rewrite (step_steep d1 d2 _ _ _ _ _ U1 U2 RR AR' C H) in L; lia end.
  - pose proof (recorded_prefix _ _ (starts_trans _ _ _ (proj1 (one_step_starts _ _ _ _ C)) (journey_starts _ _ _ _ _ _ _ _ J)) RR AR) as AR'.
    match goal with H : one_step _ _ _ _ _ ?x, H2 : journey _ _ _ _ _ _ _ ?x _ _ |- _ =>
      rewrite <- (step_steep d1 d2 _ _ _ _ _ U1 U2 RR AR' C H) in H2; apply IH in H2; [exact H2 | eapply one_step_starts; [exact C | exact RR] | exact AR] end.
Qed.
End Steep.

(** One call of run_iteration. *)
Lemma op_steep G lm L W (p : params f64) P draws1 draws2 o s1 s2 w1 w2 s1' s2' w1' w2' q1 q2 :
  o_steep P = true -> nltb n0 (o_diff P) = false -> is_run o ->
  session G lm L W p P draws1 s1 -> session G lm L W p P draws2 s2 -> s_walk s1 = Some w1 -> s_walk s2 = Some w2 ->
  (q1 < count w1)%nat -> (q2 < count w2)%nat -> hist P w1 q1 = hist P w2 q2 ->
  do_op lm P draws1 o s1 = Ok s1' -> do_op lm P draws2 o s2 = Ok s2' -> s_walk s1' = Some w1' -> s_walk s2' = Some w2' ->
  all_recorded (pick_cell G lm P) (hist P w1' q1) -> hist P w1' q1 = hist P w2' q2.
Proof.
  intros SD ND RO S1 S2 E1 E2 Q1 Q2 EH D1 D2 F1 F2 AR.
  destruct (session_field lm L W p P draws1 s1 S1) as ((WF & GOK & POK & _) & _ & U1 & _). destruct (session_field lm L W p P draws2 s2 S2) as (_ & _ & U2 & _).
  assert (RR : rect2 (hist P w1 q1)) by (destruct (session_hist lm L W p P draws1 s1 w1 q1 S1 E1 Q1) as ((A & B & _) & _); split; [exact A | exact B]).
  destruct o as [| |target mi|]; try contradiction; cbn [do_op] in D1, D2.
  - destruct (run_step lm P draws1 s1) as [(v1, t1)|] eqn:R1; [|discriminate]. destruct (run_step lm P draws2 s2) as [(v2, t2)|] eqn:R2; [|discriminate].
    injection D1 as ->. injection D2 as ->.
    destruct (session_run lm L W p P draws1 s1 w1 v1 s1' q1 S1 E1 R1) as (A1 & _). destruct (session_run lm L W p P draws2 s2 w2 v2 s2' q2 S2 E2 R2) as (A2 & _).
    assert (v1 = w1') as -> by congruence. assert (v2 = w2') as -> by congruence.
    destruct (session_draws lm L W p P draws1 s1 w1 w1' s1' S1 E1 R1) as (B1 & _). specialize (B1 q1 Q1).
    destruct (session_draws lm L W p P draws2 s2 w2 w2' s2' S2 E2 R2) as (B2 & _). specialize (B2 q2 Q2). rewrite <- EH in B2.
    pose proof (recorded_prefix G lm P _ _ (proj1 (one_step_starts lm P _ _ _ _ B1)) RR AR) as AR0. destruct (recorded_last G lm P _ RR AR0) as (C1 & C2).
    match type of B1 with one_step _ _ _ (draws1 ?a) _ _ => destruct (U1 a) as (V1 & W1) end. match type of B2 with one_step _ _ _ (draws2 ?a) _ _ => destruct (U2 a) as (V2 & W2) end.
    exact (one_step_steep G lm P WF GOK POK SD ND _ _ _ _ _ _ _ C1 C2 W1 W2 V1 V2 B1 B2).
  - destruct (run_target lm P draws1 target mi s1) as [((v1, l1), t1)|] eqn:R1; [|discriminate]. destruct (run_target lm P draws2 target mi s2) as [((v2, l2), t2)|] eqn:R2; [|discriminate].
    injection D1 as ->. injection D2 as ->.
    destruct (session_run_to lm L W p P draws1 s1 w1 v1 l1 s1' target mi q1 S1 E1 R1) as (A1 & _). destruct (session_run_to lm L W p P draws2 s2 w2 v2 l2 s2' target mi q2 S2 E2 R2) as (A2 & _).
    assert (v1 = w1') as -> by congruence. assert (v2 = w2') as -> by congruence.
    destruct (session_journeys lm L W p P draws1 target mi s1 w1 w1' l1 s1' S1 E1 R1) as (pos1 & _ & _ & J1). specialize (J1 q1 Q1).
    destruct (session_journeys lm L W p P draws2 target mi s2 w2 w2' l2 s2' S2 E2 R2) as (pos2 & _ & _ & J2). specialize (J2 q2 Q2). rewrite <- EH in J2.
    exact (journey_steep G lm P WF GOK POK SD ND draws1 draws2 target mi 0 _ _ _ _ U1 U2 J1 RR AR _ _ _ J2).
Qed.

(** C96 Two runs of the same field and the same calls, with whatever random numbers: a particle that has the same history before has the same
    history after, if every cell its first history visits (where a direction is picked at all) has one steepest direction. *)
Theorem C96_steepest_descent_deterministic :
  forall G lm L W (p : params f64) P draws1 draws2 s1 s2 w1 w2 os s1' s2' w1' w2' q1 q2,
    session G lm L W p P draws1 s1 -> session G lm L W p P draws2 s2 -> s_walk s1 = Some w1 -> s_walk s2 = Some w2 ->
    o_steep P = true -> nltb n0 (o_diff P) = false ->
    (q1 < count w1)%nat -> (q2 < count w2)%nat -> hist P w1 q1 = hist P w2 q2 ->
    Forall is_run os -> do_ops lm P draws1 os s1 = Ok s1' -> do_ops lm P draws2 os s2 = Ok s2' -> s_walk s1' = Some w1' -> s_walk s2' = Some w2' ->
    all_recorded (fun x y => ~ edge_nearby P x y -> (x, y) <> (0, 0) -> one_steepest G lm P x y) (hist P w1' q1) ->
    hist P w1' q1 = hist P w2' q2.
Proof.
  intros G lm L W p P draws1 draws2 s1 s2 w1 w2 os s1' s2' w1' w2' q1 q2 S1 S2 E1 E2 SD ND Q1 Q2 EH RO D1 D2 F1 F2 AR.
  assert (AR' : all_recorded (pick_cell G lm P) (hist P w1' q1)).
  { destruct (session_runs_grown G lm L W p P draws1 os RO s1 s1' w1 q1 S1 E1 Q1 D1) as (S1' & v & V & C & _). assert (v = w1') as -> by congruence.
    intros i Hi. split; [|apply AR, Hi]. destruct (session_field lm L W p P draws1 s1' S1') as (_ & _ & _ & _ & EL & EW).
    unfold in_grid. rewrite EL, EW. apply (session_positions lm L W p P draws1 s1' w1' q1 i S1' V ltac:(lia) Hi). }
  clear AR. revert s1 s2 w1 w2 S1 S2 E1 E2 Q1 Q2 EH D1 D2. induction RO as [|o os RO RF IH]; intros s1 s2 w1 w2 S1 S2 E1 E2 Q1 Q2 EH D1 D2; cbn [do_ops] in D1, D2.
  - injection D1 as <-. injection D2 as <-. assert (w1' = w1) as -> by congruence. assert (w2' = w2) as -> by congruence. exact EH.
  - apply bind_ok in D1 as (t1 & O1 & D1). apply bind_ok in D2 as (t2 & O2 & D2).
    assert (K1 : do_ops lm P draws1 [o] s1 = Ok t1) by (cbn [do_ops]; rewrite O1; reflexivity). assert (K2 : do_ops lm P draws2 [o] s2 = Ok t2) by (cbn [do_ops]; rewrite O2; reflexivity).
    destruct (session_runs_grown G lm L W p P draws1 [o] ltac:(repeat constructor; exact RO) s1 t1 w1 q1 S1 E1 Q1 K1) as (T1 & v1 & V1 & C1 & n1 & GR1).
    destruct (session_runs_grown G lm L W p P draws2 [o] ltac:(repeat constructor; exact RO) s2 t2 w2 q2 S2 E2 Q2 K2) as (T2 & v2 & V2 & C2 & n2 & GR2).
    destruct (session_runs_grown G lm L W p P draws1 os RF t1 s1' v1 q1 T1 V1 ltac:(lia) D1) as (T3 & v3 & V3 & C3 & n3 & GR3). assert (v3 = w1') as -> by congruence.
    apply (IH t1 t2 v1 v2 T1 T2 V1 V2 ltac:(lia) ltac:(lia)); [|exact D1 | exact D2].
    apply (op_steep G lm L W p P draws1 draws2 o s1 s2 w1 w2 t1 t2 v1 v2 q1 q2); try assumption.
    destruct (session_hist lm L W p P draws1 t1 v1 q1 T1 V1 ltac:(lia)) as ((A & B & _) & _).
    apply (recorded_prefix G lm P _ (hist P w1' q1)); [|split; [exact A | exact B] | exact AR'].
    destruct GR3 as ((lx & X1 & _) & (ly & Y1 & _) & _). exists lx, ly. split; [exact X1 | exact Y1].
Qed.
Print Assumptions C96_steepest_descent_deterministic.

(** A field routed by steepest descent, two different streams, one particle that makes several moves. *)
Definition st_params : params f64 :=
  {| p_dx := p_dx ex_params; p_depth := p_depth ex_params; p_stage := p_stage ex_params; p_topo := p_topo ex_params; p_model := p_model ex_params;
     p_qx := p_qx ex_params; p_qy := p_qy ex_params; p_u := p_u ex_params; p_v := p_v ex_params; p_theta := p_theta ex_params; p_gamma := p_gamma ex_params;
     p_diff := None; p_dry := None; p_ct := None; p_steep := Some true; p_dist := None; p_ivec := None; p_jvec := None; p_iwalk := None; p_jwalk := None; p_angles := None;
     p_roi := None; p_vars := Some ["depth"%string] |}.
Definition st_P : pobj f64 := fst (unerr (gx_none, st_params) (init ex_lm st_params)).
Definition st_draws (n : nat) : f64 := ex_draws (n + 2).
Definition st_seed : list (op f64) := [OpGen 2 [2; 3] [3; 6] n0 Exact None].
Definition st_s : psim f64 := unerr (init_sim ex_lm st_P 0) (do_ops ex_lm st_P ex_draws st_seed (init_sim ex_lm st_P 0)).
Definition st_ops : list (op f64) := [OpRun; OpRun; OpRunTo (nofZ 40) 10].
Lemma st_init : exists p', init ex_lm st_params = Ok (st_P, p').
Proof.
  exists (snd (unerr (gx_none, st_params) (init ex_lm st_params))). unfold st_P. rewrite <- surjective_pairing. apply is_ok_unerr. vm_compute. reflexivity.
Qed.
Lemma st_standard : standard ex_lm 10 9 st_params.
Proof. exact ex_standard. Qed.
Lemma st_session d : unit_stream ex_G d -> session ex_G ex_lm 10 9 st_params st_P d st_s.
Proof.
  intros U. split; [exact st_standard|]. split; [exact st_init|]. split; [exact U|]. exists 0%nat, st_seed. split.
  - constructor; [|constructor]. split; [|exact I]. split; [lia|]. split; [reflexivity|].
    intros x y [H|[H|[]]]; injection H as <- <-; right; vm_compute; repeat split; congruence.
  - change (do_ops ex_lm st_P d st_seed (init_sim ex_lm st_P 0)) with (do_ops ex_lm st_P ex_draws st_seed (init_sim ex_lm st_P 0)).
    apply is_ok_unerr. vm_compute. reflexivity.
Qed.
Section Check.
Variables (lm : Libm f64) (P : pobj f64) (d1 d2 : nat -> f64) (os : list (op f64)) (s : psim f64) (q : nat).
Definition one_check (x y : Z) : bool :=
  let w := weights_of lm P x y in
  existsb (fun m => forallb (fun k => (k =? m)%nat || nltb (nth k w n0) (nth m w n0)) (seq 0 9)) (seq 0 9) && forallb (fun u => nltb n0 (mapped_draw (steep_prune w) u)) ex_vals.
Lemma one_check_ok x y : one_check x y = true -> one_steepest ex_G lm P x y.
Proof.
  intros H. apply andb_true_iff in H as (H & D). rewrite forallb_forall in D. split; [|exact D].
  apply existsb_exists in H as (m & Hm & H). apply in_seq in Hm. exists m. split; [lia|]. intros k Hk NK. rewrite forallb_forall in H.
  specialize (H k ltac:(apply in_seq; lia)). apply orb_true_iff in H as [H|H]; [apply Nat.eqb_eq in H; contradiction | exact H].
Qed.
(** All facts about two runs in one computation. *)
Definition runs_check : bool :=
  match s_walk s, do_ops lm P d1 os s, do_ops lm P d2 os s with
  | Some w, Ok s1, Ok s2 =>
      match s_walk s1, s_walk s2 with
      | Some w1, Some _ =>
          let xs := r_x (hist P w1 q) in let ys := r_y (hist P w1 q) in
          (q <? count w)%nat && (length xs =? 6)%nat && (length ys =? 6)%nat && forallb (fun c => one_check (fst c) (snd c)) (combine xs ys) && negb (neqb (d1 0%nat) (d2 0%nat)) &&
          o_steep P && negb (nltb n0 (o_diff P))
      | _, _ => false
      end
  | _, _, _ => false
  end.
Lemma runs_check_ok : runs_check = true -> exists w s1 s2 w1 w2, s_walk s = Some w /\ (q < count w)%nat /\ o_steep P = true /\ nltb n0 (o_diff P) = false /\
  do_ops lm P d1 os s = Ok s1 /\ do_ops lm P d2 os s = Ok s2 /\ s_walk s1 = Some w1 /\ s_walk s2 = Some w2 /\
  all_recorded (fun x y => ~ edge_nearby P x y -> (x, y) <> (0, 0) -> one_steepest ex_G lm P x y) (hist P w1 q) /\
  length (r_x (hist P w1 q)) = 6%nat /\ neqb (d1 0%nat) (d2 0%nat) = false.
Proof.
  unfold runs_check. destruct (s_walk s) as [w|]; [|discriminate]. destruct (do_ops lm P d1 os s) as [s1|]; [|discriminate]. destruct (do_ops lm P d2 os s) as [s2|]; [|discriminate].
  destruct (s_walk s1) as [w1|] eqn:E1; [|discriminate]. destruct (s_walk s2) as [w2|] eqn:E2; [|discriminate]. cbv zeta. rewrite !andb_true_iff, !negb_true_iff, !Nat.eqb_eq, Nat.ltb_lt.
  intros ((((((C1 & C2) & C3) & C4) & C5) & C6) & C7). exists w, s1, s2, w1, w2. repeat (split; [first [reflexivity | assumption]|]).
  split; [|split; assumption]. intros i Hi _ _. apply one_check_ok. rewrite forallb_forall in C4. apply (C4 (xat (hist P w1 q) i, yat (hist P w1 q) i)).
  unfold xat, yat. rewrite <- combine_nth by congruence. apply nth_In. rewrite combine_length. lia.
Qed.
End Check.
Example C96_example : Forall is_run st_ops /\
  session ex_G ex_lm 10 9 st_params st_P ex_draws st_s /\ session ex_G ex_lm 10 9 st_params st_P st_draws st_s /\
  exists w s1 s2 w1 w2, s_walk st_s = Some w /\ (1 < count w)%nat /\ o_steep st_P = true /\ nltb n0 (o_diff st_P) = false /\
  do_ops ex_lm st_P ex_draws st_ops st_s = Ok s1 /\ do_ops ex_lm st_P st_draws st_ops st_s = Ok s2 /\ s_walk s1 = Some w1 /\ s_walk s2 = Some w2 /\
  all_recorded (fun x y => ~ edge_nearby st_P x y -> (x, y) <> (0, 0) -> one_steepest ex_G ex_lm st_P x y) (hist st_P w1 1) /\
  length (r_x (hist st_P w1 1)) = 6%nat /\ neqb (ex_draws 0) (st_draws 0) = false.
Proof.
  assert (U1 : unit_stream ex_G ex_draws) by (intros n; split; [apply ex_unit | apply ex_draws_7]). assert (U2 : unit_stream ex_G st_draws) by (intros n; apply U1).
  split; [repeat constructor|]. split; [apply st_session, U1|]. split; [apply st_session, U2|].
  apply (runs_check_ok ex_lm st_P ex_draws st_draws st_ops st_s 1). vm_compute. reflexivity.
Qed.

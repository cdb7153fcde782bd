(** Lemmas for C101 - C103: what the routes of the particles depend on. *)
From Coq Require Import ZArith Bool String List Lia.
From Verif Require Import Num NumFacts NumMore Py Walker ParticleTrack SpecWeights SpecPick SpecWalk SpecHist SpecInit SpecApi SpecDraw SpecRoute
  ProofStep ProofWeights ProofWeightLaws ProofWeightExt ProofApi ProofInit ProofApi2 ProofDrawStep ProofDrawRun ProofStuck.
Import ListNotations.
Open Scope Z_scope.

Section S.
Context {T : Type} {N : Num T} {NL : NumLaws T} {NM : NumMore T} {G : T -> Prop}.

Lemma weights_same lm (P Q : pobj T) i j : wf_obj P -> wf_obj Q -> same_routing P Q -> inside P i j -> weights_of lm Q i j = weights_of lm P i j.
Proof.
  intros WP WQ (((D1 & D2 & D) & (_ & _ & S) & (_ & _ & QX) & (_ & _ & QY) & (_ & _ & C)) & DI & IV & JV & _ & _ & DR & TH & GA & _) IN.
  rewrite !weight_refines by (try assumption; unfold inside in *; rewrite <- ?D1, <- ?D2; exact IN).
  pose proof WP as ((S1 & S2) & (X1 & X2) & (Y1 & Y2) & _ & _ & _ & _ & (C1 & C2) & _). rewrite S1, S2 in S. rewrite X1, X2 in QX. rewrite Y1, Y2 in QY. rewrite C1, C2 in C.
  assert (IJ : 0 <= i < nrow (o_depth P) /\ 0 <= j < ncol (o_depth P)) by (unfold inside in IN; lia).
  assert (NB : forall m, (m < 9)%nat -> 0 <= i + row_off m < nrow (o_depth P) /\ 0 <= j + col_off m < ncol (o_depth P)).
  { intros m Hm. unfold inside in IN. assert (-1 <= row_off m <= 1 /\ -1 <= col_off m <= 1) by (do 9 (destruct m as [|m]; [split; split; vm_compute; discriminate|]); lia). lia. }
  assert (ND : forall m, (m < 9)%nat -> nb i j (o_depth Q) m = nb i j (o_depth P) m) by (intros m Hm; destruct (NB m Hm); symmetry; apply D; assumption).
  assert (BL : forall m, (m < 9)%nat -> nb_blocked Q i j m = nb_blocked P i j m).
  { intros m Hm. unfold nb_blocked. rewrite (ND m Hm), DR. unfold nb. destruct (NB m Hm). rewrite C by assumption. reflexivity. }
  assert (SL : forall m, (m < 9)%nat -> slope Q i j m = slope P i j m).
  { intros m Hm. destruct (NB m Hm), IJ. unfold slope, nb. rewrite (BL m Hm), <- !S, DI by assumption. reflexivity. }
  assert (IN' : forall m, (m < 9)%nat -> inertia Q i j m = inertia P i j m).
  { intros m Hm. destruct IJ. unfold inertia. rewrite (BL m Hm), QX, QY, IV, JV, DI by assumption. reflexivity. }
  assert (EB : forall m, (m < 9)%nat -> base_weight lm Q i j m = base_weight lm P i j m).
  { intros m Hm. unfold base_weight. rewrite (BL m Hm), (ND m Hm), TH, GA, (share_ext (slope Q i j) (slope P i j) m), (share_ext (inertia Q i j) (inertia P i j) m) by auto. reflexivity. }
  apply map_ext9. intros m Hm. unfold spec_weight. rewrite (total9_ext _ _ EB), (EB m Hm). unfold deepest. rewrite !(ND m Hm), (map_ext9 _ _ ND). reflexivity.
Qed.

(** The same draw selects the same direction, and nothing else that decides on the way differs. *)
Definition routed_alike lm (P Q : pobj T) : Prop :=
  (nrow (o_depth P) = nrow (o_depth Q) /\ ncol (o_depth P) = ncol (o_depth Q) /\ same_grid (o_ct P) (o_ct Q)) /\
  (forall x y u a b, inside P x y -> selects lm P x y u a -> selects lm Q x y u b -> a = b) /\
  o_iwalk P = o_iwalk Q /\ o_jwalk P = o_jwalk Q /\ nltb n0 (o_diff P) = nltb n0 (o_diff Q).
Lemma same_routing_alike lm P Q : wf_obj P -> wf_obj Q -> same_routing P Q -> routed_alike lm P Q.
Proof.
  intros WP WQ SR. pose proof SR as (((D1 & D2 & _) & _ & _ & _ & C) & _ & _ & _ & IW & JW & _ & _ & _ & ST & DF). split; [split; [exact D1 | split; [exact D2 | exact C]]|].
  split; [|split; [exact IW | split; [exact JW | exact DF]]]. intros x y u a b IN (v1 & E1) (v2 & E2). rewrite (weights_same lm P Q x y WP WQ SR IN), <- ST in E2. congruence.
Qed.

Section Steps.
Variables (lm : Libm T) (P Q : pobj T).
Hypothesis SR : routed_alike lm P Q.
Hypothesis FP : field_ok lm P.
Lemma edge_same x y : edge_nearby Q x y <-> edge_nearby P x y.
Proof.
  destruct SR as ((D1 & D2 & (_ & _ & C)) & _). destruct FP as ((_ & _ & _ & _ & _ & _ & _ & (C1 & C2) & _) & _). rewrite C1, C2 in C. unfold edge_nearby, in_grid.
  split; intros (a & b & H); exists a, b; pose proof (C a b) as CE; rewrite <- D1, <- D2 in *; rewrite CE in *; tauto.
Qed.
Lemma free_inside' x y : in_grid P x y -> ~ edge_nearby P x y -> inside P x y.
Proof.
  intros Hg NE. destruct FP as (_ & _ & _ & RC & _). destruct (Z_le_dec 1 x), (Z_lt_dec x (nrow (o_depth P) - 1)), (Z_le_dec 1 y), (Z_lt_dec y (ncol (o_depth P) - 1));
    try (split; lia); exfalso; apply NE; exists x, y; (split; [exact Hg|]; split; [lia|]; split; [lia|]; apply RC; split; [exact Hg|]; unfold inside; lia).
Qed.
Lemma selects_same x y u a b : in_grid P x y -> ~ edge_nearby P x y -> selects lm P x y u a -> selects lm Q x y u b -> a = b.
Proof. intros Hg NE. apply SR, free_inside'; assumption. Qed.
Definition same_place (r r' : prow T) : Prop := r_x r' = r_x r /\ r_y r' = r_y r.
Lemma last_same_place r r' : same_place r r' -> last_x r' = last_x r /\ last_y r' = last_y r.
Proof. intros (A & B). unfold last_x, last_y, xat, yat, last_ix. rewrite A, B. auto. Qed.
Lemma step_same r r' u v v' r1 r1' : in_grid P (last_x r) (last_y r) -> same_place r r' -> one_step lm P r u v r1 -> one_step lm Q r' u v' r1' -> same_place r1 r1'.
Proof.
  intros Hg SW S1 S2. destruct (last_same_place r r' SW) as (EX & EY). pose proof SW as (A & B).
  assert (IW : o_iwalk P = o_iwalk Q) by apply SR. assert (JW : o_jwalk P = o_jwalk Q) by apply SR.
  unfold one_step in S1, S2. cbv zeta in S1, S2. rewrite EX, EY, <- IW, <- JW in S2. rewrite edge_same in S2.
  destruct S1 as [(C1 & ->)|(Z1 & E1 & k1 & K1 & N1 & S1 & D1 & ->)], S2 as [(C2 & ->)|(Z2 & E2 & k2 & K2 & N2 & S2 & D2 & ->)].
  - exact SW.
  - exfalso. destruct C1 as [Q1|[Q1|(m & Hm & Sm & Q1)]]; [contradiction|contradiction|].
    rewrite (selects_same _ _ _ m k2 Hg E2 Sm S2) in Q1. destruct Q1 as [Q1|(U & V)]; [contradiction|]. apply D2. rewrite U, V, !Z.add_0_r. reflexivity.
  - exfalso. destruct C2 as [Q1|[Q1|(m & Hm & Sm & Q1)]]; [contradiction|contradiction|].
    rewrite <- (selects_same _ _ _ k1 m Hg E1 S1 Sm) in Q1. destruct Q1 as [Q1|(U & V)]; [contradiction|]. apply D1. rewrite U, V, !Z.add_0_r. reflexivity.
  - rewrite <- (selects_same _ _ _ k1 k2 Hg E1 S1 S2). unfold same_place, with_record. cbn [r_x r_y]. rewrite A, B. auto.
Qed.
End Steps.

Lemma nth_lists {A} (l l' : list (list A)) : length l' = length l -> (forall q, (q < length l)%nat -> nth q l' [] = nth q l []) -> l' = l.
Proof. intros E H. apply (nth_ext _ _ [] []); [exact E|]. intros n Hn. apply H. lia. Qed.

Section Runs.
Variables (lm : Libm T) (L W : Z) (p p' : params T) (P Q : pobj T) (draws : nat -> T).
Hypothesis SR : routed_alike lm P Q.
Lemma run_same s t s' t' : session G lm L W p P draws s -> session G lm L W p' Q draws t -> same_places s t ->
  do_op lm P draws OpRun s = Ok s' -> do_op lm Q draws OpRun t = Ok t' -> same_places s' t'.
Proof.
  intros S1 S2 (EP & SW) O1 O2. cbn [do_op] in O1, O2.
  destruct (run_step lm P draws s) as [(w1 & s1)|] eqn:R1; [|discriminate]. injection O1 as ->.
  destruct (run_step lm Q draws t) as [(v1 & t1)|] eqn:R2; [|discriminate]. injection O2 as ->.
  destruct (s_walk s) as [w|] eqn:EW; [|unfold run_step in R1; rewrite EW in R1; discriminate]. destruct (s_walk t) as [v|] eqn:EV; [|contradiction].
  destruct SW as (SX & SY). assert (CV : count v = count w) by (unfold count; rewrite SX; reflexivity).
  assert (SW : forall q, same_place (hist P w q) (hist Q v q)) by (intros q; unfold same_place, hist, row; cbn [r_x r_y]; rewrite SX, SY; auto).
  destruct (session_run lm L W p P draws s w w1 s' 0 S1 EW R1) as (A1 & C1 & _). destruct (session_run lm L W p' Q draws t v v1 t' 0 S2 EV R2) as (A2 & C2 & _).
  destruct (session_draws lm L W p P draws s w w1 s' S1 EW R1) as (DR1 & PS1). destruct (session_draws lm L W p' Q draws t v v1 t' S2 EV R2) as (DR2 & PS2).
  destruct (session_field lm L W p P draws s S1) as (FP & _ & _ & _ & EL & EWd). destruct (session_field lm L W p' Q draws t S2) as (FQ & _).
  assert (AW : forall q, tally (awake Q v) q = tally (awake P w) q).
  { intros q. apply tally_ext. intros m Hm. unfold awake. destruct (last_same_place _ _ (SW m)) as (-> & ->). reflexivity. }
  assert (ALL : forall q, (q <= count w)%nat -> (forall m, (m < q)%nat -> same_place (hist P w1 m) (hist Q v1 m)) /\ tally (grew Q v v1) q = tally (grew P w w1) q).
  { induction q as [|q IHq]; intros Hq; [split; [lia | reflexivity]|]. destruct (IHq ltac:(lia)) as (B1 & B2).
    assert (NEW : same_place (hist P w1 q) (hist Q v1 q)).
    { specialize (DR1 q ltac:(lia)). specialize (DR2 q ltac:(lia)). cbv zeta in DR1, DR2. rewrite CV, EP, !AW, B2 in DR2 by lia.
      eapply (step_same lm P Q SR FP); [|apply SW | exact DR1 | exact DR2].
      pose proof (session_hist lm L W p P draws s w q S1 EW ltac:(lia)) as ((RR & _) & _).
      unfold in_grid. rewrite EL, EWd. apply (session_positions lm L W p P draws s w q (last_ix (hist P w q)) S1 EW ltac:(lia)). unfold last_ix. lia. }
    split; [intros m Hm; destruct (Nat.eq_dec m q) as [->|]; [exact NEW | apply B1; lia]|].
    rewrite !tally_S, B2. f_equal. unfold grew. destruct (SW q) as (-> & _). destruct NEW as (-> & _). reflexivity. }
  destruct (ALL (count w) (Nat.le_refl _)) as (B1 & B2).
  assert (S1' : session G lm L W p P draws s') by (eapply session_op; [exact S1 | apply (run_op_ok lm P OpRun I) | cbn [do_op]; rewrite R1; reflexivity]).
  assert (S2' : session G lm L W p' Q draws t') by (eapply session_op; [exact S2 | apply (run_op_ok lm Q OpRun I) | cbn [do_op]; rewrite R2; reflexivity]).
  destruct (session_rect lm L W p P draws s' w1 S1' A1) as (LY1 & _). destruct (session_rect lm L W p' Q draws t' v1 S2' A2) as (LY2 & _).
  unfold count in C1, C2, CV, B1. split.
  - cbv zeta in PS1, PS2. unfold count in PS1, PS2, B2. rewrite PS1, PS2, EP, CV, AW, B2. destruct SR as (_ & _ & _ & _ & ->). reflexivity.
  - rewrite A1, A2. split; apply nth_lists; try congruence; intros q Hq; destruct (B1 q ltac:(lia)) as (X & Y); [exact X | exact Y].
Qed.
Lemma gen_same np xl yl t0 m prev s t s' t' : same_places s t -> generate_particles P draws np xl yl t0 m prev s = Ok s' -> generate_particles Q draws np xl yl t0 m prev t = Ok t' -> same_places s' t'.
Proof.
  intros (EP & SW) H1 H2. unfold generate_particles in H1, H2. rewrite EP in H2.
  apply bind_ok in H1 as (((xs & ys) & pos) & M & H1). rewrite M in H2. cbn [bind] in H2.
  apply bind_ok in H1 as (nx & X & H1). rewrite X in H2. cbn [bind] in H2. apply bind_ok in H1 as (ny & Y & H1). rewrite Y in H2. cbn [bind] in H2.
  apply bind_ok in H1 as (o1 & _ & H1). apply bind_ok in H2 as (o2 & _ & H2). cbv zeta in H1, H2. injection H1 as <-. injection H2 as <-.
  split; [reflexivity|]. cbn [s_walk]. destruct (s_walk s) as [w|], (s_walk t) as [v|]; try contradiction; [destruct SW as (A & B)|]; destruct prev; cbn [merge_walk xinds yinds]; rewrite ?A, ?B; auto.
Qed.
Lemma ops_same os : Forall no_target os -> Forall (op_ok G lm P) os -> Forall (op_ok G lm Q) os -> forall s t s' t',
  session G lm L W p P draws s -> session G lm L W p' Q draws t -> same_places s t -> do_ops lm P draws os s = Ok s' -> do_ops lm Q draws os t = Ok t' -> same_places s' t'.
Proof.
  induction 1 as [|o os NT F IH]; intros OK1 OK2 s t s' t' S1 S2 SP D1 D2; cbn [do_ops] in D1, D2; [injection D1 as <-; injection D2 as <-; exact SP|].
  apply bind_ok in D1 as (s1 & E1 & D1). apply bind_ok in D2 as (t1 & E2 & D2). inversion OK1 as [|? ? K1 R1]; subst. inversion OK2 as [|? ? K2 R2]; subst.
  eapply (IH R1 R2 s1 t1); try eassumption; [eapply session_op; eassumption | eapply session_op; eassumption|].
  destruct o as [np xl yl t0 m prev| |tg mi|]; [eapply gen_same; eassumption | eapply run_same; eassumption | contradiction|].
  cbn [do_op] in E1, E2. injection E1 as <-. injection E2 as <-. destruct SP as (A & _). split; [exact A | exact I].
Qed.
End Runs.
End S.

(** Properties C101 - C103: equivalent ways to describe the flow, and what the routes depend on. *)
From Coq Require Import ZArith Bool String List Lia QArith Qcanon Lqa FunctionalExtensionality Reals.
From Flocq Require Import Core IEEE754.BinarySingleNaN.
From Verif Require Import Num NumFacts NumMore NumPost XQ XQLaws XQFacts F64 F64Laws Py Walker ParticleTrack SpecWeights SpecPick SpecWalk SpecHist SpecInit SpecApi SpecDraw SpecShift SpecFast SpecRoute
  ProofStep ProofWeightLaws ProofApi ProofInit ProofApi2 ProofShift ProofDrawRun ProofStuck ProofFast ProofRoute Examples ExamplesExact ExamplesQ P_Fast.
Import ListNotations.
Open Scope Z_scope.

(** The constructor accepts both or rejects both, and the two objects are equal. *)
Definition same_construction {T} {N : Num T} (lm : Libm T) (p p' : params T) : Prop :=
  match init lm p, init lm p' with
  | Ok (P, _), Ok (Q, _) => P = Q
  | Err e, Err e' => e = e'
  | _, _ => False
  end.
Section Water.
Context {T : Type} {N : Num T} {NL : NumLaws T}.
Lemma arr_eq {A} r c (f g : Z -> Z -> A) : (forall i j, f i j = g i j) -> Arr r c f = Arr r c g.
Proof. intros H. f_equal. extensionality i. extensionality j. apply H. Qed.
Lemma same_water lm p d s t d' s' t' :
  (forall D pd D' pd', init_depth (with_water p d s t) = Ok (D, pd) -> init_depth (with_water p d' s' t') = Ok (D', pd') ->
     D = D' /\ exists S ps ps', init_stage (with_water p d s t) D pd = Ok (S, ps) /\ init_stage (with_water p d' s' t') D' pd' = Ok (S, ps')) ->
  (exists D pd, init_depth (with_water p d s t) = Ok (D, pd)) -> (exists D pd, init_depth (with_water p d' s' t') = Ok (D, pd)) ->
  same_construction lm (with_water p d s t) (with_water p d' s' t').
Proof.
  intros H (D & pd & E) (D' & pd' & E'). destruct (H D pd D' pd' E E') as (<- & S & ps & ps' & F & F'). unfold same_construction, init. cbn [p_dx with_water].
  destruct (p_dx p) as [dx|]; [|reflexivity]. rewrite E, E'. cbn [bind]. rewrite F, F'. cbn [bind].
  change (init_flow (with_water p d' s' t') D) with (init_flow p D). change (init_flow (with_water p d s t) D) with (init_flow p D).
  destruct (init_flow p D) as [f|e]; [|reflexivity]. cbn [bind p_roi with_water].
  destruct (p_roi p) as [roi|]; [destruct ((nrow roi =? nrow D) && (ncol roi =? ncol D))|]; reflexivity.
Qed.
Lemma water_depth_given lm p d t t' : same_construction lm (with_water p (Some d) None (Some t)) (with_water p (Some d) (Some (amap2 nadd t d)) t').
Proof.
  apply same_water; [|do 2 eexists; reflexivity | do 2 eexists; reflexivity]. intros D pd D' pd' E E'. injection E as <- <-. injection E' as <- <-. split; [reflexivity|].
  do 3 eexists. split; [reflexivity|]. unfold init_stage. cbn [with_water p_stage]. f_equal. f_equal. apply arr_eq. intros i j. cbn [nan_to_0 amap amap2 cell]. unfold nanz.
  destruct (nisnan (cell d i j)) eqn:E; [|reflexivity]. rewrite eqb_def, leb_refl by apply n0_notnan. reflexivity.
Qed.
Lemma water_surface_bed lm p d t t' : nrow d = nrow t -> ncol d = ncol t ->
  (forall i j, nleb n0 (cell d i j) = true /\ nsub (nadd (cell t i j) (cell d i j)) (cell t i j) = cell d i j) ->
  same_construction lm (with_water p None (Some (amap2 nadd t d)) (Some t)) (with_water p (Some d) (Some (amap2 nadd t d)) t').
Proof.
  intros R C H. apply same_water; [|do 2 eexists; reflexivity | do 2 eexists; reflexivity]. intros D pd D' pd' E E'. injection E as <- <-. injection E' as <- <-.
  match goal with |- ?a = ?b /\ _ => assert (X : a = b) end.
  { destruct d as [rd cd fd], t as [rt ct ft]. cbn [nrow ncol] in R, C. subst. apply arr_eq. intros i j. cbn [nan_to_0 amap amap2 cell] in *. destruct (H i j) as (A & ->). f_equal.
    rewrite ltb_def, A, andb_false_r. reflexivity. }
  split; [exact X|]. do 3 eexists. split; [reflexivity|]. unfold init_stage. cbn [with_water p_stage]. rewrite X. reflexivity.
Qed.
Lemma same_trans lm (p q r : params T) : same_construction lm p q -> same_construction lm q r -> same_construction lm p r.
Proof.
  unfold same_construction. destruct (init lm p) as [(P & p1)|e1], (init lm q) as [(Q & q1)|e2], (init lm r) as [(R & r1)|e3]; try contradiction; congruence.
Qed.
Lemma same_sym lm (p q : params T) : same_construction lm p q -> same_construction lm q p.
Proof. unfold same_construction. destruct (init lm p) as [(P & p1)|e1], (init lm q) as [(Q & q1)|e2]; try contradiction; congruence. Qed.
End Water.

(** C101 Depth with topography is the same as depth with stage = topography + depth, bit for bit. *)
Theorem C101_depth_given :
  forall lm (p : params f64) d t t', same_construction lm (with_water p (Some d) None (Some t)) (with_water p (Some d) (Some (amap2 nadd t d)) t').
Proof. exact water_depth_given. Qed.
Print Assumptions C101_depth_given.
(** Stage with topography is the same as depth with topography, in exact arithmetic ... *)
Theorem C101_stage_and_topography_exact :
  forall lm (p : params xq) d t, nrow d = nrow t -> ncol d = ncol t ->
    (forall i j, nisfin (cell t i j) = true /\ nisfin (cell d i j) = true /\ nleb n0 (cell d i j) = true) ->
    same_construction lm (with_water p None (Some (amap2 nadd t d)) (Some t)) (with_water p (Some d) None (Some t)).
Proof.
  intros lm p d t R C H. eapply same_trans; [apply (water_surface_bed lm p d t None R C) | apply same_sym, water_depth_given]. intros i j. destruct (H i j) as (A & B & D). split; [exact D|].
  destruct (cell t i j) as [|b|x]; try discriminate. destruct (cell d i j) as [|b|y]; try discriminate. rewrite xq_add, xq_sub. f_equal. ring.
Qed.
Print Assumptions C101_stage_and_topography_exact.
(** ... and with doubles wherever the sum and the difference are not rounded. *)
Theorem C101_stage_and_topography_partial :
  forall lm (p : params f64) d t, nrow d = nrow t -> ncol d = ncol t ->
    (forall i j, nleb n0 (cell d i j) = true /\ nsub (nadd (cell t i j) (cell d i j)) (cell t i j) = cell d i j) ->
    same_construction lm (with_water p None (Some (amap2 nadd t d)) (Some t)) (with_water p (Some d) None (Some t)).
Proof. intros lm p d t R C H. eapply same_trans; [apply (water_surface_bed lm p d t None R C H) | apply same_sym, water_depth_given]. Qed.
Print Assumptions C101_stage_and_topography_partial.
(** With rounding it is not: water 0.1 m deep at 100 m above datum is open water if the depth is given, and land if stage and topography are. *)
Definition c101_d : arr f64 := Arr 10 9 (fun _ _ => ntenth).
Definition c101_t : arr f64 := Arr 10 9 (fun _ _ => nofZ 100).
Theorem C101_rounding_refuted :
  exists lm (p : params f64) P p' Q q' i j, standard lm 10 9 (with_water p (Some c101_d) None (Some c101_t)) /\ standard lm 10 9 (with_water p None (Some (amap2 nadd c101_t c101_d)) (Some c101_t)) /\
    init lm (with_water p (Some c101_d) None (Some c101_t)) = Ok (P, p') /\ init lm (with_water p None (Some (amap2 nadd c101_t c101_d)) (Some c101_t)) = Ok (Q, q') /\
    cell (o_ct P) i j = 0 /\ cell (o_ct Q) i j = 2.
Proof.
  set (pa := with_water ex_params (Some c101_d) None (Some c101_t)). set (pb := with_water ex_params None (Some (amap2 nadd c101_t c101_d)) (Some c101_t)).
  assert (ST : standard ex_lm 10 9 pa /\ standard ex_lm 10 9 pb).
  { split; (split; [repeat split; try lia; try (intros; discriminate);
      match goal with |- nrow ?a = _ => idtac | |- ncol ?a = _ => idtac end;
      match goal with H : _ = Some ?a |- _ => injection H as <-; reflexivity end|];
      split; [lia|]; split; [lia|]; split; [repeat split|]; split; [intros ct Hc; discriminate|]; split; [intros g Hg; discriminate|];
      split; [exact ex_pow_ok|]; split; [exact ex_sqrt_ok|]; intros dx Hd; injection Hd as <-; vm_compute; reflexivity). }
  set (d := (gx_none : pobj f64, ex_params)). set (ra := unerr d (init ex_lm pa)). set (rb := unerr d (init ex_lm pb)).
  exists ex_lm, ex_params, (fst ra), (snd ra), (fst rb), (snd rb), 5, 5.
  split; [apply ST|]. split; [apply ST|].
  split; [rewrite <- surjective_pairing; apply is_ok_unerr; vm_compute; reflexivity|].
  split; [rewrite <- surjective_pairing; apply is_ok_unerr; vm_compute; reflexivity|].
  split; vm_compute; reflexivity.
Qed.
Print Assumptions C101_rounding_refuted.
(** The hypotheses are met, e.g. by water 0.25 m deep over a bed at 0, 1, 2, ... m; and the constructor accepts it. *)
Definition c101_d2 : arr f64 := Arr 10 9 (fun _ _ => ndiv n1 (nofZ 4)).
Definition c101_t2 : arr f64 := Arr 10 9 (fun i _ => nofZ (i mod 10)).
Definition f64_same (x y : f64) : bool := nleb x y && nleb y x && nisfin x && nisfin y && nltb n0 y.
Lemma f64_same_eq x y : f64_same x y = true -> x = y.
Proof.
  unfold f64_same. rewrite !andb_true_iff. intros ((((A & B) & Fx) & Fy) & C). cbn [nleb nltb nisfin F64num] in *. apply leb_R in A; [|assumption|assumption]. apply leb_R in B; [|assumption|assumption].
  rewrite ltb_eq in C. apply andb_true_iff in C as (_ & C). apply negb_true_iff in C. apply f_eq; auto; [apply Rle_antisym; assumption|].
  intros Z. assert (D : Bleb y (fofZ 0) = true) by (apply leb_0r; [exact Fy|]; rewrite <- Z; exact B). change (n0 : f64) with (fofZ 0) in C. congruence.
Qed.
Example C101_example : nrow c101_d2 = nrow c101_t2 /\ ncol c101_d2 = ncol c101_t2 /\
  (forall i j, nleb n0 (cell c101_d2 i j) = true /\ nsub (nadd (cell c101_t2 i j) (cell c101_d2 i j)) (cell c101_t2 i j) = cell c101_d2 i j) /\
  is_ok (init ex_lm (with_water ex_params None (Some (amap2 nadd c101_t2 c101_d2)) (Some c101_t2))) = true.
Proof.
  split; [reflexivity|]. split; [reflexivity|]. split; [|vm_compute; reflexivity].
  assert (CH : forall m, 0 <= m < 10 -> f64_same (nsub (nadd (nofZ m) (ndiv n1 (nofZ 4))) (nofZ m)) (ndiv n1 (nofZ 4)) = true).
  { intros m Hm. assert (C : m = 0 \/ m = 1 \/ m = 2 \/ m = 3 \/ m = 4 \/ m = 5 \/ m = 6 \/ m = 7 \/ m = 8 \/ m = 9) by lia. repeat destruct C as [->|C]; subst; vm_compute; reflexivity. }
  intros i j. cbn [cell c101_d2 c101_t2]. split; [vm_compute; reflexivity|]. apply f64_same_eq, CH. apply Z.mod_pos_bound. lia.
Qed.

(** C102 Two set-ups with the same depth, stage, discharge, cell types and routing parameters lead every particle through the same cells, bit for bit, whatever the cell size, the
    velocities, the amount of diffusion, the tracked variables and the region of interest are. *)
Theorem C102_same_paths :
  forall G lm L W (p p' : params f64) P Q draws pos os s t,
    standard lm L W p -> standard lm L W p' -> (exists a, init lm p = Ok (P, a)) -> (exists a, init lm p' = Ok (Q, a)) -> same_routing P Q -> unit_stream G draws ->
    Forall (fun o => no_target o /\ op_ok G lm P o /\ op_ok G lm Q o) os ->
    do_ops lm P draws os (init_sim lm P pos) = Ok s -> do_ops lm Q draws os (init_sim lm Q pos) = Ok t -> same_places s t.
Proof.
  intros G lm L W p p' P Q draws pos os s t S1 S2 I1 I2 SR U F D1 D2. 
  assert (F1 : Forall no_target os) by (eapply Forall_impl; [|exact F]; intros o (A & _); exact A).
  assert (F2 : Forall (op_ok G lm P) os) by (eapply Forall_impl; [|exact F]; intros o (_ & A & _); exact A).
  assert (F3 : Forall (op_ok G lm Q) os) by (eapply Forall_impl; [|exact F]; intros o (_ & _ & A); exact A).
  destruct I1 as (a & I1), I2 as (b & I2). pose proof (proj1 (proj1 (standard_field_ok lm L W p P a S1 I1))) as WP. pose proof (proj1 (proj1 (standard_field_ok lm L W p' Q b S2 I2))) as WQ.
  eapply (ops_same lm L W p p' P Q draws (same_routing_alike lm P Q WP WQ SR) os F1 F2 F3); [| | |exact D1|exact D2].
  - split; [exact S1|]. split; [exists a; exact I1|]. split; [exact U|]. exists pos, []. split; [constructor | reflexivity].
  - split; [exact S2|]. split; [exists b; exact I2|]. split; [exact U|]. exists pos, []. split; [constructor | reflexivity].
  - split; [reflexivity | exact I].
Qed.
Print Assumptions C102_same_paths.
(** Calibration: changing the cell size, the diffusion coefficient (within the positive ones), the region of interest or the tracked variables is such a change. *)
Theorem C102_calibration :
  forall lm (p : params f64) dx diff roi vars P Q a b,
    init lm p = Ok (P, a) -> init lm (retimed p dx diff roi vars) = Ok (Q, b) -> nltb n0 (o_diff P) = true -> nltb n0 diff = true -> same_routing P Q.
Proof.
  intros lm p dx diff roi vars P Q a b I1 I2 D1 D2. unfold init in I1, I2. cbn [retimed p_dx] in I2. destruct (p_dx p) as [dx0|]; [|discriminate].
  change (init_depth (retimed p dx diff roi vars)) with (init_depth p) in I2. apply bind_ok in I1 as ((d1 & pd1) & DE1 & I1). rewrite DE1 in I2. cbn [bind] in I2.
  change (init_stage (retimed p dx diff roi vars)) with (init_stage p) in I2. apply bind_ok in I1 as ((s1 & ps1) & S1 & I1). rewrite S1 in I2. cbn [bind] in I2.
  change (init_flow (retimed p dx diff roi vars)) with (init_flow p) in I2. apply bind_ok in I1 as (f1 & F1 & I1). rewrite F1 in I2. cbn [bind] in I2.
  cbv zeta in I1, I2. apply bind_ok in I1 as (? & _ & I1). apply bind_ok in I2 as (? & _ & I2). injection I1 as <- <-. injection I2 as <- <-.
  split; [repeat split|]. do 9 (split; [reflexivity|]). rewrite D1. cbn [o_diff init_diff retimed p_diff]. symmetry. rewrite (ltb_def diff n0), (lt_not_le n0 diff D2). exact D2.
Qed.
Print Assumptions C102_calibration.

(** C103 The same flow, once given by velocities and once by the discharges velocity * depth. *)
Definition by_velocity {T} {N : Num T} (p : params T) (m : option string) (u v : arr T) : params T := with_flow p m None None (Some u) (Some v).
Definition by_discharge {T} {N : Num T} (p : params T) (m : option string) (u v h : arr T) : params T :=
  with_flow p m (Some (amap2 nmul u h)) (Some (amap2 nmul v h)) None None.
Section Flow.
Context {T : Type} {N : Num T}.
(** The grids of the two objects, in terms of the two flow records. *)
Lemma by_either lm p m (u v : arr T) P Q a b :
  init lm (by_velocity p m u v) = Ok (P, a) -> init lm (by_discharge p m u v (o_depth P)) = Ok (Q, b) ->
  exists f g, init_flow (by_velocity p m u v) (o_depth P) = Ok f /\ init_flow (by_discharge p m u v (o_depth P)) (o_depth P) = Ok g /\
    (same_grid (f_qx f) (f_qx g) -> same_grid (f_qy f) (f_qy g) -> same_routing P Q) /\
    forall i j, cell (o_u P) i j = floor_comp (cell (f_u f) i j) /\ cell (o_u Q) i j = floor_comp (cell (f_u g) i j) /\
      cell (o_v P) i j = floor_comp (cell (f_v f) i j) /\ cell (o_v Q) i j = floor_comp (cell (f_v g) i j) /\
      (let x := cell (f_u f) i j in let y := cell (f_v f) i j in cell (o_vel P) i j = floor_vel (m_sqrt lm (nadd (nmul x x) (nmul y y)))) /\
      (let x := cell (f_u g) i j in let y := cell (f_v g) i j in cell (o_vel Q) i j = floor_vel (m_sqrt lm (nadd (nmul x x) (nmul y y)))) /\
      cell (o_vang P) i j = m_atan2 lm (nmul (nofZ (-1)) (cell (o_u P) i j)) (cell (o_v P) i j) /\
      cell (o_vang Q) i j = m_atan2 lm (nmul (nofZ (-1)) (cell (o_u Q) i j)) (cell (o_v Q) i j).
Proof.
  intros I1 I2. unfold init in I1. cbn [by_velocity with_flow p_dx] in I1. destruct (p_dx p) as [dx|] eqn:DX; [|discriminate].
  apply bind_ok in I1 as ((d1 & pd1) & D1 & I1). apply bind_ok in I1 as ((s1 & ps1) & S1 & I1). apply bind_ok in I1 as (f & F & I1). cbv zeta in I1. apply bind_ok in I1 as (? & R1 & I1).
  injection I1 as <- <-. cbn [o_depth] in *. unfold init in I2. cbn [by_discharge with_flow p_dx] in I2. rewrite DX in I2.
  change (init_depth _) with (init_depth (by_velocity p m u v)) in I2. change (init_depth _) with (init_depth (by_velocity p m u v)) in D1. rewrite D1 in I2. cbn [bind] in I2.
  change (init_stage _) with (init_stage (by_velocity p m u v)) in I2. change (init_stage _) with (init_stage (by_velocity p m u v)) in S1. rewrite S1 in I2. cbn [bind] in I2.
  apply bind_ok in I2 as (g & Gf & I2). cbv zeta in I2. apply bind_ok in I2 as (? & R2 & I2). injection I2 as <- <-.
  exists f, g. split; [exact F|]. split; [exact Gf|]. split; [intros A B; split; [repeat split; try apply A; try apply B | repeat split]|].
  intros i j. cbn [o_u o_v o_vel o_vang amap amap2 cell]. repeat split.
Qed.
End Flow.
Theorem C103_velocity_or_discharge :
  forall G lm L W (p : params f64) u v P Q a b draws pos os s t, let m := Some "DeltaRCM"%string in
    standard lm L W (by_velocity p m u v) -> standard lm L W (by_discharge p m u v (o_depth P)) ->
    init lm (by_velocity p m u v) = Ok (P, a) -> init lm (by_discharge p m u v (o_depth P)) = Ok (Q, b) ->
    (forall i j, 0 <= i < L -> 0 <= j < W -> nisnan (cell u i j) = false /\ nisnan (cell v i j) = false /\ nisnan (nmul (cell u i j) (cell (o_depth P) i j)) = false /\ nisnan (nmul (cell v i j) (cell (o_depth P) i j)) = false) ->
    unit_stream G draws -> Forall (fun o => no_target o /\ op_ok G lm P o /\ op_ok G lm Q o) os ->
    do_ops lm P draws os (init_sim lm P pos) = Ok s -> do_ops lm Q draws os (init_sim lm Q pos) = Ok t -> same_places s t.
Proof.
  intros G lm L W p u v P Q a b draws pos os s t m S1 S2 I1 I2 NN U F D1 D2.
  eapply (C102_same_paths G lm L W _ _ P Q draws pos os s t S1 S2); eauto. destruct (by_either lm p m u v P Q a b I1 I2) as (f & g & Ff & Gf & H & _).
  injection Ff as <-. injection Gf as <-. cbn [f_qx f_qy] in H.
  assert (SH : nrow u = L /\ ncol u = W /\ nrow v = L /\ ncol v = W).
  { destruct S1 as ((_ & _ & _ & _ & _ & _ & _ & SU & SV & _) & _). destruct (SU u eq_refl), (SV v eq_refl). auto. }
  destruct SH as (R1 & R2 & R3 & R4).
  apply H; (split; [reflexivity|]; split; [reflexivity|]; intros i j Hi Hj; cbn [nan_to_0 amap amap2 cell nrow ncol] in *; rewrite ?R1, ?R3 in Hi; rewrite ?R2, ?R4 in Hj;
    destruct (NN i j Hi Hj) as (A & B & C & D); cbn [nmul F64num] in C, D; unfold nanz; rewrite ?A, ?B, ?C, ?D; reflexivity).
Qed.
Print Assumptions C103_velocity_or_discharge.

(** In exact arithmetic, for both coordinate conventions: the routing is the same, and the speed differs by the factor h^2/(h^2 + 1e-8). *)
Definition slow_down (h : Qc) : Qc := (h * h / (h * h + Q2Qc (1 # 100000000)))%Qc.
Lemma slow_pos h : (0 < h)%Qc -> (0 < h * h + Q2Qc (1 # 100000000))%Qc /\ (0 < slow_down h)%Qc.
Proof.
  intros Hh. assert (P : (0 < h * h + Q2Qc (1 # 100000000))%Qc).
  { unfold Qclt in *. change (this 0%Qc) with 0%Q in *. rewrite this_add, this_mul. change (this (Q2Qc (1 # 100000000))) with (1 # 100000000)%Q. Lqa.nra. }
  split; [exact P|]. pose proof (inv_k _ P) as I. unfold slow_down, Qcdiv, Qclt in *. change (this 0%Qc) with 0%Q in *. rewrite !this_mul.
  assert (0 < this h * this h)%Q by Lqa.nra. Lqa.nra.
Qed.
Lemma nanz_fin (q : Qc) : nanz (XFin q) = XFin q.
Proof. reflexivity. Qed.
Lemma slow_eq (q x h : Qc) : (0 < h)%Qc -> q = (x * h)%Qc -> nanz (ndiv (nmul (XFin q) (XFin h)) (nadd (nmul (XFin h) (XFin h)) neps8)) = times_k (slow_down h) (XFin x).
Proof.
  intros Hh ->. destruct (slow_pos h Hh) as (A & _). assert (NZ : (h * h + Q2Qc (1 # 100000000))%Qc <> 0%Qc) by (intros E; rewrite E in A; apply Qclt_not_eq in A; apply A; reflexivity).
  rewrite eps8_xq, !xq_mul, xq_add, xq_div by exact NZ. unfold nanz, times_k, slow_down. cbn [nisnan XQnum xisnan]. rewrite xq_mul. f_equal. field. exact NZ.
Qed.
Theorem C103_speeds_exact :
  forall lm (p : params xq) m u v P Q a b,
    init lm (by_velocity p m u v) = Ok (P, a) -> init lm (by_discharge p m u v (o_depth P)) = Ok (Q, b) ->
    nrow v = nrow u -> ncol v = ncol u ->
    (forall i j, 0 <= i < nrow u -> 0 <= j < ncol u -> nisfin (cell u i j) = true /\ nisfin (cell v i j) = true /\ nisfin (cell (o_depth P) i j) = true) ->
    same_routing P Q /\
    forall i j h, 0 <= i < nrow u -> 0 <= j < ncol u -> cell (o_depth P) i j = XFin h -> (0 < h)%Qc -> homogeneous lm (slow_down h) -> above_floor P i j -> above_floor Q i j ->
      cell (o_vel Q) i j = times_k (slow_down h) (cell (o_vel P) i j) /\ cell (o_vang Q) i j = cell (o_vang P) i j.
Proof.
  intros lm p m u v P Q a b I1 I2 RV CV FI. destruct (by_either lm p m u v P Q a b I1 I2) as (f & g & Ff & Gf & H & C).
  assert (EP : (neps8 : xq) = XFin (Q2Qc (1 # 100000000))) by exact eps8_xq.
  assert (CELL : forall i j, 0 <= i < nrow u -> 0 <= j < ncol u -> exists x y h, cell (o_depth P) i j = XFin h /\ cell u i j = XFin x /\ cell v i j = XFin y).
  { intros i j Hi Hj. destruct (FI i j Hi Hj) as (A & B & D). destruct (cell u i j), (cell v i j), (cell (o_depth P) i j); try discriminate. eauto 6. }
  assert (NEG : (nofZ (-1) : xq) = XFin (- (1))%Qc) by (vm_compute; f_equal; apply Qc_is_canon; reflexivity).
  assert (FF : same_grid (f_qx f) (f_qx g) /\ same_grid (f_qy f) (f_qy g) /\ forall i j h, 0 <= i < nrow u -> 0 <= j < ncol u -> cell (o_depth P) i j = XFin h -> (0 < h)%Qc ->
    cell (f_u g) i j = times_k (slow_down h) (cell (f_u f) i j) /\ cell (f_v g) i j = times_k (slow_down h) (cell (f_v f) i j)).
  { revert Ff Gf. unfold init_flow, is_deltarcm. cbn [by_velocity by_discharge with_flow p_model p_qx p_qy p_u p_v].
    destruct (match m with Some m0 => String.eqb m0 "DeltaRCM" | None => false end); intros Ff Gf; injection Ff as <-; injection Gf as <-; cbn [f_qx f_qy f_u f_v]; change xmul with (@nmul xq XQnum).
    - split; [|split]; [split; [reflexivity|]; split; [reflexivity|]; intros i j Hi Hj; cbn [nrow ncol nan_to_0 neg1 amap amap2] in Hi, Hj; rewrite ?RV in Hi; rewrite ?CV in Hj .. |intros i j h Hi Hj Hd Hh];
        destruct (CELL i j Hi Hj) as (x & y & h' & E1 & E2 & E3); unfold vel_of_q; cbn [nan_to_0 amap amap2 cell]; rewrite E1, ?E2, ?E3; [rewrite ?xq_mul, !nanz_fin, ?xq_mul; reflexivity .. |].
      assert (h' = h) by congruence; subst h'. rewrite (xq_mul x h), (xq_mul y h), !nanz_fin. split; apply slow_eq; auto.
    - split; [|split]; [split; [reflexivity|]; split; [reflexivity|]; intros i j Hi Hj; cbn [nrow ncol nan_to_0 neg1 amap amap2] in Hi, Hj; rewrite ?RV in Hi; rewrite ?CV in Hj .. |intros i j h Hi Hj Hd Hh];
        destruct (CELL i j Hi Hj) as (x & y & h' & E1 & E2 & E3); unfold vel_of_q, neg1; cbn [nan_to_0 amap amap2 cell]; rewrite E1, ?E2, ?E3, ?NEG.
      + rewrite !xq_mul, !nanz_fin, xq_mul. f_equal. ring.
      + rewrite !xq_mul, !nanz_fin, ?xq_mul. reflexivity.
      + assert (h' = h) by congruence; subst h'. rewrite (xq_mul y h), (xq_mul x h), (xq_mul _ (y * h)%Qc), (xq_mul _ y), !nanz_fin. split; apply slow_eq; auto; ring. }
  destruct FF as (QX & QY & UV). split; [apply H; assumption|]. intros i j h Hi Hj Eh Hh (HS & HA) (A1 & A2 & A3) (B1 & B2 & B3).
  destruct (UV i j h Hi Hj Eh Hh) as (EU & EV). destruct (C i j) as (U1 & U2 & V1 & V2 & W1 & W2 & G1 & G2). cbv zeta in W1, W2.
  assert (K : (0 < slow_down h)%Qc) by (apply slow_pos, Hh).
  rewrite U1 in A1. rewrite V1 in A2. rewrite W1 in A3. rewrite U2 in B1. rewrite V2 in B2. rewrite W2 in B3.
  rewrite G1, G2, U1, U2, V1, V2, W1, W2. rewrite (floor_comp_above _ A1), (floor_comp_above _ A2), (floor_comp_above _ B1), (floor_comp_above _ B2), (floor_vel_above _ A3), (floor_vel_above _ B3).
  rewrite EU, EV. split; [|rewrite (f_mul_r _ K); apply HA]. rewrite !(f_mul_l _ K), !(f_mul_r _ K), !(f_add _ K). apply HS.
Qed.
Print Assumptions C103_speeds_exact.
(** In cells at least 0.1 deep (the default of dry_depth) the speeds agree up to one part in a million ... *)
Theorem C103_wet_cells : forall h : Qc, (Q2Qc (1 # 10) <= h)%Qc -> (Q2Qc (999999 # 1000000) <= slow_down h)%Qc /\ (slow_down h < 1)%Qc.
Proof.
  intros h Hh. assert (H0 : (0 < h)%Qc) by (eapply Qclt_le_trans; [|exact Hh]; reflexivity).
  destruct (slow_pos h H0) as (D & _). pose proof (inv_k _ D) as I.
  assert (E : (this (h * h + Q2Qc (1 # 100000000))%Qc * this (/ (h * h + Q2Qc (1 # 100000000)))%Qc == 1)%Q).
  { rewrite <- this_mul, Qcmult_inv_r; [reflexivity|]. intros Z. rewrite Z in D. apply Qclt_not_eq in D. apply D. reflexivity. }
  unfold slow_down, Qcdiv, Qclt, Qcle in *. change (this 0%Qc) with 0%Q in *. change (this 1%Qc) with 1%Q.
  set (i := this (/ (h * h + Q2Qc (1 # 100000000)))%Qc) in *. rewrite !this_mul, ?this_add, ?this_mul in *. fold i.
  change (this (Q2Qc (1 # 100000000))) with (1 # 100000000)%Q in *. change (this (Q2Qc (1 # 10))) with (1 # 10)%Q in Hh. change (this (Q2Qc (999999 # 1000000))) with (999999 # 1000000)%Q.
  set (x := this h) in *. clearbody i x. assert (S : (1 # 100 <= x * x)%Q) by Lqa.nra. assert (J : (i <= 100)%Q) by Lqa.nra. split; Lqa.nra.
Qed.
Print Assumptions C103_wet_cells.
(** ** Examples *)
Definition c102_ops : list (op f64) := [OpGen 2 [2; 3] [3; 6] n0 Exact None; OpRun; OpRun; OpGen 1 [2] [4] n1 Random None; OpRun].
Section Both.
Variables (lm : Libm f64) (P Q : pobj f64) (d : nat -> f64) (os : list (op f64)).
Definition both_check : bool :=
  match do_ops lm P d os (init_sim lm P 0), do_ops lm Q d os (init_sim lm Q 0) with
  | Ok s, Ok t => match s_walk s, s_walk t with
                  | Some w, Some v => (length (nth 0 (xinds w) []) =? 4)%nat && nltb (nth 3 (nth 0 (times w) []) n0) (nth 3 (nth 0 (times v) []) n0)
                  | _, _ => false
                  end
  | _, _ => false
  end.
Lemma both_ok : both_check = true -> exists s t w v, do_ops lm P d os (init_sim lm P 0) = Ok s /\ do_ops lm Q d os (init_sim lm Q 0) = Ok t /\ s_walk s = Some w /\ s_walk t = Some v /\
  length (nth 0 (xinds w) []) = 4%nat /\ nltb (nth 3 (nth 0 (times w) []) n0) (nth 3 (nth 0 (times v) []) n0) = true.
Proof.
  unfold both_check. destruct (do_ops lm P d os (init_sim lm P 0)) as [s|]; [|discriminate]. destruct (do_ops lm Q d os (init_sim lm Q 0)) as [t|]; [|discriminate].
  destruct (s_walk s) as [w|] eqn:E1; [|discriminate]. destruct (s_walk t) as [v|] eqn:E2; [|discriminate]. rewrite andb_true_iff, Nat.eqb_eq. intros (A & B). exists s, t, w, v. auto 10.
Qed.
End Both.
Lemma c102_ops_ok p P a : standard ex_lm 10 9 p -> init ex_lm p = Ok (P, a) -> Forall (op_ok unit_draw ex_lm P) c102_ops.
Proof.
  intros ST E. destruct (standard_field_ok ex_lm 10 9 p P a ST E) as (_ & EL & EW & _).
  repeat (constructor; [split; [|exact I]; try exact I|]); [| |constructor].
  - split; [lia|]. split; [reflexivity|]. intros x y [C|[C|[]]]; injection C as <- <-; right; rewrite EL, EW; lia.
  - split; [lia|]. intros x y [<-|[]] [<-|[]]. right; rewrite EL, EW; lia.
Qed.
(** Three times the cell size and more diffusion: same cells, longer times. *)
Definition c102_p : params f64 := retimed ex_params (nofZ 30) n1 None None.
Definition c102_Q : pobj f64 := fst (unerr (gx_none, ex_params) (init ex_lm c102_p)).
Example C102_example : exists a b s t w v, standard ex_lm 10 9 ex_params /\ standard ex_lm 10 9 c102_p /\ init ex_lm ex_params = Ok (ex_P, a) /\ init ex_lm c102_p = Ok (c102_Q, b) /\
  same_routing ex_P c102_Q /\ Forall (fun o => no_target o /\ op_ok unit_draw ex_lm ex_P o /\ op_ok unit_draw ex_lm c102_Q o) c102_ops /\
  do_ops ex_lm ex_P ex_draws c102_ops (init_sim ex_lm ex_P 0) = Ok s /\ do_ops ex_lm c102_Q ex_draws c102_ops (init_sim ex_lm c102_Q 0) = Ok t /\ s_walk s = Some w /\ s_walk t = Some v /\
  length (nth 0 (xinds w) []) = 4%nat /\ nltb (nth 3 (nth 0 (times w) []) n0) (nth 3 (nth 0 (times v) []) n0) = true.
Proof.
  assert (ST : standard ex_lm 10 9 c102_p).
  { split; [repeat split; try lia; try (intros; discriminate);
      match goal with |- nrow ?a = _ => idtac | |- ncol ?a = _ => idtac end;
      match goal with H : _ = Some ?a |- _ => injection H as <-; reflexivity end|].
    split; [lia|]. split; [lia|]. split; [repeat split|]. split; [intros ct Hc; discriminate|]. split; [intros g Hg; discriminate|].
    split; [exact ex_pow_ok|]. split; [exact ex_sqrt_ok|]. intros dx Hd. injection Hd as <-. vm_compute. reflexivity. }
  destruct ex_init as (a & I1).
  assert (I2 : init ex_lm c102_p = Ok (c102_Q, snd (unerr (gx_none, ex_params) (init ex_lm c102_p)))) by (unfold c102_Q; rewrite <- surjective_pairing; apply is_ok_unerr; vm_compute; reflexivity).
  destruct (both_ok ex_lm ex_P c102_Q ex_draws c102_ops) as (s & t & w & v & A & B & C & D & E & F); [vm_compute; reflexivity|].
  do 2 eexists. exists s, t, w, v. split; [exact ex_standard|]. split; [exact ST|]. split; [exact I1|]. split; [exact I2|].
  split; [eapply C102_calibration; [exact I1 | exact I2 | vm_compute; reflexivity | vm_compute; reflexivity]|].
  split; [|auto 10]. pose proof (c102_ops_ok _ _ _ ex_standard I1) as O1. pose proof (c102_ops_ok _ _ _ ST I2) as O2.
  apply Forall_forall. intros o Ho. rewrite Forall_forall in O1, O2. split; [|auto]. destruct Ho as [<-|[<-|[<-|[<-|[<-|[]]]]]]; exact I.
Qed.

(** Velocities (1 + row, (column - 3)/2) m/s, and the discharges that belong to them. *)
Definition c103_m : option string := Some "DeltaRCM"%string.
Definition c103_pv : params f64 := by_velocity ex_params c103_m gx_qx gx_qy.
Definition c103_P : pobj f64 := fst (unerr (gx_none, ex_params) (init ex_lm c103_pv)).
Definition c103_pq : params f64 := by_discharge ex_params c103_m gx_qx gx_qy (o_depth c103_P).
Definition c103_Q : pobj f64 := fst (unerr (gx_none, ex_params) (init ex_lm c103_pq)).
Section Ok2.
Variables (lm : Libm f64) (P Q : pobj f64) (d : nat -> f64) (os : list (op f64)).
Definition moves_check : bool :=
  match do_ops lm P d os (init_sim lm P 0), do_ops lm Q d os (init_sim lm Q 0) with
  | Ok s, Ok t => match s_walk s with Some w => (length (nth 0 (xinds w) []) =? 4)%nat | None => false end
  | _, _ => false
  end.
Lemma moves_ok : moves_check = true -> exists s t w, do_ops lm P d os (init_sim lm P 0) = Ok s /\ do_ops lm Q d os (init_sim lm Q 0) = Ok t /\ s_walk s = Some w /\ length (nth 0 (xinds w) []) = 4%nat.
Proof.
  unfold moves_check. destruct (do_ops lm P d os (init_sim lm P 0)) as [s|]; [|discriminate]. destruct (do_ops lm Q d os (init_sim lm Q 0)) as [t|]; [|discriminate].
  destruct (s_walk s) as [w|] eqn:E1; [|discriminate]. rewrite Nat.eqb_eq. intros A. exists s, t, w. auto.
Qed.
End Ok2.
Example C103_example : exists a b s t w, standard ex_lm 10 9 c103_pv /\ standard ex_lm 10 9 c103_pq /\ init ex_lm c103_pv = Ok (c103_P, a) /\ init ex_lm c103_pq = Ok (c103_Q, b) /\
  Forall (fun o => no_target o /\ op_ok unit_draw ex_lm c103_P o /\ op_ok unit_draw ex_lm c103_Q o) c102_ops /\
  do_ops ex_lm c103_P ex_draws c102_ops (init_sim ex_lm c103_P 0) = Ok s /\ do_ops ex_lm c103_Q ex_draws c102_ops (init_sim ex_lm c103_Q 0) = Ok t /\ s_walk s = Some w /\ length (nth 0 (xinds w) []) = 4%nat.
Proof.
  assert (ST : standard ex_lm 10 9 c103_pv /\ standard ex_lm 10 9 c103_pq).
  { split; (split; [repeat split; try lia; try (intros; discriminate);
      match goal with |- nrow ?a = _ => idtac | |- ncol ?a = _ => idtac end;
      match goal with H : _ = Some ?a |- _ => injection H as <-; reflexivity end|];
    split; [lia|]; split; [lia|]; split; [repeat split|]; split; [intros ct Hc; discriminate|]; split; [intros g Hg; discriminate|];
    split; [exact ex_pow_ok|]; split; [exact ex_sqrt_ok|]; intros dx Hd; injection Hd as <-; vm_compute; reflexivity). }
  assert (I1 : init ex_lm c103_pv = Ok (c103_P, snd (unerr (gx_none, ex_params) (init ex_lm c103_pv)))) by (unfold c103_P; rewrite <- surjective_pairing; apply is_ok_unerr; vm_compute; reflexivity).
  assert (I2 : init ex_lm c103_pq = Ok (c103_Q, snd (unerr (gx_none, ex_params) (init ex_lm c103_pq)))) by (unfold c103_Q; rewrite <- surjective_pairing; apply is_ok_unerr; vm_compute; reflexivity).
  destruct (moves_ok ex_lm c103_P c103_Q ex_draws c102_ops) as (s & t & w & A & B & C & D); [vm_compute; reflexivity|]. destruct ST as (S1 & S2).
  do 2 eexists. exists s, t, w. split; [exact S1|]. split; [exact S2|]. split; [exact I1|]. split; [exact I2|].
  split; [|auto 10]. pose proof (c102_ops_ok _ _ _ S1 I1) as O1. pose proof (c102_ops_ok _ _ _ S2 I2) as O2.
  apply Forall_forall. intros o Ho. rewrite Forall_forall in O1, O2. split; [|auto]. destruct Ho as [<-|[<-|[<-|[<-|[<-|[]]]]]]; exact I.
Qed.
(** No velocity and no discharge of the example is NaN. *)
Example C103_example_numbers : forall i j, 0 <= i < 10 -> 0 <= j < 9 ->
  nisnan (cell (gx_qx : arr f64) i j) = false /\ nisnan (cell (gx_qy : arr f64) i j) = false /\ nisnan (nmul (cell gx_qx i j) (cell (o_depth c103_P) i j)) = false /\
  nisnan (nmul (cell gx_qy i j) (cell (o_depth c103_P) i j)) = false.
Proof.
  assert (C : all_cells c103_P (fun i j => negb (nisnan (cell (gx_qx : arr f64) i j)) && negb (nisnan (cell (gx_qy : arr f64) i j)) && negb (nisnan (nmul (cell gx_qx i j) (cell (o_depth c103_P) i j))) &&
    negb (nisnan (nmul (cell gx_qy i j) (cell (o_depth c103_P) i j)))) = true) by (vm_compute; reflexivity).
  intros i j Hi Hj. pose proof (all_cells_ok _ _ C i j (conj Hi Hj)) as H. rewrite !andb_true_iff, !negb_true_iff in H. tauto.
Qed.
(** The exact theorem, in a film 0.1 mm deep, with a library whose square root is homogeneous. *)
Definition halfq : Qc := Q2Qc (1 # 2).
Lemma thin_slow : slow_down (Q2Qc (1 # 10000)) = halfq.
Proof. apply Qc_is_canon. vm_compute. reflexivity. Qed.
Lemma half_two x : times_k two (times_k halfq x) = x /\ times_k halfq (times_k two x) = x.
Proof.
  assert (P : (0 < halfq)%Qc) by reflexivity. destruct x as [|b|q]; [split; reflexivity | rewrite !(f_inf _ P), !(f_inf _ two_pos), ?(f_inf _ P); split; reflexivity|].
  rewrite !f_fin. split; f_equal; rewrite <- Qcmult_assoc; [replace (halfq * two)%Qc with 1%Qc | replace (two * halfq)%Qc with 1%Qc]; try ring; apply Qc_is_canon; reflexivity.
Qed.
Lemma fa_homogeneous_half : homogeneous fa_lm halfq.
Proof.
  destruct fa_homogeneous as (S & A). split.
  - intros x. specialize (S (times_k halfq (times_k halfq x))). rewrite (proj1 (half_two _)), (proj1 (half_two _)) in S. rewrite S. symmetry. apply half_two.
  - intros y x. specialize (A (times_k halfq y) (times_k halfq x)). rewrite !(proj1 (half_two _)) in A. symmetry. exact A.
Qed.
Definition c103_film : arr xq := Arr 10 9 (fun _ _ => XFin (Q2Qc (1 # 10000))).
Definition c103_u : arr xq := Arr 10 9 (fun i _ => XFin (Qcofz (1 + i))).
Definition c103_p : params xq :=
  {| p_dx := Some (nofZ 10); p_depth := Some c103_film; p_stage := Some gx_stage; p_topo := None; p_model := None; p_qx := None; p_qy := None; p_u := None; p_v := None;
     p_theta := Some n1; p_gamma := None; p_diff := None; p_dry := Some (ndec 1 5); p_ct := None; p_steep := None;
     p_dist := None; p_ivec := None; p_jvec := None; p_iwalk := None; p_jwalk := None; p_angles := None; p_roi := None; p_vars := None |}.
Definition c103_Px : pobj xq := fst (unerr (gx_none, gx_params) (init fa_lm (by_velocity c103_p None c103_u c103_u))).
Definition c103_Qx : pobj xq := fst (unerr (gx_none, gx_params) (init fa_lm (by_discharge c103_p None c103_u c103_u (o_depth c103_Px)))).
Definition floor_b (P : pobj xq) (x y : Z) : bool := nltb neps8 (nabs (cell (o_u P) x y)) && nltb neps8 (nabs (cell (o_v P) x y)) && nltb neps8 (cell (o_vel P) x y).
Lemma floor_b_ok P x y : floor_b P x y = true -> above_floor P x y.
Proof. unfold floor_b, above_floor. rewrite !andb_true_iff. tauto. Qed.
Example C103_example_exact : exists a b, init fa_lm (by_velocity c103_p None c103_u c103_u) = Ok (c103_Px, a) /\
  init fa_lm (by_discharge c103_p None c103_u c103_u (o_depth c103_Px)) = Ok (c103_Qx, b) /\
  (forall i j, nisfin (cell c103_u i j) = true /\ nisfin (cell (o_depth c103_Px) i j) = true) /\
  cell (o_depth c103_Px) 5 5 = XFin (Q2Qc (1 # 10000)) /\ homogeneous fa_lm (slow_down (Q2Qc (1 # 10000))) /\ above_floor c103_Px 5 5 /\ above_floor c103_Qx 5 5.
Proof.
  do 2 eexists. split; [unfold c103_Px; rewrite <- surjective_pairing; apply is_ok_unerr; vm_compute; reflexivity|].
  split; [unfold c103_Qx; rewrite <- surjective_pairing; apply is_ok_unerr; vm_compute; reflexivity|].
  assert (D : forall i j, cell (o_depth c103_Px) i j = XFin (Q2Qc (1 # 10000))) by (intros i j; reflexivity).
  split; [intros i j; rewrite D; split; reflexivity|]. split; [apply D|]. rewrite thin_slow. split; [exact fa_homogeneous_half|].
  split; apply floor_b_ok; vm_compute; reflexivity.
Qed.
(** ... but with a dry_depth of 0.01 mm, a film 0.1 mm deep is open water, and there the speed is halved: u is not qx/depth. *)
Theorem C103_thin_film_refuted :
  exists lm (p : params xq) u v P Q a b i j, init lm (by_velocity p None u v) = Ok (P, a) /\ init lm (by_discharge p None u v (o_depth P)) = Ok (Q, b) /\
    nltb (o_dry P) (cell (o_depth P) i j) = true /\ cell (o_ct P) i j = 0 /\ nltb n0 (cell (o_vel P) i j) = true /\ cell (o_vel Q) i j = nmul (cell (o_vel P) i j) nhalf.
Proof.
  destruct C103_example_exact as (a & b & I1 & I2 & FI & D & HO & A & B). exists fa_lm, c103_p, c103_u, c103_u, c103_Px, c103_Qx, a, b, 5, 5.
  split; [exact I1|]. split; [exact I2|]. split; [vm_compute; reflexivity|]. split; [vm_compute; reflexivity|]. split; [vm_compute; reflexivity|].
  destruct (C103_speeds_exact fa_lm c103_p None c103_u c103_u c103_Px c103_Qx a b I1 I2 eq_refl eq_refl) as (_ & S); [intros i j _ _; destruct (FI i j) as (X & Y); split; [exact X | split; [exact X | exact Y]]|].
  destruct (S 5 5 _ ltac:(cbn; lia) ltac:(cbn; lia) D ltac:(reflexivity) HO A B) as (-> & _). rewrite thin_slow. reflexivity.
Qed.
Print Assumptions C103_thin_film_refuted.

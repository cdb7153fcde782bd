(** Constructing twice from one parameter object. *)
From Coq Require Import ZArith Bool String List Lia.
From Verif Require Import Num Py NumFacts NumMore Walker ParticleTrack SpecWeights SpecInit SpecWalk ProofInit.
Import ListNotations.
Open Scope Z_scope.
Open Scope res_scope.

Section S.
Context {T : Type} {N : Num T} {NL : NumLaws T} {NM : NumMore T}.

Lemma nanz_idem (x : T) : nanz (nanz x) = nanz x.
Proof. apply nanz_id, nanz_notnan. Qed.
Lemma same_refl {A} (a : arr A) : same_arr a a.
Proof. split; [|split]; reflexivity. Qed.
Lemma same_amap {A B} (f : A -> B) a b : same_arr a b -> same_arr (amap f a) (amap f b).
Proof. intros (R & C & E). split; [exact R|]. split; [exact C|]. intros i j. cbn [amap cell]. rewrite E. reflexivity. Qed.
Lemma same_amap2 {A B C} (f : A -> B -> C) a a' b b' : same_arr a a' -> same_arr b b' -> same_arr (amap2 f a b) (amap2 f a' b').
Proof. intros (R & D & E) (_ & _ & E'). split; [exact R|]. split; [exact D|]. intros i j. cbn [amap2 cell]. rewrite E, E'. reflexivity. Qed.
Lemma same_nan0 (a : arr T) : same_arr (nan_to_0 a) (nan_to_0 (nan_to_0 a)).
Proof. split; [|split]; try reflexivity. intros i j. symmetry. apply nanz_idem. Qed.
Lemma str_in_snoc v l : str_in v (l ++ [v]) = true.
Proof. unfold str_in. rewrite existsb_app. cbn [existsb]. rewrite String.eqb_refl. rewrite orb_true_r. reflexivity. Qed.

Definition init_dry (p : params T) : T := dflt (p_dry p) ntenth.
Lemma init_diff_twice (p : params T) (p' : params T) : p_diff p' = match p_diff p with Some _ => Some (init_diff p) | None => None end ->
  p_steep p' = p_steep p -> init_diff p' = init_diff p.
Proof.
  intros E S. unfold init_diff at 1. rewrite E. destruct (p_diff p) as [d|] eqn:Q; [|rewrite S; unfold init_diff; rewrite Q; reflexivity].
  unfold init_diff. rewrite Q. destruct (nltb d n0) eqn:C; [rewrite lt_irrefl; reflexivity | rewrite C; reflexivity].
Qed.
Lemma init_vars_twice (p : params T) (p' : params T) : p_vars p' = match p_vars p with Some _ => Some (init_vars p) | None => None end ->
  p_roi p' = p_roi p -> init_vars p' = init_vars p.
Proof.
  intros E S. unfold init_vars at 1. rewrite E, S. destruct (p_vars p) as [l|] eqn:Q; [|unfold init_vars; rewrite Q; reflexivity].
  cbn [dflt]. unfold init_vars. rewrite Q. cbn [dflt]. destruct (p_roi p); [|reflexivity].
  destruct (str_in "roi_flag" l) eqn:C; [rewrite C; reflexivity | rewrite str_in_snoc; reflexivity].
Qed.

(* the depth and stage of a second construction *)
Lemma second_depth (p p' : params T) d pd s ps : no_negative_zero p ->
  init_depth p = Ok (d, pd) -> init_stage p d pd = Ok (s, ps) ->
  p_depth p' = pd -> p_stage p' = ps -> p_topo p' = p_topo p ->
  exists d' pd' s' ps', init_depth p' = Ok (d', pd') /\ init_stage p' d' pd' = Ok (s', ps') /\ same_arr d d' /\ same_arr s s'.
Proof.
  intros NZ D S ED ES ET. destruct (depth_cases p) as [(d0 & E & Q)|[(E & s0 & t0 & E1 & E2 & Q)|(E & E1 & Q)]]; rewrite Q in D; try discriminate; injection D as <- <-.
  - unfold init_depth. rewrite ED. unfold init_stage in S |- *. rewrite ES, ET. destruct (p_stage p) as [s0|] eqn:PS.
    + injection S as <- <-. do 4 eexists. split; [reflexivity|]. split; [reflexivity|]. split; [apply same_nan0|].
      split; [|split]; try reflexivity. intros i j. cbn [dry_to_nan amap2 cell nan_to_0 amap]. rewrite nanz_idem. destruct (neqb _ _); reflexivity.
    + destruct (p_topo p) as [t|]; [|discriminate]. injection S as <- <-. do 4 eexists. split; [reflexivity|]. split; [reflexivity|]. split; [apply same_nan0|].
      split; [|split]; try reflexivity. intros i j. cbn [dry_to_nan amap2 cell nan_to_0 amap]. rewrite nanz_idem. reflexivity.
  - unfold init_stage in S. rewrite E1 in S. injection S as <- <-.
    unfold init_depth, init_stage. rewrite ED, ES, ET, E2. do 4 eexists. split; [reflexivity|]. split; [reflexivity|].
    match goal with |- same_arr ?a ?b /\ _ => assert (SD : same_arr a b) end.
    { split; [reflexivity|]. split; [reflexivity|]. intros i j. cbn [nan_to_0 amap amap2 cell dry_to_nan].
      set (x := nsub (cell s0 i j) (cell t0 i j)).
      destruct (neqb (nanz (if nltb x n0 then n0 else x)) n0) eqn:C; [|reflexivity].
      assert (NN : nisnan (nsub nnan (cell t0 i j)) = true) by apply sub_nan_l.
      assert (NL0 : nltb (nsub nnan (cell t0 i j)) n0 = false).
      { destruct (nltb _ _) eqn:Q1 in |- *; [|reflexivity]. rewrite (lt_nan_l _ _ Q1) in NN. discriminate. }
      rewrite NL0. unfold nanz at 2. rewrite NN.
      destruct (nltb x n0) eqn:L; [apply nanz_id, n0_notnan|].
      unfold nanz in *. destruct (nisnan x) eqn:NX; [reflexivity|]. apply (NZ s0 t0 i j E E1 E2). exact C. }
    split; [exact SD|]. destruct SD as (_ & _ & SD). split; [|split]; try reflexivity. intros i j. specialize (SD i j).
    cbn [dry_to_nan amap2 cell nan_to_0 amap] in SD |- *. rewrite <- SD. destruct (neqb _ _); reflexivity.
Qed.

Lemma second_flow (p p' : params T) d d' f qx qy : p_qx p = Some qx -> p_qy p = Some qy -> p_model p' = p_model p ->
  init_flow p d = Ok f -> p_qx p' = f_pqx f -> p_qy p' = f_pqy f -> same_arr d d' ->
  exists f', init_flow p' d' = Ok f' /\ same_arr (f_qx f) (f_qx f') /\ same_arr (f_qy f) (f_qy f') /\
             same_arr (f_u f) (f_u f') /\ same_arr (f_v f) (f_v f').
Proof.
  intros QX QY MO F PX PY SD. unfold init_flow in F |- *. unfold is_deltarcm in F |- *. rewrite MO, PX, PY.
  assert (VQ : forall q q', same_arr q q' -> same_arr (vel_of_q q d) (vel_of_q q' d')).
  { intros q q' S. unfold vel_of_q, nan_to_0. apply same_amap, same_amap2; assumption. }
  rewrite QX, QY in F. match goal with |- context [if ?b then _ else _] => destruct b end; injection F as <-; cbn [f_pqx f_pqy f_qx f_qy f_u f_v].
  - eexists. split; [reflexivity|]. cbn [f_pqx f_pqy f_qx f_qy f_u f_v].
    split; [apply same_nan0|]. split; [apply same_nan0|]. split; apply VQ, same_nan0.
  - eexists. split; [reflexivity|]. cbn [f_pqx f_pqy f_qx f_qy f_u f_v].
    split; [apply same_refl|]. split; [apply same_nan0|]. split; apply VQ; [apply same_refl | apply same_nan0].
Qed.

Lemma construct_twice lm (p : params T) P p' qx qy : p_qx p = Some qx -> p_qy p = Some qy -> no_negative_zero p ->
  init lm p = Ok (P, p') -> exists P2 p2, init lm p' = Ok (P2, p2) /\ same_obj P P2.
Proof.
  intros QX QY NZ H. unfold init in H. destruct (p_dx p) as [dx|] eqn:DX; [|discriminate].
  destruct (init_depth p) as [(depth, pd)|] eqn:D; [|discriminate]. cbn [bind] in H.
  destruct (init_stage p depth pd) as [(stage, ps)|] eqn:S; [|discriminate]. cbn [bind] in H.
  destruct (init_flow p depth) as [f|] eqn:F; [|discriminate]. cbn [bind] in H.
  destruct (match p_roi p with Some roi => if (nrow roi =? nrow depth) && (ncol roi =? ncol depth) then Ok tt else Err ValueError | None => Ok tt end) as [[]|] eqn:R; [|discriminate].
  cbn [bind] in H. injection H as HP HP'.
  destruct (second_depth p p' depth pd stage ps NZ D S) as (d' & pd' & s' & ps' & D' & S' & SD & SS); try (rewrite <- HP'; reflexivity).
  destruct (second_flow p p' depth d' f qx qy QX QY) as (f' & F' & FQX & FQY & FU & FV); try assumption; try (rewrite <- HP'; reflexivity).
  unfold init. rewrite D'. cbn [bind]. rewrite S'. cbn [bind]. rewrite F'. cbn [bind].
  assert (DX' : p_dx p' = Some dx) by (rewrite <- HP'; reflexivity). rewrite DX'.
  assert (R' : p_roi p' = p_roi p) by (rewrite <- HP'; reflexivity). rewrite R'.
  assert (SD' := SD). destruct SD' as (SD1 & SD2 & _). rewrite SD1, SD2 in R. rewrite R. cbn [bind].
  do 2 eexists. split; [reflexivity|]. subst P. unfold same_obj. cbn [o_dx o_depth o_stage o_qx o_qy o_u o_v o_vel o_vang o_ct o_theta o_gamma o_diff o_dry o_steep o_dist o_ivec o_jvec o_iwalk o_jwalk o_angles o_roi o_vars].
  assert (EDR : p_dry p' = p_dry p) by (rewrite <- HP'; reflexivity).
  assert (ECT : p_ct p' = p_ct p) by (rewrite <- HP'; reflexivity).
  assert (EV : init_vars p' = init_vars p) by (apply init_vars_twice; rewrite <- HP'; reflexivity).
  assert (ED : init_diff p' = init_diff p) by (apply init_diff_twice; rewrite <- HP'; reflexivity).
  rewrite EV, ED, EDR, ECT.
  split; [reflexivity|]. split; [exact SD|]. split; [exact SS|]. split; [exact FQX|]. split; [exact FQY|].
  split; [apply same_amap, FU|]. split; [apply same_amap, FV|]. split; [apply same_amap, same_amap2; assumption|].
  split; [apply same_amap2; apply same_amap; assumption|].
  split.
  { destruct (p_ct p); [apply same_refl|]. cbn [dflt]. unfold default_ct.
    destruct SD as (A & B & C). split; [|split].
    - cbn [np_pad1 np_inner amap nrow]. rewrite A. reflexivity.
    - cbn [np_pad1 np_inner amap ncol]. rewrite B. reflexivity.
    - intros i j. cbn [np_pad1 np_inner amap cell nrow ncol]. rewrite A, B, C. reflexivity. }
  rewrite <- HP'. cbn [p_theta p_gamma p_dry p_steep p_dist p_ivec p_jvec p_iwalk p_jwalk p_angles p_roi].
  repeat (split; [reflexivity|]). reflexivity.
Qed.
End S.

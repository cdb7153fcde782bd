(** The constructor. *)
From Coq Require Import ZArith Bool String List Lia.
From Verif Require Import Num Py NumFacts NumMore Walker ParticleTrack SpecWeights SpecInit SpecWalk.
Import ListNotations.
Open Scope Z_scope.
Open Scope res_scope.

Section S.
Context {T : Type} {N : Num T}.

(** C34 *)
Lemma depth_cases (p : params T) :
  (exists d, p_depth p = Some d /\ init_depth p = Ok (nan_to_0 d, Some (nan_to_0 d))) \/
  (p_depth p = None /\ exists s t, p_stage p = Some s /\ p_topo p = Some t /\
     init_depth p = Ok (nan_to_0 (amap (fun x => if nltb x n0 then n0 else x) (amap2 nsub s t)), None)) \/
  (p_depth p = None /\ (p_stage p = None \/ p_topo p = None) /\ init_depth p = Err ValueError).
Proof.
  unfold init_depth. destruct (p_depth p) as [d|]; [left; eauto|].
  destruct (p_stage p) as [s|]; [|right; right; auto]. destruct (p_topo p) as [t|]; [|right; right; auto].
  right. left. split; [reflexivity|]. exists s, t. auto.
Qed.
Lemma flow_cases (p : params T) d : (has_flow p /\ exists f, init_flow p d = Ok f) \/ (~ has_flow p /\ init_flow p d = Err ValueError).
Proof.
  unfold init_flow, has_flow, given.
  destruct (is_deltarcm p), (p_qx p), (p_qy p), (p_u p), (p_v p);
    ((left; split; [(left; split; eexists; reflexivity) || (right; split; eexists; reflexivity) | eexists; reflexivity]) ||
     (right; split; [|reflexivity]; intros [((? & E1) & (? & E2))|((? & E1) & (? & E2))]; discriminate)).
Qed.
Lemma depth_shape L W (p : params T) d pd : shaped_params L W p -> init_depth p = Ok (d, pd) -> nrow d = L /\ ncol d = W.
Proof.
  intros (_ & _ & D & S & Tp & _) H. destruct (depth_cases p) as [(d0 & E & Q)|[(_ & s & t & E1 & E2 & Q)|(_ & _ & Q)]]; rewrite Q in H; try discriminate; injection H as <- <-.
  - exact (D _ E).
  - exact (S _ E1).
Qed.

Lemma init_accepts lm L W (p : params T) : shaped_params L W p ->
  ((exists P p', init lm p = Ok (P, p')) <-> acceptable L W p) /\
  (forall e, init lm p = Err e -> e = ValueError).
Proof.
  intros SH. unfold init, acceptable.
  destruct (p_dx p) as [dx|] eqn:DX; [|split; [split; [intros (? & ? & ?); discriminate | intros ((? & ?) & _); discriminate] | intros e E; congruence]].
  destruct (depth_cases p) as [(d & E & Q)|[(E & s & t & E1 & E2 & Q)|(E & E1 & Q)]].
  - rewrite Q. cbn [bind]. unfold init_stage.
    destruct (p_stage p) as [s|] eqn:ST.
    + cbn [bind]. destruct (flow_cases p (nan_to_0 d)) as [(HF & f & F)|(HF & F)]; rewrite F; cbn [bind].
      * destruct (p_roi p) as [roi|] eqn:R.
        -- destruct SH as (_ & _ & SD & _). destruct (SD _ E) as (EL & EW).
           change (nrow (nan_to_0 d)) with (nrow d). change (ncol (nan_to_0 d)) with (ncol d). rewrite EL, EW.
           destruct ((nrow roi =? L) && (ncol roi =? W)) eqn:C; cbn [bind].
           ++ split; [|intros; discriminate]. split; [|intros; eauto]. intros _. apply andb_true_iff in C as (C1 & C2). apply Z.eqb_eq in C1, C2.
              split; [eexists; reflexivity|]. split; [left; rewrite E, ST; split; eexists; reflexivity|]. split; [exact HF|]. intros a H; injection H as <-. auto.
           ++ split; [|intros; congruence]. split; [intros (? & ? & ?); discriminate|]. intros (_ & _ & _ & SR). destruct (SR _ eq_refl) as (C1 & C2).
              rewrite C1, C2, !Z.eqb_refl in C. discriminate.
        -- cbn [bind]. split; [|intros; discriminate]. split; [|intros; eauto]. intros _.
           split; [eexists; reflexivity|]. split; [left; rewrite E, ST; split; eexists; reflexivity|]. split; [exact HF|]. intros a H; discriminate.
      * split; [|intros; congruence]. split; [intros (? & ? & ?); discriminate|]. intros (_ & _ & H & _). contradiction.
    + destruct (p_topo p) as [t|] eqn:TP.
      * cbn [bind]. destruct (flow_cases p (nan_to_0 d)) as [(HF & f & F)|(HF & F)]; rewrite F; cbn [bind].
        -- destruct (p_roi p) as [roi|] eqn:R.
           ++ destruct SH as (_ & _ & SD & _). destruct (SD _ E) as (EL & EW).
              change (nrow (nan_to_0 d)) with (nrow d). change (ncol (nan_to_0 d)) with (ncol d). rewrite EL, EW.
              destruct ((nrow roi =? L) && (ncol roi =? W)) eqn:C; cbn [bind].
              ** split; [|intros; discriminate]. split; [|intros; eauto]. intros _. apply andb_true_iff in C as (C1 & C2). apply Z.eqb_eq in C1, C2.
                 split; [eexists; reflexivity|]. split; [right; left; rewrite E, TP; split; eexists; reflexivity|]. split; [exact HF|]. intros a H; injection H as <-. auto.
              ** split; [|intros; congruence]. split; [intros (? & ? & ?); discriminate|]. intros (_ & _ & _ & SR). destruct (SR _ eq_refl) as (C1 & C2).
                 rewrite C1, C2, !Z.eqb_refl in C. discriminate.
           ++ cbn [bind]. split; [|intros; discriminate]. split; [|intros; eauto]. intros _.
              split; [eexists; reflexivity|]. split; [right; left; rewrite E, TP; split; eexists; reflexivity|]. split; [exact HF|]. intros a H; discriminate.
        -- split; [|intros; congruence]. split; [intros (? & ? & ?); discriminate|]. intros (_ & _ & H & _). contradiction.
      * cbn [bind]. split; [|intros; congruence]. split; [intros (? & ? & ?); discriminate|].
        intros (_ & [(_ & (? & C))|[(_ & (? & C))|((? & C) & _)]] & _); rewrite ?ST, ?TP in C; discriminate.
  - rewrite Q. cbn [bind]. unfold init_stage. rewrite E1. cbn [bind].
    match goal with |- context [init_flow p ?dd] => set (dd0 := dd) end.
    destruct (flow_cases p dd0) as [(HF & f & F)|(HF & F)]; rewrite F; cbn [bind].
    + destruct (p_roi p) as [roi|] eqn:R.
      * destruct SH as (_ & _ & _ & SS & _). destruct (SS _ E1) as (EL & EW).
        change (nrow dd0) with (nrow s). change (ncol dd0) with (ncol s). rewrite EL, EW.
        destruct ((nrow roi =? L) && (ncol roi =? W)) eqn:C; cbn [bind].
        -- split; [|intros; discriminate]. split; [|intros; eauto]. intros _. apply andb_true_iff in C as (C1 & C2). apply Z.eqb_eq in C1, C2.
           split; [eexists; reflexivity|]. split; [right; right; rewrite E1, E2; split; eexists; reflexivity|]. split; [exact HF|]. intros a H; injection H as <-. auto.
        -- split; [|intros; congruence]. split; [intros (? & ? & ?); discriminate|]. intros (_ & _ & _ & SR). destruct (SR _ eq_refl) as (C1 & C2).
           rewrite C1, C2, !Z.eqb_refl in C. discriminate.
      * cbn [bind]. split; [|intros; discriminate]. split; [|intros; eauto]. intros _.
        split; [eexists; reflexivity|]. split; [right; right; rewrite E1, E2; split; eexists; reflexivity|]. split; [exact HF|]. intros a H; discriminate.
    + split; [|intros; congruence]. split; [intros (? & ? & ?); discriminate|]. intros (_ & _ & H & _). contradiction.
  - rewrite Q. cbn [bind]. split; [|intros; congruence]. split; [intros (? & ? & ?); discriminate|].
    intros (_ & [((? & C) & _)|[((? & C) & _)|((? & C1) & (? & C2))]] & _); [congruence | congruence |]. destruct E1; congruence.
Qed.

(** the parts of a successful construction *)
Lemma init_ok lm (p : params T) P p' : init lm p = Ok (P, p') ->
  exists dx depth pd stage ps f, p_dx p = Some dx /\ init_depth p = Ok (depth, pd) /\ init_stage p depth pd = Ok (stage, ps) /\
    init_flow p depth = Ok f /\ (forall roi, p_roi p = Some roi -> nrow roi = nrow depth /\ ncol roi = ncol depth) /\
    o_dx P = dx /\ o_depth P = depth /\ o_stage P = stage /\ o_qx P = f_qx f /\ o_qy P = f_qy f /\
    o_u P = amap floor_comp (f_u f) /\ o_v P = amap floor_comp (f_v f) /\
    o_vel P = amap floor_vel (amap2 (fun u v => m_sqrt lm (nadd (nmul u u) (nmul v v))) (f_u f) (f_v f)) /\
    o_vang P = amap2 (fun u v => m_atan2 lm (nmul (nofZ (-1)) u) v) (amap floor_comp (f_u f)) (amap floor_comp (f_v f)) /\
    o_theta P = dflt (p_theta p) n1 /\ o_gamma P = dflt (p_gamma p) (ndec 5 2) /\ o_diff P = init_diff p /\
    o_dry P = dflt (p_dry p) ntenth /\ o_ct P = dflt (p_ct p) (default_ct depth (dflt (p_dry p) ntenth)) /\
    o_steep P = dflt (p_steep p) false /\ o_dist P = dflt (p_dist p) (default_dist lm) /\
    o_ivec P = dflt (p_ivec p) (default_ivec lm) /\ o_jvec P = dflt (p_jvec p) (default_jvec lm) /\
    o_iwalk P = dflt (p_iwalk p) default_iwalk /\ o_jwalk P = dflt (p_jwalk p) default_jwalk /\
    o_angles P = dflt (p_angles p) default_angles /\ o_roi P = p_roi p /\ o_vars P = init_vars p.
Proof.
  unfold init. intros H. destruct (p_dx p) as [dx|] eqn:DX; [|discriminate].
  destruct (init_depth p) as [(depth, pd)|] eqn:D; [|discriminate]. cbn [bind] in H.
  destruct (init_stage p depth pd) as [(stage, ps)|] eqn:S; [|discriminate]. cbn [bind] in H.
  destruct (init_flow p depth) as [f|] eqn:F; [|discriminate]. cbn [bind] in H.
  exists dx, depth, pd, stage, ps, f.
  destruct (p_roi p) as [roi|] eqn:R.
  - destruct ((nrow roi =? nrow depth) && (ncol roi =? ncol depth)) eqn:C; [|discriminate]. cbn [bind] in H. injection H as <- <-.
    apply andb_true_iff in C as (C1 & C2). apply Z.eqb_eq in C1, C2.
    repeat (split; [reflexivity || assumption || (intros r Q; injection Q as <-; auto)|]). reflexivity.
  - cbn [bind] in H. injection H as <- <-.
    repeat (split; [reflexivity || assumption || (intros r Q; discriminate)|]). reflexivity.
Qed.

Lemma flow_shape L W (p : params T) d f : shaped_params L W p -> nrow d = L -> ncol d = W -> init_flow p d = Ok f ->
  (nrow (f_qx f) = L /\ ncol (f_qx f) = W) /\ (nrow (f_qy f) = L /\ ncol (f_qy f) = W) /\
  (nrow (f_u f) = L /\ ncol (f_u f) = W) /\ (nrow (f_v f) = L /\ ncol (f_v f) = W).
Proof.
  intros (_ & _ & _ & _ & _ & QX & QY & U & V & _) DL DW. unfold init_flow.
  destruct (is_deltarcm p), (p_qx p) as [qx|], (p_qy p) as [qy|], (p_u p) as [u|], (p_v p) as [v|]; intros H; try discriminate; injection H as <-;
  cbn [f_qx f_qy f_u f_v nrow ncol nan_to_0 amap amap2 neg1 vel_of_q];
  try specialize (QX _ eq_refl); try specialize (QY _ eq_refl); try specialize (U _ eq_refl); try specialize (V _ eq_refl); tauto.
Qed.
Lemma stage_shape L W (p : params T) d pd s ps : shaped_params L W p -> nrow d = L -> ncol d = W -> init_stage p d pd = Ok (s, ps) ->
  nrow s = L /\ ncol s = W.
Proof.
  intros SH DL DW. unfold init_stage. destruct (p_stage p); [|destruct (p_topo p), pd]; intros H; try discriminate; injection H as <- <-;
  cbn [nrow ncol dry_to_nan amap2]; auto.
Qed.
Lemma default_ct_shape (d : arr T) dry : 2 <= nrow d -> 2 <= ncol d ->
  nrow (default_ct d dry) = nrow d /\ ncol (default_ct d dry) = ncol d.
Proof. intros. unfold default_ct, np_pad1, np_inner, amap. cbn [nrow ncol]. lia. Qed.

Lemma init_wf lm L W (p : params T) P p' : shaped_params L W p -> init lm p = Ok (P, p') ->
  wf_obj P /\ nrow (o_depth P) = L /\ ncol (o_depth P) = W.
Proof.
  intros SH H. destruct (init_ok lm p P p' H) as (dx & depth & pd & stage & ps & f & DX & D & S & F & R & E).
  destruct E as (_ & ED & ES & EQX & EQY & EU & EV & EVEL & EVANG & _ & _ & _ & _ & ECT & _ & EDI & EIV & EJV & EIW & EJW & EAN & ER & _).
  destruct (depth_shape L W p depth pd SH D) as (DL & DW).
  destruct (flow_shape L W p depth f SH DL DW F) as (FQX & FQY & FU & FV).
  destruct (stage_shape L W p depth pd stage ps SH DL DW S) as (SL & SW).
  assert (SH' := SH). destruct SH' as (L2 & W2 & _ & _ & _ & _ & _ & _ & _ & CT & T1 & T2 & T3 & T4 & T5 & T6).
  split; [|rewrite ED; auto]. unfold wf_obj. rewrite ED, ES, EQX, EQY, EU, EV, EVEL, EVANG, ECT, EDI, EIV, EJV, EIW, EJW, EAN, ER.
  cbn [nrow ncol amap amap2]. rewrite DL, DW.
  split; [auto|]. split; [auto|]. split; [auto|]. split; [auto|]. split; [auto|]. split; [auto|]. split; [auto|]. split.
  { destruct (p_ct p) as [ct|] eqn:C; [exact (CT _ eq_refl)|]. cbn [dflt]. destruct (default_ct_shape depth (dflt (p_dry p) ntenth)) as (A & B); lia. }
  split; [destruct (p_dist p); [apply T1|]; reflexivity|].
  split; [destruct (p_ivec p); [apply T2|]; reflexivity|].
  split; [destruct (p_jvec p); [apply T3|]; reflexivity|].
  split; [destruct (p_iwalk p); [apply T4|]; reflexivity|].
  split; [destruct (p_jwalk p); [apply T5|]; reflexivity|].
  split; [destruct (p_angles p); [apply T6|]; reflexivity|].
  intros roi Q. destruct (R roi Q). lia.
Qed.

(** C37 *)
Lemma default_ct_cell (d : arr T) dry i j : 2 <= nrow d -> 2 <= ncol d -> 0 <= i < nrow d -> 0 <= j < ncol d ->
  cell (default_ct d dry) i j =
  if (i =? 0) || (j =? 0) || (i =? nrow d - 1) || (j =? ncol d - 1) then -1 else if nltb (cell d i j) dry then 2 else 0.
Proof.
  intros L2 W2 Hi Hj. unfold default_ct, np_pad1, np_inner, amap. cbn [nrow ncol cell].
  replace (i - 1 + 1) with i by lia. replace (j - 1 + 1) with j by lia.
  destruct (Z.eqb_spec i 0), (Z.eqb_spec j 0), (Z.eqb_spec i (nrow d - 1)), (Z.eqb_spec j (ncol d - 1)); cbn [orb];
  destruct (Z.leb_spec 1 i), (Z.leb_spec 1 j), (Z.ltb_spec i (Z.max 0 (nrow d - 2) + 1)), (Z.ltb_spec j (Z.max 0 (ncol d - 2) + 1)); cbn [andb]; try lia; reflexivity.
Qed.
Lemma init_cell_types lm L W (p : params T) P p' i j : shaped_params L W p -> p_ct p = None -> init lm p = Ok (P, p') ->
  0 <= i < L -> 0 <= j < W ->
  cell (o_ct P) i j = if (i =? 0) || (j =? 0) || (i =? L - 1) || (j =? W - 1) then -1
                      else if nltb (cell (o_depth P) i j) (o_dry P) then 2 else 0.
Proof.
  intros SH CT H Hi Hj. destruct (init_wf lm L W p P p' SH H) as (_ & DL & DW).
  destruct (init_ok lm p P p' H) as (dx & depth & pd & stage & ps & f & DX & D & S & F & R & E).
  destruct E as (_ & ED & ES & EQX & EQY & EU & EV & EVEL & EVANG & _ & _ & _ & EDR & ECT & _). rewrite ECT, CT, EDR. cbn [dflt].
  rewrite ED in *. destruct SH as (L2 & W2 & _). rewrite default_ct_cell by lia. rewrite DL, DW. reflexivity.
Qed.

(** C36 *)
Context {NL : NumLaws T}.
Lemma init_depth_clean lm (p : params T) P p' i j : init lm p = Ok (P, p') ->
  nisnan (cell (o_depth P) i j) = false /\
  (p_depth p = None -> nn (cell (o_depth P) i j)) /\
  (forall d, p_depth p = Some d -> cell (o_depth P) i j = if nisnan (cell d i j) then n0 else cell d i j) /\
  (forall s t, p_depth p = None -> p_stage p = Some s -> p_topo p = Some t ->
     cell (o_depth P) i j = let x := nsub (cell s i j) (cell t i j) in
                            if nisnan x then n0 else if nltb x n0 then n0 else x).
Proof.
  intros H. destruct (init_ok lm p P p' H) as (dx & depth & pd & stage & ps & f & DX & D & S & F & R & E).
  destruct E as (_ & ED & _). rewrite ED. destruct (depth_cases p) as [(d & E & Q)|[(E & s & t & E1 & E2 & Q)|(E & E1 & Q)]]; rewrite Q in D; try discriminate; injection D as <- <-.
  - split; [apply nanz_notnan|]. split; [congruence|]. split; [|congruence]. intros d0 E0. rewrite E in E0. injection E0 as <-. reflexivity.
  - split; [apply nanz_notnan|]. split; [|split; [congruence|]].
    + intros _. cbn [cell nan_to_0 amap amap2]. set (x := nsub _ _). unfold nanz. destruct (nltb x n0) eqn:C.
      * rewrite n0_notnan. apply nn_n0.
      * destruct (nisnan x) eqn:NX; [apply nn_n0 | apply notneg_nn; assumption].
    + intros s0 t0 _ Q1 Q2. rewrite E1 in Q1. rewrite E2 in Q2. injection Q1 as <-. injection Q2 as <-. cbn [cell nan_to_0 amap amap2]. set (x := nsub _ _).
      cbv zeta. unfold nanz. destruct (nltb x n0) eqn:C.
      * rewrite n0_notnan. rewrite (lt_nan_l _ _ C). reflexivity.
      * destruct (nisnan x); reflexivity.
Qed.
Lemma init_stage_clean lm (p : params T) P p' i j : init lm p = Ok (P, p') ->
  (neqb (cell (o_depth P) i j) n0 = true -> cell (o_stage P) i j = nnan) /\
  (neqb (cell (o_depth P) i j) n0 = false -> forall s, p_stage p = Some s -> cell (o_stage P) i j = cell s i j) /\
  (neqb (cell (o_depth P) i j) n0 = false -> p_stage p = None -> forall t d, p_topo p = Some t -> p_depth p = Some d ->
     cell (o_stage P) i j = nadd (cell t i j) (cell (o_depth P) i j)).
Proof.
  intros H. destruct (init_ok lm p P p' H) as (dx & depth & pd & stage & ps & f & DX & D & S & F & R & E).
  destruct E as (_ & ED & ES & _). rewrite ED, ES. unfold init_stage in S. destruct (p_stage p) as [s0|] eqn:ST.
  - injection S as <- <-. cbn [dry_to_nan amap2 cell]. split; [intros ->; reflexivity|]. split; [|intros _ C; discriminate].
    intros -> s Q. injection Q as <-. reflexivity.
  - destruct (p_topo p) as [t0|] eqn:TP; [|discriminate]. destruct pd as [d0|] eqn:PD; [|discriminate]. injection S as <- <-. cbn [dry_to_nan amap2 cell].
    split; [intros ->; reflexivity|]. split; [discriminate|]. intros -> _ t d Q1 Q2. injection Q1 as <-.
    destruct (depth_cases p) as [(d1 & E & Q)|[(E & s & t & E1 & E2 & Q)|(E & E1 & Q)]]; rewrite Q in D; try discriminate. injection D as <- <-. reflexivity.
Qed.

(** C35 *)
Context {NM : NumMore T}.
Lemma flow_clean (p : params T) d f i j : init_flow p d = Ok f -> nisnan (cell (f_u f) i j) = false /\ nisnan (cell (f_v f) i j) = false.
Proof.
  unfold init_flow.
  destruct (is_deltarcm p), (p_qx p) as [qx|], (p_qy p) as [qy|], (p_u p) as [u|], (p_v p) as [v|]; intros H; try discriminate; injection H as <-;
  cbn [f_u f_v]; unfold vel_of_q; split; apply nanz_notnan.
Qed.
Lemma init_velocity lm (p : params T) P p' i j : sqrt_ok lm -> init lm p = Ok (P, p') ->
  nleb neps8 (cell (o_vel P) i j) = true /\
  nleb neps8 (nabs (cell (o_u P) i j)) = true /\ nleb neps8 (nabs (cell (o_v P) i j)) = true.
Proof.
  intros (_ & _ & SQ) H. destruct (init_ok lm p P p' H) as (dx & depth & pd & stage & ps & f & DX & D & S & F & R & E).
  destruct E as (_ & _ & _ & _ & _ & EU & EV & EVEL & _). rewrite EU, EV, EVEL. cbn [cell amap amap2].
  destruct (flow_clean p depth f i j F) as (NU & NV). 
  destruct (@eps8_ok T N NL) as (PE & FE & E1).
  assert (EN : nisnan (neps8 : T) = false) by (apply fin_notnan, FE).
  assert (FC : forall x, nisnan x = false -> nleb neps8 (nabs (floor_comp x)) = true).
  { intros x Nx. unfold floor_comp. destruct (nltb (nabs x) neps8) eqn:C.
    - assert (Q : nleb (nabs neps8) neps8 = true \/ nleb neps8 (nabs neps8) = true).
      { apply leb_total; [rewrite abs_nan; exact EN | exact EN]. }
      destruct (nleb neps8 (nabs neps8)) eqn:Q1; [reflexivity|]. exfalso.
      destruct Q as [Q|Q]; [|discriminate]. clear Q. pose proof (abs_pos_id neps8 PE) as Q. rewrite Q in Q1.
      rewrite leb_refl in Q1 by exact EN. discriminate.
    - apply not_lt_le; [rewrite abs_nan; exact Nx | exact EN | exact C]. }
  split; [|split; apply FC; assumption].
  unfold floor_vel. match goal with |- context [nltb ?x neps8] => destruct (nltb x neps8) eqn:C end; [apply leb_refl, EN|].
  apply not_lt_le; [|exact EN|exact C]. apply SQ. apply nn_add; apply sq_nn; assumption.
Qed.

(** the default set-up satisfies the conditions of the motion theorems *)
Lemma gamma_default : nleb (n0 : T) (ndec 5 2) = true /\ nleb (ndec 5 2 : T) n1 = true.
Proof.
  unfold ndec. destruct (div_share (nofZ 5 : T) (nofZ (10 ^ 2))) as (A & B).
  - apply ofZ_lt; lia. - apply ofZ_le. lia. - apply ofZ_fin. lia.
  - split; [|exact A]. destruct B as [->|B]; [apply nn_n0 | apply lt_le, B].
Qed.
Lemma standard_field_ok lm L W (p : params T) P p' : standard lm L W p -> init lm p = Ok (P, p') ->
  field_ok lm P /\ nrow (o_depth P) = L /\ ncol (o_depth P) = W /\ depth_clean P.
Proof.
  intros (SH & L3 & W3 & (TD & TI & TJ & TIW & TJW & TA) & RG & GA & PW & (SQ1 & SQF & SQ) & DXZ) H.
  destruct (init_wf lm L W p P p' SH H) as (WF & DL & DW).
  assert (DC : depth_clean P) by (intros i j _; apply (init_depth_clean lm p P p' i j H)).
  split; [|auto]. assert (H' := H).
  destruct (init_ok lm p P p' H) as (dx & depth & pd & stage & ps & f & DX & D & S & F & R & E).
  destruct E as (EDX & ED & ES & EQX & EQY & EU & EV & EVEL & EVANG & ETH & EG & EDI & EDR & ECT & _ & EDT & EIV & EJV & EIW & EJW & EAN & ER & _).
  split; [exact WF|]. split.
  { unfold gamma_ok. rewrite EG. destruct (p_gamma p) as [g|] eqn:G; [exact (GA _ G) | apply gamma_default]. }
  split. { unfold pow_ok. rewrite EDR, ETH. exact PW. }
  split. { intros i j (IG & NI). unfold in_grid, inside in *. destruct (p_ct p) as [ct|] eqn:CT.
    - rewrite ECT. cbn [dflt]. apply (RG ct CT); lia.
    - rewrite (init_cell_types lm L W p P p' i j SH CT H') by lia.
      destruct (Z.eqb_spec i 0), (Z.eqb_spec j 0), (Z.eqb_spec i (L - 1)), (Z.eqb_spec j (W - 1)); cbn [orb]; try reflexivity. lia. }
  split; [|lia]. intros k Hk. rewrite EIW, EJW, EDT, EDX, TIW, TJW, TD. cbn [dflt].
  specialize (DXZ dx DX). unfold default_iwalk, default_jwalk, default_dist.
  assert (Q1 : neqb (nmul n1 dx) n0 = false) by (apply mul_ge1_nz; [apply leb_refl, n1_notnan | exact DXZ]).
  assert (Q2 : neqb (nmul (m_sqrt lm (nofZ 2)) dx) n0 = false) by (apply mul_ge1_nz; assumption).
  do 9 (destruct k as [|k]; [cbn [nth]; split; [lia|]; split; [lia|]; assumption|]). lia.
Qed.

(** C38 *)
Lemma rotation lm (p : params T) (m : option string) qx qy u v : m <> Some "DeltaRCM"%string ->
  match init lm (with_flow p m (Some qx) (Some qy) u v),
        init lm (with_flow p (Some "DeltaRCM"%string) (Some (amap (nmul (nofZ (-1))) qy)) (Some qx) u v) with
  | Ok (P, _), Ok (P', _) => P = P'
  | Err e, Err e' => e = e'
  | _, _ => False
  end.
Proof.
  intros NM'. unfold init. cbn [with_flow p_dx].
  destruct (p_dx p) as [dx|]; [|reflexivity].
  change (init_depth (with_flow p m (Some qx) (Some qy) u v)) with (init_depth p).
  change (init_depth (with_flow p (Some "DeltaRCM"%string) (Some (amap (nmul (nofZ (-1))) qy)) (Some qx) u v)) with (init_depth p).
  destruct (init_depth p) as [(depth, pd)|]; cbn [bind]; [|reflexivity].
  change (init_stage (with_flow p m (Some qx) (Some qy) u v)) with (init_stage p).
  change (init_stage (with_flow p (Some "DeltaRCM"%string) (Some (amap (nmul (nofZ (-1))) qy)) (Some qx) u v)) with (init_stage p).
  destruct (init_stage p depth pd) as [(stage, ps)|]; cbn [bind]; [|reflexivity].
  unfold init_flow. cbn [with_flow p_qx p_qy p_u p_v].
  assert (E1 : is_deltarcm (with_flow p m (Some qx) (Some qy) u v) = false).
  { unfold is_deltarcm. cbn [with_flow p_model]. destruct m as [m|]; [|reflexivity]. destruct (String.eqb_spec m "DeltaRCM"); [congruence | reflexivity]. }
  assert (E2 : is_deltarcm (with_flow p (Some "DeltaRCM"%string) (Some (amap (nmul (nofZ (-1))) qy)) (Some qx) u v) = true) by reflexivity.
  rewrite E1, E2. cbn [bind f_qx f_qy f_u f_v with_flow p_roi].
  destruct (p_roi p) as [roi|]; [destruct ((nrow roi =? nrow depth) && (ncol roi =? ncol depth))|]; reflexivity.
Qed.
Lemma rotation_uv lm (p : params T) (m : option string) u v : m <> Some "DeltaRCM"%string ->
  match init lm (with_flow p m None None (Some u) (Some v)),
        init lm (with_flow p (Some "DeltaRCM"%string) None None (Some (amap (nmul (nofZ (-1))) v)) (Some u)) with
  | Ok (P, _), Ok (P', _) => P = P'
  | Err e, Err e' => e = e'
  | _, _ => False
  end.
Proof.
  intros NM'. unfold init. cbn [with_flow p_dx].
  destruct (p_dx p) as [dx|]; [|reflexivity].
  change (init_depth (with_flow p m None None (Some u) (Some v))) with (init_depth p).
  change (init_depth (with_flow p (Some "DeltaRCM"%string) None None (Some (amap (nmul (nofZ (-1))) v)) (Some u))) with (init_depth p).
  destruct (init_depth p) as [(depth, pd)|]; cbn [bind]; [|reflexivity].
  change (init_stage (with_flow p m None None (Some u) (Some v))) with (init_stage p).
  change (init_stage (with_flow p (Some "DeltaRCM"%string) None None (Some (amap (nmul (nofZ (-1))) v)) (Some u))) with (init_stage p).
  destruct (init_stage p depth pd) as [(stage, ps)|]; cbn [bind]; [|reflexivity].
  unfold init_flow. cbn [with_flow p_qx p_qy p_u p_v].
  assert (E1 : is_deltarcm (with_flow p m None None (Some u) (Some v)) = false).
  { unfold is_deltarcm. cbn [with_flow p_model]. destruct m as [m|]; [|reflexivity]. destruct (String.eqb_spec m "DeltaRCM"); [congruence | reflexivity]. }
  assert (E2 : is_deltarcm (with_flow p (Some "DeltaRCM"%string) None None (Some (amap (nmul (nofZ (-1))) v)) (Some u)) = true) by reflexivity.
  rewrite E1, E2. cbn [bind f_qx f_qy f_u f_v with_flow p_roi].
  destruct (p_roi p) as [roi|]; [destruct ((nrow roi =? nrow depth) && (ncol roi =? ncol depth))|]; reflexivity.
Qed.
End S.

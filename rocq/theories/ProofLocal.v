From Coq Require Import ZArith Bool String List Lia.
From Verif Require Import Num Py NumFacts NumMore Walker ParticleTrack Gen SpecWeights SpecPick SpecWalk SpecHist SpecInit SpecMotion SpecApi SpecDraw SpecLocal
  ProofWeights ProofWeightLaws ProofWeightExt ProofInit ProofPick ProofStep ProofGen ProofHist ProofApi ProofApi2 ProofInside ProofRun ProofRunTo ProofStuck ProofDrawRun.
Import ListNotations.
Open Scope Z_scope.
Open Scope res_scope.

Section S.
Context {T : Type} {N : Num T} {NL : NumLaws T} {NM : NumMore T} {GV : T -> Prop}.

(** Objects that differ at most in array values outside R. *)
Definition obj_agree (R : Z -> Z -> Prop) (P Q : pobj T) : Prop :=
  (arr_agree R (o_depth P) (o_depth Q) /\ arr_agree R (o_stage P) (o_stage Q) /\ arr_agree R (o_qx P) (o_qx Q) /\ arr_agree R (o_qy P) (o_qy Q) /\
   arr_agree R (o_u P) (o_u Q) /\ arr_agree R (o_v P) (o_v Q) /\ arr_agree R (o_vel P) (o_vel Q) /\ arr_agree R (o_vang P) (o_vang Q) /\ arr_agree R (o_ct P) (o_ct Q)) /\
  opt_agree R (o_roi P) (o_roi Q) /\
  o_dx P = o_dx Q /\ o_theta P = o_theta Q /\ o_gamma P = o_gamma Q /\ o_diff P = o_diff Q /\ o_dry P = o_dry Q /\ o_steep P = o_steep Q /\ o_vars P = o_vars Q /\
  o_dist P = o_dist Q /\ o_ivec P = o_ivec Q /\ o_jvec P = o_jvec Q /\ o_iwalk P = o_iwalk Q /\ o_jwalk P = o_jwalk Q /\ o_angles P = o_angles Q.

Lemma agree_amap {A B} R (f : A -> B) a b : arr_agree R a b -> arr_agree R (amap f a) (amap f b).
Proof. intros (A1 & A2 & A3). split; [exact A1|]. split; [exact A2|]. intros i j H. cbn [amap cell]. rewrite A3 by exact H. reflexivity. Qed.
Lemma agree_amap2 {A B C} R (f : A -> B -> C) a b a' b' : arr_agree R a a' -> arr_agree R b b' -> arr_agree R (amap2 f a b) (amap2 f a' b').
Proof. intros (A1 & A2 & A3) (B1 & B2 & B3). split; [exact A1|]. split; [exact A2|]. intros i j H. cbn [amap2 cell]. rewrite A3, B3 by exact H. reflexivity. Qed.
Lemma agree_ct R (a b : arr T) dry : arr_agree R a b -> arr_agree R (default_ct a dry) (default_ct b dry).
Proof.
  intros (A1 & A2 & A3). unfold default_ct, np_pad1, np_inner. cbn [nrow ncol cell amap]. rewrite A1, A2. split; [reflexivity|]. split; [reflexivity|].
  intros i j H. cbn [cell]. match goal with |- (if ?c then _ else _) = _ => destruct c; [|reflexivity] end. replace (i - 1 + 1) with i by lia. replace (j - 1 + 1) with j by lia. rewrite A3 by exact H. reflexivity.
Qed.
Ltac dst H := cbn [opt_agree] in H; try contradiction.
Ltac ag := repeat first [apply agree_amap2 | apply agree_amap | assumption].
Lemma init_agree lm R (p1 p2 : params T) P1 P2 p1' p2' : params_agree R p1 p2 -> init lm p1 = Ok (P1, p1') -> init lm p2 = Ok (P2, p2') -> obj_agree R P1 P2.
Proof.
  intros (AD & AS & AT & AQX & AQY & AU & AV & AC & AR & EDX & EM & ETH & EGA & EDF & EDR & EST & EVA & EDI & EIV & EJV & EIW & EJW & EAN) I1 I2.
  unfold init in I1, I2. rewrite <- EDX in I2. destruct (p_dx p1) as [dx|]; [|discriminate].
  apply bind_ok in I1 as ((d1 & pd1) & D1 & I1). apply bind_ok in I2 as ((d2 & pd2) & D2 & I2). cbv beta iota in I1, I2.
  assert (AGD : arr_agree R d1 d2 /\ opt_agree R pd1 pd2).
  { unfold init_depth in D1, D2. destruct (p_depth p1), (p_depth p2); dst AD.
    - injection D1 as <- <-. injection D2 as <- <-. split; [|cbn [opt_agree]]; apply agree_amap, AD.
    - destruct (p_stage p1), (p_stage p2); dst AS; try discriminate. destruct (p_topo p1), (p_topo p2); dst AT; try discriminate.
      injection D1 as <- <-. injection D2 as <- <-. split; [|exact I]. apply agree_amap, agree_amap, agree_amap2; assumption. }
  destruct AGD as (AGD & AGP).
  apply bind_ok in I1 as ((s1 & ps1) & S1 & I1). apply bind_ok in I2 as ((s2 & ps2) & S2 & I2). cbv beta iota in I1, I2.
  assert (AGS : arr_agree R s1 s2).
  { unfold init_stage in S1, S2. destruct (p_stage p1), (p_stage p2); dst AS.
    - injection S1 as <- <-. injection S2 as <- <-. apply agree_amap2; assumption.
    - destruct (p_topo p1), (p_topo p2); dst AT; try discriminate. destruct pd1, pd2; dst AGP; try discriminate.
      injection S1 as <- <-. injection S2 as <- <-. apply agree_amap2; [assumption|]. apply agree_amap2; assumption. }
  apply bind_ok in I1 as (f1 & F1 & I1). apply bind_ok in I2 as (f2 & F2 & I2).
  assert (AGF : arr_agree R (f_qx f1) (f_qx f2) /\ arr_agree R (f_qy f1) (f_qy f2) /\ arr_agree R (f_u f1) (f_u f2) /\ arr_agree R (f_v f1) (f_v f2)).
  { Ltac fin := match goal with F1 : Ok _ = Ok ?f1, F2 : Ok _ = Ok ?f2 |- _ => injection F1 as <-; injection F2 as <-; cbn [f_qx f_qy f_u f_v]; unfold vel_of_q, nan_to_0, neg1;
      split; [ag|]; split; [ag|]; split; [ag | ag] end.
    unfold init_flow, is_deltarcm in F1, F2. rewrite <- EM in F2. destruct (match p_model p1 with Some _ => _ | None => _ end);
      destruct (p_qx p1), (p_qx p2); dst AQX; try (destruct (p_qy p1), (p_qy p2); dst AQY); try fin;
      (destruct (p_u p1), (p_u p2); dst AU; try discriminate; destruct (p_v p1), (p_v p2); dst AV; try discriminate); fin. }
  destruct AGF as (GQX & GQY & GU & GV').
  apply bind_ok in I1 as (? & _ & I1). apply bind_ok in I2 as (? & _ & I2). injection I1 as <- _. injection I2 as <- _.
  unfold obj_agree. cbn [o_dx o_depth o_stage o_qx o_qy o_u o_v o_vel o_vang o_ct o_theta o_gamma o_diff o_dry o_steep o_dist o_ivec o_jvec o_iwalk o_jwalk o_angles o_roi o_vars].
  rewrite <- ETH, <- EGA, <- EDR, <- EST, <- EDI, <- EIV, <- EJV, <- EIW, <- EJW, <- EAN. unfold init_diff, init_vars. rewrite <- EDF, <- EST, <- EVA.
  split.
  { split; [exact AGD|]. split; [exact AGS|]. split; [exact GQX|]. split; [exact GQY|]. split; [apply agree_amap, GU|]. split; [apply agree_amap, GV'|].
    split; [apply agree_amap, agree_amap2; assumption|]. split; [apply agree_amap2; apply agree_amap; assumption|].
    destruct (p_ct p1), (p_ct p2); dst AC; cbn [dflt]; [exact AC | apply agree_ct, AGD]. }
  split; [exact AR|]. repeat (split; [reflexivity|]). split; [|repeat split].
  destruct (p_roi p1), (p_roi p2); dst AR; reflexivity.
Qed.

Definition block (x y : Z) (i j : Z) : Prop := x - 1 <= i <= x + 1 /\ y - 1 <= j <= y + 1.
(** Cells whose whole 3x3 block lies in R. *)
Definition core (R : Z -> Z -> Prop) (x y : Z) : Prop := 0 <= x /\ 0 <= y /\ forall i j, block x y i j -> R i j.
Lemma core_R R x y : core R x y -> R x y.
Proof. intros (_ & _ & H). apply H. unfold block. lia. Qed.
Lemma make_weight_local lm R (P Q : pobj T) : obj_agree R P Q -> arr_agree (core R) (make_weight lm P) (make_weight lm Q).
Proof.
  intros ((AD & AS & AQX & AQY & _ & _ & _ & _ & AC) & _ & EDX & ETH & EGA & EDF & EDR & EST & EVA & EDI & EIV & EJV & EIW & EJW & EAN).
  destruct AD as (DR & DC & AD), AS as (SR & SC & AS), AQX as (XR & XC & AQX), AQY as (YR & YC & AQY), AC as (CR & CC & AC).
  split; [exact DR|]. split; [exact DC|]. intros x y (X0 & Y0 & B).
  assert (B0 : forall a b, -1 <= a <= 1 -> -1 <= b <= 1 -> R (x + a) (y + b)) by (intros a b Ha Hb; apply B; unfold block; lia).
  assert (BB : forall i j, x - 1 <= i <= x + 1 -> y - 1 <= j <= y + 1 -> R i j) by (intros i j Hi Hj; apply B; unfold block; lia).
  unfold make_weight, lift2, mask0, clear_borders, big_sliding_window, tile_domain_array, tile_local_array, amap, amap2. cbn [cell nrow ncol].
  unfold lift2, amap2. cbn [cell nrow ncol].
  rewrite DR, DC, SR, SC, CR, CC, XR, XC, EDR, ETH, EGA, EDI, EIV, EJV.
  rewrite ?(AS _ _ (BB (x - 1) (y - 1) ltac:(lia) ltac:(lia))).
  repeat match goal with |- context [cell (o_stage P) ?a ?b] => rewrite (AS a b (BB a b ltac:(lia) ltac:(lia))) end.
  repeat match goal with |- context [cell (o_depth P) ?a ?b] => rewrite (AD a b (BB a b ltac:(lia) ltac:(lia))) end.
  repeat match goal with |- context [cell (o_ct P) ?a ?b] => rewrite (AC a b (BB a b ltac:(lia) ltac:(lia))) end.
  repeat match goal with |- context [cell (o_qx P) ?a ?b] => rewrite (AQX a b (BB a b ltac:(lia) ltac:(lia))) end.
  repeat match goal with |- context [cell (o_qy P) ?a ?b] => rewrite (AQY a b (BB a b ltac:(lia) ltac:(lia))) end.
  reflexivity.
Qed.
Lemma norm_ix_nonneg n i k : 0 <= i -> norm_ix n i = Some k -> k = i.
Proof. unfold norm_ix. intros H. destruct ((0 <=? i) && (i <? n)); [intros E; injection E as <-; reflexivity|]. destruct (i <? 0) eqn:E; [lia|]. rewrite andb_false_r. discriminate. Qed.
Lemma np_get_local {A} R (a b : arr A) x y : arr_agree R a b -> core R x y -> np_get a x y = np_get b x y.
Proof.
  intros (D1 & D2 & E) C. pose proof (core_R _ _ _ C) as RXY. destruct C as (X0 & Y0 & _). unfold np_get. rewrite <- D1, <- D2.
  destruct (norm_ix (nrow a) x) as [i|] eqn:EI; [|reflexivity]. destruct (norm_ix (ncol a) y) as [j|] eqn:EJ; [|reflexivity].
  rewrite (norm_ix_nonneg _ _ _ X0 EI), (norm_ix_nonneg _ _ _ Y0 EJ), E by exact RXY. reflexivity.
Qed.
Lemma existsb_ext {A} (f g : A -> bool) l : (forall a, In a l -> f a = g a) -> existsb f l = existsb g l.
Proof. induction l as [|a l IH]; intros H; [reflexivity|]. cbn [existsb]. rewrite H by (left; reflexivity). f_equal. apply IH. intros b I. apply H. right. exact I. Qed.
Lemma slice_block n x i : 0 <= x -> In i (zrange (slice_bound n (x - 1)) (slice_bound n (x + 2))) -> x - 1 <= i <= x + 1.
Proof.
  intros X0 I. apply zrange_In in I. unfold slice_bound in I. destruct (x - 1 <? 0) eqn:E1, (x + 2 <? 0) eqn:E2; lia.
Qed.
Lemma near_edge_local R (a b : arr Z) x y : arr_agree R a b -> core R x y -> near_edge a x y = near_edge b x y.
Proof.
  intros (D1 & D2 & E) (X0 & Y0 & B). unfold near_edge, in_slice. rewrite D1, D2. apply existsb_ext. intros i Hi. apply existsb_ext. intros j Hj.
  apply slice_block in Hi; [|exact X0]. apply slice_block in Hj; [|exact Y0]. rewrite E by (apply B; split; assumption). reflexivity.
Qed.
Lemma mapM_ext {A B} (f g : A -> res B) l : (forall a, In a l -> f a = g a) -> mapM f l = mapM g l.
Proof. induction l as [|a l IH]; intros H; [reflexivity|]. cbn [mapM]. rewrite H by (left; reflexivity). rewrite IH by (intros b I; apply H; right; exact I). reflexivity. Qed.
Lemma mapS_ext {A B S} (f g : A -> S -> res (B * S)) l : (forall a s, In a l -> f a s = g a s) -> forall s, mapS f l s = mapS g l s.
Proof.
  induction l as [|a l IH]; intros H s; [reflexivity|]. cbn [mapS]. rewrite H by (left; reflexivity). destruct (g a s) as [(b & s1)|]; [|reflexivity].
  cbn [bind]. rewrite IH by (intros c t I; apply H; right; exact I). reflexivity.
Qed.
Lemma mapS_rel {A B S} (f g : A -> S -> res (B * S)) (rel : S -> S -> Prop) l :
  (forall a s t b s', In a l -> rel s t -> f a s = Ok (b, s') -> exists t', g a t = Ok (b, t') /\ rel s' t') ->
  forall s t bs s', rel s t -> mapS f l s = Ok (bs, s') -> exists t', mapS g l t = Ok (bs, t') /\ rel s' t'.
Proof.
  induction l as [|a l IH]; intros H s t bs s' RE E; cbn [mapS] in *; [injection E as <- <-; exists t; split; [reflexivity | exact RE]|].
  apply bind_ok in E as ((b & s1) & E1 & E). apply bind_ok in E as ((bs1 & s2) & E2 & E). injection E as <- <-.
  destruct (H a s t b s1 (or_introl eq_refl) RE E1) as (t1 & G1 & R1). rewrite G1. cbn [bind].
  destruct (IH (fun a s t b s' I => H a s t b s' (or_intror I)) s1 t1 bs1 s2 R1 E2) as (t2 & G2 & R2). rewrite G2. exists t2. split; [reflexivity | exact R2].
Qed.
Definition wrel (V : Z -> Z -> Prop) (s t : wst T) : Prop := w_pos s = w_pos t /\ arr_agree V (w_arr s) (w_arr t).
Lemma get_weight_local R (P Q : pobj T) d ind s t k s' : o_steep P = o_steep Q -> core R (fst ind) (snd ind) -> wrel (core R) s t ->
  get_weight P d ind s = Ok (k, s') -> exists t', get_weight Q d ind t = Ok (k, t') /\ wrel (core R) s' t'.
Proof.
  intros ES C (EP & D1 & D2 & EA) H. pose proof C as (X0 & Y0 & _). unfold get_weight in *. rewrite <- D1, <- D2.
  destruct (norm_ix (nrow (w_arr s)) (fst ind)) as [i|] eqn:EI; [|discriminate]. destruct (norm_ix (ncol (w_arr s)) (snd ind)) as [j|] eqn:EJ; [|discriminate].
  apply norm_ix_nonneg in EI; [|exact X0]. apply norm_ix_nonneg in EJ; [|exact Y0]. subst i j. rewrite <- ES, <- EP, <- EA by exact C.
  apply bind_ok in H as ((k1 & v) & H1 & H). rewrite H1. cbn [bind]. injection H as <- <-. eexists. split; [reflexivity|].
  split; [reflexivity|]. split; [exact D1|]. split; [exact D2|]. intros i j CC. cbn [set_cell cell w_arr]. destruct ((i =? fst ind) && (j =? snd ind)); [reflexivity | apply EA, CC].
Qed.
Lemma travel_local lm R (P Q : pobj T) d c ind ni ds pos : obj_agree R P Q -> core R (fst ind) (snd ind) -> core R (fst ni) (snd ni) ->
  calc_travel_times lm P d c ind ni ds pos = calc_travel_times lm Q d c ind ni ds pos.
Proof.
  intros ((_ & _ & _ & _ & _ & _ & AVE & AVA & _) & _ & EDX & _ & _ & EDF & _ & _ & _ & EDI & _ & _ & EIW & EJW & EAN) C1 C2. unfold calc_travel_times.
  rewrite (np_get_local R _ _ _ _ AVE C1), (np_get_local R _ _ _ _ AVE C2), (np_get_local R _ _ _ _ AVA C1), EDF, EAN. reflexivity.
Qed.
Lemma dget_avail R (P Q : pobj T) v : obj_agree R P Q -> opt_agree R (dget v (avail_vars P)) (dget v (avail_vars Q)).
Proof.
  intros ((AD & AS & AQX & AQY & AU & AV & _) & _). unfold avail_vars, dget. repeat (destruct (String.eqb _ _); [assumption|]). exact I.
Qed.
Lemma outputs_local R (P Q : pobj T) l : obj_agree R P Q -> (forall c, In c l -> core R (fst c) (snd c)) -> forall vars acc,
  optional_outputs P vars l acc = optional_outputs Q vars l acc.
Proof.
  intros A C. induction vars as [|v vars IH]; intros acc; cbn [optional_outputs]; [reflexivity|]. destruct (dmem v acc); [apply IH|].
  pose proof (dget_avail R P Q v A) as D. destruct (dget v (avail_vars P)) as [a|], (dget v (avail_vars Q)) as [b|]; try contradiction; [|apply IH]. cbn [opt_agree] in D.
  rewrite (mapM_ext (fun xy => grid_at a (fst xy) (snd xy)) (fun xy => grid_at b (fst xy) (snd xy))).
  - destruct (mapM _ _); [|reflexivity]. cbn [bind]. apply IH.
  - intros c Ic. unfold grid_at. rewrite (np_get_local R _ _ _ _ D (C c Ic)). reflexivity.
Qed.
Lemma boundary_local R (a b : arr Z) : arr_agree R a b -> forall l cur, (forall c, In c cur -> core R (fst c) (snd c)) ->
  check_for_boundary l cur a = check_for_boundary l cur b.
Proof.
  intros A. unfold check_for_boundary. induction l as [|x l IH]; intros [|c cur] C; cbn [map2]; try reflexivity.
  rewrite (near_edge_local R a b _ _ A (C c (or_introl eq_refl))). f_equal. apply IH. intros e I. apply C. right. exact I.
Qed.
Lemma stepper_local lm R (P Q : pobj T) d cur tt vars s t ni tts upd s' : obj_agree R P Q -> (forall c, In c cur -> core R (fst c) (snd c)) -> wrel (core R) s t ->
  particle_stepper lm P d cur tt vars s = Ok (ni, tts, upd, s') -> (forall c, In c ni -> core R (fst c) (snd c)) ->
  exists t', particle_stepper lm Q d cur tt vars t = Ok (ni, tts, upd, t') /\ wrel (core R) s' t'.
Proof.
  intros A C WR H CN. pose proof A as ((_ & _ & _ & _ & _ & _ & AVE & AVA & ACT) & AR & EDX & _ & _ & EDF & _ & EST & _ & EDI & _ & _ & EIW & EJW & EAN).
  unfold particle_stepper in *. apply bind_ok in H as ((nc & s1) & E1 & H). cbv beta iota in H.
  destruct (mapS_rel (fun x s => if pair_eqb x (0, 0) then Ok (4%nat, s) else get_weight P d x s) (fun x s => if pair_eqb x (0, 0) then Ok (4%nat, s) else get_weight Q d x s)
    (wrel (core R)) cur) with (s := s) (t := t) (bs := nc) (s' := s1) as (t1 & G1 & WR1); [|exact WR | exact E1|].
  { intros x u v b u' I WRu E. destruct (pair_eqb x (0, 0)); [injection E as <- <-; exists v; split; [reflexivity | exact WRu]|].
    eapply get_weight_local; [exact EST | apply C, I | exact WRu | exact E]. }
  rewrite G1. cbn [bind]. rewrite <- EIW, <- EJW, <- EDI, <- EDX. apply bind_ok in H as (n0' & E2 & H). rewrite E2. cbn [bind].
  apply bind_ok in H as (ds & E3 & H). rewrite E3. cbn [bind]. cbv zeta in *. rewrite <- (boundary_local R _ _ ACT _ cur C).
  set (nn' := check_for_boundary _ cur (o_ct P)) in *.
  apply bind_ok in H as ((tmp & pos') & E4 & H). cbv beta iota in H. apply bind_ok in H as (tms & E5 & H). apply bind_ok in H as (o0 & E6 & H). apply bind_ok in H as (o1 & E7 & H).
  injection H as <- <- <- <-.
  rewrite <- (mapS_ext (fun w pos => let '(c, (ind, (nind, d0))) := w in calc_travel_times lm P d c ind nind d0 pos)
                       (fun w pos => let '(c, (ind, (nind, d0))) := w in calc_travel_times lm Q d c ind nind d0 pos)).
  - rewrite <- (proj1 WR1), E4. cbn [bind]. rewrite E5. cbn [bind].
    assert (E6' : match o_roi Q with Some roi => fl <- mapM (fun xy => roi_flag_at roi (fst xy) (snd xy)) nn' ;; Ok [("roi_flag"%string, fl)] | None => Ok [] end = Ok o0).
    { destruct (o_roi P) as [a|], (o_roi Q) as [b|]; try contradiction; [|exact E6]. cbn [opt_agree] in AR.
      rewrite <- (mapM_ext (fun xy => roi_flag_at a (fst xy) (snd xy))); [exact E6|]. intros c Ic. unfold roi_flag_at. rewrite (np_get_local R _ _ _ _ AR (CN c Ic)). reflexivity. }
    rewrite E6'. cbn [bind]. rewrite <- (outputs_local R P Q nn' A CN), E7. cbn [bind]. eexists. split; [reflexivity|]. split; [reflexivity | exact (proj2 WR1)].
  - intros (c & ind & nind & d0) pos I. apply in_combine_r in I. pose proof (in_combine_l _ _ _ _ I) as I1. apply in_combine_r in I. apply in_combine_l in I.
    apply (travel_local lm R); [exact A | apply C, I1 | apply CN, I].
Qed.

Definition rel (R : Z -> Z -> Prop) (s t : psim T) : Prop := s_np s = s_np t /\ s_walk s = s_walk t /\ wrel (core R) (s_wst s) (s_wst t).
Definition even (w : walk T) : Prop := length (yinds w) = count w /\ forall q, (q < count w)%nat -> (0 < length (nth q (xinds w) []))%nat /\ length (nth q (yinds w) []) = length (nth q (xinds w) []).
Lemma stepper_length lm (P : pobj T) d cur tt vars s ni tts upd s' : particle_stepper lm P d cur tt vars s = Ok (ni, tts, upd, s') -> length ni = length cur.
Proof.
  unfold particle_stepper. intros H. apply bind_ok in H as ((nc & s1) & E1 & H). cbv beta iota in H. apply bind_ok in H as (n0' & E2 & H). apply bind_ok in H as (ds & E3 & H). cbv zeta in H.
  apply bind_ok in H as ((tmp & pos') & E4 & H). cbv beta iota in H. apply bind_ok in H as (tms & E5 & H). apply bind_ok in H as (o0 & E6 & H). apply bind_ok in H as (o1 & E7 & H).
  injection H as <- _ _ _. apply mapS_length in E1. apply mapM_length in E2. apply mapM_length in E3. rewrite combine_length, E1, Nat.min_id in E2.
  unfold check_for_boundary. rewrite map2_length; rewrite map2_length; lia.
Qed.
Lemma mapM_last_nth {A} (dA : A) (l : list (list A)) n r q : mapM (last_of l) (zrange 0 (Z.of_nat n)) = Ok r -> n = length l -> (q < n)%nat -> (0 < length (nth q l []))%nat ->
  nth q r dA = nth (length (nth q l []) - 1) (nth q l []) dA.
Proof.
  intros E -> Hq NE. pose proof (mapM_nth _ _ _ 0 dA E) as M. specialize (M q). rewrite zrange_length in M. specialize (M ltac:(lia)). rewrite zrange_nth in M by lia.
  unfold last_of in M. replace (0 + Z.of_nat q) with (Z.of_nat q) in M by lia. rewrite (py_nth_ok l q []) in M by lia. cbn [bind] in M.
  rewrite (py_last_lastd dA) in M by exact NE. injection M as <-. reflexivity.
Qed.
Lemma run_step_local lm R (P Q : pobj T) d s t w w' s' : obj_agree R P Q -> rel R s t -> s_walk s = Some w -> s_np s = Z.of_nat (count w) -> even w ->
  run_step lm P d s = Ok (w', s') -> (forall x y, visited w x y \/ visited w' x y -> core R x y) ->
  exists t', run_step lm Q d t = Ok (w', t') /\ rel R s' t'.
Proof.
  intros A (RN & RW & WR) SW NP (LY & EV) H CO. unfold run_step in *. rewrite <- RW, <- RN, SW in *. rewrite NP in *.
  replace (if Z.of_nat (count w) =? 0 then Z.of_nat (length (xinds w)) else Z.of_nat (count w)) with (Z.of_nat (count w)) in *
    by (unfold count; destruct (Z.of_nat (length (xinds w)) =? 0); reflexivity).
  assert (EVA : o_vars P = o_vars Q) by apply A. rewrite <- EVA. cbv zeta in *.
  apply bind_ok in H as (sx & E1 & H). rewrite E1. apply bind_ok in H as (sy & E2 & H). rewrite E2. apply bind_ok in H as (st & E3 & H). rewrite E3. cbn [bind].
  apply bind_ok in H as (u & E4 & H). rewrite E4. cbn [bind]. apply bind_ok in H as ((((ni & tts) & upd) & ws) & E5 & H). cbv beta iota in H.
  apply bind_ok in H as (ov' & E6 & H). injection H as <- <-.
  pose proof (mapM_length _ _ _ E1) as L1. pose proof (mapM_length _ _ _ E2) as L2. rewrite zrange_length in L1, L2.
  assert (LP : length (combine sx sy) = count w) by (rewrite combine_length; lia).
  pose proof (stepper_length _ _ _ _ _ _ _ _ _ _ _ E5) as LN.
  assert (CN : forall q, (q < count w)%nat -> nth q (combine sx sy) (0, 0) = (nth (length (nth q (xinds w) []) - 1) (nth q (xinds w) []) 0, nth (length (nth q (xinds w) []) - 1) (nth q (yinds w) []) 0)).
  { intros q Hq. destruct (EV q Hq) as (NE & LQ). rewrite combine_nth by lia. rewrite (mapM_last_nth 0 _ _ _ q E1), (mapM_last_nth 0 _ _ _ q E2); try lia; try reflexivity. rewrite LQ. reflexivity. }
  destruct (stepper_local lm R P Q d (combine sx sy) st (map fst (read_opts (Z.of_nat (count w)) (o_vars P) (opts w) [])) (s_wst s) (s_wst t) ni tts upd ws A) as (ws' & E5' & WR'); [|exact WR | exact E5| |].
  - intros c Ic. apply (In_nth _ _ (0, 0)) in Ic as (q & Hq & <-). rewrite LP in Hq. rewrite CN by exact Hq. cbn [fst snd]. apply CO. left. destruct (EV q Hq) as (NE & LQ).
    exists q, (length (nth q (xinds w) []) - 1)%nat. split; [exact Hq|]. split; [lia|]. split; reflexivity.
  - intros c Ic. apply (In_nth _ _ (0, 0)) in Ic as (q & Hq & EC). rewrite LN, LP in Hq. apply CO. destruct (EV q Hq) as (NE & LQ).
    set (mv := map2 (fun a b => negb (pair_eqb a b)) ni (combine sx sy)) in *.
    assert (LM : length mv = count w) by (unfold mv; rewrite map2_length; lia).
    assert (NMV : nth q mv false = negb (pair_eqb c (nth q (combine sx sy) (0, 0)))).
    { unfold mv. rewrite (map2_nth _ _ _ (0, 0) (0, 0)) by lia. rewrite EC. reflexivity. }
    destruct (pair_eqb c (nth q (combine sx sy) (0, 0))) eqn:EP.
    + left. apply pair_eqb_true in EP. rewrite CN in EP by exact Hq. rewrite EP. cbn [fst snd].
      exists q, (length (nth q (xinds w) []) - 1)%nat. split; [exact Hq|]. split; [lia|]. split; reflexivity.
    + right. exists q, (length (nth q (xinds w) [])). unfold count. cbn [xinds yinds]. rewrite append_where_length. split; [exact Hq|].
      rewrite !(append_where_nth _ _ _ 0) by (rewrite ?map_length; unfold count in *; lia). cbn [negb] in NMV. rewrite NMV. rewrite app_length. cbn [length]. split; [lia|].
      rewrite (nth_map_d fst ni q (0, 0)) by lia. rewrite (nth_map_d snd ni q (0, 0)) by lia. rewrite EC. split; [apply nth_middle|]. rewrite <- LQ. apply nth_middle.
  - rewrite E5'. cbn [bind]. rewrite E6. cbn [bind]. eexists. split; [reflexivity|]. split; [reflexivity|]. split; [reflexivity | exact WR'].
Qed.

(** one particle in a target-time run *)
Definition prow_in (V : Z -> Z -> Prop) (r : prow T) : Prop := forall m, (m < length (r_x r))%nat -> V (nth m (r_x r) 0) (nth m (r_y r) 0).
Definition longer (r r' : prow T) : Prop := exists lx ly, r_x r' = r_x r ++ lx /\ r_y r' = r_y r ++ ly /\ length lx = length ly.
Lemma prefix_in V (r r' : prow T) lx ly : r_x r' = r_x r ++ lx -> r_y r' = r_y r ++ ly -> length (r_y r) = length (r_x r) -> prow_in V r' -> prow_in V r.
Proof. intros E1 E2 LE H m Hm. specialize (H m). rewrite E1, E2, app_length in H. rewrite !app_nth1 in H by lia. apply H. lia. Qed.
Lemma run_row_longer lm (P : pobj T) d target mi fuel : forall r est c s r' s' b, run_row fuel lm P d target mi r est c s = Ok (r', s', b) -> longer r r'.
Proof.
  induction fuel as [|fuel IH]; intros r est c s r' s' b E; cbn [run_row] in E; [discriminate|].
  assert (SAME : longer r r) by (exists [], []; rewrite !app_nil_r; split; [reflexivity | split; reflexivity]).
  apply bind_ok in E as (x & _ & E). apply bind_ok in E as (y & _ & E). apply bind_ok in E as (t & _ & E).
  destruct (nleb _ _); [|injection E as <- _ _; exact SAME].
  apply bind_ok in E as (k & _ & E). apply bind_ok in E as ((((ni & tts) & upd) & s1) & E5 & E). cbv beta iota in E. apply bind_ok in E as (p & E6 & E).
  destruct (negb (pair_eqb p (x, y))); [|injection E as <- _ _; exact SAME].
  apply bind_ok in E as (t' & E7 & E). apply bind_ok in E as (o' & E8 & E). cbv zeta in E.
  destruct (mi <? c + 1); [injection E as <- _ _; exists [fst p], [snd p]; split; [reflexivity | split; reflexivity]|].
  destruct (IH _ _ _ _ _ _ _ E) as (lx & ly & E1 & E2 & E3). cbn [r_x r_y] in E1, E2. exists (fst p :: lx), (snd p :: ly).
  rewrite E1, E2, <- !app_assoc. split; [reflexivity|]. split; [reflexivity|]. cbn. lia.
Qed.
Lemma last_in V (r : prow T) x y : length (r_y r) = length (r_x r) -> py_last (r_x r) = Ok x -> py_last (r_y r) = Ok y -> prow_in V r -> V x y.
Proof.
  intros LE EX EY H. assert (NX : r_x r <> []) by (intros C; rewrite C in EX; discriminate). assert (NY : r_y r <> []) by (intros C; rewrite C in EY; discriminate).
  rewrite (py_last_ok _ 0 NX) in EX. rewrite (py_last_ok _ 0 NY) in EY. injection EX as <-. injection EY as <-. rewrite LE. apply H. destruct (r_x r); [contradiction | cbn; lia].
Qed.
Lemma run_row_local lm R (P Q : pobj T) d target mi : obj_agree R P Q -> forall fuel r est c s t r' s' b, wrel (core R) s t -> length (r_y r) = length (r_x r) ->
  run_row fuel lm P d target mi r est c s = Ok (r', s', b) -> prow_in (core R) r' ->
  exists t', run_row fuel lm Q d target mi r est c t = Ok (r', t', b) /\ wrel (core R) s' t'.
Proof.
  intros A. induction fuel as [|fuel IH]; intros r est c s t r' s' b WR LE E IN; [discriminate|].
  destruct (run_row_longer lm P d target mi (S fuel) r est c s r' s' b E) as (lx & ly & X1 & X2 & _).
  pose proof (prefix_in _ _ _ _ _ X1 X2 LE IN) as IN0. cbn [run_row] in E |- *.
  apply bind_ok in E as (x & EX & E). apply bind_ok in E as (y & EY & E). apply bind_ok in E as (t0 & ET & E). rewrite EX, EY, ET. cbn [bind].
  pose proof (last_in _ _ _ _ LE EX EY IN0) as CXY.
  destruct (nleb _ _); [|injection E as <- <- <-; exists t; split; [reflexivity | exact WR]].
  apply bind_ok in E as (k & EK & E). rewrite EK. cbn [bind]. apply bind_ok in E as ((((ni & tts) & upd) & s1) & E5 & E). cbv beta iota in E.
  apply bind_ok in E as (p & E6 & E).
  assert (NI : ni = [p]).
  { pose proof (stepper_length _ _ _ _ _ _ _ _ _ _ _ E5) as LN. destruct ni as [|a [|b' ni]]; try discriminate LN. cbn in E6. injection E6 as <-. reflexivity. }
  assert (CP : core R (fst p) (snd p)).
  { destruct (pair_eqb p (x, y)) eqn:EP; [apply pair_eqb_true in EP; rewrite EP; exact CXY|]. cbn [negb] in E.
    apply bind_ok in E as (t' & E7 & E). apply bind_ok in E as (o' & E8 & E). cbv zeta in E.
    assert (LO : exists lx ly, r_x r' = (r_x r ++ [fst p]) ++ lx /\ r_y r' = (r_y r ++ [snd p]) ++ ly).
    { destruct (mi <? c + 1); [injection E as <- _ _; exists [], []; rewrite !app_nil_r; split; reflexivity|].
      destruct (run_row_longer _ _ _ _ _ _ _ _ _ _ _ _ _ E) as (l1 & l2 & L1 & L2 & _). exists l1, l2. split; [exact L1 | exact L2]. }
    destruct LO as (l1 & l2 & L1 & L2). specialize (IN (length (r_x r))). rewrite L1, L2 in IN. rewrite <- !app_assoc in IN. cbn [app] in IN.
    assert (HM : (length (r_x r) < length (r_x r ++ fst p :: l1))%nat) by (rewrite app_length; cbn [length]; lia). specialize (IN HM).
    rewrite nth_middle in IN. rewrite <- LE in IN. rewrite nth_middle in IN. exact IN. }
  destruct (stepper_local lm R P Q d [(x, y)] [t0] (map fst (r_o r)) s t ni tts upd s1 A) as (t1 & E5' & WR1); [| exact WR | exact E5 | |].
  { intros e [<-|[]]. exact CXY. } { rewrite NI. intros e [<-|[]]. exact CP. }
  rewrite E5'. cbn [bind]. rewrite E6. cbn [bind]. destruct (negb (pair_eqb p (x, y))); [|injection E as <- <- <-; exists t1; split; [reflexivity | exact WR1]].
  apply bind_ok in E as (t' & E7 & E). rewrite E7. cbn [bind]. apply bind_ok in E as (o' & E8 & E). rewrite E8. cbn [bind]. cbv zeta in E |- *.
  destruct (mi <? c + 1); [injection E as <- <- <-; exists t1; split; [reflexivity | exact WR1]|].
  eapply IH; [exact WR1 | | exact E | exact IN]. cbn [r_x r_y]. rewrite !app_length. cbn. lia.
Qed.
Lemma run_particle_longer lm (P : pobj T) d target mi r s r' s' b : run_particle lm P d target mi r s = Ok (r', s', b) -> longer r r'.
Proof.
  unfold run_particle. intros E. apply bind_ok in E as (est & _ & E). apply bind_ok in E as (x & _ & E). apply bind_ok in E as (y & _ & E).
  destruct (near_edge _ _ _); [injection E as <- _ _; exists [], []; rewrite !app_nil_r; split; [reflexivity | split; reflexivity]|]. eapply run_row_longer, E.
Qed.
Lemma run_particle_local lm R (P Q : pobj T) d target mi r s t r' s' b : obj_agree R P Q -> wrel (core R) s t -> length (r_y r) = length (r_x r) ->
  run_particle lm P d target mi r s = Ok (r', s', b) -> prow_in (core R) r' ->
  exists t', run_particle lm Q d target mi r t = Ok (r', t', b) /\ wrel (core R) s' t'.
Proof.
  intros A WR LE E IN. destruct (run_particle_longer _ _ _ _ _ _ _ _ _ _ E) as (lx & ly & X1 & X2 & _). pose proof (prefix_in _ _ _ _ _ X1 X2 LE IN) as IN0.
  unfold run_particle in *. apply bind_ok in E as (est & -> & E). apply bind_ok in E as (x & EX & E). rewrite EX. apply bind_ok in E as (y & EY & E). rewrite EY. cbn [bind].
  pose proof (last_in _ _ _ _ LE EX EY IN0) as CXY. assert (AC : arr_agree R (o_ct P) (o_ct Q)) by apply A. rewrite <- (near_edge_local R _ _ _ _ AC CXY).
  destruct (near_edge _ _ _); [injection E as <- <- <-; exists t; split; [reflexivity | exact WR]|]. eapply run_row_local; eassumption.
Qed.
Definition same_rows (n : nat) (w w' : walk T) : Prop := nth n (xinds w') [] = nth n (xinds w) [] /\ nth n (yinds w') [] = nth n (yinds w) [].
Lemma run_particles_others lm (P : pobj T) d target mi idx : forall wd ov s warn wd' ov' s' warn', run_particles lm P d target mi idx wd ov s warn = Ok (wd', ov', s', warn') ->
  count wd' = count wd /\ forall n, ~ In n (map Z.to_nat idx) -> same_rows n wd wd'.
Proof.
  induction idx as [|ii idx IH]; intros wd ov s warn wd' ov' s' warn' E; cbn [run_particles] in *; [injection E as <- _ _ _; split; [reflexivity|]; intros; split; reflexivity|].
  apply bind_ok in E as (r & _ & E). apply bind_ok in E as (((r' & s1) & over) & E1 & E). cbv zeta in E. destruct (IH _ _ _ _ _ _ _ _ E) as (CT & KE).
  split; [rewrite CT; unfold count; cbn [xinds]; apply upd_nth_length|]. intros n NI. cbn [map In] in NI. destruct (KE n ltac:(tauto)) as (K1 & K2). cbn [xinds yinds] in K1, K2.
  rewrite upd_nth_other in K1, K2 by tauto. split; [exact K1 | exact K2].
Qed.
Lemma get_row_xy (wd : walk T) ov ii r : 0 <= ii -> get_row wd ov ii = Ok r -> (Z.to_nat ii < count wd)%nat /\ (Z.to_nat ii < length (yinds wd))%nat /\ r_x r = nth (Z.to_nat ii) (xinds wd) [] /\ r_y r = nth (Z.to_nat ii) (yinds wd) [].
Proof.
  intros I0 E. unfold get_row in E. apply bind_ok in E as (x & E1 & E). apply bind_ok in E as (y & E2 & E). apply bind_ok in E as (t & _ & E). apply bind_ok in E as (o & _ & E). injection E as <-. cbn [r_x r_y].
  assert (ONE : forall {A} (l : list A) a dA, py_nth l ii = Ok a -> (Z.to_nat ii < length l)%nat /\ a = nth (Z.to_nat ii) l dA).
  { intros A l a dA H. unfold py_nth in H. destruct (norm_ix (Z.of_nat (length l)) ii) as [k|] eqn:EK; [|discriminate]. apply norm_ix_nonneg in EK; [|exact I0]. subst k.
    destruct (nth_error l (Z.to_nat ii)) eqn:EN; [|discriminate]. injection H as <-. split; [apply nth_error_Some; congruence | symmetry; apply nth_error_nth, EN]. }
  destruct (ONE _ _ _ [] E1) as (A1 & B1). destruct (ONE _ _ _ [] E2) as (A2 & B2). auto.
Qed.
Lemma run_particles_local lm R (P Q : pobj T) d target mi : obj_agree R P Q -> forall idx wd ov s t warn wd' ov' s' warn', wrel (core R) s t -> even wd ->
  NoDup (map Z.to_nat idx) -> (forall i, In i idx -> 0 <= i) ->
  run_particles lm P d target mi idx wd ov s warn = Ok (wd', ov', s', warn') -> (forall x y, visited wd' x y -> core R x y) ->
  exists t', run_particles lm Q d target mi idx wd ov t warn = Ok (wd', ov', t', warn') /\ wrel (core R) s' t'.
Proof.
  intros A. induction idx as [|ii idx IH]; intros wd ov s t warn wd' ov' s' warn' WR EV ND NN E CO; cbn [run_particles] in *.
  - injection E as <- <- <- <-. exists t. split; [reflexivity | exact WR].
  - apply bind_ok in E as (r & ER & E). rewrite ER. cbn [bind]. apply bind_ok in E as (((r' & s1) & over) & E1 & E). cbv zeta in E. inversion ND as [|? ? NI ND']; subst.
    destruct (get_row_xy _ _ _ _ (NN ii (or_introl eq_refl)) ER) as (L1 & L2 & RX & RY). destruct EV as (LY & EV). destruct (EV _ L1) as (NE & LQ).
    assert (LE : length (r_y r) = length (r_x r)) by (rewrite RX, RY; exact LQ).
    destruct (run_particle_longer _ _ _ _ _ _ _ _ _ _ E1) as (lx & ly & X1 & X2 & X3).
    destruct (run_particles_others _ _ _ _ _ _ _ _ _ _ _ _ _ _ E) as (CT & KE). unfold count in CT. cbn [xinds] in CT. rewrite upd_nth_length in CT.
    destruct (run_particle_local lm R P Q d target mi r s t r' s1 over A WR LE E1) as (t1 & E1' & WR1).
    { intros m Hm. apply CO. exists (Z.to_nat ii), m. destruct (KE _ NI) as (K1 & K2). cbn [xinds yinds] in K1, K2. rewrite upd_nth_same in K1, K2 by assumption.
      rewrite K1, K2. split; [unfold count in *; lia|]. split; [exact Hm|]. split; reflexivity. }
    rewrite E1'. cbn [bind]. cbv zeta. eapply IH; [exact WR1 | | exact ND' | intros i Hi; apply NN; right; exact Hi | exact E | exact CO].
    unfold even, count. cbn [xinds yinds]. rewrite !upd_nth_length. split; [exact LY|]. intros q Hq. destruct (Nat.eq_dec (Z.to_nat ii) q) as [<-|NQ].
    + rewrite !upd_nth_same by assumption. rewrite X1, X2, !app_length. rewrite <- RX in NE. lia.
    + rewrite !upd_nth_other by exact NQ. apply EV, Hq.
Qed.
Lemma zrange_nodup n : NoDup (map Z.to_nat (zrange 0 (Z.of_nat n))).
Proof. rewrite zrange_seq, map_map. rewrite (map_ext _ (fun k => k)) by (intros k; apply Nat2Z.id). rewrite map_id. apply seq_NoDup. Qed.
Lemma run_target_local lm R (P Q : pobj T) d target mi s t w w' wl s' : obj_agree R P Q -> rel R s t -> s_walk s = Some w -> s_np s = Z.of_nat (count w) -> even w ->
  run_target lm P d target mi s = Ok (w', wl, s') -> (forall x y, visited w' x y -> core R x y) ->
  exists t', run_target lm Q d target mi t = Ok (w', wl, t') /\ rel R s' t'.
Proof.
  intros A (RN & RW & WR) SW NP EV H CO. unfold run_target in *. rewrite <- RW, <- RN, SW in *. rewrite NP in *.
  replace (if Z.of_nat (count w) =? 0 then Z.of_nat (length (xinds w)) else Z.of_nat (count w)) with (Z.of_nat (count w)) in *
    by (unfold count; destruct (Z.of_nat (length (xinds w)) =? 0); reflexivity).
  assert (EVA : o_vars P = o_vars Q) by apply A. rewrite <- EVA. cbv zeta in *.
  apply bind_ok in H as (u1 & -> & H). apply bind_ok in H as (u2 & -> & H). apply bind_ok in H as (u3 & -> & H). apply bind_ok in H as (u4 & -> & H). cbn [bind].
  apply bind_ok in H as ((((wd' & ov') & ws) & warn) & E5 & H). cbv beta iota in H. destruct warn as [wl'|]; [|discriminate]. injection H as <- <- <-.
  destruct (run_particles_local lm R P Q d target mi A _ _ _ _ (s_wst t) _ _ _ _ _ WR EV (zrange_nodup _) ltac:(intros i Hi; apply zrange_In in Hi; lia) E5) as (t1 & E5' & WR1).
  { intros x y (q & m & V). apply CO. exists q, m. exact V. }
  rewrite E5'. cbn [bind]. eexists. split; [reflexivity|]. split; [reflexivity|]. split; [reflexivity | exact WR1].
Qed.

Lemma start_vars_local R (P Q : pobj T) l : obj_agree R P Q -> (forall c, In c l -> core R (fst c) (snd c)) -> forall vars acc,
  start_vars P vars l acc = start_vars Q vars l acc.
Proof.
  intros A C. pose proof A as (_ & AR & _). induction vars as [|v vars IH]; intros acc; cbn [start_vars]; [reflexivity|]. destruct (str_in v base_vars); [apply IH|].
  assert (GR : match dget v (avail_vars P) with Some g => vs <- mapM (fun p => u <- grid_at g (fst p) (snd p) ;; Ok [u]) l ;; start_vars P vars l (dset v vs acc) | None => Err ValueError end =
               match dget v (avail_vars Q) with Some g => vs <- mapM (fun p => u <- grid_at g (fst p) (snd p) ;; Ok [u]) l ;; start_vars Q vars l (dset v vs acc) | None => Err ValueError end).
  { pose proof (dget_avail R P Q v A) as D. destruct (dget v (avail_vars P)) as [a|], (dget v (avail_vars Q)) as [b|]; try contradiction; [|reflexivity]. cbn [opt_agree] in D.
    rewrite (mapM_ext (fun p => u <- grid_at a (fst p) (snd p) ;; Ok [u]) (fun p => u <- grid_at b (fst p) (snd p) ;; Ok [u])).
    - destruct (mapM _ _); [|reflexivity]. cbn [bind]. apply IH.
    - intros c Ic. unfold grid_at. rewrite (np_get_local R _ _ _ _ D (C c Ic)). reflexivity. }
  destruct (o_roi P) as [a|], (o_roi Q) as [b|]; try contradiction; [|exact GR]. destruct (String.eqb v "roi_flag"); [|exact GR]. cbn [opt_agree] in AR.
  rewrite (mapM_ext (fun p => u <- roi_flag_at a (fst p) (snd p) ;; Ok [u]) (fun p => u <- roi_flag_at b (fst p) (snd p) ;; Ok [u])).
  - destruct (mapM _ _); [|reflexivity]. cbn [bind]. apply IH.
  - intros c Ic. unfold roi_flag_at. rewrite (np_get_local R _ _ _ _ AR (C c Ic)). reflexivity.
Qed.
Lemma mapM_singles (l : list Z) np r q : mapM (fun i => x <- py_nth l i ;; Ok [x]) (zrange 0 np) = Ok r -> (q < Z.to_nat np)%nat -> (q < length l)%nat -> nth q r [] = [nth q l 0].
Proof.
  intros E Hq Hl. pose proof (mapM_nth _ _ _ 0 [] E) as M. specialize (M q). rewrite zrange_length in M. specialize (M ltac:(lia)). rewrite zrange_nth in M by lia.
  replace (0 + Z.of_nat q) with (Z.of_nat q) in M by lia. rewrite (py_nth_ok l q 0) in M by exact Hl. cbn [bind] in M. injection M as M. symmetry. exact M.
Qed.
Lemma generate_local R (P Q : pobj T) d np xl yl t0 m prev s t s' w' : obj_agree R P Q -> rel R s t -> seeds_ok P (OpGen np xl yl t0 m prev) ->
  (forall w, s_walk s = Some w -> even w) -> (forall w, prev = Some w -> shaped (tvars P) w) ->
  generate_particles P d np xl yl t0 m prev s = Ok s' -> s_walk s' = Some w' -> (forall x y, visited w' x y -> core R x y) ->
  exists t', generate_particles Q d np xl yl t0 m prev t = Ok t' /\ rel R s' t'.
Proof.
  intros A (RN & RW & WP & WA) SO EVS SHP H SW CO. unfold generate_particles in *. cbv zeta in *. rewrite <- WP, <- RW.
  assert (NP : 0 <= np) by (destruct m; apply SO).
  apply bind_ok in H as (((xs & ys) & pos') & ES & H). cbv beta iota in H.
  assert (LL : length xs = Z.to_nat np /\ length ys = Z.to_nat np).
  { destruct m.
    - apply bind_ok in ES as ((xs1 & p1) & E1 & ES). cbv beta iota in ES. apply bind_ok in ES as ((ys1 & p2) & E2 & ES). cbv beta iota in ES.
      injection ES as <- <- <-. destruct (pick_seeds_spec _ _ _ _ _ _ E1) as (A1 & _). destruct (pick_seeds_spec _ _ _ _ _ _ E2) as (B1 & _). auto.
    - destruct SO as (_ & HL & _). assert (NE : xl <> []) by (intros ->; cbn in ES; discriminate). destruct (exact_seeds_spec np xl yl NP NE HL) as (xs1 & ys1 & E1 & L1 & L2 & K).
      rewrite E1 in ES. cbn [bind] in ES. injection ES as <- <- <-. auto. }
  rewrite ES. cbn [bind]. apply bind_ok in H as (nx & E1 & H). rewrite E1. apply bind_ok in H as (ny & E2 & H). rewrite E2. cbn [bind].
  apply bind_ok in H as (ov & E3 & H). destruct LL as (LX & LY).
  assert (EVA : o_vars P = o_vars Q) by apply A. rewrite <- EVA.
  rewrite <- (start_vars_local R P Q (combine xs ys) A), E3.
  - cbn [bind]. injection H as <-. eexists. split; [reflexivity|]. split; [reflexivity|]. split; [reflexivity|]. split; [reflexivity | exact WA].
  - intros c Ic. apply (In_nth _ _ (0, 0)) in Ic as (q & Hq & <-). rewrite combine_length, LX, LY, Nat.min_id in Hq. rewrite combine_nth by lia. cbn [fst snd]. apply CO.
    injection H as <-. cbn [s_walk] in SW. injection SW as <-.
    pose proof (mapM_length _ _ _ E1) as N1. pose proof (mapM_length _ _ _ E2) as N2. rewrite zrange_length in N1, N2.
    set (w0 := {| xinds := nx; yinds := ny; times := repeat [t0] (Z.to_nat np); opts := ov |}).
    assert (V0 : length (yinds w0) = count w0 /\ (q < count w0)%nat /\ nth q (xinds w0) [] = [nth q xs 0] /\ nth q (yinds w0) [] = [nth q ys 0]).
    { unfold count, w0. cbn [xinds yinds]. split; [lia|]. split; [lia|]. split; eapply mapM_singles; try eassumption; lia. }
    assert (MG : forall (w v : walk T) k, length (yinds w) = count w -> length (yinds v) = count v -> (k < count v)%nat ->
      length (yinds (merge_walk w v)) = count (merge_walk w v) /\ (count w + k < count (merge_walk w v))%nat /\
      nth (count w + k) (xinds (merge_walk w v)) [] = nth k (xinds v) [] /\ nth (count w + k) (yinds (merge_walk w v)) [] = nth k (yinds v) []).
    { intros w v k L1 L2 Hk. unfold merge_walk, count in *. cbn [xinds yinds]. rewrite !app_length. split; [lia|]. split; [lia|]. rewrite !app_nth2 by lia. split; f_equal; lia. }
    assert (V1 : exists k, let w1 := match s_walk s with Some w => merge_walk w w0 | None => w0 end in
      length (yinds w1) = count w1 /\ (k < count w1)%nat /\ nth k (xinds w1) [] = [nth q xs 0] /\ nth k (yinds w1) [] = [nth q ys 0]).
    { destruct V0 as (A1 & A2 & A3 & A4). destruct (s_walk s) as [w|]; [|exists q; auto]. destruct (EVS w eq_refl) as (LYW & _).
      destruct (MG w w0 q LYW A1 A2) as (B1 & B2 & B3 & B4). exists (count w + q)%nat. cbv zeta. rewrite B3, B4. auto. }
    destruct V1 as (k & V1). cbv zeta in V1. set (w1 := match s_walk s with Some w => merge_walk w w0 | None => w0 end) in *. destruct V1 as (A1 & A2 & A3 & A4).
    assert (V2 : exists k', let w2 := match prev with Some w => merge_walk w w1 | None => w1 end in (k' < count w2)%nat /\ nth k' (xinds w2) [] = [nth q xs 0] /\ nth k' (yinds w2) [] = [nth q ys 0]).
    { destruct prev as [w|]; [|exists k; auto]. destruct (SHP w eq_refl) as (LYW & _). destruct (MG w w1 k LYW A1 A2) as (B1 & B2 & B3 & B4). exists (count w + k)%nat. cbv zeta. rewrite B3, B4. auto. }
    destruct V2 as (k' & V2). cbv zeta in V2. destruct V2 as (C1 & C2 & C3). exists k', 0%nat. fold w0. fold w1. rewrite C2, C3. cbn. auto.
Qed.

(** programs *)
Lemma do_op_local lm R L W p (P Q : pobj T) d s t o s' : obj_agree R P Q -> session GV lm L W p P d s -> op_ok GV lm P o -> rel R s t ->
  do_op lm P d o s = Ok s' -> (forall w x y, s_walk s = Some w \/ s_walk s' = Some w -> visited w x y -> core R x y) ->
  exists t', do_op lm Q d o t = Ok t' /\ rel R s' t'.
Proof.
  intros A SS (SO & PO) RE H CO.
  assert (EVN : forall w, s_walk s = Some w -> even w).
  { intros w SW. destruct (session_rect lm L W p P d s w SS SW) as (LY & _ & _ & RR). split; [exact LY|]. intros q Hq. destruct (RR q Hq) as (A1 & A2 & _). auto. }
  assert (NPE : forall w, s_walk s = Some w -> s_np s = Z.of_nat (count w)).
  { intros w SW. destruct (session_field lm L W p P d s SS) as (FO & _ & U & RC & _). destruct (reached_inv lm P d s FO U RC) as (_ & IN). rewrite SW in IN. apply IN. }
  destruct o as [np xl yl t0 m prev| |target mi|]; cbn [do_op prev_of] in *.
  - destruct (session_generate lm L W p P d s np xl yl t0 m prev s' SS (conj SO PO) H) as (w' & _ & _ & SW' & _).
    eapply generate_local; [exact A | exact RE | exact SO | exact EVN | | exact H | exact SW' | intros x y; apply CO; right; exact SW'].
    intros w ->. apply PO.
  - destruct (run_step lm P d s) as [(w', s1)|] eqn:E; [|discriminate]. injection H as ->.
    destruct (s_walk s) as [w|] eqn:SW; [|unfold run_step in E; rewrite SW in E; discriminate].
    destruct (session_run lm L W p P d s w w' s' 0 SS SW E) as (SW' & _).
    destruct (run_step_local lm R P Q d s t w w' s' A RE SW (NPE w eq_refl) (EVN w eq_refl) E) as (t' & E' & RE').
    { intros x y [V|V]; eapply CO; try exact V; auto. }
    rewrite E'. exists t'. split; [reflexivity | exact RE'].
  - destruct (run_target lm P d target mi s) as [((w', wl), s1)|] eqn:E; [|discriminate]. injection H as ->.
    destruct (s_walk s) as [w|] eqn:SW; [|unfold run_target in E; rewrite SW in E; discriminate].
    destruct (session_run_to lm L W p P d s w w' wl s' target mi 0 SS SW E) as (SW' & _).
    destruct (run_target_local lm R P Q d target mi s t w w' wl s' A RE SW (NPE w eq_refl) (EVN w eq_refl) E) as (t' & E' & RE').
    { intros x y V; eapply CO; try exact V; auto. }
    rewrite E'. exists t'. split; [reflexivity | exact RE'].
  - injection H as <-. exists (clear_walk_data t). split; [reflexivity|]. destruct RE as (A1 & A2 & A3). split; [exact A1|]. split; [reflexivity | exact A3].
Qed.
Lemma do_ops_local lm R L W p (P Q : pobj T) d pos os : obj_agree R P Q -> standard lm L W p -> (exists p', init lm p = Ok (P, p')) -> unit_stream GV d ->
  forall s, Forall (op_ok GV lm P) os -> do_ops lm P d os (init_sim lm P pos) = Ok s ->
  (forall x y, recorded lm P d os (init_sim lm P pos) x y -> core R x y) ->
  exists t, do_ops lm Q d os (init_sim lm Q pos) = Ok t /\ rel R s t.
Proof.
  intros A ST EI U. induction os as [|o os IH] using rev_ind; intros s F H CO.
  - cbn [do_ops] in *. injection H as <-. exists (init_sim lm Q pos). split; [reflexivity|]. split; [reflexivity|]. split; [reflexivity|]. split; [reflexivity|]. apply make_weight_local, A.
  - rewrite do_ops_app in *. apply bind_ok in H as (s1 & E1 & E2). apply Forall_app in F as (F1 & F2). inversion F2; subst.
    destruct (IH s1 F1 E1) as (t1 & G1 & R1).
    { intros x y (o1 & o2 & s2 & w & EO & RC). apply CO. exists o1, (o2 ++ [o]), s2, w. rewrite EO, app_assoc. split; [reflexivity | exact RC]. }
    rewrite G1. cbn [bind].
    eapply do_op_local; [exact A | split; [exact ST|]; split; [exact EI|]; split; [exact U|]; exists pos, os; split; [exact F1 | exact E1] | assumption | exact R1 | exact E2|].
    intros w x y [SW|SW] V; apply CO; [exists os, [o], s1, w | exists (os ++ [o]), [], s, w].
    + split; [reflexivity|]. split; [exact E1|]. split; [exact SW | exact V].
    + split; [rewrite app_nil_r; reflexivity|]. split; [rewrite do_ops_app, E1; exact E2|]. split; [exact SW | exact V].
Qed.
Lemma local_program lm L W (p1 p2 : params T) P1 P2 p1' p2' d pos os s : standard lm L W p1 -> init lm p1 = Ok (P1, p1') -> init lm p2 = Ok (P2, p2') -> unit_stream GV d ->
  Forall (op_ok GV lm P1) os -> do_ops lm P1 d os (init_sim lm P1 pos) = Ok s ->
  params_agree (around (recorded lm P1 d os (init_sim lm P1 pos))) p1 p2 ->
  exists t, do_ops lm P2 d os (init_sim lm P2 pos) = Ok t /\ s_walk t = s_walk s /\ s_np t = s_np s /\ w_pos (s_wst t) = w_pos (s_wst s).
Proof.
  intros ST I1 I2 U F H AG. pose proof (init_agree lm _ p1 p2 P1 P2 p1' p2' AG I1 I2) as A.
  destruct (do_ops_local lm _ L W p1 P1 P2 d pos os A ST (ex_intro _ _ I1) U s F H) as (t & E & RN & RW & WP & _).
  - intros x y RC. pose proof RC as (o1 & o2 & s1 & w & EO & E1 & SW & q & m & Hq & Hm & EX & EY).
    assert (SS : session GV lm L W p1 P1 d s1).
    { split; [exact ST|]. split; [exists p1'; exact I1|]. split; [exact U|]. exists pos, o1. rewrite EO in F. apply Forall_app in F. split; [apply F | exact E1]. }
    destruct (session_positions lm L W p1 P1 d s1 w q m SS SW Hq Hm) as (B1 & B2). unfold xat, yat, hist, row in B1, B2. cbn [r_x r_y] in B1, B2. rewrite EX in B1. rewrite EY in B2.
    split; [lia|]. split; [lia|]. intros i j (Hi & Hj). exists x, y. split; [exact RC|]. split; assumption.
  - exists t. split; [exact E|]. auto.
Qed.
End S.

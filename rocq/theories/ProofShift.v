From Coq Require Import ZArith Bool String List QArith Qcanon Lqa Lia.
From Verif Require Import Num Py XQ XQLaws XQFacts NumFacts NumMore Walker ParticleTrack SpecWeights SpecPick SpecWalk SpecHist SpecInit SpecLocal SpecSim SpecShift ProofStep ProofSim ProofLocal.
Import ListNotations.
Open Scope Z_scope.

(** Arithmetic. *)
Lemma shift_sub a b c : nsub (nadd a (XFin c)) (nadd b (XFin c)) = nsub a b :> xq.
Proof. destruct a as [|[]|a], b as [|[]|b]; cbn; try reflexivity. f_equal. ring. Qed.
Lemma shift_add t a c : nadd (nadd t (XFin c)) a = nadd (nadd t a) (XFin c) :> xq.
Proof. destruct t as [|[]|t], a as [|[]|a]; cbn; try reflexivity. f_equal. ring. Qed.
Section K.
Variables (k : Qc) (K : (0 < k)%Qc).
Lemma k_sign : xzero (XFin k) = false /\ xneg (XFin k) = false.
Proof.
  unfold xzero, xneg, xeqb, xltb, xleb, Qcleb, qc0. assert (E : this (Qcofz 0) == 0) by apply this_ofz. 
  destruct (Qle_bool (this k) (this (Qcofz 0))) eqn:A; [|destruct (Qle_bool (this (Qcofz 0)) (this k)); split; reflexivity].
  exfalso. apply Qle_bool_iff in A. unfold Qclt in K. change (this 0%Qc) with 0%Q in K. rewrite E in A. Lqa.lra.
Qed.
Lemma mul_sign q : xzero (XFin (q * k)%Qc) = xzero (XFin q) /\ xneg (XFin (q * k)%Qc) = xneg (XFin q).
Proof.
  assert (E : this (Qcofz 0) == 0) by apply this_ofz. unfold Qclt in K. change (this 0%Qc) with 0%Q in K.
  assert (L1 : Qle_bool (this (q * k)%Qc) (this (Qcofz 0)) = Qle_bool (this q) (this (Qcofz 0))).
  { apply eq_iff_eq_true. rewrite !Qle_bool_iff, E, this_mul. split; intros H; [|Lqa.nra]. destruct (Qlt_le_dec 0 (this q)) as [A|A]; [|exact A]. exfalso. Lqa.nra. }
  assert (L2 : Qle_bool (this (Qcofz 0)) (this (q * k)%Qc) = Qle_bool (this (Qcofz 0)) (this q)).
  { apply eq_iff_eq_true. rewrite !Qle_bool_iff, E, this_mul. split; intros H; [|Lqa.nra]. destruct (Qlt_le_dec (this q) 0) as [A|A]; [|exact A]. exfalso. Lqa.nra. }
  unfold xzero, xneg, xeqb, xltb, xleb, Qcleb, qc0. rewrite L1, L2. split; reflexivity.
Qed.
Notation f := (times_k k).
Lemma f_inf b : f (XInf b) = XInf b.
Proof. destruct k_sign as (A & B). unfold times_k. cbn [nmul XQnum xmul]. rewrite A, B. destruct b; reflexivity. Qed.
Lemma f_fin q : f (XFin q) = XFin (q * k)%Qc.
Proof. reflexivity. Qed.
Lemma f_nan : f XNaN = XNaN.
Proof. reflexivity. Qed.
Lemma f_zero x : xzero (f x) = xzero x.
Proof. destruct x as [|b|q]; [reflexivity | rewrite f_inf; reflexivity | rewrite f_fin; apply mul_sign]. Qed.
Lemma f_neg x : xneg (f x) = xneg x.
Proof. destruct x as [|b|q]; [reflexivity | rewrite f_inf; reflexivity | rewrite f_fin; apply mul_sign]. Qed.
Lemma f_mul_l a b : nmul (f a) b = f (nmul a b).
Proof.
  cbn [nmul XQnum]. destruct a as [|s|a]; [reflexivity| |].
  - rewrite f_inf. unfold xmul at 1 2. destruct b as [|t|b]; [reflexivity| |];
      (match goal with |- (if ?c then _ else _) = _ => destruct c end; [reflexivity | rewrite f_inf; reflexivity]).
  - rewrite f_fin. destruct b as [|t|b]; [reflexivity| |].
    + unfold xmul. rewrite (proj1 (mul_sign a)), (proj2 (mul_sign a)). destruct (_ || _); [reflexivity | rewrite f_inf; reflexivity].
    + cbn [xmul]. rewrite f_fin. f_equal. ring.
Qed.
Lemma xmul_comm a b : xmul a b = xmul b a.
Proof.
  destruct a as [|s|a], b as [|t|b]; try reflexivity; cbn [xmul]; try (rewrite orb_comm, xorb_comm; reflexivity). f_equal. ring.
Qed.
Lemma f_mul_r a b : nmul a (f b) = f (nmul a b).
Proof. cbn [nmul XQnum]. rewrite xmul_comm. change (xmul (f b) a) with (nmul (f b) a). rewrite f_mul_l. cbn [nmul XQnum]. rewrite xmul_comm. reflexivity. Qed.
Lemma f_add a b : nadd (f a) (f b) = f (nadd a b).
Proof.
  cbn [nadd XQnum]. destruct a as [|s|a], b as [|t|b]; rewrite ?f_inf, ?f_nan, ?f_fin; cbn [xadd]; rewrite ?f_inf; try reflexivity; [|cbn; f_equal; ring].
  destruct (Bool.eqb s t); [rewrite f_inf; reflexivity | reflexivity].
Qed.
End K.

(** Walk data whose tracked values are kept. *)
Definition keep (_ : string) (a : xq) : xq := a.
Lemma keep_vals l : map_vals (hval keep) l = l.
Proof.
  unfold map_vals. rewrite <- (map_id l) at 2. apply map_ext. intros (v & ls). cbn [fst snd]. f_equal. rewrite <- (map_id ls) at 2. apply map_ext. intros r. rewrite <- (map_id r) at 2. apply map_ext. intros [a|]; reflexivity.
Qed.
Lemma keep_walk f w : map_walk f (hval keep) w = retime_walk f w.
Proof. unfold map_walk, retime_walk. rewrite keep_vals. reflexivity. Qed.
Lemma keep_op f o : map_op f (hval keep) o = retime_op f o.
Proof. destruct o as [np xl yl t0 m [w|]| | |]; cbn; rewrite ?keep_walk; reflexivity. Qed.
Lemma keep_ops f os : map (map_op f (hval keep)) os = map (retime_op f) os.
Proof. apply map_ext, keep_op. Qed.
Lemma sim_retimed f s t : sim f (hval keep) s t -> retimed f s t.
Proof. intros (A & B & C). split; [exact A|]. split; [|apply C]. rewrite B. destruct (s_walk s); cbn; rewrite ?keep_walk; reflexivity. Qed.
Lemma match_impl {A B} (R S : A -> B -> Prop) x y : (forall a b, R a b -> S a b) -> match_res R x y -> match_res S x y.
Proof. destruct x, y; cbn; auto. Qed.
Lemma wsim_refl (s : wst xq) : wsim s s.
Proof. repeat split. Qed.
Lemma match_refl {A} (R : A -> A -> Prop) (x : res A) : (forall a, R a a) -> match_res R x x.
Proof. destruct x; cbn; auto. Qed.

Lemma pick_same (P : pobj xq) (a b : list xq) (u : xq) : same_w a b -> match_res (fun x y => fst y = fst x /\ same_w (snd x) (snd y))
  ((if o_steep P then steep_descent else random_pick) a u) ((if o_steep P then steep_descent else random_pick) b u).
Proof. intros ->. apply match_refl. intros x. split; reflexivity. Qed.
Lemma later_program lm (P : pobj xq) draws os c pos :
  match_res (retimed (later c)) (do_ops lm P draws os (init_sim lm P pos)) (do_ops lm P draws (map (retime_op (later c)) os) (init_sim lm P pos)).
Proof.
  rewrite <- keep_ops. eapply match_impl; [apply sim_retimed|].
  apply (do_ops_sim lm P P draws (later c) (fun a => a) (fun a => a) keep same_w (pick_same P)); try reflexivity.
  - intros. apply match_refl. reflexivity.
  - intros. apply match_refl. intros (a & b). reflexivity.
  - intros t a. apply shift_add.
  - destruct (o_roi P); [reflexivity | exact I].
  - intros v. destruct (dget v (avail_vars P)); [|exact I]. intros. apply match_refl. reflexivity.
  - intros a b. apply shift_sub.
  - intros a e. apply shift_add.
  - split; [reflexivity|]. split; [reflexivity | apply wsim_refl].
Qed.

Lemma neq0_scale k d : (0 < k)%Qc -> neqb (times_k k d) n0 = neqb d n0.
Proof. intros K. exact (f_zero k K d). Qed.
Lemma scaled_program lm (p : params xq) k : (0 < k)%Qc ->
  match_res (fun a b => forall draws os pos, Forall plain_op os ->
      match_res (retimed (times_k k)) (do_ops lm (fst a) draws os (init_sim lm (fst a) pos)) (do_ops lm (fst b) draws (map (retime_op (times_k k)) os) (init_sim lm (fst b) pos)))
    (init lm p) (init lm (with_dx (option_map (times_k k) (p_dx p)) p)).
Proof.
  intros K. unfold init. cbn [with_dx p_dx]. destruct (p_dx p) as [dx|]; cbn [option_map]; [|reflexivity].
  change (init_depth (with_dx (Some (times_k k dx)) p)) with (init_depth p). apply match_eq_bind. intros (depth & pd). change (init_stage (with_dx (Some (times_k k dx)) p)) with (init_stage p).
  apply match_eq_bind. intros (stage & ps). change (init_flow (with_dx (Some (times_k k dx)) p)) with (init_flow p). apply match_eq_bind. intros fl. cbv zeta.
  change (p_roi (with_dx (Some (times_k k dx)) p)) with (p_roi p). apply match_eq_bind. intros u. cbn [match_res fst].
  intros draws os pos PL. match goal with |- match_res _ (do_ops _ ?A _ _ _) (do_ops _ ?B _ _ _) => set (P := A); set (Q := B) end.
  rewrite <- keep_ops. eapply match_impl; [apply sim_retimed|].
  apply (do_ops_plain lm P Q draws (times_k k) (times_k k) (times_k k) keep same_w (pick_same P)); try reflexivity.
  - intros c. unfold step_update. change (o_dist Q) with (o_dist P). apply match_eq_bind. intros d. cbn. apply f_mul_r, K.
  - intros d. apply neq0_scale, K.
  - intros c ind ni d ps'. unfold calc_travel_times. destruct (pair_eqb ind ni); cbn [negb]. { cbn [match_res fst snd]. f_equal. rewrite n0_xq. unfold times_k. rewrite xq_mul. f_equal. ring. }
    change (o_vel Q) with (o_vel P). change (o_vang Q) with (o_vang P). change (o_diff Q) with (o_diff P). change (o_angles Q) with (o_angles P).
    apply match_eq_bind. intros ov. apply match_eq_bind. intros nv. destruct (if nltb n0 (o_diff P) then _ else _) as (df & ps''). apply match_eq_bind. intros an. apply match_eq_bind. intros va.
    cbn [match_res fst snd]. f_equal. rewrite (f_mul_l k K), (f_mul_r k K), !(f_mul_l k K). reflexivity.
  - intros t a. apply f_add, K.
  - change (o_roi Q) with (o_roi P). destruct (o_roi P); [reflexivity | exact I].
  - intros v. change (avail_vars Q) with (avail_vars P). destruct (dget v (avail_vars P)); [|exact I]. intros. apply match_refl. reflexivity.
  - eapply Forall_impl; [|exact PL]. intros []; auto.
  - split; [reflexivity|]. split; [reflexivity | apply wsim_refl].
Qed.

(** The vertical datum. *)
Definition hs (c : Qc) (v : string) (a : xq) : xq := if String.eqb v "stage" then nadd a (XFin c) else a.
Lemma nadd_0 (x : xq) : nadd x (XFin 0%Qc) = x.
Proof. destruct x as [|[]|q]; cbn; try reflexivity. f_equal. ring. Qed.
Definition all (_ _ : Z) : Prop := True.
Lemma arr_refl {A} (a : arr A) : arr_agree all a a.
Proof. repeat split. Qed.
Lemma np_get_all {A} (a b : arr A) x y : arr_agree all a b -> np_get a x y = np_get b x y.
Proof. intros (D1 & D2 & E). unfold np_get. rewrite D1, D2. destruct (norm_ix _ x); [|reflexivity]. destruct (norm_ix _ y); [|reflexivity]. rewrite E by exact I. reflexivity. Qed.
Lemma near_edge_all (a b : arr Z) x y : arr_agree all a b -> near_edge a x y = near_edge b x y.
Proof. intros (D1 & D2 & E). unfold near_edge, in_slice. rewrite D1, D2. apply existsb_ext. intros i _. apply existsb_ext. intros j _. rewrite E by exact I. reflexivity. Qed.
Lemma opt_refl {A} (a : option (arr A)) : opt_agree all a a.
Proof. destruct a; [apply arr_refl | exact I]. Qed.
Ltac agg := repeat first [apply agree_amap2 | apply agree_amap | assumption | apply arr_refl].

Definition up_arr (c : Qc) (a b : arr xq) : Prop := nrow b = nrow a /\ ncol b = ncol a /\ forall i j, cell b i j = nadd (cell a i j) (XFin c).
(** Q is P with the stage raised by c. *)
Definition up_obj (c : Qc) (P Q : pobj xq) : Prop :=
  (arr_agree all (o_depth P) (o_depth Q) /\ up_arr c (o_stage P) (o_stage Q) /\ arr_agree all (o_qx P) (o_qx Q) /\ arr_agree all (o_qy P) (o_qy Q) /\
   arr_agree all (o_u P) (o_u Q) /\ arr_agree all (o_v P) (o_v Q) /\ arr_agree all (o_vel P) (o_vel Q) /\ arr_agree all (o_vang P) (o_vang Q) /\ arr_agree all (o_ct P) (o_ct Q)) /\
  o_roi Q = o_roi P /\
  o_dx Q = o_dx P /\ o_theta Q = o_theta P /\ o_gamma Q = o_gamma P /\ o_diff Q = o_diff P /\ o_dry Q = o_dry P /\ o_steep Q = o_steep P /\ o_vars Q = o_vars P /\
  o_dist Q = o_dist P /\ o_ivec Q = o_ivec P /\ o_jvec Q = o_jvec P /\ o_iwalk Q = o_iwalk P /\ o_jwalk Q = o_jwalk P /\ o_angles Q = o_angles P /\
  nrow (o_stage P) = nrow (o_depth P) /\ ncol (o_stage P) = ncol (o_depth P).

Lemma datum_depth c p : match_res (fun a b => arr_agree all (fst a) (fst b) /\ opt_agree all (snd a) (snd b)) (init_depth p) (init_depth (with_datum c p)).
Proof.
  unfold init_depth. cbn [with_datum p_depth p_stage p_topo]. destruct (p_depth p) as [d|]; [split; [apply arr_refl | apply opt_refl]|].
  destruct (p_stage p) as [s|]; [|reflexivity]. destruct (p_topo p) as [t|]; [|reflexivity]. cbn [option_map match_res fst snd]. split; [|exact I].
  apply agree_amap, agree_amap. split; [reflexivity|]. split; [reflexivity|]. intros i j _. cbn [amap2 cell raise]. symmetry. apply shift_sub.
Qed.
Lemma datum_stage c p d1 d2 q1 q2 : arr_agree all d1 d2 -> opt_agree all q1 q2 ->
  match_res (fun a b => up_arr c (fst a) (fst b) /\ nrow (fst a) = nrow d1 /\ ncol (fst a) = ncol d1) (init_stage p d1 q1) (init_stage (with_datum c p) d2 q2).
Proof.
  intros (D1 & D2 & D3) AQ. unfold init_stage. cbn [with_datum p_stage p_topo]. destruct (p_stage p) as [s|]; cbn [option_map].
  - cbn [match_res fst]. split; [|split; reflexivity]. split; [symmetry; exact D1|]. split; [symmetry; exact D2|]. intros i j. cbn [dry_to_nan amap2 cell raise]. rewrite (D3 i j I). destruct (neqb _ n0); reflexivity.
  - destruct (p_topo p) as [t|]; cbn [option_map]; [|reflexivity]. destruct q1 as [q1|], q2 as [q2|]; cbn [opt_agree] in AQ; try contradiction; [|reflexivity].
    destruct AQ as (Q1 & Q2 & Q3). cbn [match_res fst]. split; [|split; reflexivity]. split; [symmetry; exact D1|]. split; [symmetry; exact D2|].
    intros i j. cbn [dry_to_nan amap2 cell raise]. rewrite (D3 i j I), (Q3 i j I). destruct (neqb _ n0); [reflexivity | apply shift_add].
Qed.
Lemma datum_flow c p d1 d2 : arr_agree all d1 d2 ->
  match_res (fun a b => arr_agree all (f_qx a) (f_qx b) /\ arr_agree all (f_qy a) (f_qy b) /\ arr_agree all (f_u a) (f_u b) /\ arr_agree all (f_v a) (f_v b)) (init_flow p d1) (init_flow (with_datum c p) d2).
Proof.
  intros AD. unfold init_flow. change (is_deltarcm (with_datum c p)) with (is_deltarcm p). cbn [with_datum p_qx p_qy p_u p_v].
  destruct (is_deltarcm p), (p_qx p) as [qx|], (p_qy p) as [qy|]; try (cbn [match_res f_qx f_qy f_u f_v]; unfold vel_of_q, nan_to_0, neg1; split; [agg|]; split; [agg|]; split; [agg | agg]);
    (destruct (p_u p) as [u|]; [|reflexivity]; destruct (p_v p) as [v|]; [|reflexivity]; cbn [match_res f_qx f_qy f_u f_v]; unfold vel_of_q, nan_to_0, neg1; split; [agg|]; split; [agg|]; split; [agg | agg]).
Qed.
Lemma datum_init lm p c : match_res (fun a b => up_obj c (fst a) (fst b)) (init lm p) (init lm (with_datum c p)).
Proof.
  unfold init. change (p_dx (with_datum c p)) with (p_dx p). destruct (p_dx p) as [dx|]; [|reflexivity].
  eapply match_bind; [apply datum_depth|]. intros (d1 & q1) (d2 & q2) (AD & AQ). cbn [fst snd] in AD, AQ.
  eapply match_bind; [apply datum_stage; [exact AD | exact AQ]|]. intros (s1 & ps1) (s2 & ps2) (AS & SR & SC). cbn [fst] in AS, SR, SC.
  eapply match_bind; [apply datum_flow, AD|]. intros f1 f2 (FX & FY & FU & FV). cbv zeta. change (p_roi (with_datum c p)) with (p_roi p).
  rewrite <- (proj1 AD), <- (proj1 (proj2 AD)). apply match_eq_bind. intros _. cbn [match_res fst].
  unfold up_obj. cbn [o_dx o_depth o_stage o_qx o_qy o_u o_v o_vel o_vang o_ct o_theta o_gamma o_diff o_dry o_steep o_dist o_ivec o_jvec o_iwalk o_jwalk o_angles o_roi o_vars].
  split.
  { split; [exact AD|]. split; [exact AS|]. split; [exact FX|]. split; [exact FY|]. split; [agg|]. split; [agg|]. split; [agg|]. split; [agg|].
    change (p_ct (with_datum c p)) with (p_ct p). change (p_dry (with_datum c p)) with (p_dry p). destruct (p_ct p); cbn [dflt]; [apply arr_refl | apply agree_ct, AD]. }
  repeat (split; [reflexivity|]). split; [exact SR | exact SC].
Qed.
Lemma up_weight lm c P Q : up_obj c P Q -> forall pos, wsim {| w_arr := make_weight lm P; w_pos := pos |} {| w_arr := make_weight lm Q; w_pos := pos |}.
Proof.
  intros ((AD & AS & AQX & AQY & _ & _ & _ & _ & AC) & _ & EDX & ETH & EGA & EDF & EDR & EST & EVA & EDI & EIV & EJV & EIW & EJW & EAN & SHR & SHC) pos.
  destruct AD as (DR & DC & AD), AS as (SR & SC & AS), AQX as (XR & XC & AQX), AQY as (YR & YC & AQY), AC as (CR & CC & AC).
  split; [reflexivity|]. cbn [w_arr]. split; [symmetry; exact DR|]. split; [symmetry; exact DC|]. change (nrow (make_weight lm P)) with (nrow (o_depth P)). change (ncol (make_weight lm P)) with (ncol (o_depth P)). intros x y Hx Hy.
  assert (SF : forall i j, cell (clear_borders (amap (map (fun x => if nleb x n0 then n0 else x)) (lift2 ndiv (lift2 nsub (tile_domain_array (o_stage Q)) (big_sliding_window n0 (o_stage Q))) (tile_local_array (o_dist P) (nrow (o_stage Q)) (ncol (o_stage Q)))))) x y =
    cell (clear_borders (amap (map (fun x => if nleb x n0 then n0 else x)) (lift2 ndiv (lift2 nsub (tile_domain_array (o_stage P)) (big_sliding_window n0 (o_stage P))) (tile_local_array (o_dist P) i j)))) x y).
  { intros i j. unfold clear_borders, lift2, amap2, amap, tile_domain_array, big_sliding_window, tile_local_array. cbn [cell nrow ncol]. rewrite SR, SC, SHR, SHC.
    destruct (on_border (nrow (o_depth P)) (ncol (o_depth P)) x y) eqn:B; [reflexivity|].
    assert (II : interior (nrow (o_depth P)) (ncol (o_depth P)) x y = true) by (unfold interior, on_border in *; lia). rewrite II. rewrite !AS. cbn [repeat map2 map]. rewrite !shift_sub. reflexivity. }
  unfold make_weight. cbv zeta. rewrite EDI, EIV, EJV, EDR, EGA, ETH.
  unfold clear_borders at 1 4. cbn [cell]. unfold amap2 at 1 4. cbn [nrow ncol cell].
  set (SQ := clear_borders (amap _ (lift2 ndiv (lift2 nsub (tile_domain_array (o_stage Q)) _) _))) in *. set (SP := clear_borders (amap _ (lift2 ndiv (lift2 nsub (tile_domain_array (o_stage P)) _) _))) in *.
  assert (E : cell SQ x y = cell SP x y) by apply SF.
  assert (NR : nrow SQ = nrow SP) by exact SR. assert (NC : ncol SQ = ncol SP) by exact SC. clearbody SQ SP.
  unfold lift2, mask0, lift2, clear_borders, big_sliding_window, tile_domain_array, tile_local_array, amap, amap2. cbn [cell nrow ncol]. rewrite E.
  rewrite <- ?DR, <- ?DC, <- ?CR, <- ?CC, <- ?XR, <- ?XC, <- ?YR, <- ?YC.
  assert (BD : forall i j, cell (o_depth Q) i j = cell (o_depth P) i j) by (intros; symmetry; apply AD; exact I).
  assert (BX : forall i j, cell (o_qx Q) i j = cell (o_qx P) i j) by (intros; symmetry; apply AQX; exact I).
  assert (BY : forall i j, cell (o_qy Q) i j = cell (o_qy P) i j) by (intros; symmetry; apply AQY; exact I).
  assert (BC : forall i j, cell (o_ct Q) i j = cell (o_ct P) i j) by (intros; symmetry; apply AC; exact I).
  rewrite !BD, !BX, !BY, !BC. reflexivity.
Qed.
Lemma raise_walk_eq c w : map_walk (fun t => t) (hval (hs c)) w = raise_stage c w.
Proof.
  unfold map_walk, raise_stage, map_vals, hval, hs. f_equal. rewrite <- (map_id (times w)) at 2. apply map_ext. intros l. apply map_id.
Qed.
Lemma raise_ops_eq c os : map (map_op (fun t => t) (hval (hs c))) os = map (raise_op c) os.
Proof. apply map_ext. intros [np xl yl t0 m [w|]| | |]; cbn [map_op raise_op option_map]; rewrite ?raise_walk_eq; reflexivity. Qed.
Lemma sim_raised c s t : sim (fun t => t) (hval (hs c)) s t -> raised c s t.
Proof. intros (A & B & C). split; [exact A|]. split; [|apply C]. rewrite B. destruct (s_walk s); cbn [option_map]; rewrite ?raise_walk_eq; reflexivity. Qed.
Lemma datum_program lm (p : params xq) c :
  match_res (fun a b => forall draws os pos, match_res (raised c) (do_ops lm (fst a) draws os (init_sim lm (fst a) pos)) (do_ops lm (fst b) draws (map (raise_op c) os) (init_sim lm (fst b) pos)))
    (init lm p) (init lm (with_datum c p)).
Proof.
  eapply match_impl; [|apply datum_init]. intros (P & p1) (Q & p2) U draws os pos. cbn [fst] in *. rewrite <- raise_ops_eq. eapply match_impl; [apply sim_raised|].
  pose proof (up_weight lm c P Q U pos) as WS. destruct U as ((AD & AS & AQX & AQY & AU & AV & AVL & AVA & AC) & ERO & EDX & ETH & EGA & EDF & EDR & EST & EVA & EDI & EIV & EJV & EIW & EJW & EAN & _).
  apply (do_ops_sim lm P Q draws (fun t => t) (fun a => a) (fun a => a) (hs c) same_w (pick_same P)); try assumption; try reflexivity.
  - intros x y. symmetry. apply near_edge_all, AC.
  - intros k. rewrite EDI, EDX. apply match_refl. reflexivity.
  - intros k ind ni d ps. unfold calc_travel_times. rewrite <- !(np_get_all (o_vel P) (o_vel Q)) by exact AVL. rewrite <- (np_get_all (o_vang P) (o_vang Q)) by exact AVA. rewrite EDF, EAN. apply match_refl. intros (a & b). reflexivity.
  - rewrite ERO. destruct (o_roi P); [reflexivity | exact I].
  - intros v. unfold avail_vars. cbn [dget].
    assert (G : forall a b x y, arr_agree all a b -> String.eqb v "stage" = false -> match_res (fun c0 d : xq => d = hs c v c0) (np_get a x y) (np_get b x y)).
    { intros a b x y A E. rewrite <- (np_get_all a b) by exact A. apply match_refl. intros q. unfold hs. rewrite E. reflexivity. }
    destruct (String.eqb v "stage") eqn:NE.
    { apply String.eqb_eq in NE. subst v. change (String.eqb "stage" "depth") with false. cbv beta iota. intros x y. destruct AS as (A1 & A2 & A3). unfold np_get. rewrite A1, A2. destruct (norm_ix _ x); [|reflexivity]. destruct (norm_ix _ y); [|reflexivity]. cbn [match_res]. rewrite A3. reflexivity. }
    destruct (String.eqb v "depth"); [intros x y; apply G; [exact AD | reflexivity]|]. destruct (String.eqb v "qx"); [intros x y; apply G; [exact AQX | reflexivity]|]. destruct (String.eqb v "qy"); [intros x y; apply G; [exact AQY | reflexivity]|].
    destruct (String.eqb v "u"); [intros x y; apply G; [exact AU | reflexivity]|]. destruct (String.eqb v "v"); [intros x y; apply G; [exact AV | reflexivity]|]. exact I.
  - split; [reflexivity|]. split; [reflexivity | exact WS].
Qed.

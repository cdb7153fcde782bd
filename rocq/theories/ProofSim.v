(** Two set-ups whose runs correspond step by step: times, step lengths and tracked values are transformed, positions and draws are the same. *)
From Coq Require Import ZArith Bool String List Lia.
From Verif Require Import Num Py NumFacts Walker ParticleTrack SpecWeights SpecPick SpecWalk SpecHist SpecSim ProofStep.
Import ListNotations.
Open Scope Z_scope.
Open Scope res_scope.

Section Res.
Lemma match_bind {A A' B B'} (R : A -> A' -> Prop) (S : B -> B' -> Prop) x y (k : A -> res B) (k' : A' -> res B') :
  match_res R x y -> (forall a a', R a a' -> match_res S (k a) (k' a')) -> match_res S (bind x k) (bind y k').
Proof. destruct x as [a|e], y as [b|e']; cbn; intros H K; try contradiction; [apply K, H | exact H]. Qed.
Lemma match_eq_bind {A B B'} (S : B -> B' -> Prop) (x : res A) (k : A -> res B) (k' : A -> res B') :
  (forall a, match_res S (k a) (k' a)) -> match_res S (bind x k) (bind x k').
Proof. intros K. destruct x as [a|e]; cbn; [apply K | reflexivity]. Qed.
Lemma match_mapM {A A' B B'} (R : A -> A' -> Prop) (S : B -> B' -> Prop) (f : A -> res B) (g : A' -> res B') l l' : Forall2 R l l' ->
  (forall a a', R a a' -> match_res S (f a) (g a')) -> match_res (Forall2 S) (mapM f l) (mapM g l').
Proof.
  intros F H. induction F as [|a a' l l' RA F IH]; cbn [mapM]; [constructor|].
  eapply match_bind; [apply H, RA|]. intros b b' SB. eapply match_bind; [exact IH|]. intros bs bs' SBS. constructor; assumption.
Qed.
Lemma match_mapS {A A' B B' S S'} (R : A -> A' -> Prop) (Q : B -> B' -> Prop) (W : S -> S' -> Prop) (f : A -> S -> res (B * S)) (g : A' -> S' -> res (B' * S')) l l' :
  Forall2 R l l' -> (forall a a' s s', R a a' -> W s s' -> match_res (fun u v => Q (fst u) (fst v) /\ W (snd u) (snd v)) (f a s) (g a' s')) ->
  forall s s', W s s' -> match_res (fun u v => Forall2 Q (fst u) (fst v) /\ W (snd u) (snd v)) (mapS f l s) (mapS g l' s').
Proof.
  intros F H. induction F as [|a a' l l' RA F IH]; intros s s' WS; cbn [mapS]; [split; [constructor | exact WS]|].
  eapply match_bind; [apply (H _ _ _ _ RA WS)|]. intros (b & s1) (b' & s1') (QB & W1). eapply match_bind; [apply (IH _ _ W1)|].
  intros (bs & s2) (bs' & s2') (QBS & W2). split; [constructor; assumption | exact W2].
Qed.
Lemma F2_map {A B} (f : A -> B) l : Forall2 (fun a b => b = f a) l (map f l).
Proof. induction l; cbn; constructor; auto. Qed.
Lemma F2_map_inv {A B} (f : A -> B) l l' : Forall2 (fun a b => b = f a) l l' -> l' = map f l.
Proof. induction 1; cbn; congruence. Qed.
Lemma F2_refl {A} (l : list A) : Forall2 eq l l.
Proof. induction l; constructor; auto. Qed.
Lemma F2_eq {A} (l l' : list A) : Forall2 eq l l' -> l' = l.
Proof. induction 1; congruence. Qed.
Lemma F2_combine {A A' B B'} (R : A -> A' -> Prop) (S : B -> B' -> Prop) l l' : Forall2 R l l' -> forall m m', Forall2 S m m' ->
  Forall2 (fun u v => R (fst u) (fst v) /\ S (snd u) (snd v)) (combine l m) (combine l' m').
Proof. induction 1; intros m m' F; [constructor|]. destruct F; cbn [combine]; constructor; auto. Qed.
Lemma match_py_nth {A B} (f : A -> B) l i : match_res (fun a b => b = f a) (py_nth l i) (py_nth (map f l) i).
Proof.
  unfold py_nth. rewrite map_length. destruct (norm_ix _ i); [|reflexivity]. rewrite nth_error_map. destruct (nth_error l _); reflexivity.
Qed.
Lemma match_last_of {A B} (f : A -> B) l i : match_res (fun a b => b = f a) (last_of l i) (last_of (map (map f) l) i).
Proof.
  unfold last_of. eapply match_bind; [apply match_py_nth|]. intros a a' ->. apply match_py_nth.
Qed.
Lemma match_mapM_last {A B} (f : A -> B) l idx : match_res (fun a b => b = map f a) (mapM (last_of l) idx) (mapM (last_of (map (map f) l)) idx).
Proof.
  pose proof (match_mapM eq (fun a b => b = f a) (last_of l) (last_of (map (map f) l)) idx idx (F2_refl _) ltac:(intros a a' <-; apply match_last_of)) as M.
  destruct (mapM _ idx), (mapM _ idx); cbn in *; try assumption. apply F2_map_inv, M.
Qed.
End Res.

Section S.
Context {T : Type} {N : Num T} {NL : NumLaws T}.
Variables (lm : Libm T) (P Q : pobj T) (draws : nat -> T) (f g g' : T -> T) (hv : string -> T -> T).
(** Weights so alike that the same draw picks the same direction, and that stay so. *)
Variable like : list T -> list T -> Prop.
Hypothesis Hpick : forall a b u, like a b -> match_res (fun x y => fst y = fst x /\ like (snd x) (snd y))
  ((if o_steep P then steep_descent else random_pick) a u) ((if o_steep P then steep_descent else random_pick) b u).
Hypothesis Hst : o_steep Q = o_steep P.
Hypothesis Hiw : o_iwalk Q = o_iwalk P.
Hypothesis Hjw : o_jwalk Q = o_jwalk P.
Hypothesis Hvars : o_vars Q = o_vars P.
Hypothesis Hct : forall x y, near_edge (o_ct Q) x y = near_edge (o_ct P) x y.
Hypothesis Hdist : forall c, match_res (fun a b => b = g a) (step_update c (o_dist P) (o_dx P)) (step_update c (o_dist Q) (o_dx Q)).
Hypothesis Hg0 : forall d, neqb (g d) n0 = neqb d n0.
Hypothesis Htt : forall c ind ni d pos, match_res (fun a b => b = (g' (fst a), snd a)) (calc_travel_times lm P draws c ind ni d pos) (calc_travel_times lm Q draws c ind ni (g d) pos).
Hypothesis Hadd : forall t a, nadd (f t) (g' a) = f (nadd t a).
Hypothesis Hroi : match o_roi P, o_roi Q with Some a, Some b => forall x y, np_get b x y = np_get a x y | None, None => True | _, _ => False end.
Hypothesis Hav : forall v, match dget v (avail_vars P), dget v (avail_vars Q) with
  | Some a, Some b => forall x y, match_res (fun c d => d = hv v c) (np_get a x y) (np_get b x y)
  | None, None => True | _, _ => False end.
Hypothesis Hroi_v : forall a, hv "roi_flag"%string a = a.
Notation h := (hval hv).
Notation ho := (map_vals (hval hv)).
Notation hw := (map_walk f (hval hv)).

Lemma get_weight_sim ind s t : (wsim_by like) s t -> match_res (fun u v => fst v = fst u /\ (wsim_by like) (snd u) (snd v)) (get_weight P draws ind s) (get_weight Q draws ind t).
Proof.
  intros (EP & D1 & D2 & EA). unfold get_weight. rewrite D1, D2. destruct (norm_ix (nrow (w_arr s)) (fst ind)) as [i|] eqn:EI; [|reflexivity]. destruct (norm_ix (ncol (w_arr s)) (snd ind)) as [j|] eqn:EJ; [|reflexivity].
  assert (IN : forall n i k, norm_ix n i = Some k -> 0 <= k < n).
  { intros n i' k H. unfold norm_ix in H. destruct ((0 <=? i') && (i' <? n)) eqn:E; [injection H as <-; lia|]. destruct ((- n <=? i') && (i' <? 0)) eqn:E'; [injection H as <-; lia | discriminate]. }
  apply IN in EI. apply IN in EJ. rewrite Hst, EP. eapply match_bind; [apply Hpick, EA; assumption|]. intros (k & v) (k' & v') (E1 & E2). cbn [fst snd] in E1, E2. subst k'. split; [reflexivity|]. cbn [snd]. split; [reflexivity|].
  cbn [w_arr set_cell nrow ncol cell]. split; [exact D1|]. split; [exact D2|]. intros i' j' Hi Hj. destruct ((i' =? i) && (j' =? j)); [exact E2 | apply EA; assumption].
Qed.
Lemma outputs_sim l : forall vars acc, match_res (fun a b => b = map_upd h a) (optional_outputs P vars l acc) (optional_outputs Q vars l (map_upd h acc)).
Proof.
  induction vars as [|v vars IH]; intros acc; cbn [optional_outputs]; [reflexivity|].
  assert (DM : dmem v (map_upd h acc) = dmem v acc).
  { unfold dmem. induction acc as [|(k & a) acc IHa]; [reflexivity|]. cbn [map_upd map dget fst snd]. destruct (String.eqb v k); [reflexivity | exact IHa]. }
  rewrite DM. destruct (dmem v acc); [apply IH|]. pose proof (Hav v) as D. destruct (dget v (avail_vars P)) as [a|], (dget v (avail_vars Q)) as [b|]; try contradiction; [|apply IH].
  eapply match_bind with (R := fun x y => y = map (h v) x).
  - pose proof (match_mapM eq (fun a b => b = h v a) (fun xy => grid_at a (fst xy) (snd xy)) (fun xy => grid_at b (fst xy) (snd xy)) l l (F2_refl _)) as M.
    assert (MM : forall a0 a', a0 = a' -> match_res (fun c d => d = h v c) (grid_at a (fst a0) (snd a0)) (grid_at b (fst a') (snd a'))).
    { intros c c' <-. unfold grid_at. eapply match_bind; [apply D|]. intros x x' ->. reflexivity. }
    specialize (M MM). destruct (mapM _ l), (mapM _ l); cbn in *; try assumption. apply F2_map_inv, M.
  - intros x y ->. replace (map_upd h acc ++ [(v, map (h v) x)]) with (map_upd h (acc ++ [(v, x)])) by (unfold map_upd; rewrite map_app; reflexivity). apply IH.
Qed.
Lemma stepper_sim cur tt vars s t : (wsim_by like) s t ->
  match_res (fun a b => let '(ni, tts, upd, s') := a in let '(ni', tts', upd', t') := b in ni' = ni /\ tts' = map f tts /\ upd' = map_upd h upd /\ (wsim_by like) s' t')
    (particle_stepper lm P draws cur tt vars s) (particle_stepper lm Q draws cur (map f tt) vars t).
Proof.
  intros WS. unfold particle_stepper.
  eapply match_bind with (R := fun u v => fst v = fst u /\ (wsim_by like) (snd u) (snd v)).
  { pose proof (match_mapS eq (fun a b => b = a) (wsim_by like) (fun x s => if pair_eqb x (0, 0) then Ok (4%nat, s) else get_weight P draws x s)
      (fun x s => if pair_eqb x (0, 0) then Ok (4%nat, s) else get_weight Q draws x s) cur cur (F2_refl _)) as M.
    specialize (M ltac:(intros a a' u v <- W; destruct (pair_eqb a (0, 0)); [split; [reflexivity | exact W] | apply get_weight_sim, W]) s t WS).
    destruct (mapS _ cur s) as [(bs & s')|], (mapS _ cur t) as [(bs' & t')|]; cbn in *; try assumption. destruct M as (M1 & M2). split; [|exact M2].
    clear - M1. induction M1; congruence. }
  intros (nc & s1) (nc' & t1) (E1 & W1). cbn [fst snd] in E1, W1. subst nc'. rewrite Hiw, Hjw. apply match_eq_bind. intros n0'.
  eapply match_bind with (R := fun u v => v = map g u).
  { pose proof (match_mapM eq (fun a b => b = g a) (fun c => step_update c (o_dist P) (o_dx P)) (fun c => step_update c (o_dist Q) (o_dx Q)) nc nc (F2_refl _) ltac:(intros a a' <-; apply Hdist)) as M.
    destruct (mapM _ nc), (mapM _ nc); cbn in *; try assumption. apply F2_map_inv, M. }
  intros ds ds' ->. cbv zeta.
  assert (EN : map2 (fun d ni => if neqb d n0 then (0, 0) else ni) (map g ds) n0' = map2 (fun d ni => if neqb d n0 then (0, 0) else ni) ds n0').
  { clear - Hg0. revert n0'. induction ds as [|d ds IH]; intros [|n l]; cbn [map map2]; try reflexivity. rewrite Hg0, IH. reflexivity. }
  rewrite EN.
  assert (EB : forall l, check_for_boundary l cur (o_ct Q) = check_for_boundary l cur (o_ct P)).
  { clear - Hct. unfold check_for_boundary. induction cur as [|c cur IH]; intros [|x l]; cbn [map2]; try reflexivity. rewrite Hct, IH. reflexivity. }
  rewrite EB. set (nn' := check_for_boundary _ cur (o_ct P)). clearbody nn'. clear EB EN.
  eapply match_bind with (R := fun u v => fst v = map g' (fst u) /\ snd v = snd u).
  { rewrite (proj1 W1).
    pose proof (match_mapS (fun a b => b = (fst a, (fst (snd a), (fst (snd (snd a)), g (snd (snd (snd a))))))) (fun a b => b = g' a) (fun a b : nat => b = a)
      (fun w pos => let '(c, (ind, (nind, d))) := w in calc_travel_times lm P draws c ind nind d pos)
      (fun w pos => let '(c, (ind, (nind, d))) := w in calc_travel_times lm Q draws c ind nind d pos)
      (combine nc (combine cur (combine nn' ds))) (combine nc (combine cur (combine nn' (map g ds))))) as M.
    assert (FF : Forall2 (fun a b => b = (fst a, (fst (snd a), (fst (snd (snd a)), g (snd (snd (snd a))))))) (combine nc (combine cur (combine nn' ds))) (combine nc (combine cur (combine nn' (map g ds))))).
    { clear. revert cur nn' ds. induction nc as [|c nc IH]; intros [|a cur] [|n nn'] [|d ds]; cbn; try constructor; auto. }
    specialize (M FF). specialize (M ltac:(intros (c & ind & ni & d) b p p' -> ->; cbn [fst snd]; pose proof (Htt c ind ni d p) as H; destruct (calc_travel_times lm P _ _ _ _ _ _) as [(a1 & a2)|], (calc_travel_times lm Q _ _ _ _ _ _) as [(b1 & b2)|]; cbn in *; try assumption; injection H as -> ->; split; reflexivity) (w_pos s1) (w_pos s1) eq_refl).
    destruct (mapS _ _ _) as [(bs & s')|], (mapS _ _ _) as [(bs' & t')|]; cbn in *; try assumption. destruct M as (M1 & M2). split; [apply F2_map_inv, M1 | exact M2]. }
  intros (tmp & pos') (tmp' & pos'') (E2 & E3). cbn [fst snd] in E2, E3. subst tmp' pos''.
  eapply match_bind with (R := fun u v => v = map f u).
  { rewrite map_length.
    pose proof (match_mapM (fun a b => b = (fst a, f (snd a))) (fun a b => b = f a) (fun it => t2 <- py_nth tmp (fst it) ;; Ok (nadd (snd it) t2)) (fun it => t2 <- py_nth (map g' tmp) (fst it) ;; Ok (nadd (snd it) t2))
      (combine (zrange 0 (Z.of_nat (length tt))) tt) (combine (zrange 0 (Z.of_nat (length tt))) (map f tt))) as M.
    assert (FF : Forall2 (fun a b => b = (fst a, f (snd a))) (combine (zrange 0 (Z.of_nat (length tt))) tt) (combine (zrange 0 (Z.of_nat (length tt))) (map f tt))).
    { generalize (zrange 0 (Z.of_nat (length tt))) as l. clear. induction tt as [|a tt IH]; intros [|z l]; cbn; constructor; auto. }
    specialize (M FF). specialize (M ltac:(intros (i & a) b ->; cbn [fst snd]; eapply match_bind; [apply match_py_nth|]; intros x x' ->; cbn; apply Hadd)).
    destruct (mapM _ _), (mapM _ _); cbn in *; try assumption. apply F2_map_inv, M. }
  intros tms tms' ->.
  eapply match_bind with (R := fun u v => v = map_upd h u).
  { destruct (o_roi P) as [a|], (o_roi Q) as [b|]; try contradiction; [|reflexivity].
    eapply match_bind with (R := fun u v => v = u).
    - assert (EM : forall l, mapM (fun xy => roi_flag_at (T := T) b (fst xy) (snd xy)) l = mapM (fun xy => roi_flag_at a (fst xy) (snd xy)) l).
      { induction l as [|c l IH]; [reflexivity|]. cbn [mapM]. unfold roi_flag_at at 1 3. rewrite Hroi, IH. reflexivity. }
      rewrite EM. destruct (mapM _ _); reflexivity.
    - intros u v ->. cbn. f_equal. f_equal. rewrite <- (map_id u) at 1. apply map_ext. intros [x|]; cbn; [rewrite Hroi_v|]; reflexivity. }
  intros o0 o0' ->. eapply match_bind; [apply outputs_sim|]. intros o1 o1' ->. cbn. split; [reflexivity|]. split; [reflexivity|]. split; [reflexivity|]. split; [reflexivity | exact (proj2 W1)].
Qed.

Lemma dget_ho v : forall l, dget v (ho l) = option_map (map (map (h v))) (dget v l).
Proof. induction l as [|(k & a) l IH]; [reflexivity|]. cbn [map_vals map dget fst snd]. destruct (String.eqb_spec v k) as [<-|]; [reflexivity | exact IH]. Qed.
Lemma dget_upd v : forall l, dget v (map_upd h l) = option_map (map (h v)) (dget v l).
Proof. induction l as [|(k & a) l IH]; [reflexivity|]. cbn [map_upd map dget fst snd]. destruct (String.eqb_spec v k) as [<-|]; [reflexivity | exact IH]. Qed.
Lemma dset_ho v x : forall l, dset v (map (map (h v)) x) (ho l) = ho (dset v x l).
Proof.
  induction l as [|(k & a) l IH]; [reflexivity|]. cbn [map_vals map dset fst snd]. destruct (String.eqb_spec v k) as [<-|]; [reflexivity|].
  cbn [map_vals map fst snd]. f_equal. exact IH.
Qed.
Lemma start_vars_sim xy : forall vars acc, match_res (fun a b => b = ho a) (start_vars P vars xy acc) (start_vars Q vars xy (ho acc)).
Proof.
  induction vars as [|v vars IH]; intros acc; cbn [start_vars]; [reflexivity|]. destruct (str_in v base_vars); [apply IH|].
  assert (G : match_res (fun a b => b = ho a)
    match dget v (avail_vars P) with Some g => (vs <- mapM (fun p => v0 <- grid_at g (fst p) (snd p) ;; Ok [v0]) xy ;; start_vars P vars xy (dset v vs acc)) | None => Err ValueError end
    match dget v (avail_vars Q) with Some g => (vs <- mapM (fun p => v0 <- grid_at g (fst p) (snd p) ;; Ok [v0]) xy ;; start_vars Q vars xy (dset v vs (ho acc))) | None => Err ValueError end).
  { pose proof (Hav v) as D. destruct (dget v (avail_vars P)) as [a|], (dget v (avail_vars Q)) as [b|]; try contradiction; [|reflexivity].
    eapply match_bind with (R := fun x y => y = map (map (h v)) x).
    - pose proof (match_mapM eq (fun a b => b = map (h v) a) (fun xy => v0 <- grid_at a (fst xy) (snd xy) ;; Ok [v0]) (fun xy => v0 <- grid_at b (fst xy) (snd xy) ;; Ok [v0]) xy xy (F2_refl _)) as M.
      assert (MM : forall a0 a', a0 = a' -> match_res (fun c d => d = map (h v) c) (v0 <- grid_at a (fst a0) (snd a0) ;; Ok [v0]) (v0 <- grid_at b (fst a') (snd a') ;; Ok [v0])).
      { intros c c' <-. unfold grid_at. eapply match_bind with (R := fun x y => y = h v x); [eapply match_bind; [apply D|]; intros x x' ->; reflexivity|]. intros x x' ->. reflexivity. }
      specialize (M MM). destruct (mapM _ xy), (mapM _ xy); cbn in *; try assumption. apply F2_map_inv, M.
    - intros x y ->. rewrite dset_ho. apply IH. }
  destruct (o_roi P) as [a|], (o_roi Q) as [b|]; try contradiction; [|exact G]. destruct (String.eqb_spec v "roi_flag") as [->|]; [|exact G].
  assert (EM : forall l, mapM (fun p => v0 <- roi_flag_at (T := T) b (fst p) (snd p) ;; Ok [v0]) l = mapM (fun p => v0 <- roi_flag_at a (fst p) (snd p) ;; Ok [v0]) l).
  { induction l as [|c l IHl]; [reflexivity|]. cbn [mapM]. unfold roi_flag_at at 1 3. rewrite Hroi, IHl. reflexivity. }
  rewrite EM. apply match_eq_bind. intros vs.
  assert (EV : map (map (h "roi_flag"%string)) vs = vs).
  { rewrite <- (map_id vs) at 2. apply map_ext. intros l. rewrite <- (map_id l) at 2. apply map_ext. intros [x|]; cbn; [rewrite Hroi_v|]; reflexivity. }
  rewrite <- EV at 2. rewrite dset_ho. apply IH.
Qed.
Lemma merge_vars_sim a b : merge_vars (ho a) (ho b) = ho (merge_vars a b).
Proof.
  unfold merge_vars, map_vals at 2 3. rewrite !map_map. apply map_ext. intros (k & l). cbn [fst snd]. rewrite dget_ho. destruct (dget k a); cbn [option_map fst snd]; [rewrite map_app|]; reflexivity.
Qed.
Lemma merge_walk_sim a b : merge_walk (hw a) (hw b) = hw (merge_walk a b).
Proof. unfold merge_walk, map_walk. cbn [xinds yinds times opts]. rewrite map_app, merge_vars_sim. reflexivity. Qed.
Lemma generate_sim np xl yl t0 m prev s t : sim_by f h like s t ->
  match_res (sim_by f h like) (generate_particles P draws np xl yl t0 m prev s) (generate_particles Q draws np xl yl (f t0) m (option_map hw prev) t).
Proof.
  intros (EN & EW & WS). unfold generate_particles. cbv zeta. rewrite (proj1 WS). apply match_eq_bind. intros ((xs & ys) & pos'). apply match_eq_bind. intros nx. apply match_eq_bind. intros ny.
  rewrite Hvars. eapply match_bind; [apply (start_vars_sim _ _ [])|]. intros ov ov' ->. rewrite EW.
  assert (E0 : {| xinds := nx; yinds := ny; times := repeat [f t0] (Z.to_nat np); opts := ho ov |} = hw {| xinds := nx; yinds := ny; times := repeat [t0] (Z.to_nat np); opts := ov |}).
  { unfold map_walk. cbn [xinds yinds times opts]. f_equal. induction (Z.to_nat np) as [|k IHk]; cbn; [reflexivity | f_equal; exact IHk]. }
  rewrite E0. set (w0 := {| xinds := nx; yinds := ny; times := repeat [t0] (Z.to_nat np); opts := ov |}). clearbody w0.
  assert (E1 : match option_map hw (s_walk s) with Some w => merge_walk w (hw w0) | None => hw w0 end = hw match s_walk s with Some w => merge_walk w w0 | None => w0 end).
  { destruct (s_walk s); cbn [option_map]; [apply merge_walk_sim | reflexivity]. }
  rewrite E1. set (w1 := match s_walk s with Some w => merge_walk w w0 | None => w0 end). clearbody w1.
  assert (E2 : match option_map hw prev with Some w => merge_walk w (hw w1) | None => hw w1 end = hw match prev with Some w => merge_walk w w1 | None => w1 end).
  { destruct prev; cbn [option_map]; [apply merge_walk_sim | reflexivity]. }
  rewrite E2. cbn. split; [reflexivity|]. split; [reflexivity|]. split; [reflexivity|]. exact (proj2 WS).
Qed.

Lemma read_opts_sim np o : forall vars acc, read_opts np vars (ho o) (ho acc) = ho (read_opts np vars o acc).
Proof.
  induction vars as [|v vars IH]; intros acc; cbn [read_opts]; [reflexivity|]. destruct (str_in v base_vars); [apply IH|].
  rewrite <- IH, <- dset_ho. f_equal. f_equal. rewrite dget_ho. destruct (dget v o); cbn [option_map]; [reflexivity|].
  induction (Z.to_nat np) as [|k IHk]; cbn; [reflexivity | f_equal; exact IHk].
Qed.
Lemma append_where_map {A B} (k : A -> B) : forall m v rows, append_where m (map k v) (map (map k) rows) = map (map k) (append_where m v rows).
Proof.
  intros m v rows. revert m v. induction rows as [|r rows IH]; intros m v; [destruct m; reflexivity|]. destruct m as [|b m], v as [|x v]; cbn [map append_where]; try reflexivity.
  rewrite IH. destruct b; cbn [map]; [rewrite map_app|]; reflexivity.
Qed.
Lemma reads_sim idx ov : match_res (fun _ _ => True) (mapM (fun kv => mapM (last_of (snd kv)) idx) ov) (mapM (fun kv => mapM (last_of (snd kv)) idx) (ho ov)).
Proof.
  pose proof (match_mapM (fun a b => b = (fst a, map (map (h (fst a))) (snd a))) (fun _ _ => True) (fun kv => mapM (last_of (snd kv)) idx) (fun kv => mapM (last_of (snd kv)) idx) ov (ho ov)
    ltac:(apply F2_map)) as M.
  assert (MM : forall a a' : string * list (list (option T)), a' = (fst a, map (map (h (fst a))) (snd a)) -> match_res (fun _ _ => True) (mapM (last_of (snd a)) idx) (mapM (last_of (snd a')) idx)).
  { intros a a' ->. cbn [snd]. pose proof (match_mapM_last (h (fst a)) (snd a) idx) as M1. destruct (mapM _ idx), (mapM _ idx); cbn in *; auto. }
  specialize (M MM). destruct (mapM _ ov), (mapM _ (ho ov)); cbn in *; auto.
Qed.
Lemma keys_ho ov : map fst (ho ov) = map fst ov.
Proof. unfold map_vals. rewrite map_map. apply map_ext. reflexivity. Qed.
Lemma append_opts_sim moved upd ov : match_res (fun a b => b = ho a) (mapM (append_opt moved upd) ov) (mapM (append_opt moved (map_upd h upd)) (ho ov)).
Proof.
  pose proof (match_mapM (fun a b => b = (fst a, map (map (h (fst a))) (snd a))) (fun a b => b = (fst a, map (map (h (fst a))) (snd a))) (append_opt moved upd) (append_opt moved (map_upd h upd)) ov (ho ov)
    ltac:(apply F2_map)) as M.
  assert (MM : forall a a', a' = (fst a, map (map (h (fst a))) (snd a)) -> match_res (fun a b => b = (fst a, map (map (h (fst a))) (snd a))) (append_opt moved upd a) (append_opt moved (map_upd h upd) a')).
  { intros (k & l) a' ->. unfold append_opt. cbn [fst snd]. rewrite dget_upd. destruct (dget k upd) as [vals|]; cbn [option_map]; [|destruct (existsb id moved); reflexivity].
    cbn. rewrite append_where_map. reflexivity. }
  specialize (M MM). destruct (mapM _ ov), (mapM _ (ho ov)); cbn in *; auto. apply F2_map_inv, M.
Qed.
Lemma run_step_sim s t : sim_by f h like s t ->
  match_res (fun a b => fst b = hw (fst a) /\ sim_by f h like (snd a) (snd b)) (run_step lm P draws s) (run_step lm Q draws t).
Proof.
  intros (EN & EW & WS). unfold run_step. rewrite EW, EN. destruct (s_walk s) as [wd|]; cbn [option_map]; [|reflexivity]. cbv zeta. change (xinds (hw wd)) with (xinds wd). change (yinds (hw wd)) with (yinds wd).
  set (np := if s_np s =? 0 then _ else _). clearbody np. apply match_eq_bind. intros sx. apply match_eq_bind. intros sy.
  eapply match_bind; [apply match_mapM_last|]. intros st st' ->. rewrite Hvars. change (opts (hw wd)) with (ho (opts wd)). pose proof (read_opts_sim np (opts wd) (o_vars P) []) as RO. cbn [map_vals map] in RO. rewrite RO. clear RO. set (ov := read_opts np (o_vars P) (opts wd) []). clearbody ov.
  eapply match_bind; [apply reads_sim|]. intros _ _ _. rewrite keys_ho. eapply match_bind; [apply stepper_sim, WS|].
  intros (((ni & tts) & upd) & ws) (((ni' & tts') & upd') & ws') (-> & -> & -> & WS').
  eapply match_bind; [apply append_opts_sim|]. intros ov' ov'' ->. cbn [match_res fst snd]. split.
  - unfold map_walk. cbn [xinds yinds times opts]. rewrite append_where_map. reflexivity.
  - split; [reflexivity|]. split; [|exact WS']. cbn [s_walk option_map]. unfold map_walk. cbn [xinds yinds times opts]. f_equal. f_equal; [apply append_where_map|].
    assert (EQ : forall l0, map (fun kv => (fst kv, match dget (fst kv) (ho ov') with Some l => l | None => snd kv end)) (ho l0) = ho (map (fun kv => (fst kv, match dget (fst kv) ov' with Some l => l | None => snd kv end)) l0)).
    { induction l0 as [|(k & l) l0 IHl]; [reflexivity|]. cbn [map map_vals fst snd] in *. f_equal; [|exact IHl]. rewrite dget_ho. destruct (dget k ov'); reflexivity. }
    apply EQ.
Qed.

Definition no_target (o : op T) : Prop := match o with OpRunTo _ _ => False | _ => True end.
Lemma do_op_plain o s t : no_target o -> sim_by f h like s t -> match_res (sim_by f h like) (do_op lm P draws o s) (do_op lm Q draws (map_op f h o) t).
Proof.
  intros NT S. destruct o as [np xl yl t0 m prev| |target mi|]; cbn [do_op map_op]; [apply generate_sim, S | | contradiction |].
  - pose proof (run_step_sim s t S) as H. destruct (run_step lm P draws s) as [(w & s')|], (run_step lm Q draws t) as [(w' & t')|]; cbn in *; try assumption. apply H.
  - destruct S as (EN & EW & WS). split; [exact EN|]. split; [reflexivity | exact WS].
Qed.
Lemma do_ops_plain : forall os s t, Forall no_target os -> sim_by f h like s t -> match_res (sim_by f h like) (do_ops lm P draws os s) (do_ops lm Q draws (map (map_op f h) os) t).
Proof.
  induction os as [|o os IH]; intros s t F S; cbn [do_ops map]; [exact S|]. inversion F as [|? ? F1 F2]; subst. eapply match_bind; [apply do_op_plain; assumption|]. intros s' t' S'. apply IH; assumption.
Qed.

(** Transformed rows. *)
Definition hr (r : prow T) : prow T := {| r_x := r_x r; r_y := r_y r; r_t := map f (r_t r); r_o := map_upd h (r_o r) |}.
Lemma keys_upd ov : map fst (map_upd h ov) = map fst ov.
Proof. unfold map_upd. rewrite map_map. apply map_ext. reflexivity. Qed.
(* for target-time runs: time differences are unchanged *)
Hypothesis Hsub : forall a b, nsub (f a) (f b) = nsub a b.
Hypothesis Hest : forall a e, nadd (f a) e = f (nadd a e).
Lemma run_row_sim target mi : forall fuel r est c s t, (wsim_by like) s t ->
  match_res (fun a b => fst (fst b) = hr (fst (fst a)) /\ (wsim_by like) (snd (fst a)) (snd (fst b)) /\ snd b = snd a) (run_row fuel lm P draws target mi r est c s) (run_row fuel lm Q draws (f target) mi (hr r) est c t).
Proof.
  induction fuel as [|fuel IH]; intros r est c s t WS; cbn [run_row]; [reflexivity|]. change (r_x (hr r)) with (r_x r). change (r_y (hr r)) with (r_y r).
  apply match_eq_bind. intros x. apply match_eq_bind. intros y. eapply match_bind; [apply (match_py_nth f (r_t r) (-1))|]. intros tl ? ->. rewrite Hest, !Hsub.
  destruct (nleb _ _); [|repeat split; apply WS].
  eapply match_bind with (R := fun _ _ => True).
  { pose proof (match_mapM (fun a b => b = (fst a, map (h (fst a)) (snd a))) (fun _ _ => True) (fun kv => py_last (snd kv)) (fun kv => py_last (snd kv)) (r_o r) (r_o (hr r)) ltac:(apply F2_map)) as M.
    assert (MM : forall a a' : string * list (option T), a' = (fst a, map (h (fst a)) (snd a)) -> match_res (fun _ _ => True) (py_last (snd a)) (py_last (snd a'))).
    { intros a a' ->. cbn [snd]. pose proof (match_py_nth (h (fst a)) (snd a) (-1)) as M1. unfold py_last. destruct (py_nth (snd a) (-1)), (py_nth (map _ _) (-1)); cbn in *; auto. }
    specialize (M MM). destruct (mapM _ (r_o r)), (mapM _ (r_o (hr r))); cbn in *; auto. }
  intros _ _ _. change (r_o (hr r)) with (map_upd h (r_o r)). rewrite keys_upd. eapply match_bind; [apply (stepper_sim [(x, y)] [tl] _ s t WS)|].
  intros (((ni & tts) & upd) & ws) (((ni' & tts') & upd') & ws') (-> & -> & -> & WS'). apply match_eq_bind. intros p. destruct (pair_eqb p (x, y)); cbn [negb]; [repeat split; apply WS'|].
  eapply match_bind; [apply match_py_nth|]. intros t1 t1' ->.
  eapply match_bind with (R := fun a b => b = map_upd h a).
  { pose proof (match_mapM (fun a b => b = (fst a, map (h (fst a)) (snd a))) (fun a b => b = (fst a, map (h (fst a)) (snd a)))
      (fun kv => match dget (fst kv) upd with Some vs => v <- py_nth vs 0 ;; Ok (fst kv, snd kv ++ [v]) | None => Err KeyError end)
      (fun kv => match dget (fst kv) (map_upd h upd) with Some vs => v <- py_nth vs 0 ;; Ok (fst kv, snd kv ++ [v]) | None => Err KeyError end) (r_o r) (map_upd h (r_o r)) ltac:(apply F2_map)) as M.
    assert (MM : forall a a', a' = (fst a, map (h (fst a)) (snd a)) -> match_res (fun a b => b = (fst a, map (h (fst a)) (snd a)))
      (match dget (fst a) upd with Some vs => v <- py_nth vs 0 ;; Ok (fst a, snd a ++ [v]) | None => Err KeyError end)
      (match dget (fst a') (map_upd h upd) with Some vs => v <- py_nth vs 0 ;; Ok (fst a', snd a' ++ [v]) | None => Err KeyError end)).
    { intros (k & l) a' ->. cbn [fst snd]. rewrite dget_upd. destruct (dget k upd) as [vs|]; cbn [option_map]; [|reflexivity].
      eapply match_bind; [apply match_py_nth|]. intros v v' ->. cbn. rewrite map_app. reflexivity. }
    specialize (M MM). destruct (mapM _ (r_o r)), (mapM _ (map_upd h (r_o r))); cbn in *; auto. apply F2_map_inv, M. }
  intros o' ? ->. cbv zeta. rewrite Hsub.
  assert (ER : {| r_x := r_x r ++ [fst p]; r_y := r_y r ++ [snd p]; r_t := r_t (hr r) ++ [f t1]; r_o := map_upd h o' |} = hr {| r_x := r_x r ++ [fst p]; r_y := r_y r ++ [snd p]; r_t := r_t r ++ [t1]; r_o := o' |}).
  { unfold hr. cbn [r_x r_y r_t r_o]. rewrite map_app. reflexivity. }
  rewrite ER. destruct (mi <? c + 1); [repeat split; apply WS' | apply IH, WS'].
Qed.
Lemma get_row_sim wd ov ii : match_res (fun a b => b = hr a) (get_row wd ov ii) (get_row (hw wd) (ho ov) ii).
Proof.
  unfold get_row. change (xinds (hw wd)) with (xinds wd). change (yinds (hw wd)) with (yinds wd). apply match_eq_bind. intros x. apply match_eq_bind. intros y.
  eapply match_bind; [apply match_py_nth|]. intros t ? ->.
  eapply match_bind with (R := fun a b => b = map_upd h a).
  { pose proof (match_mapM (fun a b => b = (fst a, map (map (h (fst a))) (snd a))) (fun a b => b = (fst a, map (h (fst a)) (snd a))) (fun kv => l <- py_nth (snd kv) ii ;; Ok (fst kv, l)) (fun kv => l <- py_nth (snd kv) ii ;; Ok (fst kv, l)) ov (ho ov) ltac:(apply F2_map)) as M.
    assert (MM : forall a a' : string * list (list (option T)), a' = (fst a, map (map (h (fst a))) (snd a)) -> match_res (fun a b => b = (fst a, map (h (fst a)) (snd a))) (l <- py_nth (snd a) ii ;; Ok (fst a, l)) (l <- py_nth (snd a') ii ;; Ok (fst a', l))).
    { intros (k & l) a' ->. cbn [fst snd]. eapply match_bind; [apply match_py_nth|]. intros v v' ->. reflexivity. }
    specialize (M MM). destruct (mapM _ ov), (mapM _ (ho ov)); cbn in *; auto. apply F2_map_inv, M. }
  intros o ? ->. reflexivity.
Qed.
Lemma run_particle_sim target mi r s t : (wsim_by like) s t ->
  match_res (fun a b => fst (fst b) = hr (fst (fst a)) /\ (wsim_by like) (snd (fst a)) (snd (fst b)) /\ snd b = snd a) (run_particle lm P draws target mi r s) (run_particle lm Q draws (f target) mi (hr r) t).
Proof.
  intros WS. unfold run_particle. change (r_x (hr r)) with (r_x r). change (r_y (hr r)) with (r_y r). change (r_t (hr r)) with (map f (r_t r)). rewrite map_length.
  eapply match_bind with (R := fun a b => b = a).
  { destruct (1 <? Z.of_nat (length (r_t r))); [|reflexivity]. eapply match_bind; [apply match_py_nth|]. intros a ? ->. eapply match_bind; [apply match_py_nth|]. intros b ? ->. cbn. apply Hsub. }
  intros est ? ->. apply match_eq_bind. intros x. apply match_eq_bind. intros y. rewrite Hct. destruct (near_edge (o_ct P) x y); [repeat split; apply WS | apply run_row_sim, WS].
Qed.
Lemma upd_nth_map {A B} (k : A -> B) : forall n x l, upd_nth n (k x) (map k l) = map k (upd_nth n x l).
Proof. induction n as [|n IH]; intros x [|a l]; cbn [upd_nth map]; try reflexivity. rewrite IH. reflexivity. Qed.
Lemma run_particles_sim target mi : forall idx wd ov s t warn, (wsim_by like) s t ->
  match_res (fun a b => let '(wd', ov', s', warn') := a in b = (hw wd', ho ov', snd (fst b), warn') /\ (wsim_by like) s' (snd (fst b)))
    (run_particles lm P draws target mi idx wd ov s warn) (run_particles lm Q draws (f target) mi idx (hw wd) (ho ov) t warn).
Proof.
  induction idx as [|ii idx IH]; intros wd ov s t warn WS; cbn [run_particles]; [split; [reflexivity | exact WS]|].
  eapply match_bind; [apply get_row_sim|]. intros r ? ->. eapply match_bind; [apply run_particle_sim, WS|]. intros ((r' & s') & over) ((r'' & s'') & over') (ER & WS' & EO). cbn [fst snd] in ER, WS', EO. subst r'' over'. cbv zeta.
  assert (E1 : {| xinds := upd_nth (Z.to_nat ii) (r_x (hr r')) (xinds (hw wd)); yinds := upd_nth (Z.to_nat ii) (r_y (hr r')) (yinds (hw wd)); times := upd_nth (Z.to_nat ii) (r_t (hr r')) (times (hw wd)); opts := opts (hw wd) |} =
    hw {| xinds := upd_nth (Z.to_nat ii) (r_x r') (xinds wd); yinds := upd_nth (Z.to_nat ii) (r_y r') (yinds wd); times := upd_nth (Z.to_nat ii) (r_t r') (times wd); opts := opts wd |}).
  { unfold map_walk, hr. cbn [xinds yinds times opts r_x r_y r_t]. rewrite upd_nth_map. reflexivity. }
  assert (E2 : set_opts (Z.to_nat ii) (hr r') (ho ov) = ho (set_opts (Z.to_nat ii) r' ov)).
  { unfold set_opts, map_vals. rewrite !map_map. apply map_ext. intros (k & l). cbn [fst snd hr r_o]. rewrite dget_upd. destruct (dget k (r_o r')); cbn [option_map]; [rewrite upd_nth_map|]; reflexivity. }
  rewrite E1, E2. apply IH, WS'.
Qed.
Lemma run_target_sim target mi s t : sim_by f h like s t ->
  match_res (fun a b => fst (fst b) = hw (fst (fst a)) /\ snd (fst b) = snd (fst a) /\ sim_by f h like (snd a) (snd b)) (run_target lm P draws target mi s) (run_target lm Q draws (f target) mi t).
Proof.
  intros (EN & EW & WS). unfold run_target. rewrite EW, EN. destruct (s_walk s) as [wd|]; cbn [option_map]; [|reflexivity]. cbv zeta. change (xinds (hw wd)) with (xinds wd). change (yinds (hw wd)) with (yinds wd).
  set (np := if s_np s =? 0 then _ else _). clearbody np. apply match_eq_bind. intros sx. apply match_eq_bind. intros sy.
  eapply match_bind; [apply match_mapM_last|]. intros st st' ->. rewrite Hvars. change (opts (hw wd)) with (ho (opts wd)). pose proof (read_opts_sim np (opts wd) (o_vars P) []) as RO. cbn [map_vals map] in RO. rewrite RO. clear RO.
  set (ov := read_opts np (o_vars P) (opts wd) []). clearbody ov. eapply match_bind; [apply reads_sim|]. intros _ _ _.
  eapply match_bind; [apply run_particles_sim, WS|]. intros (((wd' & ov') & s') & warn) b (EB & WS'). rewrite EB. destruct warn as [wl|]; [|reflexivity]. cbn [match_res fst snd].
  split; [reflexivity|]. split; [reflexivity|]. split; [reflexivity|]. split; [reflexivity | exact WS'].
Qed.
Lemma do_op_sim o s t : sim_by f h like s t -> match_res (sim_by f h like) (do_op lm P draws o s) (do_op lm Q draws (map_op f h o) t).
Proof.
  intros S. destruct o as [np xl yl t0 m prev| |target mi|]; try (apply do_op_plain; [exact I | exact S]). cbn [do_op map_op].
  pose proof (run_target_sim target mi s t S) as H. destruct (run_target lm P draws target mi s) as [((w & l) & s')|], (run_target lm Q draws (f target) mi t) as [((w' & l') & t')|]; cbn in *; try assumption. apply H.
Qed.
Lemma do_ops_sim : forall os s t, sim_by f h like s t -> match_res (sim_by f h like) (do_ops lm P draws os s) (do_ops lm Q draws (map (map_op f h) os) t).
Proof.
  induction os as [|o os IH]; intros s t S; cbn [do_ops map]; [exact S|]. eapply match_bind; [apply do_op_sim, S|]. intros s' t' S'. apply IH, S'.
Qed.
End S.

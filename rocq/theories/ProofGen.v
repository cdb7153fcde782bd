(** generate_particles: seeds, new rows, order of particles. *)
From Coq Require Import ZArith Bool String List Lia.
From Verif Require Import Num Py NumFacts Walker ParticleTrack Gen SpecWeights SpecPick SpecWalk SpecHist
  ProofWeights ProofWeightLaws ProofPick ProofStep ProofStepper ProofRun ProofRunTo.
Import ListNotations.
Open Scope Z_scope.
Open Scope res_scope.

Section S.
Context {T : Type} {N : Num T} {NL : NumLaws T} {GV : T -> Prop}.

Lemma py_nth_In {A} (l : list A) i a : py_nth l i = Ok a -> In a l.
Proof.
  unfold py_nth. destruct (norm_ix _ i); [|discriminate]. destruct (nth_error l _) eqn:E; [|discriminate].
  intros H. injection H as <-. eapply nth_error_In; eauto.
Qed.
Lemma pick_seeds_spec draws locs : forall n pos xs pos', pick_seeds draws locs n pos = Ok (xs, pos') ->
  length xs = n /\ Forall (fun x => In x locs) xs /\ pos' = (pos + n)%nat.
Proof.
  induction n as [|n IH]; intros pos xs pos' H; cbn [pick_seeds] in H.
  - injection H as <- <-. repeat split; [constructor | lia].
  - apply bind_ok in H as (x & E & H). apply bind_ok in H as ((xs1 & p1) & E1 & H). cbv beta iota in H. injection H as <- <-.
    destruct (IH _ _ _ E1) as (L & F & P). split; [simpl; lia|]. split; [|lia]. constructor; [|exact F].
    unfold random_pick_seed in E. apply bind_ok in E as (? & _ & E). apply bind_ok in E as (? & _ & E). eapply py_nth_In; eauto.
Qed.

(** exact seeding *)
Lemma concat_repeat_length {A} (l : list A) k : length (concat (repeat l k)) = (k * length l)%nat.
Proof. induction k; simpl; [reflexivity|]. rewrite app_length, IHk. reflexivity. Qed.
Lemma concat_repeat_nth {A} (l : list A) k (d : A) : forall i, (i < k * length l)%nat ->
  nth i (concat (repeat l k)) d = nth (i mod length l) l d.
Proof.
  induction k; intros i H; [simpl in H; lia|]. cbn [repeat concat].
  destruct (Nat.ltb_spec i (length l)).
  - rewrite app_nth1 by lia. rewrite Nat.mod_small by lia. reflexivity.
  - rewrite app_nth2 by lia. rewrite IHk by (simpl in H; lia). f_equal.
    replace i with (i - length l + 1 * length l)%nat at 2 by lia. rewrite Nat.mod_add by lia. reflexivity.
Qed.
Lemma mapM_py_nth {A} (l : list A) (d : A) r : 0 <= r -> r <= Z.of_nat (length l) ->
  mapM (py_nth l) (zrange 0 r) = Ok (firstn (Z.to_nat r) l).
Proof.
  intros H0 H1. rewrite (mapM_map _ (fun i => nth (Z.to_nat i) l d)).
  - f_equal. apply (nth_ext _ _ d d).
    + rewrite map_length, zrange_length, firstn_length. lia.
    + intros i Hi. rewrite map_length, zrange_length in Hi. rewrite (nth_map_d _ _ i 0) by (rewrite zrange_length; lia).
      rewrite zrange_nth by lia. replace (Z.to_nat (0 + Z.of_nat i)) with i by lia.
      rewrite <- (firstn_skipn (Z.to_nat r) l) at 1. rewrite app_nth1 by (rewrite firstn_length; lia). reflexivity.
  - intros i I. apply zrange_In in I. rewrite <- (Z2Nat.id i) at 1 by lia. apply py_nth_ok. lia.
Qed.
Lemma exact_seeds_spec np xl yl : 0 <= np -> xl <> [] -> length yl = length xl ->
  exists xs ys, exact_seeds np xl yl = Ok (xs, ys) /\ length xs = Z.to_nat np /\ length ys = Z.to_nat np /\
    forall i, (i < Z.to_nat np)%nat ->
      nth i xs 0 = nth (i mod length xl) xl 0 /\ nth i ys 0 = nth (i mod length xl) yl 0.
Proof.
  intros H0 HN HL. unfold exact_seeds. assert (LP : (0 < length xl)%nat) by (destruct xl; [congruence | simpl; lia]).
  destruct (Z.eqb_spec (Z.of_nat (length xl)) 0); [lia|]. cbv zeta.
  set (m := Z.of_nat (length xl)) in *. assert (MP : 0 < m) by lia.
  pose proof (Z.mod_pos_bound np m MP). pose proof (Z.div_mod np m ltac:(lia)). pose proof (Z.div_pos np m H0 MP).
  rewrite (mapM_py_nth xl 0) by lia. cbn [bind]. rewrite (mapM_py_nth yl 0) by lia. cbn [bind].
  do 2 eexists. split; [reflexivity|].
  assert (KEY : forall l : list Z, length l = length xl ->
    length (py_repeat l (np / m) ++ firstn (Z.to_nat (np mod m)) l) = Z.to_nat np /\
    forall i, (i < Z.to_nat np)%nat -> nth i (py_repeat l (np / m) ++ firstn (Z.to_nat (np mod m)) l) 0 = nth (i mod length xl) l 0).
  { intros l Ll. assert (LR : length (py_repeat l (np / m)) = (Z.to_nat (np / m) * length xl)%nat)
      by (unfold py_repeat; rewrite concat_repeat_length, Ll; reflexivity).
    assert (EN : Z.to_nat np = (Z.to_nat (np / m) * length xl + Z.to_nat (np mod m))%nat) by nia.
    split; [rewrite app_length, LR, firstn_length; lia|]. intros i Hi.
    destruct (Nat.ltb_spec i (Z.to_nat (np / m) * length xl)).
    - rewrite app_nth1 by lia. unfold py_repeat. rewrite concat_repeat_nth by (rewrite Ll; lia). rewrite Ll. reflexivity.
    - rewrite app_nth2 by lia. rewrite LR.
      replace (i mod length xl)%nat with (i - Z.to_nat (np / m) * length xl)%nat.
      + rewrite <- (firstn_skipn (Z.to_nat (np mod m)) l) at 2. rewrite app_nth1 by (rewrite firstn_length; lia). reflexivity.
      + replace i with ((i - Z.to_nat (np / m) * length xl) + Z.to_nat (np / m) * length xl)%nat at 2 by lia.
        rewrite Nat.mod_add by lia. symmetry. apply Nat.mod_small. lia. }
  destruct (KEY xl eq_refl) as (A1 & A2). destruct (KEY yl HL) as (B1 & B2).
  split; [exact A1|]. split; [exact B1|]. intros i Hi. split; [apply A2, Hi | apply B2, Hi].
Qed.

Lemma wf_roi (P : pobj T) roi : wf_obj P -> o_roi P = Some roi -> nrow roi = nrow (o_depth P) /\ ncol roi = ncol (o_depth P).
Proof. intros (_ & _ & _ & _ & _ & _ & _ & _ & _ & _ & _ & _ & _ & _ & H) E. apply H, E. Qed.
(** start values of tracked variables *)
Lemma start_vars_spec (P : pobj T) xy : wf_obj P -> (forall p, In p xy -> in_grid P (fst p) (snd p)) ->
  forall vs kvs r, let F := fun v => map (fun p => [field_value P v (fst p) (snd p)]) xy in
  start_vars P vs xy (map (fun v => (v, F v)) kvs) = Ok r ->
  r = map (fun v => (v, F v)) (fold_left tvstep vs kvs) /\
  forall v, In v vs -> str_in v base_vars = false -> legit P v.
Proof.
  intros WF IG. induction vs as [|v vs IH]; intros kvs r F H; cbn [start_vars fold_left] in *.
  - injection H as <-. split; [reflexivity | intros v []].
  - unfold tvstep at 2. destruct (str_in v base_vars) eqn:B; cbn [orb].
    + destruct (IH kvs r H) as (E & L). split; [exact E|]. intros v' [<-|I]; [congruence | apply L; assumption].
    + assert (KEY : legit P v /\ start_vars P vs xy (dset v (F v) (map (fun v => (v, F v)) kvs)) = Ok r).
      { assert (GEN : match dget v (avail_vars P) with
               | Some g => vs0 <- mapM (fun p => v0 <- grid_at g (fst p) (snd p) ;; Ok [v0]) xy ;;
                           start_vars P vs xy (dset v vs0 (map (fun v => (v, F v)) kvs))
               | None => Err ValueError end = Ok r -> (o_roi P = None \/ v <> "roi_flag"%string) ->
               legit P v /\ start_vars P vs xy (dset v (F v) (map (fun v => (v, F v)) kvs)) = Ok r).
        { intros H1 NR. destruct (dget v (avail_vars P)) as [g|] eqn:G; [|discriminate]. split; [right; eauto|].
          destruct (avail_shape P v g WF G) as (G1 & G2).
          rewrite (mapM_map _ (fun p => [field_value P v (fst p) (snd p)])) in H1; [exact H1|].
          intros p I. destruct (IG p I) as (C & D). unfold grid_at. rewrite np_get_in by lia. cbn [bind]. unfold field_value. rewrite G.
          destruct (o_roi P) eqn:RO; [|reflexivity]. destruct (String.eqb_spec v "roi_flag"); [destruct NR; congruence | reflexivity]. }
        destruct (o_roi P) as [roi|] eqn:RO.
        - destruct (String.eqb_spec v "roi_flag") as [EV|NE].
          + split; [left; split; [congruence | exact EV]|].
            rewrite (mapM_map _ (fun p => [field_value P v (fst p) (snd p)])) in H; [exact H|].
            intros p I. destruct (IG p I) as (C & D). assert (SR : nrow roi = nrow (o_depth P) /\ ncol roi = ncol (o_depth P)).
            { apply wf_roi; assumption. }
            unfold roi_flag_at. rewrite np_get_in by lia. cbn [bind]. unfold field_value. rewrite RO, EV. reflexivity.
          + apply GEN; [exact H | auto].
        - apply GEN; [exact H | auto]. }
      destruct KEY as (LV & H').
      destruct (str_in v kvs) eqn:A; cbn [orb].
      * apply str_in_spec in A. rewrite (dset_map_in F) in H' by exact A. destruct (IH kvs r H') as (E & L).
        split; [exact E|]. intros v' [<-|I]; [auto | apply L; assumption].
      * rewrite (dset_map_new F) in H' by (intros C; apply str_in_spec in C; congruence). destruct (IH _ r H') as (E & L).
        split; [exact E|]. intros v' [<-|I]; [auto | apply L; assumption].
Qed.
Lemma start_vars_total (P : pobj T) xy : wf_obj P -> (forall p, In p xy -> in_grid P (fst p) (snd p)) ->
  forall vs acc, (forall v, In v vs -> str_in v base_vars = false -> legit P v) -> exists r, start_vars P vs xy acc = Ok r.
Proof.
  intros WF IG. induction vs as [|v vs IH]; intros acc L; cbn [start_vars]; [eauto|].
  assert (L' : forall v0, In v0 vs -> str_in v0 base_vars = false -> legit P v0) by (intros; apply L; [right|]; assumption).
  destruct (str_in v base_vars) eqn:B; [apply IH, L'|].
  assert (GEN : (exists g, dget v (avail_vars P) = Some g) -> exists r, match dget v (avail_vars P) with
               | Some g => vs0 <- mapM (fun p => v0 <- grid_at g (fst p) (snd p) ;; Ok [v0]) xy ;; start_vars P vs xy (dset v vs0 acc)
               | None => Err ValueError end = Ok r).
  { intros (g & G). rewrite G. destruct (avail_shape P v g WF G) as (G1 & G2).
    match goal with |- context [bind (mapM ?f ?l) _] => destruct (mapM_total f l) as (o' & E4) end.
    - intros p I. destruct (IG p I) as (C & D). unfold grid_at. rewrite np_get_in by lia. cbn [bind]. eauto.
    - rewrite E4. cbn [bind]. apply IH, L'. }
  destruct (L v (or_introl eq_refl) B) as [(R & ->)|G].
  - destruct (o_roi P) as [roi|] eqn:RO; [|congruence]. rewrite String.eqb_refl.
    match goal with |- context [bind (mapM ?f ?l) _] => destruct (mapM_total f l) as (o' & E4) end.
    + intros p I. destruct (IG p I) as (C & D). assert (SR : nrow roi = nrow (o_depth P) /\ ncol roi = ncol (o_depth P)).
      { apply wf_roi; assumption. }
      unfold roi_flag_at. rewrite np_get_in by lia. cbn [bind]. eauto.
    + rewrite E4. cbn [bind]. apply IH, L'.
  - destruct (o_roi P) as [roi|] eqn:RO; [|apply GEN, G]. destruct (String.eqb_spec v "roi_flag") as [->|NE]; [|apply GEN, G].
    destruct G as (g & G). exfalso. eapply avail_not_roi; eauto.
Qed.

(** merging *)
Lemma merge_spec vars (old new : walk T) : shaped vars old -> shaped vars new -> map fst (opts new) = vars ->
  count (merge_walk old new) = (count old + count new)%nat /\ shaped vars (merge_walk old new) /\
  map fst (opts (merge_walk old new)) = vars /\
  (forall p, (p < count old)%nat -> row vars (merge_walk old new) p = row vars old p) /\
  (forall p, (p < count new)%nat -> row vars (merge_walk old new) (count old + p) = row vars new p).
Proof.
  intros (OY & OT & OO) (NY & NT & NO) KE.
  assert (DG : forall v, In v vars -> dget v (merge_vars (opts old) (opts new)) = Some (dflt (dget v (opts old)) [] ++ dflt (dget v (opts new)) [])).
  { intros v I. unfold merge_vars. 
    erewrite map_ext with (g := fun kv => (fst kv, match dget (fst kv) (opts old) with Some l => l ++ snd kv | None => snd kv end)).
    2:{ intros (k, l). cbn [fst snd]. destruct (dget k (opts old)); reflexivity. }
    rewrite (dget_mapkv (fun k l0 => match dget k (opts old) with Some l => l ++ l0 | None => l0 end)).
    destruct (OO v I) as (lo & -> & _). destruct (NO v I) as (ln & -> & _). reflexivity. }
  assert (KE' : map fst (merge_vars (opts old) (opts new)) = vars).
  { rewrite <- KE. unfold merge_vars. rewrite map_map. apply map_ext. intros (k, l). cbn [fst]. destruct (dget k (opts old)); reflexivity. }
  split; [unfold count, merge_walk; cbn [xinds]; apply app_length|].
  split.
  { unfold shaped, count, merge_walk in *; cbn [xinds yinds times opts]. rewrite !app_length. split; [lia|]. split; [lia|].
    intros v I. rewrite DG by exact I. eexists. split; [reflexivity|]. destruct (OO v I) as (lo & -> & Ll). destruct (NO v I) as (ln & -> & Ln).
    cbn [dflt]. rewrite app_length. lia. }
  split; [exact KE'|]. split.
  - intros p Hp. unfold row, merge_walk; cbn [xinds yinds times opts]. unfold count in *. rewrite !app_nth1 by lia. f_equal.
    apply map_ext_in. intros v I. f_equal. rewrite DG by exact I. destruct (OO v I) as (lo & -> & Ll). cbn [dflt]. apply app_nth1. lia.
  - intros p Hp. unfold row, merge_walk; cbn [xinds yinds times opts]. unfold count in *. rewrite !app_nth2 by lia.
    rewrite OY, OT. replace (length (xinds old) + p - length (xinds old))%nat with p by lia. f_equal.
    apply map_ext_in. intros v I. f_equal. rewrite DG by exact I. destruct (OO v I) as (lo & -> & Ll). cbn [dflt]. rewrite app_nth2 by lia. f_equal. lia.
Qed.

Lemma seeded_safe (P : pobj T) np xl yl t0 m prev xs ys : seeds_ok P (OpGen np xl yl t0 m prev) -> seeded m np xl yl xs ys ->
  (m = Exact -> xl <> []) ->
  forall p, In p (combine xs ys) -> safe_pos P (fst p) (snd p).
Proof.
  intros SO (LX & LY & S) NE (x, y) I. cbn [fst snd].
  destruct m; cbn [seeds_ok] in SO.
  - destruct SO as (_ & SO). destruct S as (SX & SY). rewrite Forall_forall in SX, SY.
    apply SO; [apply SX; eapply in_combine_l; eauto | apply SY; eapply in_combine_r; eauto].
  - destruct SO as (_ & HL & SO). apply (In_nth _ _ (0, 0)) in I as (i & Hi & E).
    rewrite combine_length, LX, LY in Hi. rewrite combine_nth in E by lia. injection E as <- <-.
    destruct (S i ltac:(lia)) as (-> & ->). apply SO.
    assert (LP : (0 < length xl)%nat) by (destruct xl; [exfalso; apply NE; reflexivity | simpl; lia]).
    rewrite <- combine_nth by (symmetry; exact HL). apply nth_In. rewrite combine_length, HL. pose proof (Nat.mod_upper_bound i (length xl)). lia.
Qed.

Lemma generate_spec lm (P : pobj T) draws np xl yl t0 m prev s s' :
  field_ok lm P -> seeds_ok P (OpGen np xl yl t0 m prev) ->
  match s_walk s with Some w => shaped (tvars P) w | None => True end ->
  match prev with Some w => shaped (tvars P) w | None => True end ->
  generate_particles P draws np xl yl t0 m prev s = Ok s' ->
  vars_ok P /\ (m = Exact -> xl <> []) /\
  exists w' xs ys, s_walk s' = Some w' /\ s_np s' = Z.of_nat (count w') /\ w_arr (s_wst s') = w_arr (s_wst s) /\
    seeded m np xl yl xs ys /\
    count w' = (opt_count prev + stored_count s + Z.to_nat np)%nat /\
    shaped (tvars P) w' /\ map fst (opts w') = tvars P /\
    (forall p, (p < opt_count prev)%nat -> row (tvars P) w' p = opt_row (tvars P) prev p) /\
    (forall p, (p < stored_count s)%nat -> row (tvars P) w' (opt_count prev + p) = opt_row (tvars P) (s_walk s) p) /\
    (forall p, (p < Z.to_nat np)%nat -> row (tvars P) w' (opt_count prev + stored_count s + p) =
        seed_row P (tvars P) (nth p xs 0) (nth p ys 0) t0).
Proof.
  intros FO SO SHs SHp H. unfold generate_particles in H. cbv zeta in H.
  apply bind_ok in H as (((xs & ys) & pos') & ES & H). cbv beta iota in H.
  assert (NP : 0 <= np) by (destruct m; apply SO).
  assert (NE : m = Exact -> xl <> []).
  { intros -> ->. cbn in ES. discriminate. }
  assert (SD : seeded m np xl yl xs ys).
  { destruct m.
    - apply bind_ok in ES as ((xs1 & p1) & E1 & ES). cbv beta iota in ES. apply bind_ok in ES as ((ys1 & p2) & E2 & ES). cbv beta iota in ES.
      injection ES as <- <- <-. destruct (pick_seeds_spec _ _ _ _ _ _ E1) as (A1 & A2 & _). destruct (pick_seeds_spec _ _ _ _ _ _ E2) as (B1 & B2 & _).
      repeat split; assumption.
    - destruct SO as (_ & HL & _). destruct (exact_seeds_spec np xl yl NP (NE eq_refl) HL) as (xs1 & ys1 & E1 & L1 & L2 & K).
      rewrite E1 in ES. cbn [bind] in ES. injection ES as <- <- <-. repeat split; try assumption; apply K; assumption. }
  split; [|split; [exact NE|]].
  { intros v I. apply bind_ok in H as (nx & _ & H). apply bind_ok in H as (ny & _ & H). apply bind_ok in H as (ov & EO & _).
    destruct (start_vars_spec P (combine xs ys) (proj1 FO)) with (vs := o_vars P) (kvs := @nil string) (r := ov) as (_ & L).
    - intros p Ip. apply safe_in_grid; [apply FO | apply FO | eapply seeded_safe; eauto].
    - exact EO.
    - apply tvars_in in I as (I & B). apply L; assumption. }
  pose proof SD as (LX & LY & _).
  assert (MK : forall l : list Z, length l = Z.to_nat np -> mapM (fun i => x <- py_nth l i ;; Ok [x]) (zrange 0 np) = Ok (map (fun x => [x]) l)).
  { intros l Ll. rewrite (mapM_map _ (fun i => [nth (Z.to_nat i) l 0])).
    - f_equal. apply (nth_ext _ _ [0] [0]).
      + rewrite !map_length, zrange_length. lia.
      + intros i Hi. rewrite map_length, zrange_length in Hi. rewrite (nth_map_d _ _ i 0) by (rewrite zrange_length; lia).
        rewrite (nth_map_d _ l i 0) by lia. rewrite zrange_nth by lia. replace (Z.to_nat (0 + Z.of_nat i)) with i by lia. reflexivity.
    - intros i I. apply zrange_In in I. rewrite <- (Z2Nat.id i) at 1 by lia. rewrite (py_nth_ok l _ 0) by lia. reflexivity. }
  rewrite (MK xs LX) in H. cbn [bind] in H. rewrite (MK ys LY) in H. cbn [bind] in H. apply bind_ok in H as (ov & EO & H).
  assert (EOV : ov = map (fun v => (v, map (fun p => [field_value P v (fst p) (snd p)]) (combine xs ys))) (tvars P)).
  { destruct (start_vars_spec P (combine xs ys) (proj1 FO)) with (vs := o_vars P) (kvs := @nil string) (r := ov) as (E & _); [| exact EO | exact E].
    intros p Ip. apply safe_in_grid; [apply FO | apply FO | eapply seeded_safe; eauto]. }
  set (w0 := {| xinds := map (fun x => [x]) xs; yinds := map (fun x => [x]) ys; times := repeat [t0] (Z.to_nat np); opts := ov |}) in H.
  assert (C0 : count w0 = Z.to_nat np) by (unfold count, w0; cbn [xinds]; rewrite map_length; exact LX).
  assert (S0 : shaped (tvars P) w0).
  { unfold shaped. rewrite C0. unfold w0; cbn [yinds times opts]. rewrite map_length, repeat_length. split; [exact LY|]. split; [reflexivity|].
    intros v I. rewrite EOV, dget_map by exact I. eexists. split; [reflexivity|]. rewrite map_length, combine_length. lia. }
  assert (K0 : map fst (opts w0) = tvars P) by (unfold w0; cbn [opts]; rewrite EOV, map_map; apply map_id).
  assert (R0 : forall p, (p < Z.to_nat np)%nat -> row (tvars P) w0 p = seed_row P (tvars P) (nth p xs 0) (nth p ys 0) t0).
  { intros p Hp. unfold row, seed_row, w0; cbn [xinds yinds times opts]. rewrite !(nth_map_d _ _ p 0) by lia. rewrite (nth_indep (repeat [t0] (Z.to_nat np)) [] [t0]) by (rewrite repeat_length; exact Hp). rewrite nth_repeat.
    f_equal; [].
    apply map_ext_in. intros v I. f_equal. rewrite EOV, dget_map by exact I. cbn [dflt].
    rewrite (nth_map_d _ _ p (0, 0)) by (rewrite combine_length; lia). rewrite combine_nth by lia. reflexivity. }
  (* stored *)
  set (w1 := match s_walk s with Some w => merge_walk w w0 | None => w0 end) in H.
  assert (W1 : count w1 = (stored_count s + Z.to_nat np)%nat /\ shaped (tvars P) w1 /\ map fst (opts w1) = tvars P /\
     (forall p, (p < stored_count s)%nat -> row (tvars P) w1 p = opt_row (tvars P) (s_walk s) p) /\
     (forall p, (p < Z.to_nat np)%nat -> row (tvars P) w1 (stored_count s + p) = seed_row P (tvars P) (nth p xs 0) (nth p ys 0) t0)).
  { unfold w1, stored_count. destruct (s_walk s) as [w|].
    - destruct (merge_spec (tvars P) w w0 SHs S0 K0) as (A & B & C & D & E). split; [lia|]. split; [exact B|]. split; [exact C|].
      split; [exact D|]. intros p Hp. rewrite E by lia. apply R0, Hp.
    - split; [exact C0|]. split; [exact S0|]. split; [exact K0|]. split; [intros; lia|]. exact R0. }
  clearbody w1. destruct W1 as (C1 & S1 & K1 & RA & RB).
  set (w2 := match prev with Some w => merge_walk w w1 | None => w1 end) in H.
  assert (W2 : count w2 = (opt_count prev + count w1)%nat /\ shaped (tvars P) w2 /\ map fst (opts w2) = tvars P /\
     (forall p, (p < opt_count prev)%nat -> row (tvars P) w2 p = opt_row (tvars P) prev p) /\
     (forall p, (p < count w1)%nat -> row (tvars P) w2 (opt_count prev + p) = row (tvars P) w1 p)).
  { unfold w2. destruct prev as [w|]; cbn [opt_count].
    - destruct (merge_spec (tvars P) w w1 SHp S1 K1) as (A & B & C & D & E). repeat (split; [assumption|]). assumption.
    - split; [reflexivity|]. split; [exact S1|]. split; [exact K1|]. split; [intros; lia|]. reflexivity. }
  clearbody w2. destruct W2 as (C2 & S2 & K2 & RC & RD).
  injection H as <-. cbn [s_walk s_np s_wst w_arr].
  exists w2, xs, ys. split; [reflexivity|]. split; [reflexivity|]. split; [reflexivity|]. split; [exact SD|]. split; [lia|].
  split; [exact S2|]. split; [exact K2|]. split; [exact RC|]. split.
  - intros p Hp. rewrite RD by lia. apply RA, Hp.
  - intros p Hp. rewrite <- Nat.add_assoc, RD by lia. apply RB, Hp.
Qed.
End S.

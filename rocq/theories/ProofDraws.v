(** A call consumes a segment of the random stream, and its result depends on that segment only. *)
From Coq Require Import ZArith Bool String List Lia.
From Verif Require Import Num Py NumFacts Walker ParticleTrack SpecWalk Parallel SpecPar ProofStep ProofGen.
Import ListNotations.
Open Scope Z_scope.
Open Scope res_scope.

Section C.
Context {T : Type} {N : Num T}.
Lemma agree_l (d d' : nat -> T) a b c : agree d d' a c -> (b <= c)%nat -> agree d d' a b.
Proof. intros H Hb n Hn. apply H. lia. Qed.
Lemma agree_r (d d' : nat -> T) a b c : agree d d' a c -> (a <= b)%nat -> agree d d' b c.
Proof. intros H Hb n Hn. apply H. lia. Qed.

Lemma mapS_loc {A B S} (pos : S -> nat) (f : (nat -> T) -> A -> S -> res (B * S)) d :
  (forall a s b s', f d a s = Ok (b, s') -> (pos s <= pos s')%nat /\ forall d', agree d d' (pos s) (pos s') -> f d' a s = Ok (b, s')) ->
  forall l s bs s', mapS (f d) l s = Ok (bs, s') -> (pos s <= pos s')%nat /\ forall d', agree d d' (pos s) (pos s') -> mapS (f d') l s = Ok (bs, s').
Proof.
  intros H. induction l as [|a l IH]; intros s bs s' E; cbn [mapS] in *.
  - injection E as <- <-. split; [lia | reflexivity].
  - apply bind_ok in E as ((b & s1) & E1 & E). apply bind_ok in E as ((bs1 & s2) & E2 & E). injection E as <- <-.
    destruct (H _ _ _ _ E1) as (A1 & B1). destruct (IH _ _ _ E2) as (A2 & B2). split; [lia|]. intros d' AG.
    rewrite (B1 d') by (eapply agree_l; eauto). cbn [bind]. rewrite (B2 d') by (eapply agree_r; eauto). reflexivity.
Qed.
Lemma get_weight_loc (P : pobj T) d x s b s' : (if pair_eqb x (0, 0) then Ok (4%nat, s) else get_weight P d x s) = Ok (b, s') ->
  (w_pos s <= w_pos s')%nat /\ forall d', agree d d' (w_pos s) (w_pos s') -> (if pair_eqb x (0, 0) then Ok (4%nat, s) else get_weight P d' x s) = Ok (b, s').
Proof.
  destruct (pair_eqb x (0, 0)); intros E.
  - injection E as <- <-. split; [lia | reflexivity].
  - unfold get_weight in *. destruct (norm_ix (nrow (w_arr s)) (fst x)) as [i|]; [|discriminate]. destruct (norm_ix (ncol (w_arr s)) (snd x)) as [j|]; [|discriminate].
    apply bind_ok in E as ((k & v) & E1 & E). injection E as <- <-. cbn [w_pos]. split; [lia|]. intros d' AG. rewrite (AG (w_pos s)) by lia. rewrite E1. reflexivity.
Qed.
Lemma travel_loc lm (P : pobj T) d c i ni ds pos t pos' : calc_travel_times lm P d c i ni ds pos = Ok (t, pos') ->
  (pos <= pos')%nat /\ forall d', agree d d' pos pos' -> calc_travel_times lm P d' c i ni ds pos = Ok (t, pos').
Proof.
  unfold calc_travel_times. destruct (negb (pair_eqb i ni)); intros E; [|injection E as <- <-; split; [lia | reflexivity]].
  apply bind_ok in E as (ov & -> & E). apply bind_ok in E as (nv & -> & E). cbn [bind]. destruct (nltb n0 (o_diff P)).
  - apply bind_ok in E as (an & -> & E). apply bind_ok in E as (va & -> & E). injection E as <- <-. split; [lia|]. intros d' AG. cbn [bind]. rewrite (AG pos) by lia. reflexivity.
  - apply bind_ok in E as (an & -> & E). apply bind_ok in E as (va & -> & E). injection E as <- <-. split; [lia|]. reflexivity.
Qed.
Lemma stepper_loc lm (P : pobj T) d ci tt ov s r s' : particle_stepper lm P d ci tt ov s = Ok (r, s') ->
  (w_pos s <= w_pos s')%nat /\ forall d', agree d d' (w_pos s) (w_pos s') -> particle_stepper lm P d' ci tt ov s = Ok (r, s').
Proof.
  unfold particle_stepper. intros E. apply bind_ok in E as ((nc & s1) & E1 & E). apply bind_ok in E as (ni & E2 & E). apply bind_ok in E as (ds & E3 & E). cbv zeta in E.
  apply bind_ok in E as ((tm & pos') & E4 & E). apply bind_ok in E as (ts & E5 & E). apply bind_ok in E as (o0 & E6 & E). apply bind_ok in E as (o1 & E7 & E). injection E as <- <-.
  destruct (mapS_loc (@w_pos T) (fun d x s => if pair_eqb x (0, 0) then Ok (4%nat, s) else get_weight P d x s) d (get_weight_loc P d) _ _ _ _ E1) as (A1 & B1).
  assert (TL : forall (a : nat * ((Z * Z) * ((Z * Z) * T))) p b p', (let '(c, (ind, (nind, ds))) := a in calc_travel_times lm P d c ind nind ds p) = Ok (b, p') ->
     (p <= p')%nat /\ forall d', agree d d' p p' -> (let '(c, (ind, (nind, ds))) := a in calc_travel_times lm P d' c ind nind ds p) = Ok (b, p')).
  { intros (c & i & n & x) p b p'. apply travel_loc. }
  destruct (mapS_loc (fun n : nat => n) (fun d w pos => let '(c, (ind, (nind, ds))) := w in calc_travel_times lm P d c ind nind ds pos) d TL _ _ _ _ E4) as (A2 & B2).
  cbn [w_pos]. split; [lia|]. intros d' AG. specialize (B1 d' (agree_l _ _ _ _ _ AG A2)). specialize (B2 d' (agree_r _ _ _ _ _ AG A1)). cbv beta in B1, B2.
  rewrite B1. cbn [bind]. rewrite E2. cbn [bind]. rewrite E3. cbn [bind]. rewrite B2. cbn [bind]. rewrite E5. cbn [bind]. rewrite E6. cbn [bind]. rewrite E7. reflexivity.
Qed.
Lemma pick_seeds_loc d locs n : forall pos xs pos', pick_seeds d locs n pos = Ok (xs, pos') ->
  (pos' = pos + n)%nat /\ forall d', agree d d' pos pos' -> pick_seeds d' locs n pos = Ok (xs, pos').
Proof.
  induction n as [|n IH]; intros pos xs pos' E; cbn [pick_seeds] in *.
  - injection E as <- <-. split; [lia | reflexivity].
  - apply bind_ok in E as (x & E1 & E). apply bind_ok in E as ((xs1 & p1) & E2 & E). injection E as <- <-. destruct (IH _ _ _ E2) as (A & B).
    split; [lia|]. intros d' AG. rewrite (AG pos) by lia. rewrite E1. cbn [bind]. rewrite (B d') by (eapply agree_r; [exact AG | lia]). reflexivity.
Qed.
Notation pos s := (w_pos (s_wst s)).
Lemma generate_loc (P : pobj T) d np xl yl t0 m prev s s' : generate_particles P d np xl yl t0 m prev s = Ok s' ->
  pos s' = (pos s + match m with Random => 2 * Z.to_nat np | Exact => 0 end)%nat /\
  forall d', agree d d' (pos s) (pos s') -> generate_particles P d' np xl yl t0 m prev s = Ok s'.
Proof.
  unfold generate_particles. cbv zeta. intros E. apply bind_ok in E as (((xs & ys) & p') & E1 & E). cbv beta iota in E.
  apply bind_ok in E as (nx & E2 & E). apply bind_ok in E as (ny & E3 & E). apply bind_ok in E as (ov & E4 & E). injection E as <-. cbn [s_wst w_pos].
  destruct m.
  - apply bind_ok in E1 as ((xs1 & p1) & F1 & E1). apply bind_ok in E1 as ((ys1 & p2) & F2 & E1). injection E1 as <- <- <-.
    destruct (pick_seeds_loc _ _ _ _ _ _ F1) as (A1 & B1). destruct (pick_seeds_loc _ _ _ _ _ _ F2) as (A2 & B2). split; [lia|]. intros d' AG.
    rewrite (B1 d') by (eapply agree_l; [exact AG | lia]). cbn [bind]. rewrite (B2 d') by (eapply agree_r; [exact AG | lia]). cbn [bind]. rewrite E2. cbn [bind]. rewrite E3. cbn [bind]. rewrite E4. reflexivity.
  - apply bind_ok in E1 as ((xs1 & ys1) & F1 & E1). injection E1 as <- <- <-. split; [lia|]. intros d' AG. rewrite F1. cbn [bind]. rewrite E2. cbn [bind]. rewrite E3. cbn [bind]. rewrite E4. reflexivity.
Qed.
Lemma run_step_loc lm (P : pobj T) d s w s' : run_step lm P d s = Ok (w, s') ->
  (pos s <= pos s')%nat /\ forall d', agree d d' (pos s) (pos s') -> run_step lm P d' s = Ok (w, s').
Proof.
  unfold run_step. destruct (s_walk s) as [wd|]; [|discriminate]. cbv zeta. intros E.
  apply bind_ok in E as (sx & E1 & E). apply bind_ok in E as (sy & E2 & E). apply bind_ok in E as (st & E3 & E). apply bind_ok in E as (x & E4 & E).
  apply bind_ok in E as ((((ni & tts) & upd) & ws) & E5 & E). apply bind_ok in E as (ov & E6 & E). injection E as <- <-. cbn [s_wst].
  destruct (stepper_loc _ _ _ _ _ _ _ _ _ E5) as (A & B). split; [exact A|]. intros d' AG. rewrite E1. cbn [bind]. rewrite E2. cbn [bind]. rewrite E3. cbn [bind]. rewrite E4. cbn [bind].
  rewrite (B d' AG). cbn [bind]. rewrite E6. reflexivity.
Qed.
Lemma run_row_loc lm (P : pobj T) d target mi fuel : forall r est c s r' s' b, run_row fuel lm P d target mi r est c s = Ok (r', s', b) ->
  (w_pos s <= w_pos s')%nat /\ forall d', agree d d' (w_pos s) (w_pos s') -> run_row fuel lm P d' target mi r est c s = Ok (r', s', b).
Proof.
  induction fuel as [|fuel IH]; intros r est c s r' s' b E; cbn [run_row] in *; [discriminate|].
  apply bind_ok in E as (x & -> & E). apply bind_ok in E as (y & -> & E). apply bind_ok in E as (t & -> & E). cbn [bind].
  destruct (nleb _ _); [|injection E as <- <- <-; split; [lia | reflexivity]].
  apply bind_ok in E as (k & -> & E). apply bind_ok in E as ((((ni & tts) & upd) & s1) & E5 & E). destruct (stepper_loc _ _ _ _ _ _ _ _ _ E5) as (A & B). cbn [bind].
  apply bind_ok in E as (p & E6 & E). destruct (negb (pair_eqb p (x, y))) eqn:EP.
  - apply bind_ok in E as (t' & E7 & E). apply bind_ok in E as (o' & E8 & E). destruct (mi <? c + 1) eqn:EM.
    + injection E as <- <- <-. split; [exact A|]. intros d' AG. rewrite (B d' AG). cbn [bind]. rewrite E6. cbn [bind]. rewrite EP, E7. cbn [bind]. rewrite E8. reflexivity.
    + destruct (IH _ _ _ _ _ _ _ E) as (A2 & B2). split; [lia|]. intros d' AG. rewrite (B d') by (eapply agree_l; [exact AG | lia]). cbn [bind]. rewrite E6. cbn [bind]. rewrite EP, E7. cbn [bind]. rewrite E8. cbn [bind].
      apply (B2 d'). eapply agree_r; [exact AG | lia].
  - injection E as <- <- <-. split; [exact A|]. intros d' AG. rewrite (B d' AG). cbn [bind]. rewrite E6. cbn [bind]. rewrite EP. reflexivity.
Qed.
Lemma run_particle_loc lm (P : pobj T) d target mi r s r' s' b : run_particle lm P d target mi r s = Ok (r', s', b) ->
  (w_pos s <= w_pos s')%nat /\ forall d', agree d d' (w_pos s) (w_pos s') -> run_particle lm P d' target mi r s = Ok (r', s', b).
Proof.
  unfold run_particle. intros E. apply bind_ok in E as (est & -> & E). apply bind_ok in E as (x & -> & E). apply bind_ok in E as (y & -> & E). cbn [bind].
  destruct (near_edge _ _ _); [injection E as <- <- <-; split; [lia | reflexivity]|]. eapply run_row_loc. exact E.
Qed.
Lemma run_particles_loc lm (P : pobj T) d target mi idx : forall wd ov s warn wd' ov' s' warn', run_particles lm P d target mi idx wd ov s warn = Ok (wd', ov', s', warn') ->
  (w_pos s <= w_pos s')%nat /\ forall d', agree d d' (w_pos s) (w_pos s') -> run_particles lm P d' target mi idx wd ov s warn = Ok (wd', ov', s', warn').
Proof.
  induction idx as [|ii idx IH]; intros wd ov s warn wd' ov' s' warn' E; cbn [run_particles] in *.
  - injection E as <- <- <- <-. split; [lia | reflexivity].
  - apply bind_ok in E as (r & -> & E). apply bind_ok in E as (((r' & s1) & over) & E1 & E). cbv zeta in E. destruct (run_particle_loc _ _ _ _ _ _ _ _ _ _ E1) as (A & B).
    destruct (IH _ _ _ _ _ _ _ _ E) as (A2 & B2). split; [lia|]. intros d' AG. cbn [bind]. rewrite (B d') by (eapply agree_l; [exact AG | lia]). cbn [bind]. apply (B2 d'). eapply agree_r; [exact AG | lia].
Qed.
Lemma run_target_loc lm (P : pobj T) d target mi s w wl s' : run_target lm P d target mi s = Ok (w, wl, s') ->
  (pos s <= pos s')%nat /\ forall d', agree d d' (pos s) (pos s') -> run_target lm P d' target mi s = Ok (w, wl, s').
Proof.
  unfold run_target. destruct (s_walk s) as [wd|]; [|discriminate]. cbv zeta. intros E.
  apply bind_ok in E as (sx & -> & E). apply bind_ok in E as (sy & -> & E). apply bind_ok in E as (st & -> & E). apply bind_ok in E as (x & -> & E). cbn [bind].
  apply bind_ok in E as ((((wd' & ov') & ws) & warn) & E5 & E). destruct (run_particles_loc _ _ _ _ _ _ _ _ _ _ _ _ _ _ E5) as (A & B). destruct warn as [wl'|]; [|discriminate]. injection E as <- <- <-. cbn [s_wst].
  split; [exact A|]. intros d' AG. rewrite (B d' AG). reflexivity.
Qed.
Lemma do_op_loc lm (P : pobj T) d o s s' : do_op lm P d o s = Ok s' -> (pos s <= pos s')%nat /\ forall d', agree d d' (pos s) (pos s') -> do_op lm P d' o s = Ok s'.
Proof.
  destruct o; cbn [do_op]; intros E.
  - destruct (generate_loc _ _ _ _ _ _ _ _ _ _ E) as (A & B). split; [lia | exact B].
  - destruct (run_step lm P d s) as [(w & s1)|e] eqn:E1; [|discriminate]. injection E as <-. destruct (run_step_loc _ _ _ _ _ _ E1) as (A & B). split; [exact A|]. intros d' AG. rewrite (B d' AG). reflexivity.
  - destruct (run_target lm P d target max_iter s) as [((w & wl) & s1)|e] eqn:E1; [|discriminate]. injection E as <-. destruct (run_target_loc _ _ _ _ _ _ _ _ _ E1) as (A & B). split; [exact A|]. intros d' AG. rewrite (B d' AG). reflexivity.
  - injection E as <-. split; [cbn; lia | reflexivity].
Qed.
Lemma do_ops_loc lm (P : pobj T) d os : forall s s', do_ops lm P d os s = Ok s' -> (pos s <= pos s')%nat /\ forall d', agree d d' (pos s) (pos s') -> do_ops lm P d' os s = Ok s'.
Proof.
  induction os as [|o os IH]; intros s s' E; cbn [do_ops] in *; [injection E as <-; split; [lia | reflexivity]|].
  apply bind_ok in E as (s1 & E1 & E). destruct (do_op_loc _ _ _ _ _ _ E1) as (A & B). destruct (IH _ _ E) as (A2 & B2). split; [lia|]. intros d' AG.
  rewrite (B d') by (eapply agree_l; [exact AG | lia]). cbn [bind]. apply (B2 d'). eapply agree_r; [exact AG | lia].
Qed.
End C.

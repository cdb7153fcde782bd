(** Property C124: going on from walk data that are assigned to the attribute walk_data of an object. *)
From Coq Require Import ZArith Bool String List Lia.
From Verif Require Import Num F64 F64Laws Py NumFacts NumMore Walker ParticleTrack SpecWeights SpecPick SpecWalk SpecHist SpecInit SpecMotion SpecApi SpecSim SpecSave
  ProofWeights ProofWeightLaws ProofInit ProofPick ProofStep ProofRun ProofHist ProofApi2 ProofSim ProofSave Examples ExamplesReach P_Interrupt P_Fields P_Clear.
Import ListNotations.
Open Scope Z_scope.

(** The assignment particles.walk_data = w (walk_data is a plain attribute, pt:407-408, read at pt:659-684). *)
Definition assign_walk {T} (w : walk T) (r : psim T) : psim T := {| s_np := s_np r; s_walk := Some w; s_wst := s_wst r |}.

(** Both programs raise the same exception, or both return with the same walk data and the generator in the same state. *)
Definition same_outcome {T} (x y : res (psim T)) : Prop := match_res (fun a b => s_walk a = s_walk b /\ w_pos (s_wst a) = w_pos (s_wst b)) x y.
Lemma same_outcome_refl {T} (x : res (psim T)) : same_outcome x x.
Proof. destruct x; cbn; auto. Qed.
Lemma same_outcome_trans {T} (x y z : res (psim T)) : same_outcome x y -> same_outcome y z -> same_outcome x z.
Proof. destruct x, y, z; cbn; try contradiction; [intros (A & B) (C & D); split; congruence | congruence]. Qed.

(** A number of particles that is 0 means all particles of the data. *)
Lemma np_zero lm (P : pobj f64) draws w ws os :
  same_outcome (do_ops lm P draws os {| s_np := Z.of_nat (count w); s_walk := Some w; s_wst := ws |}) (do_ops lm P draws os {| s_np := 0; s_walk := Some w; s_wst := ws |}).
Proof.
  destruct os as [|o os]; [cbn; auto|]. cbn [do_ops].
  assert (C : (if Z.of_nat (count w) =? 0 then Z.of_nat (length (xinds w)) else Z.of_nat (count w)) = Z.of_nat (length (xinds w))) by (unfold count; destruct (Z.eqb_spec (Z.of_nat (length (xinds w))) 0); reflexivity).
  destruct o as [np xl yl t0 m prev| |tg mi|].
  - apply same_outcome_refl.
  - replace (do_op lm P draws OpRun {| s_np := Z.of_nat (count w); s_walk := Some w; s_wst := ws |}) with (do_op lm P draws OpRun {| s_np := 0; s_walk := Some w; s_wst := ws |}); [apply same_outcome_refl|].
    cbn [do_op]. unfold run_step. cbn [s_walk s_np s_wst]. rewrite C. reflexivity.
  - replace (do_op lm P draws (OpRunTo tg mi) {| s_np := Z.of_nat (count w); s_walk := Some w; s_wst := ws |}) with (do_op lm P draws (OpRunTo tg mi) {| s_np := 0; s_walk := Some w; s_wst := ws |}); [apply same_outcome_refl|].
    cbn [do_op]. unfold run_target. cbn [s_walk s_np s_wst]. rewrite C. reflexivity.
  - cbn [do_op bind]. unfold clear_walk_data. cbn [s_np s_wst]. pose proof (np_unused lm P draws os (Z.of_nat (count w)) 0 ws) as A. unfold same_outcome, match_res.
    destruct (do_ops lm P draws os _), (do_ops lm P draws os _); try contradiction; [destruct A as (A1 & A2 & _); auto | exact A].
Qed.

(** C124 The data w of a session are assigned to an object r made from the same parameters, on which no particles were generated so far or whose last simulation had as
    many particles as w.  Then r goes on as the object of the session would have done: whatever calls follow and whatever random numbers are delivered. *)
Theorem C124_assigned_data_partial :
  forall G lm L W (p : params f64) P draws s w draws' r, session G lm L W p P draws s -> s_walk s = Some w -> session G lm L W p P draws' r ->
    s_np r = 0 \/ s_np r = Z.of_nat (count w) ->
    forall later n os, same_outcome (do_ops lm P later os (at_pos n s)) (do_ops lm P later os (at_pos n (assign_walk w r))).
Proof.
  intros G lm L W p P draws s w draws' r SS SW SR NR later n os. destruct (session_data _ _ _ _ _ _ _ _ _ SS SW) as (FO & _ & WI & _ & NP & _).
  destruct (session_field lm L W p P draws' r SR) as (_ & _ & U' & R' & _). destruct (reached_inv lm P draws' r FO U' R') as (WI' & _). pose proof FO as (WF & GA & PW & _).
  set (ws := {| w_arr := w_arr (s_wst r); w_pos := n |}).
  assert (A : same_outcome (do_ops lm P later os (at_pos n s)) (do_ops lm P later os {| s_np := Z.of_nat (count w); s_walk := Some w; s_wst := ws |})).
  { assert (B : match_res same_data (do_ops lm P later os (at_pos n s)) (do_ops lm P later os {| s_np := Z.of_nat (count w); s_walk := Some w; s_wst := ws |})).
    { apply alike_continue. split; [symmetry; exact NP|]. split; [cbn [at_pos s_walk]; rewrite SW; cbn [option_map]; rewrite map_walk_keep; reflexivity|].
      destruct WI as (WR & WC & WV). destruct WI' as (MR & MC & MV). cbn [s_wst at_pos w_pos w_arr ws]. split; [reflexivity|]. split; [cbn; congruence|]. split; [cbn; congruence|].
      intros i j Hi Hj. assert (IG : in_grid P i j) by (split; [rewrite <- WR | rewrite <- WC]; assumption). pose proof (weights_no_negative lm P i j WF GA PW IG) as NN.
      assert (EV : forall v, v = weights_of lm P i j \/ v = pick_vector P (weights_of lm P i j) -> pick_vector P v = pick_vector P (weights_of lm P i j)) by (intros v [-> | ->]; [reflexivity | apply pick_vector_idem, NN]).
      unfold visited_like, ws. cbn [at_pos s_wst w_arr]. rewrite (EV _ (WV i j IG)), (EV _ (MV i j IG)). split; [reflexivity | apply pick_vector_idem, NN]. }
    destruct (do_ops lm P later os (at_pos n s)), (do_ops lm P later os _); cbn in *; try contradiction; [destruct B as (_ & B1 & B2); split; congruence | exact B]. }
  unfold at_pos at 2, assign_walk. cbn [s_np s_walk s_wst]. destruct NR as [-> | ->]; [|exact A]. eapply same_outcome_trans; [exact A | apply np_zero].
Qed.
Print Assumptions C124_assigned_data_partial.

Lemma mapM_last_short {A} (l : list (list A)) np : (length l < Z.to_nat np)%nat -> mapM (last_of l) (zrange 0 np) = Err IndexError.
Proof.
  intros H. assert (E : forall idx e, mapM (last_of l) idx = Err e -> e = IndexError).
  { assert (E1 : forall i e, last_of l i = Err e -> e = IndexError).
    { intros i e. unfold last_of, py_last, py_nth. destruct (norm_ix _ i); [|cbn; congruence]. destruct (nth_error l _) as [row|]; cbn [bind]; [|congruence].
      destruct (norm_ix _ _); [|congruence]. destruct (nth_error row _); congruence. }
    induction idx as [|i idx IH]; intros e; cbn [mapM]; [discriminate|]. destruct (last_of l i) eqn:Ei; cbn [bind]; [|intros X; injection X as <-; exact (E1 _ _ Ei)].
    destruct (mapM (last_of l) idx) eqn:Em; cbn [bind]; [discriminate|]. intros X; injection X as <-. exact (IH _ eq_refl). }
  assert (NO : forall idx r, In (Z.of_nat (length l)) idx -> mapM (last_of l) idx = Ok r -> False).
  { induction idx as [|i idx IH]; [intros r []|]; intros r [-> | I]; cbn [mapM].
    - unfold last_of, py_nth, norm_ix. destruct (Z.ltb_spec (Z.of_nat (length l)) 0); [lia|]. rewrite Z.ltb_irrefl, ?andb_false_r. cbn. try discriminate.
    - destruct (last_of l i); cbn [bind]; [|discriminate]. destruct (mapM (last_of l) idx) eqn:Em; cbn [bind]; [|discriminate]. intros _. exact (IH _ I eq_refl). }
  destruct (mapM (last_of l) (zrange 0 np)) eqn:Em; [|f_equal; exact (E _ _ Em)]. exfalso. apply (NO _ _ (in_zrange 0 np (Z.of_nat (length l)) ltac:(lia)) Em).
Qed.

(** The condition is needed: if the last simulation of r had more particles, run_iteration raises an IndexError ... *)
Theorem C124_more_particles_refuted :
  forall lm (P : pobj f64) w r later target max_iter, Z.of_nat (count w) < s_np r ->
    do_op lm P later OpRun (assign_walk w r) = Err IndexError /\ do_op lm P later (OpRunTo target max_iter) (assign_walk w r) = Err IndexError.
Proof.
  intros lm P w r later target max_iter H. assert (S : mapM (last_of (xinds w)) (zrange 0 (s_np r)) = Err IndexError) by (apply mapM_last_short; unfold count in H; lia).
  cbn [do_op]. unfold run_step, run_target, assign_walk. cbn [s_walk s_np s_wst]. destruct (Z.eqb_spec (s_np r) 0) as [Z0|_]; [lia|]. cbv zeta. rewrite S. split; reflexivity.
Qed.
Print Assumptions C124_more_particles_refuted.

(** ... and if it had fewer, the other particles of w silently stand still although the data have been cleared (clear_walk_data does not reset the number of particles). *)
Definition as_ops : list (op f64) := [OpGen 1 [4] [3] n0 Random None; OpClear].
Definition as_r : psim f64 := unerr (init_sim ex_lm fx_P 0) (do_ops ex_lm fx_P ex_draws as_ops (init_sim ex_lm fx_P 0)).
Definition as_two (d : psim f64) (r q : res (psim f64)) : bool :=
  is_ok r && is_ok q && (s_np (unerr d q) =? 1) && match s_walk (unerr d r), s_walk (unerr d q) with
  | Some w, None =>
      match do_op ex_lm fx_P ex_draws OpRun (at_pos 0 (unerr d r)), do_op ex_lm fx_P ex_draws OpRun (at_pos 0 (assign_walk w (unerr d q))) with
      | Ok a, Ok b => match s_walk a, s_walk b with
          | Some wa, Some wb => (count w =? 2)%nat && (length (nth 1 (xinds w) []) =? 3)%nat && (length (nth 1 (xinds wa) []) =? 4)%nat && (length (nth 1 (xinds wb) []) =? 3)%nat
          | _, _ => false end
      | _, _ => false end
  | _, _ => false end.
Lemma as_two_ok d r q : as_two d r q = true -> q = Ok (unerr d q) /\ s_np (unerr d q) = 1 /\ s_walk (unerr d q) = None /\ exists w a b wa wb, s_walk (unerr d r) = Some w /\
  do_op ex_lm fx_P ex_draws OpRun (at_pos 0 (unerr d r)) = Ok a /\ do_op ex_lm fx_P ex_draws OpRun (at_pos 0 (assign_walk w (unerr d q))) = Ok b /\
  s_walk a = Some wa /\ s_walk b = Some wb /\ count w = 2%nat /\ length (nth 1 (xinds w) []) = 3%nat /\ length (nth 1 (xinds wa) []) = 4%nat /\ length (nth 1 (xinds wb) []) = 3%nat.
Proof.
  unfold as_two. intros C. apply andb_true_iff in C as (C & D). apply andb_true_iff in C as (C & C3). apply andb_true_iff in C as (C1 & C2). apply Z.eqb_eq in C3.
  split; [apply is_ok_unerr, C2|]. split; [exact C3|]. destruct (s_walk (unerr d r)) as [w|]; [|discriminate]. destruct (s_walk (unerr d q)); [discriminate|]. split; [reflexivity|].
  destruct (do_op ex_lm fx_P ex_draws OpRun (at_pos 0 (unerr d r))) as [a|]; [|discriminate].
  destruct (do_op ex_lm fx_P ex_draws OpRun (at_pos 0 (assign_walk w (unerr d q)))) as [b|] eqn:EB; [|discriminate].
  destruct (s_walk a) as [wa|] eqn:EA; [|discriminate]. destruct (s_walk b) as [wb|] eqn:EW; [|discriminate].
  apply andb_true_iff in D as (D & D4). apply andb_true_iff in D as (D & D3). apply andb_true_iff in D as (D1 & D2). apply Nat.eqb_eq in D1, D2, D3, D4.
  exists w, a, b, wa, wb. do 4 (split; [first [reflexivity | assumption]|]). split; [exact EW|]. split; [exact D1|]. split; [exact D2|]. split; [exact D3 | exact D4].
Qed.
Lemma as_checked : as_two (init_sim ex_lm fx_P 0) (do_ops ex_lm fx_P ex_draws fx_ops (init_sim ex_lm fx_P 0)) (do_ops ex_lm fx_P ex_draws as_ops (init_sim ex_lm fx_P 0)) = true.
Proof. vm_compute. reflexivity. Qed.
(** The facts about the two objects, without their definitions. *)
Definition as_about (s q : psim f64) : Prop :=
  s_np q = 1 /\ s_walk q = None /\ exists w a b wa wb, s_walk s = Some w /\
  do_op ex_lm fx_P ex_draws OpRun (at_pos 0 s) = Ok a /\ do_op ex_lm fx_P ex_draws OpRun (at_pos 0 (assign_walk w q)) = Ok b /\
  s_walk a = Some wa /\ s_walk b = Some wb /\ count w = 2%nat /\ length (nth 1 (xinds w) []) = 3%nat /\ length (nth 1 (xinds wa) []) = 4%nat /\ length (nth 1 (xinds wb) []) = 3%nat.
Lemma as_facts : as_about fx_s as_r.
Proof.
  assert (G : forall s q d r0 q0, unerr d r0 = s -> unerr d q0 = q -> as_two d r0 q0 = true -> as_about s q) by (intros s q d r0 q0 <- <- C; exact (proj2 (as_two_ok _ _ _ C))).
  refine (G fx_s as_r _ _ _ _ _ as_checked); exact eq_refl.
Qed.
Lemma as_session : session any_draw ex_lm 10 9 fx_params fx_P ex_draws as_r.
Proof.
  destruct (as_two_ok _ _ _ as_checked) as (A & _). split; [exact fx_standard|]. split; [exact fx_init|]. split; [exact ex_stream_any|]. exists 0%nat, as_ops. split; [|exact A].
  assert (SP : forall x y, 1 <= x < 10 -> 1 <= y < 9 -> safe_pos fx_P x y).
  { intros x y Hx Hy. right. change (nrow (o_depth fx_P)) with 10. change (ncol (o_depth fx_P)) with 9. lia. }
  constructor; [split; [split; [lia | intros x y; cbn [In]; intros; apply SP; lia] | exact I]|]. constructor; [split; exact I|]. constructor.
Qed.
Lemma as_diff (s r : psim f64) w a b wa wb :
  do_op ex_lm fx_P ex_draws OpRun (at_pos 0 s) = Ok a -> do_op ex_lm fx_P ex_draws OpRun (at_pos 0 (assign_walk w r)) = Ok b -> s_walk a = Some wa -> s_walk b = Some wb ->
  length (nth 1 (xinds wa) []) = 4%nat -> length (nth 1 (xinds wb) []) = 3%nat ->
  same_outcome (do_ops ex_lm fx_P ex_draws [OpRun] (at_pos 0 s)) (do_ops ex_lm fx_P ex_draws [OpRun] (at_pos 0 (assign_walk w r))) -> False.
Proof.
  intros EA EB WA WB LA LB H. cbn [do_ops] in H. rewrite EA, EB in H. cbn [bind] in H. destruct H as (H & _). rewrite WA, WB in H. injection H as ->. rewrite LA in LB. discriminate.
Qed.
Theorem C124_fewer_particles_refuted :
  ~ (forall G lm L W (p : params f64) P draws s w draws' r, session G lm L W p P draws s -> s_walk s = Some w -> session G lm L W p P draws' r -> s_walk r = None ->
       forall later n os, same_outcome (do_ops lm P later os (at_pos n s)) (do_ops lm P later os (at_pos n (assign_walk w r)))).
Proof.
  intros H. destruct as_facts as (_ & N & w & a & b & wa & wb & SW & EA & EB & WA & WB & _ & _ & LA & LB).
  refine (as_diff _ _ w a b wa wb EA EB WA WB LA LB _).
  exact (H any_draw ex_lm 10 9 fx_params fx_P ex_draws fx_s w ex_draws as_r (proj1 C22_named_example) SW as_session N ex_draws 0%nat [OpRun]).
Qed.
Print Assumptions C124_fewer_particles_refuted.

(** In general: however often run_iteration is called, the particles beyond the remembered number keep their records. *)
Lemma append_where_beyond {A} m (v : list A) rows p : (length m <= p)%nat -> nth p (append_where m v rows) [] = nth p rows [].
Proof.
  revert m v p. induction rows as [|r rows IH]; intros [|b m] [|x v] p H; cbn [append_where]; try reflexivity. destruct p as [|p]; [cbn in H; lia|]. apply (IH m v p). cbn in H. lia.
Qed.
Lemma map2_length_le {A B C} (f : A -> B -> C) l m : (length (map2 f l m) <= length m)%nat.
Proof. revert m. induction l; destruct m; cbn; try lia. apply le_n_S, IHl. Qed.
Lemma run_step_beyond lm (P : pobj f64) later w r s' : 0 < s_np r -> s_walk r = Some w -> do_op lm P later OpRun r = Ok s' ->
  s_np s' = s_np r /\ exists w', s_walk s' = Some w' /\ forall i, s_np r <= Z.of_nat i -> nth i (xinds w') [] = nth i (xinds w) [] /\ nth i (yinds w') [] = nth i (yinds w) [] /\ nth i (times w') [] = nth i (times w) [].
Proof.
  intros NP SW. cbn [do_op]. unfold run_step. rewrite SW. cbv zeta. destruct (Z.eqb_spec (s_np r) 0) as [Z0|_]; [lia|].
  destruct (mapM (last_of (xinds w)) (zrange 0 (s_np r))) as [sx|] eqn:EX; cbn [bind]; [|discriminate].
  destruct (mapM (last_of (yinds w)) (zrange 0 (s_np r))) as [sy|]; cbn [bind]; [|discriminate].
  destruct (mapM (last_of (times w)) (zrange 0 (s_np r))) as [st|]; cbn [bind]; [|discriminate].
  match goal with |- context [bind (mapM ?g ?l) _] => destruct (mapM g l) as [x0|]; cbn [bind]; [|discriminate] end.
  destruct (particle_stepper lm P later (combine sx sy) st _ (s_wst r)) as [[[[ni tts] upd] ws]|]; cbn [bind]; [|discriminate].
  destruct (mapM (append_opt _ upd) _) as [ov'|]; cbn [bind]; [|discriminate]. intros E. injection E as <-. cbn [s_np s_walk]. split; [reflexivity|].
  eexists. split; [reflexivity|]. cbn [xinds yinds times]. intros i Hi.
  assert (L : (length (map2 (fun a b => negb (pair_eqb a b)) ni (combine sx sy)) <= i)%nat).
  { eapply Nat.le_trans; [apply map2_length_le|]. rewrite combine_length. apply mapM_length in EX. rewrite zrange_length in EX. lia. }
  split; [apply append_where_beyond, L|]. split; apply append_where_beyond, L.
Qed.
Theorem C124_left_behind :
  forall lm (P : pobj f64) w r later k s', 0 < s_np r -> do_ops lm P later (repeat OpRun k) (assign_walk w r) = Ok s' ->
    exists w', s_walk s' = Some w' /\ forall i, s_np r <= Z.of_nat i -> nth i (xinds w') [] = nth i (xinds w) [] /\ nth i (yinds w') [] = nth i (yinds w) [] /\ nth i (times w') [] = nth i (times w) [].
Proof.
  intros lm P w r later k s' NP. assert (G : forall k (r : psim f64) w, 0 < s_np r -> s_walk r = Some w -> do_ops lm P later (repeat OpRun k) r = Ok s' ->
    exists w', s_walk s' = Some w' /\ forall i, s_np r <= Z.of_nat i -> nth i (xinds w') [] = nth i (xinds w) [] /\ nth i (yinds w') [] = nth i (yinds w) [] /\ nth i (times w') [] = nth i (times w) []).
  { clear. induction k as [|k IH]; intros r w NP SW; cbn [repeat do_ops].
    - intros E. injection E as <-. exists w. auto.
    - destruct (do_op lm P later OpRun r) as [s1|] eqn:E1; cbn [bind]; [|discriminate]. intros E. destruct (run_step_beyond lm P later w r s1 NP SW E1) as (N1 & w1 & W1 & H1).
      destruct (IH s1 w1 ltac:(lia) W1 E) as (w' & W' & H'). exists w'. split; [exact W'|]. intros i Hi. destruct (H1 i Hi) as (A1 & A2 & A3). destruct (H' i ltac:(lia)) as (B1 & B2 & B3).
      split; [congruence|]. split; congruence. }
  exact (G k (assign_walk w r) w NP eq_refl).
Qed.
Print Assumptions C124_left_behind.

(** Data of two particles, assigned to a new object; and assigned to an object that had one particle, where particle 1 is not moved. *)
Example C124_example : session any_draw ex_lm 10 9 fx_params fx_P ex_draws fx_s /\ session any_draw ex_lm 10 9 fx_params fx_P ex_draws (init_sim ex_lm fx_P 0) /\
  s_np (init_sim ex_lm fx_P 0) = 0 /\ exists w, s_walk fx_s = Some w /\ count w = 2%nat.
Proof.
  split; [apply C22_named_example|]. split; [|split; [reflexivity|]].
  - split; [exact fx_standard|]. split; [exact fx_init|]. split; [exact ex_stream_any|]. exists 0%nat, []. split; [constructor | reflexivity].
  - destruct as_facts as (_ & _ & w & a & b & wa & wb & SW & _ & _ & _ & _ & CW & _). exists w. split; [exact SW | exact CW].
Qed.

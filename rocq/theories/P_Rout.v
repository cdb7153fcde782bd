(** Properties C49-C51 (slices of walk data and the routines built on them) and C68 (snake plots). *)
From Coq Require Import ZArith Bool String List Lia.
From Verif Require Import Num F64 F64Laws XQ XQLaws Py NumFacts NumMore Walker ParticleTrack Gen SpecWeights SpecPick SpecWalk SpecHist SpecInit
  SpecMotion SpecApi SpecRout PostProc Grid Routines Parallel ProofHist ProofApi2 ProofParallel ProofRout ProofRout2 Examples ExamplesReach P_Motion P_Seed P_Par.
Import ListNotations.
Open Scope Z_scope.

(** C49 get_state(walk, n) returns one entry per particle and field: the value in record n (Python index) of that particle, or in its last
    record if it has no record n; the number that is logged is the number of such particles. *)
Theorem C49_slice :
  forall (w : walk f64) n, rect_walk w -> exists s k, get_state w n = Ok (s, k) /\
    slice_at w (fun q => record_ix n (length (r_x (record_of w q)))) (st_x s) (st_y s) (st_t s) (st_o s) /\
    k = Z.of_nat (length (filter (fun q => negb (has_record n (length (r_x (record_of w q))))) (seq 0 (count w)))).
Proof.
  intros w n RW. eexists _, _. split; [exact (get_state_val w n RW)|]. split; [|reflexivity]. apply slice_gval; [exact RW|].
  intros q Hq. apply record_ix_lt. apply RW. exact Hq.
Qed.
Print Assumptions C49_slice.
(** The walk data of every reachable state qualifies. *)
Theorem C49_reachable :
  forall G lm L W (p : params f64) P draws s w, session G lm L W p P draws s -> s_walk s = Some w -> rect_walk w /\ fields w = tvars P.
Proof. intros G lm L W p P draws s w SS SW. destruct (session_SInv _ _ _ _ _ _ _ _ SS) as (FO & SI). exact (SInv_rect lm P s w FO SI SW). Qed.
Print Assumptions C49_reachable.

(** A hand-made dictionary: three particles with 3, 1 and 2 records, one tracked variable. *)
Definition rw_w : walk f64 :=
  {| xinds := [[1; 2; 3]; [4]; [5; 6]]; yinds := [[1; 1; 2]; [7]; [8; 8]]; times := [[fofZ 0; fofZ 10; fofZ 25]; [fofZ 3]; [fofZ 0; fofZ 20]];
     opts := [("depth"%string, [[Some (fofZ 1); Some (fofZ 2); None]; [Some (fofZ 4)]; [None; Some (fofZ 6)]])] |}.
Definition rw_plain : walk f64 := {| xinds := xinds rw_w; yinds := yinds rw_w; times := times rw_w; opts := [] |}.
Lemma rw_rect : rect_walk rw_w.
Proof.
  split; [repeat constructor; intros []|]. split.
  - split; [reflexivity|]. split; [reflexivity|]. intros v [<-|[]]. eexists. split; reflexivity.
  - intros q Hq. do 3 (destruct q as [|q]; [split; [cbn; lia|]; split; [reflexivity|]; split; [reflexivity|]; intros kv [<-|[]]; reflexivity|]). cbn in Hq. lia.
Qed.
Lemma rw_plain_rect : rect_walk rw_plain.
Proof.
  split; [constructor|]. split.
  - split; [reflexivity|]. split; [reflexivity|]. intros v [].
  - intros q Hq. do 3 (destruct q as [|q]; [split; [cbn; lia|]; split; [reflexivity|]; split; [reflexivity|]; intros kv []|]). cbn in Hq. lia.
Qed.
Example C49_slice_ex : rect_walk rw_w /\ get_state rw_w 1 = Ok ({| st_x := [2; 4; 6]; st_y := [1; 7; 8]; st_t := [fofZ 10; fofZ 3; fofZ 20]; st_o := Some [("depth"%string, [Some (fofZ 2); Some (fofZ 4); Some (fofZ 6)])] |}, 1).
Proof. split; [exact rw_rect | reflexivity]. Qed.
Example C49_reachable_ex : exists s w, session any_draw ex_lm 10 9 ex_params ex_P ex_draws s /\ s_walk s = Some w /\ count w = 5%nat.
Proof. exists ex_s, ex_w. split; [exact ex_session|]. exact ex_walk. Qed.

(** C50 get_time_state(walk, T) returns the first record that minimises |t-T|, the distance as computed in doubles, and reports exactly
    the particles whose last time is before T. *)
Theorem C50_nearest :
  forall (w : walk f64) target, rect_walk w -> nisfin target = true -> (forall q t, (q < count w)%nat -> In t (r_t (record_of w q)) -> nisfin t = true) ->
  exists ix s late, get_time_state w target = Ok (s, late) /\ slice_at w ix (st_x s) (st_y s) (st_t s) (st_o s) /\
    (forall q, (q < count w)%nat -> first_min (map (fun t => nabs (nsub t target)) (r_t (record_of w q))) (ix q)) /\
    late = map Z.of_nat (filter (fun q => nltb (last (r_t (record_of w q)) n0) target) (seq 0 (count w))).
Proof.
  intros w target RW FT FI. destruct (get_time_state_val w target RW) as (ix & F & E).
  { intros q t Hq Ht. pose proof (V_nan _ _ (fsub_V t target (FI q t Hq Ht) FT)) as NN. change (nsub t target) with (fsub t target). destruct (fsub t target); [reflexivity | reflexivity | discriminate | reflexivity]. }
  exists ix. eexists _, _. split; [exact E|]. split; [|split; [exact F | reflexivity]]. apply slice_gval; [exact RW|]. intros q Hq. destruct (F q Hq) as (A & _). rewrite map_length in A.
  destruct RW as (_ & _ & RR). destruct (RR q Hq) as (_ & _ & C & _). cbn [record_of row r_x r_t] in C. rewrite <- C. exact A.
Qed.
Print Assumptions C50_nearest.
(** The same in exact arithmetic, where the distance is the true one. *)
Theorem C50_nearest_exact :
  forall (w : walk xq) target, rect_walk w -> nisfin target = true -> (forall q t, (q < count w)%nat -> In t (r_t (record_of w q)) -> nisfin t = true) ->
  exists ix s late, get_time_state w target = Ok (s, late) /\ slice_at w ix (st_x s) (st_y s) (st_t s) (st_o s) /\
    (forall q, (q < count w)%nat -> first_min (map (fun t => nabs (nsub t target)) (r_t (record_of w q))) (ix q)) /\
    late = map Z.of_nat (filter (fun q => nltb (last (r_t (record_of w q)) n0) target) (seq 0 (count w))).
Proof.
  intros w target RW FT FI. destruct (get_time_state_val w target RW) as (ix & F & E).
  { intros q t Hq Ht. specialize (FI q t Hq Ht). destruct t, target; try discriminate. cbn [nisnan nabs nsub XQnum]. unfold xsub, xopp, xadd, xabs. destruct (Qcleb _ _); reflexivity. }
  exists ix. eexists _, _. split; [exact E|]. split; [|split; [exact F | reflexivity]]. apply slice_gval; [exact RW|]. intros q Hq. destruct (F q Hq) as (A & _). rewrite map_length in A.
  destruct RW as (_ & _ & RR). destruct (RR q Hq) as (_ & _ & C & _). cbn [record_of row r_x r_t] in C. rewrite <- C. exact A.
Qed.
Print Assumptions C50_nearest_exact.
Lemma rw_finite q t : (q < count rw_w)%nat -> In t (r_t (record_of rw_w q)) -> nisfin t = true.
Proof. intros Hq. do 3 (destruct q as [|q]; [cbn [record_of row r_t rw_w times nth In]; intros H; repeat (destruct H as [<-|H]; [vm_compute; reflexivity|]); contradiction|]). cbn in Hq. lia. Qed.
Example C50_nearest_ex : rect_walk rw_w /\ (forall q t, (q < count rw_w)%nat -> In t (r_t (record_of rw_w q)) -> nisfin t = true) /\
  match get_time_state rw_w (fofZ 15) with Ok (s, late) => zl_eqb (st_x s) [2; 4; 6] && zl_eqb late [1] | Err _ => false end = true.
Proof. split; [exact rw_rect|]. split; [exact rw_finite|]. vm_compute. reflexivity. Qed.

(** C51 is false: with a tracked variable the slice has four components, without one it has three.  The routines that unpack three components fail for
    every walk data with a tracked variable, plot_exposure_time fails for every walk data without one. *)
Theorem C51_tracked_variable_refuted :
  forall (w : walk f64) n ets td nbins u, rect_walk w -> opts w <> [] ->
    plot_state w n None = Err ValueError /\ plot_exposure_time_thresholds w ets td nbins u = Err ValueError.
Proof.
  intros w n ets td nbins u RW NO. split.
  - unfold plot_state. destruct (slice3_fail w n RW NO) as (s & k & E & F). rewrite E. cbn [bind fst]. rewrite F. reflexivity.
  - unfold plot_exposure_time_thresholds. destruct (slice3_fail w (-1) RW NO) as (s & k & E & F). rewrite E. cbn [bind fst]. rewrite F. reflexivity.
Qed.
Print Assumptions C51_tracked_variable_refuted.
Theorem C51_tracked_variable_steady_refuted :
  forall G lm L W (p : params f64) P draws s w num_iter, session G lm L W p P draws s -> weights_finite lm P -> s_walk s = Some w -> tvars P <> [] -> 1 <= num_iter ->
    steady_plots lm P draws num_iter true s = Err ValueError.
Proof.
  intros G lm L W p P draws s w num SS WF SW TV Hn. destruct (session_field lm L W p P draws s SS) as (FO & _ & U & R & _). exact (steady_fails lm P draws s w FO WF U (reached_inv lm P draws s FO U R) SW TV num Hn).
Qed.
Print Assumptions C51_tracked_variable_steady_refuted.
Theorem C51_no_variable_refuted :
  forall (w : walk f64) ets td nbins u show, rect_walk w -> opts w = [] -> plot_exposure_time w ets td nbins u show = Err ValueError.
Proof.
  intros w ets td nbins u show RW NO. unfold plot_exposure_time. destruct (state_of w (-1) RW) as (s & k & E & F). rewrite E. cbn [bind fst]. unfold unpack4. rewrite (proj2 F NO). reflexivity.
Qed.
Print Assumptions C51_no_variable_refuted.
Example C51_refuted_ex : rect_walk rw_w /\ opts rw_w <> [] /\ rect_walk rw_plain /\ opts rw_plain = [].
Proof. split; [exact rw_rect|]. split; [discriminate|]. split; [exact rw_plain_rect | reflexivity]. Qed.
Example C51_steady_refuted_ex : exists s w, session any_draw ex_lm 10 9 ex_params ex_P ex_draws s /\ weights_finite ex_lm ex_P /\ s_walk s = Some w /\ tvars ex_P <> [].
Proof. exists ex_s, ex_w. split; [exact ex_session|]. split; [exact ex_weights_finite|]. split; [apply ex_walk | discriminate]. Qed.
(** What holds: without tracked variables plot_state draws the positions of the slice and steady_plots is the plain iteration, drawing or not. *)
Theorem C51_plot_state_partial :
  forall (w : walk f64) n, rect_walk w -> opts w = [] -> exists xs ys ts, plot_state w n None = Ok (xs, ys) /\
    slice_at w (fun q => record_ix n (length (r_x (record_of w q)))) xs ys ts None.
Proof.
  intros w n RW NO. destruct (C49_slice w n RW) as (s & k & E & S & _). destruct (state_of w n RW) as (s' & k' & E' & F). rewrite E in E'. injection E' as <- <-. apply F in NO.
  exists (st_x s), (st_y s), (st_t s). rewrite NO in S. split; [|exact S]. unfold plot_state. rewrite E. cbn [bind fst]. unfold unpack3. rewrite NO. reflexivity.
Qed.
Print Assumptions C51_plot_state_partial.
Theorem C51_steady_partial :
  forall G lm L W (p : params f64) P draws s w num_iter save, session G lm L W p P draws s -> weights_finite lm P -> s_walk s = Some w -> tvars P = [] -> 1 <= num_iter ->
    exists w' s', steady_plots lm P draws num_iter save s = Ok (w', s') /\ s_walk s' = Some w' /\ count w' = count w /\
      forall q, (q < count w)%nat -> exists m, (m <= Z.to_nat num_iter)%nat /\ extends G lm P m (hist P w q) (hist P w' q).
Proof.
  intros G lm L W p P draws s w num save SS WF SW TV Hn. destruct (session_field lm L W p P draws s SS) as (FO & _ & U & R & _). pose proof (reached_inv lm P draws s FO U R) as SI.
  unfold steady_plots. rewrite (steady_is_iterate lm P draws FO U TV _ save true None s SI). destruct (iterate_total lm P draws FO WF U (Z.to_nat num) None s w SI SW) as (w' & s' & E); [lia|].
  destruct (iterate_spec lm P draws FO U (Z.to_nat num) None s w SI SW _ _ E) as (_ & w2 & SW2 & C & D & H). destruct D as [D|(D & _)]; [|lia]. injection D as <-. rewrite E. cbn [bind]. eauto 8.
Qed.
Print Assumptions C51_steady_partial.

(** The set-up of Examples.v without tracked variables. *)
Definition no_vars (p : params f64) : params f64 :=
  {| p_dx := p_dx p; p_depth := p_depth p; p_stage := p_stage p; p_topo := p_topo p; p_model := p_model p; p_qx := p_qx p; p_qy := p_qy p; p_u := p_u p; p_v := p_v p; p_theta := p_theta p;
     p_gamma := p_gamma p; p_diff := p_diff p; p_dry := p_dry p; p_ct := p_ct p; p_steep := p_steep p; p_dist := p_dist p; p_ivec := p_ivec p; p_jvec := p_jvec p; p_iwalk := p_iwalk p;
     p_jwalk := p_jwalk p; p_angles := p_angles p; p_roi := p_roi p; p_vars := None |}.
Definition set_vars (P : pobj f64) (vs : list string) : pobj f64 :=
  {| o_dx := o_dx P; o_depth := o_depth P; o_stage := o_stage P; o_qx := o_qx P; o_qy := o_qy P; o_u := o_u P; o_v := o_v P; o_vel := o_vel P; o_vang := o_vang P; o_theta := o_theta P;
     o_gamma := o_gamma P; o_diff := o_diff P; o_dry := o_dry P; o_ct := o_ct P; o_steep := o_steep P; o_dist := o_dist P; o_ivec := o_ivec P; o_jvec := o_jvec P; o_iwalk := o_iwalk P;
     o_jwalk := o_jwalk P; o_angles := o_angles P; o_roi := o_roi P; o_vars := vs |}.
Lemma no_vars_init lm p P p' : init lm p = Ok (P, p') -> exists p'', init lm (no_vars p) = Ok (set_vars P (init_vars (no_vars p)), p'').
Proof.
  unfold init. change (p_dx (no_vars p)) with (p_dx p). change (init_depth (no_vars p)) with (init_depth p). destruct (p_dx p) as [dx|]; [|discriminate]. destruct (init_depth p) as [(d & d')|]; [|discriminate]. cbn [bind].
  change (init_stage (no_vars p) d d') with (init_stage p d d'). destruct (init_stage p d d') as [(st & st')|]; [|discriminate]. cbn [bind]. change (init_flow (no_vars p) d) with (init_flow p d).
  destruct (init_flow p d) as [f|]; [|discriminate]. cbn [bind]. change (p_roi (no_vars p)) with (p_roi p). destruct (match p_roi p with Some roi => _ | None => _ end); [|discriminate]. cbn [bind].
  intros E. apply (f_equal (fun r => match r with Ok a => fst a | Err _ => P end)) in E. cbv beta iota delta [fst] in E. subst P. eexists. reflexivity.
Qed.
Definition np_P : pobj f64 := set_vars ex_P [].
Definition np_ops : list (op f64) := [OpGen 2 [2; 3] [5] n0 Random None].
Definition np_s := unerr ex_s (do_ops ex_lm np_P ex_draws np_ops (init_sim ex_lm np_P 0)).
Lemma np_session : session any_draw ex_lm 10 9 (no_vars ex_params) np_P ex_draws np_s.
Proof.
  destruct ex_standard as (SP & L3 & W3 & DT & RG & GP & PP & SQ & DX). split; [split; [exact SP|]; split; [exact L3|]; split; [exact W3|]; split; [exact DT|]; split; [exact RG|]; split; [exact GP|]; split; [exact PP|]; split; [exact SQ | exact DX]|].
  split. { destruct ex_init as (p' & E). exact (no_vars_init _ _ _ _ E). }
  split; [exact ex_stream_any|]. exists 0%nat, np_ops. split; [|apply (is_ok_unerr ex_s); vm_compute; reflexivity].
  constructor; [|constructor]. split; [|exact I]. split; [lia|]. intros x y H1 H2. cbn [In] in H1, H2. right. change (nrow (o_depth np_P)) with 10. change (ncol (o_depth np_P)) with 9. lia.
Qed.
Example C51_steady_ex : exists w, session any_draw ex_lm 10 9 (no_vars ex_params) np_P ex_draws np_s /\ weights_finite ex_lm np_P /\ s_walk np_s = Some w /\ count w = 2%nat /\ tvars np_P = [].
Proof.
  assert (C : match s_walk np_s with Some w => Nat.eqb (count w) 2 | None => false end = true) by (vm_compute; reflexivity). destruct (s_walk np_s) as [w|]; [|discriminate]. exists w.
  split; [exact np_session|]. split; [exact ex_weights_finite|]. split; [reflexivity|]. split; [apply Nat.eqb_eq, C | reflexivity].
Qed.

(** C68 For interval >= 1 and tail_length >= 0: the frames are those of steps interval, 2*interval, ... below num_steps*interval, up to the first one in which no
    particle has enough records; in each, every particle with at least that many records contributes exactly tail_length segments, newest first. *)
Theorem C68_frames :
  forall (w : walk f64) num_steps interval tail_length, length (yinds w) = count w -> 1 <= interval -> 0 <= tail_length ->
  exists r, snake_plots w num_steps interval tail_length =
      Ok (map (fun j => (Z.of_nat (S j) * interval, snake_frame w interval tail_length (Z.of_nat (S j) * interval))) (seq 0 r)) /\ Z.of_nat r <= Z.max 0 (num_steps - 1) /\
    (forall j, (j < r)%nat -> snake_frame w interval tail_length (Z.of_nat (S j) * interval) <> []) /\
    (Z.of_nat r < num_steps - 1 -> snake_frame w interval tail_length (Z.of_nat (S r) * interval) = []).
Proof. intros w m k n LY Hk Hn. apply snake_val; [exact LY | lia | exact Hn]. Qed.
Print Assumptions C68_frames.
(** Hence segment number p of a frame belongs to the p / tail_length-th plotted particle and is its p mod tail_length-th newest, whatever the histories. *)
Theorem C68_colours_aligned :
  forall (w : walk f64) interval tail_length ii, 1 <= interval -> 0 <= tail_length ->
  let plotted := filter (fun q => ii <=? Z.of_nat (length (track w q))) (seq 0 (count w)) in let n := Z.to_nat tail_length in
  length (snake_frame w interval tail_length ii) = (length plotted * n)%nat /\
  forall a m, (a < length plotted)%nat -> (m < n)%nat -> nth (a * n + m) (snake_frame w interval tail_length ii) [] = snake_segment (track w (nth a plotted 0%nat)) ii interval m.
Proof.
  intros w k tl ii Hk Hn plotted n. assert (F : snake_frame w k tl ii = flat_map (fun q => map (snake_segment (track w q) ii k) (seq 0 n)) plotted).
  { unfold snake_frame, plotted. induction (seq 0 (count w)) as [|q l IH]; [reflexivity|]. cbn [flat_map filter]. destruct (ii <=? _); cbn [flat_map]; rewrite IH; reflexivity. }
  rewrite F. clear F. clearbody plotted. split.
  - induction plotted as [|q l IH]; [reflexivity|]. cbn [flat_map length]. rewrite app_length, IH, map_length, seq_length. lia.
  - induction plotted as [|q l IH]; intros a m Ha Hm; [cbn in Ha; lia|]. cbn [flat_map]. destruct a as [|a].
    + rewrite app_nth1 by (rewrite map_length, seq_length; lia). cbn [Nat.mul Nat.add nth]. apply nth_seq_map. exact Hm.
    + rewrite app_nth2 by (rewrite map_length, seq_length; lia). rewrite map_length, seq_length. replace (S a * n + m - n)%nat with (a * n + m)%nat by lia. cbn [nth]. apply IH; [cbn in Ha; lia | exact Hm].
Qed.
Print Assumptions C68_colours_aligned.
(** Every point of a segment is a recorded position, and segment m+1 ends where segment m begins as long as the history reaches back that far. *)
Theorem C68_segments :
  forall (w : walk f64) q interval ii m, 1 <= interval -> 0 < ii <= Z.of_nat (length (track w q)) ->
    (forall pt, In pt (snake_segment (track w q) ii interval m) -> In pt (track w q)) /\
    ((2 <= length (track w q))%nat -> length (snake_segment (track w q) ii interval m) = 2%nat) /\
    (interval < ii -> last (snake_segment (track w q) ii interval 0) (0, 0) = nth (Z.to_nat (ii - 1)) (track w q) (0, 0)) /\
    (0 <= ii - (Z.of_nat m + 2) * interval - 1 -> last (snake_segment (track w q) ii interval (S m)) (0, 0) = hd (0, 0) (snake_segment (track w q) ii interval m)).
Proof.
  intros w q k ii m Hk Hi. split; [intros pt; apply snake_segment_points; [lia | exact Hi]|]. split.
  { intros HL. assert (F : length (firstn 2 (track w q)) = 2%nat) by (rewrite firstn_length; lia). induction m as [|m IH]; cbn [snake_segment]; destruct (0 <=? _); first [reflexivity | exact F | exact IH]. }
  split.
  { intros H. cbn [snake_segment]. replace (0 <=? ii - Z.of_nat 0 * k - 1 - k) with true by (symmetry; apply Z.leb_le; lia). cbn [last]. do 2 f_equal. lia. }
  intros H. assert (A : forall n, 0 <= ii - (Z.of_nat n + 1) * k - 1 -> snake_segment (track w q) ii k n = [nth (Z.to_nat (ii - Z.of_nat n * k - 1 - k)) (track w q) (0, 0); nth (Z.to_nat (ii - Z.of_nat n * k - 1)) (track w q) (0, 0)]).
  { intros n Hn. destruct n; cbn [snake_segment]; match goal with |- context[0 <=? ?e] => replace (0 <=? e) with true by (symmetry; apply Z.leb_le; lia) end; reflexivity. }
  rewrite (A m) by lia. rewrite (A (S m)) by lia. cbn [last hd]. do 2 f_equal. lia.
Qed.
Print Assumptions C68_segments.
Example C68_ex : length (yinds rw_w) = count rw_w /\
  snake_plots rw_w 5 1 2 = Ok [(1, [[(1, 1); (1, 2)]; [(1, 1); (1, 2)]; [(7, 4)]; [(7, 4)]; [(8, 5); (8, 6)]; [(8, 5); (8, 6)]]);
                              (2, [[(1, 1); (1, 2)]; [(1, 1); (1, 2)]; [(8, 5); (8, 6)]; [(8, 5); (8, 6)]]); (3, [[(1, 2); (2, 3)]; [(1, 1); (1, 2)]])].
Proof. split; reflexivity. Qed.

(** Runs through a sequence of flow fields. *)
From Coq Require Import ZArith Bool String List Lia.
From Verif Require Import Num Py NumFacts NumMore Walker ParticleTrack Gen SpecWeights SpecPick SpecWalk SpecHist SpecInit SpecApi SpecRout PostProc SpecPost Grid Routines Unsteady SpecUnst
  ProofWeights ProofWeightLaws ProofPick ProofStep ProofStepper ProofRun ProofRunTo ProofRunTotal ProofGen ProofHist ProofInit ProofCall ProofSeed ProofRout.
Import ListNotations.
Open Scope Z_scope.
Open Scope res_scope.

Section S.
Context {T : Type} {N : Num T} {NL : NumLaws T} {NM : NumMore T} {GV : T -> Prop}.
Variable lm : Libm T.
Variable dx : T.
Variables L W : Z.
Hypothesis L3 : 3 <= L. Hypothesis W3 : 3 <= W.
Hypothesis SQ : sqrt_ok lm.
Hypothesis PW : forall d, nleb d (ntenth : T) = false -> nltb (m_pow lm d n1) n0 = false.
Hypothesis DX : neqb dx n0 = false.

(** the parameter object keeps nothing but dx between the passes *)
Lemma params_kept (f f' : field T) P p' : init lm (set_field f (unsteady_params dx)) = Ok (P, p') -> set_field f' p' = set_field f' (unsteady_params dx).
Proof.
  unfold init. cbn [set_field unsteady_params p_dx p_roi init_depth init_stage p_depth p_stage bind init_flow is_deltarcm p_model p_qx p_qy f_pqx f_u_alias f_v_alias]. intros H. injection H as _ <-. reflexivity.
Qed.
Lemma field_standard (f : field T) : field_shape L W f -> standard lm L W (set_field f (unsteady_params dx)).
Proof.
  intros ((D1 & D2) & (S1 & S2) & (X1 & X2) & (Y1 & Y2)). split.
  { split; [lia|]. split; [lia|]. unfold of_shape. cbn [set_field unsteady_params p_depth p_stage p_topo p_qx p_qy p_u p_v p_ct p_dist p_ivec p_jvec p_iwalk p_jwalk p_angles].
    repeat (split; [intros a E; try discriminate; injection E as <-; split; assumption|]). repeat (split; [intros a E; discriminate|]). intros a E; discriminate. }
  split; [exact L3|]. split; [exact W3|]. split; [repeat (split; [reflexivity|]); reflexivity|]. split; [intros ct E; discriminate|]. split; [intros g E; discriminate|].
  split; [exact PW|]. split; [exact SQ|]. cbn [set_field unsteady_params p_dx]. intros d E. injection E as <-. exact DX.
Qed.
Lemma built_facts (f : field T) P : field_shape L W f -> built lm dx f P ->
  field_ok lm P /\ nrow (o_depth P) = L /\ ncol (o_depth P) = W /\ tvars P = [] /\ vars_ok P /\ o_vars P = [].
Proof.
  intros SH (p' & H). destruct (standard_field_ok lm L W _ P p' (field_standard f SH) H) as (FO & A & B & _). split; [exact FO|]. split; [exact A|]. split; [exact B|].
  destruct (init_ok _ _ _ _ H) as (d & depth & pd & stage & ps & fl & E). assert (V : o_vars P = []) by (destruct E as (_ & _ & _ & _ & _ & E); do 22 (destruct E as (_ & E)); exact E).
  assert (TV : tvars P = []) by (unfold tvars; rewrite V; reflexivity). split; [exact TV|]. split; [|exact V]. intros v Hv. rewrite TV in Hv. destruct Hv.
Qed.
Lemma built_exists (f : field T) : exists P, built lm dx f P.
Proof. unfold built, init. cbn [set_field unsteady_params p_dx p_roi init_depth init_stage p_depth p_stage bind init_flow is_deltarcm p_model p_qx p_qy]. eexists. eexists. reflexivity. Qed.
Lemma safe_seed_pos (P : pobj T) x y : nrow (o_depth P) = L -> ncol (o_depth P) = W -> safe_pos P x y <-> safe_seed L W x y.
Proof. intros A B. unfold safe_pos, safe_seed. rewrite A, B. reflexivity. Qed.

(** Walk data between the passes. *)
Definition wok (w : walk T) : Prop :=
  opts w = [] /\ length (yinds w) = count w /\ length (times w) = count w /\
  forall q, (q < count w)%nat -> row_rect (path w q) /\ safe_seed L W (xat (path w q) (last_ix (path w q))) (yat (path w q) (last_ix (path w q))).
Lemma wok_walk_ok (P : pobj T) w : nrow (o_depth P) = L -> ncol (o_depth P) = W -> tvars P = [] -> wok w <-> walk_ok P w.
Proof.
  intros A B TV. unfold wok, walk_ok, shaped, base_row, path. rewrite TV. split.
  - intros (O & Y & X & R). rewrite O. split; [reflexivity|]. split; [split; [exact Y|]; split; [exact X | intros v []]|]. intros q Hq. destruct (R q Hq) as (R1 & R2). split; [exact R1|]. apply safe_seed_pos; assumption.
  - intros (O & (Y & X & _) & R). split; [destruct (opts w); [reflexivity | discriminate]|]. split; [exact Y|]. split; [exact X|]. intros q Hq. destruct (R q Hq) as (R1 & R2). split; [exact R1|]. apply (safe_seed_pos P); assumption.
Qed.
Lemma wok_rect w : wok w -> rect_walk w.
Proof.
  intros (O & Y & X & R). unfold rect_walk, fields. rewrite O. split; [constructor|]. split; [split; [exact Y|]; split; [exact X | intros v []]|].
  intros q Hq. unfold record_of, fields. rewrite O. apply R, Hq.
Qed.
Lemma wok_state w n : wok w -> exists st, get_state w n = Ok st /\ exists a, unpack3 (fst st) = Ok a.
Proof.
  intros H. rewrite (get_state_val w n (wok_rect w H)). eexists. split; [reflexivity|]. unfold unpack3. cbn [fst mk_state st_o gval g_o]. destruct H as (-> & _). eexists. reflexivity.
Qed.

Variable draws : nat -> T.
Hypothesis US : unit_stream GV draws.
(** One pass. *)
Lemma step_later (f : field T) P target pos w0 w p1 pos1 : field_shape L W f -> built lm dx f P -> wok w0 -> 
  unsteady_step lm draws later_request f target (Some w0) (unsteady_params dx) pos = Ok (w, p1, pos1) ->
  wok w /\ count w = count w0 /\ (forall f', set_field f' p1 = set_field f' (unsteady_params dx)) /\
  forall q, (q < count w0)%nat -> exists n, extends GV lm P n (path w0 q) (path w q) /\ Z.of_nat n <= 10000 /\ stopped GV lm P target 10000 n (path w q).
Proof.
  intros SH (p' & BP) WO H. destruct (built_facts f P SH (ex_intro _ p' BP)) as (FO & A & B & TV & VO & VN). unfold unsteady_step in H. rewrite BP in H. cbn [bind] in H.
  pose proof (call_generate_spec P draws later_request (Some w0) (init_sim lm P pos)) as CG. destruct (call_generate _ _ _ _ _) as ([u|] & s1); [|discriminate]. cbn [bind] in H.
  destruct CG as (np & xl & yl & t0 & m & EC & GE). cbn in EC. injection EC as <- <- <- <- <-.
  destruct (generate_spec lm P draws 0 [] [] n0 Random (Some w0) (init_sim lm P pos) s1 FO) as (_ & _ & w1 & xs & ys & EW & EN & EA & SD & CT & SHP & KE & R1 & _ & _).
  { split; [lia|]. intros x y []. } { exact I. } { apply (wok_walk_ok P w0 A B TV) in WO. apply WO. } { exact GE. }
  cbn [opt_count stored_count init_sim s_walk Z.to_nat] in CT. rewrite !Nat.add_0_r in CT. cbn [opt_count opt_row] in R1.
  assert (WO1 : walk_ok P w1).
  { split; [exact KE|]. split; [exact SHP|]. intros q Hq. rewrite R1 by lia. apply (wok_walk_ok P w0 A B TV) in WO. apply WO. lia. }
  destruct (run_target lm P draws target 10000 s1) as [((w2 & wl) & s2)|] eqn:RT; [|discriminate]. cbn [bind] in H.
  assert (WI : winv lm P (w_arr (s_wst s1))) by (rewrite EA; apply winv_init, FO).
  destruct (run_target_spec lm P draws target 10000 s1 w1 w2 wl s2 FO US WI VO EW EN WO1 RT) as (_ & _ & _ & CT2 & _ & WO2 & RR & _).
  apply (wok_walk_ok P w2 A B TV) in WO2. destruct (wok_state w2 (-1) WO2) as (st & GS & a & UP). rewrite GS in H. cbn [bind] in H. rewrite UP in H. cbn [bind] in H. injection H as <- <- _.
  split; [exact WO2|]. split; [lia|]. split; [intros f'; eapply params_kept; exact BP|]. intros q Hq. destruct (RR q ltac:(lia)) as (n & E & LE & ST). rewrite R1 in E by lia. unfold path. rewrite TV in E, ST.
  exists n. split; [exact E|]. split; [lia | exact ST].
Qed.
Lemma step_first (f : field T) P np xl yl target pos w p1 pos1 : field_shape L W f -> built lm dx f P -> 0 <= np -> (forall x y, In x xl -> In y yl -> safe_seed L W x y) ->
  unsteady_step lm draws (first_request np xl yl) f target None (unsteady_params dx) pos = Ok (w, p1, pos1) ->
  wok w /\ count w = Z.to_nat np /\ (0 < count w)%nat /\ (forall f', set_field f' p1 = set_field f' (unsteady_params dx)) /\
  forall q, (q < count w)%nat -> exists x y n, In x xl /\ In y yl /\ extends GV lm P n (fresh x y) (path w q) /\ Z.of_nat n <= 10000 /\ stopped GV lm P target 10000 n (path w q).
Proof.
  intros SH (p' & BP) NP SS H. destruct (built_facts f P SH (ex_intro _ p' BP)) as (FO & A & B & TV & VO & VN). unfold unsteady_step in H. rewrite BP in H. cbn [bind] in H.
  pose proof (call_generate_spec P draws (first_request np xl yl) None (init_sim lm P pos)) as CG. destruct (call_generate _ _ _ _ _) as ([u|] & s1); [|discriminate]. cbn [bind] in H.
  destruct CG as (np' & xl' & yl' & t0 & m & EC & GE). cbn in EC. injection EC as <- <- <- <- <-.
  destruct (generate_spec lm P draws np xl yl n0 Random None (init_sim lm P pos) s1 FO) as (_ & _ & w1 & xs & ys & EW & EN & EA & SD & CT & SHP & KE & _ & _ & R3).
  { split; [exact NP|]. intros x y Hx Hy. apply safe_seed_pos; auto. } { exact I. } { exact I. } { exact GE. }
  cbn [opt_count stored_count init_sim s_walk] in CT, R3. cbn [Nat.add] in CT, R3. destruct SD as (LX & LY & FX & FY). rewrite Forall_forall in FX, FY.
  assert (SEED : forall q, (q < count w1)%nat -> row [] w1 q = fresh (nth q xs 0) (nth q ys 0) /\ In (nth q xs 0) xl /\ In (nth q ys 0) yl).
  { intros q Hq. specialize (R3 q ltac:(lia)). rewrite TV in R3. split; [exact R3|]. split; [apply FX | apply FY]; apply nth_In; lia. }
  assert (WO1 : walk_ok P w1).
  { split; [exact KE|]. split; [exact SHP|]. intros q Hq. rewrite TV. destruct (SEED q Hq) as (-> & IX & IY). split.
    - split; [cbn; lia|]. split; [reflexivity|]. split; [reflexivity|]. intros kv [].
    - apply safe_seed_pos; [exact A | exact B|]. apply SS; assumption. }
  destruct (run_target lm P draws target 10000 s1) as [((w2 & wl) & s2)|] eqn:RT; [|discriminate]. cbn [bind] in H.
  assert (WI : winv lm P (w_arr (s_wst s1))) by (rewrite EA; apply winv_init, FO).
  destruct (run_target_spec lm P draws target 10000 s1 w1 w2 wl s2 FO US WI VO EW EN WO1 RT) as (PC & _ & _ & CT2 & _ & WO2 & RR & _).
  apply (wok_walk_ok P w2 A B TV) in WO2. destruct (wok_state w2 (-1) WO2) as (st & GS & a & UP). rewrite GS in H. cbn [bind] in H. rewrite UP in H. cbn [bind] in H.
  destruct (wok_state w2 0 WO2) as (st0 & GS0 & a0 & UP0). rewrite GS0 in H. cbn [bind] in H. rewrite UP0 in H. cbn [bind] in H. injection H as <- <- _.
  split; [exact WO2|]. split; [lia|]. split; [lia|]. split; [intros f'; eapply params_kept; exact BP|]. intros q Hq. destruct (RR q ltac:(lia)) as (n & E & LE & ST).
  destruct (SEED q ltac:(lia)) as (RE & IX & IY). rewrite TV in E, ST. rewrite RE in E. exists (nth q xs 0), (nth q ys 0), n. split; [exact IX|]. split; [exact IY|]. split; [exact E|]. split; [lia | exact ST].
Qed.
Lemma step_params q (f : field T) target prev p pos : (forall f', set_field f' p = set_field f' (unsteady_params dx)) ->
  unsteady_step lm draws q f target prev p pos = unsteady_step lm draws q f target prev (unsteady_params dx) pos.
Proof. intros H. unfold unsteady_step. rewrite H. reflexivity. Qed.
Lemma loop_later fts : forall w0 p pos r, Forall (fun ft => field_shape L W (fst ft)) fts -> wok w0 -> (forall f', set_field f' p = set_field f' (unsteady_params dx)) ->
  unsteady_loop lm draws fts later_request (Some w0) p pos = Ok r ->
  exists Ps ts w, r = Some w /\ map snd fts = map Some ts /\ Forall2 (built lm dx) (map fst fts) Ps /\ count w = count w0 /\
    forall q, (q < count w0)%nat -> continued GV lm Ps ts (path w0 q) (path w q).
Proof.
  induction fts as [|(f & ot) fts IH]; intros w0 p pos r FS WO PP H; cbn [unsteady_loop] in H.
  - injection H as <-. exists [], [], w0. split; [reflexivity|]. split; [reflexivity|]. split; [constructor|]. split; [reflexivity|]. intros q _. constructor.
  - inversion FS as [|? ? SH FS']; subst. cbn [fst] in SH. destruct ot as [target|].
    + rewrite (step_params _ _ _ _ _ _ PP) in H. destruct (unsteady_step _ _ _ _ _ _ _ _) as [((w1 & p1) & pos1)|] eqn:ST; [|discriminate]. cbn [bind] in H.
      destruct (built_exists f) as (P & BP). destruct (step_later f P target pos w0 w1 p1 pos1 SH BP WO ST) as (WO1 & CT & PP1 & RR).
      destruct (IH w1 p1 pos1 r FS' WO1 PP1 H) as (Ps & ts & w & -> & ET & FB & CW & CO). exists (P :: Ps), (target :: ts), w. split; [reflexivity|]. split; [cbn [map snd]; rewrite ET; reflexivity|].
      split; [constructor; assumption|]. split; [lia|]. intros q Hq. destruct (RR q Hq) as (n & E & LE & SP). econstructor; [exact E | exact LE | exact SP | apply CO; lia].
    + destruct (init lm (set_field f p)) as [(P & p')|]; [|discriminate]. cbn [bind] in H. destruct (call_generate _ _ _ _ _) as ([?|?] & ?); discriminate.
Qed.
Lemma loop_first fts np xl yl pos r : Forall (fun ft => field_shape L W (fst ft)) fts -> 0 <= np -> (forall x y, In x xl -> In y yl -> safe_seed L W x y) ->
  unsteady_loop lm draws fts (first_request np xl yl) None (unsteady_params dx) pos = Ok (Some r) ->
  exists Ps ts, map snd fts = map Some ts /\ Forall2 (built lm dx) (map fst fts) Ps /\ count r = Z.to_nat np /\ Ps <> [] /\
    forall q, (q < count r)%nat -> exists x y, In x xl /\ In y yl /\ continued GV lm Ps ts (fresh x y) (path r q).
Proof.
  intros FS NP SS H. destruct fts as [|(f & ot) fts]; [discriminate|]. cbn [unsteady_loop] in H. inversion FS as [|? ? SH FS']; subst. cbn [fst] in SH. destruct ot as [target|].
  - destruct (unsteady_step _ _ _ _ _ _ _ _) as [((w1 & p1) & pos1)|] eqn:ST; [|discriminate]. cbn [bind] in H. destruct (built_exists f) as (P & BP).
    destruct (step_first f P np xl yl target pos w1 p1 pos1 SH BP NP SS ST) as (WO1 & CT & PC & PP1 & RR).
    destruct (loop_later fts w1 p1 pos1 _ FS' WO1 PP1 H) as (Ps & ts & w & E & ET & FB & CW & CO). injection E as <-. exists (P :: Ps), (target :: ts). split; [cbn [map snd]; rewrite ET; reflexivity|].
    split; [constructor; assumption|]. split; [lia|]. split; [discriminate|]. intros q Hq. destruct (RR q ltac:(lia)) as (x & y & n & IX & IY & E & LE & SP). exists x, y. split; [exact IX|]. split; [exact IY|].
    econstructor; [exact E | exact LE | exact SP | apply CO; lia].
  - destruct (init lm (set_field f (unsteady_params dx))) as [(P & p')|]; [|discriminate]. cbn [bind] in H. destruct (call_generate _ _ _ _ _) as ([?|?] & ?); discriminate.
Qed.

(** The fields and target times of a call. *)
Lemma fts_split (fields : list (field T)) (tt : list T) n : (n <= length fields)%nat ->
  concat (map (fun i => match nth_error fields (Z.to_nat i) with Some f => [(f, nth_error tt (Z.to_nat i))] | None => [] end) (zrange 0 (Z.of_nat n))) =
  combine (firstn n fields) (map (fun i => nth_error tt i) (seq 0 n)).
Proof.
  intros H. unfold zrange. rewrite Z.sub_0_r, Nat2Z.id, map_map.
  assert (G : forall n k, (k + n <= length fields)%nat -> concat (map (fun x => match nth_error fields (Z.to_nat (0 + Z.of_nat x)) with Some f => [(f, nth_error tt (Z.to_nat (0 + Z.of_nat x)))] | None => [] end) (seq k n)) =
    combine (firstn n (skipn k fields)) (map (fun i => nth_error tt i) (seq k n))).
  { clear n H. induction n as [|n IH]; intros k Hk; [reflexivity|]. cbn [seq map concat]. rewrite Z.add_0_l, Nat2Z.id.
    destruct (nth_error fields k) as [f|] eqn:E; [|apply nth_error_None in E; lia].
    assert (SK : skipn k fields = f :: skipn (S k) fields).
    { clear - E. revert fields E. induction k as [|k IH]; intros [|a l] E; try discriminate; [injection E as ->; reflexivity|]. cbn [nth_error] in E. cbn [skipn]. apply IH, E. }
    rewrite SK. cbn [firstn combine app]. f_equal. apply IH. lia. }
  rewrite (G n 0%nat H). reflexivity.
Qed.
Lemma arange_nth (ts stop : T) tt i t : np_arange ts stop ts = Ok tt -> nth_error tt i = Some t -> t = target_time ts i.
Proof.
  unfold np_arange. destruct (nfrac _) as [fr|]; [|discriminate]. intros E. injection E as <-. intros H. 
  assert (LI : (i < length (zrange 0 (zceil fr)))%nat) by (apply nth_error_Some; rewrite nth_error_map in H; destruct (nth_error (zrange 0 (zceil fr)) i); [discriminate | cbn in H; discriminate]).
  rewrite nth_error_map in H. rewrite (nth_error_nth' _ 0 LI) in H. cbn [option_map] in H. injection H as <-.
  unfold zrange in LI. rewrite map_length, seq_length in LI. rewrite zrange_nth by exact LI. rewrite Z.add_0_l.
  destruct i as [|[|i]]; [reflexivity | reflexivity|]. destruct (Z.eqb_spec (Z.of_nat (S (S i))) 0); [lia|]. destruct (Z.eqb_spec (Z.of_nat (S (S i))) 1); [lia|]. reflexivity.
Qed.
Lemma map_some_seq (tt : list T) ts step stop n k : np_arange step stop step = Ok tt -> map (fun i => nth_error tt i) (seq k n) = map Some ts -> ts = map (target_time step) (seq k n).
Proof.
  intros A. revert ts k. induction n as [|n IH]; intros ts k H; [destruct ts; [reflexivity | discriminate]|]. cbn [seq map] in *. destruct ts as [|t ts]; [discriminate|]. cbn [map] in H. injection H as H1 H2.
  rewrite (arange_nth _ _ _ _ _ A H1). f_equal. apply IH, H2.
Qed.
Lemma unsteady_spec pos np xl yl num timestep fields w : Forall (field_shape L W) fields -> 0 <= np -> (forall x y, In x xl -> In y yl -> safe_seed L W x y) ->
  unsteady_plots lm draws pos dx np xl yl num timestep fields = Ok w ->
  1 <= num /\ let n := Nat.min (Z.to_nat num) (length fields) in
  exists Ps, Forall2 (built lm dx) (firstn n fields) Ps /\ count w = Z.to_nat np /\
    forall q, (q < count w)%nat -> exists x y, In x xl /\ In y yl /\ continued GV lm Ps (map (target_time timestep) (seq 0 n)) (fresh x y) (path w q).
Proof.
  intros FS NP SS H. unfold unsteady_plots in H. cbv zeta in H. destruct (np_arange _ _ _) as [tt|] eqn:AR; [|discriminate]. cbn [bind] in H.
  destruct (unsteady_loop _ _ _ _ _ _ _) as [[r|]|] eqn:LO; [|discriminate|discriminate]. cbn [bind] in H. injection H as ->.
  destruct (Z.le_gt_cases 1 num) as [N1|N1].
  2:{ exfalso. assert (Z0 : zrange 0 (Z.min num (Z.of_nat (length fields))) = []) by (unfold zrange; replace (Z.to_nat _) with 0%nat by lia; reflexivity). rewrite Z0 in LO. cbn in LO. discriminate. }
  split; [exact N1|]. intros n. replace (Z.min num (Z.of_nat (length fields))) with (Z.of_nat n) in * by lia. rewrite fts_split in LO by lia.
  assert (LE : length (firstn n fields) = length (map (fun i => nth_error tt i) (seq 0 n))) by (rewrite firstn_length, map_length, seq_length; lia).
  assert (FST : forall A B (l : list A) (l' : list B), length l = length l' -> map fst (combine l l') = l /\ map snd (combine l l') = l').
  { intros A B l. induction l as [|a l IHl]; intros [|b l'] HL; try discriminate; [split; reflexivity|]. injection HL as HL. cbn [combine map fst snd]. destruct (IHl l' HL) as (-> & ->). split; reflexivity. }
  destruct (FST _ _ _ _ LE) as (F1 & F2).
  assert (FSH : Forall (fun ft => field_shape L W (fst ft)) (combine (firstn n fields) (map (fun i => nth_error tt i) (seq 0 n)))).
  { apply Forall_forall. intros ft Hft. rewrite Forall_forall in FS. apply FS. assert (IN : In (fst ft) (firstn n fields)) by (rewrite <- F1; apply in_map, Hft).
    rewrite <- (firstn_skipn n fields). apply in_or_app. left. exact IN. }
  destruct (loop_first _ np xl yl pos w FSH NP SS LO) as (Ps & ts & ET & FB & CT & _ & RR).
  rewrite F1 in FB. rewrite F2 in ET. rewrite (map_some_seq _ _ _ _ _ _ AR ET) in RR. exists Ps. split; [exact FB|]. split; [exact CT | exact RR].
Qed.

(** *** It completes *)
Lemma gen_later_total (P : pobj T) w0 pos : o_vars P = [] -> exists s, generate_particles P draws 0 [] [] n0 Random (Some w0) (init_sim lm P pos) = Ok s.
Proof. intros V. unfold generate_particles. cbv zeta. cbn [pick_seeds Z.to_nat bind]. rewrite V. cbn. eexists. reflexivity. Qed.
Lemma call_total (P : pobj T) q prev s np xl yl t0 m s' : gen_input_check q = Ok (np, xl, yl, t0, m) -> generate_particles P draws np xl yl t0 m prev s = Ok s' ->
  exists u, call_generate P draws q prev s = (Ok u, s').
Proof.
  intros E H. pose proof (call_generate_spec P draws q prev s) as CG. destruct (call_generate P draws q prev s) as ([u|e] & s1).
  - destruct CG as (np' & xl' & yl' & t0' & m' & E' & H'). rewrite E in E'. injection E' as <- <- <- <- <-. rewrite H in H'. injection H' as <-. exists u. reflexivity.
  - destruct CG as (_ & [C | (np' & xl' & yl' & t0' & m' & E' & H')]); [rewrite E in C; discriminate|]. rewrite E in E'. injection E' as <- <- <- <- <-. rewrite H in H'. discriminate.
Qed.
Lemma step_total (f : field T) P q np xl yl target prev pos s1 : field_shape L W f -> built lm dx f P -> weights_finite lm P ->
  gen_input_check q = Ok (np, xl, yl, n0, Random) -> generate_particles P draws np xl yl n0 Random prev (init_sim lm P pos) = Ok s1 ->
  winv lm P (w_arr (s_wst s1)) -> (exists w1, s_walk s1 = Some w1 /\ s_np s1 = Z.of_nat (count w1) /\ walk_ok P w1 /\ (0 < count w1)%nat) ->
  exists r, unsteady_step lm draws q f target prev (unsteady_params dx) pos = Ok r.
Proof.
  intros SH (p' & BP) WF EC GE WI (w1 & EW & EN & WO1 & PC). destruct (built_facts f P SH (ex_intro _ p' BP)) as (FO & A & B & TV & VO & VN).
  unfold unsteady_step. rewrite BP. cbn [bind]. destruct (call_total P q prev _ _ _ _ _ _ s1 EC GE) as (u & ->). cbn [bind].
  destruct (run_target_total lm P draws target 10000 s1 w1 FO WF US WI VO EW EN WO1 PC) as (w2 & wl & s2 & RT). rewrite RT. cbn [bind].
  destruct (run_target_spec lm P draws target 10000 s1 w1 w2 wl s2 FO US WI VO EW EN WO1 RT) as (_ & _ & _ & _ & _ & WO2 & _ & _).
  apply (wok_walk_ok P w2 A B TV) in WO2. destruct (wok_state w2 (-1) WO2) as (st & GS & a & UP). rewrite GS. cbn [bind]. rewrite UP. cbn [bind].
  destruct (wok_state w2 0 WO2) as (st0 & GS0 & a0 & UP0). destruct prev as [w0|]; [|rewrite GS0; cbn [bind]; rewrite UP0]; cbn [bind]; eexists; reflexivity.
Qed.
Lemma step_later_total (f : field T) P target pos w0 : field_shape L W f -> built lm dx f P -> weights_finite lm P -> wok w0 -> (0 < count w0)%nat ->
  exists r, unsteady_step lm draws later_request f target (Some w0) (unsteady_params dx) pos = Ok r.
Proof.
  intros SH BP WF WO PC. destruct (built_facts f P SH BP) as (FO & A & B & TV & VO & VN). destruct (gen_later_total P w0 pos VN) as (s1 & GE).
  destruct (generate_spec lm P draws 0 [] [] n0 Random (Some w0) (init_sim lm P pos) s1 FO) as (_ & _ & w1 & xs & ys & EW & EN & EA & SD & CT & SHP & KE & R1 & _ & _).
  { split; [lia|]. intros x y []. } { exact I. } { apply (wok_walk_ok P w0 A B TV) in WO. apply WO. } { exact GE. }
  cbn [opt_count stored_count init_sim s_walk Z.to_nat] in CT. rewrite !Nat.add_0_r in CT. cbn [opt_count opt_row] in R1.
  eapply step_total; [exact SH | exact BP | exact WF | reflexivity | exact GE | rewrite EA; apply winv_init, FO|].
  exists w1. split; [exact EW|]. split; [exact EN|]. split; [|lia]. split; [exact KE|]. split; [exact SHP|]. intros q Hq. rewrite R1 by lia. apply (wok_walk_ok P w0 A B TV) in WO. apply WO. lia.
Qed.
Lemma step_first_total (f : field T) P np xl yl target pos : field_shape L W f -> built lm dx f P -> weights_finite lm P -> 1 <= np ->
  xl <> [] -> yl <> [] -> Z.of_nat (length xl) <= 9007199254740992 -> Z.of_nat (length yl) <= 9007199254740992 ->
  (forall x y, In x xl -> In y yl -> safe_seed L W x y) ->
  exists r, unsteady_step lm draws (first_request np xl yl) f target None (unsteady_params dx) pos = Ok r.
Proof.
  intros SH BP WF NP NX NY BX BY SS. destruct (built_facts f P SH BP) as (FO & A & B & TV & VO & VN).
  assert (SO : seeds_ok P (OpGen np xl yl n0 Random None)) by (split; [lia|]; intros x y Hx Hy; apply safe_seed_pos; auto).
  destruct (generate_total (G := GV) lm P draws (init_sim lm P pos) np xl yl n0 Random None FO US (conj SO I) VO NX NY BX BY) as (s1 & GE).
  destruct (generate_spec lm P draws np xl yl n0 Random None (init_sim lm P pos) s1 FO SO I I GE) as (_ & _ & w1 & xs & ys & EW & EN & EA & SD & CT & SHP & KE & _ & _ & R3).
  cbn [opt_count stored_count init_sim s_walk] in CT, R3. cbn [Nat.add] in CT, R3. destruct SD as (LX & LY & FX & FY). rewrite Forall_forall in FX, FY.
  eapply step_total; [exact SH | exact BP | exact WF | reflexivity | exact GE | rewrite EA; apply winv_init, FO|].
  exists w1. split; [exact EW|]. split; [exact EN|]. split; [|lia]. split; [exact KE|]. split; [exact SHP|]. intros q Hq. specialize (R3 q ltac:(lia)). rewrite TV in R3 |- *. change (row [] w1 q = fresh (nth q xs 0) (nth q ys 0)) in R3. rewrite R3. assert (IX : In (nth q xs 0) xl) by (apply FX, nth_In; lia). assert (IY : In (nth q ys 0) yl) by (apply FY, nth_In; lia). split.
  - split; [cbn; lia|]. split; [reflexivity|]. split; [reflexivity|]. intros kv [].
  - apply safe_seed_pos; [exact A | exact B|]. apply SS; assumption.
Qed.
Definition field_fin (f : field T) : Prop := forall P, built lm dx f P -> weights_finite lm P.
Lemma loop_later_total fts : forall w0 p pos, Forall (fun ft => field_shape L W (fst ft) /\ field_fin (fst ft) /\ snd ft <> None) fts -> wok w0 -> (0 < count w0)%nat ->
  (forall f', set_field f' p = set_field f' (unsteady_params dx)) -> exists r, unsteady_loop lm draws fts later_request (Some w0) p pos = Ok (Some r).
Proof.
  induction fts as [|(f & ot) fts IH]; intros w0 p pos FS WO PC PP; cbn [unsteady_loop]; [eexists; reflexivity|].
  inversion FS as [|? ? (SH & WF & NO) FS']; subst. cbn [fst snd] in SH, WF, NO. destruct ot as [target|]; [|contradiction].
  rewrite (step_params _ _ _ _ _ _ PP). destruct (built_exists f) as (P & BP). destruct (step_later_total f P target pos w0 SH BP (WF P BP) WO PC) as (((w1 & p1) & pos1) & ST). rewrite ST. cbn [bind].
  destruct (step_later f P target pos w0 w1 p1 pos1 SH BP WO ST) as (WO1 & CT & PP1 & _). apply IH; try assumption. lia.
Qed.
Lemma combine_maps A B : forall (l : list A) (l' : list B), length l = length l' -> map fst (combine l l') = l /\ map snd (combine l l') = l'.
Proof. intros l. induction l as [|a l IHl]; intros [|b l'] HL; try discriminate; [split; reflexivity|]. injection HL as HL. cbn [combine map fst snd]. destruct (IHl l' HL) as (-> & ->). split; reflexivity. Qed.
Lemma unsteady_total pos np xl yl num timestep fields tt : Forall (field_shape L W) fields -> Forall field_fin fields -> fields <> [] -> 1 <= num -> 1 <= np ->
  xl <> [] -> yl <> [] -> Z.of_nat (length xl) <= 9007199254740992 -> Z.of_nat (length yl) <= 9007199254740992 ->
  (forall x y, In x xl -> In y yl -> safe_seed L W x y) ->
  let n := Z.min num (Z.of_nat (length fields)) in
  np_arange timestep (nmul timestep (nofZ (n + 1))) timestep = Ok tt -> n <= Z.of_nat (length tt) ->
  exists w, unsteady_plots lm draws pos dx np xl yl num timestep fields = Ok w.
Proof.
  intros FS FF NF N1 NP NX NY BX BY SS n AR LT. unfold unsteady_plots. cbv zeta. fold n. rewrite AR. cbn [bind].
  set (k := Z.to_nat n). assert (LP : (0 < length fields)%nat) by (destruct fields; [contradiction | cbn; lia]). assert (EN : n = Z.of_nat k) by (unfold k; rewrite Z2Nat.id; [reflexivity | unfold n; lia]). assert (KL : (k <= length fields)%nat) by (unfold k, n; lia). assert (KP : (0 < k)%nat) by (unfold k, n; lia). rewrite EN. rewrite EN in LT. clearbody k. rewrite fts_split by exact KL.
  assert (LE : length (firstn k fields) = length (map (fun i => nth_error tt i) (seq 0 k))) by (rewrite firstn_length, map_length, seq_length; lia).
  destruct (combine_maps _ _ _ _ LE) as (F1 & F2). set (fts := combine _ _) in *.
  assert (OK : Forall (fun ft => field_shape L W (fst ft) /\ field_fin (fst ft) /\ snd ft <> None) fts).
  { apply Forall_forall. intros ft Hft. rewrite Forall_forall in FS, FF. assert (IN : In (fst ft) fields).
    { rewrite <- (firstn_skipn k fields). apply in_or_app. left. rewrite <- F1. apply in_map, Hft. }
    split; [apply FS, IN|]. split; [apply FF, IN|]. assert (IS : In (snd ft) (map (fun i => nth_error tt i) (seq 0 k))) by (rewrite <- F2; apply in_map, Hft).
    apply in_map_iff in IS as (i & <- & Hi). apply in_seq in Hi. apply nth_error_Some. lia. }
  assert (NE : fts <> []). { intros C. rewrite C in F1. destruct fields; [contradiction|]. destruct k; [lia | discriminate]. }
  clearbody fts. destruct fts as [|(f & ot) fts]; [contradiction|]. cbn [unsteady_loop]. inversion OK as [|? ? (SH & WF & NO) OK']; subst. cbn [fst snd] in SH, WF, NO. destruct ot as [target|]; [|contradiction].
  destruct (built_exists f) as (P & BP). destruct (step_first_total f P np xl yl target pos SH BP (WF P BP) NP NX NY BX BY SS) as (((w1 & p1) & pos1) & ST). rewrite ST. cbn [bind].
  destruct (step_first f P np xl yl target pos w1 p1 pos1 SH BP ltac:(lia) SS ST) as (WO1 & CT & PC & PP1 & _).
  destruct (loop_later_total fts w1 p1 pos1 OK' WO1 PC PP1) as (r & ->). cbn [bind]. eexists. reflexivity.
Qed.
(** No field, or no step asked for: the final "return" refers to an unassigned name. *)
Lemma unsteady_none pos np xl yl num timestep fields tt : num <= 0 \/ fields = [] -> 
  np_arange timestep (nmul timestep (nofZ (Z.min num (Z.of_nat (length fields)) + 1))) timestep = Ok tt ->
  unsteady_plots lm draws pos dx np xl yl num timestep fields = Err UnboundLocalError.
Proof.
  intros H AR. unfold unsteady_plots. cbv zeta. rewrite AR. cbn [bind]. replace (zrange 0 (Z.min num (Z.of_nat (length fields)))) with (@nil Z); [reflexivity|].
  unfold zrange. replace (Z.to_nat _) with 0%nat; [reflexivity|]. destruct H as [H| ->]; cbn [length]; lia.
Qed.
(** A longer run repeats the shorter one. *)
Lemma loop_app fts1 fts2 : forall w0 p pos r, Forall (fun ft => field_shape L W (fst ft)) fts1 -> wok w0 -> (forall f', set_field f' p = set_field f' (unsteady_params dx)) ->
  unsteady_loop lm draws (fts1 ++ fts2) later_request (Some w0) p pos = Ok r ->
  exists w1 p1 pos1, unsteady_loop lm draws fts1 later_request (Some w0) p pos = Ok (Some w1) /\ wok w1 /\ (forall f', set_field f' p1 = set_field f' (unsteady_params dx)) /\
    unsteady_loop lm draws fts2 later_request (Some w1) p1 pos1 = Ok r.
Proof.
  induction fts1 as [|(f & ot) fts1 IH]; intros w0 p pos r FS WO PP H.
  - exists w0, p, pos. split; [reflexivity|]. split; [exact WO|]. split; [exact PP | exact H].
  - cbn [app unsteady_loop] in *. inversion FS as [|? ? SH FS']; subst. cbn [fst] in SH. destruct ot as [target|].
    + rewrite (step_params _ _ _ _ _ _ PP) in *. destruct (unsteady_step _ _ _ _ _ _ _ _) as [((w1 & p1) & pos1)|] eqn:ST; [|discriminate]. cbn [bind] in *.
      destruct (built_exists f) as (P & BP). destruct (step_later f P target pos w0 w1 p1 pos1 SH BP WO ST) as (WO1 & CT & PP1 & _). apply IH; assumption.
    + destruct (init _ _) as [(P & p')|]; [|discriminate]. cbn [bind] in H. destruct (call_generate _ _ _ _ _) as ([?|?] & ?); discriminate.
Qed.
Lemma loop_first_app fts1 fts2 np xl yl pos r : fts1 <> [] -> Forall (fun ft => field_shape L W (fst ft)) fts1 -> 0 <= np -> (forall x y, In x xl -> In y yl -> safe_seed L W x y) ->
  unsteady_loop lm draws (fts1 ++ fts2) (first_request np xl yl) None (unsteady_params dx) pos = Ok r ->
  exists w1 p1 pos1, unsteady_loop lm draws fts1 (first_request np xl yl) None (unsteady_params dx) pos = Ok (Some w1) /\ wok w1 /\ (forall f', set_field f' p1 = set_field f' (unsteady_params dx)) /\
    unsteady_loop lm draws fts2 later_request (Some w1) p1 pos1 = Ok r.
Proof.
  intros NE FS NP SS H. destruct fts1 as [|(f & ot) fts1]; [contradiction|]. cbn [app unsteady_loop] in *. inversion FS as [|? ? SH FS']; subst. cbn [fst] in SH. destruct ot as [target|].
  - destruct (unsteady_step _ _ _ _ _ _ _ _) as [((w1 & p1) & pos1)|] eqn:ST; [|discriminate]. cbn [bind] in *.
    destruct (built_exists f) as (P & BP). destruct (step_first f P np xl yl target pos w1 p1 pos1 SH BP NP SS ST) as (WO1 & CT & PC & PP1 & _). apply loop_app; assumption.
  - destruct (init _ _) as [(P & p')|]; [|discriminate]. cbn [bind] in H. destruct (call_generate _ _ _ _ _) as ([?|?] & ?); discriminate.
Qed.
Lemma loop_targets fts : forall q prev p pos r, unsteady_loop lm draws fts q prev p pos = Ok r -> exists ts, map snd fts = map Some ts.
Proof.
  induction fts as [|(f & ot) fts IH]; intros q prev p pos r H; [exists []; reflexivity|]. cbn [unsteady_loop] in H. destruct ot as [target|].
  - destruct (unsteady_step _ _ _ _ _ _ _ _) as [((w1 & p1) & pos1)|]; [|discriminate]. cbn [bind] in H. destruct (IH _ _ _ _ _ H) as (ts & E). exists (target :: ts). cbn [map snd]. rewrite E. reflexivity.
  - destruct (init _ _) as [(P & p')|]; [|discriminate]. cbn [bind] in H. destruct (call_generate _ _ _ _ _) as ([?|?] & ?); discriminate.
Qed.
Lemma unsteady_canon pos np xl yl num timestep fields w : unsteady_plots lm draws pos dx np xl yl num timestep fields = Ok w ->
  let n := Nat.min (Z.to_nat num) (length fields) in (0 < n)%nat /\
  unsteady_loop lm draws (combine (firstn n fields) (map (fun i => Some (target_time timestep i)) (seq 0 n))) (first_request np xl yl) None (unsteady_params dx) pos = Ok (Some w).
Proof.
  intros H. unfold unsteady_plots in H. cbv zeta in H. destruct (np_arange _ _ _) as [tt|] eqn:AR; [|discriminate]. cbn [bind] in H.
  destruct (unsteady_loop _ _ _ _ _ _ _) as [[r|]|] eqn:LO; [|discriminate|discriminate]. cbn [bind] in H. injection H as ->. intros n.
  assert (NP : (0 < n)%nat).
  { destruct (Nat.eq_0_gt_0_cases n) as [C|C]; [exfalso | exact C]. assert (Z0 : zrange 0 (Z.min num (Z.of_nat (length fields))) = []) by (unfold zrange; replace (Z.to_nat _) with 0%nat by lia; reflexivity). rewrite Z0 in LO. cbn in LO. discriminate. }
  split; [exact NP|]. replace (Z.min num (Z.of_nat (length fields))) with (Z.of_nat n) in * by lia. rewrite fts_split in LO by lia.
  assert (LE : length (firstn n fields) = length (map (fun i => nth_error tt i) (seq 0 n))) by (rewrite firstn_length, map_length, seq_length; lia).
  destruct (combine_maps _ _ _ _ LE) as (F1 & F2). destruct (loop_targets _ _ _ _ _ _ LO) as (ts & ET). rewrite F2 in ET.
  rewrite ET, (map_some_seq _ _ _ _ _ _ AR ET), map_map in LO. exact LO.
Qed.
Lemma combine_split_n A B (l : list A) (h : nat -> B) n1 n2 : (n1 <= n2)%nat -> (n2 <= length l)%nat ->
  combine (firstn n2 l) (map h (seq 0 n2)) = combine (firstn n1 l) (map h (seq 0 n1)) ++ combine (firstn (n2 - n1) (skipn n1 l)) (map h (seq n1 (n2 - n1))).
Proof.
  intros H1 H2. replace (firstn n2 l) with (firstn n1 l ++ firstn (n2 - n1) (skipn n1 l)).
  - replace n2 with (n1 + (n2 - n1))%nat at 2 by lia. rewrite seq_app, map_app, Nat.add_0_l. revert H2. generalize (firstn (n2 - n1) (skipn n1 l)) (map h (seq n1 (n2 - n1))). intros l2 l2' H2.
    assert (LE : length (firstn n1 l) = length (map h (seq 0 n1))) by (rewrite firstn_length, map_length, seq_length; lia). revert LE. generalize (firstn n1 l) (map h (seq 0 n1)).
    intros a. induction a as [|x a IHa]; intros [|y b] LE; try discriminate; [reflexivity|]. injection LE as LE. cbn [app combine]. f_equal. apply IHa, LE.
  - replace n2 with (n1 + (n2 - n1))%nat at 2 by lia. symmetry. clear H1 H2. revert l. generalize (n2 - n1)%nat as k. induction n1 as [|n1 IH]; intros k l; [reflexivity|].
    destruct l as [|x l]; cbn; [rewrite firstn_nil; reflexivity|]. f_equal. apply IH.
Qed.
Lemma unsteady_prefix pos np xl yl num1 num2 timestep fields w1 w2 : Forall (field_shape L W) fields -> 0 <= np -> (forall x y, In x xl -> In y yl -> safe_seed L W x y) -> num1 <= num2 ->
  unsteady_plots lm draws pos dx np xl yl num1 timestep fields = Ok w1 -> unsteady_plots lm draws pos dx np xl yl num2 timestep fields = Ok w2 ->
  let n1 := Nat.min (Z.to_nat num1) (length fields) in let n2 := Nat.min (Z.to_nat num2) (length fields) in
  count w2 = count w1 /\ exists Ps, Forall2 (built lm dx) (firstn (n2 - n1) (skipn n1 fields)) Ps /\
    forall q, (q < count w1)%nat -> continued GV lm Ps (map (target_time timestep) (seq n1 (n2 - n1))) (path w1 q) (path w2 q).
Proof.
  intros FS NP SS LE H1 H2 n1 n2. destruct (unsteady_canon _ _ _ _ _ _ _ _ H1) as (P1 & L1). destruct (unsteady_canon _ _ _ _ _ _ _ _ H2) as (P2 & L2). fold n1 in P1, L1. fold n2 in P2, L2.
  assert (N12 : (n1 <= n2)%nat) by (unfold n1, n2; lia). assert (NL2 : (n2 <= length fields)%nat) by (unfold n2; lia). clearbody n1 n2.
  rewrite (combine_split_n _ _ fields _ n1 n2 N12 NL2) in L2.
  assert (FSH : forall h k m, Forall (fun ft : field T * option T => field_shape L W (fst ft)) (combine (firstn k (skipn m fields)) h)).
  { intros h k m. apply Forall_forall. intros (f & o) Hft. apply in_combine_l in Hft. cbn [fst]. rewrite Forall_forall in FS. apply FS. rewrite <- (firstn_skipn m fields). apply in_or_app. right.
    rewrite <- (firstn_skipn k (skipn m fields)). apply in_or_app. left. exact Hft. }
  assert (NE : combine (firstn n1 fields) (map (fun i => Some (target_time timestep i)) (seq 0 n1)) <> []).
  { intros C. apply (f_equal (@length _)) in C. rewrite combine_length, firstn_length, map_length, seq_length in C. cbn in C. lia. }
  destruct (loop_first_app _ _ np xl yl pos (Some w2) NE (FSH _ n1 0%nat) NP SS L2) as (w1' & p1 & pos1 & E1 & WO1 & PP1 & LR).
  rewrite E1 in L1. injection L1 as ->. set (f2 := firstn (n2 - n1) (skipn n1 fields)) in *.
  destruct (loop_later _ w1 p1 pos1 (Some w2) (FSH _ _ _) WO1 PP1 LR) as (Ps & ts & w & E & ET & FB & CT & RR). injection E as <-.
  assert (LEN : length f2 = length (map (fun i => Some (target_time timestep i)) (seq n1 (n2 - n1)))) by (unfold f2; rewrite firstn_length, skipn_length, map_length, seq_length; lia).
  destruct (combine_maps _ _ _ _ LEN) as (F1 & F2). rewrite <- F1. change (map snd (combine f2 (map (fun i => Some (target_time timestep i)) (seq n1 (n2 - n1)))) = map Some ts) in ET. rewrite F2 in ET. split; [exact CT|]. exists Ps. split; [exact FB|].
  replace (map (target_time timestep) (seq n1 (n2 - n1))) with ts; [exact RR|]. apply (f_equal (map (fun o : option T => match o with Some t => t | None => n0 end))) in ET. rewrite !map_map in ET. rewrite map_id in ET. symmetry. exact ET.
Qed.
End S.

(** run_iteration and generate_particles on the heap, as long as no list is shared. *)
From Coq Require Import ZArith Bool String List Lia.
From Verif Require Import Num Py NumFacts Walker ParticleTrack SpecWeights SpecPick SpecWalk SpecHist SpecInit SpecApi Interrupt SpecInterrupt
  ProofPick ProofStep ProofStepper ProofRun ProofRunTo ProofHist ProofApi2 ProofInterrupt Heap SpecHeap ProofHeap.
Import ListNotations.
Open Scope nat_scope.

Section Run.
Context {T : Type} {N : Num T}.
Implicit Types (h : heap T) (d : dict).

Definition happs d h es : heap T := fold_left (happly d) es h.
Lemma grows_happs d es : forall h, grows h (happs d h es).
Proof. induction es as [|e es IH]; intros h; [apply grows_refl|]. cbn. eapply grows_trans; [apply grows_happly | apply IH]. Qed.
Lemma view_happs d es : forall h, valid h d -> unshared d -> view (happs d h es) d = replay (view h d) es.
Proof.
  induction es as [|e es IH]; intros h V U; [reflexivity|]. cbn [happs fold_left replay]. change (view (happs d (happly d h e) es) d = replay (apply_ev (view h d) e) es).
  rewrite IH; [|eapply valid_grows; [apply grows_happly | exact V] | exact U]. rewrite view_happly by assumption. reflexivity.
Qed.
Lemma frame_happs d (e : dict) es : forall h, valid h e -> apart d e -> view (happs d h es) e = view h e.
Proof.
  induction es as [|ev es IH]; intros h V A; [reflexivity|]. cbn [happs fold_left]. change (view (happs d (happly d h ev) es) e = view h e).
  rewrite IH; [|eapply valid_grows; [apply grows_happly | exact V] | exact A]. apply view_apart; assumption.
Qed.
Lemma happs_app d a b h : happs d h (a ++ b) = happs d (happs d h a) b.
Proof. apply fold_left_app. Qed.

Lemma hbind_lift {A B} (r : res A) (k : A -> hm T B) h : hbind (hlift r) k h = match r with Ok a => k a h | Err e => (h, Err e) end.
Proof. reflexivity. Qed.
Lemma hbind_read {A B} (f : heap T -> A) (k : A -> hm T B) h : hbind (hread f) k h = k (f h) h.
Proof. reflexivity. Qed.
Lemma lbind_lift {A B} (r : res A) (k : A -> log T B) : lbind (lift r) k = match r with Ok a => k a | Err e => ([], Err e) end.
Proof. destruct r; [apply lbind_ok | reflexivity]. Qed.

Lemma lbind_def {A B} (x : log T A) (k : A -> log T B) : lbind x k = match snd x with Ok a => (fst x ++ fst (k a), snd (k a)) | Err e => (fst x, Err e) end.
Proof. reflexivity. Qed.
Lemma hbind_append {A B} d (l : log T A) (k : A -> hm T B) h : hbind (happend d l) k h = match snd l with Ok a => k a (happs d h (fst l)) | Err e => (happs d h (fst l), Err e) end.
Proof. reflexivity. Qed.

(** A heap computation that follows a log. *)
Definition state_of (r : res (walk T * wst T)) : res (wst T) := match r with Ok ms => Ok (snd ms) | Err e => Err e end.
Definition follows d h (c : hm T (wst T)) (l : log T (walk T * wst T)) : Prop :=
  c h = (happs d h (fst l), state_of (snd l)) /\ forall m s, snd l = Ok (m, s) -> m = replay (view h d) (fst l).
Lemma follows_lift {A} d h (r : res A) k k' : (forall a, r = Ok a -> follows d h (k a) (k' a)) -> follows d h (hbind (hlift r) k) (lbind (lift r) k').
Proof.
  intros H. unfold follows. rewrite hbind_lift, lbind_lift. destruct r as [a|e]; [apply H; reflexivity|]. split; [reflexivity | discriminate].
Qed.
Lemma follows_ret d h s : follows d h (hret s) (lret (view h d, s)).
Proof. split; [reflexivity|]. cbn. intros m s0 E. congruence. Qed.
Lemma hloop_log lm P draws target mi ii d : forall fuel est c s h, valid h d -> unshared d ->
  follows d h (hloop fuel lm P draws target mi ii d est c s) (loop_log fuel lm P draws target mi ii (view h d) est c s).
Proof.
  induction fuel as [|fuel IH]; intros est c s h V U; cbn [hloop loop_log]; [split; [reflexivity | discriminate]|].
  unfold follows. rewrite hbind_read. fold (follows d h). apply follows_lift; intros x _. apply follows_lift; intros y _. apply follows_lift; intros t _.
  destruct (nleb _ _); [|apply follows_ret]. apply follows_lift; intros o _. apply follows_lift; intros [[[ni tts] upd] s'] _. apply follows_lift; intros p _.
  destruct (negb _); [|apply follows_ret].
  set (rl := record_log _ _ _ _ _ _). cbv zeta. unfold follows. rewrite (lbind_def rl). rewrite (hbind_append d rl).
  destruct (snd rl) as [u|er]; [|cbn [fst snd]; split; [reflexivity | discriminate]].
  rewrite hbind_read. set (h1 := happs d h (fst rl)). assert (V1 : valid h1 d) by (eapply valid_grows; [apply grows_happs | exact V]).
  assert (E1 : view h1 d = replay (view h d) (fst rl)) by (apply view_happs; assumption). rewrite <- E1. rewrite hbind_lift.
  destruct (last_of (times (view h1 d)) ii) as [t'|er]; [|cbn; rewrite app_nil_r; split; [reflexivity | discriminate]].
  rewrite lbind_ok. destruct (mi <? c + 1)%Z.
  - cbn [hret lret fst snd]. rewrite app_nil_r. split; [reflexivity|]. intros m s0 E. cbn [snd] in E. congruence.
  - destruct (IH (py_max ntenth (nsub t' t)) (c + 1)%Z s' h1 V1 U) as (F & R). rewrite F. cbn [fst snd]. rewrite happs_app. fold h1. split; [reflexivity|].
    intros m s0 E. rewrite (R m s0 E), E1. unfold replay. rewrite fold_left_app. reflexivity.
Qed.
Lemma hparticles_log lm P draws target mi d : forall idx s h, valid h d -> unshared d ->
  follows d h (hparticles lm P draws target mi idx d s) (particles_log lm P draws target mi idx (view h d) s).
Proof.
  induction idx as [|ii idx IH]; intros s h V U; cbn [hparticles particles_log]; [apply follows_ret|].
  unfold follows. rewrite hbind_read. fold (follows d h). apply follows_lift; intros ts _. apply follows_lift; intros est _. apply follows_lift; intros x _. apply follows_lift; intros y _.
  set (c1 := if near_edge (o_ct P) x y then hret s else hloop _ _ _ _ _ _ _ _ _ _ _). set (l1 := if near_edge (o_ct P) x y then lret (view h d, s) else loop_log _ _ _ _ _ _ _ _ _ _ _).
  assert (F1 : follows d h c1 l1) by (unfold c1, l1; destruct (near_edge (o_ct P) x y); [apply follows_ret | apply hloop_log; assumption]).
  clearbody c1 l1. destruct F1 as (E1 & R1). unfold follows, hbind, lbind. rewrite E1. destruct (snd l1) as [(m1 & s1)|er]; cbn [state_of fst snd]; [|split; [reflexivity | discriminate]].
  specialize (R1 m1 s1 eq_refl). set (h1 := happs d h (fst l1)). assert (V1 : valid h1 d) by (eapply valid_grows; [apply grows_happs | exact V]).
  assert (EV : view h1 d = m1) by (rewrite R1; apply view_happs; assumption). rewrite <- EV.
  destruct (IH s1 h1 V1 U) as (F & R). rewrite F, happs_app. fold h1. split; [reflexivity|].
  intros m s0 E. rewrite (R m s0 E), EV, R1. unfold replay. rewrite fold_left_app. reflexivity.
Qed.

(** Reading the tracked variables when none is missing. *)
Lemma hread_opts_eq np o vs : forall kvs h, (forall v, In v vs -> str_in v base_vars = false -> dget v o <> None) ->
  let f := fun v => dflt (dget v o) [] in
  hread_opts np vs o (map (fun v => (v, f v)) kvs) h = (h, Ok (map (fun v => (v, f v)) (fold_left tvstep vs kvs))).
Proof.
  induction vs as [|v vs IH]; intros kvs h H f; cbn [hread_opts fold_left]; [reflexivity|]. unfold tvstep at 2.
  assert (H' : forall u, In u vs -> str_in u base_vars = false -> dget u o <> None) by (intros u I; apply H; right; exact I).
  destruct (str_in v base_vars) eqn:B; cbn [orb]; [apply IH, H'|]. specialize (H v (or_introl eq_refl) B). destruct (dget v o) as [l|] eqn:DG; [|congruence].
  replace l with (f v) by (unfold f; rewrite DG; reflexivity).
  destruct (str_in v kvs) eqn:A; cbn [orb].
  - apply str_in_spec in A. rewrite (dset_map_in f) by exact A. apply IH, H'.
  - rewrite (dset_map_new f); [apply IH, H'|]. intros C. apply str_in_spec in C. congruence.
Qed.
Lemma dget_map_keys {A B} (f : A -> B) k o : dget k (map (fun kv : string * A => (fst kv, f (snd kv))) o) = option_map f (dget k o).
Proof. induction o as [|(k1 & a) o IH]; [reflexivity|]. cbn [map fst snd dget]. destruct (String.eqb k k1); [reflexivity | exact IH]. Qed.
Lemma view_opts_keys h o : map fst (view_opts h o) = map fst o.
Proof. unfold view_opts. rewrite map_map. reflexivity. Qed.
Lemma canon_o {A} (o : list (string * list A)) : NoDup (map fst o) -> o = map (fun v => (v, dflt (dget v o) [])) (map fst o).
Proof.
  intros D. rewrite map_map. transitivity (map id o); [symmetry; apply map_id|]. apply map_ext_in. intros (k & l) I. cbn. rewrite (dget_nodup _ _ _ D I). reflexivity.
Qed.
Lemma hread_opts_all np (P : pobj T) d h : map fst (d_o d) = tvars P -> hread_opts np (o_vars P) (d_o d) [] h = (h, Ok (d_o d)).
Proof.
  intros K. assert (ND : NoDup (map fst (d_o d))) by (rewrite K; apply NoDup_tvars).
  assert (HH : forall v, In v (o_vars P) -> str_in v base_vars = false -> dget v (d_o d) <> None).
  { intros v I B E. assert (IV : In v (map fst (d_o d))) by (rewrite K; apply tvars_in; auto). apply in_map_iff in IV as ((k & l) & EK & J). cbn in EK. subst k. rewrite (dget_nodup _ _ _ ND J) in E. discriminate. }
  pose proof (hread_opts_eq np (d_o d) (o_vars P) [] h HH) as E. cbv zeta in E. cbn [map] in E. rewrite E, <- tvars_fold, <- K, <- canon_o by exact ND. reflexivity.
Qed.

(** Walk data with the same rows. *)
Lemma walk_ext keys (w w' : walk T) : NoDup keys -> map fst (opts w) = keys -> map fst (opts w') = keys -> shaped keys w -> shaped keys w' -> count w' = count w ->
  (forall p, p < count w -> row keys w' p = row keys w p) -> w' = w.
Proof.
  intros ND K K' (A & B & C) (A' & B' & C') CT R. unfold count in *. destruct w as [x y t o], w' as [x' y' t' o']. cbn [xinds yinds times opts] in *.
  assert (EX : forall p, p < length x -> nth p x' [] = nth p x [] /\ nth p y' [] = nth p y [] /\ nth p t' [] = nth p t [] /\ forall v, In v keys -> nth p (dflt (dget v o') []) [] = nth p (dflt (dget v o) []) []).
  { intros p Hp. specialize (R p Hp). unfold row in R. cbn [xinds yinds times opts] in R. injection R as R1 R2 R3 R4. repeat split; try assumption. intros v I.
    assert (Q : (v, nth p (dflt (dget v o') []) []) = (v, nth p (dflt (dget v o) []) [])); [|congruence].
    apply In_nth_error in I as (i & EI). pose proof (map_nth_error (fun v => (v, nth p (dflt (dget v o') []) [])) _ _ EI) as Q1. rewrite R4 in Q1.
    rewrite (map_nth_error (fun v => (v, nth p (dflt (dget v o) []) [])) _ _ EI) in Q1. congruence. }
  f_equal.
  - apply nth_ext with (d := []) (d' := []); [exact CT|]. intros p Hp. apply EX. lia.
  - apply nth_ext with (d := []) (d' := []); [lia|]. intros p Hp. apply EX. lia.
  - apply nth_ext with (d := []) (d' := []); [lia|]. intros p Hp. apply EX. lia.
  - rewrite (canon_o o) by (rewrite K; exact ND). rewrite (canon_o o') by (rewrite K'; exact ND). rewrite K, K'. apply map_ext_in. intros v I. f_equal.
    destruct (C v I) as (l & El & Ll). destruct (C' v I) as (l' & El' & Ll'). rewrite El, El'. cbn [dflt]. apply nth_ext with (d := []) (d' := []); [lia|]. intros p Hp.
    assert (Hp' : p < length x) by lia. destruct (EX p Hp') as (_ & _ & _ & Q). specialize (Q v I). rewrite El, El' in Q. exact Q.
Qed.
End Run.

Section RunSim.
Context {T : Type} {N : Num T} {NL : NumLaws T} {GV : T -> Prop}.
Variables (lm : Libm T) (P : pobj T) (draws : nat -> T).
Hypotheses (FO : field_ok lm P) (US : unit_stream GV draws).

(** The state of an object as its user sees it. *)
Definition val (h : heap T) (s : hsim T) : psim T := {| s_np := hs_np s; s_walk := option_map (view h) (hs_walk s); s_wst := hs_wst s |}.

Lemma hstep_sim h s d w' s' : winv lm P (w_arr (hs_wst s)) -> vars_ok P -> hs_walk s = Some d -> valid h d -> unshared d ->
  hs_np s = Z.of_nat (count (view h d)) -> walk_ok P (view h d) ->
  run_step lm P draws (val h s) = Ok (w', s') ->
  exists es s1, hrun_step lm P draws s h = (happs d h es, Ok (d, s1)) /\ hs_walk s1 = Some d /\ val (happs d h es) s1 = s'.
Proof.
  intros WI VO SW V U NP WO H. set (w := view h d) in *.
  assert (SV : s_walk (val h s) = Some w) by (cbn; rewrite SW; reflexivity).
  destruct (step_refine lm P draws (val h s) w w' s' FO US WI VO SV NP WO H) as (OK & RW).
  destruct (run_step_spec lm P draws (val h s) w w' s' FO US WI VO SV NP WO H) as (SW' & NP' & CT & _ & KE' & SH' & _).
  pose proof WO as (KE & SH & _).
  assert (EW : replay w (fst (step_log lm P draws (val h s))) = w').
  { destruct (replay_shaped (tvars P) w (fst (step_log lm P draws (val h s))) SH) as (SR & CR).
    apply (walk_ext (tvars P)); [apply NoDup_tvars | exact KE' | rewrite replay_keys; exact KE | exact SH' | exact SR | congruence|].
    intros p Hp. rewrite CT in Hp. rewrite (RW p Hp). apply replay_row; assumption. }
  assert (KD : map fst (d_o d) = tvars P) by (rewrite <- KE; unfold w; cbn [view opts]; rewrite view_opts_keys; reflexivity).
  unfold run_step in H. unfold step_log in OK, EW. rewrite SV in H, OK, EW. change (s_np (val h s)) with (hs_np s) in *. change (s_wst (val h s)) with (hs_wst s) in *.
  unfold hrun_step. rewrite SW. rewrite hbind_read. fold w.
  replace (length (d_x d)) with (length (xinds w)) by (unfold w; cbn [view xinds]; apply map_length).
  cbv zeta in *. set (np := if (hs_np s =? 0)%Z then Z.of_nat (length (xinds w)) else hs_np s) in *.
  apply bind_ok in H as (sx & E1 & H). rewrite E1, lbind_ok in OK, EW. rewrite hbind_lift, E1.
  apply bind_ok in H as (sy & E2 & H). rewrite E2, lbind_ok in OK, EW. rewrite hbind_lift, E2.
  apply bind_ok in H as (st & E3 & H). rewrite E3, lbind_ok in OK, EW. rewrite hbind_lift, E3.
  assert (RO : read_opts np (o_vars P) (opts w) [] = opts w).
  { rewrite (read_opts_shaped P np w SH). rewrite <- KE. symmetry. apply canon_o. rewrite KE. apply NoDup_tvars. }
  rewrite RO in H, OK, EW. unfold hbind at 1. rewrite (hread_opts_all np P d h KD). rewrite hbind_read. change (view_opts h (d_o d)) with (opts w).
  apply bind_ok in H as (u & E4 & H). rewrite E4, lbind_ok in OK, EW. rewrite hbind_lift, E4.
  apply bind_ok in H as ((((ni & tts) & upd) & ws) & E5 & H). cbv beta iota in H. rewrite E5, lbind_ok in OK, EW. rewrite hbind_lift, E5. cbv beta iota in OK, EW |- *.
  set (lg := lforeach _ _) in *. exists (fst lg), {| hs_np := np; hs_walk := Some d; hs_wst := ws |}.
  replace {| d_x := d_x d; d_y := d_y d; d_t := d_t d; d_o := d_o d |} with d by (destruct d; reflexivity).
  unfold hbind, happend. rewrite OK. split; [reflexivity|]. split; [reflexivity|].
  apply bind_ok in H as (ov' & E6 & H). injection H as W1 S1. rewrite <- S1 in *. cbn [s_walk s_np s_wst] in *. unfold val. cbn [hs_np hs_walk hs_wst option_map].
  rewrite (view_happs d (fst lg) h V U). fold w. rewrite EW. f_equal. symmetry. exact SW'.
Qed.

Lemma htarget_sim h s d target mi w' wl s' : winv lm P (w_arr (hs_wst s)) -> vars_ok P -> hs_walk s = Some d -> valid h d -> unshared d ->
  hs_np s = Z.of_nat (count (view h d)) -> walk_ok P (view h d) ->
  run_target lm P draws target mi (val h s) = Ok (w', wl, s') ->
  exists es s1, hrun_target lm P draws target mi s h = (happs d h es, Ok (d, s1)) /\ hs_walk s1 = Some d /\ val (happs d h es) s1 = s'.
Proof.
  intros WI VO SW V U NP WO H. set (w := view h d) in *.
  assert (SV : s_walk (val h s) = Some w) by (cbn; rewrite SW; reflexivity).
  destruct (run_target_spec lm P draws target mi (val h s) w w' wl s' FO US WI VO SV NP WO H) as (CP & SW' & NP' & CT & _ & WO' & _).
  pose proof WO as (KE & SH & _). pose proof WO' as (KE' & SH' & _).
  assert (KD : map fst (d_o d) = tvars P) by (rewrite <- KE; unfold w; cbn [view opts]; rewrite view_opts_keys; reflexivity).
  unfold run_target in H. rewrite SV in H. change (s_np (val h s)) with (hs_np s) in *. change (s_wst (val h s)) with (hs_wst s) in *.
  unfold hrun_target. rewrite SW. rewrite hbind_read. fold w.
  replace (length (d_x d)) with (length (xinds w)) by (unfold w; cbn [view xinds]; apply map_length).
  cbv zeta in *.
  assert (ENP : (if (hs_np s =? 0)%Z then Z.of_nat (length (xinds w)) else hs_np s) = Z.of_nat (count w)) by (rewrite NP; unfold count; destruct (Z.of_nat (length (xinds w)) =? 0)%Z; reflexivity).
  rewrite ENP in *.
  apply bind_ok in H as (sx & E1 & H). rewrite hbind_lift, E1. apply bind_ok in H as (sy & E2 & H). rewrite hbind_lift, E2. apply bind_ok in H as (st & E3 & H). rewrite hbind_lift, E3.
  assert (RO : read_opts (Z.of_nat (count w)) (o_vars P) (opts w) [] = opts w).
  { rewrite (read_opts_shaped P _ w SH). rewrite <- KE. symmetry. apply canon_o. rewrite KE. apply NoDup_tvars. }
  rewrite RO in H. unfold hbind at 1. rewrite (hread_opts_all _ P d h KD). rewrite hbind_read. change (view_opts h (d_o d)) with (opts w).
  apply bind_ok in H as (u & E4 & H). rewrite hbind_lift, E4.
  apply bind_ok in H as ((((wd' & ov') & ws) & wn) & E & H). cbv beta iota in H.
  assert (EWW : {| xinds := xinds w; yinds := yinds w; times := times w; opts := opts w |} = w) by (destruct w; reflexivity).
  pose proof (particles_refine lm P draws target mi (zrange 0 (Z.of_nat (count w))) w (opts w) w (hs_wst s) None wd' ov' ws wn) as RS. cbv zeta in RS. rewrite EWW in RS.
  destruct (RS KE SH SH KE eq_refl (fun q _ => eq_refl) (fun i I => proj1 (zrange_In _ _ _) I) E) as (evs & L & CT' & RR).
  destruct wn as [wl'|]; [|discriminate]. injection H as W1 _ S1.
  exists evs, {| hs_np := Z.of_nat (count w); hs_walk := Some d; hs_wst := ws |}.
  replace {| d_x := d_x d; d_y := d_y d; d_t := d_t d; d_o := d_o d |} with d by (destruct d; reflexivity).
  destruct (hparticles_log lm P draws target mi d (zrange 0 (Z.of_nat (count w))) (hs_wst s) h V U) as (F & _). fold w in F. rewrite L in F. cbn [fst snd state_of] in F.
  unfold hbind at 1. rewrite F. rewrite hbind_lift. assert (NE : zrange 0 (Z.of_nat (count w)) <> []) by (unfold zrange; destruct (Z.to_nat (Z.of_nat (count w) - 0)) eqn:EZ; [lia | discriminate]).
  destruct (zrange 0 (Z.of_nat (count w))) eqn:EZ; [congruence|]. split; [reflexivity|]. split; [reflexivity|].
  rewrite <- S1. unfold val. cbn [hs_np hs_walk hs_wst option_map]. rewrite (view_happs d evs h V U). fold w. f_equal. f_equal. rewrite W1.
  destruct (replay_shaped (tvars P) w evs SH) as (SR & CR).
  apply (walk_ext (tvars P)); [apply NoDup_tvars | exact KE' | rewrite replay_keys; exact KE | exact SH' | exact SR | congruence|].
  intros p Hp. rewrite CT in Hp. rewrite <- W1. symmetry. apply RR, Hp.
Qed.
End RunSim.

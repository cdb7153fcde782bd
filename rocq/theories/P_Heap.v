(** Properties C89-C91: sharing of lists between walk-data dictionaries and between Particles objects. *)
From Coq Require Import ZArith Bool String List Lia.
From Verif Require Import Num F64 F64Laws Py NumFacts NumMore Walker ParticleTrack SpecWeights SpecPick SpecWalk SpecHist SpecInit SpecApi Interrupt SpecInterrupt Heap SpecHeap
  ProofInit ProofPick ProofStep ProofRun ProofRunTo ProofGen ProofHist ProofApi2 ProofInside ProofInterrupt ProofHeap ProofHeap2 ProofHeap3 Examples ExamplesReach P_Local P_Interrupt.
Import ListNotations.
Open Scope Z_scope.

(** C89 The full property would be: walk data returned by run_iteration keep their contents.  It is false, see below.  What holds, for every number of Particles objects,
    every program of calls on them (with any dictionaries as previous_walk_data, shared or not, and exceptions caught), and every dictionary that exists before: it
    keeps its particles, and no list of it loses or changes an entry; entries are only added at the ends. *)
Theorem C89_returned_data_partial :
  forall lm (P : nat -> pobj f64) draws prog w d,
    valid (wh w) d -> walk_grows (view (wh w) d) (view (wh (wdos lm P draws prog w)) d).
Proof. intros lm P draws prog w d V. apply view_grows; [apply grows_wdos | exact V]. Qed.
Print Assumptions C89_returned_data_partial.

(** Whenever two runs follow each other, the dictionary returned by the first one reads, after the second one, like the dictionary returned by the second one: if the
    second run moves a particle, the data returned by the first one have changed. *)
Theorem C89_returned_data_refuted :
  forall G lm L W (p : params f64) (P : nat -> pobj f64) draws k w o1 o2 s1 s2,
    session G lm L W p (P k) (draws k) (value w k) -> separate w ->
    is_run (value_op (wh w) o1) -> is_run (value_op (wh w) o2) ->
    do_op lm (P k) (draws k) (value_op (wh w) o1) (value w k) = Ok s1 -> do_op lm (P k) (draws k) (value_op (wh w) o2) s1 = Ok s2 ->
    exists w1 w2 d1 d2, wdo lm P draws k o1 w = (w1, Ok (Some d1)) /\ wdo lm P draws k o2 w1 = (w2, Ok (Some d2)) /\
      s_walk s1 = Some (view (wh w1) d1) /\ s_walk s2 = Some (view (wh w2) d2) /\
      view (wh w2) d1 = view (wh w2) d2 /\ (s_walk s2 <> s_walk s1 -> view (wh w2) d1 <> view (wh w1) d1).
Proof.
  intros G lm L W p P draws k w o1 o2 s1 s2 SS SEP R1 R2 D1 D2.
  destruct (session_field _ _ _ _ _ _ _ SS) as (FO & _ & US & RE & _). pose proof (reached_inv lm (P k) (draws k) _ FO US RE) as SI.
  assert (NU : forall (w : world f64) o, is_run (value_op (wh w) o) -> not_in_use w o) by (intros w0 [] H d E; cbn in *; try contradiction; discriminate).
  assert (OK : forall h o, is_run (value_op h o) -> op_ok G lm (P k) (value_op h o)) by (intros h [] H; cbn in *; try contradiction; split; exact I).
  assert (IR : forall (h h' : heap f64) (o : hop f64), is_run (value_op h o) -> is_run (value_op h' o)) by (intros h h' [] H; exact H).
  assert (EV : forall (h h' : heap f64) (o : hop f64), is_run (value_op h o) -> value_op h o = value_op h' o) by (intros h h' [] H; cbn in *; try contradiction; reflexivity).
  destruct (wdo_sim G lm P draws w k o1 s1 FO US SI SEP (NU _ _ R1) (OK _ _ R1) D1) as (w1 & r1 & E1 & V1 & _ & SEP1 & S1).
  assert (SI1 : SInv (GV := G) lm (P k) (value w1 k)) by (rewrite V1; eapply op_inv; [exact FO | exact US | exact SI | apply OK, R1 | exact D1]).
  assert (R2' : is_run (value_op (wh w1) o2)) by (eapply IR, R2).
  assert (D2' : do_op lm (P k) (draws k) (value_op (wh w1) o2) (value w1 k) = Ok s2) by (rewrite V1, (EV (wh w1) (wh w) o2 R2'); exact D2).
  destruct (wdo_sim G lm P draws w1 k o2 s2 FO US SI1 SEP1 (NU _ _ R2') (OK _ _ R2') D2') as (w2 & r2 & E2 & V2 & _ & SEP2 & S2).
  assert (RS : forall (w w' : world f64) o r, is_run (value_op (wh w) o) -> wdo lm P draws k o w = (w', Ok r) -> exists d, r = Some d).
  { intros v v' o r IRo E. unfold wdo in E. destruct o; cbn in IRo; try contradiction; cbn [hdo] in E; unfold hbind in E.
    - destruct (hrun_step _ _ _ _ _) as (h' & [(d & s)|]); cbn in E; [|discriminate]. injection E as _ <-. eauto.
    - destruct (hrun_target _ _ _ _ _ _ _) as (h' & [(d & s)|]); cbn in E; [|discriminate]. injection E as _ <-. eauto. }
  destruct (RS _ _ _ _ R1 E1) as (d1 & ->). destruct (RS _ _ _ _ R2' E2) as (d2 & ->). destruct S1 as (_ & S1). destruct S2 as (S2 & S2').
  assert (d1 = d2) by congruence. subst d2.
  assert (W1 : s_walk s1 = Some (view (wh w1) d1)) by (rewrite <- V1; unfold value; cbn [s_walk]; rewrite S1; reflexivity).
  assert (W2 : s_walk s2 = Some (view (wh w2) d1)) by (rewrite <- V2; unfold value; cbn [s_walk]; rewrite S2'; reflexivity).
  exists w1, w2, d1, d1. repeat split; try assumption. intros NE EQ. apply NE. rewrite W1, W2, EQ. reflexivity.
Qed.
Print Assumptions C89_returned_data_refuted.

(** C90 The full property would be: the calls on one object do not depend on the calls on other objects.  It is false, see below.  What holds, for every number of
    objects and every program in which previous walk data are passed only when they are not in use: no two objects ever share a list, and the state of every object is
    one that a session of that object alone has (the calls on the object, with the contents of the dictionaries they were given): all properties of sessions hold. *)
Theorem C90_objects_alone_partial :
  forall G lm (L W : nat -> Z) (ps : nat -> params f64) P draws w,
    (forall k, standard lm (L k) (W k) (ps k) /\ (exists p', init lm (ps k) = Ok (P k, p')) /\ unit_stream G (draws k)) ->
    apart_run G lm P draws w ->
    separate w /\ forall k, session G lm (L k) (W k) (ps k) (P k) (draws k) (value w k).
Proof.
  intros G lm L W ps P draws w H R.
  assert (FOU : forall k, field_ok lm (P k) /\ unit_stream G (draws k)).
  { intros k. destruct (H k) as (ST & (p' & E) & U). destruct (standard_field_ok lm (L k) (W k) (ps k) (P k) p' ST E) as (FO & _). auto. }
  assert (I : separate w /\ forall k, reached G lm (P k) (draws k) (value w k)).
  { induction R as [pos|w m R (SEP & IH) ND|w k o s' R (SEP & IH) NU OK DO].
    - split; [split; [intros k d E; discriminate | intros k j d e _ E; discriminate]|]. intros k. exists (pos k), []. split; [constructor | reflexivity].
    - unfold wload. destruct (alloc_walk_spec m (wh w) ND) as (h' & d & EA & _ & _ & _ & _ & OLD & _). rewrite EA. cbn [fst].
      assert (GR : grows (wh w) h') by (pose proof (mono_alloc_walk m (wh w)) as GG; rewrite EA in GG; exact GG). destruct SEP as (A & B). split.
      + split; cbn [wh wo]; [|exact B]. intros k e E. destruct (A k e E) as (V & U). split; [eapply valid_grows; eassumption | exact U].
      + intros k. replace (value {| wh := h'; wo := wo w |} k) with (value w k); [apply IH|]. unfold value. cbn [wh wo]. f_equal.
        destruct (hs_walk (wo w k)) as [e|] eqn:E; [|reflexivity]. cbn. rewrite (OLD e); [reflexivity|]. apply (A k e E).
    - destruct (FOU k) as (FO & US). pose proof (reached_inv lm (P k) (draws k) _ FO US (IH k)) as SI.
      destruct (wdo_sim G lm P draws w k o s' FO US SI SEP NU OK DO) as (w' & r & E & V & OTH & SEP' & _). rewrite E. cbn [fst]. split; [exact SEP'|].
      intros j. destruct (Nat.eq_dec j k) as [->|NE]; [|rewrite OTH by exact NE; apply IH]. rewrite V. destruct (IH k) as (pos & os & F & EO).
      exists pos, (os ++ [value_op (wh w) o]). split; [apply Forall_app; split; [exact F | constructor; [exact OK | constructor]]|]. rewrite do_ops_app, EO. exact DO. }
  destruct I as (SEP & RE). split; [exact SEP|]. intros k. destruct (H k) as (ST & IN & U). split; [exact ST|]. split; [exact IN|]. split; [exact U | apply RE].
Qed.
Print Assumptions C90_objects_alone_partial.

(** A single call: it has the outcome that it has on the object alone, and the other objects stay as they are. *)
Theorem C90_call_partial :
  forall G lm L W (p : params f64) P draws w k o s',
    session G lm L W p (P k) (draws k) (value w k) -> separate w -> not_in_use w o -> op_ok G lm (P k) (value_op (wh w) o) ->
    do_op lm (P k) (draws k) (value_op (wh w) o) (value w k) = Ok s' ->
    exists w' r, wdo lm P draws k o w = (w', Ok r) /\ value w' k = s' /\ (forall j, j <> k -> value w' j = value w j) /\
      forall d, r = Some d -> s_walk s' = Some (view (wh w') d).
Proof.
  intros G lm L W p P draws w k o s' SS SEP NU OK DO. destruct (session_field _ _ _ _ _ _ _ SS) as (FO & _ & US & RE & _).
  destruct (wdo_sim G lm P draws w k o s' FO US (reached_inv lm (P k) (draws k) _ FO US RE) SEP NU OK DO) as (w' & r & E & V & OTH & _ & SR).
  exists w', r. split; [exact E|]. split; [exact V|]. split; [exact OTH|]. intros d ->. destruct SR as (_ & SR). rewrite <- V. unfold value. cbn [s_walk]. rewrite SR. reflexivity.
Qed.
Print Assumptions C90_call_partial.

(** A run of an object whose own lists are not shared with each other, whatever other objects share them. *)
Lemma hrun_sim G lm (P : nat -> pobj f64) draws w j d o s' : field_ok lm (P j) -> unit_stream G (draws j) -> SInv (GV := G) lm (P j) (value w j) ->
  hs_walk (wo w j) = Some d -> valid (wh w) d -> unshared d -> is_run (value_op (wh w) o) -> do_op lm (P j) (draws j) (value_op (wh w) o) (value w j) = Ok s' ->
  exists es s1, wdo lm P draws j o w = ({| wh := happs d (wh w) es; wo := set_obj (wo w) j s1 |}, Ok (Some d)) /\ hs_walk s1 = Some d /\ val (happs d (wh w) es) s1 = s'.
Proof.
  intros FO US (WI & I0) SJ V U IR DO. assert (SV : s_walk (value w j) = Some (view (wh w) d)) by (unfold value; cbn [s_walk]; rewrite SJ; reflexivity).
  rewrite SV in I0. destruct I0 as (VO & NP & KE & HO). pose proof (hist_walk_ok lm (P j) _ FO KE HO) as WO. unfold wdo.
  destruct o as [np xl yl t0 m prev| |target mi|]; cbn [value_op is_run do_op hdo] in *; try contradiction.
  - destruct (run_step lm (P j) (draws j) (value w j)) as [(w1 & s1)|] eqn:E; [|discriminate]. injection DO as <-.
    destruct (hstep_sim lm (P j) (draws j) FO US (wh w) (wo w j) d w1 s1 WI VO SJ V U NP WO E) as (es & s2 & EH & ES & EV). exists es, s2. unfold hbind. rewrite EH. cbn. auto.
  - destruct (run_target lm (P j) (draws j) target mi (value w j)) as [((w1 & wl) & s1)|] eqn:E; [|discriminate]. injection DO as <-.
    destruct (htarget_sim lm (P j) (draws j) FO US (wh w) (wo w j) d target mi w1 wl s1 WI VO SJ V U NP WO E) as (es & s2 & EH & ES & EV). exists es, s2. unfold hbind. rewrite EH. cbn. auto.
Qed.
Lemma nth_map_sread {A} (st : list (list A)) (l : list nat) q : (q < length l)%nat -> nth q (map (sread st) l) [] = sread st (nth q l 0%nat).
Proof. intros H. rewrite (nth_indep _ [] (sread st 0%nat)) by (rewrite map_length; exact H). apply map_nth. Qed.
Lemma merge_first {A} (st : list (list A)) (a b : list nat) q : (q < length a)%nat -> nth q (map (sread st) (a ++ b)) [] = nth q (map (sread st) a) [].
Proof. intros H. rewrite map_app, app_nth1 by (rewrite map_length; exact H). reflexivity. Qed.
Lemma merge_second {A} (st : list (list A)) (a b : list nat) q : nth (length a + q) (map (sread st) (a ++ b)) [] = nth q (map (sread st) b) [].
Proof. rewrite map_app, app_nth2 by (rewrite map_length; lia). rewrite map_length. f_equal. lia. Qed.

(** If object j gets the walk data of object i as previous_walk_data (the way dorado/routines.py:257 does it), then every run of object j also moves the particles
    of object i: after it, their recorded cells and times in object i are those in object j. *)
Theorem C90_objects_alone_refuted :
  forall G lm Li Wi Lj Wj (pi pj : params f64) P draws w i j d np xl yl t0 m o s1 s2,
    i <> j -> separate w -> session G lm Li Wi pi (P i) (draws i) (value w i) -> session G lm Lj Wj pj (P j) (draws j) (value w j) ->
    hs_walk (wo w i) = Some d ->
    let gen := HGen np xl yl t0 m (Some d) in
    op_ok G lm (P j) (value_op (wh w) gen) -> do_op lm (P j) (draws j) (value_op (wh w) gen) (value w j) = Ok s1 ->
    is_run (value_op (wh w) o) -> do_op lm (P j) (draws j) (value_op (wh w) o) s1 = Ok s2 ->
    exists w1 w2 r1 r2 m1 m2 i1 i2, wdo lm P draws j gen w = (w1, Ok r1) /\ wdo lm P draws j o w1 = (w2, Ok r2) /\ value w1 j = s1 /\ value w2 j = s2 /\
      s_walk s1 = Some m1 /\ s_walk s2 = Some m2 /\ s_walk (value w1 i) = Some i1 /\ s_walk (value w2 i) = Some i2 /\ value w1 i = value w i /\
      (forall q, (q < count i1)%nat ->
         nth q (xinds i1) [] = nth q (xinds m1) [] /\ nth q (xinds i2) [] = nth q (xinds m2) [] /\
         nth q (yinds i1) [] = nth q (yinds m1) [] /\ nth q (yinds i2) [] = nth q (yinds m2) [] /\
         nth q (times i1) [] = nth q (times m1) [] /\ nth q (times i2) [] = nth q (times m2) []).
Proof.
  intros G lm Li Wi Lj Wj pi pj P draws w i j d np xl yl t0 m o s1 s2 NE SEP SSi SSj SI gen OK DG IR DO.
  destruct (session_field _ _ _ _ _ _ _ SSj) as (FO & _ & US & RE & _). pose proof (reached_inv lm (P j) (draws j) _ FO US RE) as SV.
  destruct (session_data _ _ _ _ _ _ _ _ (view (wh w) d) SSi) as (FOi & _ & _ & _ & _ & WOi); [unfold value; cbn [s_walk]; rewrite SI; reflexivity|].
  destruct SEP as (SEP1 & SEP2). destruct (SEP1 i d SI) as (V & U).
  destruct (hgen_sim G lm P draws w j np xl yl t0 m (Some d) s1 FO SV (fun e E => proj1 (SEP1 j e E))) as (h' & d0 & t1 & EH & EV & V0 & U0 & FR & OLD & GR & _ & ES); try assumption.
  { intros e E. injection E as <-. exact V. }
  set (d1 := match hs_walk (wo w j) with Some d => hmerge d d0 | None => d0 end) in *. cbv zeta in ES.
  assert (V1 : valid h' d1 /\ unshared d1 /\ apart d d1).
  { unfold d1. destruct (hs_walk (wo w j)) as [e|] eqn:EJ.
    - destruct (SEP1 j e EJ) as (Ve & Ue). assert (A0 : apart e d0) by (apply apart_sym; eapply fresh_apart; eassumption).
      split; [apply valid_merge; [eapply valid_grows; eassumption | exact V0]|]. split; [apply unshared_merge; assumption|].
      apply apart_sym, apart_merge; [eapply SEP2; [apply not_eq_sym, NE | exact EJ | exact SI] | eapply fresh_apart; eassumption].
    - split; [exact V0|]. split; [exact U0|]. apply apart_sym. eapply fresh_apart; eassumption. }
  destruct V1 as (V1 & U1 & A1). assert (V2 : valid h' (hmerge d d1)) by (apply valid_merge; [eapply valid_grows; eassumption | exact V1]).
  assert (U2 : unshared (hmerge d d1)) by (apply unshared_merge; assumption).
  set (w1 := {| wh := h'; wo := set_obj (wo w) j t1 |}). assert (EW : wdo lm P draws j gen w = (w1, Ok None)) by (unfold wdo, gen; rewrite EH; reflexivity).
  assert (VJ : value w1 j = s1) by (unfold value, w1; cbn [wh wo]; rewrite set_same; exact EV).
  assert (SJ : hs_walk (wo w1 j) = Some (hmerge d d1)) by (unfold w1; cbn [wo]; rewrite set_same; exact ES).
  assert (SV1 : SInv (GV := G) lm (P j) (value w1 j)) by (rewrite VJ; eapply op_inv; [exact FO | exact US | exact SV | exact OK | exact DG]).
  assert (EO : value_op (wh w1) o = value_op (wh w) o) by (destruct o; cbn in IR |- *; try contradiction; reflexivity).
  destruct (hrun_sim G lm P draws w1 j (hmerge d d1) o s2 FO US SV1 SJ V2 U2) as (es & t2 & ER & ES2 & EV2); [rewrite EO; exact IR | rewrite EO, VJ; exact DO|].
  set (w2 := {| wh := happs _ _ _; wo := _ |}) in ER.
  assert (VJ2 : value w2 j = s2) by (unfold value, w2; cbn [wh wo]; rewrite set_same; exact EV2).
  assert (SI1 : hs_walk (wo w1 i) = Some d) by (unfold w1; cbn [wo]; rewrite set_other by exact NE; exact SI).
  assert (SI2 : hs_walk (wo w2 i) = Some d) by (unfold w2; cbn [wo]; rewrite set_other by exact NE; exact SI1).
  exists w1, w2, None, (Some (hmerge d d1)), (view (wh w1) (hmerge d d1)), (view (wh w2) (hmerge d d1)), (view (wh w1) d), (view (wh w2) d).
  split; [exact EW|]. split; [exact ER|]. split; [exact VJ|]. split; [exact VJ2|].
  split; [rewrite <- VJ; unfold value; cbn [s_walk]; rewrite SJ; reflexivity|]. split; [rewrite <- VJ2; unfold value; cbn [s_walk]; unfold w2 at 2; cbn [wo]; rewrite set_same, ES2; reflexivity|].
  split; [unfold value; cbn [s_walk]; rewrite SI1; reflexivity|]. split; [unfold value; cbn [s_walk]; rewrite SI2; reflexivity|].
  split; [unfold value, w1; cbn [wh wo]; rewrite set_other by exact NE; rewrite SI; cbn [option_map]; rewrite (OLD d V); reflexivity|].
  destruct WOi as (_ & (LY & LT & _) & _). unfold count in LY, LT |- *. cbn [view xinds yinds times hmerge d_x d_y d_t] in *. rewrite !map_length in LY, LT.
  intros q. rewrite map_length. intros Hq. rewrite !merge_first by lia. repeat split.
Qed.
Print Assumptions C90_objects_alone_refuted.

(** C91 The full property would be: the recorded histories are random walks, whichever walk data are given as previous_walk_data.  It is false, see below.  What holds,
    for every number of objects and every program in which previous walk data are passed only when they are not in use. *)
Theorem C91_histories_partial :
  forall G lm (L W : nat -> Z) (ps : nat -> params f64) P draws w,
    (forall k, standard lm (L k) (W k) (ps k) /\ (exists p', init lm (ps k) = Ok (P k, p')) /\ unit_stream G (draws k)) ->
    apart_run G lm P draws w ->
    forall k m q, s_walk (value w k) = Some m -> (q < count m)%nat -> history_ok G lm (P k) (hist (P k) m q).
Proof.
  intros G lm L W ps P draws w H R k m q E Hq. destruct (C90_objects_alone_partial G lm L W ps P draws w H R) as (_ & SS). eapply session_hist; [apply SS | exact E | exact Hq].
Qed.
Print Assumptions C91_histories_partial.

(** If an object gets its own walk data as previous_walk_data, the number of particles doubles, and each particle shares all its lists with its copy: whatever is done
    afterwards with any objects, both always have the same recorded cells, times and values, so a run records the moves of both in the history of each. *)
Theorem C91_own_data :
  forall G lm L W (p : params f64) P draws w k d np xl yl t0 m s1,
    separate w -> session G lm L W p (P k) (draws k) (value w k) -> hs_walk (wo w k) = Some d ->
    let gen := HGen np xl yl t0 m (Some d) in let n := count (view (wh w) d) in
    op_ok G lm (P k) (value_op (wh w) gen) -> do_op lm (P k) (draws k) (value_op (wh w) gen) (value w k) = Ok s1 ->
    exists w1 e, wdo lm P draws k gen w = (w1, Ok None) /\ value w1 k = s1 /\ hs_walk (wo w1 k) = Some e /\
      forall prog, let m := view (wh (wdos lm P draws prog w1)) e in
        (n + n <= count m)%nat /\
        forall q, (q < n)%nat -> nth q (xinds m) [] = nth (n + q) (xinds m) [] /\ nth q (yinds m) [] = nth (n + q) (yinds m) [] /\ nth q (times m) [] = nth (n + q) (times m) [] /\
          forall v l, In v (tvars (P k)) -> dget v (opts m) = Some l -> nth q l [] = nth (n + q) l [].
Proof.
  intros G lm L W p P draws w k d np xl yl t0 m s1 SEP SS SK gen n OK DG.
  destruct (session_field _ _ _ _ _ _ _ SS) as (FO & _ & US & RE & _). pose proof (reached_inv lm (P k) (draws k) _ FO US RE) as SV.
  destruct (session_data _ _ _ _ _ _ _ _ (view (wh w) d) SS) as (_ & _ & _ & _ & _ & WO); [unfold value; cbn [s_walk]; rewrite SK; reflexivity|].
  destruct SEP as (SEP1 & SEP2). destruct (SEP1 k d SK) as (V & U).
  destruct (hgen_sim G lm P draws w k np xl yl t0 m (Some d) s1 FO SV (fun e E => proj1 (SEP1 k e E))) as (h' & d0 & t1 & EH & EV & V0 & U0 & FR & OLD & GR & KD & ES); try assumption.
  { intros e E. injection E as <-. exact V. }
  rewrite SK in ES. cbv zeta in ES. exists {| wh := h'; wo := set_obj (wo w) k t1 |}, (hmerge d (hmerge d d0)).
  split; [unfold wdo, gen; rewrite EH; reflexivity|]. split; [unfold value; cbn [wh wo]; rewrite set_same; exact EV|]. split; [cbn [wo]; rewrite set_same; exact ES|].
  intros prog. set (h2 := wh (wdos _ _ _ _ _)). cbv zeta. destruct WO as (_ & (LY & LT & LV) & _). unfold count in n, LY, LT |- *. cbn [view xinds yinds times opts] in LY, LT, LV. rewrite !map_length in LY, LT.
  assert (EN : n = length (d_x d)) by (unfold n; cbn [view xinds]; apply map_length). clearbody n. subst n. cbn [view xinds yinds times opts hmerge d_x d_y d_t d_o].
  split; [rewrite map_length, !app_length; lia|]. intros q Hq. rewrite !merge_second, !merge_first by lia. split; [reflexivity|].
  split; [rewrite <- LY, merge_second, !merge_first by lia; reflexivity|]. split; [rewrite <- LT, merge_second, !merge_first by lia; reflexivity|].
  intros v l Hv E. destruct (LV v Hv) as (lv & Elv & Llv). revert E. unfold view_opts.
  assert (DM : forall (o : list (string * list nat)), dget v (map (fun kv => (fst kv, map (sread (h_o h2)) (snd kv))) o) = option_map (map (sread (h_o h2))) (dget v o)).
  { induction o as [|(k' & l') o IH]; [reflexivity|]. cbn [map dget fst snd]. destruct (String.eqb v k'); [reflexivity | exact IH]. }
  assert (DM2 : dget v (view_opts (wh w) (d_o d)) = option_map (map (sread (h_o (wh w)))) (dget v (d_o d))).
  { unfold view_opts. generalize (d_o d). induction l0 as [|(k' & l') o IH]; [reflexivity|]. cbn [map dget fst snd]. destruct (String.eqb v k'); [reflexivity | exact IH]. }
  rewrite DM, !dget_merge. rewrite DM2 in Elv. destruct (dget v (d_o d)) as [ld|]; [|discriminate]. cbn [option_map dflt] in *. injection Elv as <-. unfold count in Llv. cbn [view xinds] in Llv. rewrite !map_length in Llv.
  destruct (dget v (d_o d0)) as [l0|]; [|discriminate]. cbn [option_map]. intros E. injection E as <-. rewrite <- Llv, merge_second, !merge_first by lia. reflexivity.
Qed.
Print Assumptions C91_own_data.

(** Two objects with the same grids; object 0 has two particles. *)
Definition hx_P : nat -> pobj f64 := fun _ => ex_P.
Definition hx_draws : nat -> nat -> f64 := fun _ => ex_draws.
Definition hx_0 : world f64 := new_world ex_lm hx_P (fun _ => 0%nat).
Definition hx_gen : hop f64 := HGen 2 [3] [3] n0 Exact None.
Definition hx_1 : world f64 := fst (wdo ex_lm hx_P hx_draws 0 hx_gen hx_0).
Definition hx_d : dict := {| d_x := [0; 1]%nat; d_y := [2; 3]%nat; d_t := [0; 1]%nat; d_o := [("depth"%string, [0; 1]%nat)] |}.
(** The call that passes walk data on without adding particles (dorado/routines.py:257). *)
Definition hx_pass : hop f64 := HGen 0 [] [] n0 Random (Some hx_d).
(** Object 0 gets its own data, and runs. *)
Definition hx_2 : world f64 := fst (wdo ex_lm hx_P hx_draws 0 hx_pass hx_1).
Definition hx_3 : world f64 := fst (wdo ex_lm hx_P hx_draws 0 HRun hx_2).
Lemma hx_standard k : standard ex_lm 10 9 ex_params /\ (exists p', init ex_lm ex_params = Ok (hx_P k, p')) /\ unit_stream any_draw (hx_draws k).
Proof. split; [exact ex_standard|]. split; [exact ex_init | exact ex_stream_any]. Qed.
Lemma hx_op1 : op_ok any_draw ex_lm ex_P (OpGen 2 [3] [3] n0 Exact None).
Proof. split; [|exact I]. cbn [seeds_ok]. split; [lia|]. split; [reflexivity|]. intros x y [H|[]]. injection H as <- <-. right. vm_compute. repeat split; congruence. Qed.
Lemma hx_apart : apart_run any_draw ex_lm hx_P hx_draws hx_1.
Proof.
  pose proof lo_rows as C. apply andb_true_iff in C as (C & _). apply andb_true_iff in C as (_ & C). apply rows_near_ok in C as (s & E).
  apply (ar_call _ _ _ _ _ _ _ s); [apply ar_new | intros d H; discriminate H | exact hx_op1|]. unfold lo_run, lo_ops in E. cbn [firstn do_ops] in E.
  unfold bind in E. destruct (do_op ex_lm ex_P ex_draws (OpGen 2 [3] [3] n0 Exact None) (init_sim ex_lm ex_P 0)) as [s1|] eqn:E1; [|discriminate]. injection E as <-. exact E1.
Qed.
Lemma hx_sessions : separate hx_1 /\ forall k, session any_draw ex_lm 10 9 ex_params (hx_P k) (hx_draws k) (value hx_1 k).
Proof. exact (C90_objects_alone_partial any_draw ex_lm (fun _ => 10) (fun _ => 9) (fun _ => ex_params) hx_P hx_draws hx_1 hx_standard hx_apart). Qed.
Lemma hx_stored : hs_walk (wo hx_1 0) = Some hx_d.
Proof. vm_compute. reflexivity. Qed.
Lemma hx_pass_ok : op_ok any_draw ex_lm ex_P (value_op (wh hx_1) hx_pass).
Proof.
  destruct hx_sessions as (_ & SS). destruct (session_field _ _ _ _ _ _ _ (SS 0%nat)) as (FO & _ & US & RE & _). destruct (reached_inv ex_lm ex_P ex_draws _ FO US RE) as (_ & Q).
  unfold value in Q. rewrite hx_stored in Q. cbn [s_walk option_map] in Q. destruct Q as (_ & _ & _ & HO). split; [|exact HO]. cbn [value_op hx_pass seeds_ok]. split; [lia|]. intros x y [].
Qed.
Lemma ok_of {A} (r : res A) : is_ok r = true -> exists a, r = Ok a.
Proof. destruct r as [a|]; [eauto | discriminate]. Qed.

Example C89_example : exists s1 s2, session any_draw ex_lm 10 9 ex_params ex_P ex_draws (value hx_1 0) /\ separate hx_1 /\
  do_op ex_lm ex_P ex_draws OpRun (value hx_1 0) = Ok s1 /\ do_op ex_lm ex_P ex_draws OpRun s1 = Ok s2 /\ s_walk s2 <> s_walk s1.
Proof.
  destruct hx_sessions as (SEP & SS).
  assert (C : match do_op ex_lm ex_P ex_draws OpRun (value hx_1 0) with
              | Ok s1 => match do_op ex_lm ex_P ex_draws OpRun s1 with
                         | Ok s2 => match s_walk s1, s_walk s2 with Some m1, Some m2 => negb (zll_eqb (xinds m1) (xinds m2)) | _, _ => false end
                         | Err _ => false end
              | Err _ => false end = true) by (vm_compute; reflexivity).
  destruct (do_op ex_lm ex_P ex_draws OpRun (value hx_1 0)) as [s1|]; [|discriminate]. destruct (do_op ex_lm ex_P ex_draws OpRun s1) as [s2|] eqn:D2; [|discriminate].
  exists s1, s2. split; [exact (SS 0%nat)|]. split; [exact SEP|]. split; [reflexivity|]. split; [exact D2|].
  destruct (s_walk s1) as [m1|]; [|discriminate]. destruct (s_walk s2) as [m2|]; [|discriminate]. intros EQ. injection EQ as ->.
  replace (zll_eqb (xinds m1) (xinds m1)) with true in C; [discriminate|]. symmetry. clear. induction (xinds m1) as [|a l IH]; [reflexivity|]. cbn [zll_eqb].
  rewrite IH, andb_true_r. induction a as [|z a IHa]; [reflexivity|]. cbn [zl_eqb]. rewrite Z.eqb_refl. exact IHa.
Qed.

Example C90_example : exists s1 s2 m1 m2, separate hx_1 /\ (forall k, session any_draw ex_lm 10 9 ex_params ex_P ex_draws (value hx_1 k)) /\ hs_walk (wo hx_1 0) = Some hx_d /\
  op_ok any_draw ex_lm ex_P (value_op (wh hx_1) hx_pass) /\ do_op ex_lm ex_P ex_draws (value_op (wh hx_1) hx_pass) (value hx_1 1) = Ok s1 /\
  do_op ex_lm ex_P ex_draws OpRun s1 = Ok s2 /\ s_walk s1 = Some m1 /\ s_walk s2 = Some m2 /\ xinds m1 = [[3]; [3]] /\ xinds m2 = [[3; 4]; [3; 4]].
Proof.
  destruct hx_sessions as (SEP & SS).
  assert (C : match do_op ex_lm ex_P ex_draws (value_op (wh hx_1) hx_pass) (value hx_1 1) with
              | Ok s1 => match do_op ex_lm ex_P ex_draws OpRun s1 with
                         | Ok s2 => match s_walk s1, s_walk s2 with Some m1, Some m2 => zll_eqb (xinds m1) [[3]; [3]] && zll_eqb (xinds m2) [[3; 4]; [3; 4]] | _, _ => false end
                         | Err _ => false end
              | Err _ => false end = true) by (vm_compute; reflexivity).
  destruct (do_op ex_lm ex_P ex_draws (value_op (wh hx_1) hx_pass) (value hx_1 1)) as [s1|]; [|discriminate]. destruct (do_op ex_lm ex_P ex_draws OpRun s1) as [s2|] eqn:D2; [|discriminate].
  destruct (s_walk s1) as [m1|] eqn:E1; [|discriminate]. destruct (s_walk s2) as [m2|] eqn:E2; [|discriminate]. apply andb_true_iff in C as (C1 & C2). apply zll_eqb_ok in C1, C2.
  exists s1, s2, m1, m2. split; [exact SEP|]. split; [exact SS|]. split; [exact hx_stored|]. split; [exact hx_pass_ok|]. auto 10.
Qed.

(** Two particles, the object's own walk data passed as previous_walk_data, one run: particle 1 is recorded twice in a row in the same cell. *)
Theorem C91_histories_refuted :
  exists lm L W (p : params f64) P draws w d w1 w2 m,
    (forall k, standard lm L W p /\ (exists p', init lm p = Ok (P k, p')) /\ unit_stream any_draw (draws k)) /\ apart_run any_draw lm P draws w /\ hs_walk (wo w 0%nat) = Some d /\
    op_ok any_draw lm (P 0%nat) (value_op (wh w) (HGen 0 [] [] n0 Random (Some d))) /\ wdo lm P draws 0 (HGen 0 [] [] n0 Random (Some d)) w = (w1, Ok None) /\
    (exists r, wdo lm P draws 0 HRun w1 = (w2, Ok r)) /\ s_walk (value w2 0%nat) = Some m /\ (1 < count m)%nat /\
    (let r := hist (P 0%nat) m 1 in (2 < length (r_x r))%nat /\ (xat r 2, yat r 2) = (xat r 1, yat r 1)) /\ ~ history_ok any_draw lm (P 0%nat) (hist (P 0%nat) m 1).
Proof.
  assert (C : match wdo ex_lm hx_P hx_draws 0 hx_pass hx_1 with
              | (w1, Ok None) => match wdo ex_lm hx_P hx_draws 0 HRun w1 with
                              | (w2, Ok _) => match s_walk (value w2 0) with
                                              | Some m => let r := hist ex_P m 1 in Nat.ltb 1 (count m) && Nat.ltb 2 (length (r_x r)) && (xat r 2 =? xat r 1) && (yat r 2 =? yat r 1)
                                              | None => false end
                              | _ => false end
              | _ => false end = true) by (vm_compute; reflexivity).
  destruct (wdo ex_lm hx_P hx_draws 0 hx_pass hx_1) as (w1 & [[?|]|]) eqn:E1; try discriminate. destruct (wdo ex_lm hx_P hx_draws 0 HRun w1) as (w2 & [r2|]) eqn:E2; try discriminate.
  destruct (s_walk (value w2 0)) as [m|] eqn:E3; [|discriminate]. cbv zeta in C. apply andb_true_iff in C as (C & C4). apply andb_true_iff in C as (C & C3). apply andb_true_iff in C as (C1 & C2).
  apply Nat.ltb_lt in C1, C2. apply Z.eqb_eq in C3, C4.
  exists ex_lm, 10, 9, ex_params, hx_P, hx_draws, hx_1, hx_d, w1, w2, m. split; [exact hx_standard|]. split; [exact hx_apart|]. split; [exact hx_stored|]. split; [exact hx_pass_ok|].
  split; [exact E1|]. split; [exists r2; exact E2|]. split; [exact E3|]. split; [exact C1|]. split; [cbv zeta; split; [exact C2 | unfold hx_P; congruence]|].
  intros (_ & _ & D & _). destruct (D 1%nat C2) as (k & u & w0 & _ & _ & _ & _ & _ & _ & _ & _ & _ & ND & _). apply ND. unfold hx_P. congruence.
Qed.
Print Assumptions C91_histories_refuted.
(** The hypotheses of C91_own_data, of C91_histories_partial and of the theorems C90 are met by the object 0 above. *)
Example C91_example : apart_run any_draw ex_lm hx_P hx_draws hx_1 /\ separate hx_1 /\ session any_draw ex_lm 10 9 ex_params ex_P ex_draws (value hx_1 0) /\ hs_walk (wo hx_1 0) = Some hx_d /\
  op_ok any_draw ex_lm ex_P (value_op (wh hx_1) hx_pass) /\ exists s1, do_op ex_lm ex_P ex_draws (value_op (wh hx_1) hx_pass) (value hx_1 0) = Ok s1.
Proof.
  destruct hx_sessions as (SEP & SS). split; [exact hx_apart|]. split; [exact SEP|]. split; [exact (SS 0%nat)|]. split; [exact hx_stored|]. split; [exact hx_pass_ok|].
  apply ok_of. vm_compute. reflexivity.
Qed.
(** A program with two objects in which the data passed on are not in use: loaded from a file. *)
Example C90_load_example : exists m w d, s_walk (value hx_1 0) = Some m /\ wload m hx_1 = (w, Ok d) /\ apart_run any_draw ex_lm hx_P hx_draws w /\
  not_in_use w (HGen 0 [] [] n0 Random (Some d)) /\ op_ok any_draw ex_lm ex_P (value_op (wh w) (HGen 0 [] [] n0 Random (Some d))).
Proof.
  destruct hx_sessions as (SEP & SS). set (m := view (wh hx_1) hx_d). assert (E : s_walk (value hx_1 0) = Some m) by (unfold value; rewrite hx_stored; reflexivity).
  pose proof hx_pass_ok as OK. cbn [hx_pass value_op option_map] in OK. fold m in OK.
  assert (ND : NoDup (map fst (opts m))) by (unfold m; cbn; constructor; [intros [] | constructor]).
  pose proof (ar_load _ _ _ _ _ m hx_apart ND) as AR. unfold wload in AR. destruct (alloc_walk_spec m (wh hx_1) ND) as (h' & d & EA & VW & V & U & FR & _). rewrite EA in AR.
  exists m. eexists. exists d. split; [exact E|]. split; [unfold wload; rewrite EA; reflexivity|]. split; [exact AR|]. split.
  - intros e H. injection H as <-. split; [exact V|]. split; [exact U|]. intros k e EK. cbn [wo] in EK. eapply fresh_apart; [exact FR | apply (proj1 SEP k e EK)].
  - cbn [value_op option_map wh]. rewrite VW. exact OK.
Qed.

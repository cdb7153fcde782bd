(** run_iteration() on walk data that lack tracked variables. *)
From Coq Require Import ZArith Bool String List Lia.
From Verif Require Import Num Py NumFacts Walker ParticleTrack SpecWeights SpecPick SpecWalk SpecHist SpecInit SpecApi Interrupt SpecInterrupt
  ProofPick ProofStep ProofStepper ProofRun ProofRunTo ProofHist ProofApi2 ProofInterrupt Heap SpecHeap ProofHeap ProofHeap2 ProofHeap3 SpecVars.
Import ListNotations.
Open Scope nat_scope.

Section Vars.
Context {T : Type} {N : Num T}.
Implicit Types (h : heap T) (d : dict) (o acc : list (string * list nat)).

Lemma dget_dset {A} k v (x : A) l : dget k (dset v x l) = if String.eqb k v then Some x else dget k l.
Proof.
  induction l as [|(k1 & a) l IH]; cbn [dset dget]; [reflexivity|]. destruct (String.eqb v k1) eqn:E; cbn [dget].
  - apply String.eqb_eq in E. subst k1. destruct (String.eqb k v); reflexivity.
  - rewrite IH. destruct (String.eqb k k1) eqn:E1; [|reflexivity]. apply String.eqb_eq in E1. subst k1. destruct (String.eqb k v) eqn:E2; [|reflexivity].
    apply String.eqb_eq in E2. subst v. rewrite String.eqb_refl in E. discriminate.
Qed.
Lemma dset_keys {A} v (x : A) l : map fst (dset v x l) = if str_in v (map fst l) then map fst l else map fst l ++ [v].
Proof.
  induction l as [|(k1 & a) l IH]; [reflexivity|]. cbn [dset map fst str_in existsb]. unfold str_in in *. cbn [existsb]. destruct (String.eqb v k1) eqn:E; cbn [map fst orb]; [reflexivity|].
  rewrite IH. destruct (existsb _ _); reflexivity.
Qed.
Lemma dget_in_keys {A} k (l : list (string * A)) : In k (map fst l) <-> dget k l <> None.
Proof.
  induction l as [|(k1 & a) l IH]; cbn [map fst In dget]; [split; [intros [] | congruence]|]. destruct (String.eqb k k1) eqn:E.
  - apply String.eqb_eq in E. subst. split; [discriminate | auto].
  - rewrite <- IH. apply String.eqb_neq in E. intuition congruence.
Qed.

(** The lists read so far: those of the dictionary, and new lists [None]. *)
Definition old_heap h0 h := h_z h = h_z h0 /\ h_t h = h_t h0 /\ exists r, h_o h = h_o h0 ++ r.
Definition read_inv np h0 o h acc := old_heap h0 h /\
  (forall v ls, dget v acc = Some ls -> dget v o = Some ls \/
     dget v o = None /\ length ls = np /\ (forall i l, nth_error ls i = Some l -> length (h_o h0) <= l < length (h_o h) /\ sread (h_o h) l = [None])) /\
  (forall v v' ls ls' i i' l, dget v o = None -> dget v' o = None -> dget v acc = Some ls -> dget v' acc = Some ls' -> nth_error ls i = Some l -> nth_error ls' i' = Some l -> v = v' /\ i = i').
Lemma nth_error_seq' b n i l : nth_error (seq b n) i = Some l -> l = b + i /\ i < n.
Proof. apply nth_error_seq. Qed.
Lemma nth_repeat_lt {A} (a b : A) n i : i < n -> nth i (repeat a n) b = a.
Proof. revert i. induction n as [|n IH]; intros i H; [lia|]. destruct i; [reflexivity|]. cbn. apply IH. lia. Qed.
Lemma sread_app2 {A} (a r : list (list A)) l : length a <= l < length a + length r -> sread (a ++ r) l = nth (l - length a) r [].
Proof. intros H. unfold sread. apply app_nth2. lia. Qed.
Lemma read_inv_step np vs o h0 : forall h acc, read_inv np h0 o h acc ->
  exists h' od, hread_opts (Z.of_nat np) vs o acc h = (h', Ok od) /\ read_inv np h0 o h' od /\ map fst od = fold_left tvstep vs (map fst acc).
Proof.
  induction vs as [|v vs IH]; intros h acc I; cbn [hread_opts fold_left]; [exists h, acc; split; [reflexivity | split; [exact I | reflexivity]]|].
  unfold tvstep at 2. destruct (str_in v base_vars) eqn:B; cbn [orb]; [apply IH, I|]. destruct I as (OH & RD & UN).
  destruct (dget v o) as [ls|] eqn:DG.
  - destruct (IH h (dset v ls acc)) as (h' & od & E & I' & K).
    { split; [exact OH|]. split.
      - intros u us. rewrite dget_dset. destruct (String.eqb u v) eqn:EU; [|apply RD]. apply String.eqb_eq in EU. subst u. intros X. left. congruence.
      - intros u u' us us' i i' l N1 N2. rewrite !dget_dset. destruct (String.eqb u v) eqn:EU; [apply String.eqb_eq in EU; congruence|].
        destruct (String.eqb u' v) eqn:EU'; [apply String.eqb_eq in EU'; congruence|]. eapply UN; eassumption. }
    exists h', od. split; [exact E|]. split; [exact I'|]. rewrite K, dset_keys. reflexivity.
  - set (rows := repeat [None] (Z.to_nat (Z.of_nat np))) in *. unfold hbind, alloc_o. set (h1 := {| h_z := h_z h; h_t := h_t h; h_o := h_o h ++ rows |}).
    assert (LR : length rows = np) by (unfold rows; rewrite repeat_length; lia).
    destruct OH as (OZ & OT & r & OO). assert (LO : length (h_o h0) <= length (h_o h)) by (rewrite OO, app_length; lia).
    destruct (IH h1 (dset v (seq (length (h_o h)) (length rows)) acc)) as (h' & od & E & I' & K).
    { split; [split; [exact OZ|]; split; [exact OT|]; exists (r ++ rows); cbn [h1 h_o]; rewrite OO, app_assoc; reflexivity|]. split.
      - intros u us. rewrite dget_dset. destruct (String.eqb u v) eqn:EU.
        + apply String.eqb_eq in EU. subst u. intros X. injection X as <-. right. split; [exact DG|]. split; [rewrite seq_length; exact LR|]. intros i l NE. apply nth_error_seq in NE as (-> & Hi).
          cbn [h1 h_o]. rewrite app_length. split; [lia|]. rewrite sread_app2 by lia. replace (length (h_o h) + i - length (h_o h)) with i by lia. unfold rows. apply nth_repeat_lt. unfold rows in Hi. rewrite repeat_length in Hi. exact Hi.
        + intros X. destruct (RD u us X) as [Y|(Y & LL & Z)]; [left; exact Y|]. right. split; [exact Y|]. split; [exact LL|]. intros i l NE. destruct (Z i l NE) as (R & S). cbn [h1 h_o]. rewrite app_length. split; [lia|].
          unfold sread in *. rewrite app_nth1 by lia. exact S.
      - assert (FR : forall u us i l, dget u o = None -> dget u acc = Some us -> nth_error us i = Some l -> l < length (h_o h)).
        { intros u us i l NU X NE. destruct (RD u us X) as [Y|(_ & _ & Z)]; [congruence|]. apply (Z i l NE). }
        intros u u' us us' i i' l N1 N2. rewrite !dget_dset. destruct (String.eqb u v) eqn:EU; destruct (String.eqb u' v) eqn:EU'.
        + apply String.eqb_eq in EU, EU'. subst u u'. intros X X' NE NE'. injection X as <-. injection X' as <-. apply nth_error_seq in NE as (-> & _), NE' as (Q & _). split; [reflexivity | lia].
        + intros X X' NE NE'. injection X as <-. apply nth_error_seq in NE as (-> & _). pose proof (FR _ _ _ _ N2 X' NE'). lia.
        + intros X X' NE NE'. injection X' as <-. apply nth_error_seq in NE' as (-> & _). pose proof (FR _ _ _ _ N1 X NE). lia.
        + eapply UN; eassumption. }
    exists h', od. split; [exact E|]. split; [exact I'|]. rewrite K, dset_keys. reflexivity.
Qed.

(** Reading the variables of a dictionary some of which may be missing. *)
Lemma hread_missing np (P : pobj T) d h : valid h d -> unshared d ->
  exists h1 od, hread_opts (Z.of_nat np) (o_vars P) (d_o d) [] h = (h1, Ok od) /\ map fst od = tvars P /\
    let d' := {| d_x := d_x d; d_y := d_y d; d_t := d_t d; d_o := od |} in
    valid h1 d' /\ unshared d' /\ view h1 d = view h d /\
    (forall v ls, dget v (d_o d) = Some ls -> In v (tvars P) -> dget v od = Some ls) /\
    (forall v, dget v (d_o d) = None -> In v (tvars P) -> dget v (view_opts h1 od) = Some (repeat [None] np)).
Proof.
  intros (ND & V) U. destruct (read_inv_step np (o_vars P) (d_o d) h h []) as (h1 & od & E & (OH & RD & UN) & K).
  { split; [split; [reflexivity|]; split; [reflexivity | exists []; symmetry; apply app_nil_r]|]. split; [intros v ls X; discriminate | intros v v' ls ls' i i' l _ _ X; discriminate]. }
  rewrite <- tvars_fold in K. exists h1, od. split; [exact E|]. split; [exact K|]. cbv zeta. destruct OH as (OZ & OT & r & OO).
  assert (LOO : length (h_o h) <= length (h_o h1)) by (rewrite OO, app_length; lia).
  set (d' := {| d_x := d_x d; d_y := d_y d; d_t := d_t d; d_o := od |}).
  assert (LK : forall p l, lookup d' p = Some l -> lookup d p = Some l \/ exists v i n ls, p = PV v i /\ l = LO n /\ dget v (d_o d) = None /\ dget v od = Some ls /\ nth_error ls i = Some n /\ length (h_o h) <= n < length (h_o h1)).
  { intros [i|i|i|v i] l; cbn [lookup d' d_x d_y d_t d_o]; try (intros X; left; exact X). destruct (dget v od) as [ls|] eqn:EO; [|discriminate]. intros X.
    destruct (RD v ls EO) as [Y|(Y & _ & Z)]; [left; rewrite Y; exact X|]. right. destruct (nth_error ls i) as [n|] eqn:EN; [|discriminate]. injection X as <-. exists v, i, n, ls.
    repeat split; try reflexivity; try assumption; apply (Z i n EN). }
  split; [|split; [|split; [|split]]].
  - split; [cbn [d' d_o]; rewrite K; apply NoDup_tvars|]. intros p l X. destruct (LK p l X) as [Y|(v & i & n & ls & -> & -> & _ & _ & _ & R)]; [|exact (proj2 R)].
    specialize (V p l Y). destruct l; cbn [exists_in] in *; rewrite ?OZ, ?OT; [exact V | exact V | lia].
  - intros p q l X Y. destruct (LK p l X) as [X1|(v & i & n & ls & -> & -> & N1 & D1 & E1 & R1)]; destruct (LK q _ Y) as [Y1|(v' & i' & n' & ls' & -> & EL & N2 & D2 & E2 & R2)].
    + exact (U p q l X1 Y1).
    + subst l. specialize (V p _ X1). cbn in V. lia.
    + specialize (V q _ Y1). cbn in V. lia.
    + injection EL as <-. destruct (UN v v' ls ls' i i' n N1 N2 D1 D2 E1 E2) as (-> & ->). reflexivity.
  - unfold view. rewrite OZ, OT. f_equal. unfold view_opts. apply map_ext_in. intros (k & ls) I. cbn [fst snd]. f_equal. apply map_ext_in. intros l J.
    destruct (in_lookup_o d k ls l ND I J) as (i & Q). specialize (V _ _ Q). cbn in V. rewrite OO. apply sread_app, V.
  - intros v ls X I. rewrite <- K in I. apply dget_in_keys in I. destruct (dget v od) as [ls'|] eqn:EO; [|congruence]. destruct (RD v ls' EO) as [Y|(Y & _)]; congruence.
  - intros v X I. rewrite <- K in I. apply dget_in_keys in I. destruct (dget v od) as [ls|] eqn:EO; [|congruence]. destruct (RD v ls EO) as [Y|(_ & LL & Z)]; [congruence|].
    unfold view_opts. rewrite (dget_map_keys (map (sread (h_o h1)))), EO. cbn [option_map]. f_equal. apply nth_ext with (d := []) (d' := []); [rewrite map_length, repeat_length; exact LL|].
    intros i Hi. rewrite map_length in Hi. destruct (nth_error ls i) as [n|] eqn:EN; [|apply nth_error_None in EN; lia].
    rewrite (nth_error_nth _ _ [] (map_nth_error (sread (h_o h1)) _ _ EN)). rewrite (proj2 (Z i n EN)). symmetry. apply nth_repeat_lt. lia.
Qed.
End Vars.

Section Step.
Context {T : Type} {N : Num T} {NL : NumLaws T} {GV : T -> Prop}.
Variables (lm : Libm T) (P : pobj T) (draws : nat -> T).
Hypotheses (FO : field_ok lm P) (US : unit_stream GV draws).

Lemma mapM_total {A B} (f : A -> res B) l : (forall a, In a l -> exists b, f a = Ok b) -> exists r, mapM f l = Ok r.
Proof.
  induction l as [|a l IH]; intros H; [exists []; reflexivity|]. destruct (H a (or_introl eq_refl)) as (b & E). destruct IH as (r & Er); [intros x I; apply H; right; exact I|].
  exists (b :: r). cbn [mapM]. rewrite E. cbn [bind]. rewrite Er. reflexivity.
Qed.
Lemma mapM_each {A B} (f : A -> res B) l : forall r, mapM f l = Ok r -> forall a, In a l -> exists b, f a = Ok b.
Proof.
  induction l as [|a l IH]; intros r H x I; [destruct I|]. cbn [mapM] in H. apply bind_ok in H as (b & E & H). apply bind_ok in H as (bs & E' & _).
  destruct I as [<-|I]; [exists b; exact E | exact (IH _ E' x I)].
Qed.
Lemma dget_filter {A} (keep : string -> bool) k (o : list (string * A)) : dget k (filter (fun kv => keep (fst kv)) o) = if keep k then dget k o else None.
Proof.
  induction o as [|(k1 & a) o IH]; cbn [filter dget fst]; [destruct (keep k); reflexivity|]. destruct (keep k1) eqn:E; cbn [dget].
  - destruct (String.eqb k k1) eqn:EK; [|exact IH]. apply String.eqb_eq in EK. subst k1. rewrite E. reflexivity.
  - destruct (String.eqb k k1) eqn:EK; [|exact IH]. apply String.eqb_eq in EK. subst k1. rewrite IH, E. reflexivity.
Qed.

Lemma step_missing keep (h : heap T) (s : hsim T) d m m' s' :
  let s0 := {| s_np := hs_np s; s_walk := Some m; s_wst := hs_wst s |} in
  winv lm P (w_arr (hs_wst s)) -> vars_ok P -> hs_np s = Z.of_nat (count m) -> walk_ok P m ->
  hs_walk s = Some d -> valid h d -> unshared d -> view h d = without keep m ->
  run_step lm P draws s0 = Ok (m', s') ->
  exists h' d' s1, hrun_step lm P draws s h = (h', Ok (d', s1)) /\ starts_again keep m m' (view h' d') /\
    hs_walk s1 = Some d /\ view h' d = without keep m' /\ valid h' d /\ hs_np s1 = s_np s' /\ hs_wst s1 = s_wst s' /\ s_walk s' = Some m'.
Proof.
  intros s0 WI VO NP WO SW V U VW H.
  destruct (step_refine lm P draws s0 m m' s' FO US WI VO eq_refl NP WO H) as (OK & RW).
  destruct (run_step_spec lm P draws s0 m m' s' FO US WI VO eq_refl NP WO H) as (SW' & NP' & CT & _ & KE' & SH' & _).
  pose proof WO as (KE & SH & _). pose proof SH as (LY & LT & LO).
  assert (EW : replay m (fst (step_log lm P draws s0)) = m').
  { destruct (replay_shaped (tvars P) m (fst (step_log lm P draws s0)) SH) as (SR & CR).
    apply (walk_ext (tvars P)); [apply NoDup_tvars | exact KE' | rewrite replay_keys; exact KE | exact SH' | exact SR | congruence|].
    intros p Hp. rewrite CT in Hp. rewrite (RW p Hp). apply replay_row; assumption. }
  assert (EX : xinds (view h d) = xinds m /\ yinds (view h d) = yinds m /\ times (view h d) = times m /\ opts (view h d) = filter (fun kv => keep (fst kv)) (opts m)) by (rewrite VW; repeat split).
  destruct EX as (EX & EY & ET & EO).
  assert (LX : length (d_x d) = count m) by (unfold count; rewrite <- EX; cbn [view xinds]; rewrite map_length; reflexivity).
  destruct (hread_missing (count m) P d h V U) as (h1 & od & RE & KO & V1 & U1 & OLD & KEPT & MISS).
  set (d' := {| d_x := d_x d; d_y := d_y d; d_t := d_t d; d_o := od |}) in *.
  assert (ENP : (if (hs_np s =? 0)%Z then Z.of_nat (length (d_x d)) else hs_np s) = Z.of_nat (count m)) by (rewrite LX, NP; destruct (Z.of_nat (count m) =? 0)%Z; reflexivity).
  assert (ENP0 : (if (s_np s0 =? 0)%Z then Z.of_nat (length (xinds m)) else s_np s0) = Z.of_nat (count m)) by (cbn [s0 s_np]; rewrite NP; unfold count; destruct (Z.of_nat (length (xinds m)) =? 0)%Z; reflexivity).
  assert (RO : read_opts (Z.of_nat (count m)) (o_vars P) (opts m) [] = opts m).
  { rewrite (read_opts_shaped P _ m SH). rewrite <- KE. symmetry. apply canon_o. rewrite KE. apply NoDup_tvars. }
  (* what the dictionary with all variables contains *)
  assert (DK : forall v, In v (tvars P) -> dget v (view_opts h1 od) = if keep v then dget v (opts m) else Some (repeat [None] (count m))).
  { intros v I. destruct (dget v (d_o d)) as [ls|] eqn:DG.
    - assert (Q : dget v (opts (view h1 d)) = Some (map (sread (h_o h1)) ls)) by (cbn [view opts]; unfold view_opts; rewrite (dget_map_keys (map (sread (h_o h1)))), DG; reflexivity).
      rewrite OLD, EO, dget_filter in Q. destruct (keep v); [|discriminate]. rewrite Q. unfold view_opts. rewrite (dget_map_keys (map (sread (h_o h1)))), (KEPT v ls DG I). reflexivity.
    - assert (Q : dget v (opts (view h d)) = None) by (cbn [view opts]; unfold view_opts; rewrite (dget_map_keys (map (sread (h_o h)))), DG; reflexivity).
      rewrite EO, dget_filter in Q. destruct (keep v); [|apply MISS; assumption]. destruct (LO v I) as (l & El & _). congruence. }
  assert (VK : map fst (view_opts h1 od) = tvars P) by (rewrite view_opts_keys; exact KO).
  unfold run_step in H. unfold step_log in OK, EW. cbn [s0 s_walk] in H, OK, EW. fold s0 in H, OK, EW. cbv zeta in H, OK, EW. rewrite ENP0 in H, OK, EW. change (s_wst s0) with (hs_wst s) in *.
  unfold hrun_step. rewrite SW. cbv zeta. rewrite ENP. rewrite hbind_read. rewrite EX, EY, ET.
  apply bind_ok in H as (sx & E1 & H). rewrite E1, lbind_ok in OK, EW. rewrite hbind_lift, E1.
  apply bind_ok in H as (sy & E2 & H). rewrite E2, lbind_ok in OK, EW. rewrite hbind_lift, E2.
  apply bind_ok in H as (st & E3 & H). rewrite E3, lbind_ok in OK, EW. rewrite hbind_lift, E3.
  rewrite RO in H, OK, EW. unfold hbind at 1. rewrite RE. rewrite hbind_read.
  apply bind_ok in H as (u & E4 & H). rewrite E4, lbind_ok in OK, EW.
  assert (E4' : exists u', mapM (fun kv => mapM (last_of (snd kv)) (zrange 0 (Z.of_nat (count m)))) (view_opts h1 od) = Ok u').
  { apply mapM_total. intros (v & l) I. cbn [snd]. assert (IK : In v (tvars P)) by (rewrite <- VK; apply in_map_iff; exists (v, l); auto).
    assert (DV : dget v (view_opts h1 od) = Some l) by (apply dget_nodup; [rewrite VK; apply NoDup_tvars | exact I]). rewrite (DK v IK) in DV. destruct (keep v).
    - assert (In (v, l) (opts m)) as J. { rewrite (canon_o (opts m)) by (rewrite KE; apply NoDup_tvars). apply in_map_iff. exists v. rewrite DV. split; [reflexivity | rewrite KE; exact IK]. }
      exact (mapM_each _ _ _ E4 (v, l) J).
    - injection DV as <-. apply mapM_total. intros i J. apply zrange_In in J. exists None. replace i with (Z.of_nat (Z.to_nat i)) by lia.
      rewrite last_of_nth by (rewrite repeat_length; lia). rewrite nth_repeat_lt by lia. reflexivity. }
  destruct E4' as (u' & E4'). rewrite hbind_lift, E4'.
  rewrite VK. rewrite KE in H, OK, EW.
  apply bind_ok in H as ((((ni & tts) & upd) & ws) & E5 & H). cbv beta iota in H. rewrite E5, lbind_ok in OK, EW. rewrite hbind_lift, E5. cbv beta iota in OK, EW |- *.
  fold d'. set (lg := lforeach _ _) in *. set (h' := happs d' h1 (fst lg)).
  apply bind_ok in H as (ov' & E6 & H). injection H as W1 S1.
  assert (RV : view h' d' = replay (view h1 d') (fst lg)) by (apply view_happs; assumption).
  assert (X1 : xinds (view h1 d') = xinds m /\ yinds (view h1 d') = yinds m /\ times (view h1 d') = times m).
  { rewrite <- EX, <- EY, <- ET, <- OLD. repeat split. }
  destruct X1 as (X1 & Y1 & T1).
  assert (RX : forall a b es, xinds a = xinds b -> yinds a = yinds b -> times a = times b -> xinds (replay (T := T) a es) = xinds (replay b es) /\ yinds (replay a es) = yinds (replay b es) /\ times (replay a es) = times (replay b es)).
  { intros a b es. revert a b. induction es as [|e es IH]; intros a b A B C; [auto|]. cbn [replay fold_left]. apply IH; destruct e; cbn; congruence. }
  destruct (RX (view h1 d') m (fst lg) X1 Y1 T1) as (RX1 & RY1 & RT1). rewrite EW in RX1, RY1, RT1. clear RX.
  assert (VAL : forall v q, In v (tvars P) -> q < count m -> values (view h' d') v q = if keep v then values m' v q else None :: skipn (length (values m v q)) (values m' v q)).
  { intros v q I Hq. destruct (LO v I) as (l & El & Ll). destruct (replay_v v (fst lg) m l El) as (l' & El' & Ll' & HV). rewrite EW in El'. unfold values at 2 3 4. rewrite El, El'. cbn [dflt].
    rewrite (HV q) by lia. rewrite skipn_app, skipn_all, Nat.sub_diag. cbn [app skipn]. unfold values. rewrite RV.
    assert (DV : dget v (opts (view h1 d')) = if keep v then dget v (opts m) else Some (repeat [None] (count m))) by (apply DK, I). destruct (keep v).
    - rewrite El in DV. destruct (replay_v v (fst lg) (view h1 d') l DV) as (l2 & -> & _ & HV2). cbn [dflt]. apply HV2. lia.
    - destruct (replay_v v (fst lg) (view h1 d') _ DV) as (l2 & -> & _ & HV2). cbn [dflt]. rewrite HV2 by (rewrite repeat_length; exact Hq). rewrite nth_repeat_lt by exact Hq. reflexivity. }
  exists h', d', {| hs_np := Z.of_nat (count m); hs_walk := Some d; hs_wst := ws |}.
  split; [unfold hbind, happend; rewrite OK; reflexivity|]. split.
  { split; [rewrite RV; exact RX1|]. split; [rewrite RV; exact RY1|]. split; [rewrite RV; exact RT1|]. rewrite KE'. split; [rewrite RV, replay_keys; exact VK|]. exact VAL. }
  split; [reflexivity|]. split.
  { rewrite <- RV in RX1, RY1, RT1. unfold without. destruct (view h' d) as [vx vy vt vo] eqn:EV. 
    assert (Q : vx = xinds (view h' d') /\ vy = yinds (view h' d') /\ vt = times (view h' d')) by (unfold view in EV |- *; cbn [xinds yinds times d' d_x d_y d_t]; injection EV as <- <- <- _; auto).
    destruct Q as (-> & -> & ->). rewrite RX1, RY1, RT1. f_equal.
    assert (QO : vo = view_opts h' (d_o d)) by (unfold view in EV; congruence). rewrite QO. clear EV QO.
    assert (KD : map fst (d_o d) = filter keep (tvars P)).
    { rewrite <- (view_opts_keys h). change (view_opts h (d_o d)) with (opts (view h d)). rewrite EO, <- KE. clear. induction (opts m) as [|(k & a) o IH]; [reflexivity|]. cbn [filter map fst]. destruct (keep k); cbn [map fst]; congruence. }
    assert (KF : forall A (o : list (string * A)), map fst (filter (fun kv => keep (fst kv)) o) = filter keep (map fst o)).
    { intros A o. induction o as [|(k & a) o IH]; [reflexivity|]. cbn [filter map fst]. destruct (keep k); cbn [map fst]; congruence. }
    rewrite (canon_o (view_opts h' (d_o d))) by (rewrite view_opts_keys; apply V).
    rewrite (canon_o (filter _ _)) by (rewrite KF, KE'; apply NoDup_filter, NoDup_tvars). rewrite view_opts_keys, KF, KD, KE'.
    apply map_ext_in. intros v I. apply filter_In in I as (I & KV). f_equal. rewrite dget_filter, KV.
    assert (ID : In v (map fst (d_o d))) by (rewrite KD; apply filter_In; auto). apply dget_in_keys in ID. destruct (dget v (d_o d)) as [ls|] eqn:DG; [|congruence].
    pose proof (KEPT v ls DG I) as DG'. unfold view_opts at 1. rewrite (dget_map_keys (map (sread (h_o h')))), DG. cbn [option_map dflt].
    destruct (LO v I) as (l & El & Ll). destruct (replay_v v (fst lg) m l El) as (l' & El' & Ll' & HV). rewrite EW in El'. rewrite El'. cbn [dflt].
    pose proof (DK v I) as DV. rewrite KV, El in DV. destruct (replay_v v (fst lg) (view h1 d') l DV) as (l2 & E2' & L2 & HV2). rewrite <- RV in E2'. cbn [view opts] in E2'.
    unfold view_opts in E2'. rewrite (dget_map_keys (map (sread (h_o h')))) in E2'. cbn [d' d_o] in E2'. rewrite DG' in E2'. cbn [option_map] in E2'. injection E2' as ->.
    apply nth_ext with (d := []) (d' := []); [lia|]. intros q Hq. rewrite HV2 by lia. symmetry. apply HV. lia. }
  split. { eapply valid_grows; [apply grows_happs|]. eapply valid_grows; [|exact V]. pose proof (mono_read_opts (Z.of_nat (count m)) (o_vars P) (d_o d) [] h) as GG. rewrite RE in GG. exact GG. }
  rewrite <- S1. cbn [hs_np hs_wst s_np s_wst]. split; [reflexivity|]. split; [reflexivity|]. rewrite <- S1 in SW'. exact SW'.
Qed.
End Step.

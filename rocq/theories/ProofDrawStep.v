(** Which stream positions a step reads. *)
From Coq Require Import ZArith Bool String List Lia.
From Verif Require Import Num Py NumFacts NumMore Walker ParticleTrack Gen SpecWeights SpecPick SpecWalk SpecHist SpecInit SpecMotion SpecApi SpecDraw
  ProofWeights ProofWeightLaws ProofPick ProofStep ProofStepper ProofRun ProofRunTo ProofGen ProofHist ProofMotion ProofApi ProofApi2.
Import ListNotations.
Open Scope Z_scope.
Open Scope res_scope.

Lemma tally_0 f : tally f 0 = 0%nat. Proof. reflexivity. Qed.
Lemma tally_S f q : tally f (S q) = (tally f q + if f q then 1 else 0)%nat.
Proof. unfold tally. rewrite seq_S, filter_app, app_length. cbn. destruct (f q); reflexivity. Qed.
Lemma tally_shift f q : tally f (S q) = ((if f 0%nat then 1 else 0) + tally (fun i => f (S i)) q)%nat.
Proof. induction q; [rewrite tally_S; cbn; destruct (f 0%nat); reflexivity|]. rewrite tally_S, IHq, (tally_S (fun i => f (S i))). lia. Qed.
Lemma tally_ext f g q : (forall p, (p < q)%nat -> f p = g p) -> tally f q = tally g q.
Proof. induction q; intros H; [reflexivity|]. rewrite !tally_S, (H q) by lia. rewrite IHq by (intros; apply H; lia). reflexivity. Qed.

(** a stateful map whose state carries a position *)
Lemma mapS_pos {A B S} (f : A -> S -> res (B * S)) (pos : S -> nat) (I : S -> Prop) (c : A -> bool) (Q : A -> nat -> B -> Prop) (da : A) (db : B) :
  forall l s r s',
  (forall a s b s', In a l -> I s -> f a s = Ok (b, s') -> I s' /\ pos s' = (pos s + if c a then 1 else 0)%nat /\ Q a (pos s) b) ->
  I s -> mapS f l s = Ok (r, s') ->
  I s' /\ pos s' = (pos s + tally (fun i => c (nth i l da)) (length l))%nat /\
  forall i, (i < length l)%nat -> Q (nth i l da) (pos s + tally (fun i => c (nth i l da)) i)%nat (nth i r db).
Proof.
  induction l as [|a l IH]; cbn [mapS]; intros s r s' HF HI H.
  - injection H as <- <-. split; [exact HI|]. split; [cbn; lia|]. cbn [length]. intros i Hi. lia.
  - apply bind_ok in H as ((b & s1) & Eb & H). apply bind_ok in H as ((bs & s2) & E & H). injection H as <- <-.
    destruct (HF a s b s1 (or_introl eq_refl) HI Eb) as (I1 & P1 & Q1).
    destruct (IH s1 bs s2) as (I2 & P2 & Q2); [intros; eapply HF; eauto; right; assumption | exact I1 | exact E|].
    split; [exact I2|]. cbn [length]. split.
    + rewrite tally_shift, P2, P1. cbn [nth]. lia.
    + intros [|i] Hi; [cbn [nth]; rewrite tally_0, Nat.add_0_r; exact Q1|]. cbn [nth]. rewrite tally_shift. cbn [nth].
      specialize (Q2 i ltac:(lia)). rewrite P1 in Q2. rewrite Nat.add_assoc. exact Q2.
Qed.

Section S.
Context {T : Type} {N : Num T} {NL : NumLaws T} {NM : NumMore T} {GV : T -> Prop}.

(** travel time with its stream position *)
Lemma travel_at lm (P : pobj T) draws k x y x' y' pos d t pos' : wf_obj P ->
  in_grid P x y -> in_grid P x' y' -> (k < 9)%nat ->
  d = nmul (nth k (o_dist P) n0) (o_dx P) ->
  calc_travel_times lm P draws k (x, y) (x', y') d pos = Ok (t, pos') ->
  pos' = (pos + if negb (pair_eqb (x, y) (x', y')) && nltb n0 (o_diff P) then 1 else 0)%nat /\
  t = if pair_eqb (x, y) (x', y') then n0 else travel_time lm P k x y x' y' (draws pos).
Proof.
  intros Hw G1 G2 Hk -> H. unfold calc_travel_times in H. destruct (pair_eqb (x, y) (x', y')) eqn:NE; cbn [negb fst snd andb] in *.
  - injection H as <- <-. split; [lia | reflexivity].
  - destruct Hw as (_&_&_&_&_&(V1 & V2)&(A1 & A2)&_&LD&_&_&_&_&LA&_).
    unfold in_grid in *. rewrite !np_get_in in H by lia. cbn [bind] in H.
    rewrite (py_nth_ok (o_angles P) k n0) in H by lia.
    destruct (nltb n0 (o_diff P)) eqn:D; cbn [bind] in H; injection H as <- <-; (split; [lia|]); unfold travel_time, diffusion, projected; rewrite D; reflexivity.
Qed.

Definition asleep (xy : Z * Z) : bool := pair_eqb xy (0, 0).
Lemma stepper_draws lm (P : pobj T) draws cur tt vars s ni tts opt s' :
  field_ok lm P -> unit_stream GV draws -> winv lm P (w_arr s) ->
  (forall xy, In xy cur -> safe_pos P (fst xy) (snd xy)) -> length tt = length cur ->
  particle_stepper lm P draws cur tt vars s = Ok (ni, tts, opt, s') ->
  let n := w_pos s in
  let a := tally (fun i => negb (asleep (nth i cur (0, 0)))) in
  let b := tally (fun i => negb (pair_eqb (nth i cur (0, 0)) (nth i ni (0, 0)))) in
  w_pos s' = (n + a (length cur) + if nltb n0 (o_diff P) then b (length cur) else 0)%nat /\
  forall i, (i < length cur)%nat ->
    let c := nth i cur (0, 0) in let x := fst c in let y := snd c in let u := draws (n + a i)%nat in
    (nth i ni (0, 0) = c /\
     (c = (0, 0) \/ edge_nearby P x y \/
      exists k, (k < 9)%nat /\ selects lm P x y u k /\ (k = 4%nat \/ (nth k (o_jwalk P) 0 = 0 /\ nth k (o_iwalk P) 0 = 0)))) \/
    (c <> (0, 0) /\ ~ edge_nearby P x y /\
     exists k, (k < 9)%nat /\ k <> 4%nat /\ selects lm P x y u k /\
       let x' := x + nth k (o_jwalk P) 0 in let y' := y + nth k (o_iwalk P) 0 in
       (x', y') <> c /\ nth i ni (0, 0) = (x', y') /\
       nth i tts n0 = nadd (nth i tt n0) (travel_time lm P k x y x' y' (draws (n + a (length cur) + if nltb n0 (o_diff P) then b i else 0)%nat))).
Proof.
  intros FO U WI SP LT H n a b. assert (FO' := FO). destruct FO' as (Hw & G & Hp & R & TB & L3 & W3).
  pose proof (stepper_spec lm P draws cur tt vars s ni tts opt s' FO U WI SP LT H) as (LNI & _ & _ & _ & OUT).
  unfold particle_stepper in H.
  apply bind_ok in H as ((cells & s1) & E1 & H). cbv beta iota in H.
  destruct (mapS_pos (fun x s => if pair_eqb x (0, 0) then Ok (4%nat, s) else get_weight P draws x s) (@w_pos T) (fun s => winv lm P (w_arr s))
    (fun xy => negb (asleep xy))
    (fun xy p k => (k < 9)%nat /\ (if pair_eqb xy (0, 0) then k = 4%nat else selects lm P (fst xy) (snd xy) (draws p) k))
    (0, 0) 0%nat cur s cells s1) as (W1 & P1 & F1); [|exact WI|exact E1|].
  { intros (x & y) s0 k s0' I W0 E. unfold asleep. destruct (pair_eqb (x, y) (0, 0)) eqn:Z; cbn [negb].
    - injection E as <- <-. split; [exact W0|]. split; [lia|]. split; [lia | reflexivity].
    - pose proof (safe_in_grid P x y L3 W3 (SP _ I)) as IG.
      destruct (get_weight_spec lm P draws x y s0 k s0' Hw G Hp U W0 IG E) as (A & B & C & D).
      split; [exact A|]. split; [lia|]. split; [exact B | exact C]. }
  fold n a in P1, F1.
  assert (LC : length cells = length cur) by (eapply mapS_length; exact E1).
  apply bind_ok in H as (ni0 & E2 & H). apply bind_ok in H as (dist & E3 & H). cbv zeta in H.
  set (ni1 := map2 _ dist ni0) in H. set (new := check_for_boundary ni1 cur (o_ct P)) in H.
  apply bind_ok in H as ((temp & pos') & E4 & H). apply bind_ok in H as (tms & E5 & H).
  apply bind_ok in H as (opt0 & E6 & H). apply bind_ok in H as (opt1 & E7 & H).
  injection H as <- <- <- <-. cbn [w_arr w_pos].
  assert (L0 : length ni0 = length cur) by (rewrite (mapM_length _ _ _ E2), combine_length; lia).
  assert (LD : length dist = length cur) by (rewrite (mapM_length _ _ _ E3); exact LC).
  assert (LN1 : length ni1 = length cur) by (unfold ni1; rewrite map2_length; lia).
  assert (LN : length new = length cur) by (unfold new, check_for_boundary; rewrite map2_length; lia).
  assert (ED : forall i, (i < length cur)%nat -> nth i dist n0 = nmul (nth (nth i cells 0%nat) (o_dist P) n0) (o_dx P)).
  { intros i Hi. destruct (F1 i Hi) as (K9 & _). pose proof (mapM_nth _ _ _ 0%nat n0 E3 i ltac:(lia)) as Q. unfold step_update in Q.
    destruct Hw as (_&_&_&_&_&_&_&_&LD9&_). rewrite (py_nth_ok _ (nth i cells 0%nat) n0) in Q by lia. cbn [bind] in Q.
    injection Q as Q. symmetry. exact Q. }
  assert (SN : forall i, (i < length cur)%nat -> safe_pos P (fst (nth i new (0, 0))) (snd (nth i new (0, 0)))).
  { intros i Hi. eapply outcome_safe; [exact FO | | apply (OUT i Hi)]. apply SP, nth_In, Hi. }
  assert (NEW : forall i, (i < length cur)%nat ->
     let c := nth i cur (0, 0) in let k := nth i cells 0%nat in
     (nth i new (0, 0) = c /\
      (c = (0, 0) \/ edge_nearby P (fst c) (snd c) \/ (c <> (0,0) /\ (k = 4%nat \/ (nth k (o_jwalk P) 0 = 0 /\ nth k (o_iwalk P) 0 = 0))))) \/
     (~ edge_nearby P (fst c) (snd c) /\ c <> (0, 0) /\ k <> 4%nat /\ nth i new (0, 0) <> c /\
       nth i new (0, 0) = (fst c + nth k (o_jwalk P) 0, snd c + nth k (o_iwalk P) 0))).
  { intros i Hi c k. destruct (F1 i Hi) as (K9 & KS). fold c k in K9, KS.
    assert (IC : In c cur) by (apply nth_In, Hi).
    unfold new, check_for_boundary. rewrite (map2_nth _ ni1 cur (0, 0) (0, 0) (0, 0)) by lia. fold c.
    destruct (near_edge (o_ct P) (fst c) (snd c)) eqn:NE.
    { left. split; [reflexivity|]. destruct (SP c IC) as [SC|(SX & SY)]; [left; destruct c; exact SC|].
      right. left. apply near_edge_spec; assumption. }
    assert (EN : nth i ni1 (0, 0) = nth i ni0 (0, 0)).
    { unfold ni1. rewrite (map2_nth _ dist ni0 n0 (0, 0) (0, 0)) by lia. rewrite ED by exact Hi.
      destruct (TB k K9) as (_ & _ & Q). fold k. rewrite Q. reflexivity. }
    pose proof (mapM_nth _ _ _ ((0, 0), 0%nat) (0, 0) E2 i ltac:(rewrite combine_length; lia)) as Q.
    rewrite combine_nth in Q by lia. fold c k in Q. cbv beta iota in Q.
    rewrite EN.
    destruct (pair_eqb c (0, 0)) eqn:Zc.
    { apply pair_eqb_true in Zc. rewrite KS in Q. cbn [Nat.eqb] in Q. injection Q as Q. left. split; [symmetry; exact Q | left; exact Zc]. }
    apply pair_eqb_false in Zc.
    destruct (Nat.eqb_spec k 4) as [K4|K4].
    { injection Q as Q. left. split; [symmetry; exact Q|]. right. right. auto. }
    destruct (SP c IC) as [SC|(SX & SY)]; [destruct c; cbn in *; congruence|].
    assert (NEd : ~ edge_nearby P (fst c) (snd c)).
    { intros C. apply (near_edge_spec P _ _ Hw SX SY) in C. congruence. }
    unfold calculate_new_ind in Q.
    destruct Hw as (_&_&_&_&_&_&_&_&LD9&_&_&LI&LJ&_).
    rewrite (py_nth_ok (o_jwalk P) k 0), (py_nth_ok (o_iwalk P) k 0) in Q by lia.
    cbn [bind] in Q. injection Q as Q. rewrite <- Q.
    destruct (pair_eqb (fst c + nth k (o_jwalk P) 0, snd c + nth k (o_iwalk P) 0) c) eqn:Sm.
    - apply pair_eqb_true in Sm. left. split; [exact Sm|]. right. right. split; [exact Zc|]. right. destruct c as (cx & cy). cbn [fst snd] in Sm. injection Sm as S1 S2. lia.
    - apply pair_eqb_false in Sm. right. split; [exact NEd|]. split; [exact Zc|]. split; [exact K4|]. split; [exact Sm | reflexivity]. }
  (* second pass *)
  set (quads := combine cells (combine cur (combine new dist))) in E4.
  assert (LQ : length quads = length cur) by (unfold quads; rewrite !combine_length; lia).
  set (dq := (0%nat, ((0, 0), ((0, 0), n0))) : nat * ((Z * Z) * ((Z * Z) * T))).
  assert (NQ : forall i, nth i quads dq = (nth i cells 0%nat, (nth i cur (0, 0), (nth i new (0, 0), nth i dist n0)))).
  { intros i. unfold quads, dq. apply combine_nth4; lia. }
  destruct (mapS_pos (fun w pos => let '(c, (ind, (nind, d))) := w in calc_travel_times lm P draws c ind nind d pos) (fun p : nat => p) (fun _ => True)
    (fun w : nat * ((Z * Z) * ((Z * Z) * T)) => let '(c, (ind, (nind, d))) := w in negb (pair_eqb ind nind) && nltb n0 (o_diff P))
    (fun w p t => let '(c, (ind, (nind, d))) := w in t = if pair_eqb ind nind then n0 else travel_time lm P c (fst ind) (snd ind) (fst nind) (snd nind) (draws p))
    dq n0 quads (w_pos s1) temp pos') as (_ & P2 & F2); [|exact I|exact E4|].
  { intros (c & ((x & y) & ((x' & y') & d))) p t p' I _ E. cbv beta iota in E |- *. cbn [fst snd]. split; [exact Logic.I|].
    apply (In_nth _ _ dq) in I as (i & Hi & Ei). rewrite NQ in Ei. injection Ei as Q1 Q2 Q3 Q4. rewrite LQ in Hi.
    assert (K9 : (c < 9)%nat) by (rewrite <- Q1; apply (F1 i Hi)).
    assert (Gc : in_grid P x y). { pose proof (SP _ (nth_In cur (0, 0) Hi)) as S0. rewrite Q2 in S0. apply safe_in_grid; assumption. }
    assert (Gn : in_grid P x' y'). { pose proof (SN i Hi) as S0. rewrite Q3 in S0. apply safe_in_grid; assumption. }
    eapply travel_at; try eassumption. rewrite <- Q4, <- Q1. apply ED, Hi. }
  rewrite LQ in P2, F2.
  assert (TB2 : forall q, (q <= length cur)%nat -> tally (fun i => let '(c, (ind, (nind, d))) := nth i quads dq in negb (pair_eqb ind nind) && nltb n0 (o_diff P)) q =
      if nltb n0 (o_diff P) then b q else 0%nat).
  { intros q Hq. rewrite (tally_ext _ (fun i => negb (pair_eqb (nth i cur (0, 0)) (nth i new (0, 0))) && nltb n0 (o_diff P))).
    - destruct (nltb n0 (o_diff P)); unfold b.
      + apply tally_ext. intros i _. apply andb_true_r.
      + clear. induction q; [reflexivity|]. rewrite tally_S, IHq, andb_false_r. reflexivity.
    - intros i Hi. rewrite NQ. reflexivity. }
  assert (F2' : forall i, (i < length cur)%nat -> nth i temp n0 = if pair_eqb (nth i cur (0, 0)) (nth i new (0, 0)) then n0 else
      travel_time lm P (nth i cells 0%nat) (fst (nth i cur (0, 0))) (snd (nth i cur (0, 0))) (fst (nth i new (0, 0))) (snd (nth i new (0, 0)))
        (draws (n + a (length cur) + if nltb n0 (o_diff P) then b i else 0)%nat)).
  { intros i Hi. specialize (F2 i Hi). rewrite NQ in F2. cbv beta iota in F2. rewrite TB2 in F2 by lia. rewrite P1 in F2. exact F2. }
  split. { rewrite P2, TB2, P1 by lia. reflexivity. }
  intros i Hi. set (c := nth i cur (0, 0)). cbv zeta.
  assert (ET : nth i tms n0 = nadd (nth i tt n0) (nth i temp n0)).
  { assert (LTMP : length temp = length cur) by (rewrite (mapS_length _ _ _ _ _ E4); exact LQ).
    pose proof (mapM_nth _ _ _ (0, n0) n0 E5 i ltac:(rewrite combine_length, zrange_length; lia)) as Q.
    rewrite combine_nth in Q by (rewrite zrange_length; lia). rewrite zrange_nth in Q by lia.
    cbn [fst snd] in Q. replace (0 + Z.of_nat i) with (Z.of_nat i) in Q by lia.
    rewrite (py_nth_ok temp i n0) in Q by lia. cbn [bind] in Q. injection Q as Q. symmetry. exact Q. }
  destruct (F1 i Hi) as (K9 & KS). pose proof (NEW i Hi) as NW. cbv zeta in NW. fold c in NW, KS. set (k := nth i cells 0%nat) in *.
  destruct NW as [(E & [C0|[CE|(CN & KK)]])|(NE & NZ & K4 & ND & E)].
  - left. split; [exact E|]. left. exact C0.
  - left. split; [exact E|]. right. left. exact CE.
  - left. split; [exact E|]. right. right. exists k. apply pair_eqb_false in CN. rewrite CN in KS. auto.
  - right. split; [exact NZ|]. split; [exact NE|]. exists k. split; [exact K9|]. split; [exact K4|].
    apply pair_eqb_false in NZ. rewrite NZ in KS. split; [exact KS|]. cbv zeta. rewrite E in ND. split; [exact ND|]. split; [exact E|].
    rewrite ET, F2' by exact Hi. fold c k. rewrite E. replace (pair_eqb c _) with false by (symmetry; apply pair_eqb_false; intros Q; apply ND; symmetry; exact Q).
    reflexivity.
Qed.
End S.

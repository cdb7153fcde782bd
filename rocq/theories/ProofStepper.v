(** particle_stepper: outcome for every particle, and absence of exceptions. *)
From Coq Require Import ZArith Bool String List Lia.
From Verif Require Import Num Py NumFacts Walker ParticleTrack SpecWeights SpecPick SpecWalk
  ProofWeights ProofWeightLaws ProofPick ProofStep.
Import ListNotations.
Open Scope Z_scope.
Open Scope res_scope.

Section S.
Context {T : Type} {N : Num T} {NL : NumLaws T} {GV : T -> Prop}.

(** what can happen to one particle *)
Definition outcome (lm : Libm T) (P : pobj T) (cur : Z * Z) (t : T) (new : Z * Z) (t' : T) : Prop :=
  (new = cur /\ t' = nadd t n0 /\ may_stay GV lm P (fst cur) (snd cur)) \/
  documented_step GV lm P (fst cur) (snd cur) t (fst new) (snd new) t'.

Lemma outcome_safe lm (P : pobj T) cur t new t' : field_ok lm P -> safe_pos P (fst cur) (snd cur) ->
  outcome lm P cur t new t' -> safe_pos P (fst new) (snd new).
Proof.
  intros (_ & _ & _ & R & TB & _) S [(-> & _ & _)|D]; [exact S|].
  destruct (documented_inside _ _ _ _ _ _ _ _ R TB S D) as (_ & I & _). right. unfold inside in I. lia.
Qed.

Lemma first_pass lm (P : pobj T) draws cur s cells s1 : field_ok lm P -> unit_stream GV draws -> winv lm P (w_arr s) ->
  (forall xy, In xy cur -> safe_pos P (fst xy) (snd xy)) ->
  mapS (fun x s => if pair_eqb x (0, 0) then Ok (4%nat, s) else get_weight P draws x s) cur s = Ok (cells, s1) ->
  winv lm P (w_arr s1) /\
  Forall2 (fun xy k => (k < 9)%nat /\ (if pair_eqb xy (0, 0) then k = 4%nat
                                      else exists u, (unit_draw u /\ GV u) /\ selects lm P (fst xy) (snd xy) u k)) cur cells.
Proof.
  intros (Hw & G & Hp & R & TB & L3 & W3) U WI SP H.
  apply (mapS_inv _ (fun s => winv lm P (w_arr s))
    (fun xy k => (k < 9)%nat /\ (if pair_eqb xy (0, 0) then k = 4%nat
                                 else exists u, (unit_draw u /\ GV u) /\ selects lm P (fst xy) (snd xy) u k))) in H; try exact WI.
  - exact H.
  - intros (x & y) s0 k s0' I W0 E. destruct (pair_eqb (x, y) (0, 0)) eqn:Z.
    + injection E as <- <-. split; [exact W0|]. split; [lia | reflexivity].
    + pose proof (safe_in_grid P x y L3 W3 (SP _ I)) as IG.
      destruct (get_weight_spec lm P draws x y s0 k s0' Hw G Hp U W0 IG E) as (A & B & C & _).
      split; [exact A|]. split; [exact B|]. exists (draws (w_pos s0)). split; [apply U | exact C].
Qed.

Lemma travel_spec lm (P : pobj T) draws k x y x' y' pos d t pos' : field_ok lm P -> unit_stream GV draws ->
  in_grid P x y -> in_grid P x' y' -> (k < 9)%nat -> (x, y) <> (x', y') ->
  d = nmul (nth k (o_dist P) n0) (o_dx P) ->
  calc_travel_times lm P draws k (x, y) (x', y') d pos = Ok (t, pos') ->
  exists w, (unit_draw w /\ GV w) /\ t = travel_time lm P k x y x' y' w.
Proof.
  intros (Hw & _) U G1 G2 Hk NE -> H. unfold calc_travel_times in H.
  rewrite (proj2 (pair_eqb_false _ _) NE) in H. cbn [negb fst snd] in H.
  destruct Hw as (_&_&_&_&_&(V1 & V2)&(A1 & A2)&_&LD&_&_&_&_&LA&_).
  unfold in_grid in *.
  rewrite !np_get_in in H by lia. cbn [bind] in H.
  rewrite (py_nth_ok (o_angles P) k n0) in H by lia.
  destruct (nltb n0 (o_diff P)) eqn:D.
  - cbn [bind] in H. injection H as <- <-. exists (draws pos). split; [apply U|].
    unfold travel_time, diffusion, projected. rewrite D. reflexivity.
  - cbn [bind] in H. injection H as <- <-. exists (draws pos). split; [apply U|].
    unfold travel_time, diffusion, projected. rewrite D. reflexivity.
Qed.
Lemma travel_total lm (P : pobj T) draws k x y x' y' pos d : field_ok lm P ->
  in_grid P x y -> in_grid P x' y' -> (k < 9)%nat ->
  exists t pos', calc_travel_times lm P draws k (x, y) (x', y') d pos = Ok (t, pos').
Proof.
  intros (Hw & _) G1 G2 Hk. unfold calc_travel_times. destruct (pair_eqb (x, y) (x', y')); cbn [negb fst snd]; [eauto|].
  destruct Hw as (_&_&_&_&_&(V1 & V2)&(A1 & A2)&_&LD&_&_&_&_&LA&_).
  unfold in_grid in *. rewrite !np_get_in by lia. cbn [bind].
  rewrite (py_nth_ok (o_angles P) k n0) by lia.
  destruct (nltb n0 (o_diff P)); cbn [bind]; eauto.
Qed.

Lemma combine_nth4 {A B C D} (a : list A) (b : list B) (c : list C) (d : list D) i da db dc dd :
  length a = length b -> length b = length c -> length c = length d ->
  nth i (combine a (combine b (combine c d))) (da, (db, (dc, dd))) = (nth i a da, (nth i b db, (nth i c dc, nth i d dd))).
Proof.
  intros L1 L2 L3.
  assert (E : length (combine c d) = length c) by (rewrite combine_length; lia).
  assert (E2 : length (combine b (combine c d)) = length b) by (rewrite combine_length; lia).
  rewrite combine_nth by lia. rewrite combine_nth by lia. rewrite combine_nth by lia. reflexivity.
Qed.

Lemma stepper_spec lm (P : pobj T) draws cur tt vars s ni tts opt s' :
  field_ok lm P -> unit_stream GV draws -> winv lm P (w_arr s) ->
  (forall xy, In xy cur -> safe_pos P (fst xy) (snd xy)) -> length tt = length cur ->
  particle_stepper lm P draws cur tt vars s = Ok (ni, tts, opt, s') ->
  length ni = length cur /\ length tts = length cur /\ winv lm P (w_arr s') /\ opt_ok P vars ni opt /\
  forall i, (i < length cur)%nat ->
    outcome lm P (nth i cur (0, 0)) (nth i tt n0) (nth i ni (0, 0)) (nth i tts n0).
Proof.
  intros FO U WI SP LT H. assert (FO' := FO). destruct FO' as (Hw & G & Hp & R & TB & L3 & W3).
  unfold particle_stepper in H.
  apply bind_ok in H as ((cells & s1) & E1 & H). cbv beta iota in H.
  destruct (first_pass lm P draws cur s cells s1 FO U WI SP E1) as (W1 & F1).
  assert (LC : length cells = length cur) by (symmetry; eapply Forall2_len; exact F1).
  apply bind_ok in H as (ni0 & E2 & H). apply bind_ok in H as (dist & E3 & H). cbv zeta in H.
  set (ni1 := map2 _ dist ni0) in H. set (new := check_for_boundary ni1 cur (o_ct P)) in H.
  apply bind_ok in H as ((temp & pos') & E4 & H). apply bind_ok in H as (tms & E5 & H).
  apply bind_ok in H as (opt0 & E6 & H). apply bind_ok in H as (opt1 & E7 & H).
  injection H as <- <- <- <-. cbn [w_arr].
  assert (L0 : length ni0 = length cur) by (rewrite (mapM_length _ _ _ E2), combine_length; lia).
  assert (LD : length dist = length cur) by (rewrite (mapM_length _ _ _ E3); exact LC).
  assert (LN1 : length ni1 = length cur) by (unfold ni1; rewrite map2_length; lia).
  assert (LN : length new = length cur) by (unfold new, check_for_boundary; rewrite map2_length; lia).
  (* new position of particle i *)
  assert (NEW : forall i, (i < length cur)%nat ->
     let c := nth i cur (0, 0) in let k := nth i cells 0%nat in
     (k < 9)%nat /\
     ((nth i new (0, 0) = c /\ may_stay GV lm P (fst c) (snd c)) \/
      (~ edge_nearby P (fst c) (snd c) /\ c <> (0, 0) /\ k <> 4%nat /\
       (exists u, (unit_draw u /\ GV u) /\ selects lm P (fst c) (snd c) u k) /\
       nth i new (0, 0) = (fst c + nth k (o_jwalk P) 0, snd c + nth k (o_iwalk P) 0)))).
  { intros i Hi c k.
    pose proof (Forall2_nth _ _ _ (0, 0) 0%nat F1 i Hi) as (K9 & KS). fold c k in K9, KS.
    split; [exact K9|].
    assert (IC : In c cur) by (apply nth_In, Hi).
    unfold new, check_for_boundary. rewrite (map2_nth _ ni1 cur (0, 0) (0, 0) (0, 0)) by lia. fold c.
    destruct (near_edge (o_ct P) (fst c) (snd c)) eqn:NE.
    { left. split; [reflexivity|]. destruct (SP c IC) as [SC|(SX & SY)]; [left; exact SC|].
      right. left. apply near_edge_spec; assumption. }
    (* distance of the step is not zero *)
    assert (ED : nth i dist n0 = nmul (nth k (o_dist P) n0) (o_dx P)).
    { pose proof (mapM_nth _ _ _ 0%nat n0 E3 i ltac:(lia)) as Q. fold k in Q. unfold step_update in Q.
      destruct Hw as (_&_&_&_&_&_&_&_&LD9&_). rewrite (py_nth_ok _ k n0) in Q by lia. cbn [bind] in Q.
      injection Q as Q. symmetry. exact Q. }
    assert (EN : nth i ni1 (0, 0) = nth i ni0 (0, 0)).
    { unfold ni1. rewrite (map2_nth _ dist ni0 n0 (0, 0) (0, 0)) by lia. rewrite ED.
      destruct (TB k K9) as (_ & _ & Q). rewrite Q. reflexivity. }
    pose proof (mapM_nth _ _ _ ((0, 0), 0%nat) (0, 0) E2 i ltac:(rewrite combine_length; lia)) as Q.
    rewrite combine_nth in Q by lia. fold c k in Q. cbv beta iota in Q.
    rewrite EN.
    destruct (Nat.eqb_spec k 4) as [K4|K4].
    { injection Q as Q. left. split; [symmetry; exact Q|]. destruct (pair_eqb c (0, 0)) eqn:Z.
      - left. apply pair_eqb_true in Z. rewrite Z. reflexivity.
      - right. right. destruct KS as (u & Uu & Su). exists k, u. destruct Uu. auto 8. }
    destruct (pair_eqb c (0, 0)) eqn:Z; [congruence|]. apply pair_eqb_false in Z.
    destruct (SP c IC) as [SC|(SX & SY)]; [destruct c; cbn in *; congruence|].
    assert (NEd : ~ edge_nearby P (fst c) (snd c)).
    { intros C. apply (near_edge_spec P _ _ Hw SX SY) in C. congruence. }
    right. split; [exact NEd|]. split; [exact Z|]. split; [exact K4|]. split; [exact KS|].
    unfold calculate_new_ind in Q.
    destruct Hw as (_&_&_&_&_&_&_&_&LD9&_&_&LI&LJ&_).
    rewrite (py_nth_ok (o_jwalk P) k 0), (py_nth_ok (o_iwalk P) k 0) in Q by lia.
    cbn [bind] in Q. injection Q as Q. symmetry. exact Q. }
  assert (SN : forall i, (i < length cur)%nat -> safe_pos P (fst (nth i new (0, 0))) (snd (nth i new (0, 0)))).
  { intros i Hi. assert (IC : In (nth i cur (0, 0)) cur) by (apply nth_In, Hi).
    destruct (NEW i Hi) as (K9 & [(E & _)|(NE & NZ & K4 & _ & E)]); rewrite E; [apply SP, IC|].
    cbn [fst snd]. destruct (SP _ IC) as [C|(SX & SY)]; [destruct (nth i cur (0, 0)); cbn in *; congruence|].
    pose proof (no_edge_deep P _ _ R SX SY NE). destruct (TB _ K9) as (A & B & _). right. lia. }
  split; [exact LN|]. 
  assert (LTS : length tms = length cur).
  { rewrite (mapM_length _ _ _ E5), combine_length, zrange_length. lia. }
  split; [exact LTS|]. split; [exact W1|]. split.
  - eapply opt_stage_ok; try eassumption. intros xy I. apply (In_nth _ _ (0, 0)) in I as (i & Hi & <-).
    apply safe_in_grid; try assumption. apply SN. lia.
  - intros i Hi. assert (IC : In (nth i cur (0, 0)) cur) by (apply nth_In, Hi).
    assert (LTMP : length temp = length cur).
    { rewrite (mapS_length _ _ _ _ _ E4), !combine_length. lia. }
    assert (ET : nth i tms n0 = nadd (nth i tt n0) (nth i temp n0)).
    { pose proof (mapM_nth _ _ _ (0, n0) n0 E5 i ltac:(rewrite combine_length, zrange_length; lia)) as Q.
      rewrite combine_nth in Q by (rewrite zrange_length; lia). rewrite zrange_nth in Q by lia.
      cbn [fst snd] in Q. replace (0 + Z.of_nat i) with (Z.of_nat i) in Q by lia.
      rewrite (py_nth_ok temp i n0) in Q by lia. cbn [bind] in Q. injection Q as Q. symmetry. exact Q. }
    assert (EC : exists pos1 pos2, calc_travel_times lm P draws (nth i cells 0%nat) (nth i cur (0, 0)) (nth i new (0, 0)) (nth i dist n0) pos1
                 = Ok (nth i temp n0, pos2)).
    { assert (Q : True /\ Forall2 (fun w t => exists pos1 pos2, (let '(c, (ind, (nind, d))) := w in
                                 calc_travel_times lm P draws c ind nind d pos1) = Ok (t, pos2))
                        (combine cells (combine cur (combine new dist))) temp).
      { eapply (mapS_inv _ (fun _ => True)); [|exact I|exact E4]. intros a p b p' _ _ E. split; [exact I|]. exists p, p'. exact E. }
      destruct Q as (_ & Q). pose proof (Forall2_nth _ _ _ (0%nat, ((0, 0), ((0, 0), n0))) n0 Q i) as Q'.
      rewrite !combine_length in Q'. specialize (Q' ltac:(lia)). rewrite combine_nth4 in Q' by lia. exact Q'. }
    destruct EC as (pos1 & pos2 & EC).
    assert (ED : nth i dist n0 = nmul (nth (nth i cells 0%nat) (o_dist P) n0) (o_dx P)).
    { pose proof (mapM_nth _ _ _ 0%nat n0 E3 i ltac:(lia)) as Q. unfold step_update in Q.
      destruct (NEW i Hi) as (K9 & _).
      destruct Hw as (_&_&_&_&_&_&_&_&LD9&_). rewrite (py_nth_ok _ (nth i cells 0%nat) n0) in Q by lia. cbn [bind] in Q.
      injection Q as Q. symmetry. exact Q. }
    destruct (pair_eqb (nth i cur (0, 0)) (nth i new (0, 0))) eqn:SAME.
    + unfold calc_travel_times in EC. rewrite SAME in EC. cbn [negb] in EC. injection EC as Q _.
      left. apply pair_eqb_true in SAME. rewrite ET, <- Q. split; [symmetry; exact SAME |]. split; [reflexivity|].
      destruct (NEW i Hi) as (K9 & [(_ & MS)|(NE & NZ & K4 & (u & Uu & Su) & E)]); [exact MS|].
      right. right. rewrite E in SAME. exists (nth i cells 0%nat), u. split; [exact K9|]. split; [exact (proj1 Uu)|]. split; [exact Su|].
      split; [|exact (proj2 Uu)]. right. destruct (nth i cur (0, 0)) as (x & y). cbn [fst snd] in SAME. injection SAME as S1 S2. lia.
    + apply pair_eqb_false in SAME.
      destruct (NEW i Hi) as (K9 & [(E & _)|(NE & NZ & K4 & (u & Uu & Su) & E)]); [congruence|].
      right. assert (SNi := SN i Hi). 
      destruct (nth i cur (0, 0)) as (x & y) eqn:Exy. destruct (nth i new (0, 0)) as (x' & y') eqn:Exy'.
      cbn [fst snd] in *. injection E as EX EY.
      destruct (travel_spec lm P draws (nth i cells 0%nat) x y x' y' pos1 (nth i dist n0) (nth i temp n0) pos2) as (w & Uw & Ew);
        try assumption.
      { apply safe_in_grid; try assumption. apply (SP _ IC). }
      { apply safe_in_grid; assumption. }
      exists (nth i cells 0%nat), u, w. rewrite ET, Ew.
      split; [exact K9|]. split; [exact K4|]. split; [exact (proj1 Uu)|]. split; [exact (proj1 Uw)|]. split; [exact NE|].
      split; [exact NZ|]. split; [exact Su|]. split; [exact EX|]. split; [exact EY|].
      split; [congruence|]. split; [reflexivity|]. split; [exact (proj2 Uu) | exact (proj2 Uw)].
Qed.

(** The stepper raises no exception on safe positions. *)
Lemma stepper_total lm (P : pobj T) draws cur tt vars s :
  field_ok lm P -> weights_finite lm P -> unit_stream GV draws -> winv lm P (w_arr s) ->
  (forall xy, In xy cur -> safe_pos P (fst xy) (snd xy)) -> length tt = length cur ->
  exists ni tts opt s', particle_stepper lm P draws cur tt vars s = Ok (ni, tts, opt, s').
Proof.
  intros FO WF U WI SP LT. assert (FO' := FO). destruct FO' as (Hw & G & Hp & R & TB & L3 & W3).
  unfold particle_stepper.
  destruct (mapS_total (fun x s => if pair_eqb x (0, 0) then Ok (4%nat, s) else get_weight P draws x s)
              (fun s => winv lm P (w_arr s)) cur s) as (cells & s1 & E1 & W1).
  { intros (x & y) s0 I W0. destruct (pair_eqb (x, y) (0, 0)); [eauto|].
    pose proof (safe_in_grid P x y L3 W3 (SP _ I)) as IG.
    destruct (get_weight_total lm P draws x y s0 Hw G Hp WF W0 IG) as (k & s2 & E). exists k, s2. split; [exact E|].
    destruct (get_weight_spec lm P draws x y s0 k s2 Hw G Hp U W0 IG E) as (A & _). exact A. }
  { exact WI. }
  rewrite E1. cbn [bind].
  destruct (first_pass lm P draws cur s cells s1 FO U WI SP E1) as (_ & F1).
  assert (LC : length cells = length cur) by (symmetry; eapply Forall2_len; exact F1).
  assert (K9 : forall k, In k cells -> (k < 9)%nat).
  { intros k I. apply (In_nth _ _ 0%nat) in I as (i & Hi & <-).
    pose proof (Forall2_nth _ _ _ (0, 0) 0%nat F1 i ltac:(lia)) as (Q & _). exact Q. }
  pose proof Hw as (_&_&_&_&_&_&_&_&LD9&_&_&LI&LJ&_).
  destruct (mapM_total (fun xy : (Z * Z) * nat => let '(x, y) := xy in
                 if Nat.eqb y 4 then Ok x else calculate_new_ind x y (o_iwalk P) (o_jwalk P)) (combine cur cells)) as (ni0 & E2).
  { intros (x & k) I. destruct (Nat.eqb k 4); [eauto|]. unfold calculate_new_ind.
    apply in_combine_r in I. specialize (K9 k I).
    rewrite (py_nth_ok (o_jwalk P) k 0), (py_nth_ok (o_iwalk P) k 0) by lia. cbn [bind]. eauto. }
  rewrite E2. cbn [bind].
  destruct (mapM_total (fun c => step_update c (o_dist P) (o_dx P)) cells) as (dist & E3).
  { intros k I. unfold step_update. rewrite (py_nth_ok (o_dist P) k n0) by (rewrite LD9; apply K9, I). cbn [bind]. eauto. }
  rewrite E3. cbn [bind]. cbv zeta.
  set (ni1 := map2 _ dist ni0). set (new := check_for_boundary ni1 cur (o_ct P)).
  assert (L0 : length ni0 = length cur) by (rewrite (mapM_length _ _ _ E2), combine_length; lia).
  assert (LD : length dist = length cur) by (rewrite (mapM_length _ _ _ E3); exact LC).
  assert (LN1 : length ni1 = length cur) by (unfold ni1; rewrite map2_length; lia).
  assert (LN : length new = length cur) by (unfold new, check_for_boundary; rewrite map2_length; lia).
  assert (SN : forall i, (i < length cur)%nat -> safe_pos P (fst (nth i new (0, 0))) (snd (nth i new (0, 0)))).
  { intros i Hi. set (c := nth i cur (0, 0)). set (k := nth i cells 0%nat).
    assert (IC : In c cur) by (apply nth_In, Hi).
    pose proof (Forall2_nth _ _ _ (0, 0) 0%nat F1 i Hi) as (Kk & KS). fold c k in Kk, KS.
    unfold new, check_for_boundary. rewrite (map2_nth _ ni1 cur (0, 0) (0, 0) (0, 0)) by lia. fold c.
    destruct (near_edge (o_ct P) (fst c) (snd c)) eqn:NE; [apply SP, IC|].
    assert (ED : nth i dist n0 = nmul (nth k (o_dist P) n0) (o_dx P)).
    { pose proof (mapM_nth _ _ _ 0%nat n0 E3 i ltac:(lia)) as Q. fold k in Q. unfold step_update in Q.
      rewrite (py_nth_ok _ k n0) in Q by lia. cbn [bind] in Q. injection Q as Q. symmetry. exact Q. }
    assert (EN : nth i ni1 (0, 0) = nth i ni0 (0, 0)).
    { unfold ni1. rewrite (map2_nth _ dist ni0 n0 (0, 0) (0, 0)) by lia. rewrite ED.
      destruct (TB k Kk) as (_ & _ & Q). rewrite Q. reflexivity. }
    pose proof (mapM_nth _ _ _ ((0, 0), 0%nat) (0, 0) E2 i ltac:(rewrite combine_length; lia)) as Q.
    rewrite combine_nth in Q by lia. fold c k in Q. cbv beta iota in Q. rewrite EN.
    destruct (Nat.eqb_spec k 4) as [K4|K4]; [injection Q as Q; rewrite <- Q; apply SP, IC|].
    destruct (pair_eqb c (0, 0)) eqn:Zc; [congruence|]. apply pair_eqb_false in Zc.
    destruct (SP c IC) as [SC|(SX & SY)]; [destruct c; cbn in *; congruence|].
    assert (NEd : ~ edge_nearby P (fst c) (snd c)).
    { intros C. apply (near_edge_spec P _ _ Hw SX SY) in C. congruence. }
    unfold calculate_new_ind in Q. rewrite (py_nth_ok (o_jwalk P) k 0), (py_nth_ok (o_iwalk P) k 0) in Q by lia.
    cbn [bind] in Q. injection Q as Q. rewrite <- Q. cbn [fst snd].
    pose proof (no_edge_deep P _ _ R SX SY NEd). destruct (TB k Kk) as (A & B & _). right. lia. }
  destruct (mapS_total (fun w pos => let '(c, (ind, (nind, d))) := w in calc_travel_times lm P draws c ind nind d pos)
              (fun _ => True) (combine cells (combine cur (combine new dist))) (w_pos s1)) as (temp & pos' & E4 & _).
  { intros (c & (ind & (nind & d))) pos I _.
    assert (Ic : (c < 9)%nat) by (apply K9; eapply in_combine_l; exact I). apply in_combine_r in I.
    assert (Ii : safe_pos P (fst ind) (snd ind)) by (apply SP; eapply in_combine_l; exact I). apply in_combine_r in I.
    assert (In' : safe_pos P (fst nind) (snd nind)).
    { apply in_combine_l in I. apply (In_nth _ _ (0, 0)) in I as (i & Hi & <-). apply SN. lia. }
    destruct ind as (x & y), nind as (x' & y'). cbn [fst snd] in *.
    destruct (travel_total lm P draws c x y x' y' pos d FO) as (t & p2 & E); try assumption;
      try (apply safe_in_grid; assumption). eauto. }
  { exact I. }
  rewrite E4. cbn [bind].
  assert (LTMP : length temp = length cur).
  { rewrite (mapS_length _ _ _ _ _ E4), !combine_length. lia. }
  destruct (mapM_total (fun it : Z * T => t2 <- py_nth temp (fst it) ;; Ok (nadd (snd it) t2))
              (combine (zrange 0 (Z.of_nat (length tt))) tt)) as (tms & E5).
  { intros (i & t) I. cbn [fst snd]. apply in_combine_l, zrange_In in I.
    replace i with (Z.of_nat (Z.to_nat i)) by lia. rewrite (py_nth_ok temp (Z.to_nat i) n0) by lia. cbn [bind]. eauto. }
  rewrite E5. cbn [bind].
  destruct (opt_stage_total P vars new Hw) as (opt0 & opt & E6 & E7).
  { intros xy I. apply (In_nth _ _ (0, 0)) in I as (i & Hi & <-). apply safe_in_grid; try assumption. apply SN. lia. }
  rewrite E6. cbn [bind]. rewrite E7. cbn [bind]. eauto.
Qed.
End S.

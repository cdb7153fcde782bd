(** Target-time runs: the fuel never matters, and no exception is raised from safe states. *)
From Coq Require Import ZArith Bool String List Lia.
From Verif Require Import Num Py NumFacts Walker ParticleTrack SpecWeights SpecPick SpecWalk
  ProofWeights ProofWeightLaws ProofPick ProofStep ProofStepper ProofRun ProofRunTo.
Import ListNotations.
Open Scope Z_scope.
Open Scope res_scope.

Section S.
Context {T : Type} {N : Num T} {NL : NumLaws T} {GV : T -> Prop}.

Lemma bind_ext {A B} (x : res A) (f g : A -> res B) : (forall a, x = Ok a -> f a = g a) -> bind x f = bind x g.
Proof. destruct x; simpl; auto. Qed.

Lemma run_row_fuel lm (P : pobj T) draws target max_iter : forall f1 f2 r est c s,
  (0 < f1)%nat -> (0 < f2)%nat -> max_iter - c + 1 <= Z.of_nat f1 -> max_iter - c + 1 <= Z.of_nat f2 ->
  run_row f1 lm P draws target max_iter r est c s = run_row f2 lm P draws target max_iter r est c s.
Proof.
  induction f1 as [|f1 IH]; intros [|f2] r est c s H1 H2 L1 L2; try lia. cbn [run_row].
  apply bind_ext; intros x _. apply bind_ext; intros y _. apply bind_ext; intros t _.
  destruct (nleb _ _); [|reflexivity]. apply bind_ext; intros ? _. apply bind_ext; intros (((ni & tts) & upd) & s') _. cbv beta iota.
  apply bind_ext; intros p _. destruct (negb _); [|reflexivity]. apply bind_ext; intros t' _. apply bind_ext; intros o' _. cbv zeta.
  destruct (Z.ltb_spec max_iter (c + 1)); [reflexivity|]. apply IH; lia.
Qed.

Lemma row_opt_last (r : prow T) : row_rect r -> exists l, mapM (fun kv => py_last (snd kv)) (r_o r) = Ok l.
Proof.
  intros (A & _ & _ & D). apply mapM_total. intros kv I. specialize (D kv I). rewrite (py_last_lastd None) by lia. eauto.
Qed.

Lemma stepper1_total lm (P : pobj T) draws x y t vars s :
  field_ok lm P -> weights_finite lm P -> unit_stream GV draws -> winv lm P (w_arr s) -> safe_pos P x y ->
  exists ni tts opt s', particle_stepper lm P draws [(x, y)] [t] vars s = Ok (ni, tts, opt, s').
Proof.
  intros FO WF U WI S. apply (stepper_total (GV:=GV)); try assumption; [|reflexivity]. intros xy [<-|[]]. exact S.
Qed.

Lemma run_row_total lm (P : pobj T) draws target max_iter : field_ok lm P -> weights_finite lm P -> unit_stream GV draws ->
  forall fuel r est c s, winv lm P (w_arr s) -> base_row P r -> legit_row P r ->
  (0 < fuel)%nat -> max_iter - c + 1 <= Z.of_nat fuel ->
  exists r' s' over, run_row fuel lm P draws target max_iter r est c s = Ok (r', s', over).
Proof.
  intros FO WF U. induction fuel as [|fuel IH]; intros r est c s WI BR LG H1 H2; [lia|].
  cbn [run_row]. destruct (lasts r (proj1 BR)) as (LX & LY & LT). rewrite LX, LY, LT. cbn [bind].
  destruct (nleb _ _) eqn:GO; [|eauto]. destruct (row_opt_last r (proj1 BR)) as (? & ->). cbn [bind].
  destruct (stepper1_total lm P draws (xat r (last_ix r)) (yat r (last_ix r)) (tat r (last_ix r)) (map fst (r_o r)) s FO WF U WI (proj2 BR))
    as (ni & tts & upd & s1 & E1). rewrite E1. cbn [bind]. 
  destruct (stepper1 lm P draws _ _ _ _ _ _ _ _ _ FO U WI (proj2 BR) E1) as (LN & LTT & WI1 & OO & _).
  assert (E2 : py_nth ni 0 = Ok (nth 0 ni (0, 0))) by (apply (py_nth_ok ni 0); lia). rewrite E2. cbn [bind].
  destruct (pair_eqb _ _) eqn:PE; cbn [negb]; [eauto|]. apply pair_eqb_false in PE.
  assert (E3 : py_nth tts 0 = Ok (nth 0 tts n0)) by (apply (py_nth_ok tts 0); lia). rewrite E3. cbn [bind].
  match goal with |- context [bind (mapM ?f ?l) _] => destruct (mapM_total f l) as (o' & E4) end.
  { intros kv I. assert (Iv : In (fst kv) (map fst (r_o r))) by (apply in_map, I).
    destruct (OO _ Iv (LG _ Iv)) as (vs & -> & Lv & Nv). change 0 with (Z.of_nat 0). rewrite (py_nth_ok vs 0 None) by lia. cbn [bind]. eauto. }
  rewrite E4. cbn [bind]. cbv zeta.
  pose proof (row_step lm P draws r s ni tts upd s1 o' _ _ FO U WI BR LG E1 E2 PE E3 E4) as EX.
  destruct (Z.ltb_spec max_iter (c + 1)); [eauto|].
  apply IH; try assumption; try lia.
  - eapply base_row_extend1; eauto.
  - intros v I. apply LG. destruct (extend1_lengths _ _ _ _ (proj1 BR) EX) as (_ & _ & <-). exact I.
Qed.

Lemma run_particle_total lm (P : pobj T) draws target max_iter r s : field_ok lm P -> weights_finite lm P -> unit_stream GV draws ->
  winv lm P (w_arr s) -> base_row P r -> legit_row P r ->
  exists r' s' over, run_particle lm P draws target max_iter r s = Ok (r', s', over).
Proof.
  intros FO WF U WI BR LG. unfold run_particle. destruct (lasts r (proj1 BR)) as (LX & LY & LT).
  assert (EE : exists est, (if 1 <? Z.of_nat (length (r_t r)) then
            a <- py_nth (r_t r) (-1) ;; b <- py_nth (r_t r) (-2) ;; Ok (nsub a b) else Ok ntenth) = Ok est).
  { destruct (Z.ltb_spec 1 (Z.of_nat (length (r_t r)))); [|eauto]. unfold py_last in LT. rewrite LT. cbn [bind].
    rewrite (py_nth_m2 _ n0) by lia. cbn [bind]. eauto. }
  destruct EE as (est & ->). cbn [bind]. rewrite LX, LY. cbn [bind]. destruct (near_edge _ _ _); [eauto|].
  apply run_row_total; try assumption; lia.
Qed.

Lemma run_particles_total lm (P : pobj T) draws target max_iter : field_ok lm P -> weights_finite lm P -> unit_stream GV draws -> vars_ok P ->
  forall idx wd ov s warn,
  let w := {| xinds := xinds wd; yinds := yinds wd; times := times wd; opts := ov |} in
  winv lm P (w_arr s) -> walk_ok P w -> (forall i, In i idx -> 0 <= i < Z.of_nat (count w)) ->
  exists wd' ov' s' warn', run_particles lm P draws target max_iter idx wd ov s warn = Ok (wd', ov', s', warn') /\
    (warn' = None -> warn = None /\ idx = []).
Proof.
  intros FO WF U VO. induction idx as [|ii idx IH]; intros wd ov s warn w WI WO RG; cbn [run_particles].
  - do 4 eexists. split; [reflexivity|]. auto.
  - assert (HI : 0 <= ii < Z.of_nat (count w)) by (apply RG; left; reflexivity).
    set (p := Z.to_nat ii) in *. assert (EP : ii = Z.of_nat p) by (unfold p; lia).
    assert (Hp : (p < count w)%nat) by lia.
    pose proof WO as (KE & SH & RO). cbn [opts w] in KE.
    replace (get_row wd ov ii) with (get_row wd ov (Z.of_nat p)) by congruence. rewrite (get_row_spec P wd ov p KE SH Hp). cbn [bind]. fold w.
    set (r := row (tvars P) w p) in *.
    assert (LG : legit_row P r) by (intros v I; apply VO; unfold r, row in I; cbn [r_o] in I; rewrite map_map, map_id in I; exact I).
    destruct (run_particle_total lm P draws target max_iter r s FO WF U WI (RO p Hp) LG) as (r' & s1 & over & E1).
    rewrite E1. cbn [bind]. cbv beta iota zeta.
    destruct (run_particle_spec lm P draws target max_iter r s r' s1 over FO U WI (RO p Hp) LG E1) as (n & EN & WI1 & _).
    destruct (extends_dget lm P n r r' (tvars P) (fun v => nth p (dflt (dget v ov) []) []) EN eq_refl) as (g & RG').
    destruct (put_row_spec P wd ov p r' g KE SH Hp RG') as (CT & KE1 & SH1 & RW & RWO).
    set (w1 := {| xinds := upd_nth p (r_x r') (xinds wd); yinds := upd_nth p (r_y r') (yinds wd);
               times := upd_nth p (r_t r') (times wd); opts := set_opts p r' ov |}) in *.
    fold w in CT, RWO.
    assert (BR' : base_row P r') by (eapply base_row_extends; eauto).
    assert (WO1 : walk_ok P w1).
    { split; [exact KE1|]. split; [exact SH1|]. intros q Hq.
      destruct (Nat.eq_dec q p) as [->|NQ]; [rewrite RW; exact BR'|]. rewrite RWO by exact NQ. apply RO. lia. }
    assert (RG1 : forall i, In i idx -> 0 <= i < Z.of_nat (count w1)) by (intros i I; rewrite CT; apply RG; right; exact I).
    match goal with |- context [run_particles _ _ _ _ _ _ ?wd1 _ _ ?wn1] =>
      destruct (IH wd1 (set_opts p r' ov) s1 wn1 WI1 WO1 RG1) as (wd' & ov' & s' & wn' & E2 & W2) end.
    do 4 eexists. split; [exact E2|]. intros C. destruct (W2 C) as (C2 & _). discriminate.
Qed.

Lemma run_target_total lm (P : pobj T) draws target max_iter s w :
  field_ok lm P -> weights_finite lm P -> unit_stream GV draws -> winv lm P (w_arr (s_wst s)) -> vars_ok P ->
  s_walk s = Some w -> s_np s = Z.of_nat (count w) -> walk_ok P w -> (0 < count w)%nat ->
  exists w' wl s', run_target lm P draws target max_iter s = Ok (w', wl, s').
Proof.
  intros FO WF U WI VO SW NP WO CP. pose proof WO as (KE & SH & RO). unfold run_target. rewrite SW, NP.
  replace (if Z.of_nat (count w) =? 0 then Z.of_nat (length (xinds w)) else Z.of_nat (count w)) with (Z.of_nat (count w))
    by (unfold count; destruct (Z.of_nat (length (xinds w)) =? 0); reflexivity).
  assert (SH' := SH). destruct SH' as (LY & LT & LO).
  assert (RR : forall p, (p < count w)%nat -> row_rect (row (tvars P) w p)) by (intros p Hp; apply RO, Hp).
  rewrite (mapM_last 0 (xinds w)).
  2: reflexivity.
  2:{ intros r I. apply (In_nth _ _ []) in I as (p & Hp & <-). apply (row_rect_lengths _ _ _ (RR p Hp)). }
  cbn [bind]. rewrite (mapM_last 0 (yinds w)).
  2: symmetry; exact LY.
  2:{ intros r I. apply (In_nth _ _ []) in I as (p & Hp & <-). rewrite LY in Hp. destruct (row_rect_lengths _ _ _ (RR p Hp)). lia. }
  cbn [bind]. rewrite (mapM_last n0 (times w)).
  2: symmetry; exact LT.
  2:{ intros r I. apply (In_nth _ _ []) in I as (p & Hp & <-). rewrite LT in Hp. destruct (row_rect_lengths _ _ _ (RR p Hp)). lia. }
  cbn [bind]. rewrite (read_opts_shaped P _ w SH).
  set (ov := map (fun v => (v, dflt (dget v (opts w)) [])) (tvars P)).
  destruct (mapM_total (fun kv : string * list (list (option T)) => mapM (last_of (snd kv)) (zrange 0 (Z.of_nat (count w)))) ov) as (lo & ->).
  { intros kv I. unfold ov in I. apply in_map_iff in I as (v & <- & I). cbn [snd]. destruct (LO v I) as (l & El & Ll). rewrite El. cbn [dflt].
    rewrite (mapM_last None l); [eauto|symmetry; exact Ll|]. intros r Ir. apply (In_nth _ _ []) in Ir as (p & Hp & <-). rewrite Ll in Hp.
    destruct (row_rect_lengths _ _ _ (RR p Hp)) as (A & _ & _ & B). specialize (B v I). rewrite El in B. cbn [dflt] in B. lia. }
  cbn [bind].
  assert (EO : ov = opts w) by (unfold ov; rewrite <- KE; symmetry; apply canon; rewrite KE; apply NoDup_tvars).
  rewrite EO.
  assert (EW : {| xinds := xinds w; yinds := yinds w; times := times w; opts := opts w |} = w) by (destruct w; reflexivity).
  assert (RS := run_particles_total lm P draws target max_iter FO WF U VO (zrange 0 (Z.of_nat (count w))) w (opts w) (s_wst s) None WI).
  cbv zeta in RS. rewrite EW in RS.
  destruct (RS WO (fun i I => proj1 (zrange_In _ _ _) I)) as (wd' & ov' & ws & wn & -> & WN). cbn [bind].
  destruct wn as [wl|]; [eauto|]. destruct (WN eq_refl) as (_ & C). exfalso.
  apply (f_equal (@length Z)) in C. rewrite zrange_length in C. simpl in C. lia.
Qed.
End S.

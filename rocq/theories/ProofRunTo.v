(** run_iteration with a target time: effect on every particle's history. *)
From Coq Require Import ZArith Bool String List Lia.
From Verif Require Import Num Py NumFacts Walker ParticleTrack SpecWeights SpecPick SpecWalk
  ProofWeights ProofWeightLaws ProofPick ProofStep ProofStepper ProofRun.
Import ListNotations.
Open Scope Z_scope.
Open Scope res_scope.

Section S.
Context {T : Type} {N : Num T} {NL : NumLaws T} {GV : T -> Prop}.

Lemma extend1_lengths lm (P : pobj T) r r' : row_rect r -> extend1 GV lm P r r' ->
  row_rect r' /\ length (r_x r') = S (length (r_x r)) /\ map fst (r_o r') = map fst (r_o r).
Proof.
  intros (A & B & C & D) (x & y & t & _ & X & Y & Tm & O).
  assert (LX : length (r_x r') = S (length (r_x r))) by (rewrite X, app_length; simpl; lia).
  split; [|split; [exact LX | rewrite O, map_map; reflexivity]].
  split; [lia|]. split; [rewrite Y, app_length; simpl; lia|]. split; [rewrite Tm, app_length; simpl; lia|].
  intros kv I. rewrite O in I. apply in_map_iff in I as (kv0 & <- & I). cbn [snd]. rewrite app_length, (D _ I). simpl. lia.
Qed.
Lemma extend1_last lm (P : pobj T) r r' : row_rect r -> extend1 GV lm P r r' ->
  documented_step GV lm P (xat r (last_ix r)) (yat r (last_ix r)) (tat r (last_ix r))
    (xat r' (last_ix r')) (yat r' (last_ix r')) (tat r' (last_ix r')).
Proof.
  intros R E. destruct (extend1_lengths _ _ _ _ R E) as (R' & _). destruct E as (x & y & t & D & X & Y & Tm & O).
  rewrite (last_ix_y r' R'), (last_ix_t r' R'), (last_ix_x r'), X, Y, Tm, !lastd_app. exact D.
Qed.
Lemma base_row_extend1 lm (P : pobj T) r r' : field_ok lm P -> base_row P r -> extend1 GV lm P r r' -> base_row P r'.
Proof.
  intros FO (R & S) E. split; [apply (extend1_lengths _ _ _ _ R E)|].
  pose proof (extend1_last _ _ _ _ R E) as D. destruct FO as (_ & _ & _ & RC & TB & _).
  destruct (documented_inside _ _ _ _ _ _ _ _ RC TB S D) as (_ & I & _). right. unfold inside in I. lia.
Qed.
Lemma base_row_extends lm (P : pobj T) n r r' : field_ok lm P -> base_row P r -> extends GV lm P n r r' -> base_row P r'.
Proof. intros FO B E. induction E as [|n r r1 r2 E IH E1]; [exact B|]. exact (base_row_extend1 _ _ _ _ FO (IH B) E1). Qed.
Lemma extends_keys lm (P : pobj T) n r r' : extends GV lm P n r r' -> map fst (r_o r') = map fst (r_o r).
Proof.
  induction 1 as [|n r r1 r2 _ IH (x & y & t & _ & _ & _ & _ & O)]; [reflexivity|].
  rewrite O, map_map, <- IH. reflexivity.
Qed.
Lemma extends_trans lm (P : pobj T) n m r r1 r2 : extends GV lm P n r r1 -> extends GV lm P m r1 r2 -> extends GV lm P (m + n) r r2.
Proof. intros A B. revert A. induction B; intros A; [exact A|]. cbn [Nat.add]. eapply ext_step; [apply IHB, A | assumption]. Qed.
Lemma extends_0 lm (P : pobj T) r r' : extends GV lm P 0 r r' -> r' = r.
Proof. intros E. remember 0%nat as n eqn:Q. destruct E; [reflexivity | discriminate]. Qed.
Lemma extends_one lm (P : pobj T) r r' : extend1 GV lm P r r' -> extends GV lm P 1 r r'.
Proof. intros E. eapply ext_step; [apply ext_refl | exact E]. Qed.
Lemma extends_dget lm (P : pobj T) n r r' vs g : extends GV lm P n r r' -> r_o r = map (fun v => (v, g v)) vs ->
  exists g', r_o r' = map (fun v => (v, g' v)) vs.
Proof.
  intros E. revert g. induction E as [|n r r1 r2 _ IH (x & y & t & _ & _ & _ & _ & O)]; intros g H; [eauto|].
  destruct (IH g H) as (g1 & H1). rewrite O, H1, map_map. cbn [fst snd].
  exists (fun v => g1 v ++ [field_value P v x y]). reflexivity.
Qed.

Lemma prev_t (r r' : prow T) lm P : row_rect r -> extend1 GV lm P r r' ->
  tat r' (last_ix r' - 1) = tat r (last_ix r).
Proof.
  intros R E. destruct (extend1_lengths _ _ _ _ R E) as (R' & LX & _). destruct E as (x & y & t & _ & X & Y & Tm & O).
  destruct R as (A & B & C & _). unfold tat, last_ix. rewrite LX, Tm.
  replace (S (length (r_x r)) - 1 - 1)%nat with (length (r_x r) - 1)%nat by lia. rewrite app_nth1 by lia. reflexivity.
Qed.

Definition legit_row (P : pobj T) (r : prow T) : Prop := forall v, In v (map fst (r_o r)) -> legit P v.

(** one step of the loop *)
Lemma stepper1 lm (P : pobj T) draws x y t vars s ni tts upd s' :
  field_ok lm P -> unit_stream GV draws -> winv lm P (w_arr s) -> safe_pos P x y ->
  particle_stepper lm P draws [(x, y)] [t] vars s = Ok (ni, tts, upd, s') ->
  length ni = 1%nat /\ length tts = 1%nat /\ winv lm P (w_arr s') /\ opt_ok P vars ni upd /\
  outcome (GV:=GV) lm P (x, y) t (nth 0 ni (0, 0)) (nth 0 tts n0).
Proof.
  intros FO U WI S E.
  destruct (stepper_spec lm P draws [(x, y)] [t] vars s ni tts upd s' FO U WI) as (LN & LT & W & OO & OUT); try assumption; try reflexivity.
  - intros xy [<-|[]]. exact S.
  - split; [exact LN|]. split; [exact LT|]. split; [exact W|]. split; [exact OO|]. apply (OUT 0%nat). simpl. lia.
Qed.
Lemma row_step lm (P : pobj T) draws r s ni tts upd s' o' t' p :
  field_ok lm P -> unit_stream GV draws -> winv lm P (w_arr s) -> base_row P r -> legit_row P r ->
  particle_stepper lm P draws [(xat r (last_ix r), yat r (last_ix r))] [tat r (last_ix r)] (map fst (r_o r)) s = Ok (ni, tts, upd, s') ->
  py_nth ni 0 = Ok p -> p <> (xat r (last_ix r), yat r (last_ix r)) -> py_nth tts 0 = Ok t' ->
  mapM (fun kv => match dget (fst kv) upd with
                  | Some vs => v <- py_nth vs 0 ;; Ok (fst kv, snd kv ++ [v])
                  | None => Err KeyError end) (r_o r) = Ok o' ->
  extend1 GV lm P r {| r_x := r_x r ++ [fst p]; r_y := r_y r ++ [snd p]; r_t := r_t r ++ [t']; r_o := o' |}.
Proof.
  intros FO U WI (R & S) LG E1 E2 NE E3 E4.
  destruct (stepper1 lm P draws _ _ _ _ _ _ _ _ _ FO U WI S E1) as (LN & LT & _ & OO & OUT).
  assert (EP : nth 0 ni (0, 0) = p). { pose proof (py_nth_ok ni 0 (0, 0) ltac:(simpl in LN; lia)) as E. change (Z.of_nat 0) with 0 in E. congruence. }
  assert (ET : nth 0 tts n0 = t'). { pose proof (py_nth_ok tts 0 n0 ltac:(simpl in LT; lia)) as E. change (Z.of_nat 0) with 0 in E. congruence. }
  rewrite EP, ET in OUT. cbn [fst snd] in OUT.
  destruct OUT as [(C & _)|D]; [congruence|].
  exists (fst p), (snd p), t'. split; [exact D|]. cbn [r_x r_y r_t r_o]. repeat split; try reflexivity.
  rewrite (mapM_map _ (fun kv => (fst kv, snd kv ++ [field_value P (fst kv) (fst p) (snd p)]))) in E4; [congruence|].
  intros kv I. assert (Iv : In (fst kv) (map fst (r_o r))) by (apply in_map, I).
  destruct (OO _ Iv (LG _ Iv)) as (vs & -> & Lv & Nv). change 0 with (Z.of_nat 0). rewrite (py_nth_ok vs 0 None) by (simpl in LN; lia).
  cbn [bind]. rewrite (Nv 0%nat) by (simpl in LN; lia). rewrite EP. reflexivity.
Qed.
Lemma row_stay lm (P : pobj T) draws r s ni tts upd s' :
  field_ok lm P -> unit_stream GV draws -> winv lm P (w_arr s) -> base_row P r ->
  particle_stepper lm P draws [(xat r (last_ix r), yat r (last_ix r))] [tat r (last_ix r)] (map fst (r_o r)) s = Ok (ni, tts, upd, s') ->
  py_nth ni 0 = Ok (xat r (last_ix r), yat r (last_ix r)) -> may_stay GV lm P (xat r (last_ix r)) (yat r (last_ix r)).
Proof.
  intros FO U WI (R & S) E1 E2.
  destruct (stepper1 lm P draws _ _ _ _ _ _ _ _ _ FO U WI S E1) as (LN & LT & _ & _ & OUT).
  assert (EP : nth 0 ni (0, 0) = (xat r (last_ix r), yat r (last_ix r))). { pose proof (py_nth_ok ni 0 (0, 0) ltac:(simpl in LN; lia)) as E. change (Z.of_nat 0) with 0 in E. congruence. }
  rewrite EP in OUT.
  destruct OUT as [(_ & _ & M)|D]; [exact M|]. exfalso.
  destruct D as (k & u & w0 & _ & _ & _ & _ & _ & _ & _ & _ & _ & ND & _). apply ND. reflexivity.
Qed.

Lemma lasts (r : prow T) : row_rect r ->
  py_last (r_x r) = Ok (xat r (last_ix r)) /\ py_last (r_y r) = Ok (yat r (last_ix r)) /\ py_last (r_t r) = Ok (tat r (last_ix r)).
Proof.
  intros R. rewrite (last_ix_y r R), (last_ix_t r R), last_ix_x. destruct R as (A & B & C & _).
  repeat split; apply py_last_lastd; lia.
Qed.

(** the loop; m records were appended before *)
Lemma run_row_spec lm (P : pobj T) draws target max_iter : field_ok lm P -> unit_stream GV draws ->
  forall fuel r est c s r' s' over m,
  winv lm P (w_arr s) -> base_row P r -> legit_row P r -> est = next_dt m r ->
  c = Z.of_nat m + 1 -> (m = 0%nat \/ c <= max_iter) ->
  run_row fuel lm P draws target max_iter r est c s = Ok (r', s', over) ->
  exists n, extends GV lm P n r r' /\ winv lm P (w_arr s') /\
    Z.of_nat (m + n) <= Z.max 1 max_iter /\ stopped GV lm P target max_iter (m + n) r' /\
    (over = true <-> (Z.of_nat (m + n) = Z.max 1 max_iter /\ (0 < n)%nat)) .
Proof.
  intros FO U. induction fuel as [|fuel IH]; intros r est c s r' s' over m WI BR LG ES CM MI H; [discriminate|].
  cbn [run_row] in H. destruct (lasts r (proj1 BR)) as (LX & LY & LT). rewrite LX, LY, LT in H. cbn [bind] in H.
  destruct (nleb _ _) eqn:GO in H.
  - apply bind_ok in H as (? & _ & H). apply bind_ok in H as ((((ni & tts) & upd) & s1) & E1 & H). cbv beta iota in H.
    apply bind_ok in H as (p & E2 & H).
    destruct (stepper1 lm P draws _ _ _ _ _ _ _ _ _ FO U WI (proj2 BR) E1) as (_ & _ & WI1 & _ & _).
    destruct (pair_eqb p _) eqn:PE; cbn [negb] in H.
    + injection H as <- <- <-. exists 0%nat. rewrite Nat.add_0_r. split; [constructor|]. split; [exact WI1|]. split; [lia|].
      split; [|split; [discriminate | intros (_ & C); lia]]. right; left. apply pair_eqb_true in PE. subst p. exact (row_stay lm P draws r s ni tts upd s1 FO U WI BR E1 E2).
    + apply pair_eqb_false in PE. apply bind_ok in H as (t' & E3 & H). apply bind_ok in H as (o' & E4 & H). cbv zeta in H.
      pose proof (row_step lm P draws r s ni tts upd s1 o' t' p FO U WI BR LG E1 E2 PE E3 E4) as EX.
      set (r1 := {| r_x := _ |}) in *.
      assert (BR1 : base_row P r1) by (eapply base_row_extend1; eauto).
      destruct (max_iter <? c + 1) eqn:MX.
      * injection H as <- <- <-. apply Z.ltb_lt in MX. exists 1%nat. split; [apply extends_one, EX|]. split; [exact WI1|].
        assert (Z.of_nat (m + 1) = Z.max 1 max_iter) by lia. split; [lia|].
        split; [left; assumption|]. split; [lia | reflexivity].
      * apply Z.ltb_ge in MX.
        assert (LG1 : legit_row P r1).
        { intros v I. apply LG. destruct (extend1_lengths _ _ _ _ (proj1 BR) EX) as (_ & _ & <-). exact I. }
        assert (ES1 : py_max ntenth (nsub t' (tat r (last_ix r))) = next_dt (S m) r1).
        { cbn [next_dt]. f_equal. f_equal.
          - rewrite (last_ix_t r1 (proj1 BR1)). cbn [r_t r1]. symmetry. apply lastd_app.
          - symmetry. eapply prev_t; [apply BR | exact EX]. }
        destruct (IH r1 _ (c + 1) s1 r' s' over (S m) WI1 BR1 LG1 ES1 ltac:(lia) ltac:(lia) H) as (n & EN & WI' & LE & ST & OV).
        exists (S n). replace (m + S n)%nat with (S m + n)%nat by lia. replace (S n) with (n + 1)%nat at 1 by lia.
           split; [eapply extends_trans; [apply extends_one, EX | exact EN]|]. split; [exact WI'|]. split; [exact LE|]. split; [exact ST|].
           rewrite OV. split; [intros (A & B); split; [exact A | lia] | intros (A & B); split; [exact A|]].
           destruct n; [|lia]. exfalso. lia.
  - injection H as <- <- <-. exists 0%nat. rewrite Nat.add_0_r. split; [constructor|]. split; [exact WI|]. split; [lia|].
    split; [|split; [discriminate | intros (_ & C); lia]]. right; right. unfold goes_on. rewrite <- ES. rewrite GO. discriminate.
Qed.

Lemma py_nth_m2 {A} (l : list A) d : (1 < length l)%nat -> py_nth l (-2) = Ok (nth (length l - 2) l d).
Proof.
  intros H. unfold py_nth, norm_ix.
  replace ((0 <=? -2) && (-2 <? Z.of_nat (length l))) with false by reflexivity.
  destruct (Z.leb_spec (- Z.of_nat (length l)) (-2)); [|lia]. cbn [andb Z.ltb Z.compare].
  replace (Z.to_nat (-2 + Z.of_nat (length l))) with (length l - 2)%nat by lia.
  rewrite (nth_error_nth' l d) by lia. reflexivity.
Qed.
Lemma run_particle_spec lm (P : pobj T) draws target max_iter r s r' s' over : field_ok lm P -> unit_stream GV draws ->
  winv lm P (w_arr s) -> base_row P r -> legit_row P r ->
  run_particle lm P draws target max_iter r s = Ok (r', s', over) ->
  exists n, extends GV lm P n r r' /\ winv lm P (w_arr s') /\
    Z.of_nat n <= Z.max 1 max_iter /\ stopped GV lm P target max_iter n r' /\
    (over = true <-> Z.of_nat n = Z.max 1 max_iter).
Proof.
  intros FO U WI BR LG H. unfold run_particle in H. apply bind_ok in H as (est & EE & H).
  destruct (lasts r (proj1 BR)) as (LX & LY & LT). rewrite LX, LY in H. cbn [bind] in H.
  destruct (near_edge (o_ct P) _ _) eqn:NE.
  - injection H as <- <- <-. exists 0%nat. split; [constructor|]. split; [exact WI|]. split; [lia|].
    split; [|split; [discriminate | lia]]. right; left.
    destruct BR as (R & [S|(Hx & Hy)]); [left; exact S|]. right; left.
    apply near_edge_spec; [apply FO | exact Hx | exact Hy | exact NE].
  - assert (ES : est = next_dt 0 r).
    { cbn [next_dt]. destruct (proj1 BR) as (A & B & C & _). unfold py_last in LT.
      destruct (Z.ltb_spec 1 (Z.of_nat (length (r_t r)))).
      - rewrite (proj2 (Nat.ltb_lt _ _)) by lia. rewrite LT in EE. cbn [bind] in EE. rewrite (py_nth_m2 _ n0) in EE by lia. cbn [bind] in EE.
        injection EE as <-. f_equal. unfold tat, last_ix. rewrite <- C. replace (length (r_t r) - 1 - 1)%nat with (length (r_t r) - 2)%nat by lia. reflexivity.
      - rewrite (proj2 (Nat.ltb_ge _ _)) by lia. congruence. }
    destruct (run_row_spec lm P draws target max_iter FO U _ r est 1 s r' s' over 0%nat WI BR LG ES eq_refl (or_introl eq_refl) H)
      as (n & EN & WI' & LE & ST & OV). cbn [Nat.add] in *. exists n. repeat (split; [assumption|]).
    rewrite OV. split; [intros (A & _); exact A | intros A; split; [exact A | lia]].
Qed.

(** walks as tables of rows *)
Lemma NoDup_tvstep vs : forall acc, NoDup acc -> NoDup (fold_left tvstep vs acc).
Proof.
  induction vs as [|v vs IH]; intros acc H; cbn [fold_left]; [exact H|]. apply IH. unfold tvstep.
  destruct (str_in v base_vars); cbn [orb]; [exact H|]. destruct (str_in v acc) eqn:E; [exact H|].
  apply NoDup_rev in H. rewrite <- (rev_involutive (acc ++ [v])). apply NoDup_rev. rewrite rev_app_distr. cbn [rev app].
  constructor; [|exact H]. intros C. apply in_rev in C. apply str_in_spec in C. congruence.
Qed.
Lemma NoDup_tvars (P : pobj T) : NoDup (tvars P).
Proof. apply (NoDup_tvstep (o_vars P) []). constructor. Qed.
Lemma canon {A} (o : list (string * list A)) : NoDup (map fst o) -> o = map (fun v => (v, dflt (dget v o) [])) (map fst o).
Proof.
  induction o as [|(k, l) o IH]; intros H; [reflexivity|]. cbn [map fst] in *. inversion H as [|? ? NI ND]; subst.
  f_equal; [cbn [dget fst snd]; rewrite String.eqb_refl; reflexivity|].
  rewrite (IH ND) at 1. apply map_ext_in. intros v I. f_equal. cbn [dget fst].
  destruct (String.eqb_spec v k) as [->|]; [contradiction | reflexivity].
Qed.
Lemma dget_mapkv {A B} (h : string -> A -> B) o v :
  dget v (map (fun kv => (fst kv, h (fst kv) (snd kv))) o) = match dget v o with Some a => Some (h v a) | None => None end.
Proof.
  induction o as [|(k, l) o IH]; [reflexivity|]. cbn [map dget fst snd].
  destruct (String.eqb_spec v k) as [->|]; [reflexivity | exact IH].
Qed.

Lemma get_row_spec (P : pobj T) (wd : walk T) ov p : let w := {| xinds := xinds wd; yinds := yinds wd; times := times wd; opts := ov |} in
  map fst ov = tvars P -> shaped (tvars P) w -> (p < count w)%nat ->
  get_row wd ov (Z.of_nat p) = Ok (row (tvars P) w p).
Proof.
  intros w KE (LY & LT & LO) Hp. unfold get_row.
  rewrite (py_nth_ok (xinds wd) p []) by exact Hp. rewrite (py_nth_ok (yinds wd) p []) by (cbn in LY; rewrite LY; exact Hp).
  rewrite (py_nth_ok (times wd) p []) by (cbn in LT; rewrite LT; exact Hp). cbn [bind].
  assert (CA : ov = map (fun v => (v, dflt (dget v ov) [])) (tvars P)) by (rewrite <- KE; apply canon; rewrite KE; apply NoDup_tvars).
  rewrite (mapM_map _ (fun kv => (fst kv, nth p (snd kv) []))).
  - cbn [bind]. unfold row, w. cbn [xinds yinds times opts]. f_equal. f_equal. rewrite CA at 1. rewrite map_map. reflexivity.
  - intros kv I. rewrite CA in I. apply in_map_iff in I as (v & <- & I). cbn [fst snd].
    destruct (LO v I) as (l & El & Ll). cbn [opts w] in El. rewrite El. cbn [dflt]. rewrite (py_nth_ok l p []) by (rewrite Ll; exact Hp). reflexivity.
Qed.

Lemma put_row_spec (P : pobj T) (wd : walk T) ov p r' g : let w := {| xinds := xinds wd; yinds := yinds wd; times := times wd; opts := ov |} in
  let w' := {| xinds := upd_nth p (r_x r') (xinds wd); yinds := upd_nth p (r_y r') (yinds wd);
               times := upd_nth p (r_t r') (times wd); opts := set_opts p r' ov |} in
  map fst ov = tvars P -> shaped (tvars P) w -> (p < count w)%nat -> r_o r' = map (fun v => (v, g v)) (tvars P) ->
  count w' = count w /\ map fst (opts w') = tvars P /\ shaped (tvars P) w' /\
  row (tvars P) w' p = r' /\ forall q, q <> p -> row (tvars P) w' q = row (tvars P) w q.
Proof.
  intros w w' KE (LY & LT & LO) Hp RO.
  assert (DG : forall v, In v (tvars P) -> dget v (set_opts p r' ov) = Some (upd_nth p (g v) (dflt (dget v ov) []))).
  { intros v I. unfold set_opts. rewrite (dget_mapkv (fun k l => match dget k (r_o r') with Some l0 => upd_nth p l0 l | None => l end)).
    destruct (LO v I) as (l & El & Ll). cbn [opts w] in El. rewrite El, RO, dget_map by exact I. reflexivity. }
  assert (OL : forall v, In v (tvars P) -> (p < length (dflt (dget v ov) []))%nat).
  { intros v I. destruct (LO v I) as (l & El & Ll). cbn [opts w] in El. rewrite El. cbn [dflt]. rewrite Ll. exact Hp. }
  cbn in LY, LT.
  split; [unfold count, w', w; cbn [xinds]; apply upd_nth_length|].
  split; [unfold w'; cbn [opts]; unfold set_opts; rewrite map_map; exact KE|].
  split.
  { unfold shaped, count, w'; cbn [xinds yinds times opts]. rewrite !upd_nth_length. split; [exact LY|]. split; [exact LT|].
    intros v I. rewrite DG by exact I. eexists. split; [reflexivity|]. rewrite upd_nth_length.
    destruct (LO v I) as (l & El & Ll). cbn [opts w] in El. rewrite El. exact Ll. }
  split.
  - unfold row, w'; cbn [xinds yinds times opts]. rewrite !upd_nth_same by (first [exact Hp | rewrite LY; exact Hp | rewrite LT; exact Hp]).
    replace (map _ (tvars P)) with (r_o r'); [destruct r'; reflexivity|]. rewrite RO. apply map_ext_in. intros v I. f_equal.
    rewrite DG by exact I. cbn [dflt]. rewrite upd_nth_same by (apply OL, I). reflexivity.
  - intros q NQ. unfold row, w', w; cbn [xinds yinds times opts]. rewrite !upd_nth_other by congruence. f_equal.
    apply map_ext_in. intros v I. f_equal. rewrite DG by exact I. cbn [dflt]. rewrite upd_nth_other by congruence. reflexivity.
Qed.

Lemma run_particles_spec lm (P : pobj T) draws target max_iter : field_ok lm P -> unit_stream GV draws -> vars_ok P ->
  forall idx wd ov s warn wd' ov' s' warn',
  let w := {| xinds := xinds wd; yinds := yinds wd; times := times wd; opts := ov |} in
  let w' := {| xinds := xinds wd'; yinds := yinds wd'; times := times wd'; opts := ov' |} in
  winv lm P (w_arr s) -> walk_ok P w -> NoDup idx -> (forall i, In i idx -> 0 <= i < Z.of_nat (count w)) ->
  run_particles lm P draws target max_iter idx wd ov s warn = Ok (wd', ov', s', warn') ->
  winv lm P (w_arr s') /\ count w' = count w /\ walk_ok P w' /\
  (forall p, (p < count w)%nat -> exists n, extends GV lm P n (row (tvars P) w p) (row (tvars P) w' p) /\
      (~ In (Z.of_nat p) idx -> n = 0%nat) /\
      (In (Z.of_nat p) idx -> Z.of_nat n <= Z.max 1 max_iter /\ stopped GV lm P target max_iter n (row (tvars P) w' p))) /\
  (idx = [] -> warn' = warn) /\
  (forall pre i, idx = pre ++ [i] -> exists n, extends GV lm P n (row (tvars P) w (Z.to_nat i)) (row (tvars P) w' (Z.to_nat i)) /\
      warn' = Some (if Z.of_nat n =? Z.max 1 max_iter then [i] else [])).
Proof.
  intros FO U VO. induction idx as [|ii idx IH]; intros wd ov s warn wd' ov' s' warn' w w' WI WO ND RG H; cbn [run_particles] in H.
  - injection H as <- <- <- <-. split; [exact WI|]. split; [reflexivity|]. split; [exact WO|]. split.
    + intros p Hp. exists 0%nat. split; [constructor|]. split; [reflexivity | intros []].
    + split; [reflexivity|]. intros pre i E. destruct pre; discriminate.
  - assert (HI : 0 <= ii < Z.of_nat (count w)) by (apply RG; left; reflexivity).
    set (p := Z.to_nat ii) in *. assert (EP : ii = Z.of_nat p) by (unfold p; lia).
    assert (Hp : (p < count w)%nat) by lia.
    pose proof WO as (KE & SH & RO). cbn [opts w] in KE.
    rewrite EP in H at 1. rewrite (get_row_spec P wd ov p KE SH Hp) in H. cbn [bind] in H. fold w in H.
    set (r := row (tvars P) w p) in *.
    apply bind_ok in H as (((r' & s1) & over) & E1 & H). cbv beta iota zeta in H.
    assert (LG : legit_row P r) by (intros v I; apply VO; unfold r, row in I; cbn [r_o] in I; rewrite map_map, map_id in I; exact I).
    destruct (run_particle_spec lm P draws target max_iter r s r' s1 over FO U WI (RO p Hp) LG E1) as (n & EN & WI1 & LE & ST & OV).
    destruct (extends_dget lm P n r r' (tvars P) (fun v => nth p (dflt (dget v ov) []) []) EN eq_refl) as (g & RG').
    destruct (put_row_spec P wd ov p r' g KE SH Hp RG') as (CT & KE1 & SH1 & RW & RWO).
    set (w1 := {| xinds := upd_nth p (r_x r') (xinds wd); yinds := upd_nth p (r_y r') (yinds wd);
               times := upd_nth p (r_t r') (times wd); opts := set_opts p r' ov |}) in *.
    fold w in CT, RWO. pose proof (proj1 (NoDup_cons_iff _ _) ND) as (NI & ND').
    assert (BR' : base_row P r') by (eapply base_row_extends; eauto).
    assert (WO1 : walk_ok P w1).
    { split; [exact KE1|]. split; [exact SH1|]. intros q Hq.
      destruct (Nat.eq_dec q p) as [->|NQ]; [rewrite RW; exact BR'|]. rewrite RWO by exact NQ. apply RO. lia. }
    assert (RG1 : forall i, In i idx -> 0 <= i < Z.of_nat (count w1)) by (intros i I; rewrite CT; apply RG; right; exact I).
    match type of H with run_particles _ _ _ _ _ _ ?wd1 _ _ ?wn1 = _ =>
      pose proof (IH wd1 (set_opts p r' ov) s1 wn1 wd' ov' s' warn' WI1 WO1 ND' RG1 H) as IH1 end. cbn [xinds yinds times opts] in IH1. fold w1 w' in IH1.
    destruct IH1 as (WI' & CT' & WO' & RR & WN & WL).
    split; [exact WI'|]. split; [congruence|]. split; [exact WO'|]. split; [|split].
      * intros q Hq. destruct (RR q ltac:(lia)) as (n2 & E2 & N2 & S2). destruct (Nat.eq_dec q p) as [->|NQ].
        -- specialize (N2 ltac:(rewrite <- EP; exact NI)). subst n2. rewrite (extends_0 _ _ _ _ E2), RW. exists n. split; [exact EN|].
           split; [intros C; exfalso; apply C; left; auto|]. intros _. split; [exact LE | exact ST].
        -- rewrite RWO in E2 by exact NQ. exists n2. split; [exact E2|]. split; [intros C; apply N2; intros C2; apply C; right; exact C2|].
           intros [C|C]; [exfalso; apply NQ; lia | apply S2, C].
      * discriminate.
      * intros pre i E. destruct pre as [|a pre]; cbn [app] in E; injection E as E0 E.
        -- subst i. subst idx. fold p. rewrite (WN eq_refl). destruct (RR p ltac:(lia)) as (n2 & E2 & N2 & _).
           specialize (N2 ltac:(intros [])). subst n2. rewrite (extends_0 _ _ _ _ E2), RW. exists n. split; [exact EN|].
           destruct (Z.eqb_spec (Z.of_nat n) (Z.max 1 max_iter)) as [Q|Q]; [rewrite (proj2 OV Q); reflexivity|].
           destruct over; [exfalso; apply Q, OV; reflexivity | reflexivity].
        -- destruct (WL pre i E) as (n2 & E2 & W2). exists n2. split; [|exact W2].
           assert (NQ : Z.to_nat i <> p). { assert (I : In i idx) by (rewrite E; apply in_or_app; simpl; auto). intros C. apply NI.
             replace ii with i; [exact I|]. assert (0 <= i) by (apply RG; right; exact I). lia. }
           rewrite RWO in E2 by exact NQ. exact E2.
Qed.

Lemma zrange_NoDup a b : NoDup (zrange a b).
Proof.
  apply (NoDup_nth _ 0). intros i j Hi Hj E. rewrite zrange_length in *. rewrite !zrange_nth in E by assumption. lia.
Qed.
Lemma zrange_snoc b : 0 < b -> zrange 0 b = zrange 0 (b - 1) ++ [b - 1].
Proof.
  intros H. apply (nth_ext _ _ 0 0).
  - rewrite app_length, !zrange_length. simpl. lia.
  - intros i Hi. rewrite zrange_length in Hi. rewrite zrange_nth by exact Hi.
    destruct (Nat.eq_dec i (Z.to_nat (b - 1))) as [->|].
    + rewrite app_nth2 by (rewrite zrange_length; lia). rewrite zrange_length. replace (_ - _)%nat with 0%nat by lia. cbn [nth]. lia.
    + rewrite app_nth1 by (rewrite zrange_length; lia). rewrite zrange_nth by lia. reflexivity.
Qed.

Lemma run_target_spec lm (P : pobj T) draws target max_iter s w w' wl s' :
  field_ok lm P -> unit_stream GV draws -> winv lm P (w_arr (s_wst s)) -> vars_ok P ->
  s_walk s = Some w -> s_np s = Z.of_nat (count w) -> walk_ok P w ->
  run_target lm P draws target max_iter s = Ok (w', wl, s') ->
  (0 < count w)%nat /\ s_walk s' = Some w' /\ s_np s' = Z.of_nat (count w) /\ count w' = count w /\ winv lm P (w_arr (s_wst s')) /\
  walk_ok P w' /\
  (forall p, (p < count w)%nat -> exists n, extends GV lm P n (row (tvars P) w p) (row (tvars P) w' p) /\
     Z.of_nat n <= Z.max 1 max_iter /\ stopped GV lm P target max_iter n (row (tvars P) w' p)) /\
  (exists n, extends GV lm P n (row (tvars P) w (count w - 1)) (row (tvars P) w' (count w - 1)) /\
      wl = if Z.of_nat n =? Z.max 1 max_iter then [Z.of_nat (count w) - 1] else []).
Proof.
  intros FO U WI VO SW NP WO H. pose proof WO as (KE & SH & RO). unfold run_target in H. rewrite SW, NP in H.
  replace (if Z.of_nat (count w) =? 0 then Z.of_nat (length (xinds w)) else Z.of_nat (count w)) with (Z.of_nat (count w)) in H
    by (unfold count; destruct (Z.of_nat (length (xinds w)) =? 0); reflexivity).
  apply bind_ok in H as (? & _ & H). apply bind_ok in H as (? & _ & H). apply bind_ok in H as (? & _ & H).
  rewrite (read_opts_shaped P _ w SH) in H. apply bind_ok in H as (? & _ & H).
  set (ov := map (fun v => (v, dflt (dget v (opts w)) [])) (tvars P)) in H.
  assert (EO : ov = opts w) by (unfold ov; rewrite <- KE; symmetry; apply canon; rewrite KE; apply NoDup_tvars).
  rewrite EO in H. apply bind_ok in H as ((((wd' & ov') & ws) & wn) & E & H). cbv beta iota in H.
  assert (EW : {| xinds := xinds w; yinds := yinds w; times := times w; opts := opts w |} = w) by (destruct w; reflexivity).
  assert (RS := run_particles_spec lm P draws target max_iter FO U VO (zrange 0 (Z.of_nat (count w))) w (opts w) (s_wst s) None wd' ov' ws wn WI).
  cbv zeta in RS. rewrite EW in RS.
  destruct (RS WO (zrange_NoDup _ _) (fun i I => proj1 (zrange_In _ _ _) I) E) as (WI' & CT & WO' & RR & WN & WL). clear RS.
  destruct wn as [wl'|]; [|discriminate]. injection H as <- <- <-. cbn [s_walk s_np s_wst].
  assert (CP : (0 < count w)%nat).
  { destruct (count w) eqn:C; [|lia]. discriminate (WN eq_refl). }
  split; [exact CP|]. split; [reflexivity|]. split; [reflexivity|]. split; [exact CT|]. split; [exact WI'|]. split; [exact WO'|]. split.
  - intros p Hp. destruct (RR p Hp) as (n & EN & _ & S). exists n. split; [exact EN|]. apply S. apply zrange_In. lia.
  - destruct (WL _ _ (zrange_snoc (Z.of_nat (count w)) ltac:(lia))) as (n & EN & W).
    replace (Z.to_nat (Z.of_nat (count w) - 1)) with (count w - 1)%nat in EN by lia. exists n. split; [exact EN|].
    injection W as ->. reflexivity.
Qed.
End S.

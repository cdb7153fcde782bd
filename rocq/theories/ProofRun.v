(** run_iteration without target time: effect on every particle's history. *)
From Coq Require Import ZArith Bool String List Lia.
From Verif Require Import Num Py NumFacts Walker ParticleTrack SpecWeights SpecPick SpecWalk
  ProofWeights ProofWeightLaws ProofPick ProofStep ProofStepper.
Import ListNotations.
Open Scope Z_scope.
Open Scope res_scope.

Section Lists.
Lemma nth_map_d {A B} (f : A -> B) l i da db : (i < length l)%nat -> nth i (map f l) db = f (nth i l da).
Proof. intros H. rewrite (nth_indep _ db (f da)) by (rewrite map_length; exact H). apply map_nth. Qed.
Lemma append_where_length {A} m (v : list A) rows : length (append_where m v rows) = length rows.
Proof. revert m v. induction rows; intros [|? m] [|? v]; simpl; auto. Qed.
Lemma append_where_nth {A} m (v : list A) rows d p : length m = length rows -> length v = length rows ->
  (p < length rows)%nat ->
  nth p (append_where m v rows) [] = if nth p m false then nth p rows [] ++ [nth p v d] else nth p rows [].
Proof.
  revert m v p. induction rows; intros [|? m] [|? v] p; simpl; intros L1 L2 Hp; try lia.
  destruct p; [destruct b; reflexivity|]. apply IHrows; lia.
Qed.
Definition lastd {A} (d : A) (l : list A) : A := nth (length l - 1) l d.
Lemma lastd_app {A} (d a : A) l : lastd d (l ++ [a]) = a.
Proof. unfold lastd. rewrite app_length. simpl. replace (length l + 1 - 1)%nat with (length l) by lia. apply nth_middle. Qed.
Lemma py_last_lastd {A} (d : A) l : (0 < length l)%nat -> py_last l = Ok (lastd d l).
Proof. intros H. apply py_last_ok. destruct l; [simpl in H; lia | discriminate]. Qed.
Lemma mapM_last {A} (d : A) (l : list (list A)) n : n = length l -> (forall r, In r l -> (0 < length r)%nat) ->
  mapM (last_of l) (zrange 0 (Z.of_nat n)) = Ok (map (lastd d) l).
Proof.
  intros -> H.
  rewrite (mapM_map _ (fun i => lastd d (nth (Z.to_nat i) l []))).
  - f_equal. apply (nth_ext _ _ d d).
    + rewrite !map_length, zrange_length. lia.
    + intros i Hi. rewrite map_length, zrange_length in Hi. 
      rewrite (nth_map_d _ _ i 0) by (rewrite zrange_length; lia). rewrite zrange_nth by lia.
      replace (Z.to_nat (0 + Z.of_nat i)) with i by lia. rewrite (nth_map_d (lastd d) l i []) by lia. reflexivity.
  - intros i Hi. apply zrange_In in Hi. unfold last_of.
    replace i with (Z.of_nat (Z.to_nat i)) by lia. rewrite (py_nth_ok l (Z.to_nat i) []) by lia. cbn [bind].
    rewrite Nat2Z.id. apply py_last_lastd, H, nth_In. lia.
Qed.
Lemma dget_map {A} (f : string -> A) vs v : In v vs -> dget v (map (fun v => (v, f v)) vs) = Some (f v).
Proof.
  induction vs as [|w vs IH]; simpl; [contradiction|]. intros H. destruct (String.eqb_spec v w) as [->|NE]; [reflexivity|].
  apply IH. destruct H; [congruence | assumption].
Qed.
Lemma dget_map_None {A} (f : string -> A) vs v : ~ In v vs -> dget v (map (fun v => (v, f v)) vs) = None.
Proof.
  induction vs as [|w vs IH]; simpl; [reflexivity|]. intros H. destruct (String.eqb_spec v w) as [->|NE]; [exfalso; auto|].
  apply IH. auto.
Qed.
Lemma str_in_spec v l : str_in v l = true <-> In v l.
Proof.
  unfold str_in. rewrite existsb_exists. split.
  - intros (w & I & E). apply String.eqb_eq in E. subst. exact I.
  - intros I. exists v. split; [exact I | apply String.eqb_refl].
Qed.
Lemma dset_map_in {A} (f : string -> A) vs v : In v vs -> dset v (f v) (map (fun v => (v, f v)) vs) = map (fun v => (v, f v)) vs.
Proof.
  induction vs as [|w vs IH]; simpl; [contradiction|]. intros H.
  destruct (String.eqb_spec v w) as [->|NE]; [reflexivity|]. f_equal. apply IH. destruct H; [congruence | assumption].
Qed.
Lemma dset_map_new {A} (f : string -> A) vs v : ~ In v vs ->
  dset v (f v) (map (fun v => (v, f v)) vs) = map (fun v => (v, f v)) (vs ++ [v]).
Proof.
  induction vs as [|w vs IH]; simpl; [reflexivity|]. intros H.
  destruct (String.eqb_spec v w) as [->|NE]; [exfalso; auto|]. f_equal. apply IH. auto.
Qed.
End Lists.

Section S.
Context {T : Type} {N : Num T} {NL : NumLaws T} {GV : T -> Prop}.

Definition tvstep (acc : list string) (v : string) : list string :=
  if str_in v base_vars || str_in v acc then acc else (acc ++ [v]).
Lemma tvars_fold (P : pobj T) : tvars P = fold_left tvstep (o_vars P) [].
Proof. reflexivity. Qed.
Lemma tvstep_fold_keep vs : forall acc v, In v acc -> In v (fold_left tvstep vs acc).
Proof.
  induction vs as [|w vs IH]; simpl; intros acc v H; [exact H|]. apply IH. unfold tvstep.
  destruct (_ || _); [exact H | apply in_or_app; auto].
Qed.
Lemma tvstep_fold_in vs : forall acc v, In v (fold_left tvstep vs acc) <-> In v acc \/ (In v vs /\ str_in v base_vars = false).
Proof.
  induction vs as [|w vs IH]; cbn [fold_left In]; intros acc v; [tauto|]. rewrite IH. unfold tvstep.
  destruct (str_in w base_vars) eqn:B; cbn [orb].
  - split; [tauto|]. intros [H|([E|H] & H2)]; auto. subst w. congruence.
  - destruct (str_in w acc) eqn:A; cbn [orb].
    + apply str_in_spec in A. split; [tauto|]. intros [H|([E|H] & H2)]; auto. subst w. auto.
    + split.
      * intros [H|H]; [|tauto]. apply in_app_or in H as [H|[E|[]]]; auto. subst w. auto.
      * intros [H|([E|H] & H2)]; auto; left; apply in_or_app; simpl; auto.
Qed.
Lemma tvars_in (P : pobj T) v : In v (tvars P) <-> In v (o_vars P) /\ str_in v base_vars = false.
Proof. rewrite tvars_fold, tvstep_fold_in. cbn [In]. tauto. Qed.

Lemma read_opts_eq np vs (o : list (string * list (list (option T)))) : forall kvs,
  let f := fun v => match dget v o with Some l => l | None => repeat [None] (Z.to_nat np) end in
  read_opts np vs o (map (fun v => (v, f v)) kvs) = map (fun v => (v, f v)) (fold_left tvstep vs kvs) :> list (string * list (list (option T))).
Proof.
  induction vs as [|v vs IH]; intros kvs f; cbn [read_opts fold_left]; [reflexivity|]. unfold tvstep at 2.
  destruct (str_in v base_vars); cbn [orb]; [apply IH|].
  change (match dget v o with Some l => l | None => repeat [None] (Z.to_nat np) end) with (f v).
  destruct (str_in v kvs) eqn:A; cbn [orb].
  - apply str_in_spec in A. rewrite (dset_map_in f) by exact A. apply IH.
  - rewrite (dset_map_new f); [apply IH|]. intros C. apply str_in_spec in C. congruence.
Qed.
Lemma read_opts_shaped (P : pobj T) np (w : walk T) : shaped (tvars P) w ->
  read_opts np (o_vars P) (opts w) [] = map (fun v => (v, dflt (dget v (opts w)) [])) (tvars P).
Proof.
  intros (_ & _ & H). pose proof (read_opts_eq np (o_vars P) (opts w) []) as E. cbv zeta in E. cbn [map] in E.
  rewrite E, <- tvars_fold. apply map_ext_in. intros v I. destruct (H v I) as (l & -> & _). reflexivity.
Qed.

(** rows of a shaped walk *)
Definition base_row (P : pobj T) (r : prow T) : Prop :=
  row_rect r /\ safe_pos P (xat r (last_ix r)) (yat r (last_ix r)).
Definition walk_ok (P : pobj T) (w : walk T) : Prop :=
  map fst (opts w) = tvars P /\ shaped (tvars P) w /\
  forall p, (p < count w)%nat -> base_row P (row (tvars P) w p).

Lemma last_ix_y (r : prow T) : row_rect r -> yat r (last_ix r) = lastd 0 (r_y r).
Proof. intros (_ & E & _). unfold yat, last_ix, lastd. rewrite E. reflexivity. Qed.
Lemma last_ix_t (r : prow T) : row_rect r -> tat r (last_ix r) = lastd n0 (r_t r).
Proof. intros (_ & _ & E & _). unfold tat, last_ix, lastd. rewrite E. reflexivity. Qed.
Lemma last_ix_x (r : prow T) : xat r (last_ix r) = lastd 0 (r_x r).
Proof. reflexivity. Qed.

Lemma row_rect_lengths vars (w : walk T) p : row_rect (row vars w p) ->
  (0 < length (nth p (xinds w) []))%nat /\ length (nth p (yinds w) []) = length (nth p (xinds w) []) /\
  length (nth p (times w) []) = length (nth p (xinds w) []) /\
  forall v, In v vars -> length (nth p (dflt (dget v (opts w)) []) []) = length (nth p (xinds w) []).
Proof.
  intros (A & B & C & D). repeat split; try assumption. intros v I.
  specialize (D (v, nth p (dflt (dget v (opts w)) []) [])). apply D.
  unfold row; cbn [r_o]. apply in_map_iff. exists v. auto.
Qed.

Lemma run_step_spec lm (P : pobj T) draws s w w' s' :
  field_ok lm P -> unit_stream GV draws -> winv lm P (w_arr (s_wst s)) -> vars_ok P ->
  s_walk s = Some w -> s_np s = Z.of_nat (count w) -> walk_ok P w ->
  run_step lm P draws s = Ok (w', s') ->
  s_walk s' = Some w' /\ s_np s' = Z.of_nat (count w) /\ count w' = count w /\ winv lm P (w_arr (s_wst s')) /\
  map fst (opts w') = tvars P /\ shaped (tvars P) w' /\
  forall p, (p < count w)%nat ->
    (row (tvars P) w' p = row (tvars P) w p /\
       may_stay GV lm P (xat (row (tvars P) w p) (last_ix (row (tvars P) w p))) (yat (row (tvars P) w p) (last_ix (row (tvars P) w p))))
    \/ extend1 GV lm P (row (tvars P) w p) (row (tvars P) w' p).
Proof.
  intros FO U WI VO SW NP (KE & SH & RO) H. unfold run_step in H. rewrite SW in H. rewrite NP in H.
  replace (if Z.of_nat (count w) =? 0 then Z.of_nat (length (xinds w)) else Z.of_nat (count w)) with (Z.of_nat (count w)) in H
    by (unfold count; destruct (Z.of_nat (length (xinds w)) =? 0); reflexivity).
  assert (SH' := SH). destruct SH' as (LY & LT & LO).
  assert (RR : forall p, (p < count w)%nat -> row_rect (row (tvars P) w p)) by (intros p Hp; apply RO, Hp).
  rewrite (mapM_last 0 (xinds w)) in H.
  2: reflexivity.
  2:{ intros r I. apply (In_nth _ _ []) in I as (p & Hp & <-). apply (row_rect_lengths _ _ _ (RR p Hp)). }
  cbn [bind] in H. rewrite (mapM_last 0 (yinds w)) in H.
  2: symmetry; exact LY.
  2:{ intros r I. apply (In_nth _ _ []) in I as (p & Hp & <-). rewrite LY in Hp. destruct (row_rect_lengths _ _ _ (RR p Hp)). lia. }
  cbn [bind] in H. rewrite (mapM_last n0 (times w)) in H.
  2: symmetry; exact LT.
  2:{ intros r I. apply (In_nth _ _ []) in I as (p & Hp & <-). rewrite LT in Hp. destruct (row_rect_lengths _ _ _ (RR p Hp)). lia. }
  cbn [bind] in H. rewrite (read_opts_shaped P _ w SH) in H.
  set (ov := map (fun v => (v, dflt (dget v (opts w)) [])) (tvars P)) in H.
  apply bind_ok in H as (lo & _ & H). cbv zeta in H.
  set (cur := combine (map (lastd 0) (xinds w)) (map (lastd 0) (yinds w))) in H.
  apply bind_ok in H as ((((ni & tts) & upd) & ws) & E1 & H). cbv beta iota in H.
  apply bind_ok in H as (ov' & E2 & H). injection H as <- <-. cbn [s_walk s_np s_wst opts xinds yinds times].
  assert (LCur : length cur = count w) by (unfold cur; rewrite combine_length, !map_length, LY; unfold count; lia).
  assert (CurN : forall p, (p < count w)%nat -> nth p cur (0, 0) = (xat (row (tvars P) w p) (last_ix (row (tvars P) w p)), yat (row (tvars P) w p) (last_ix (row (tvars P) w p)))).
  { intros p Hp. unfold cur. rewrite combine_nth by (rewrite !map_length, LY; reflexivity).
    rewrite (last_ix_y _ (RR p Hp)), last_ix_x. unfold row; cbn [r_x r_y].
    rewrite !(nth_map_d (lastd 0) _ p []) by (try rewrite LY; exact Hp). reflexivity. }
  destruct (stepper_spec lm P draws cur (map (lastd n0) (times w)) (map fst ov) (s_wst s) ni tts upd ws FO U WI) as (LN & LTT & WI' & OO & OUT); try assumption.
  { intros xy I. apply (In_nth _ _ (0, 0)) in I as (p & Hp & <-). rewrite LCur in Hp. rewrite CurN by exact Hp. cbn [fst snd]. apply RO, Hp. }
  { rewrite map_length, LT. symmetry. exact LCur. }
  set (moved := map2 (fun a b => negb (pair_eqb a b)) ni cur) in *.
  assert (LM : length moved = count w) by (unfold moved; rewrite map2_length; lia).
  assert (MV : map fst ov = tvars P) by (unfold ov; rewrite map_map; apply map_id).
  (* the updated optional dictionary *)
  set (vals := fun v => dflt (dget v upd) []).
  assert (VAL : forall v, In v (tvars P) -> dget v upd = Some (vals v) /\ length (vals v) = count w /\
            forall i, (i < count w)%nat -> nth i (vals v) None = field_value P v (fst (nth i ni (0, 0))) (snd (nth i ni (0, 0)))).
  { intros v I. rewrite MV in OO. destruct (OO v I (VO v I)) as (vs & Ev & Lv & Nv). unfold vals. rewrite Ev. cbn [dflt].
    split; [reflexivity|]. split; [lia|]. intros i Hi. apply Nv. lia. }
  assert (OV' : ov' = map (fun v => (v, append_where moved (vals v) (dflt (dget v (opts w)) []))) (tvars P)).
  { rewrite (mapM_map _ (fun kv => (fst kv, append_where moved (vals (fst kv)) (snd kv)))) in E2.
    - injection E2 as <-. unfold ov. rewrite map_map. reflexivity.
    - intros kv I. unfold ov in I. apply in_map_iff in I as (v & <- & I). unfold append_opt. cbn [fst snd].
      destruct (VAL v I) as (-> & _). reflexivity. }
  assert (STO : map (fun kv => (fst kv, match dget (fst kv) ov' with Some l => l | None => snd kv end)) (opts w) = ov').
  { transitivity (map (fun v => (v, dflt (dget v ov') [])) (map fst (opts w))).
    - rewrite map_map. apply map_ext_in. intros kv I. 
      assert (Iv : In (fst kv) (tvars P)) by (rewrite <- KE; apply in_map, I).
      rewrite OV', dget_map by exact Iv. reflexivity.
    - rewrite KE. rewrite OV'. apply map_ext_in. intros v I. rewrite dget_map by exact I. reflexivity. }
  rewrite STO.
  split; [reflexivity|]. split; [reflexivity|].
  split; [unfold count; cbn [xinds]; apply append_where_length|].
  split; [exact WI'|].
  split; [rewrite OV', map_map; apply map_id|].
  split.
  { unfold shaped, count in *. cbn [xinds yinds times opts]. rewrite !append_where_length. split; [exact LY|]. split; [exact LT|].
    intros v I. rewrite OV', dget_map by exact I. eexists. split; [reflexivity|]. rewrite append_where_length.
    destruct (LO v I) as (l & -> & Ll). exact Ll. }
  intros p Hp.
  assert (OP := OUT p ltac:(lia)). rewrite CurN in OP by exact Hp.
  rewrite (nth_map_d (lastd n0) (times w) p []) in OP by (rewrite LT; exact Hp).
  assert (MP : nth p moved false = negb (pair_eqb (nth p ni (0, 0)) (nth p cur (0, 0)))).
  { unfold moved. rewrite (map2_nth _ ni cur (0, 0) (0, 0)) by lia. reflexivity. }
  assert (ROW : row (tvars P) {| xinds := append_where moved (map fst ni) (xinds w); yinds := append_where moved (map snd ni) (yinds w);
                      times := append_where moved tts (times w); opts := ov' |} p =
          if nth p moved false then
            {| r_x := nth p (xinds w) [] ++ [fst (nth p ni (0, 0))]; r_y := nth p (yinds w) [] ++ [snd (nth p ni (0, 0))];
               r_t := nth p (times w) [] ++ [nth p tts n0];
               r_o := map (fun kv => (fst kv, snd kv ++ [field_value P (fst kv) (fst (nth p ni (0, 0))) (snd (nth p ni (0, 0)))])) (r_o (row (tvars P) w p)) |}
          else row (tvars P) w p).
  { unfold row at 1. cbn [xinds yinds times opts].
    rewrite (append_where_nth moved (map fst ni) (xinds w) 0) by (rewrite ?map_length; unfold count in *; lia).
    rewrite (append_where_nth moved (map snd ni) (yinds w) 0) by (rewrite ?map_length; unfold count in *; lia).
    rewrite (append_where_nth moved tts (times w) n0) by (unfold count in *; lia).
    assert (RO' : map (fun v => (v, nth p (dflt (dget v ov') []) [])) (tvars P) =
        if nth p moved false then map (fun kv => (fst kv, snd kv ++ [field_value P (fst kv) (fst (nth p ni (0, 0))) (snd (nth p ni (0, 0)))])) (r_o (row (tvars P) w p))
        else r_o (row (tvars P) w p)).
    { unfold row; cbn [r_o]. transitivity (map (fun v => (v, if nth p moved false then nth p (dflt (dget v (opts w)) []) [] ++ [field_value P v (fst (nth p ni (0, 0))) (snd (nth p ni (0, 0)))] else nth p (dflt (dget v (opts w)) []) [])) (tvars P)).
      - apply map_ext_in. intros v I. f_equal. rewrite OV', dget_map by exact I. cbn [dflt].
        destruct (LO v I) as (l & El & Ll). rewrite El. cbn [dflt]. destruct (VAL v I) as (_ & Lv & Nv).
        rewrite (append_where_nth moved (vals v) l None) by lia. rewrite Nv by exact Hp. reflexivity.
      - destruct (nth p moved false); [rewrite map_map|]; reflexivity. }
    rewrite RO'. destruct (nth p moved false).
    - rewrite !(nth_map_d _ ni p (0, 0)) by lia. reflexivity.
    - reflexivity. }
  rewrite CurN in MP by exact Hp. rewrite ROW, MP. clear ROW MP.
  match goal with |- context [negb ?b] => destruct b eqn:PE; cbn [negb] end.
  - left. split; [reflexivity|]. apply pair_eqb_true in PE. destruct OP as [(_ & _ & MS)|D]; [exact MS|]. exfalso.
    destruct D as (k & u & w0 & _ & _ & _ & _ & _ & _ & _ & _ & _ & ND & _). cbn [fst snd] in ND. apply ND. rewrite PE. reflexivity.
  - right. apply pair_eqb_false in PE. destruct OP as [(E & _)|D]; [congruence|]. cbn [fst snd] in D.
    exists (fst (nth p ni (0, 0))), (snd (nth p ni (0, 0))), (nth p tts n0). cbn [r_x r_y r_t r_o].
    rewrite (last_ix_t _ (RR p Hp)). split; [exact D|]. repeat split; reflexivity.
Qed.

Lemma run_step_total lm (P : pobj T) draws s w :
  field_ok lm P -> weights_finite lm P -> unit_stream GV draws -> winv lm P (w_arr (s_wst s)) -> vars_ok P ->
  s_walk s = Some w -> s_np s = Z.of_nat (count w) -> walk_ok P w ->
  exists w' s', run_step lm P draws s = Ok (w', s').
Proof.
  intros FO WF U WI VO SW NP (KE & SH & RO). unfold run_step. rewrite SW. rewrite NP.
  replace (if Z.of_nat (count w) =? 0 then Z.of_nat (length (xinds w)) else Z.of_nat (count w)) with (Z.of_nat (count w))
    by (unfold count; destruct (Z.of_nat (length (xinds w)) =? 0); reflexivity).
  assert (SH' := SH). destruct SH' as (LY & LT & LO).
  assert (RR : forall p, (p < count w)%nat -> row_rect (row (tvars P) w p)) by (intros p Hp; apply RO, Hp).
  rewrite (mapM_last 0 (xinds w)).
  2: reflexivity.
  2:{ intros r I. apply (In_nth _ _ []) in I as (p & Hp & <-). apply (row_rect_lengths _ _ _ (RR p Hp)). }
  cbn [bind]. rewrite (mapM_last 0 (yinds w)).
  2: symmetry; exact LY.
  2:{ intros r I. apply (In_nth _ _ []) in I as (p & Hp & <-). rewrite LY in Hp. destruct (row_rect_lengths _ _ _ (RR p Hp)). lia. }
  cbn [bind]. rewrite (mapM_last n0 (times w)).
  2: symmetry; exact LT.
  2:{ intros r I. apply (In_nth _ _ []) in I as (p & Hp & <-). rewrite LT in Hp. destruct (row_rect_lengths _ _ _ (RR p Hp)). lia. }
  cbn [bind]. rewrite (read_opts_shaped P _ w SH).
  set (ov := map (fun v => (v, dflt (dget v (opts w)) [])) (tvars P)).
  destruct (mapM_total (fun kv : string * list (list (option T)) => mapM (last_of (snd kv)) (zrange 0 (Z.of_nat (count w)))) ov) as (lo & ->).
  { intros kv I. unfold ov in I. apply in_map_iff in I as (v & <- & I). cbn [snd]. destruct (LO v I) as (l & El & Ll). rewrite El. cbn [dflt].
    rewrite (mapM_last None l); [eauto|symmetry; exact Ll|]. intros r Ir. apply (In_nth _ _ []) in Ir as (p & Hp & <-). rewrite Ll in Hp.
    destruct (row_rect_lengths _ _ _ (RR p Hp)) as (A & _ & _ & B). specialize (B v I). rewrite El in B. cbn [dflt] in B. lia. }
  cbn [bind]. cbv zeta. set (cur := combine (map (lastd 0) (xinds w)) (map (lastd 0) (yinds w))).
  assert (LCur : length cur = count w) by (unfold cur; rewrite combine_length, !map_length, LY; unfold count; lia).
  assert (CurN : forall p, (p < count w)%nat -> nth p cur (0, 0) = (xat (row (tvars P) w p) (last_ix (row (tvars P) w p)), yat (row (tvars P) w p) (last_ix (row (tvars P) w p)))).
  { intros p Hp. unfold cur. rewrite combine_nth by (rewrite !map_length, LY; reflexivity).
    rewrite (last_ix_y _ (RR p Hp)), last_ix_x. unfold row; cbn [r_x r_y].
    rewrite !(nth_map_d (lastd 0) _ p []) by (try rewrite LY; exact Hp). reflexivity. }
  assert (SP : forall xy, In xy cur -> safe_pos P (fst xy) (snd xy)).
  { intros xy I. apply (In_nth _ _ (0, 0)) in I as (p & Hp & <-). rewrite LCur in Hp. rewrite CurN by exact Hp. cbn [fst snd]. apply RO, Hp. }
  assert (LTm : length (map (lastd n0) (times w)) = length cur) by (rewrite map_length, LT; symmetry; exact LCur).
  destruct (stepper_total (GV:=GV) lm P draws cur (map (lastd n0) (times w)) (map fst ov) (s_wst s) FO WF U WI SP LTm) as (ni & tts & upd & ws & E1).
  destruct (stepper_spec lm P draws cur (map (lastd n0) (times w)) (map fst ov) (s_wst s) ni tts upd ws FO U WI SP LTm E1) as (LN & LTT & WI' & OO & OUT).
  rewrite E1. cbn [bind].
  assert (MV : map fst ov = tvars P) by (unfold ov; rewrite map_map; apply map_id).
  destruct (mapM_total (append_opt (map2 (fun a b => negb (pair_eqb a b)) ni cur) upd) ov) as (ov' & ->).
  { intros kv I. unfold append_opt.
    assert (Iv : In (fst kv) (tvars P)) by (rewrite <- MV; apply in_map, I).
    rewrite MV in OO. destruct (OO _ Iv (VO _ Iv)) as (vs & -> & _). eauto. }
  cbn [bind]. eauto.
Qed.
End S.

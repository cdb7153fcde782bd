(** Which stream positions run_iteration reads. *)
From Coq Require Import ZArith Bool String List Lia.
From Verif Require Import Num Py NumFacts NumMore Walker ParticleTrack Gen SpecWeights SpecPick SpecWalk SpecHist SpecInit SpecMotion SpecApi SpecDraw
  ProofWeights ProofWeightLaws ProofPick ProofStep ProofStepper ProofRun ProofRunTo ProofGen ProofHist ProofMotion ProofApi ProofApi2 ProofDrawStep.
Import ListNotations.
Open Scope Z_scope.
Open Scope res_scope.

Section S.
Context {T : Type} {N : Num T} {NL : NumLaws T} {NM : NumMore T} {GV : T -> Prop}.

(** the stepper call inside run_iteration, and the rows it leads to *)
Definition now (P : pobj T) (w : walk T) (p : nat) : Z * Z := (last_x (hist P w p), last_y (hist P w p)).
Lemma run_step_rows lm (P : pobj T) draws s w w' s' :
  field_ok lm P -> unit_stream GV draws -> winv lm P (w_arr (s_wst s)) -> vars_ok P ->
  s_walk s = Some w -> s_np s = Z.of_nat (count w) -> walk_ok P w ->
  run_step lm P draws s = Ok (w', s') ->
  exists cur tt ni tts upd,
    particle_stepper lm P draws cur tt (tvars P) (s_wst s) = Ok (ni, tts, upd, s_wst s') /\
    length cur = count w /\ length tt = count w /\ length ni = count w /\
    (forall xy, In xy cur -> safe_pos P (fst xy) (snd xy)) /\
    forall p, (p < count w)%nat -> nth p cur (0, 0) = now P w p /\ nth p tt n0 = tat (hist P w p) (last_ix (hist P w p)) /\
      hist P w' p = if pair_eqb (nth p ni (0, 0)) (now P w p) then hist P w p
                    else with_record P (hist P w p) (fst (nth p ni (0, 0))) (snd (nth p ni (0, 0))) (nth p tts n0).
Proof.
  intros FO U WI VO SW NP (KE & SH & RO) H. unfold run_step in H. rewrite SW in H. rewrite NP in H.
  replace (if Z.of_nat (count w) =? 0 then Z.of_nat (length (xinds w)) else Z.of_nat (count w)) with (Z.of_nat (count w)) in H
    by (unfold count; destruct (Z.of_nat (length (xinds w)) =? 0); reflexivity).
  assert (SH' := SH). destruct SH' as (LY & LT & LO).
  assert (RR : forall p, (p < count w)%nat -> row_rect (row (tvars P) w p)) by (intros p Hp; apply RO, Hp).
  rewrite (mapM_last 0 (xinds w)) in H.
  2: reflexivity.
  2:{ intros r I. apply (In_nth _ _ []) in I as (p & Hp & <-). apply (row_rect_lengths _ _ _ (RR p Hp)). }
  cbn [bind] in H. rewrite (mapM_last 0 (yinds w)) in H.
  2: symmetry; exact LY.
  2:{ intros r I. apply (In_nth _ _ []) in I as (p & Hp & <-). rewrite LY in Hp. destruct (row_rect_lengths _ _ _ (RR p Hp)). lia. }
  cbn [bind] in H. rewrite (mapM_last n0 (times w)) in H.
  2: symmetry; exact LT.
  2:{ intros r I. apply (In_nth _ _ []) in I as (p & Hp & <-). rewrite LT in Hp. destruct (row_rect_lengths _ _ _ (RR p Hp)). lia. }
  cbn [bind] in H. rewrite (read_opts_shaped P _ w SH) in H.
  set (ov := map (fun v => (v, dflt (dget v (opts w)) [])) (tvars P)) in H.
  apply bind_ok in H as (lo & _ & H). cbv zeta in H.
  set (cur := combine (map (lastd 0) (xinds w)) (map (lastd 0) (yinds w))) in H.
  apply bind_ok in H as ((((ni & tts) & upd) & ws) & E1 & H). cbv beta iota in H.
  apply bind_ok in H as (ov' & E2 & H). injection H as <- <-. cbn [s_walk s_np s_wst opts xinds yinds times].
  assert (LCur : length cur = count w) by (unfold cur; rewrite combine_length, !map_length, LY; unfold count; lia).
  assert (CurN : forall p, (p < count w)%nat -> nth p cur (0, 0) = (xat (row (tvars P) w p) (last_ix (row (tvars P) w p)), yat (row (tvars P) w p) (last_ix (row (tvars P) w p)))).
  { intros p Hp. unfold cur. rewrite combine_nth by (rewrite !map_length, LY; reflexivity).
    rewrite (last_ix_y _ (RR p Hp)), last_ix_x. unfold row; cbn [r_x r_y].
    rewrite !(nth_map_d (lastd 0) _ p []) by (try rewrite LY; exact Hp). reflexivity. }
  destruct (stepper_spec lm P draws cur (map (lastd n0) (times w)) (map fst ov) (s_wst s) ni tts upd ws FO U WI) as (LN & LTT & WI' & OO & OUT); try assumption.
  { intros xy I. apply (In_nth _ _ (0, 0)) in I as (p & Hp & <-). rewrite LCur in Hp. rewrite CurN by exact Hp. cbn [fst snd]. apply RO, Hp. }
  { rewrite map_length, LT. symmetry. exact LCur. }
  set (moved := map2 (fun a b => negb (pair_eqb a b)) ni cur) in *.
  assert (LM : length moved = count w) by (unfold moved; rewrite map2_length; lia).
  assert (MV : map fst ov = tvars P) by (unfold ov; rewrite map_map; apply map_id).
  (* the updated optional dictionary *)
  set (vals := fun v => dflt (dget v upd) []).
  assert (VAL : forall v, In v (tvars P) -> dget v upd = Some (vals v) /\ length (vals v) = count w /\
            forall i, (i < count w)%nat -> nth i (vals v) None = field_value P v (fst (nth i ni (0, 0))) (snd (nth i ni (0, 0)))).
  { intros v I. rewrite MV in OO. destruct (OO v I (VO v I)) as (vs & Ev & Lv & Nv). unfold vals. rewrite Ev. cbn [dflt].
    split; [reflexivity|]. split; [lia|]. intros i Hi. apply Nv. lia. }
  assert (OV' : ov' = map (fun v => (v, append_where moved (vals v) (dflt (dget v (opts w)) []))) (tvars P)).
  { rewrite (mapM_map _ (fun kv => (fst kv, append_where moved (vals (fst kv)) (snd kv)))) in E2.
    - injection E2 as <-. unfold ov. rewrite map_map. reflexivity.
    - intros kv I. unfold ov in I. apply in_map_iff in I as (v & <- & I). unfold append_opt. cbn [fst snd].
      destruct (VAL v I) as (-> & _). reflexivity. }
  assert (STO : map (fun kv => (fst kv, match dget (fst kv) ov' with Some l => l | None => snd kv end)) (opts w) = ov').
  { transitivity (map (fun v => (v, dflt (dget v ov') [])) (map fst (opts w))).
    - rewrite map_map. apply map_ext_in. intros kv I. 
      assert (Iv : In (fst kv) (tvars P)) by (rewrite <- KE; apply in_map, I).
      rewrite OV', dget_map by exact Iv. reflexivity.
    - rewrite KE. rewrite OV'. apply map_ext_in. intros v I. rewrite dget_map by exact I. reflexivity. }
  exists cur, (map (lastd n0) (times w)), ni, tts, upd. rewrite <- MV. split; [exact E1|].
  split; [exact LCur|]. split; [rewrite map_length; exact LT|]. split; [lia|].
  split. { intros xy I. apply (In_nth _ _ (0, 0)) in I as (p & Hp & <-). rewrite LCur in Hp. rewrite CurN by exact Hp. cbn [fst snd]. apply RO, Hp. }
  rewrite ?STO. intros p Hp.
  assert (MP : nth p moved false = negb (pair_eqb (nth p ni (0, 0)) (nth p cur (0, 0)))).
  { unfold moved. rewrite (map2_nth _ ni cur (0, 0) (0, 0)) by lia. reflexivity. }
  assert (ROW : row (tvars P) {| xinds := append_where moved (map fst ni) (xinds w); yinds := append_where moved (map snd ni) (yinds w);
                      times := append_where moved tts (times w); opts := ov' |} p =
          if nth p moved false then
            {| r_x := nth p (xinds w) [] ++ [fst (nth p ni (0, 0))]; r_y := nth p (yinds w) [] ++ [snd (nth p ni (0, 0))];
               r_t := nth p (times w) [] ++ [nth p tts n0];
               r_o := map (fun kv => (fst kv, snd kv ++ [field_value P (fst kv) (fst (nth p ni (0, 0))) (snd (nth p ni (0, 0)))])) (r_o (row (tvars P) w p)) |}
          else row (tvars P) w p).
  { unfold row at 1. cbn [xinds yinds times opts].
    rewrite (append_where_nth moved (map fst ni) (xinds w) 0) by (rewrite ?map_length; unfold count in *; lia).
    rewrite (append_where_nth moved (map snd ni) (yinds w) 0) by (rewrite ?map_length; unfold count in *; lia).
    rewrite (append_where_nth moved tts (times w) n0) by (unfold count in *; lia).
    assert (RO' : map (fun v => (v, nth p (dflt (dget v ov') []) [])) (tvars P) =
        if nth p moved false then map (fun kv => (fst kv, snd kv ++ [field_value P (fst kv) (fst (nth p ni (0, 0))) (snd (nth p ni (0, 0)))])) (r_o (row (tvars P) w p))
        else r_o (row (tvars P) w p)).
    { unfold row; cbn [r_o]. transitivity (map (fun v => (v, if nth p moved false then nth p (dflt (dget v (opts w)) []) [] ++ [field_value P v (fst (nth p ni (0, 0))) (snd (nth p ni (0, 0)))] else nth p (dflt (dget v (opts w)) []) [])) (tvars P)).
      - apply map_ext_in. intros v I. f_equal. rewrite OV', dget_map by exact I. cbn [dflt].
        destruct (LO v I) as (l & El & Ll). rewrite El. cbn [dflt]. destruct (VAL v I) as (_ & Lv & Nv).
        rewrite (append_where_nth moved (vals v) l None) by lia. rewrite Nv by exact Hp. reflexivity.
      - destruct (nth p moved false); [rewrite map_map|]; reflexivity. }
    rewrite RO'. destruct (nth p moved false).
    - rewrite !(nth_map_d _ ni p (0, 0)) by lia. reflexivity.
    - reflexivity. }
  split; [rewrite CurN by exact Hp; reflexivity|].
  split. { rewrite (nth_map_d (lastd n0) (times w) p []) by (rewrite LT; exact Hp). unfold hist. rewrite (last_ix_t _ (RR p Hp)). reflexivity. }
  etransitivity; [exact ROW|]. rewrite MP, CurN by exact Hp. unfold now, last_x, last_y, hist. match goal with |- context [pair_eqb ?a ?b] => destruct (pair_eqb a b) end; reflexivity.
Qed.

Lemma with_record_longer (P : pobj T) r x y t : length (r_x (with_record P r x y t)) = S (length (r_x r)).
Proof. unfold with_record. cbn [r_x]. rewrite app_length. cbn. lia. Qed.

Lemma session_draws lm L W p (P : pobj T) draws s w w' s' :
  session GV lm L W p P draws s -> s_walk s = Some w -> run_step lm P draws s = Ok (w', s') ->
  let n := w_pos (s_wst s) in let a := tally (awake P w) in let b := tally (grew P w w') in
  (forall q, (q < count w)%nat ->
     one_step lm P (hist P w q) (draws (n + a q)%nat) (draws (n + a (count w) + b q)%nat) (hist P w' q)) /\
  w_pos (s_wst s') = (n + a (count w) + if nltb n0 (o_diff P) then b (count w) else 0)%nat.
Proof.
  intros SS SW H n a b. destruct (session_field lm L W p P draws s SS) as (FO & _ & U & R & _).
  destruct (reached_inv lm P draws s FO U R) as (WI & IN). rewrite SW in IN. destruct IN as (VO & NP & KE & HO).
  destruct (run_step_rows lm P draws s w w' s' FO U WI VO SW NP (hist_walk_ok _ _ _ FO KE HO) H) as (cur & tt & ni & tts & upd & E & LC & LT & LN & SP & RW).
  destruct (stepper_draws lm P draws cur tt (tvars P) (s_wst s) ni tts upd (s_wst s') FO U WI SP ltac:(lia) E) as (PS & OUT).
  rewrite LC in PS, OUT.
  assert (EA : forall q, (q <= count w)%nat -> tally (fun i => negb (asleep (nth i cur (0, 0)))) q = a q).
  { intros q Hq. apply tally_ext. intros i Hi. destruct (RW i ltac:(lia)) as (-> & _). reflexivity. }
  assert (EB : forall q, (q <= count w)%nat -> tally (fun i => negb (pair_eqb (nth i cur (0, 0)) (nth i ni (0, 0)))) q = b q).
  { intros q Hq. apply tally_ext. intros i Hi. destruct (RW i ltac:(lia)) as (EC & _ & ER). unfold grew. rewrite ER, EC.
    assert (PS' : pair_eqb (now P w i) (nth i ni (0, 0)) = pair_eqb (nth i ni (0, 0)) (now P w i)).
    { unfold pair_eqb. rewrite (Z.eqb_sym (fst (now P w i))), (Z.eqb_sym (snd (now P w i))). reflexivity. }
    rewrite PS'. destruct (pair_eqb _ _); cbn [negb].
    - symmetry. apply Nat.ltb_irrefl.
    - rewrite with_record_longer. symmetry. apply Nat.ltb_lt. lia. }
  split; [|rewrite PS, EA, EB by lia; reflexivity].
  intros q Hq. destruct (RW q Hq) as (EC & ET & ER). specialize (OUT q Hq). cbv zeta in OUT. rewrite EC, ET in OUT. rewrite EA, EA, EB in OUT by lia.
  unfold now in OUT. cbn [fst snd] in OUT. unfold one_step. rewrite ER. unfold now. destruct OUT as [(EN & C)|(NZ & NE & k & K9 & K4 & SE & ND & EN & EX)].
  - left. split; [exact C|]. rewrite EN. rewrite (proj2 (pair_eqb_true _ _) eq_refl). reflexivity.
  - right. split; [exact NZ|]. split; [exact NE|]. exists k. split; [exact K9|]. split; [exact K4|]. split; [exact SE|]. split; [exact ND|].
    rewrite EN. rewrite (proj2 (pair_eqb_false _ _) ND). cbn [fst snd]. rewrite EX. f_equal. f_equal. unfold travel_time, diffusion.
    destruct (nltb n0 (o_diff P)); reflexivity.
Qed.

(** one_step and journey determine their result *)
Lemma selects_fun lm (P : pobj T) x y u k k' : selects lm P x y u k -> selects lm P x y u k' -> k = k'.
Proof. intros (v & E) (v' & E'). congruence. Qed.
Lemma one_step_fun lm (P : pobj T) r u v r1 r2 : one_step lm P r u v r1 -> one_step lm P r u v r2 -> r1 = r2.
Proof.
  intros [(C1 & ->)|(Z1 & E1 & k1 & K1 & N1 & S1 & D1 & ->)] [(C2 & ->)|(Z2 & E2 & k2 & K2 & N2 & S2 & D2 & ->)].
  - reflexivity.
  - exfalso. destruct C1 as [C|[C|(k & Hk & Sk & C)]]; [contradiction|contradiction|].
    rewrite (selects_fun _ _ _ _ _ _ _ Sk S2) in C. destruct C as [C|(A & B)]; [contradiction|]. apply D2. rewrite A, B, !Z.add_0_r. reflexivity.
  - exfalso. destruct C2 as [C|[C|(k & Hk & Sk & C)]]; [contradiction|contradiction|].
    rewrite (selects_fun _ _ _ _ _ _ _ Sk S1) in C. destruct C as [C|(A & B)]; [contradiction|]. apply D1. rewrite A, B, !Z.add_0_r. reflexivity.
  - rewrite (selects_fun _ _ _ _ _ _ _ S1 S2). reflexivity.
Qed.
Lemma one_step_awake lm (P : pobj T) r u v r1 : one_step lm P r u v r1 -> length (r_x r1) = Datatypes.S (length (r_x r)) ->
  (last_x r, last_y r) <> (0, 0) /\ ~ edge_nearby P (last_x r) (last_y r).
Proof. intros [(_ & ->)|(A & B & _)] L; [lia | auto]. Qed.
Lemma journey_fun lm (P : pobj T) draws draws' target max_iter m a r b1 r1 :
  journey lm P draws target max_iter m a r b1 r1 -> forall a' b2 r2, (forall i, draws' (a' + i)%nat = draws (a + i)%nat) ->
  journey lm P draws' target max_iter m a' r b2 r2 -> (b1 + a' = b2 + a)%nat /\ r1 = r2.
Proof.
  intros J. induction J as [m a r A B|m a r A|m a r A|a r A|m a r A B C E F|m a r r1 b r2 A B C L J IH]; intros a' b2 rr ED J2;
    pose proof (ED 0%nat) as ED0; pose proof (ED 1%nat) as ED1; rewrite !Nat.add_0_r in ED0; rewrite !Nat.add_1_r in ED1;
    inversion J2; subst; auto using Nat.add_comm; try lia; try contradiction;
    repeat match goal with H : one_step _ _ ?r _ _ ?x, L : length (r_x ?x) = Datatypes.S (length (r_x ?r)) |- _ =>
             lazymatch goal with Q : (last_x r, last_y r) <> (0, 0), Q' : ~ edge_nearby _ (last_x r) (last_y r) |- _ => fail | _ => 
               destruct (one_step_awake _ _ _ _ _ _ H L) as (?Q1 & ?Q2) end end; try contradiction;
    try (exfalso; match goal with E : ~ (_ /\ _) |- _ => apply E; solve [auto] end);
    rewrite ?ED0, ?ED1 in *; try (split; [lia | reflexivity]).
  - exfalso. match goal with H : one_step _ _ _ _ _ ?x, L : length (r_x ?x) = _ |- _ => rewrite <- (one_step_fun _ _ _ _ _ _ _ F H) in L; lia end.
  - exfalso. match goal with H : one_step _ _ ?q _ _ ?q |- _ => rewrite (one_step_fun _ _ _ _ _ _ _ C H) in L; lia end.
  - match goal with H : one_step _ _ _ _ _ ?x, H2 : journey _ _ _ _ _ _ _ ?x _ _ |- _ =>
      rewrite <- (one_step_fun _ _ _ _ _ _ _ C H) in H2; apply IH in H2 end.
    + match goal with H : _ /\ r2 = rr |- _ => destruct H as (Q & ->) end. split; [lia | reflexivity].
    + intros i. rewrite <- !Nat.add_assoc. apply ED.
Qed.

(** the target-time loop *)
Lemma stepper1_draws lm (P : pobj T) draws r vars s ni tts upd s' :
  field_ok lm P -> unit_stream GV draws -> winv lm P (w_arr s) -> base_row P r ->
  particle_stepper lm P draws [(last_x r, last_y r)] [tat r (last_ix r)] vars s = Ok (ni, tts, upd, s') ->
  let p := nth 0 ni (0, 0) in
  let r1 := if pair_eqb p (last_x r, last_y r) then r else with_record P r (fst p) (snd p) (nth 0 tts n0) in
  one_step lm P r (draws (w_pos s)) (draws (Datatypes.S (w_pos s))) r1 /\
  w_pos s' = (w_pos s + if pair_eqb (last_x r, last_y r) (0, 0)%Z then 0 else if pair_eqb p (last_x r, last_y r) then 1 else per_move P)%nat.
Proof.
  intros FO U WI (R & SP) E p r1. set (c := (last_x r, last_y r)) in *.
  destruct (stepper_draws lm P draws [c] [tat r (last_ix r)] vars s ni tts upd s' FO U WI) as (PS & OUT); try assumption; try reflexivity.
  { intros xy [<-|[]]. exact SP. }
  specialize (OUT 0%nat ltac:(cbn; lia)). cbv zeta in OUT. cbn [length] in PS, OUT. repeat rewrite tally_S in PS; repeat rewrite tally_0 in PS; repeat rewrite tally_S in OUT; repeat rewrite tally_0 in OUT. change (nth 0 [c] (0, 0)) with c in PS, OUT. change (nth 0 [tat r (last_ix r)] n0) with (tat r (last_ix r)) in OUT.
  rewrite !Nat.add_0_l in PS, OUT. fold p in PS, OUT. unfold asleep in PS, OUT. cbn [fst snd c] in OUT. fold c in OUT.
  assert (PS' : pair_eqb c p = pair_eqb p c).
  { unfold pair_eqb. rewrite (Z.eqb_sym (fst c)), (Z.eqb_sym (snd c)). reflexivity. }
  rewrite PS' in PS. destruct OUT as [(EN & C)|(NZ & NE & k & K9 & K4 & SE & ND & EN & EX)].
  - unfold r1. rewrite EN, (proj2 (pair_eqb_true _ _) Logic.eq_refl) in PS |- *. split.
    + left. split; [|reflexivity]. rewrite Nat.add_0_r in C. exact C.
    + rewrite PS. cbn [negb]. destruct (pair_eqb c (0, 0)); cbn [negb]; destruct (nltb n0 (o_diff P)); lia.
  - assert (EC : pair_eqb c (0, 0) = false) by (apply pair_eqb_false; exact NZ).
    assert (EP : pair_eqb p c = false) by (apply pair_eqb_false; rewrite EN; exact ND).
    unfold r1. rewrite EC, EP in PS |- *. cbn [negb] in PS, EX. split.
    + right. split; [exact NZ|]. split; [exact NE|]. exists k. split; [exact K9|]. split; [exact K4|].
      rewrite Nat.add_0_r in SE. split; [exact SE|]. split; [exact ND|]. rewrite EN. cbn [fst snd]. rewrite EX, EC. cbn [negb].
      f_equal. f_equal. unfold travel_time, diffusion. destruct (nltb n0 (o_diff P)); [|reflexivity].
      replace (w_pos s + 1 + 0)%nat with (Datatypes.S (w_pos s)) by lia. reflexivity.
    + rewrite PS. unfold per_move. destruct (nltb n0 (o_diff P)); lia.
Qed.

Lemma run_row_journey lm (P : pobj T) draws target max_iter : field_ok lm P -> unit_stream GV draws ->
  forall fuel r est c s r' s' over m,
  winv lm P (w_arr s) -> base_row P r -> legit_row P r -> est = next_dt m r ->
  c = Z.of_nat m + 1 -> (m = 0%nat \/ c <= max_iter) -> (m = 0%nat -> ~ edge_nearby P (last_x r) (last_y r)) ->
  run_row fuel lm P draws target max_iter r est c s = Ok (r', s', over) ->
  journey lm P draws target max_iter m (w_pos s) r (w_pos s') r'.
Proof.
  intros FO U. induction fuel as [|fuel IH]; intros r est c s r' s' over m WI BR LG ES CM MI NG H; [discriminate|].
  cbn [run_row] in H. destruct (lasts r (proj1 BR)) as (LX & LY & LT). rewrite LX, LY, LT in H. cbn [bind] in H.
  fold (last_x r) (last_y r) in H.
  destruct (nleb _ _) eqn:GO in H.
  - rewrite ES in GO. fold (goes_on target m r) in GO.
    apply bind_ok in H as (? & _ & H). apply bind_ok in H as ((((ni & tts) & upd) & s1) & E1 & H). cbv beta iota in H.
    apply bind_ok in H as (p & E2 & H).
    destruct (stepper1 lm P draws _ _ _ _ _ _ _ _ _ FO U WI (proj2 BR) E1) as (LN & LTT & WI1 & _ & _).
    destruct (stepper1_draws lm P draws r _ s ni tts upd s1 FO U WI BR E1) as (OS & PS).
    assert (EP : nth 0 ni (0, 0) = p). { pose proof (py_nth_ok ni 0 (0, 0) ltac:(simpl in LN; lia)) as E. change (Z.of_nat 0) with 0 in E. congruence. }
    rewrite EP in OS, PS.
    destruct (pair_eqb p (last_x r, last_y r)) eqn:PE; cbn [negb] in H.
    + injection H as <- <- <-. rewrite PS. destruct (pair_eqb (last_x r, last_y r) (0, 0)) eqn:ZZ.
      * rewrite Nat.add_0_r. apply j_zero, pair_eqb_true, ZZ.
      * rewrite Nat.add_1_r. apply j_stay; [lia | exact GO | apply pair_eqb_false, ZZ | intros (-> & C); exact (NG Logic.eq_refl C) | exact OS].
    + apply bind_ok in H as (t' & E3 & H). apply bind_ok in H as (o' & E4 & H). cbv zeta in H.
      assert (PN := PE). apply pair_eqb_false in PN.
      assert (ZZ : pair_eqb (last_x r, last_y r) (0, 0) = false).
      { apply pair_eqb_false. intros C. destruct OS as [(_ & Q)|(Q & _)]; [|exact (Q C)].
        apply (f_equal (fun q => length (r_x q))) in Q. rewrite with_record_longer in Q. lia. }
      rewrite ZZ in PS.
      pose proof (row_step lm P draws r s ni tts upd s1 o' t' p FO U WI BR LG E1 E2 PN E3 E4) as EX.
      assert (ET : nth 0 tts n0 = t'). { pose proof (py_nth_ok tts 0 n0 ltac:(simpl in LTT; lia)) as E. change (Z.of_nat 0) with 0 in E. congruence. }
      rewrite ET in OS.
      assert (ER : with_record P r (fst p) (snd p) t' = {| r_x := r_x r ++ [fst p]; r_y := r_y r ++ [snd p]; r_t := r_t r ++ [t']; r_o := o' |}).
      { destruct EX as (x0 & y0 & t0 & _ & A1 & A2 & _ & A4). cbn [r_x r_y r_o] in A1, A2, A4.
        apply app_inj_tail in A1 as (_ & A1). apply app_inj_tail in A2 as (_ & A2). unfold with_record. rewrite A4, A1, A2. reflexivity. }
      set (r1 := {| r_x := _ |}) in *. rewrite ER in OS.
      assert (BR1 : base_row P r1) by (eapply base_row_extend1; eauto).
      assert (L1 : length (r_x r1) = Datatypes.S (length (r_x r))) by (unfold r1; cbn [r_x]; rewrite app_length; cbn; lia).
      destruct (max_iter <? c + 1) eqn:MX.
      * injection H as <- <- <-. apply Z.ltb_lt in MX. eapply j_move; [lia | exact GO | exact OS | exact L1|]. rewrite PS. apply j_full; lia.
      * apply Z.ltb_ge in MX.
        assert (LG1 : legit_row P r1).
        { intros v I. apply LG. destruct (extend1_lengths _ _ _ _ (proj1 BR) EX) as (_ & _ & <-). exact I. }
        assert (ES1 : py_max ntenth (nsub t' (tat r (last_ix r))) = next_dt (Datatypes.S m) r1).
        { cbn [next_dt]. f_equal. f_equal.
          - rewrite (last_ix_t r1 (proj1 BR1)). cbn [r_t r1]. symmetry. apply lastd_app.
          - symmetry. eapply prev_t; [apply BR | exact EX]. }
        eapply j_move; [lia | exact GO | exact OS | exact L1|]. rewrite <- PS.
        eapply (IH r1 _ (c + 1) s1 r' s' over (Datatypes.S m)); try eassumption; try lia.
  - injection H as <- <- <-. apply j_time. unfold goes_on. rewrite <- ES. rewrite GO. discriminate.
Qed.

Lemma run_particle_journey lm (P : pobj T) draws target max_iter r s r' s' over : field_ok lm P -> unit_stream GV draws ->
  winv lm P (w_arr s) -> base_row P r -> legit_row P r ->
  run_particle lm P draws target max_iter r s = Ok (r', s', over) ->
  journey lm P draws target max_iter 0 (w_pos s) r (w_pos s') r'.
Proof.
  intros FO U WI BR LG H. unfold run_particle in H. apply bind_ok in H as (est & EE & H).
  destruct (lasts r (proj1 BR)) as (LX & LY & LT). rewrite LX, LY in H. cbn [bind] in H.
  fold (last_x r) (last_y r) in H.
  destruct (near_edge (o_ct P) _ _) eqn:NE.
  - injection H as <- <- <-.
    destruct BR as (R & [SZ|(Hx & Hy)]); [apply j_zero; exact SZ|]. apply j_edge.
    apply near_edge_spec; [apply FO | exact Hx | exact Hy | exact NE].
  - assert (ES : est = next_dt 0 r).
    { cbn [next_dt]. destruct (proj1 BR) as (A & B & C & _). unfold py_last in LT.
      destruct (Z.ltb_spec 1 (Z.of_nat (length (r_t r)))).
      - rewrite (proj2 (Nat.ltb_lt _ _)) by lia. rewrite LT in EE. cbn [bind] in EE. rewrite (py_nth_m2 _ n0) in EE by lia. cbn [bind] in EE.
        injection EE as <-. f_equal. unfold tat, last_ix. rewrite <- C. replace (length (r_t r) - 1 - 1)%nat with (length (r_t r) - 2)%nat by lia. reflexivity.
      - rewrite (proj2 (Nat.ltb_ge _ _)) by lia. congruence. }
    destruct (proj2 BR) as [SZ|(Hx & Hy)].
    + (* at (0,0): the stepper leaves it there *)
      destruct (pair_eqb (last_x r, last_y r) (0, 0)) eqn:ZZ; [|apply pair_eqb_false in ZZ; contradiction].
      cbn [run_row] in H. rewrite LX, LY, LT in H. cbn [bind] in H. destruct (nleb _ _) eqn:GO in H.
      * apply bind_ok in H as (? & _ & H). apply bind_ok in H as ((((ni & tts) & upd) & s1) & E1 & H). cbv beta iota in H.
        apply bind_ok in H as (p & E2 & H).
        destruct (stepper1 lm P draws _ _ _ _ _ _ _ _ _ FO U WI (proj2 BR) E1) as (LN & LTT & WI1 & _ & _).
        destruct (stepper1_draws lm P draws r _ s ni tts upd s1 FO U WI BR E1) as (OS & PS).
        assert (EP : nth 0 ni (0, 0) = p). { pose proof (py_nth_ok ni 0 (0, 0) ltac:(simpl in LN; lia)) as E. change (Z.of_nat 0) with 0 in E. congruence. }
        rewrite EP in OS, PS. rewrite ZZ in PS. fold (last_x r) (last_y r) in H.
        destruct (pair_eqb p (last_x r, last_y r)) eqn:PE; cbn [negb] in H.
        -- injection H as <- <- <-. rewrite PS, Nat.add_0_r. apply j_zero, SZ.
        -- exfalso. destruct OS as [(_ & Q)|(Q & _)]; [|exact (Q SZ)].
           apply (f_equal (fun q => length (r_x q))) in Q. rewrite with_record_longer in Q. lia.
      * injection H as <- <- <-. apply j_zero, SZ.
    + eapply (run_row_journey lm P draws target max_iter FO U _ r est 1 s r' s' over 0%nat); try eassumption; try reflexivity; [auto|].
      intros _ C. apply (near_edge_spec P _ _ (proj1 FO) Hx Hy) in C. unfold last_x, last_y in NE. congruence.
Qed.

Lemma run_particles_journey lm (P : pobj T) draws target max_iter : field_ok lm P -> unit_stream GV draws -> vars_ok P ->
  forall k i0 wd ov s warn wd' ov' s' warn',
  let w := {| xinds := xinds wd; yinds := yinds wd; times := times wd; opts := ov |} in
  let w' := {| xinds := xinds wd'; yinds := yinds wd'; times := times wd'; opts := ov' |} in
  winv lm P (w_arr s) -> walk_ok P w -> (i0 + k = count w)%nat ->
  run_particles lm P draws target max_iter (map Z.of_nat (seq i0 k)) wd ov s warn = Ok (wd', ov', s', warn') ->
  (forall p, (p < i0)%nat -> row (tvars P) w' p = row (tvars P) w p) /\
  exists pos : nat -> nat, pos i0 = w_pos s /\ pos (i0 + k)%nat = w_pos s' /\
  forall p, (i0 <= p < i0 + k)%nat -> journey lm P draws target max_iter 0 (pos p) (row (tvars P) w p) (pos (Datatypes.S p)) (row (tvars P) w' p).
Proof.
  intros FO U VO. induction k as [|k IH]; intros i0 wd ov s warn wd' ov' s' warn' w w' WI WO HC H; cbn [seq map run_particles] in H.
  - injection H as <- <- <- <-. split; [reflexivity|]. exists (fun _ => w_pos s). split; [reflexivity|]. split; [reflexivity|]. intros p Hp. lia.
  - set (p := i0) in *. assert (Hp : (p < count w)%nat) by lia.
    pose proof WO as (KE & SH & RO). cbn [opts w] in KE.
    rewrite (get_row_spec P wd ov p KE SH Hp) in H. cbn [bind] in H. fold w in H.
    set (r := row (tvars P) w p) in *.
    apply bind_ok in H as (((r' & s1) & over) & E1 & H). cbv beta iota zeta in H.
    assert (LG : legit_row P r) by (intros v I; apply VO; unfold r, row in I; cbn [r_o] in I; rewrite map_map, map_id in I; exact I).
    destruct (run_particle_spec lm P draws target max_iter r s r' s1 over FO U WI (RO p Hp) LG E1) as (n & EN & WI1 & LE & ST & OV).
    pose proof (run_particle_journey lm P draws target max_iter r s r' s1 over FO U WI (RO p Hp) LG E1) as JJ.
    destruct (extends_dget lm P n r r' (tvars P) (fun v => nth p (dflt (dget v ov) []) []) EN Logic.eq_refl) as (g & RG').
    destruct (put_row_spec P wd ov p r' g KE SH Hp RG') as (CT & KE1 & SH1 & RW & RWO).
    rewrite Nat2Z.id in H.
    set (w1 := {| xinds := upd_nth p (r_x r') (xinds wd); yinds := upd_nth p (r_y r') (yinds wd);
               times := upd_nth p (r_t r') (times wd); opts := set_opts p r' ov |}) in *.
    fold w in CT, RWO.
    assert (BR' : base_row P r') by (eapply base_row_extends; eauto).
    assert (WO1 : walk_ok P w1).
    { split; [exact KE1|]. split; [exact SH1|]. intros q Hq.
      destruct (Nat.eq_dec q p) as [->|NQ]; [rewrite RW; exact BR'|]. rewrite RWO by exact NQ. apply RO. lia. }
    match type of H with run_particles _ _ _ _ _ _ ?wd1 _ _ ?wn1 = _ =>
      pose proof (IH (Datatypes.S p) wd1 (set_opts p r' ov) s1 wn1 wd' ov' s' warn' WI1 WO1 ltac:(change (Datatypes.S p + k = count w1)%nat; rewrite CT; lia) H) as IH1 end.
    cbn [xinds yinds times opts] in IH1. fold w1 w' in IH1.
    destruct IH1 as (BE & pos & P0 & P1 & RR). split.
    + intros q Hq. rewrite BE by lia. apply RWO. lia.
    + exists (fun q => if (q =? p)%nat then w_pos s else pos q). rewrite Nat.eqb_refl. split; [reflexivity|]. split.
      * destruct (Nat.eqb_spec (p + Datatypes.S k) p); [lia|]. rewrite <- P1. f_equal. lia.
      * intros q Hq. destruct (Nat.eqb_spec (Datatypes.S q) p); [lia|]. destruct (Nat.eqb_spec q p) as [->|NQ].
        -- rewrite P0, BE, RW by lia. exact JJ.
        -- rewrite <- RWO by exact NQ. apply RR. lia.
Qed.

Lemma zrange_seq k : zrange 0 (Z.of_nat k) = map Z.of_nat (seq 0 k).
Proof.
  apply (nth_ext _ _ 0 0).
  - rewrite zrange_length, map_length, seq_length. lia.
  - intros i Hi. rewrite zrange_length in Hi. rewrite zrange_nth by lia.
    change (nth i (map Z.of_nat (seq 0 k)) 0) with (nth i (map Z.of_nat (seq 0 k)) (Z.of_nat 0)). rewrite map_nth, seq_nth by lia. lia.
Qed.

Lemma session_journeys lm L W p (P : pobj T) draws target max_iter s w w' wl s' :
  session GV lm L W p P draws s -> s_walk s = Some w -> run_target lm P draws target max_iter s = Ok (w', wl, s') ->
  exists pos : nat -> nat, pos 0%nat = w_pos (s_wst s) /\ pos (count w) = w_pos (s_wst s') /\
  forall q, (q < count w)%nat -> journey lm P draws target max_iter 0 (pos q) (hist P w q) (pos (Datatypes.S q)) (hist P w' q).
Proof.
  intros SS SW H. destruct (session_field lm L W p P draws s SS) as (FO & _ & U & R & _).
  destruct (reached_inv lm P draws s FO U R) as (WI & IN). rewrite SW in IN. destruct IN as (VO & NP & KE0 & HO).
  pose proof (hist_walk_ok _ _ _ FO KE0 HO) as WO. pose proof WO as (KE & SH & RO). unfold run_target in H. rewrite SW, NP in H.
  replace (if Z.of_nat (count w) =? 0 then Z.of_nat (length (xinds w)) else Z.of_nat (count w)) with (Z.of_nat (count w)) in H
    by (unfold count; destruct (Z.of_nat (length (xinds w)) =? 0); reflexivity).
  apply bind_ok in H as (? & _ & H). apply bind_ok in H as (? & _ & H). apply bind_ok in H as (? & _ & H).
  rewrite (read_opts_shaped P _ w SH) in H. apply bind_ok in H as (? & _ & H).
  set (ov := map (fun v => (v, dflt (dget v (opts w)) [])) (tvars P)) in H.
  assert (EO : ov = opts w) by (unfold ov; rewrite <- KE; symmetry; apply canon; rewrite KE; apply NoDup_tvars).
  rewrite EO in H. apply bind_ok in H as ((((wd' & ov') & ws) & wn) & E & H). cbv beta iota in H.
  assert (EW : {| xinds := xinds w; yinds := yinds w; times := times w; opts := opts w |} = w) by (destruct w; reflexivity).
  rewrite zrange_seq in E.
  pose proof (run_particles_journey lm P draws target max_iter FO U VO (count w) 0 w (opts w) (s_wst s) None wd' ov' ws wn WI) as RS.
  cbv zeta in RS. rewrite EW in RS. destruct (RS WO Logic.eq_refl E) as (_ & pos & P0 & P1 & RR).
  destruct wn as [wl'|]; [|discriminate]. injection H as <- <- <-. cbn [s_wst].
  exists pos. split; [exact P0|]. split; [exact P1|]. intros q Hq. apply RR. lia.
Qed.

Lemma session_no_interaction lm L W p (P : pobj T) draws1 draws2 s1 s2 w1 w2 w1' w2' s1' s2' q1 q2 :
  session GV lm L W p P draws1 s1 -> session GV lm L W p P draws2 s2 -> s_walk s1 = Some w1 -> s_walk s2 = Some w2 ->
  run_step lm P draws1 s1 = Ok (w1', s1') -> run_step lm P draws2 s2 = Ok (w2', s2') ->
  (q1 < count w1)%nat -> (q2 < count w2)%nat -> hist P w1 q1 = hist P w2 q2 ->
  draws1 (w_pos (s_wst s1) + tally (awake P w1) q1)%nat = draws2 (w_pos (s_wst s2) + tally (awake P w2) q2)%nat ->
  draws1 (w_pos (s_wst s1) + tally (awake P w1) (count w1) + tally (grew P w1 w1') q1)%nat =
    draws2 (w_pos (s_wst s2) + tally (awake P w2) (count w2) + tally (grew P w2 w2') q2)%nat ->
  hist P w1' q1 = hist P w2' q2.
Proof.
  intros S1 S2 E1 E2 R1 R2 H1 H2 EH D1 D2.
  destruct (session_draws lm L W p P draws1 s1 w1 w1' s1' S1 E1 R1) as (A1 & _). specialize (A1 q1 H1).
  destruct (session_draws lm L W p P draws2 s2 w2 w2' s2' S2 E2 R2) as (A2 & _). specialize (A2 q2 H2).
  rewrite <- EH, <- D1, <- D2 in A2. exact (one_step_fun _ _ _ _ _ _ _ A1 A2).
Qed.

Lemma session_prefix lm L W p (P : pobj T) draws1 draws2 target max_iter s1 s2 w1 w2 w1' w2' wl1 wl2 s1' s2' k :
  session GV lm L W p P draws1 s1 -> session GV lm L W p P draws2 s2 -> s_walk s1 = Some w1 -> s_walk s2 = Some w2 ->
  run_target lm P draws1 target max_iter s1 = Ok (w1', wl1, s1') -> run_target lm P draws2 target max_iter s2 = Ok (w2', wl2, s2') ->
  (k <= count w1)%nat -> (k <= count w2)%nat -> (forall q, (q < k)%nat -> hist P w1 q = hist P w2 q) ->
  (forall i, draws2 (w_pos (s_wst s2) + i)%nat = draws1 (w_pos (s_wst s1) + i)%nat) ->
  forall q, (q < k)%nat -> hist P w1' q = hist P w2' q.
Proof.
  intros S1 S2 E1 E2 R1 R2 H1 H2 EH DD.
  destruct (session_journeys lm L W p P draws1 target max_iter s1 w1 w1' wl1 s1' S1 E1 R1) as (pos1 & A1 & _ & J1).
  destruct (session_journeys lm L W p P draws2 target max_iter s2 w2 w2' wl2 s2' S2 E2 R2) as (pos2 & A2 & _ & J2).
  assert (AT : forall q, (q <= k)%nat -> (pos1 q + pos2 0%nat = pos2 q + pos1 0%nat)%nat /\ (pos1 0 <= pos1 q)%nat /\ (pos2 0 <= pos2 q)%nat /\ forall q', (q' < q)%nat -> hist P w1' q' = hist P w2' q').
  { assert (MONO : forall draws m a r b r', journey lm P draws target max_iter m a r b r' -> (a <= b)%nat) by (induction 1; lia).
    induction q as [|q IH]; intros Hq; [split; [lia|]; split; [lia|]; split; [lia | intros q' C; lia]|].
    destruct (IH ltac:(lia)) as (PQ & M1 & M2 & IHq). specialize (J1 q ltac:(lia)). specialize (J2 q ltac:(lia)). rewrite <- EH in J2 by lia.
    pose proof (MONO _ _ _ _ _ _ J1). pose proof (MONO _ _ _ _ _ _ J2).
    destruct (journey_fun lm P draws1 draws2 target max_iter 0 (pos1 q) (hist P w1 q) (pos1 (Datatypes.S q)) (hist P w1' q) J1
      (pos2 q) (pos2 (Datatypes.S q)) (hist P w2' q)) as (B & HQ); [|exact J2|].
    - intros i. specialize (DD (pos2 q - pos2 0 + i)%nat). rewrite <- A1, <- A2 in DD.
      replace (pos2 0 + (pos2 q - pos2 0 + i))%nat with (pos2 q + i)%nat in DD by lia. rewrite DD. f_equal. lia.
    - split; [lia|]. split; [lia|]. split; [lia|]. intros q' Hq'. destruct (Nat.eq_dec q' q) as [->|]; [exact HQ | apply IHq; lia]. }
  intros q Hq. destruct (AT k (Nat.le_refl k)) as (_ & _ & _ & Q). apply Q, Hq.
Qed.
End S.

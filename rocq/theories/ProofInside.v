(** Particles seeded strictly inside the outer ring stay strictly inside. *)
From Coq Require Import ZArith Bool String List Lia.
From Verif Require Import Num Py NumFacts NumMore Walker ParticleTrack Gen SpecWeights SpecPick SpecWalk SpecHist SpecInit SpecApi
  ProofInit ProofStep ProofStepper ProofRun ProofRunTo ProofGen ProofHist ProofApi ProofApi2.
Import ListNotations.
Open Scope Z_scope.

Section S.
Context {T : Type} {N : Num T} {NL : NumLaws T} {NM : NumMore T} {G : T -> Prop}.

Lemma do_ops_app lm (P : pobj T) draws os o : forall s, do_ops lm P draws (os ++ [o]) s = (s1 <- do_ops lm P draws os s ;; do_op lm P draws o s1).
Proof.
  induction os as [|o1 os IH]; intros s; cbn [do_ops app].
  - cbn [bind]. destruct (do_op lm P draws o s); reflexivity.
  - destruct (do_op lm P draws o1 s) as [s1|e]; cbn [bind]; [apply IH | reflexivity].
Qed.
Definition firsts_inside (P : pobj T) (w : walk T) : Prop :=
  forall q, (q < count w)%nat -> inside P (xat (hist P w q) 0) (yat (hist P w q) 0).

Lemma prefix_first (P : pobj T) n (r r' : prow T) : row_rect r -> grown n r r' -> xat r' 0 = xat r 0 /\ yat r' 0 = yat r 0.
Proof.
  intros (A & B & _) ((l1 & E1 & _) & (l2 & E2 & _) & _). unfold xat, yat. rewrite E1, E2, !app_nth1 by lia. split; reflexivity.
Qed.
Lemma seeded_inside (P : pobj T) np xl yl t0 m prev xs ys q : seeds_ok P (OpGen np xl yl t0 m prev) -> seeds_inside P (OpGen np xl yl t0 m prev) ->
  seeded m np xl yl xs ys -> (m = Exact -> xl <> []) -> (q < Z.to_nat np)%nat -> inside P (nth q xs 0) (nth q ys 0).
Proof.
  intros SO SI (LX & LY & S) NE Hq. destruct m; cbn [seeds_inside seeds_ok] in SI, SO; destruct SI as (SI & _).
  - destruct S as (SX & SY). rewrite Forall_forall in SX, SY. apply SI; [apply SX | apply SY]; apply nth_In; lia.
  - destruct (S q Hq) as (-> & ->). destruct SO as (_ & HL & _). apply SI.
    assert (LP : (0 < length xl)%nat) by (destruct xl; [exfalso; apply NE; reflexivity | simpl; lia]).
    rewrite <- combine_nth by (symmetry; exact HL). apply nth_In. rewrite combine_length, HL. pose proof (Nat.mod_upper_bound q (length xl)). lia.
Qed.
Lemma op_inside lm (P : pobj T) draws o s s' : field_ok lm P -> unit_stream G draws -> reached G lm P draws s ->
  op_ok G lm P o -> seeds_inside P o -> do_op lm P draws o s = Ok s' ->
  (forall w, s_walk s = Some w -> firsts_inside P w) -> forall w', s_walk s' = Some w' -> firsts_inside P w'.
Proof.
  intros FO U R OK SI H IH w' EW'. destruct o as [np xl yl t0 m prev| |target mi|]; cbn [do_op] in H.
  - assert (PN : prev = None) by (destruct m; apply SI). subst prev.
    destruct (reached_inv lm P draws s FO U R) as (WI & IN).
    destruct (generate_spec lm P draws np xl yl t0 m None s s' FO (proj1 OK)) as (VO & NE & w2 & xs & ys & EW & EN & EA & SD & CT & SH & KE & R1 & R2 & R3); try exact H; try exact I.
    { destruct (s_walk s); [apply IN | exact I]. }
    rewrite EW in EW'. injection EW' as <-. cbn [opt_count] in CT, R2, R3. intros q Hq. rewrite CT in Hq. unfold hist.
    destruct (Nat.lt_ge_cases q (stored_count s)) as [C|C].
    + pose proof (R2 q C) as R2q. cbn [Nat.add] in R2q. rewrite R2q. unfold stored_count in C. destruct (s_walk s) as [w|] eqn:ES; [|lia].
      cbn [opt_row]. apply IH; [reflexivity | exact C].
    + pose proof (R3 (q - stored_count s)%nat ltac:(lia)) as R3q. cbn [Nat.add] in R3q. replace (stored_count s + (q - stored_count s))%nat with q in R3q by lia.
      rewrite R3q. unfold seed_row, xat, yat. cbn [r_x r_y nth]. eapply seeded_inside; [exact (proj1 OK) | exact SI | exact SD | exact NE | lia].
  - destruct (run_step _ _ _ _) as [(w1, s1)|] eqn:E; [|discriminate]. injection H as <-.
    destruct (s_walk s) as [w|] eqn:ES.
    + destruct (run_extends lm P draws s w w1 s1 FO U R ES E) as (A & B & C). rewrite A in EW'. injection EW' as <-.
      intros q Hq. rewrite B in Hq. destruct (C q Hq) as [(EQ & _)|X].
      * unfold hist. rewrite EQ. apply (IH w eq_refl q Hq).
      * destruct (reached_history lm P draws s w q FO U R ES Hq) as (RR & _).
        destruct (prefix_first P 1 _ _ RR (extends_prefix lm P 1 _ _ (ext_step G lm P 0 _ _ _ (ext_refl G lm P _) X))) as (X1 & X2).
        unfold hist. rewrite X1, X2. apply (IH w eq_refl q Hq).
    + exfalso. unfold run_step in E. rewrite ES in E. discriminate.
  - destruct (run_target _ _ _ _ _ _) as [((w1, wl), s1)|] eqn:E; [|discriminate]. injection H as <-.
    destruct (s_walk s) as [w|] eqn:ES.
    + destruct (run_to_extends lm P draws target mi s w w1 wl s1 FO U R ES E) as (A & B & C & _). rewrite A in EW'. injection EW' as <-.
      intros q Hq. rewrite B in Hq. destruct (C q Hq) as (n & X & _).
      destruct (reached_history lm P draws s w q FO U R ES Hq) as (RR & _).
      destruct (prefix_first P n _ _ RR (extends_prefix lm P n _ _ X)) as (X1 & X2).
      unfold hist. rewrite X1, X2. apply (IH w eq_refl q Hq).
    + exfalso. unfold run_target in E. rewrite ES in E. discriminate.
  - injection H as <-. cbn [clear_walk_data s_walk] in EW'. discriminate.
Qed.
Lemma ops_inside lm (P : pobj T) draws pos : field_ok lm P -> unit_stream G draws ->
  forall os s, Forall (fun o => op_ok G lm P o /\ seeds_inside P o) os -> do_ops lm P draws os (init_sim lm P pos) = Ok s ->
  forall w, s_walk s = Some w -> firsts_inside P w.
Proof.
  intros FO U. induction os as [|o os IH] using rev_ind; intros s F H w EW.
  - cbn [do_ops] in H. injection H as <-. cbn in EW. discriminate.
  - rewrite do_ops_app in H. apply bind_ok in H as (s1 & E1 & E2). apply Forall_app in F as (F1 & F2). inversion F2 as [|? ? (OK & SI) _]; subst.
    eapply op_inside; [exact FO | exact U | | exact OK | exact SI | exact E2 | exact (IH s1 F1 E1) | exact EW].
    exists pos, os. split; [|exact E1]. eapply Forall_impl; [|exact F1]. intros a Ha. apply Ha.
Qed.
Lemma session_inside_session lm L W p (P : pobj T) draws s : session_inside G lm L W p P draws s -> session G lm L W p P draws s.
Proof.
  intros (A & B & C & pos & os & F & E). split; [exact A|]. split; [exact B|]. split; [exact C|]. exists pos, os. split; [|exact E].
  eapply Forall_impl; [|exact F]. intros a Ha. apply Ha.
Qed.
(** C13 *)
Lemma session_stays_inside lm L W p (P : pobj T) draws s w q i : session_inside G lm L W p P draws s -> s_walk s = Some w -> (q < count w)%nat ->
  (i < length (r_x (hist P w q)))%nat -> 1 <= xat (hist P w q) i < L - 1 /\ 1 <= yat (hist P w q) i < W - 1.
Proof.
  intros SI EW Hq Hi. pose proof (session_inside_session _ _ _ _ _ _ _ SI) as SS.
  destruct (session_field lm L W p P draws s SS) as (FO & _ & U & R & EL & EW2).
  destruct SI as (_ & _ & _ & pos & os & F & E).
  assert (Q : inside P (xat (hist P w q) i) (yat (hist P w q) i)).
  { destruct i as [|i]; [exact (ops_inside lm P draws pos FO U os s F E w EW q Hq)|].
    destruct (history_positions lm P (hist P w q) FO (session_hist lm L W p P draws s w q SS EW Hq) (S i) Hi) as (_ & Q). apply Q. lia. }
  unfold inside in Q. rewrite EL, EW2 in Q. exact Q.
Qed.
End S.

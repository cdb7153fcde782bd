(** Session-level results. *)
From Coq Require Import ZArith Bool String List Lia.
From Verif Require Import Num Py NumFacts NumMore Walker ParticleTrack Gen SpecWeights SpecPick SpecWalk SpecHist SpecInit SpecMotion SpecApi
  ProofWeights ProofWeightLaws ProofInit ProofStep ProofStepper ProofRun ProofRunTo ProofGen ProofHist ProofMotion ProofApi.
Import ListNotations.
Open Scope Z_scope.

Section S.
Context {T : Type} {N : Num T} {NL : NumLaws T} {NM : NumMore T} {G : T -> Prop}.
Variables (lm : Libm T) (L W : Z) (p : params T) (P : pobj T) (draws : nat -> T) (s : psim T).

Lemma fifth_ok : nn (ndec 2 1 : T) /\ nleb (ndec 2 1 : T) (nofZ 2) = true.
Proof.
  destruct (div_share (nofZ 2) (nofZ 10)) as (A & B); [apply ofZ_lt; lia | apply ofZ_le; lia | apply ofZ_fin; lia|].
  split; [|eapply leb_trans; [exact A | apply ofZ_le; lia]].
  unfold ndec. change (10 ^ 1) with 10. destruct B as [B|B]; [rewrite B; apply nn_n0 | apply lt_le, B].
Qed.
Lemma session_field : session G lm L W p P draws s ->
  field_ok lm P /\ depth_clean P /\ unit_stream G draws /\ reached G lm P draws s /\ nrow (o_depth P) = L /\ ncol (o_depth P) = W.
Proof.
  intros (ST & (p' & E) & U & R). destruct (standard_field_ok lm L W p P p' ST E) as (FO & EL & EW & DC).
  split; [exact FO|]. split; [exact DC|]. split; [exact U|]. split; [exact R|]. split; assumption.
Qed.
Lemma session_hist w q : session G lm L W p P draws s -> s_walk s = Some w -> (q < count w)%nat -> history_ok G lm P (hist P w q).
Proof. intros SS E Hq. destruct (session_field SS) as (FO & _ & U & R & _). eapply reached_history; eassumption. Qed.

(** C11 *)
Lemma session_step_size w q i : session G lm L W p P draws s -> s_walk s = Some w -> (q < count w)%nat ->
  (S i < length (r_x (hist P w q)))%nat ->
  Z.abs (xat (hist P w q) (S i) - xat (hist P w q) i) <= 1 /\ Z.abs (yat (hist P w q) (S i) - yat (hist P w q) i) <= 1.
Proof. intros SS E Hq Hi. destruct (session_field SS) as (FO & _). eapply step_size; [exact FO | eapply session_hist; eassumption | exact Hi]. Qed.
(** C21 *)
Lemma session_moves w q i : session G lm L W p P draws s -> s_walk s = Some w -> (q < count w)%nat ->
  (S i < length (r_x (hist P w q)))%nat ->
  (xat (hist P w q) (S i), yat (hist P w q) (S i)) <> (xat (hist P w q) i, yat (hist P w q) i).
Proof.
  intros SS E Hq Hi. destruct (session_hist w q SS E Hq) as (_ & _ & D & _).
  destruct (D i Hi) as (k & u & w0 & _ & _ & _ & _ & _ & _ & _ & _ & _ & ND & _). exact ND.
Qed.
(** C19 *)
Lemma session_rect w : session G lm L W p P draws s -> s_walk s = Some w ->
  length (yinds w) = length (xinds w) /\ length (times w) = length (xinds w) /\
  (forall v, In v (tvars P) -> exists l, dget v (opts w) = Some l /\ length l = length (xinds w)) /\
  (forall q, (q < length (xinds w))%nat -> let n := length (nth q (xinds w) []) in
     (0 < n)%nat /\ length (nth q (yinds w) []) = n /\ length (nth q (times w) []) = n /\
     forall v l, In v (tvars P) -> dget v (opts w) = Some l -> length (nth q l []) = n).
Proof.
  intros SS E. destruct (session_field SS) as (FO & _ & U & R & _).
  assert (SI := reached_inv lm P draws s FO U R). red in SI. 
  assert (SH : shaped (tvars P) w). { destruct SI as (_ & Q). rewrite E in Q. destruct Q as (_ & _ & _ & (Q & _)). exact Q. }
  destruct SH as (A & B & C). split; [exact A|]. split; [exact B|]. split; [exact C|].
  intros q Hq. cbv zeta. destruct (session_hist w q SS E Hq) as ((R0 & R1 & R2 & R3) & _).
  split; [exact R0|]. split; [exact R1|]. split; [exact R2|]. intros v l Hv Hl.
  specialize (R3 (v, nth q l [])). cbn [snd] in R3. apply R3. unfold hist, row. cbn [r_o]. apply in_map_iff.
  exists v. rewrite Hl. split; [reflexivity | exact Hv].
Qed.
(** C22 *)
Lemma session_vars w q v l i : session G lm L W p P draws s -> s_walk s = Some w -> (q < count w)%nat ->
  In v (tvars P) -> dget v (opts w) = Some l -> (i < length (nth q (xinds w) []))%nat ->
  nth i (nth q l []) None = field_value P v (nth i (nth q (xinds w) []) 0) (nth i (nth q (yinds w) []) 0).
Proof.
  intros SS E Hq Hv Hl Hi. destruct (session_hist w q SS E Hq) as (_ & _ & _ & F).
  apply (F v (nth q l [])); [|exact Hi]. unfold hist, row. cbn [r_o]. apply in_map_iff. exists v. rewrite Hl. split; [reflexivity | exact Hv].
Qed.
(** every recorded position is on the grid *)
Lemma session_positions w q i : session G lm L W p P draws s -> s_walk s = Some w -> (q < count w)%nat ->
  (i < length (r_x (hist P w q)))%nat -> 0 <= xat (hist P w q) i < L /\ 0 <= yat (hist P w q) i < W.
Proof.
  intros SS E Hq Hi. destruct (session_field SS) as (FO & _ & _ & _ & EL & EW).
  destruct (history_positions lm P (hist P w q) FO (session_hist w q SS E Hq) i Hi) as (A & _).
  destruct FO as (_ & _ & _ & _ & _ & HL & HW). destruct A as [A|A]; [injection A as -> ->|]; lia.
Qed.

(** C16 *)
Lemma session_wet w q i : session G lm L W p P draws s -> s_walk s = Some w -> (q < count w)%nat ->
  nisnan (o_dry P) = false -> (forall u, G u -> clear_draw lm P u) -> (S i < length (r_x (hist P w q)))%nat ->
  wet_arrival lm P (xat (hist P w q) i) (yat (hist P w q) i) (xat (hist P w q) (S i)) (yat (hist P w q) (S i)).
Proof.
  intros SS E Hq Dn CD Hi. destruct (session_field SS) as (FO & DC & _). assert (SS' := SS). destruct SS' as ((_ & _ & _ & DT & _) & (p' & EI) & _).
  eapply (wet_history lm P (hist P w q) i FO DC Dn (api_tables lm p P p' DT EI) CD); [|exact Hi].
  eapply session_hist; eassumption.
Qed.
(** C17 *)
Lemma api_times p' : standard lm L W p -> time_params lm p -> init lm p = Ok (P, p') -> times_defined lm P.
Proof.
  intros ST (HC & HD & HF) E. destruct ST as (SP & HL & HW & DT & RG & GP & PP & SQ & DX).
  destruct (init_ok lm p P p' E) as (dx & depth & pd & stage & ps & f & Edx & _ & _ & _ & _ & Eo & _ & _ & _ & _ & _ & _ & _ & _ & _ & _ & Ediff & _ & _ & _ & Edist & _).
  destruct (HD dx Edx) as (D0 & DF & DS). destruct DT as (DD & _). rewrite DD in Edist. cbn [dflt] in Edist.
  split.
  { intros k Hk. rewrite Edist, Eo. destruct SQ as (S1 & SF & _).
    assert (S0 : nn (m_sqrt lm (nofZ 2))) by (eapply leb_trans; [apply n0_le_n1 | exact S1]).
    assert (A : nn (nmul (m_sqrt lm (nofZ 2)) dx) /\ nisfin (nmul (m_sqrt lm (nofZ 2)) dx) = true) by (split; [apply mul_nn; assumption | exact DS]).
    assert (B : nn (nmul n1 dx) /\ nisfin (nmul n1 dx) = true).
    { assert (Q : nn (nmul n1 dx)) by (apply mul_nn; try assumption; [apply n0_le_n1 | apply n1_fin]). split; [exact Q|].
      eapply (fin_between n0); [apply n0_fin | exact DF | exact Q |]. apply mul_le_l; try assumption; [apply n0_le_n1 | apply leb_refl, n1_notnan]. }
    unfold default_dist. do 9 (destruct k as [|k]; [first [exact A | exact B]|]). lia. }
  split. { intros i j _. exact (proj1 (init_velocity lm p P p' i j SQ E)). }
  assert (DI : nn (o_diff P) /\ nleb (o_diff P) (nofZ 2) = true).
  { rewrite Ediff. unfold init_diff. destruct (p_diff p) as [d|] eqn:Ed.
    - pose proof (HF d eq_refl) as H2. destruct (nltb d n0) eqn:E0.
      + split; [apply nn_n0 | apply ofZ_le; lia].
      + split; [apply not_lt_le; [eapply leb_nan_l, H2 | apply fin_notnan, n0_fin | exact E0] | exact H2].
    - destruct (p_steep p) as [[|]|]; (split; [|]); try apply nn_n0; try (apply ofZ_le; lia); apply fifth_ok. }
  destruct DI as (DI0 & DI2). split; [exact DI0|]. split; [exact DI2|]. exact HC.
Qed.
Lemma session_times w q i j : session G lm L W p P draws s -> time_params lm p -> s_walk s = Some w -> (q < count w)%nat ->
  nisfin (tat (hist P w q) 0) = true -> (i <= j)%nat -> (j < length (r_x (hist P w q)))%nat ->
  nleb (tat (hist P w q) i) (tat (hist P w q) j) = true.
Proof.
  intros SS TP E Hq F0 Hij Hj. destruct (session_field SS) as (FO & _). assert (SS' := SS). destruct SS' as (ST & (p' & EI) & _).
  eapply time_history; [exact FO | eapply api_times; eassumption | eapply session_hist; eassumption | exact F0 | exact Hij | exact Hj].
Qed.

(** C24 and C20: one run_iteration *)
Lemma session_run w w' s' q : session G lm L W p P draws s -> s_walk s = Some w -> run_step lm P draws s = Ok (w', s') ->
  s_walk s' = Some w' /\ count w' = count w /\
  ((q < count w)%nat -> grown 0 (hist P w q) (hist P w' q) \/ grown 1 (hist P w q) (hist P w' q)).
Proof.
  intros SS E ER. destruct (session_field SS) as (FO & _ & U & R & _).
  destruct (run_extends lm P draws s w w' s' FO U R E ER) as (A & B & C). split; [exact A|]. split; [exact B|].
  intros Hq. destruct (C q Hq) as [(EQ & _)|X].
  - left. unfold hist. rewrite EQ. exact (extends_prefix (GV:=G) lm P 0 _ _ (ext_refl G lm P _)).
  - right. exact (extends_prefix lm P 1 _ _ (ext_step G lm P 0 _ _ _ (ext_refl G lm P _) X)).
Qed.
(** C26 *)
Lemma session_run_to w w' wl s' target mi q : session G lm L W p P draws s -> s_walk s = Some w -> run_target lm P draws target mi s = Ok (w', wl, s') ->
  s_walk s' = Some w' /\ count w' = count w /\
  ((q < count w)%nat -> exists n, grown n (hist P w q) (hist P w' q) /\ Z.of_nat n <= Z.max 1 mi).
Proof.
  intros SS E ER. destruct (session_field SS) as (FO & _ & U & R & _).
  destruct (run_to_extends lm P draws target mi s w w' wl s' FO U R E ER) as (A & B & C & _). split; [exact A|]. split; [exact B|].
  intros Hq. destruct (C q Hq) as (n & X & Y & _). exists n. split; [exact (extends_prefix lm P n _ _ X) | exact Y].
Qed.
(** C25 *)
Lemma session_run_to_stop w w' wl s' target mi q : session G lm L W p P draws s -> s_walk s = Some w -> run_target lm P draws target mi s = Ok (w', wl, s') ->
  (q < count w)%nat -> exists n, grown n (hist P w q) (hist P w' q) /\ stopped G lm P target mi n (hist P w' q).
Proof.
  intros SS E ER Hq. destruct (session_field SS) as (FO & _ & U & R & _).
  destruct (run_to_extends lm P draws target mi s w w' wl s' FO U R E ER) as (_ & _ & C & _).
  destruct (C q Hq) as (n & X & _ & Y). exists n. split; [exact (extends_prefix lm P n _ _ X) | exact Y].
Qed.
(** C27 *)
Lemma session_warning w w' wl s' target mi : session G lm L W p P draws s -> s_walk s = Some w -> run_target lm P draws target mi s = Ok (w', wl, s') ->
  exists n, grown n (hist P w (count w - 1)) (hist P w' (count w - 1)) /\ wl = if Z.of_nat n =? Z.max 1 mi then [Z.of_nat (count w) - 1] else [].
Proof.
  intros SS E H. destruct (session_field SS) as (FO & _ & U & R & _).
  destruct (run_to_extends lm P draws target mi s w w' wl s' FO U R E H) as (_ & _ & _ & n & X & WL).
  exists n. split; [exact (extends_prefix lm P n _ _ X) | exact WL].
Qed.
(** C12, C15 *)
Lemma session_stuck_run w w' s' q : session G lm L W p P draws s -> s_walk s = Some w -> (q < count w)%nat ->
  (last_x (hist P w q), last_y (hist P w q)) = (0, 0) \/ edge_nearby P (last_x (hist P w q)) (last_y (hist P w q)) ->
  run_step lm P draws s = Ok (w', s') -> hist P w' q = hist P w q.
Proof.
  intros SS E Hq ST ER. destruct (session_field SS) as (FO & _ & U & R & _).
  destruct (run_extends lm P draws s w w' s' FO U R E ER) as (_ & _ & C). destruct (C q Hq) as [(EQ & _)|X]; [exact EQ|].
  eapply (stuck_extends lm P 1); [apply (session_hist w q SS E Hq) | exact ST | exact (ext_step G lm P 0 _ _ _ (ext_refl G lm P _) X)].
Qed.
Lemma session_stuck_run_to w w' wl s' target mi q : session G lm L W p P draws s -> s_walk s = Some w -> (q < count w)%nat ->
  (last_x (hist P w q), last_y (hist P w q)) = (0, 0) \/ edge_nearby P (last_x (hist P w q)) (last_y (hist P w q)) ->
  run_target lm P draws target mi s = Ok (w', wl, s') -> hist P w' q = hist P w q.
Proof.
  intros SS E Hq ST ER. destruct (session_field SS) as (FO & _ & U & R & _).
  destruct (run_to_extends lm P draws target mi s w w' wl s' FO U R E ER) as (_ & _ & C & _). destruct (C q Hq) as (n & X & _).
  eapply (stuck_extends lm P n); [apply (session_hist w q SS E Hq) | exact ST | exact X].
Qed.
(** never raises *)
Lemma session_run_ok w : session G lm L W p P draws s -> weights_finite lm P -> s_walk s = Some w ->
  exists w' s', run_step lm P draws s = Ok (w', s').
Proof. intros SS WF E. destruct (session_field SS) as (FO & _ & U & R & _). eapply run_never_raises; eassumption. Qed.
Lemma session_run_to_ok w target mi : session G lm L W p P draws s -> weights_finite lm P -> s_walk s = Some w -> (0 < count w)%nat ->
  exists w' wl s', run_target lm P draws target mi s = Ok (w', wl, s').
Proof. intros SS WF E C. destruct (session_field SS) as (FO & _ & U & R & _). eapply run_to_never_raises; eassumption. Qed.
(** C23, generate *)
Lemma session_generate np xl yl t0 m prev s' : session G lm L W p P draws s ->
  op_ok G lm P (OpGen np xl yl t0 m prev) -> generate_particles P draws np xl yl t0 m prev s = Ok s' ->
  exists w' xs ys, s_walk s' = Some w' /\ seeded m np xl yl xs ys /\
    count w' = (opt_count prev + stored_count s + Z.to_nat np)%nat /\
    (forall q, (q < opt_count prev)%nat -> hist P w' q = opt_row (tvars P) prev q) /\
    (forall q, (q < stored_count s)%nat -> hist P w' (opt_count prev + q) = opt_row (tvars P) (s_walk s) q) /\
    (forall q, (q < Z.to_nat np)%nat -> hist P w' (opt_count prev + stored_count s + q) =
        seed_row P (tvars P) (nth q xs 0) (nth q ys 0) t0).
Proof. intros SS O EG. destruct (session_field SS) as (FO & _ & U & R & _). eapply gen_effect; eassumption. Qed.
End S.

(** Property C94: a direction that is at least as steep, as much along the flow and as deep gets at least as much weight. *)
From Coq Require Import ZArith Bool List Reals Lra Lia.
From Flocq Require Import Core IEEE754.BinarySingleNaN.
From Verif Require Import Num NumFacts F64 F64Laws F64Lin Py Walker ParticleTrack SpecWeights SpecInit
  ProofWeightLaws ProofWeightExt ProofApi ProofInit Examples ExamplesReach P_Weights.
Import ListNotations.
Open Scope Z_scope.

Local Existing Instance prec_gt_0.
Local Existing Instance prec_lt_emax.

(** Rounded products of non-negative numbers keep the order. *)
Lemma f_fin_le (a b : f64) : nn a -> nleb a b = true -> nisfin b = true -> nisfin a = true.
Proof. intros A L B. eapply fin_between; [exact n0_fin | exact B | exact A | exact L]. Qed.
Lemma f_mul_mono (a b c d : f64) : nn a -> nleb a b = true -> nisfin b = true -> nn c -> nleb c d = true -> nisfin d = true ->
  nleb (nmul a c) (nmul b d) = true.
Proof.
  intros A AB FB C CD FD. pose proof (f_fin_le a b A AB FB) as FA. pose proof (f_fin_le c d C CD FD) as FC.
  unfold nn, n0 in A, C. cbn [nleb nmul nofZ nisfin F64num] in *. unfold fisfin in *.
  apply leb_0 in A; [|exact FA]. apply leb_0 in C; [|exact FC]. apply leb_R in AB; auto. apply leb_R in CD; auto.
  eapply V_mono; [apply fmul_V; assumption | apply fmul_V; assumption |]. apply Rmult_le_compat; assumption.
Qed.
Lemma f_sub1_le (g : f64) : nn g -> nleb g n1 = true -> nn (nsub n1 g) /\ nleb (nsub n1 g) n1 = true /\ nisfin (nsub n1 g) = true.
Proof.
  intros G0 G1. pose proof (f_fin_le g n1 G0 G1 n1_fin) as FG.
  assert (A : nn (nsub n1 g)) by (apply sub_nn; [exact n1_fin | exact FG | exact G1]).
  assert (B : nleb (nsub n1 g) n1 = true).
  { unfold nn, n0 in G0. cbn [nleb nsub nofZ nisfin F64num] in *. unfold fisfin in *. apply leb_0 in G0; [|exact FG].
    assert (F1 : is_finite (n1 : f64) = true) by (exact n1_fin).
    eapply V_leb_l; [apply fsub_V; [exact F1 | exact FG] | exact F1 |]. lra. }
  split; [exact A|]. split; [exact B|]. eapply f_fin_le; [exact A | exact B | exact n1_fin].
Qed.

(** Shares of a total: between zero and one, and in the order of the parts. *)
Lemma share_range (f : nat -> f64) k : finite9 f -> (forall k, nltb (f k) n0 = false) -> (k < 9)%nat ->
  nn (f k) /\ nleb (f k) (total9 f) = true.
Proof.
  intros (F & _) Hn Hk. assert (Nk : nisnan (f k) = false) by (apply fin_notnan, F, Hk). split; [apply notneg_nn; auto|].
  rewrite <- (nanz_id (f k) Nk). apply nansum9_ge; [reflexivity | |apply in_map, in_seq; lia].
  apply Forall_forall. intros x Hx. apply in_map_iff in Hx as (q & <- & _). apply Hn.
Qed.
Lemma share_mono (f : nat -> f64) k k' : finite9 f -> (forall k, nltb (f k) n0 = false) -> (k < 9)%nat -> (k' < 9)%nat ->
  nleb (f k) (f k') = true ->
  nn (share f k) /\ nleb (share f k) (share f k') = true /\ nleb (share f k') n1 = true.
Proof.
  intros F Hn Hk Hk' L. destruct (share_range f k F Hn Hk) as (Pk & _). destruct (share_range f k' F Hn Hk') as (Pk' & Tk').
  assert (Nk' : nisnan (f k') = false) by (apply fin_notnan, F, Hk').
  assert (NT : nisnan (total9 f) = false) by (apply fin_notnan, F).
  unfold share. destruct (nltb n0 (total9 f)) eqn:E.
  - assert (Z0 : ndiv (n0 : f64) (total9 f) = n0) by (apply div_0; [exact E | exact (proj2 F)]).
    split; [unfold nn; rewrite <- Z0 at 1; apply f_div_mono; [exact Pk | exact E | exact (proj2 F)]|].
    split; [apply f_div_mono; [exact L | exact E | exact (proj2 F)]|].
    destruct (nltb n0 (f k')) eqn:Q.
    + apply div_share; [exact Q | exact Tk' | exact (proj2 F)].
    + assert (Z' : nleb (f k') n0 = true) by (apply not_lt_le; [exact n0_notnan | exact Nk' | exact Q]).
      eapply leb_trans; [apply f_div_mono; [exact Z' | exact E | exact (proj2 F)]|]. rewrite Z0. exact n0_le_n1.
  - split; [exact Pk|]. split; [exact L|]. eapply leb_trans; [exact Tk'|].
    eapply leb_trans; [apply (not_lt_le n0 (total9 f)); [exact n0_notnan | exact NT | exact E] | exact n0_le_n1].
Qed.

Lemma base_mono lm (P : pobj f64) i j k k' : gamma_ok P -> pow_ok lm P -> finite9 (slope P i j) -> finite9 (inertia P i j) ->
  (k < 9)%nat -> (k' < 9)%nat -> nb_blocked P i j k' = false ->
  nleb (m_pow lm (nb i j (o_depth P) k) (o_theta P)) (m_pow lm (nb i j (o_depth P) k') (o_theta P)) = true ->
  nisfin (m_pow lm (nb i j (o_depth P) k') (o_theta P)) = true ->
  nleb (slope P i j k) (slope P i j k') = true -> nleb (inertia P i j k) (inertia P i j k') = true ->
  nn (base_weight lm P i j k) /\ nleb (base_weight lm P i j k) (base_weight lm P i j k') = true.
Proof.
  intros (G0 & G1) Hp FS FI Hk Hk' Bk' PL PF SL IL.
  destruct (f_sub1_le _ G0 G1) as (H0 & H1 & HF). pose proof (f_fin_le _ _ G0 G1 n1_fin) as GF.
  destruct (share_mono _ k k' FS (slope_notneg P i j) Hk Hk' SL) as (S0 & S1 & SF).
  destruct (share_mono _ k k' FI (inertia_notneg P i j) Hk Hk' IL) as (I0 & I1 & IF').
  assert (S0' : nn (share (slope P i j) k')) by (eapply leb_trans; [exact S0 | exact S1]).
  assert (I0' : nn (share (inertia P i j) k')) by (eapply leb_trans; [exact I0 | exact I1]).
  pose proof (f_fin_le _ _ S0' SF n1_fin) as SF'. pose proof (f_fin_le _ _ I0' IF' n1_fin) as IFF.
  pose proof (f_fin_le _ _ S0 S1 SF') as SF0. pose proof (f_fin_le _ _ I0 I1 IFF) as IF0.
  assert (A0 : nn (nmul (o_gamma P) (share (slope P i j) k))) by (apply mul_nn; assumption).
  assert (B0 : nn (nmul (nsub n1 (o_gamma P)) (share (inertia P i j) k))) by (apply mul_nn; assumption).
  assert (A1 : nleb (nmul (o_gamma P) (share (slope P i j) k)) (nmul (o_gamma P) (share (slope P i j) k')) = true)
    by (apply f_mul_mono; auto; apply leb_refl, fin_notnan; exact GF).
  assert (B1 : nleb (nmul (nsub n1 (o_gamma P)) (share (inertia P i j) k)) (nmul (nsub n1 (o_gamma P)) (share (inertia P i j) k')) = true)
    by (apply f_mul_mono; auto; apply leb_refl, fin_notnan; exact HF).
  assert (A2 : nleb (nmul (o_gamma P) (share (slope P i j) k')) n1 = true)
    by (eapply leb_trans; [apply mul_le_r; assumption | exact G1]).
  assert (B2 : nleb (nmul (nsub n1 (o_gamma P)) (share (inertia P i j) k')) n1 = true)
    by (eapply leb_trans; [apply mul_le_r; assumption | exact H1]).
  assert (FSUM : nisfin (nadd (nmul (o_gamma P) (share (slope P i j) k')) (nmul (nsub n1 (o_gamma P)) (share (inertia P i j) k'))) = true).
  { eapply f_fin_le; [apply nn_add; (eapply leb_trans; [|eassumption]); assumption | apply add_le_mono; [| | exact A2 | exact B2] | vm_compute; reflexivity];
      (eapply leb_trans; [|eassumption]); assumption. }
  assert (PB : nb_blocked P i j k = false -> nn (m_pow lm (nb i j (o_depth P) k) (o_theta P))).
  { intros B. apply notneg_nn; [eapply leb_nan_l; exact PL|]. apply Hp. unfold nb_blocked in B. apply orb_false_iff in B. apply B. }
  assert (PB' : nn (m_pow lm (nb i j (o_depth P) k') (o_theta P))).
  { apply notneg_nn; [apply fin_notnan; exact PF|]. apply Hp. unfold nb_blocked in Bk'. apply orb_false_iff in Bk'. apply Bk'. }
  assert (SM : nleb (nadd (nmul (o_gamma P) (share (slope P i j) k)) (nmul (nsub n1 (o_gamma P)) (share (inertia P i j) k)))
                    (nadd (nmul (o_gamma P) (share (slope P i j) k')) (nmul (nsub n1 (o_gamma P)) (share (inertia P i j) k'))) = true)
    by (apply add_le_mono; assumption).
  assert (S00 : nn (nadd (nmul (o_gamma P) (share (slope P i j) k)) (nmul (nsub n1 (o_gamma P)) (share (inertia P i j) k)))) by (apply nn_add; assumption).
  unfold base_weight. rewrite Bk'. destruct (nb_blocked P i j k) eqn:Bk.
  - split; [exact nn_n0|]. apply mul_nn; try assumption. eapply leb_trans; [exact S00 | exact SM].
  - split.
    + apply mul_nn; [apply PB; reflexivity | exact S00 | eapply f_fin_le; [apply PB; reflexivity | exact PL | exact PF] | eapply f_fin_le; [exact S00 | exact SM | exact FSUM]].
    + apply f_mul_mono; try assumption. apply PB; reflexivity.
Qed.

Lemma spec_mono lm (P : pobj f64) i j k k' : gamma_ok P -> pow_ok lm P -> depth_clean P -> inside P i j ->
  finite9 (slope P i j) -> finite9 (inertia P i j) ->
  (k < 9)%nat -> (k' < 9)%nat -> nb_blocked P i j k' = false ->
  nleb (m_pow lm (nb i j (o_depth P) k) (o_theta P)) (m_pow lm (nb i j (o_depth P) k') (o_theta P)) = true ->
  nisfin (m_pow lm (nb i j (o_depth P) k') (o_theta P)) = true ->
  nleb (slope P i j k) (slope P i j k') = true -> nleb (inertia P i j k) (inertia P i j k') = true ->
  nleb (nb i j (o_depth P) k) (nb i j (o_depth P) k') = true ->
  nleb (spec_weight lm P i j k) (spec_weight lm P i j k') = true.
Proof.
  intros G Hp D Hi FS FI Hk Hk' Bk' PL PF SL IL DL.
  destruct (base_mono lm P i j k k' G Hp FS FI Hk Hk' Bk' PL PF SL IL) as (B0 & B1).
  unfold spec_weight. destruct (nleb (total9 (base_weight lm P i j)) n0) eqn:E; cbn [andb]; [|exact B1].
  destruct (deepest_attained P i j D Hi) as (_ & DM).
  assert (Z : forall m, nn (base_weight lm P i j m) -> (m < 9)%nat -> nleb (base_weight lm P i j m) n0 = true).
  { intros m Nm Hm. eapply leb_trans; [|exact E]. rewrite <- (nanz_id (base_weight lm P i j m)) by (apply nn_notnan, Nm).
    apply nansum9_ge; [reflexivity | | apply in_map, in_seq; lia].
    apply Forall_forall. intros x Hx. apply in_map_iff in Hx as (q & <- & _). apply base_notneg; assumption. }
  destruct (neqb (nb i j (o_depth P) k) (deepest P i j)) eqn:Ek.
  - assert (Ek' : neqb (nb i j (o_depth P) k') (deepest P i j) = true).
    { apply eq_split. split; [apply DM, Hk'|]. eapply leb_trans; [apply eq_ge, Ek | exact DL]. }
    rewrite Ek'. apply leb_refl, n1_notnan.
  - destruct (neqb (nb i j (o_depth P) k') (deepest P i j)); [|exact B1].
    eapply leb_trans; [apply Z; assumption | exact n0_le_n1].
Qed.

(** C94 In an interior cell compare two of the nine directions. If the cell in direction k' is wet and not land, the slope of
    the water surface and the discharge along k' are at least those along k, and the water there is at least as deep (and so
    is the power of the depth that the formula uses), then direction k' gets at least the weight of direction k. *)
Theorem C94_better_direction_more_weight :
  forall (lm : Libm f64) L W (p : params f64) P p' i j k k',
    weight_params lm L W p -> init lm p = Ok (P, p') -> 1 <= i < L - 1 -> 1 <= j < W - 1 -> (k < 9)%nat -> (k' < 9)%nat ->
    finite9 (slope P i j) -> finite9 (inertia P i j) ->
    let depth m := cell (o_depth P) (i + row_off m) (j + col_off m) in
    let powered m := m_pow lm (depth m) (o_theta P) in
    nb_blocked P i j k' = false ->
    nleb (slope P i j k) (slope P i j k') = true -> nleb (inertia P i j k) (inertia P i j k') = true ->
    nleb (depth k) (depth k') = true -> nleb (powered k) (powered k') = true -> nisfin (powered k') = true ->
    nleb (nth k (weights_of lm P i j) n0) (nth k' (weights_of lm P i j) n0) = true.
Proof.
  intros lm L W p P p' i j k k' Hp Hi HI HJ Hk Hk' FS FI depth powered Bk' SL IL DL PL PF.
  destruct (api_object lm L W p P p' Hp Hi) as (Hw & G & Pw & D & EL & EW).
  assert (In : inside P i j) by (unfold inside; lia).
  rewrite !weight_nth by assumption. apply spec_mono; assumption.
Qed.
Print Assumptions C94_better_direction_more_weight.
(** Cell (3,3) of the example grid: the step south (7) against the step east (5); see [C01_example] for the set-up. *)
Example C94_example : let depth m := cell (o_depth ex_P) (3 + row_off m) (3 + col_off m) in
  let powered m := m_pow ex_lm (depth m) (o_theta ex_P) in
  finite9 (slope ex_P 3 3) /\ finite9 (inertia ex_P 3 3) /\ nb_blocked ex_P 3 3 7 = false /\
  nleb (slope ex_P 3 3 5) (slope ex_P 3 3 7) = true /\ nleb (inertia ex_P 3 3 5) (inertia ex_P 3 3 7) = true /\
  nleb (depth 5%nat) (depth 7%nat) = true /\ nleb (powered 5%nat) (powered 7%nat) = true /\ nisfin (powered 7%nat) = true /\
  (* and the weights are positive and differ *)
  nltb n0 (nth 5 (weights_of ex_lm ex_P 3 3) n0) = true /\
  nltb (nth 5 (weights_of ex_lm ex_P 3 3) n0) (nth 7 (weights_of ex_lm ex_P 3 3) n0) = true.
Proof.
  split; [apply finite9b_ok; vm_compute; reflexivity|]. split; [apply finite9b_ok; vm_compute; reflexivity|].
  repeat split; vm_compute; reflexivity.
Qed.

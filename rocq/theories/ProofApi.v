(** Results about a constructed object, from the parameters given to the constructor. *)
From Coq Require Import ZArith Bool String List Lia.
From Verif Require Import Num Py NumFacts NumMore Walker ParticleTrack SpecWeights SpecPick SpecWalk SpecHist SpecInit SpecMotion
  ProofWeights ProofWeightLaws ProofInit ProofHist ProofMotion.
Import ListNotations.
Open Scope Z_scope.

Section S.
Context {T : Type} {N : Num T} {NL : NumLaws T} {NM : NumMore T} {GV : T -> Prop}.

(** Parameters that the weight theorems are about: arrays of one shape, gamma in [0,1], a usable power function. *)
Definition weight_params (lm : Libm T) (L W : Z) (p : params T) : Prop :=
  shaped_params L W p /\ gamma_params_ok p /\ pow_params_ok lm p.

Lemma api_object lm L W (p : params T) P p' : weight_params lm L W p -> init lm p = Ok (P, p') ->
  wf_obj P /\ gamma_ok P /\ pow_ok lm P /\ depth_clean P /\ nrow (o_depth P) = L /\ ncol (o_depth P) = W.
Proof.
  intros (SP & GP & PP) E. destruct (init_wf lm L W p P p' SP E) as (Hw & EL & EW).
  destruct (init_ok lm p P p' E) as (dx & depth & pd & stage & ps & f & _ & _ & _ & _ & _ & _ & _ & _ & _ & _ & _ & _ & _ & _ & Et & Eg & _ & Ed & _).
  split; [exact Hw|]. split.
  { unfold gamma_ok. rewrite Eg. destruct (p_gamma p) as [g|] eqn:Eg'; cbn [dflt]; [exact (GP g Eg') | exact gamma_default]. }
  split. { unfold pow_ok. rewrite Ed, Et. exact PP. }
  split; [|split; assumption]. intros i j _. exact (proj1 (init_depth_clean lm p P p' i j E)).
Qed.
Lemma api_weights_not_negative lm L W (p : params T) P p' i j k : weight_params lm L W p -> init lm p = Ok (P, p') ->
  0 <= i < L -> 0 <= j < W -> nltb (nth k (weights_of lm P i j) n0) n0 = false.
Proof.
  intros WP E Hi Hj. destruct (api_object _ _ _ _ _ _ WP E) as (Hw & G & Hp & DC & EL & EW).
  apply weights_never_negative; try assumption. unfold in_grid. lia.
Qed.
Lemma api_interior_positive lm L W (p : params T) P p' i j : weight_params lm L W p -> init lm p = Ok (P, p') ->
  1 <= i < L - 1 -> 1 <= j < W - 1 -> exists k, (k < 9)%nat /\ nltb n0 (nth k (weights_of lm P i j) n0) = true.
Proof.
  intros WP E Hi Hj. destruct (api_object _ _ _ _ _ _ WP E) as (Hw & G & Hp & DC & EL & EW).
  apply interior_has_positive; try assumption. unfold inside. lia.
Qed.
Lemma api_ring_zero lm L W (p : params T) P p' i j : weight_params lm L W p -> init lm p = Ok (P, p') ->
  0 <= i < L -> 0 <= j < W -> (i = 0 \/ j = 0 \/ i = L - 1 \/ j = W - 1) -> weights_of lm P i j = repeat n0 9.
Proof.
  intros WP E Hi Hj Hr. destruct (api_object _ _ _ _ _ _ WP E) as (Hw & G & Hp & DC & EL & EW).
  apply ring_all_zero; [exact Hw|]. split; unfold in_grid, inside; lia.
Qed.
Lemma api_weight_target lm L W (p : params T) P p' i j k : weight_params lm L W p -> init lm p = Ok (P, p') ->
  nisnan (o_dry P) = false -> 1 <= i < L - 1 -> 1 <= j < W - 1 -> (k < 9)%nat ->
  neqb (nth k (weights_of lm P i j) n0) n0 = false ->
  (nltb (o_dry P) (cell (o_depth P) (i + row_off k) (j + col_off k)) = true /\ cell (o_ct P) (i + row_off k) (j + col_off k) <> 2) \/
  (dead_end lm P i j /\ forall m, (m < 9)%nat ->
     nleb (cell (o_depth P) (i + row_off m) (j + col_off m)) (cell (o_depth P) (i + row_off k) (j + col_off k)) = true).
Proof.
  intros WP E Dn Hi Hj Hk NZ. destruct (api_object _ _ _ _ _ _ WP E) as (Hw & G & Hp & DC & EL & EW).
  apply (nonzero_weight_target lm P i j k); try assumption. unfold inside. lia.
Qed.
Lemma api_tables lm (p : params T) P p' : default_tables p -> init lm p = Ok (P, p') -> d8_steps P.
Proof.
  intros (_ & _ & _ & Ei & Ej & _) E.
  destruct (init_ok lm p P p' E) as (dx & depth & pd & stage & ps & f & _ & _ & _ & _ & _ & _ & _ & _ & _ & _ & _ & _ & _ & _ & _ & _ & _ & _ & _ & _ & _ & _ & _ & Ei' & Ej' & _).
  intros k Hk. rewrite Ei', Ej', Ei, Ej. cbn [dflt]. do 9 (destruct k as [|k]; [split; reflexivity|]). lia.
Qed.
Lemma api_weight_formula lm L W (p : params T) P p' i j k : weight_params lm L W p -> default_tables p -> init lm p = Ok (P, p') ->
  1 <= i < L - 1 -> 1 <= j < W - 1 -> (k < 9)%nat ->
  nth k (weights_of lm P i j) n0 = spec_weight lm P i j k /\
  row_off k = nth k (o_jwalk P) 0 /\ col_off k = nth k (o_iwalk P) 0.
Proof.
  intros WP DT E Hi Hj Hk. destruct (api_object _ _ _ _ _ _ WP E) as (Hw & G & Hp & DC & EL & EW).
  split; [apply weight_nth; try assumption; unfold inside; lia|]. destruct (api_tables _ _ _ _ DT E k Hk) as (A & B). split; congruence.
Qed.
End S.

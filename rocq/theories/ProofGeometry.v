(** The D8 tables over the real numbers. *)
From Coq Require Import ZArith Bool List Lia Reals Lra Rtrigo1.
From Verif Require Import Num Py Walker ParticleTrack SpecWeights SpecWalk.
Import ListNotations.
Open Scope R_scope.

(** The code's arithmetic read over the real numbers (no NaN or infinity; [nfrac] is not used here). *)
Definition Rbool {A B} (d : {A} + {B}) : bool := if d then true else false.
Definition RNum : Num R := {|
  nofZ := IZR; nnan := 0; nadd := Rplus; nsub := Rminus; nmul := Rmult; ndiv := Rdiv; nabs := Rabs;
  nleb := fun a b => Rbool (Rle_dec a b); nltb := fun a b => Rbool (Rlt_dec a b); neqb := fun a b => Rbool (Req_EM_T a b);
  nisnan := fun _ => false; nisfin := fun _ => true; nfrac := fun _ => None |}.
(** The library over the reals; the arc tangent and the power are not used by the tables. *)
Definition Rlibm : Libm R := {| m_sqrt := sqrt; m_cos := cos; m_atan2 := fun _ _ => 0; m_pow := fun _ _ => 0 |}.

Definition r_dist := @default_dist R RNum Rlibm.
Definition r_ivec := @default_ivec R RNum Rlibm.
Definition r_jvec := @default_jvec R RNum Rlibm.
Definition r_angles := @angles_from R RNum PI.

Lemma sqrt_half : sqrt (5 / 10) = 1 / sqrt 2.
Proof.
  replace (5 / 10) with (/ 2) by lra. rewrite sqrt_inv. field. apply Rgt_not_eq, sqrt_lt_R0. lra.
Qed.
Lemma sqrt2_pos : 0 < sqrt 2.
Proof. apply sqrt_lt_R0. lra. Qed.

Lemma angle_dirs k : (k < 9)%nat -> k <> 4%nat ->
  cos (nth k r_angles 0) = nth k r_ivec 0 /\ sin (nth k r_angles 0) = - nth k r_jvec 0.
Proof.
  intros H K. unfold r_angles, angles_from, r_ivec, default_ivec, r_jvec, default_jvec, nneg, nhalf, ndec, n0, n1.
  cbn [ndiv nmul nofZ RNum m_sqrt Rlibm]. change (IZR (10 ^ 1)) with 10. rewrite sqrt_half.
  destruct k as [|[|[|[|[|[|[|[|[|k]]]]]]]]]; cbn [nth]; try (exfalso; lia).
  - replace (3 * PI / 4) with (3 * (PI / 4)) by field. rewrite cos_3PI4, sin_3PI4. split; field; apply Rgt_not_eq, sqrt2_pos.
  - rewrite cos_PI2, sin_PI2. split; lra.
  - rewrite cos_PI4, sin_PI4. split; field; apply Rgt_not_eq, sqrt2_pos.
  - rewrite cos_PI, sin_PI. split; lra.
  - rewrite cos_0, sin_0. split; lra.
  - replace (5 * PI / 4) with (5 * (PI / 4)) by field. rewrite cos_5PI4, sin_5PI4. split; field; apply Rgt_not_eq, sqrt2_pos.
  - replace (3 * PI / 2) with (3 * (PI / 2)) by field. rewrite cos_3PI2, sin_3PI2. split; lra.
  - replace (7 * PI / 4) with (- (PI / 4) + 2 * PI) by field. rewrite cos_plus, sin_plus, cos_2PI, sin_2PI, cos_neg, sin_neg, cos_PI4, sin_PI4.
    split; field; apply Rgt_not_eq, sqrt2_pos.
Qed.

Lemma dist_dirs k : (k < 9)%nat -> k <> 4%nat ->
  nth k r_dist 0 = sqrt (IZR (row_off k) * IZR (row_off k) + IZR (col_off k) * IZR (col_off k)) /\
  nth k r_ivec 0 = IZR (col_off k) / nth k r_dist 0 /\ nth k r_jvec 0 = IZR (row_off k) / nth k r_dist 0.
Proof.
  intros H K. unfold r_dist, default_dist, r_ivec, default_ivec, r_jvec, default_jvec, nneg, nhalf, ndec, n0, n1.
  cbn [ndiv nmul nofZ RNum m_sqrt Rlibm]. change (IZR (10 ^ 1)) with 10. rewrite sqrt_half.
  pose proof sqrt2_pos.
  destruct k as [|[|[|[|[|[|[|[|[|k]]]]]]]]]; cbn [nth]; try (exfalso; lia);
  unfold row_off, col_off; cbn -[sqrt IZR];
  (split; [match goal with |- ?a = sqrt ?e => first [replace e with 2 by lra; reflexivity | replace e with 1 by lra; rewrite sqrt_1; reflexivity] end|]);
  split; (try lra; field; lra).
Qed.
Lemma walk_dirs k : (k < 9)%nat -> nth k default_jwalk 0%Z = row_off k /\ nth k default_iwalk 0%Z = col_off k.
Proof. intros H. do 9 (destruct k as [|k]; [split; reflexivity|]). lia. Qed.

(** C40: the direction of the discharge (qx, qy) has, in the code's convention, the angle a with
    qy = r cos a and -qx = r sin a; then the component of the discharge along direction k is r cos(angle_k - a). *)
Lemma along_dir k qx qy r a : (k < 9)%nat -> k <> 4%nat -> qy = r * cos a -> - qx = r * sin a ->
  qx * nth k r_jvec 0 + qy * nth k r_ivec 0 = r * cos (nth k r_angles 0 - a).
Proof.
  intros H K Ey Ex. destruct (angle_dirs k H K) as (C & S). rewrite cos_minus, C, S.
  replace qx with (- (r * sin a)) by lra. rewrite Ey. ring.
Qed.
Lemma along_sign k qx qy r a : (k < 9)%nat -> k <> 4%nat -> 0 < r -> qy = r * cos a -> - qx = r * sin a ->
  (0 < qx * nth k r_jvec 0 + qy * nth k r_ivec 0 <-> 0 < cos (nth k r_angles 0 - a)).
Proof.
  intros H K R Ey Ex. rewrite (along_dir k qx qy r a H K Ey Ex). split; intros L.
  - apply (Rmult_lt_reg_l r); [exact R | rewrite Rmult_0_r; exact L].
  - apply Rmult_lt_0_compat; assumption.
Qed.

(** A direction that is open has positive inertial weight exactly if a step along it has positive projected length. *)
Lemma inertia_iff_projected (P : pobj R) i j k r :
  o_dist P = r_dist -> o_ivec P = r_ivec -> o_jvec P = r_jvec -> o_angles P = r_angles -> 0 < o_dx P ->
  (k < 9)%nat -> k <> 4%nat -> 0 < r ->
  cell (o_qy P) i j = r * cos (cell (o_vang P) i j) -> - cell (o_qx P) i j = r * sin (cell (o_vang P) i j) ->
  @nb_blocked R RNum P i j k = false ->
  (0 < @inertia R RNum P i j k <-> 0 < @projected R RNum Rlibm P k i j).
Proof.
  intros Ed Ei Ej Ea Dx H K R Ey Ex B. unfold inertia, projected. rewrite B, Ed, Ei, Ej, Ea.
  assert (DP : 0 < nth k r_dist 0).
  { destruct (dist_dirs k H K) as (-> & _). apply sqrt_lt_R0. clear - H K.
    destruct k as [|[|[|[|[|[|[|[|[|k]]]]]]]]]; try (exfalso; lia); unfold row_off, col_off; cbn [nth]; lra. }
  pose proof (along_sign k _ _ r _ H K R Ey Ex) as S. cbv zeta. unfold pospart, n0. cbn [nadd nmul nsub ndiv nleb nltb nofZ RNum m_cos Rlibm Rbool].
  unfold Rbool. set (A := cell (o_qx P) i j * nth k r_jvec 0 + cell (o_qy P) i j * nth k r_ivec 0) in *.
  set (C := cos (nth k r_angles 0 - cell (o_vang P) i j)) in *.
  assert (Q : 0 < A / nth k r_dist 0 <-> 0 < A).
  { unfold Rdiv. split; intros L.
    - apply (Rmult_lt_reg_r (/ nth k r_dist 0)); [apply Rinv_0_lt_compat, DP | rewrite Rmult_0_l; exact L].
    - apply Rmult_lt_0_compat; [exact L | apply Rinv_0_lt_compat, DP]. }
  destruct (Rle_dec (A / nth k r_dist 0) 0) as [L|L]; destruct (Rlt_dec 0 C) as [M|M].
  - exfalso. apply S, Q in M. lra.
  - rewrite Rmult_0_r. lra.
  - split; intros _.
    + apply Rmult_lt_0_compat; [apply Rmult_lt_0_compat; assumption | exact M].
    + apply Q, S, M.
  - exfalso. apply M, S, Q. lra.
Qed.

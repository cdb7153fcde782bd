(** IEEE binary64 satisfies the number laws. *)
From Coq Require Import ZArith Bool Reals Lra Lia Psatz.
From Flocq Require Import Core IEEE754.BinarySingleNaN.
From Verif Require Import Num F64.
Open Scope Z_scope.

Local Existing Instance prec_gt_0.
Local Existing Instance prec_lt_emax.
Notation fexp64 := (SpecFloat.fexp prec emax).
Local Instance fexp64_valid : Valid_exp fexp64 := @fexp_correct prec emax prec_gt_0.
Definition rnd (r : R) : R := round radix2 fexp64 (round_mode mode_NE) r.
Definition big : R := bpow radix2 emax.
Local Instance rnd_valid : Valid_rnd (round_mode mode_NE) := valid_rnd_round_mode mode_NE.

Lemma rnd_mono r s : (r <= s)%R -> (rnd r <= rnd s)%R.
Proof. intros H. unfold rnd. apply round_le; try exact fexp64_valid; try exact rnd_valid; exact H. Qed.

Lemma rnd_id (x : f64) : rnd (B2R x) = B2R x.
Proof. unfold rnd. apply round_generic; try exact rnd_valid. apply generic_format_B2R. Qed.

Lemma rnd_0 : rnd 0 = 0%R.
Proof. unfold rnd. apply round_0; exact rnd_valid. Qed.

(** [V x r]: the float x is the correctly rounded (possibly overflowed) value of the real r. *)
Definition V (x : f64) (r : R) : Prop :=
  ((Rabs (rnd r) < big)%R /\ is_finite x = true /\ B2R x = rnd r) \/
  ((big <= rnd r)%R /\ x = B754_infinity false) \/
  ((rnd r <= - big)%R /\ x = B754_infinity true).

Lemma V_fin x : is_finite x = true -> V x (B2R x).
Proof.
  intros H. left. rewrite rnd_id. split; [|split; [exact H|reflexivity]].
  apply abs_B2R_lt_emax.
Qed.

Lemma leb_inf_r (x : f64) : is_nan x = false -> Bleb x (B754_infinity false) = true.
Proof. destruct x as [|[|]| |[|] ? ? ?]; intros; try discriminate; reflexivity. Qed.
Lemma leb_inf_l (x : f64) : is_nan x = false -> Bleb (B754_infinity true) x = true.
Proof. destruct x as [|[|]| |[|] ? ? ?]; intros; try discriminate; reflexivity. Qed.

Lemma fin_nan (x : f64) : is_finite x = true -> is_nan x = false.
Proof. destruct x; intros; try discriminate; reflexivity. Qed.

Lemma V_nan x r : V x r -> is_nan x = false.
Proof. intros [(_ & H & _) | [(_ & ->) | (_ & ->)]]; [apply fin_nan; exact H | reflexivity | reflexivity]. Qed.

Lemma big_pos : (0 < big)%R.
Proof. apply bpow_gt_0. Qed.

Lemma V_mono x y r s : V x r -> V y s -> (r <= s)%R -> Bleb x y = true.
Proof.
  intros Hx Hy Hrs. pose proof (rnd_mono _ _ Hrs) as Hm. pose proof big_pos as Hb.
  pose proof (V_nan _ _ Hx) as Nx. pose proof (V_nan _ _ Hy) as Ny.
  destruct Hx as [(Ax & Fx & Bx) | [(Ax & ->) | (Ax & ->)]].
  - destruct Hy as [(Ay & Fy & By) | [(Ay & ->) | (Ay & ->)]].
    + rewrite Bleb_correct by assumption. rewrite Bx, By. apply Rle_bool_true. exact Hm.
    + apply leb_inf_r; exact Nx.
    + exfalso. apply Rabs_lt_inv in Ax. lra.
  - destruct Hy as [(Ay & Fy & By) | [(Ay & ->) | (Ay & ->)]].
    + exfalso. apply Rabs_lt_inv in Ay. lra.
    + reflexivity.
    + exfalso. lra.
  - apply leb_inf_l; exact Ny.
Qed.

Lemma V_leb_l x y r : V x r -> is_finite y = true -> (r <= B2R y)%R -> Bleb x y = true.
Proof. intros. eapply V_mono; [eassumption | apply V_fin; eassumption | assumption]. Qed.
Lemma V_leb_r x y r : V y r -> is_finite x = true -> (B2R x <= r)%R -> Bleb x y = true.
Proof. intros. eapply V_mono; [apply V_fin; eassumption | eassumption | assumption]. Qed.

Lemma overflow_inf (x : f64) s : B2SF x = binary_overflow prec emax mode_NE s -> x = B754_infinity s.
Proof.
  unfold binary_overflow; simpl. destruct x as [|t| |]; simpl; intros H; try discriminate.
  inversion H. reflexivity.
Qed.

Lemma sign_nonpos (x : f64) : is_finite x = true -> Bsign x = true -> (B2R x <= 0)%R.
Proof.
  destruct x as [s| | |s m e He]; simpl; intros; try discriminate; try lra; subst.
  apply F2R_le_0. simpl. lia.
Qed.
Lemma sign_nonneg (x : f64) : is_finite x = true -> Bsign x = false -> (0 <= B2R x)%R.
Proof.
  destruct x as [s| | |s m e He]; simpl; intros; try discriminate; try lra; subst.
  apply F2R_ge_0. simpl. lia.
Qed.

Lemma V_overflow x r s : (~ Rabs (rnd r) < big)%R -> x = B754_infinity s ->
  (if s then (r <= 0)%R else (0 <= r)%R) -> V x r.
Proof.
  intros H -> Hs. apply Rnot_lt_le in H. right. pose proof big_pos.
  destruct s.
  - right. split; [|reflexivity]. apply rnd_mono in Hs. rewrite rnd_0 in Hs.
    rewrite Rabs_left1 in H by lra. lra.
  - left. split; [|reflexivity]. apply rnd_mono in Hs. rewrite rnd_0 in Hs.
    rewrite Rabs_pos_eq in H by lra. lra.
Qed.

Lemma fadd_V x y : is_finite x = true -> is_finite y = true -> V (fadd x y) (B2R x + B2R y).
Proof.
  intros Fx Fy. pose proof (@Bplus_correct prec emax prec_gt_0 prec_lt_emax mode_NE x y Fx Fy) as H.
  fold (fadd x y) in H. change (round radix2 fexp64 (round_mode mode_NE)) with rnd in H.
  fold big in H. destruct (Rlt_bool_spec (Rabs (rnd (B2R x + B2R y))) big) as [L|G].
  - destruct H as (B & F & _). left. auto.
  - destruct H as (B & S). apply overflow_inf in B.
    eapply V_overflow; [lra | exact B |].
    destruct (Bsign x) eqn:Sx; symmetry in S.
    + pose proof (sign_nonpos x Fx Sx). pose proof (sign_nonpos y Fy S). lra.
    + pose proof (sign_nonneg x Fx Sx). pose proof (sign_nonneg y Fy S). lra.
Qed.

Lemma fsub_V x y : is_finite x = true -> is_finite y = true -> V (fsub x y) (B2R x - B2R y).
Proof.
  intros Fx Fy. pose proof (@Bminus_correct prec emax prec_gt_0 prec_lt_emax mode_NE x y Fx Fy) as H.
  fold (fsub x y) in H. change (round radix2 fexp64 (round_mode mode_NE)) with rnd in H.
  fold big in H. destruct (Rlt_bool_spec (Rabs (rnd (B2R x - B2R y))) big) as [L|G].
  - destruct H as (B & F & _). left. auto.
  - destruct H as (B & S). apply overflow_inf in B.
    eapply V_overflow; [lra | exact B |].
    destruct (Bsign x) eqn:Sx; destruct (Bsign y) eqn:Sy; try discriminate.
    + pose proof (sign_nonpos x Fx Sx). pose proof (sign_nonneg y Fy Sy). lra.
    + pose proof (sign_nonneg x Fx Sx). pose proof (sign_nonpos y Fy Sy). lra.
Qed.

Lemma fmul_V x y : is_finite x = true -> is_finite y = true -> V (fmul x y) (B2R x * B2R y).
Proof.
  intros Fx Fy. pose proof (@Bmult_correct prec emax prec_gt_0 prec_lt_emax mode_NE x y) as H.
  fold (fmul x y) in H. change (round radix2 fexp64 (round_mode mode_NE)) with rnd in H.
  fold big in H. destruct (Rlt_bool_spec (Rabs (rnd (B2R x * B2R y))) big) as [L|G].
  - destruct H as (B & F & _). left. rewrite Fx, Fy in F. auto.
  - apply overflow_inf in H.
    eapply V_overflow; [lra | exact H |].
    destruct (Bsign x) eqn:Sx; destruct (Bsign y) eqn:Sy; simpl.
    + pose proof (sign_nonpos x Fx Sx). pose proof (sign_nonpos y Fy Sy). nra.
    + pose proof (sign_nonpos x Fx Sx). pose proof (sign_nonneg y Fy Sy). nra.
    + pose proof (sign_nonneg x Fx Sx). pose proof (sign_nonpos y Fy Sy). nra.
    + pose proof (sign_nonneg x Fx Sx). pose proof (sign_nonneg y Fy Sy). nra.
Qed.

Lemma fdiv_V x y : is_finite x = true -> is_finite y = true -> B2R y <> 0%R -> V (fdiv x y) (B2R x / B2R y).
Proof.
  intros Fx Fy Ny. pose proof (@Bdiv_correct prec emax prec_gt_0 prec_lt_emax mode_NE x y Ny) as H.
  fold (fdiv x y) in H. change (round radix2 fexp64 (round_mode mode_NE)) with rnd in H.
  fold big in H. destruct (Rlt_bool_spec (Rabs (rnd (B2R x / B2R y))) big) as [L|G].
  - destruct H as (B & F & _). left. rewrite Fx in F. auto.
  - apply overflow_inf in H.
    eapply V_overflow; [lra | exact H |]. unfold Rdiv.
    assert (Hp : (0 < B2R y -> 0 < / B2R y)%R) by apply Rinv_0_lt_compat.
    assert (Hn : (B2R y < 0 -> / B2R y < 0)%R) by apply Rinv_lt_0_compat.
    destruct (Bsign x) eqn:Sx; destruct (Bsign y) eqn:Sy; simpl.
    + pose proof (sign_nonpos x Fx Sx). pose proof (sign_nonpos y Fy Sy).
      assert (/ B2R y < 0)%R by (apply Hn; lra). nra.
    + pose proof (sign_nonpos x Fx Sx). pose proof (sign_nonneg y Fy Sy).
      assert (0 < / B2R y)%R by (apply Hp; lra). nra.
    + pose proof (sign_nonneg x Fx Sx). pose proof (sign_nonpos y Fy Sy).
      assert (/ B2R y < 0)%R by (apply Hn; lra). nra.
    + pose proof (sign_nonneg x Fx Sx). pose proof (sign_nonneg y Fy Sy).
      assert (0 < / B2R y)%R by (apply Hp; lra). nra.
Qed.

Lemma fofZ_V z : V (fofZ z) (IZR z).
Proof.
  pose proof (@binary_normalize_correct prec emax prec_gt_0 prec_lt_emax mode_NE z 0 false) as H.
  cbv zeta in H. fold (fofZ z) in H.
  assert (E : F2R (Float radix2 z 0) = IZR z) by (unfold F2R; simpl; ring).
  rewrite E in H. change (round radix2 fexp64 (round_mode mode_NE)) with rnd in H.
  fold big in H. destruct (Rlt_bool_spec (Rabs (rnd (IZR z))) big) as [L|G].
  - destruct H as (B & F & _). left. auto.
  - apply overflow_inf in H. eapply V_overflow; [lra | exact H |].
    destruct (Rlt_bool_spec (IZR z) 0); lra.
Qed.

Lemma rnd_Z z : -9007199254740992 <= z <= 9007199254740992 -> rnd (IZR z) = IZR z.
Proof.
  intros H. unfold rnd. apply round_generic; [exact rnd_valid|].
  assert (D : Z.abs z < 9007199254740992 \/ Z.abs z = 9007199254740992) by lia.
  destruct D as [D|D].
  - apply (generic_format_FLT radix2 (3 - emax - prec) prec).
    exists (Float radix2 z 0); simpl.
    + unfold F2R; simpl. ring.
    + exact D.
    + unfold emax, prec. lia.
  - apply (generic_format_FLT radix2 (3 - emax - prec) prec).
    assert (z = 9007199254740992 \/ z = -9007199254740992) as [-> | ->] by lia.
    + exists (Float radix2 4503599627370496 1); simpl.
      * unfold F2R; simpl. lra.
      * lia.
      * unfold emax, prec; lia.
    + exists (Float radix2 (-4503599627370496) 1); simpl.
      * unfold F2R; simpl. lra.
      * lia.
      * unfold emax, prec; lia.
Qed.

Lemma big_large : (IZR (2 ^ 60) < big)%R.
Proof. unfold big, emax. change (2 ^ 60) with (Zpower radix2 60). rewrite IZR_Zpower by lia.
  apply bpow_lt. lia. Qed.

Lemma fofZ_exact z : -9007199254740992 <= z <= 9007199254740992 ->
  is_finite (fofZ z) = true /\ B2R (fofZ z) = IZR z.
Proof.
  intros H. destruct (fofZ_V z) as [(A & F & B) | [(A & B) | (A & B)]].
  - rewrite rnd_Z in B by lia. auto.
  - exfalso. rewrite rnd_Z in A by lia. pose proof big_large.
    assert (IZR z <= IZR (2^60))%R by (apply IZR_le; lia). lra.
  - exfalso. rewrite rnd_Z in A by lia. pose proof big_large.
    assert (IZR (- 2^60) <= IZR z)%R by (apply IZR_le; lia). rewrite opp_IZR in H1. lra.
Qed.

Lemma f0_eq : fofZ 0 = B754_zero false. Proof. reflexivity. Qed.

(** Order facts in terms of real values. *)
Lemma leb_R (x y : f64) : is_finite x = true -> is_finite y = true -> (Bleb x y = true <-> (B2R x <= B2R y)%R).
Proof.
  intros Fx Fy. rewrite Bleb_correct by assumption. split; intros H.
  - destruct (Rle_bool_spec (B2R x) (B2R y)); [assumption|discriminate].
  - apply Rle_bool_true; assumption.
Qed.
Lemma leb_R_false (x y : f64) : is_finite x = true -> is_finite y = true -> (Bleb x y = false <-> (B2R y < B2R x)%R).
Proof.
  intros Fx Fy. rewrite Bleb_correct by assumption. split; intros H.
  - destruct (Rle_bool_spec (B2R x) (B2R y)); [discriminate|assumption].
  - apply Rle_bool_false; assumption.
Qed.

Lemma ltb_eq (x y : f64) : Bltb x y = Bleb x y && negb (Bleb y x).
Proof.
  unfold Bltb, Bleb, SpecFloat.SFltb, SpecFloat.SFleb.
  destruct (is_finite x) eqn:Fx; [destruct (is_finite y) eqn:Fy|].
  - change (SpecFloat.SFcompare (B2SF x) (B2SF y)) with (Bcompare x y).
    change (SpecFloat.SFcompare (B2SF y) (B2SF x)) with (Bcompare y x).
    rewrite !Bcompare_correct by assumption.
    destruct (Rcompare_spec (B2R x) (B2R y)); destruct (Rcompare_spec (B2R y) (B2R x)); try reflexivity; exfalso; lra.
  - destruct x as [|[|]| |[|] ? ? ?], y as [|[|]| |[|] ? ? ?]; try discriminate; reflexivity.
  - destruct x as [|[|]| |[|] ? ? ?], y as [|[|]| |[|] ? ? ?]; try discriminate; reflexivity.
Qed.
Lemma eqb_eq (x y : f64) : Beqb x y = Bleb x y && Bleb y x.
Proof.
  unfold Beqb, Bleb, SpecFloat.SFeqb, SpecFloat.SFleb.
  destruct (is_finite x) eqn:Fx; [destruct (is_finite y) eqn:Fy|].
  - change (SpecFloat.SFcompare (B2SF x) (B2SF y)) with (Bcompare x y).
    change (SpecFloat.SFcompare (B2SF y) (B2SF x)) with (Bcompare y x).
    rewrite !Bcompare_correct by assumption.
    destruct (Rcompare_spec (B2R x) (B2R y)); destruct (Rcompare_spec (B2R y) (B2R x)); try reflexivity; exfalso; lra.
  - destruct x as [|[|]| |[|] ? ? ?], y as [|[|]| |[|] ? ? ?]; try discriminate; reflexivity.
  - destruct x as [|[|]| |[|] ? ? ?], y as [|[|]| |[|] ? ? ?]; try discriminate; reflexivity.
Qed.

(** Three-way split of a float. *)
Inductive fview : f64 -> Prop :=
| fv_nan : fview B754_nan
| fv_inf s : fview (B754_infinity s)
| fv_fin x : is_finite x = true -> fview x.
Lemma fv (x : f64) : fview x.
Proof. destruct x; try constructor; reflexivity. Qed.

Lemma leb_fin_inf x s : is_finite x = true -> Bleb x (B754_infinity s : f64) = negb s.
Proof. destruct x as [| | |[|] ? ? ?], s; intros; try discriminate; reflexivity. Qed.
Lemma leb_inf_fin x s : is_finite x = true -> Bleb (B754_infinity s : f64) x = s.
Proof. destruct x as [| | |[|] ? ? ?], s; intros; try discriminate; reflexivity. Qed.
Lemma leb_nan_1 (x : f64) : Bleb (B754_nan : f64) x = false.
Proof. reflexivity. Qed.
Lemma leb_nan_2 (x : f64) : Bleb x (B754_nan : f64) = false.
Proof. destruct x as [| | |[|] ? ? ?]; reflexivity. Qed.

Lemma fadd_nan_l (x : f64) : fadd B754_nan x = B754_nan. Proof. reflexivity. Qed.
Lemma fadd_nan_r (x : f64) : fadd x B754_nan = B754_nan. Proof. destruct x; reflexivity. Qed.
Lemma fadd_inf_l x s : is_finite x = true -> fadd (B754_infinity s) x = B754_infinity s.
Proof. destruct x; intros; try discriminate; reflexivity. Qed.
Lemma fadd_inf_r x s : is_finite x = true -> fadd x (B754_infinity s) = B754_infinity s.
Proof. destruct x; intros; try discriminate; reflexivity. Qed.
Lemma fmul_nan_l (x : f64) : fmul B754_nan x = B754_nan. Proof. reflexivity. Qed.
Lemma fmul_nan_r (x : f64) : fmul x B754_nan = B754_nan. Proof. destruct x; reflexivity. Qed.

Lemma leb_0 (x : f64) : is_finite x = true -> (Bleb (fofZ 0) x = true <-> (0 <= B2R x)%R).
Proof. intros F. rewrite leb_R by (try exact F; reflexivity). simpl. reflexivity. Qed.
Lemma leb_0r (x : f64) : is_finite x = true -> (Bleb x (fofZ 0) = true <-> (B2R x <= 0)%R).
Proof. intros F. rewrite leb_R by (try exact F; reflexivity). simpl. reflexivity. Qed.

Lemma B2R_1 : B2R (fofZ 1) = 1%R.
Proof. apply fofZ_exact. lia. Qed.
Lemma fin_1 : is_finite (fofZ 1) = true. Proof. reflexivity. Qed.

Lemma bool_eq_iff b c : (b = true <-> c = true) -> b = c.
Proof. destruct b, c; intuition congruence. Qed.

Lemma f_leb_trans (x y z : f64) : Bleb x y = true -> Bleb y z = true -> Bleb x z = true.
Proof.
  destruct (fv x) as [|s|x Fx]; destruct (fv y) as [|t|y Fy]; destruct (fv z) as [|w|z Fz];
    intros H1 H2; try discriminate;
    try rewrite leb_nan_2 in H1; try rewrite leb_nan_2 in H2; try discriminate;
    try (destruct s); try (destruct t); try (destruct w); try discriminate; try reflexivity;
    rewrite ?leb_fin_inf, ?leb_inf_fin in * by assumption; simpl in *; try discriminate; try reflexivity.
  apply leb_R in H1; apply leb_R in H2; try assumption. apply leb_R; try assumption. lra.
Qed.

Lemma V_sign_nn x r : V x r -> (0 <= r)%R -> Bleb (fofZ 0) x = true.
Proof. intros H Hr. eapply V_leb_r; [exact H | reflexivity | simpl; exact Hr]. Qed.

Lemma V_fin_between (x : f64) r (a b : f64) : V x r -> is_finite a = true -> is_finite b = true ->
  (B2R a <= r <= B2R b)%R -> is_finite x = true /\ (B2R a <= B2R x <= B2R b)%R.
Proof.
  intros H Fa Fb (H1 & H2). apply rnd_mono in H1; apply rnd_mono in H2. rewrite rnd_id in H1, H2.
  pose proof (abs_B2R_lt_emax _ _ a) as Aa. pose proof (abs_B2R_lt_emax _ _ b) as Ab. fold big in Aa, Ab.
  apply Rabs_lt_inv in Aa; apply Rabs_lt_inv in Ab.
  destruct H as [(A & F & B) | [(A & B) | (A & B)]].
  - split; [exact F | rewrite B; lra].
  - exfalso; lra.
  - exfalso; lra.
Qed.

Definition fmk (m e : Z) : f64 := binary_normalize prec emax prec_gt_0 prec_lt_emax mode_NE m e false.

Lemma rnd_F2R m e : Z.abs m < 2 ^ 53 -> -1074 <= e -> rnd (F2R (Float radix2 m e)) = F2R (Float radix2 m e).
Proof.
  intros Hm He. unfold rnd. apply round_generic; [exact rnd_valid|].
  apply (generic_format_FLT radix2 (3 - emax - prec) prec).
  exists (Float radix2 m e); [reflexivity | exact Hm | exact He].
Qed.

Lemma fmk_exact m e : Z.abs m < 2 ^ 53 -> -1074 <= e <= 900 ->
  is_finite (fmk m e) = true /\ B2R (fmk m e) = F2R (Float radix2 m e).
Proof.
  intros Hm He.
  pose proof (@binary_normalize_correct prec emax prec_gt_0 prec_lt_emax mode_NE m e false) as H.
  cbv zeta in H. fold (fmk m e) in H. change (round radix2 fexp64 (round_mode mode_NE)) with rnd in H.
  rewrite rnd_F2R in H by lia. fold big in H.
  assert (L : (Rabs (F2R (Float radix2 m e)) < big)%R).
  { rewrite <- F2R_Zabs. unfold F2R; simpl Fnum; simpl Fexp.
    apply Rlt_le_trans with (bpow radix2 53 * bpow radix2 e)%R.
    - apply Rmult_lt_compat_r; [apply bpow_gt_0|]. rewrite <- IZR_Zpower by lia. apply IZR_lt. exact Hm.
    - rewrite <- bpow_plus. apply bpow_le. unfold emax. lia. }
  rewrite Rlt_bool_true in H by exact L. destruct H as (B & F & _). auto.
Qed.

Lemma f_half : B2R (nhalf : f64) = (1/2)%R /\ is_finite (nhalf : f64) = true.
Proof.
  destruct (fofZ_exact 5 ltac:(lia)) as (F5 & B5).
  destruct (fofZ_exact 10 ltac:(lia)) as (F10 & B10).
  assert (HV : V (nhalf : f64) (B2R (fofZ 5) / B2R (fofZ 10))%R).
  { unfold nhalf, ndec; cbn [nofZ ndiv F64num]. change (10 ^ 1) with 10. apply fdiv_V; try assumption. rewrite B10; lra. }
  rewrite B5, B10 in HV.
  destruct (fmk_exact 1 (-1)) as (Fh & Bh); [simpl; lia | lia |].
  assert (Eh : F2R (Float radix2 1 (-1)) = (1/2)%R) by (unfold F2R; simpl; lra).
  rewrite Eh in Bh.
  destruct (V_fin_between _ _ (fmk 1 (-1)) (fmk 1 (-1)) HV Fh Fh) as (F & B); [rewrite Bh; lra|].
  rewrite Bh in B. split; [lra | exact F].
Qed.

Lemma f_eps8_pos : (1 / 200000000 <= B2R (neps8 : f64) <= 1)%R /\ is_finite (neps8 : f64) = true.
Proof.
  destruct (fofZ_exact 1 ltac:(lia)) as (F1 & B1).
  destruct (fofZ_exact 100000000 ltac:(lia)) as (F8 & B8).
  assert (HV : V (neps8 : f64) (1 / 100000000)%R).
  { unfold neps8, ndec; cbn [nofZ ndiv F64num]. change (10 ^ 8) with 100000000.
    replace (1 / 100000000)%R with (B2R (fofZ 1) / B2R (fofZ 100000000))%R by (rewrite B1, B8; reflexivity).
    apply fdiv_V; try assumption. rewrite B8. lra. }
  destruct (fmk_exact 1 (-27)) as (Fa & Ba); [simpl; lia | lia |].
  assert (Ea : F2R (Float radix2 1 (-27)) = (/ 134217728)%R) by (unfold F2R; simpl; lra).
  rewrite Ea in Ba.
  destruct (V_fin_between _ _ (fmk 1 (-27)) (fofZ 1) HV Fa F1) as (F & H).
  - rewrite Ba, B1. lra.
  - rewrite Ba, B1 in H. split; [lra | exact F].
Qed.

Lemma f_inv (a : f64) : nleb neps8 a = true ->
  is_finite (fdiv (fofZ 1) a) = true /\ (0 <= B2R (fdiv (fofZ 1) a) <= 200000000)%R.
Proof.
  change (@nleb f64 F64num) with (@Bleb prec emax). destruct f_eps8_pos as (He & Fe).
  generalize dependent (neps8 : f64). intros e8 He Fe H.
  destruct (fv a) as [|[|]|a Fa].
  - rewrite leb_nan_2 in H. discriminate.
  - rewrite leb_fin_inf in H by assumption. discriminate.
  - simpl. split; [reflexivity | simpl; lra].
  - apply leb_R in H; try assumption.
    destruct (fofZ_exact 200000000 ltac:(lia)) as (F2 & B2).
    assert (HV : V (fdiv (fofZ 1) a) (B2R (fofZ 1) / B2R a)%R) by (apply fdiv_V; try assumption; try reflexivity; lra).
    rewrite B2R_1 in HV.
    destruct (V_fin_between _ _ (fofZ 0) (fofZ 200000000) HV eq_refl F2) as (F & B).
    + rewrite B2. simpl B2R. unfold Rdiv. rewrite Rmult_1_l. split.
      * apply Rlt_le, Rinv_0_lt_compat. lra.
      * replace 200000000%R with (/ (1 / 200000000))%R by field. apply Rinv_le; lra.
    + rewrite B2 in B. split; [exact F | exact B].
Qed.

Global Instance F64laws : NumLaws f64.
Proof.
  split; unfold nn, n0, n1; cbn [nofZ nnan nadd nsub nmul ndiv nabs nleb nltb neqb nisnan nisfin nfrac F64num];
    unfold fisnan, fisfin.
  - (* leb_nan_l *) intros x y; destruct x; simpl; intros; try reflexivity; discriminate.
  - (* leb_nan_r *) intros x y; destruct y; simpl; intros; try reflexivity. rewrite leb_nan_2 in H; discriminate.
  - (* refl *) intros x H. destruct (fv x) as [|[|]|x Fx]; try discriminate; try reflexivity. apply leb_R; try assumption. lra.
  - exact f_leb_trans.
  - (* total *) intros x y Nx Ny. destruct (fv x) as [|s|x Fx]; destruct (fv y) as [|t|y Fy]; try discriminate.
    + destruct s, t; simpl; auto.
    + rewrite leb_fin_inf, leb_inf_fin by assumption. destruct s; auto.
    + rewrite leb_fin_inf, leb_inf_fin by assumption. destruct t; auto.
    + rewrite !leb_R by assumption. lra.
  - exact ltb_eq.
  - exact eqb_eq.
  - reflexivity.
  - exact fin_nan.
  - (* fin_between *) intros x y z Fx Fz H1 H2. destruct (fv y) as [|[|]|y Fy]; [| | |exact Fy].
    + discriminate.
    + rewrite leb_fin_inf in H1 by assumption; discriminate.
    + rewrite leb_inf_fin in H2 by assumption; discriminate.
  - (* ofZ_le *) intros a b H. eapply V_mono; try apply fofZ_V. apply IZR_le; exact H.
  - (* ofZ_lt *) intros a b Ha H Hb. destruct (fofZ_exact a ltac:(lia)) as (Fa & Ba). destruct (fofZ_exact b ltac:(lia)) as (Fb & Bb).
    rewrite ltb_eq. apply andb_true_iff. split; [|apply negb_true_iff].
    + apply leb_R; try assumption. rewrite Ba, Bb. apply IZR_le; lia.
    + apply leb_R_false; try assumption. rewrite Ba, Bb. apply IZR_lt; lia.
  - intros a H. apply fofZ_exact; exact H.
  - (* add_nn_l *) intros x y Hx Hy. destruct (fv x) as [|[|]|x Fx]; destruct (fv y) as [|[|]|y Fy]; try discriminate; try reflexivity.
    + rewrite fadd_inf_l by assumption. reflexivity.
    + rewrite fadd_inf_r by assumption. apply leb_inf_r, fin_nan; assumption.
    + apply leb_0 in Hy; [|assumption]. eapply V_leb_r; [apply fadd_V; assumption | assumption | lra].
  - (* add_nn_r *) intros x y Hx Hy. destruct (fv x) as [|[|]|x Fx]; destruct (fv y) as [|[|]|y Fy]; try discriminate; try reflexivity.
    + rewrite fadd_inf_l by assumption. apply leb_inf_r, fin_nan; assumption.
    + rewrite fadd_inf_r by assumption. reflexivity.
    + apply leb_0 in Hx; [|assumption]. eapply V_leb_r; [apply fadd_V; assumption | assumption | lra].
  - (* add_zz *) intros x y. rewrite !eqb_eq, !andb_true_iff. intros (X1 & X2) (Y1 & Y2).
    destruct (fv x) as [|[|]|x Fx]; try discriminate. destruct (fv y) as [|[|]|y Fy]; try discriminate.
    apply leb_0 in X2, Y2; try assumption. apply leb_0r in X1, Y1; try assumption.
    pose proof (fadd_V x y Fx Fy) as HV. split.
    + eapply V_leb_l; [exact HV | reflexivity | simpl; lra].
    + eapply V_leb_r; [exact HV | reflexivity | simpl; lra].
  - (* add_z_r *) intros x y. rewrite !eqb_eq, !andb_true_iff. intros (Y1 & Y2) Nx.
    destruct (fv y) as [|[|]|y Fy]; try discriminate. apply leb_0 in Y2; try assumption. apply leb_0r in Y1; try assumption.
    destruct (fv x) as [|[|]|x Fx]; try discriminate.
    + rewrite fadd_inf_l by assumption. split; reflexivity.
    + rewrite fadd_inf_l by assumption. split; reflexivity.
    + pose proof (fadd_V x y Fx Fy) as HV. split; [eapply V_leb_l | eapply V_leb_r]; try exact HV; try assumption; lra.
  - (* add_z_l *) intros x y. rewrite !eqb_eq, !andb_true_iff. intros (Y1 & Y2) Nx.
    destruct (fv x) as [|[|]|x Fx]; try discriminate. apply leb_0 in Y2; try assumption. apply leb_0r in Y1; try assumption.
    destruct (fv y) as [|[|]|y Fy]; try discriminate.
    + rewrite fadd_inf_r by assumption. split; reflexivity.
    + rewrite fadd_inf_r by assumption. split; reflexivity.
    + pose proof (fadd_V x y Fx Fy) as HV. split; [eapply V_leb_l | eapply V_leb_r]; try exact HV; try assumption; lra.
  - (* add_ge *) intros lo t d Fl Hl Hd.
    destruct (fv t) as [|[|]|t Ft].
    + rewrite leb_nan_2 in Hl; discriminate.
    + rewrite leb_fin_inf in Hl by assumption; discriminate.
    + destruct (fv d) as [|[|]|d Fd]; try discriminate; try reflexivity. rewrite fadd_inf_l by assumption. reflexivity.
    + destruct (fv d) as [|[|]|d Fd]; try discriminate.
      * rewrite fadd_inf_r by assumption. apply leb_inf_r, fin_nan; assumption.
      * apply leb_0 in Hd; [|assumption]. eapply V_leb_r; [apply fadd_V; assumption | assumption | lra].
  - (* add_le_mono *) intros x x' y y' Hx Hy H1 H2.
    assert (Hx' : Bleb (fofZ 0) x' = true) by (exact (f_leb_trans _ _ _ Hx H1)).
    assert (Hy' : Bleb (fofZ 0) y' = true) by (exact (f_leb_trans _ _ _ Hy H2)).
    assert (Hs : forall a b : f64, Bleb (fofZ 0) a = true -> Bleb (fofZ 0) b = true -> is_nan (fadd a b) = false).
    { intros a b Ha Hb. destruct (fv a) as [|[|]|a Fa]; destruct (fv b) as [|[|]|b Fb]; try discriminate; try reflexivity.
      - rewrite fadd_inf_l by assumption. reflexivity.
      - rewrite fadd_inf_r by assumption. reflexivity.
      - eapply V_nan, fadd_V; assumption. }
    destruct (fv x') as [|[|]|x' Fx']; try discriminate.
    + replace (fadd (B754_infinity false) y') with (B754_infinity false : f64); [apply leb_inf_r, Hs; assumption|].
      destruct (fv y') as [|[|]|y' Fy']; try discriminate; try reflexivity. rewrite fadd_inf_l by assumption. reflexivity.
    + destruct (fv y') as [|[|]|y' Fy']; try discriminate.
      * rewrite fadd_inf_r by assumption. apply leb_inf_r, Hs; assumption.
      * destruct (fv x) as [|[|]|x Fx]; try discriminate; [rewrite leb_inf_fin in H1 by assumption; discriminate|].
        destruct (fv y) as [|[|]|y Fy]; try discriminate; [rewrite leb_inf_fin in H2 by assumption; discriminate|].
        apply leb_R in H1, H2; try assumption.
        eapply V_mono; [apply fadd_V; assumption | apply fadd_V; assumption | lra].
  - (* add_notneg *) intros x y Hx Hy. rewrite ltb_eq in *.
    destruct (fv x) as [|[|]|x Fx].
    + reflexivity.
    + discriminate.
    + destruct (fv y) as [|[|]|y Fy]; try discriminate; try reflexivity. rewrite fadd_inf_l by assumption. reflexivity.
    + destruct (fv y) as [|[|]|y Fy]; try discriminate.
      * rewrite fadd_nan_r. reflexivity.
      * rewrite fadd_inf_r by assumption. reflexivity.
      * assert (0 <= B2R x)%R.
        { destruct (Rle_or_lt 0 (B2R x)); [assumption|]. exfalso.
          assert (Bleb x (fofZ 0) = true) by (apply leb_0r; [assumption|lra]).
          assert (Bleb (fofZ 0) x = false) by (apply leb_R_false; try assumption; try reflexivity; simpl; lra).
          rewrite H0, H1 in Hx. discriminate. }
        assert (0 <= B2R y)%R.
        { destruct (Rle_or_lt 0 (B2R y)); [assumption|]. exfalso.
          assert (Bleb y (fofZ 0) = true) by (apply leb_0r; [assumption|lra]).
          assert (Bleb (fofZ 0) y = false) by (apply leb_R_false; try assumption; try reflexivity; simpl; lra).
          rewrite H1, H2 in Hy. discriminate. }
        assert (G : Bleb (fofZ 0) (fadd x y) = true) by (eapply V_sign_nn; [apply fadd_V; assumption | lra]).
        rewrite G. apply andb_false_r.
  - (* sub_z_r *) intros x Nx. destruct (fv x) as [|[|]|x Fx]; try discriminate; try reflexivity.
    rewrite eqb_eq, andb_true_iff. pose proof (fsub_V x (fofZ 0) Fx eq_refl) as HV. simpl B2R in HV.
    split; [eapply V_leb_l | eapply V_leb_r]; try exact HV; try assumption; lra.
  - (* sub_fin_z *) intros x Fx. pose proof (fsub_V x (fofZ 0) Fx eq_refl) as HV. simpl B2R in HV.
    apply (V_fin_between _ _ x x) in HV; try assumption; [apply HV | lra].
  - (* sub_nn *) intros x y Fx Fy H. apply leb_R in H; try assumption.
    eapply V_sign_nn; [apply fsub_V; assumption | lra].
  - (* mul_notneg *) intros x y Hx Hy. rewrite ltb_eq in *.
    assert (P : forall z : f64, is_finite z = true -> Bleb z (fofZ 0) && negb (Bleb (fofZ 0) z) = false -> (0 <= B2R z)%R).
    { intros z Fz Hz. destruct (Rle_or_lt 0 (B2R z)); [assumption|]. exfalso.
          assert (H1 : Bleb z (fofZ 0) = true) by (apply leb_0r; [assumption|lra]).
          assert (H2 : Bleb (fofZ 0) z = false) by (apply leb_R_false; try assumption; try reflexivity; simpl; lra).
          rewrite H1, H2 in Hz. discriminate. }
    destruct (fv x) as [|[|]|x Fx].
    + reflexivity.
    + discriminate.
    + destruct y as [[|]|[|]| |[|] m e He]; try discriminate; reflexivity.
    + destruct (fv y) as [|[|]|y Fy]; try discriminate.
      * rewrite fmul_nan_r. reflexivity.
      * destruct x as [[|]|[|]| |[|] m e He]; try discriminate; reflexivity.
      * assert (G : Bleb (fofZ 0) (fmul x y) = true).
        { eapply V_sign_nn; [apply fmul_V; assumption |]. apply Rmult_le_pos; apply P; assumption. }
        rewrite G. apply andb_false_r.
  - (* mul_nn *) intros x y Hx Hy Fx Fy. apply leb_0 in Hx, Hy; try assumption.
    eapply V_sign_nn; [apply fmul_V; assumption | nra].
  - (* mul_nn_pos *) intros x y Hx Hy Fy. rewrite ltb_eq in Hy. apply andb_true_iff in Hy as (Hy1 & Hy2). apply negb_true_iff in Hy2.
    apply leb_R_false in Hy2; try assumption; try reflexivity. simpl in Hy2.
    destruct (fv x) as [|[|]|x Fx]; try discriminate.
    + destruct y as [[|]|[|]| |[|] m e He]; try discriminate; simpl in Hy2; try lra; try reflexivity.
    + apply leb_0 in Hx; try assumption. eapply V_sign_nn; [apply fmul_V; assumption | nra].
  - (* mul_le_r *) intros x u Hx Fx Hu Hu1. 
    assert (Fu : is_finite u = true) by (destruct (fv u) as [|[|]|u' Fu]; try discriminate; exact Fu).
    apply leb_0 in Hx, Hu; try assumption. apply leb_R in Hu1; try assumption; try reflexivity. rewrite B2R_1 in Hu1.
    eapply V_leb_l; [apply fmul_V; assumption | assumption | nra].
  - (* mul_le_l *) intros x u Hx Fx Hu Hu1. 
    assert (Fu : is_finite u = true) by (destruct (fv u) as [|[|]|u' Fu]; try discriminate; exact Fu).
    apply leb_0 in Hx, Hu; try assumption. apply leb_R in Hu1; try assumption; try reflexivity. rewrite B2R_1 in Hu1.
    eapply V_leb_l; [apply fmul_V; assumption | assumption | nra].
  - (* mul_z_l *) intros x y. rewrite !eqb_eq, !andb_true_iff. intros (X1 & X2) Fy.
    destruct (fv x) as [|[|]|x Fx]; try discriminate. apply leb_0 in X2; try assumption. apply leb_0r in X1; try assumption.
    pose proof (fmul_V x y Fx Fy) as HV. assert (Z : B2R x = 0%R) by lra. rewrite Z in HV.
    split; [eapply V_leb_l | eapply V_leb_r]; try exact HV; try reflexivity; simpl; lra.
  - (* div_notneg *) intros x y Hx Hy. rewrite ltb_eq in *. apply andb_true_iff in Hy as (Hy1 & Hy2). apply negb_true_iff in Hy2.
    destruct (fv y) as [|[|]|y Fy]; try discriminate.
    + destruct x as [[|]|[|]| |[|] m e He]; try discriminate; reflexivity.
    + apply leb_R_false in Hy2; try assumption; try reflexivity. simpl in Hy2.
      destruct (fv x) as [|[|]|x Fx]; try discriminate.
      * reflexivity.
      * destruct y as [[|]|[|]| |[|] m e He]; try discriminate; simpl in Hy2; try lra; try reflexivity.
      * assert (0 <= B2R x)%R.
        { destruct (Rle_or_lt 0 (B2R x)); [assumption|]. exfalso.
          assert (H1 : Bleb x (fofZ 0) = true) by (apply leb_0r; [assumption|lra]).
          assert (H2 : Bleb (fofZ 0) x = false) by (apply leb_R_false; try assumption; try reflexivity; simpl; lra).
          rewrite H1, H2 in Hx. discriminate. }
        assert (G : Bleb (fofZ 0) (fdiv x y) = true).
        { eapply V_sign_nn; [apply fdiv_V; try assumption; lra |].
          unfold Rdiv. apply Rmult_le_pos; [assumption|]. apply Rlt_le, Rinv_0_lt_compat. lra. }
        rewrite G. apply andb_false_r.
  - (* div_share *) intros x y Hx Hxy Fy. rewrite ltb_eq in Hx. apply andb_true_iff in Hx as (Hx1 & Hx2). apply negb_true_iff in Hx2.
    assert (Fx : is_finite x = true).
    { destruct (fv x) as [|[|]|x' Fx]; try discriminate; [|exact Fx]. rewrite leb_inf_fin in Hxy by assumption. discriminate. }
    apply leb_R_false in Hx2; try assumption; try reflexivity. change (B2R (fofZ 0)) with 0%R in Hx2.
    apply leb_R in Hxy; try assumption.
    assert (Dp : (0 < B2R x / B2R y)%R) by (unfold Rdiv; apply Rmult_lt_0_compat; [lra | apply Rinv_0_lt_compat; lra]).
    assert (D1 : (B2R x / B2R y <= 1)%R).
    { apply Rmult_le_reg_r with (B2R y); [lra|]. unfold Rdiv. rewrite Rmult_assoc, Rinv_l by lra. lra. }
    assert (HV : V (fdiv x y) (B2R x / B2R y)) by (apply fdiv_V; try assumption; lra).
    split.
    + eapply V_leb_l; [exact HV | reflexivity | rewrite B2R_1; exact D1].
    + pose proof (@Bdiv_correct prec emax prec_gt_0 prec_lt_emax mode_NE x y ltac:(lra)) as Hc.
      fold (fdiv x y) in Hc. change (round radix2 fexp64 (round_mode mode_NE)) with rnd in Hc. fold big in Hc.
      destruct (V_fin_between _ _ (fofZ 0) (fofZ 1) HV eq_refl eq_refl) as (F & Rg);
        [rewrite B2R_1; change (B2R (fofZ 0)) with 0%R; lra|].
      change (B2R (fofZ 0)) with 0%R in Rg.
      destruct (Rlt_bool_spec (Rabs (rnd (B2R x / B2R y))) big) as [L|G].
      * destruct Hc as (Bv & _ & Sg). specialize (Sg (fin_nan _ F)).
        assert (Sx : Bsign x = false).
        { destruct (Bsign x) eqn:E; [|reflexivity]. pose proof (sign_nonpos x Fx E). lra. }
        assert (Sy : Bsign y = false).
        { destruct (Bsign y) eqn:E; [|reflexivity]. pose proof (sign_nonpos y Fy E). lra. }
        rewrite Sx, Sy in Sg. simpl in Sg.
        destruct (Req_dec (B2R (fdiv x y)) 0) as [Z|NZ].
        -- left. destruct (fdiv x y) as [s| | |s m e He]; simpl in Sg, F; try discriminate; subst s; [reflexivity|].
           exfalso. simpl in Z. apply eq_0_F2R in Z. discriminate.
        -- right. rewrite ltb_eq. apply andb_true_iff. split; [|apply negb_true_iff].
           ++ apply leb_0; [exact F | exact (proj1 Rg)].
           ++ apply leb_R_false; [exact F | reflexivity |]. change (B2R (fofZ 0)) with 0%R. lra.
      * exfalso. apply overflow_inf in Hc. rewrite Hc in F. discriminate.
  - (* div_0 *) intros y Hy Fy. rewrite ltb_eq in Hy. apply andb_true_iff in Hy as (Hy1 & Hy2). apply negb_true_iff in Hy2.
    apply leb_R_false in Hy2; try assumption; try reflexivity. change (B2R (fofZ 0)) with 0%R in Hy2.
    destruct y as [[|]|[|]| |[|] m e He]; simpl in Hy2; try discriminate; try lra; try reflexivity.
  - (* mul_0_pos *) intros y Hy Fy. rewrite ltb_eq in Hy. apply andb_true_iff in Hy as (Hy1 & Hy2). apply negb_true_iff in Hy2.
    apply leb_R_false in Hy2; try assumption; try reflexivity. change (B2R (fofZ 0)) with 0%R in Hy2.
    destruct y as [[|]|[|]| |[|] m e He]; simpl in Hy2; try discriminate; try lra; try reflexivity.
  - reflexivity.
  - reflexivity.
  - (* abs_nn *) intros x Nx. destruct (fv x) as [|[|]|x Fx]; try discriminate; try reflexivity.
    apply leb_0; [rewrite is_finite_Babs; assumption|]. rewrite B2R_Babs. apply Rabs_pos.
  - intros x; destruct x; reflexivity.
  - intros x; apply is_finite_Babs.
  - repeat split; vm_compute; reflexivity.
  - repeat split; vm_compute; reflexivity.
  - repeat split; vm_compute; reflexivity.
  - (* inv_sum_ok *) intros a b Ha Hb. destruct (f_inv a Ha) as (Fa & Ba). destruct (f_inv b Hb) as (Fb & Bb).
    pose proof (fadd_V _ _ Fa Fb) as HV.
    destruct (fofZ_exact 400000000 ltac:(lia)) as (F4 & B4).
    apply (V_fin_between _ _ (fofZ 0) (fofZ 400000000)) in HV as (F & B); try assumption; try reflexivity.
    + rewrite B4 in B. split; [|exact F]. apply leb_0; [exact F|]. change (B2R (fofZ 0)) with 0%R in B. exact (proj1 B).
    + rewrite B4. change (B2R (fofZ 0)) with 0%R. lra.
  - (* diff_pos *) intros u dc Hu Hu1 Hd Hd2.
    assert (Fu : is_finite u = true) by (destruct (fv u) as [|[|]|u' Fu]; try discriminate; exact Fu).
    assert (Fd : is_finite dc = true) by (destruct (fv dc) as [|[|]|d' Fd]; try discriminate; exact Fd).
    apply leb_0 in Hu, Hd; try assumption.
    destruct (fofZ_exact 2 ltac:(lia)) as (F2 & B2).
    apply leb_R in Hd2; try assumption. rewrite B2 in Hd2.
    rewrite ltb_eq in Hu1. apply andb_true_iff in Hu1 as (_ & Hu1). apply negb_true_iff in Hu1.
    apply leb_R_false in Hu1; try assumption; try reflexivity. rewrite B2R_1 in Hu1.
    assert (Hup : (B2R u <= 1 - bpow radix2 (-53))%R).
    { assert (P : (B2R u <= pred radix2 fexp64 1)%R).
      { apply pred_ge_gt; try exact fexp64_valid; [apply generic_format_B2R | | exact Hu1].
        rewrite <- B2R_1. apply generic_format_B2R. }
      change 1%R with (bpow radix2 0) in P. rewrite pred_bpow in P. exact P. }
    set (c1 := fmk (-4503599627370495) (-53)).
    set (c2 := fmk (-4503599627370495) (-52)).
    set (c3 := fmk 1 (-52)).
    destruct (fmk_exact (-4503599627370495) (-53)) as (Fc1 & C1); [simpl; lia | lia |].
    destruct (fmk_exact (-4503599627370495) (-52)) as (Fc2 & C2); [simpl; lia | lia |].
    destruct (fmk_exact 1 (-52)) as (Fc3 & C3); [simpl; lia | lia |].
    fold c1 in Fc1, C1. fold c2 in Fc2, C2. fold c3 in Fc3, C3.
    replace (F2R _) with (- (4503599627370495 / 9007199254740992))%R in C1 by (unfold F2R; simpl; lra).
    replace (F2R _) with (- (4503599627370495 / 4503599627370496))%R in C2 by (unfold F2R; simpl; lra).
    replace (F2R _) with (/ 4503599627370496)%R in C3 by (unfold F2R; simpl; lra).
    assert (E53 : bpow radix2 (-53) = (/ 9007199254740992)%R) by reflexivity.
    rewrite E53 in Hup.
    destruct f_half as (Bh & Fh).
    pose proof (fsub_V (@nhalf f64 F64num) u Fh Fu) as V1. rewrite Bh in V1.
    apply (V_fin_between _ _ c1 (fofZ 1)) in V1 as (G1 & R1); try assumption; try apply fin_1; [|rewrite C1, B2R_1; lra].
    rewrite C1, B2R_1 in R1.
    pose proof (fmul_V _ _ G1 Fd) as V2.
    apply (V_fin_between _ _ c2 (fofZ 2)) in V2 as (G2 & R2); try assumption; [|rewrite C2, B2; nra].
    rewrite C2, B2 in R2.
    pose proof (fadd_V (fofZ 1) _ fin_1 G2) as V3. rewrite B2R_1 in V3.
    destruct (fofZ_exact 3 ltac:(lia)) as (F3 & B3).
    apply (V_fin_between _ _ c3 (fofZ 3)) in V3 as (G3 & R3); try assumption; [|rewrite C3, B3; lra].
    rewrite C3 in R3.
    split; [|exact G3].
    rewrite ltb_eq. apply andb_true_iff. split; [|apply negb_true_iff].
    + apply leb_0; [exact G3 | lra].
    + apply leb_R_false; [exact G3 | reflexivity |]. change (B2R (fofZ 0)) with 0%R. lra.
  - split; vm_compute; reflexivity.
Qed.

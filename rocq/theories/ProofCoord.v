(** coord2ind / ind2coord: round trip in exact arithmetic and in doubles. *)
From Coq Require Import ZArith Bool String List Lia QArith Qcanon Lqa Reals Lra Psatz.
From Flocq Require Import Core IEEE754.BinarySingleNaN Relative.
From Verif Require Import Num NumFacts F64 F64Laws XQ XQLaws XQFacts Py Walker ParticleTrack SpecWeights SpecPick SpecWalk PostProc SpecPost ProofExposure.
Import ListNotations.
Open Scope Z_scope.
Open Scope res_scope.

Local Existing Instance prec_gt_0.
Local Existing Instance prec_lt_emax.

(** ** Rounding to an integer *)
Lemma zround_near n d k : 2 * Z.abs (n - k * Zpos d) < Zpos d -> zround_he (n, d) = k.
Proof.
  intros H. unfold zround_he. cbn [fst snd]. set (D := Zpos d) in *. assert (D0 : 0 < D) by reflexivity.
  pose proof (Z.div_mod n D ltac:(lia)) as E. pose proof (Z.mod_pos_bound n D D0) as B. set (q := n / D) in *.
  replace (n - q * D) with (n mod D) by lia. remember (q - k) as m eqn:Em. assert (X : n - k * D = m * D + n mod D) by (subst m; lia).
  rewrite X in H. assert (m <= 0) by nia. assert (-1 <= m) by nia. assert (M : m = 0 \/ m = -1) by lia.
  destruct (Z.compare_spec (2 * (n mod D)) D) as [C|C|C]; destruct M as [-> | ->]; try lia.
Qed.
Lemma zround_dist n d : 2 * Z.abs (n - zround_he (n, d) * Zpos d) <= Zpos d.
Proof.
  unfold zround_he. cbn [fst snd]. set (D := Zpos d) in *. assert (D0 : 0 < D) by reflexivity.
  pose proof (Z.div_mod n D ltac:(lia)) as E. pose proof (Z.mod_pos_bound n D D0) as B. set (q := n / D) in *.
  replace (n - q * D) with (n mod D) by lia. destruct (Z.compare_spec (2 * (n mod D)) D) as [C|C|C].
  - destruct (Z.even q); nia.
  - nia.
  - nia.
Qed.

(** ** Exact arithmetic *)
Lemma this_num_den (a : Qc) : (this a == Qnum (this a) # Qden (this a))%Q.
Proof. destruct (this a). reflexivity. Qed.
Lemma round_exact (a : Qc) k : (2 * Qabs.Qabs (this a - inject_Z k) < 1)%Q -> py_round (XFin a) = Ok k.
Proof.
  intros H. unfold py_round. cbn [nfrac XQnum xfrac]. f_equal. apply zround_near.
  destruct (this a) as [n d]. cbn [Qnum Qden]. unfold Qabs.Qabs, Qlt, Qminus, Qmult, Qplus, Qopp, inject_Z in H. cbn [Qnum Qden] in H. lia.
Qed.
Lemma round_exact_dist (a : Qc) k : py_round (XFin a) = Ok k -> (2 * Qabs.Qabs (this a - inject_Z k) <= 1)%Q.
Proof.
  unfold py_round. cbn [nfrac XQnum xfrac]. intros E. injection E as <-.
  pose proof (zround_dist (Qnum (this a)) (Qden (this a))) as D. destruct (this a) as [n d]. cbn [Qnum Qden] in *.
  unfold Qabs.Qabs, Qle, Qminus, Qmult, Qplus, Qopp, inject_Z. cbn [Qnum Qden]. lia.
Qed.
Lemma round_total (a : Qc) : exists k, py_round (XFin a) = Ok k.
Proof. eexists. reflexivity. Qed.
Lemma nofZ_xq z : (nofZ z : xq) = XFin (Qcofz z). Proof. reflexivity. Qed.
Lemma qcofz_sub a b : (Qcofz a - Qcofz b)%Qc = Qcofz (a - b).
Proof. apply Qc_eq_iff. rewrite this_sub, !this_ofz. unfold Z.sub. rewrite inject_Z_plus, inject_Z_opp. reflexivity. Qed.

Lemma py_div_xq a c : c <> 0%Qc -> py_div (XFin a) (XFin c) = Ok (XFin (a / c)%Qc).
Proof.
  intros H. unfold py_div. rewrite n0_xq. destruct (neqb (XFin c) (XFin 0%Qc)) eqn:E; [apply xq_eqb in E; contradiction|]. rewrite xq_div by exact H. reflexivity.
Qed.
Lemma round_cofz k : py_round (XFin (Qcofz k)) = Ok k.
Proof. apply round_exact. rewrite this_ofz. setoid_replace (inject_Z k - inject_Z k)%Q with 0%Q by ring. reflexivity. Qed.

Lemma round_trip_exact x0 y0 c L i j : c <> 0%Qc ->
  coord2ind1 (XFin x0, XFin y0) L (XFin c) (xcoord1 (XFin x0, XFin y0) (XFin c) j, ycoord1 (XFin x0, XFin y0) L (XFin c) i) = Ok (i, j).
Proof.
  intros H. unfold coord2ind1, xcoord1, ycoord1. cbn [fst snd].
  rewrite !nofZ_xq, !xq_sub, !xq_mul, !xq_add, !xq_sub, !py_div_xq by exact H. cbn [bind].
  replace (((Qcofz L - Qcofz i) * c + y0 - y0) / c)%Qc with (Qcofz (L - i)) by (rewrite <- qcofz_sub; field; exact H).
  replace ((Qcofz j * c + x0 - x0) / c)%Qc with (Qcofz j) by (field; exact H).
  rewrite !round_cofz. cbn [bind]. f_equal. f_equal. lia.
Qed.

Lemma half_cell x0 y0 c L x y i j : (0 < c)%Qc ->
  coord2ind1 (XFin x0, XFin y0) L (XFin c) (XFin x, XFin y) = Ok (i, j) ->
  exists x' y', xcoord1 (XFin x0, XFin y0) (XFin c) j = XFin x' /\ ycoord1 (XFin x0, XFin y0) L (XFin c) i = XFin y' /\
    (2 * Qabs.Qabs (this x' - this x) <= this c)%Q /\ (2 * Qabs.Qabs (this y' - this y) <= this c)%Q.
Proof.
  intros P. pose proof (qc_pos_nz c P) as H. unfold coord2ind1, xcoord1, ycoord1. cbn [fst snd].
  rewrite !nofZ_xq, !xq_sub, !xq_mul, !xq_add, !py_div_xq by exact H. cbn [bind].
  destruct (py_round (XFin ((y - y0) / c)%Qc)) as [ry|] eqn:Ey; [|discriminate]. cbn [bind].
  destruct (py_round (XFin ((x - x0) / c)%Qc)) as [rx|] eqn:Ex; [|discriminate]. cbn [bind].
  intros E. injection E as <- <-. do 2 eexists. split; [reflexivity|]. split; [reflexivity|].
  apply round_exact_dist in Ey. apply round_exact_dist in Ex.
  assert (C : (0 < this c)%Q) by exact P.
  assert (K : forall z z0 r, (2 * Qabs.Qabs (this ((z - z0) / c)%Qc - inject_Z r) <= 1)%Q -> (2 * Qabs.Qabs (inject_Z r * this c + this z0 - this z) <= this c)%Q).
  { intros z z0 r Hr. rewrite this_div, this_sub in Hr.
    assert (E : (inject_Z r * this c + this z0 - this z == - (((this z - this z0) / this c - inject_Z r) * this c))%Q) by (field; Lqa.lra).
    rewrite E, Qabs.Qabs_opp, Qabs.Qabs_Qmult. rewrite (Qabs.Qabs_pos (this c)) by Lqa.lra. Lqa.nra. }
  split.
  - setoid_replace (this (Qcofz rx * c + x0)%Qc - this x)%Q with (inject_Z rx * this c + this x0 - this x)%Q; [apply K; exact Ex|].
    rewrite this_add, this_mul, this_ofz. reflexivity.
  - setoid_replace (this ((Qcofz L - Qcofz (L - ry)) * c + y0)%Qc - this y)%Q with (inject_Z ry * this c + this y0 - this y)%Q; [apply K; exact Ey|].
    rewrite qcofz_sub, this_add, this_mul, this_ofz. replace (L - (L - ry)) with ry by lia. reflexivity.
Qed.

(** A point more than half a cell above the lower edge and at least half a cell left of the right edge. *)
Lemma in_range_exact x0 y0 c L W x y : (0 < c)%Qc ->
  (x0 <= x)%Qc -> (2 * (this x - this x0) < (2 * inject_Z W - 1) * this c)%Q ->
  (this c < 2 * (this y - this y0))%Q -> (2 * (this y - this y0) <= 2 * inject_Z L * this c)%Q ->
  exists i j, coord2ind1 (XFin x0, XFin y0) L (XFin c) (XFin x, XFin y) = Ok (i, j) /\ 0 <= i < L /\ 0 <= j < W.
Proof.
  intros P X1 X2 Y1 Y2. pose proof (qc_pos_nz c P) as H. unfold coord2ind1. cbn [fst snd].
  rewrite !xq_sub, !py_div_xq by exact H. cbn [bind].
  destruct (round_total ((y - y0) / c)%Qc) as (ry & Ey). destruct (round_total ((x - x0) / c)%Qc) as (rx & Ex). rewrite Ey, Ex. cbn [bind].
  do 2 eexists. split; [reflexivity|].
  apply round_exact_dist in Ey. apply round_exact_dist in Ex. rewrite this_div, this_sub in Ey, Ex.
  assert (C : (0 < this c)%Q) by exact P. unfold Qcle in X1.
  assert (AB : forall q : Q, (2 * Qabs.Qabs q <= 1)%Q -> (- (1#2) <= q)%Q /\ (q <= 1#2)%Q).
  { intros q Hq. apply Qabs.Qabs_Qle_condition. Lqa.lra. }
  apply AB in Ex as (Ex1 & Ex2). apply AB in Ey as (Ey1 & Ey2).
  assert (DX : (this x - this x0 == (this x - this x0) / this c * this c)%Q) by (field; Lqa.lra).
  assert (DY : (this y - this y0 == (this y - this y0) / this c * this c)%Q) by (field; Lqa.lra).
  set (dx := ((this x - this x0) / this c)%Q) in *. set (dy := ((this y - this y0) / this c)%Q) in *. rewrite DX in X2. rewrite DY in Y1, Y2.
  assert (0 <= dx)%Q by (apply Qle_shift_div_l; [exact C | Lqa.lra]).
  assert (2 * dx < 2 * inject_Z W - 1)%Q by Lqa.nra. assert (1 < 2 * dy)%Q by Lqa.nra. assert (dy <= inject_Z L)%Q by Lqa.nra.
  assert (A1 : (inject_Z (-1) < inject_Z rx)%Q) by (change (inject_Z (-1)) with (-1)%Q; Lqa.lra).
  assert (A2 : (inject_Z rx < inject_Z W)%Q) by Lqa.lra.
  assert (A3 : (inject_Z 0 < inject_Z ry)%Q) by (change (inject_Z 0) with 0%Q; Lqa.lra).
  assert (A4 : (inject_Z ry < inject_Z (L + 1))%Q) by (rewrite inject_Z_plus; change (inject_Z 1) with 1%Q; Lqa.lra).
  rewrite <- Zlt_Qlt in A1, A2, A3, A4. lia.
Qed.

(** ** Doubles *)
Open Scope R_scope.
Definition u53 : R := / 9007199254740992.
Lemma u53_eq : (/2 * bpow radix2 (- prec + 1)) = u53.
Proof. unfold u53. simpl. lra. Qed.
Lemma eta_small : / 2 * bpow radix2 (SpecFloat.emin prec emax) <= bpow radix2 (-300).
Proof.
  assert (E : bpow radix2 (SpecFloat.emin prec emax) <= bpow radix2 (-300)) by (apply bpow_le; vm_compute; discriminate).
  pose proof (bpow_gt_0 radix2 (SpecFloat.emin prec emax)). lra.
Qed.
Lemma rnd_err r : Rabs (rnd r - r) <= u53 * Rabs r + bpow radix2 (-300).
Proof.
  destruct (error_N_FLT radix2 (SpecFloat.emin prec emax) prec prec_gt_0 (fun x => negb (Z.even x)) r) as (eps & eta & He & Ht & _ & E).
  unfold rnd. change (round_mode mode_NE) with (Znearest (fun x => negb (Z.even x))). change fexp64 with (FLT_exp (SpecFloat.emin prec emax) prec). rewrite E. rewrite u53_eq in He.
  replace (r * (1 + eps) + eta - r) with (r * eps + eta) by ring.
  eapply Rle_trans; [apply Rabs_triang|]. rewrite Rabs_mult. pose proof eta_small. pose proof (Rabs_pos r). nra.
Qed.
(** 2^150 is far below the overflow threshold. *)
Lemma V_small x r : V x r -> Rabs r <= bpow radix2 200 -> is_finite x = true /\ Rabs (B2R x - r) <= u53 * Rabs r + bpow radix2 (-300).
Proof.
  intros HV Hr. pose proof (rnd_err r) as E.
  assert (B : Rabs (rnd r) <= bpow radix2 300).
  { replace (rnd r) with ((rnd r - r) + r) by ring. eapply Rle_trans; [apply Rabs_triang|].
    assert (u53 <= 1) by (unfold u53; lra). pose proof (Rabs_pos r).
    assert (bpow radix2 (-300) <= bpow radix2 200) by (apply bpow_le; lia).
    assert (3 * bpow radix2 200 <= bpow radix2 300).
    { replace 300%Z with (2 + (98 + 200))%Z by lia. rewrite !bpow_plus. pose proof (bpow_gt_0 radix2 200). assert (1 <= bpow radix2 98) by (change 1 with (bpow radix2 0); apply bpow_le; lia).
      change (bpow radix2 2) with 4. nra. }
    nra. }
  assert (C : bpow radix2 300 < big) by (apply bpow_lt; vm_compute; reflexivity).
  destruct HV as [(A & F & Q) | [(A & Q) | (A & Q)]].
  - split; [exact F|]. rewrite Q. exact E.
  - exfalso. pose proof (Rle_abs (rnd r)). lra.
  - exfalso. pose proof (Rle_abs (- rnd r)). rewrite Rabs_Ropp in *. lra.
Qed.
Close Scope R_scope.

Lemma ffrac_value (x : f64) : is_finite x = true -> exists n d, ffrac x = Some (n, d) /\ B2R x = (IZR n / IZR (Zpos d))%R.
Proof.
  destruct x as [s| | |s m e He]; try discriminate; intros _.
  - exists 0, 1%positive. split; [reflexivity|]. simpl. lra.
  - unfold ffrac. destruct (Z.leb_spec 0 e).
    + do 2 eexists. split; [reflexivity|]. unfold B2R, F2R. cbn [Fnum Fexp]. rewrite mult_IZR. change 2 with (radix_val radix2). rewrite IZR_Zpower by lia. field.
    + do 2 eexists. split; [reflexivity|]. unfold B2R, F2R. cbn [Fnum Fexp].
      assert (P : 0 < 2 ^ (- e)) by (apply Z.pow_pos_nonneg; lia). rewrite Z2Pos.id by exact P.
      change 2 with (radix_val radix2). rewrite IZR_Zpower by lia. rewrite bpow_opp. field. apply Rgt_not_eq, bpow_gt_0.
Qed.
Lemma round_f64 (x : f64) k : is_finite x = true -> (2 * Rabs (B2R x - IZR k) < 1)%R -> py_round x = Ok k.
Proof.
  intros F H. unfold py_round. cbn [nfrac F64num]. destruct (ffrac_value x F) as (n & d & -> & E). f_equal. apply zround_near.
  rewrite E in H. assert (D : (0 < IZR (Zpos d))%R) by (apply IZR_lt; reflexivity).
  replace (IZR n / IZR (Zpos d) - IZR k)%R with ((IZR n - IZR k * IZR (Zpos d)) / IZR (Zpos d))%R in H by (field; lra).
  unfold Rdiv in H. rewrite Rabs_mult, (Rabs_pos_eq (/ _)) in H by (left; apply Rinv_0_lt_compat; exact D).
  rewrite <- mult_IZR, <- minus_IZR, <- abs_IZR in H.
  assert (2 * IZR (Z.abs (n - k * Z.pos d)) < IZR (Zpos d))%R.
  { replace (2 * IZR (Z.abs (n - k * Z.pos d)))%R with (2 * (IZR (Z.abs (n - k * Z.pos d)) * / IZR (Zpos d)) * IZR (Zpos d))%R by (field; lra). nra. }
  apply lt_IZR. rewrite mult_IZR. exact H0.
Qed.

(** One axis: index -> coordinate -> index. *)
Definition ok_cell (c : f64) : Prop := is_finite c = true /\ (bpow radix2 (-100) <= B2R c <= bpow radix2 100)%R.
Lemma axis_round_trip (c o kf : f64) (k : Z) : ok_cell c -> is_finite o = true -> (Rabs (B2R o) <= 1099511627776 * B2R c)%R ->
  is_finite kf = true -> B2R kf = IZR k -> Z.abs k <= 1099511627776 ->
  exists q, py_div (fsub (fadd (fmul kf c) o) o) c = Ok q /\ py_round q = Ok k.
Proof.
  intros (Fc & C1 & C2) Fo Ho Fk Ek Hk. set (M := 1099511627776%R).
  assert (K : (Rabs (IZR k) <= M)%R) by (rewrite <- abs_IZR; apply IZR_le; exact Hk).
  set (b := B2R c) in *. set (h := bpow radix2 (-300)).
  assert (b0 : (0 < b)%R) by (pose proof (bpow_gt_0 radix2 (-100)); lra).
  assert (hb : (h <= u53 * b)%R).
  { assert (h <= u53 * bpow radix2 (-100))%R; [|assert (0 < u53)%R by (unfold u53; lra); nra].
    unfold h. replace (u53) with (bpow radix2 (-53)) by (unfold u53; simpl; lra). rewrite <- bpow_plus. apply bpow_le. lia. }
  assert (h0 : (0 < h)%R) by apply bpow_gt_0.
  assert (big1 : (8 * M * b <= bpow radix2 200)%R).
  { replace 200%Z with (100 + 100)%Z by lia. rewrite bpow_plus. assert (8 * M <= bpow radix2 100)%R.
    { unfold M. apply Rle_trans with (bpow radix2 43); [simpl; lra | apply bpow_le; lia]. }
    pose proof (bpow_gt_0 radix2 100). nra. }
  assert (AB : forall x y, (Rabs x <= y)%R -> (- y <= x <= y)%R) by (intros x y Hx; unfold Rabs in Hx; destruct (Rcase_abs x); lra).
  assert (U : u53 = (/ 9007199254740992)%R) by reflexivity. 
  (* product *)
  destruct (V_small _ _ (fmul_V kf c Fk Fc)) as (Fp & Ep).
  { rewrite Ek, Rabs_mult. fold b. rewrite (Rabs_pos_eq b) by lra. pose proof (Rabs_pos (IZR k)). unfold M in *. nra. }
  rewrite Ek in Ep. fold b h in Ep. rewrite Rabs_mult, (Rabs_pos_eq b) in Ep by lra. set (p := B2R (fmul kf c)) in *.
  assert (Ep' : (Rabs (p - IZR k * b) <= 2 * u53 * M * b)%R) by (pose proof (Rabs_pos (IZR k)); unfold M in *; nra).
  apply AB in Ep'. apply AB in Ho. apply AB in K.
  (* sum *)
  destruct (V_small _ _ (fadd_V _ o Fp Fo)) as (Fs & Es).
  { fold p. apply Rabs_le. unfold M in *. nra. }
  fold p h in Es. assert (S1 : (Rabs (p + B2R o) <= 3 * M * b)%R) by (apply Rabs_le; unfold M in *; nra).
  set (s := B2R (fadd (fmul kf c) o)) in *.
  assert (Es' : (Rabs (s - (p + B2R o)) <= 4 * u53 * M * b)%R) by (unfold M in *; nra). apply AB in Es'.
  (* difference *)
  destruct (V_small _ _ (fsub_V _ o Fs Fo)) as (Fd & Ed).
  { fold s. apply Rabs_le. unfold M in *. nra. }
  fold s h in Ed. assert (D1 : (Rabs (s - B2R o) <= 2 * M * b)%R) by (apply Rabs_le; unfold M in *; nra).
  set (d := B2R (fsub (fadd (fmul kf c) o) o)) in *.
  assert (Ed' : (Rabs (d - (s - B2R o)) <= 3 * u53 * M * b)%R) by (unfold M in *; nra). apply AB in Ed'.
  assert (Dk : (- (9 * u53 * M) * b <= d - IZR k * b <= 9 * u53 * M * b)%R) by (unfold M in *; nra).
  (* quotient *)
  assert (Qk : (- (9 * u53 * M) <= d / b - IZR k <= 9 * u53 * M)%R).
  { replace (d / b - IZR k)%R with ((d - IZR k * b) * / b)%R by (field; lra). assert (I : (0 < / b)%R) by (apply Rinv_0_lt_compat; exact b0).
    assert (E1 : (b * / b = 1)%R) by (field; lra). split; [apply Rle_trans with ((- (9 * u53 * M) * b) * / b)%R | apply Rle_trans with ((9 * u53 * M * b) * / b)%R];
    try (apply Rmult_le_compat_r; lra); right; field; lra. }
  assert (Q2 : (Rabs (d / b) <= 2 * M)%R) by (apply Rabs_le; unfold M in *; lra).
  destruct (V_small _ _ (fdiv_V _ c Fd Fc ltac:(fold b; lra))) as (Fq & Eq).
  { fold d b. apply Rle_trans with (bpow radix2 43); [unfold M in *; simpl; lra | apply bpow_le; lia]. }
  fold d b h in Eq.
  assert (hb1 : (h <= 1)%R) by (subst h; change 1%R with (bpow radix2 0); apply bpow_le; lia).
  assert (Eq' : (Rabs (B2R (fdiv (fsub (fadd (fmul kf c) o) o) c) - d / b) <= 2 * u53 * M + h)%R) by (unfold M in *; nra). apply AB in Eq'.
  exists (fdiv (fsub (fadd (fmul kf c) o) o) c). split.
  - unfold py_div. replace (neqb c n0) with false; [reflexivity|]. symmetry. destruct (neqb c n0) eqn:E; [|reflexivity]. exfalso.
    change (Beqb c (fofZ 0) = true) in E. rewrite eqb_eq in E. apply andb_true_iff in E as (E & _). apply (leb_R c (fofZ 0) Fc eq_refl) in E. fold b in E. simpl in E. lra.
  - apply round_f64; [exact Fq|]. assert (Rabs (B2R (fdiv (fsub (fadd (fmul kf c) o) o) c) - IZR k) <= 1/4)%R; [|lra]. apply Rabs_le. assert (hs : (h <= / 1024)%R) by (unfold h; apply Rle_trans with (bpow radix2 (-10)); [apply bpow_le; lia | simpl; lra]). unfold M in *. rewrite U in *. clear - Eq' Qk hs. lra.
Qed.

(** Indices up to 2^52 are exact doubles, and so is the difference of two of them. *)
Lemma ofZ_exact z : Z.abs z <= 9007199254740992 -> is_finite (fofZ z) = true /\ B2R (fofZ z) = IZR z.
Proof. intros H. apply fofZ_exact. lia. Qed.
Lemma sub_ofZ L i : Z.abs L <= 4503599627370496 -> Z.abs i <= 4503599627370496 ->
  is_finite (fsub (fofZ L) (fofZ i)) = true /\ B2R (fsub (fofZ L) (fofZ i)) = IZR (L - i).
Proof.
  intros HL Hi. destruct (ofZ_exact L ltac:(lia)) as (FL & EL). destruct (ofZ_exact i ltac:(lia)) as (Fi & Ei). destruct (ofZ_exact (L - i) ltac:(lia)) as (Fd & Ed).
  pose proof (fsub_V _ _ FL Fi) as HV. rewrite EL, Ei, <- minus_IZR in HV. destruct HV as [(A & F & B) | [(A & B) | (A & B)]].
  - rewrite rnd_Z in B by lia. auto.
  - exfalso. rewrite rnd_Z in A by lia. pose proof big_large. assert (IZR (L - i) <= IZR (2^60))%R by (apply IZR_le; lia). lra.
  - exfalso. rewrite rnd_Z in A by lia. pose proof big_large as BL. assert (B1 : (IZR (- 2^60) <= IZR (L - i))%R) by (apply IZR_le; lia). rewrite opp_IZR in B1. lra.
Qed.

Lemma round_trip_f64 (c x0 y0 : f64) L i j : ok_cell c -> is_finite x0 = true -> is_finite y0 = true ->
  (Rabs (B2R x0) <= 1099511627776 * B2R c)%R -> (Rabs (B2R y0) <= 1099511627776 * B2R c)%R ->
  0 <= L <= 1099511627776 -> 0 <= i < L -> 0 <= j <= 1099511627776 ->
  coord2ind1 (x0, y0) L c (xcoord1 (x0, y0) c j, ycoord1 (x0, y0) L c i) = Ok (i, j).
Proof.
  intros C Fx Fy Hx Hy HL Hi Hj. unfold coord2ind1, xcoord1, ycoord1. cbn [fst snd].
  destruct (sub_ofZ L i ltac:(lia) ltac:(lia)) as (Fk & Ek). destruct (ofZ_exact j ltac:(lia)) as (Fj & Ej).
  destruct (axis_round_trip c y0 _ (L - i) C Fy Hy Fk Ek ltac:(lia)) as (qy & Ey & Ry).
  destruct (axis_round_trip c x0 _ j C Fx Hx Fj Ej ltac:(lia)) as (qx & Ex & Rx).
  cbn [nsub nadd nmul nofZ F64num]. rewrite Ey. cbn [bind]. rewrite Ry. cbn [bind]. rewrite Ex. cbn [bind]. rewrite Rx. cbn [bind]. f_equal. f_equal. lia.
Qed.

(** ** Whole walk data *)
Lemma map_nth_seq {A} (d : A) l : map (fun i => nth i l d) (seq 0 (length l)) = l.
Proof.
  induction l as [|a l IH]; [reflexivity|]. cbn [length seq map nth]. f_equal. rewrite <- seq_shift, map_map. exact IH.
Qed.
Section W.
Context {T : Type} {N : Num T}.
Lemma ind2coord_ok (w : walk T) orig size cs : length (yinds w) = length (xinds w) ->
  ind2coord w orig size cs = Ok {| g_walk := w; xcoord := map (map (xcoord1 orig cs)) (yinds w); ycoord := map (map (ycoord1 orig (fst size) cs)) (xinds w) |}.
Proof.
  intros E. unfold ind2coord.
  rewrite (mapM_nat _ (fun i => (map (xcoord1 orig cs) (nth i (yinds w) []), map (ycoord1 orig (fst size) cs) (nth i (xinds w) [])))).
  - cbn [bind]. rewrite !map_map. cbn [fst snd]. f_equal. f_equal.
    + rewrite <- (map_map (fun i => nth i (yinds w) []) (map (xcoord1 orig cs))), <- E. f_equal. apply map_nth_seq.
    + rewrite <- (map_map (fun i => nth i (xinds w) []) (map (ycoord1 orig (fst size) cs))). f_equal. apply map_nth_seq.
  - intros i Hi. rewrite (py_nth_ok []), (py_nth_ok []) by lia. reflexivity.
Qed.

(** Converting one particle's coordinates back. *)
Lemma coord2ind_path (orig : T * T) (size : Z * Z) (cs : T) xs ys : length ys = length xs ->
  (forall k, (k < length xs)%nat -> coord2ind1 orig (fst size) cs (xcoord1 orig cs (nth k ys 0), ycoord1 orig (fst size) cs (nth k xs 0)) = Ok (nth k xs 0, nth k ys 0)) ->
  coord2ind (combine (map (xcoord1 orig cs) ys) (map (ycoord1 orig (fst size) cs) xs)) orig size cs = Ok (combine xs ys).
Proof.
  unfold coord2ind. revert ys. induction xs as [|x xs IH]; intros [|y ys] EL H; try discriminate EL; [reflexivity|].
  cbn [map combine mapM]. pose proof (H 0%nat ltac:(cbn; lia)) as H0. cbn [nth] in H0. rewrite H0. cbn [bind].
  rewrite (IH ys); [reflexivity | cbn in EL; lia |]. intros k Hk. apply (H (S k)). cbn. lia.
Qed.
(** ind2coord, then coord2ind on one particle's coordinates, if single points round trip. *)
Lemma coord_api (w : walk T) orig L W cs : walk_on L W w ->
  (forall i j, 0 <= i < L -> 0 <= j < W -> coord2ind1 orig L cs (xcoord1 orig cs j, ycoord1 orig L cs i) = Ok (i, j)) ->
  exists g, ind2coord w orig (L, W) cs = Ok g /\ g_walk g = w /\ length (xcoord g) = count w /\ length (ycoord g) = count w /\
    forall q, (q < count w)%nat ->
      coord2ind (combine (nth q (xcoord g) []) (nth q (ycoord g) [])) orig (L, W) cs = Ok (combine (r_x (path w q)) (r_y (path w q))).
Proof.
  intros ((Ey & Et & _) & H) RT. rewrite ind2coord_ok by exact Ey. eexists. split; [reflexivity|]. cbn [g_walk xcoord ycoord]. split; [reflexivity|].
  rewrite !map_length. split; [exact Ey|]. split; [reflexivity|]. intros q Hq. destruct (H q Hq) as ((_ & Ly & _) & On).
  rewrite (nth_indep _ [] (map (xcoord1 orig cs) [])) by (rewrite map_length; unfold count in *; lia).
  rewrite (nth_indep (map _ (xinds w)) [] (map (ycoord1 orig (fst (L, W)) cs) [])) by (rewrite map_length; exact Hq).
  rewrite !map_nth. change (nth q (yinds w) []) with (r_y (path w q)). change (nth q (xinds w) []) with (r_x (path w q)).
  apply coord2ind_path; [exact Ly|]. intros k Hk. cbn [fst]. destruct (On k Hk) as (X & Y). apply RT; [exact X | exact Y].
Qed.
End W.

(** The strips along the lower and right edges that leave the raster. *)
Lemma bottom_strip x0 y0 c L x y : (0 < c)%Qc -> (y0 <= y)%Qc -> (2 * (this y - this y0) < this c)%Q ->
  exists j, coord2ind1 (XFin x0, XFin y0) L (XFin c) (XFin x, XFin y) = Ok (L, j).
Proof.
  intros P Y1 Y2. pose proof (qc_pos_nz c P) as H. unfold coord2ind1. cbn [fst snd]. rewrite !xq_sub, !py_div_xq by exact H. cbn [bind].
  assert (C : (0 < this c)%Q) by exact P. unfold Qcle in Y1.
  rewrite (round_exact _ 0).
  - cbn [bind]. destruct (round_total ((x - x0) / c)%Qc) as (rx & ->). cbn [bind]. exists rx. f_equal. f_equal. lia.
  - rewrite this_div, this_sub. set (d := ((this y - this y0) / this c)%Q). assert (D : (this y - this y0 == d * this c)%Q) by (unfold d; field; Lqa.lra).
    assert (D0 : (0 <= d)%Q) by (apply Qle_shift_div_l; [exact C | Lqa.lra]). rewrite D in Y2.
    assert (E : (d - inject_Z 0 == d)%Q) by (change (inject_Z 0) with 0%Q; ring). rewrite E, Qabs.Qabs_pos by exact D0. Lqa.nra.
Qed.
Lemma right_strip x0 y0 c L W x y : (0 < c)%Qc -> ((2 * inject_Z W - 1) * this c < 2 * (this x - this x0))%Q -> (this x - this x0 <= inject_Z W * this c)%Q ->
  exists i, coord2ind1 (XFin x0, XFin y0) L (XFin c) (XFin x, XFin y) = Ok (i, W).
Proof.
  intros P X1 X2. pose proof (qc_pos_nz c P) as H. unfold coord2ind1. cbn [fst snd]. rewrite !xq_sub, !py_div_xq by exact H. cbn [bind].
  assert (C : (0 < this c)%Q) by exact P.
  rewrite (round_exact ((x - x0) / c)%Qc W).
  - destruct (round_total ((y - y0) / c)%Qc) as (ry & ->). cbn [bind]. exists (L - ry). reflexivity.
  - rewrite this_div, this_sub. set (d := ((this x - this x0) / this c)%Q). assert (D : (this x - this x0 == d * this c)%Q) by (unfold d; field; Lqa.lra).
    rewrite D in X1, X2. assert (A : (d <= inject_Z W)%Q) by Lqa.nra. assert (B : (2 * inject_Z W - 1 < 2 * d)%Q) by Lqa.nra.
    rewrite Qabs.Qabs_neg by Lqa.lra. Lqa.lra.
Qed.

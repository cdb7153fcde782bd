(** unstruct2grid in exact arithmetic. *)
From Coq Require Import ZArith Bool String List Lia QArith Qcanon Qround Lqa.
From Verif Require Import Num NumFacts XQ XQLaws XQFacts Py Walker ParticleTrack PostProc SpecPost SpecGrid Grid ProofStep ProofExposure ProofCoord ProofNour ProofNourQ ProofSeedFlux.
Import ListNotations.
Open Scope Z_scope.
Open Scope res_scope.

(** ** Extremes *)
Lemma fold_min_xq r : forall a, exists m, fold_left (fun m x => if nltb x m then x else m) (map XFin r) (XFin a) = XFin m /\ least m (a :: r).
Proof.
  induction r as [|b r IH]; intros a; cbn [map fold_left].
  - exists a. split; [reflexivity|]. split; [left; reflexivity|]. intros x [->|[]]. apply Qcle_refl.
  - destruct (nltb (XFin b) (XFin a)) eqn:E.
    + apply xq_ltb in E. destruct (IH b) as (m & -> & I & M). exists m. split; [reflexivity|]. split; [right; exact I|].
      intros x [<-|Hx]; [|apply M; exact Hx]. apply Qcle_trans with b; [apply M; left; reflexivity | apply Qclt_le_weak; exact E].
    + apply xq_ltb_f in E. destruct (IH a) as (m & -> & I & M). exists m. split; [reflexivity|].
      split; [destruct I as [I|I]; [left | right; right]; exact I|]. intros x [<-|[<-|Hx]]; [apply M; left; reflexivity | | apply M; right; exact Hx].
      apply Qcle_trans with a; [apply M; left; reflexivity | exact E].
Qed.
Lemma fold_max_xq r : forall a, exists m, fold_left (fun m x => if nltb m x then x else m) (map XFin r) (XFin a) = XFin m /\ greatest m (a :: r).
Proof.
  induction r as [|b r IH]; intros a; cbn [map fold_left].
  - exists a. split; [reflexivity|]. split; [left; reflexivity|]. intros x [->|[]]. apply Qcle_refl.
  - destruct (nltb (XFin a) (XFin b)) eqn:E.
    + apply xq_ltb in E. destruct (IH b) as (m & -> & I & M). exists m. split; [reflexivity|]. split; [right; exact I|].
      intros x [<-|Hx]; [|apply M; exact Hx]. apply Qcle_trans with b; [apply Qclt_le_weak; exact E | apply M; left; reflexivity].
    + apply xq_ltb_f in E. destruct (IH a) as (m & -> & I & M). exists m. split; [reflexivity|].
      split; [destruct I as [I|I]; [left | right; right]; exact I|]. intros x [<-|[<-|Hx]]; [apply M; left; reflexivity | | apply M; right; exact Hx].
      apply Qcle_trans with a; [exact E | apply M; left; reflexivity].
Qed.
Lemma minl_ok l : l <> [] -> exists m, py_minl (map XFin l) = Ok (XFin m) /\ least m l.
Proof. destruct l as [|a r]; [congruence|]. intros _. cbn [map py_minl]. destruct (fold_min_xq r a) as (m & -> & H). eauto. Qed.
Lemma maxl_ok l : l <> [] -> exists m, py_maxl (map XFin l) = Ok (XFin m) /\ greatest m l.
Proof. destruct l as [|a r]; [congruence|]. intros _. cbn [map py_maxl]. destruct (fold_max_xq r a) as (m & -> & H). eauto. Qed.

Lemma ceil1_ok q : exists c, ceil1 (XFin q) = Ok (c + 1) /\ is_ceiling c q.
Proof.
  unfold ceil1. cbn [nfrac XQnum xfrac]. unfold zceil. cbn [fst snd]. eexists. split; [reflexivity|]. unfold is_ceiling.
  destruct (this q) as [n d]. cbn [Qnum Qden]. unfold Qle, Qlt, Qplus, inject_Z. cbn [Qnum Qden].
  pose proof (Z.div_mod (- n) (Zpos d) ltac:(lia)). pose proof (Z.mod_pos_bound (- n) (Zpos d) ltac:(lia)). rewrite Pos.mul_1_r. split; nia.
Qed.
Lemma qcofz_nz n : n <> 0 -> Qcofz n <> 0%Qc.
Proof. intros H E. apply H. apply (f_equal this) in E. assert (E' : (this (Qcofz n) == 0)%Q) by (rewrite E; reflexivity). rewrite this_ofz in E'. unfold Qeq in E'. cbn in E'. lia. Qed.
Lemma qcofz_mul a b : (Qcofz a * Qcofz b)%Qc = Qcofz (a * b).
Proof. apply Qc_is_canon. rewrite this_mul, !this_ofz, inject_Z_mult. reflexivity. Qed.

Lemma linspace_ok a cs n : 0 < n -> exists v, np_linspace (XFin a) (nadd (XFin a) (nmul (XFin cs) (nofZ (n - 1)))) n = Ok v /\ regular_axis a cs n v.
Proof.
  intros Hn. unfold np_linspace. destruct (Z.ltb_spec n 0); [lia|]. change (nofZ (n - 1) : xq) with (XFin (Qcofz (n - 1))). rewrite xq_mul, xq_add.
  destruct (Z.eqb_spec n 1) as [->|N1].
  - eexists. split; [reflexivity|]. split; [reflexivity|]. intros j Hj. replace j with 0 by lia. change (nofZ 0 : xq) with (XFin (Qcofz 0)).
    rewrite xq_sub, xq_mul, xq_add. cbn [nth Z.to_nat]. f_equal. change (Qcofz 0) with qc0. rewrite qc0_eq. ring.
  - eexists. split; [reflexivity|]. split; [rewrite map_length, zrange_length; lia|]. intros j Hj.
    rewrite (nth_indep _ XNaN ((fun i => if i =? n - 1 then XFin (a + cs * Qcofz (n - 1))%Qc else nadd (nmul (nofZ i) (ndiv (nsub (XFin (a + cs * Qcofz (n - 1))%Qc) (XFin a)) (XFin (Qcofz (n - 1))))) (XFin a)) 0)) by (rewrite map_length, zrange_length; lia).
    rewrite (map_nth (fun i => if i =? n - 1 then XFin (a + cs * Qcofz (n - 1))%Qc else nadd (nmul (nofZ i) (ndiv (nsub (XFin (a + cs * Qcofz (n - 1))%Qc) (XFin a)) (XFin (Qcofz (n - 1))))) (XFin a))).
    rewrite zrange_nth by lia. replace (0 + Z.of_nat (Z.to_nat j)) with j by lia. destruct (Z.eqb_spec j (n - 1)) as [->|].
    + f_equal. ring.
    + rewrite xq_sub, xq_div by (apply qcofz_nz; lia). change (nofZ j : xq) with (XFin (Qcofz j)). rewrite xq_mul, xq_add. f_equal. field. apply qcofz_nz. lia.
Qed.

Lemma axis_ok l cs : l <> [] -> (0 < cs)%Qc -> exists lo hi c v, grid_axis (map XFin l) (XFin cs) = Ok v /\
  least lo l /\ greatest hi l /\ is_ceiling c ((hi - lo) / cs) /\ 0 <= c /\ regular_axis lo cs (c + 1) v.
Proof.
  intros NE C. unfold grid_axis. destruct (maxl_ok l NE) as (hi & -> & GH). destruct (minl_ok l NE) as (lo & -> & GL). cbn [bind].
  rewrite xq_sub, py_div_xq by (apply qc_pos_nz; exact C). cbn [bind]. destruct (ceil1_ok ((hi - lo) / cs)%Qc) as (c & -> & CC). cbn [bind].
  assert (C0 : 0 <= c).
  { destruct CC as (A & B). destruct GL as (_ & GL). destruct GH as (IH & _). specialize (GL hi IH). unfold Qcle in GL.
    assert (0 <= this ((hi - lo) / cs)%Qc)%Q. { rewrite this_div, this_sub. apply Qle_shift_div_l; [exact C | Lqa.lra]. }
    assert (Z : (inject_Z 0 <= inject_Z c)%Q) by (change (inject_Z 0) with 0%Q; Lqa.lra). rewrite <- Zle_Qle in Z. exact Z. }
  replace (c + 1 - 1) with (c + 1 - 1) by reflexivity. destruct (linspace_ok lo cs (c + 1)) as (v & E & RA); [lia|]. exists lo, hi, c, v. rewrite E. tauto.
Qed.
Lemma axis_covers lo hi cs c : (0 < cs)%Qc -> is_ceiling c ((hi - lo) / cs) -> (hi <= lo + Qcofz c * cs)%Qc.
Proof.
  intros C (A & _). rewrite this_div, this_sub in A. unfold Qcle. rewrite this_add, this_mul, this_ofz.
  assert (H : ((this hi - this lo) / this cs * this cs <= inject_Z c * this cs)%Q) by (apply Qmult_le_compat_r; [exact A | apply Qlt_le_weak; exact C]).
  assert (E : ((this hi - this lo) / this cs * this cs == this hi - this lo)%Q) by (field; intros Z; unfold Qclt in C; rewrite Z in C; change (this 0%Qc) with 0%Q in C; Lqa.lra).
  rewrite E in H. Lqa.lra.
Qed.

(** ** Inverse-distance weights *)
Section Idw.
Variables (t : Qc) (vs : list Qc).
Hypothesis T0 : (0 < t)%Qc.
Definition wt (d : xq) : Qc := match d with XFin q => 1 / (q + t) | _ => 0 end.
Definition val (i : Z) : Qc := nth (Z.to_nat i) vs 0%Qc.
Definition wsum (nb : list (xq * Z)) : Qc := csum (map (fun p => wt (fst p)) nb).
Definition vsum (nb : list (xq * Z)) : Qc := csum (map (fun p => val (snd p) * wt (fst p))%Qc nb).

Lemma wt_pos q : (0 <= q)%Qc -> (0 < wt (XFin q))%Qc.
Proof.
  intros H. cbn [wt]. unfold Qclt. rewrite this_div, this_add. unfold Qcle, Qclt in *. change (this 0%Qc) with 0%Q in *. change (this 1%Qc) with 1%Q.
  apply Qlt_shift_div_l; Lqa.lra.
Qed.
Lemma ndiv_wt q : (0 <= q)%Qc -> ndiv n1 (nadd (XFin q) (XFin t)) = XFin (wt (XFin q)).
Proof.
  intros H. rewrite n1_xq, xq_add, xq_div; [reflexivity|]. apply qc_pos_nz. unfold Qcle, Qclt in *. rewrite this_add. change (this 0%Qc) with 0%Q in *. Lqa.lra.
Qed.
Lemma idw_fold nb : (forall d i, In (d, i) nb -> 0 <= i < Z.of_nat (length vs) /\ exists q, d = XFin q /\ (0 <= q)%Qc) -> forall a b,
  foldM (fun st di => let w := ndiv n1 (nadd (fst di) (XFin t)) in q <- py_nth (map XFin vs) (snd di) ;; Ok (nadd (fst st) (nmul q w), nadd (snd st) w)) nb (XFin a, XFin b) =
  Ok (XFin (a + vsum nb)%Qc, XFin (b + wsum nb)%Qc).
Proof.
  induction nb as [|[d i] nb IH]; intros H a b.
  - cbn [foldM]. unfold vsum, wsum. cbn [map csum fold_right]. do 2 f_equal; f_equal; ring.
  - cbn [foldM fst snd]. destruct (H d i (or_introl eq_refl)) as (Hi & q & -> & Hq). rewrite ndiv_wt by exact Hq.
    pose proof (py_nth_ok XNaN (map XFin vs) (Z.to_nat i)) as P. rewrite Z2Nat.id in P by lia. rewrite P by (rewrite map_length; lia). clear P.
    rewrite (nth_indep _ XNaN (XFin 0%Qc)) by (rewrite map_length; lia). rewrite map_nth. cbn [bind fst snd]. rewrite xq_mul, !xq_add, IH by (intros; apply H; right; assumption).
    unfold vsum, wsum. cbn [map csum fold_right fst snd]. unfold val. do 2 f_equal; f_equal; unfold csum; ring.
Qed.
Lemma wsum_pos nb : neighbours (length vs) nb -> (0 < wsum nb)%Qc.
Proof.
  intros (NE & H). destruct nb as [|[d i] nb]; [congruence|]. unfold wsum. cbn [map csum fold_right fst]. destruct (H d i (or_introl eq_refl)) as (_ & q & -> & Hq).
  pose proof (wt_pos q Hq). assert (R : (0 <= csum (map (fun p => wt (fst p)) nb))%Qc).
  { apply csum_nn. intros x Hx. apply in_map_iff in Hx as ([d' i'] & <- & I). destruct (H d' i' (or_intror I)) as (_ & q' & -> & Hq'). apply Qclt_le_weak, wt_pos. exact Hq'. }
  unfold csum in R. unfold Qclt, Qcle in *. rewrite this_add. change (this 0%Qc) with 0%Q in *. Lqa.lra.
Qed.
Lemma idw_ok nb : neighbours (length vs) nb -> idw (XFin t) nb (map XFin vs) = Ok (XFin (vsum nb / wsum nb)%Qc).
Proof.
  intros NB. unfold idw. rewrite n0_xq, (idw_fold nb (proj2 NB)). cbn [bind]. replace (0 + vsum nb)%Qc with (vsum nb) by ring. replace (0 + wsum nb)%Qc with (wsum nb) by ring.
  rewrite xq_div by (apply qc_pos_nz, wsum_pos; exact NB). reflexivity.
Qed.
Lemma idw_between nb lo hi : neighbours (length vs) nb -> (forall d i, In (d, i) nb -> (lo <= val i)%Qc /\ (val i <= hi)%Qc) -> (lo <= vsum nb / wsum nb)%Qc /\ (vsum nb / wsum nb <= hi)%Qc.
Proof.
  intros NB B. pose proof (wsum_pos nb NB) as WP.
  assert (K : (lo * wsum nb <= vsum nb)%Qc /\ (vsum nb <= hi * wsum nb)%Qc).
  { destruct NB as (_ & NB). clear WP. induction nb as [|[d i] nb IH].
    - unfold vsum, wsum. cbn [map csum fold_right]. rewrite !Qcmult_0_r. split; apply Qcle_refl.
    - destruct IH as (A1 & A2); [intros; apply (NB d0 i0); right; assumption | intros; apply (B d0 i0); right; assumption|].
      unfold vsum, wsum in *. cbn [map csum fold_right fst snd]. destruct (NB d i (or_introl eq_refl)) as (_ & q & -> & Hq). pose proof (wt_pos q Hq) as W. destruct (B _ i (or_introl eq_refl)) as (B1 & B2).
      unfold csum in *. set (s1 := fold_right _ _ _) in *. set (s2 := fold_right _ 0%Qc (map (fun p : xq * Z => wt (fst p)) nb)) in *. set (w := wt (XFin q)) in *.
      unfold Qcle, Qclt in *. rewrite !this_mul, !this_add, !this_mul in *. change (this 0%Qc) with 0%Q in *. split; Lqa.nra. }
  destruct K as (K1 & K2). unfold Qcle, Qclt in *. rewrite this_mul in K1, K2. rewrite this_div. change (this 0%Qc) with 0%Q in *.
  split; [apply Qle_shift_div_l | apply Qle_shift_div_r]; assumption.
Qed.
End Idw.
Lemma idw_linear t vs1 vs2 vs3 a b nb : length vs1 = length vs2 -> length vs3 = length vs1 -> (forall i, (i < length vs1)%nat -> nth i vs3 0%Qc = (a * nth i vs1 0 + b * nth i vs2 0)%Qc) ->
  (forall d i, In (d, i) nb -> 0 <= i < Z.of_nat (length vs1)) -> (vsum t vs3 nb = a * vsum t vs1 nb + b * vsum t vs2 nb)%Qc.
Proof.
  intros L12 L3 H I. unfold vsum. induction nb as [|[d i] nb IH]; cbn [map csum fold_right fst snd]; [ring|]. unfold csum in IH. rewrite IH by (intros; apply (I d0 i0); right; assumption).
  unfold val. specialize (I d i (or_introl eq_refl)). rewrite H by lia. ring.
Qed.

(** ** The whole grid *)
Section G.
Variables (query : Z -> xq * xq -> list (xq * Z)) (nearest : xq * xq -> Z) (t : Qc) (xv yv : list xq) (k : Z).
Notation IF := (interp_func query nearest (XFin t) xv yv k).
Lemma interp_ok boundary crop data (f : xq * xq -> xq) : xv <> [] -> yv <> [] ->
  (forall x y, In x xv -> In y yv -> node_value query nearest (XFin t) k data (x, y) = Ok (f (x, y))) ->
  exists g, interp_func query nearest (XFin t) xv yv k boundary false data = Ok g /\ nrow g = Z.of_nat (length yv) /\ ncol g = Z.of_nat (length xv) /\
    (forall i j, 0 <= i < nrow g -> 0 <= j < ncol g -> cell g i j = let p := (nth (Z.to_nat j) xv XNaN, nth (Z.to_nat (nrow g - 1 - i)) yv XNaN) in masked boundary p (f p)) /\
    interp_func query nearest (XFin t) xv yv k boundary crop data = Ok (match boundary with Some _ => if crop then crop_nan g else g | None => g end).
Proof.
  intros NX NY H. unfold interp_func.
  destruct (Z.eqb_spec (Z.of_nat (length yv)) 0) as [E|_]; [destruct yv; [congruence | cbn in E; lia]|].
  destruct (Z.eqb_spec (Z.of_nat (length xv)) 0) as [E|_]; [destruct xv; [congruence | cbn in E; lia]|]. cbn [orb].
  rewrite (mapM_map _ (fun y => map (fun x => masked boundary (x, y) (f (x, y))) xv)).
  2:{ intros y Hy. apply mapM_map. intros x Hx. rewrite H by assumption. reflexivity. }
  cbn [bind]. eexists. split; [destruct boundary; reflexivity|]. split; [reflexivity|]. split; [reflexivity|]. split; [|reflexivity].
  cbn [nrow ncol cell]. intros i j Hi Hj. cbv zeta.
  rewrite (nth_indep _ [] (map (fun x => masked boundary (x, XNaN) (f (x, XNaN))) xv)) by (rewrite map_length; lia).
  rewrite (map_nth (fun y => map (fun x => masked boundary (x, y) (f (x, y))) xv)). set (y := nth _ yv XNaN).
  rewrite (nth_indep _ nnan (masked boundary (XNaN, y) (f (XNaN, y)))) by (rewrite map_length; lia). rewrite (map_nth (fun x => masked boundary (x, y) (f (x, y)))). reflexivity.
Qed.
End G.

(** ** Cropping *)
Lemma nth_filter_mono (f : Z -> bool) l : (forall a b, (a < b < length l)%nat -> nth a l 0 < nth b l 0) -> forall a b, (a < b < length (filter f l))%nat -> nth a (filter f l) 0 < nth b (filter f l) 0.
Proof.
  induction l as [|x l IH]; intros H a b L; [cbn in L; lia|]. assert (IH' := IH (fun a b Hab => H (S a) (S b) ltac:(cbn; lia))). cbn [filter] in *. destruct (f x); [|apply IH'; exact L].
  destruct b as [|b]; [lia|]. destruct a as [|a]; [|cbn [nth length] in *; apply IH'; lia]. cbn [nth].
  assert (I : In (nth b (filter f l) 0) l) by (apply (incl_filter f), nth_In; cbn in L; lia). apply (In_nth _ _ 0) in I as (c & Hc & <-). apply (H 0%nat (S c)). cbn. lia.
Qed.
Lemma crop_spec (g : arr xq) :
  let c := crop_nan g in
  exists rows cols : list Z,
    (forall i, In i rows <-> 0 <= i < nrow g /\ exists j, 0 <= j < ncol g /\ nisnan (cell g i j) = false) /\
    (forall j, In j cols <-> 0 <= j < ncol g /\ exists i, 0 <= i < nrow g /\ nisnan (cell g i j) = false) /\
    (forall a b, (a < b < length rows)%nat -> nth a rows 0 < nth b rows 0) /\ (forall a b, (a < b < length cols)%nat -> nth a cols 0 < nth b cols 0) /\
    nrow c = Z.of_nat (length rows) /\ ncol c = Z.of_nat (length cols) /\
    (forall i j, 0 <= i < nrow c -> 0 <= j < ncol c -> cell c i j = cell g (nth (Z.to_nat i) rows 0) (nth (Z.to_nat j) cols 0)).
Proof.
  cbv zeta. exists (keep_rows g), (keep_cols g).
  assert (R : forall n a b, (a < b < length (zrange 0 n))%nat -> nth a (zrange 0 n) 0 < nth b (zrange 0 n) 0) by (intros n a b L; rewrite zrange_length in L; rewrite !zrange_nth by lia; lia).
  split; [|split; [|split; [apply nth_filter_mono, R | split; [apply nth_filter_mono, R | split; [reflexivity | split; [reflexivity | intros; reflexivity]]]]]].
  - intros i. unfold keep_rows. rewrite filter_In, zrange_in, existsb_exists. split; intros (A & j & B & C); (split; [exact A|]; exists j); [apply zrange_in in B; apply negb_true_iff in C; tauto | rewrite zrange_in, negb_true_iff; tauto].
  - intros j. unfold keep_cols. rewrite filter_In, zrange_in, existsb_exists. split; intros (A & i & B & C); (split; [exact A|]; exists i); [apply zrange_in in B; apply negb_true_iff in C; tauto | rewrite zrange_in, negb_true_iff; tauto].
Qed.

(** ** unstruct2grid *)
Lemma axes_ok pts cs : pts <> [] -> (0 < cs)%Qc -> exists x0 x1 y0 y1 cx cy xv yv, grid_axes (points pts) (XFin cs) = Ok (xv, yv) /\
  least x0 (map fst pts) /\ greatest x1 (map fst pts) /\ least y0 (map snd pts) /\ greatest y1 (map snd pts) /\
  is_ceiling cx ((x1 - x0) / cs) /\ is_ceiling cy ((y1 - y0) / cs) /\ 0 <= cx /\ 0 <= cy /\ regular_axis x0 cs (cx + 1) xv /\ regular_axis y0 cs (cy + 1) yv.
Proof.
  intros NE C. unfold grid_axes, points. rewrite !map_map. cbn [fst snd]. rewrite <- (map_map fst XFin), <- (map_map snd XFin).
  destruct (axis_ok (map fst pts) cs) as (x0 & x1 & cx & xv & -> & A1 & A2 & A3 & A4 & A5); [destruct pts; [congruence | discriminate] | exact C|].
  destruct (axis_ok (map snd pts) cs) as (y0 & y1 & cy & yv & -> & B1 & B2 & B3 & B4 & B5); [destruct pts; [congruence | discriminate] | exact C|].
  cbn [bind]. exists x0, x1, y0, y1, cx, cy, xv, yv. repeat (split; [first [reflexivity | assumption]|]). assumption.
Qed.
Lemma regular_in a cs n v x : regular_axis a cs n v -> In x v -> exists q, x = XFin q.
Proof. intros (L & H) I. apply (In_nth _ _ XNaN) in I as (j & Hj & <-). specialize (H (Z.of_nat j) ltac:(lia)). rewrite Nat2Z.id in H. eauto. Qed.

Definition u2g query nearest t pts cs k boundary crop data := unstruct2grid query nearest (XFin t) (points pts) data (XFin cs) k boundary crop.
Lemma u2g_ok query nearest t pts cs k boundary crop data (f : xq * xq -> xq) : pts <> [] -> (0 < cs)%Qc -> length data = length pts ->
  (forall x y, node_value query nearest (XFin t) k data (XFin x, XFin y) = Ok (f (XFin x, XFin y))) ->
  exists x0 x1 y0 y1 cx cy g, least x0 (map fst pts) /\ greatest x1 (map fst pts) /\ least y0 (map snd pts) /\ greatest y1 (map snd pts) /\
  is_ceiling cx ((x1 - x0) / cs) /\ is_ceiling cy ((y1 - y0) / cs) /\ 0 <= cx /\ 0 <= cy /\
  u2g query nearest t pts cs k boundary false data = Ok g /\ nrow g = cy + 1 /\ ncol g = cx + 1 /\
  (forall i j, 0 <= i < nrow g -> 0 <= j < ncol g -> cell g i j = masked boundary (raster_node x0 y0 cs (nrow g) i j) (f (raster_node x0 y0 cs (nrow g) i j))) /\
  u2g query nearest t pts cs k boundary crop data = Ok (match boundary with Some _ => if crop then crop_nan g else g | None => g end).
Proof.
  intros NE C L H. destruct (axes_ok pts cs NE C) as (x0 & x1 & y0 & y1 & cx & cy & xv & yv & AX & A1 & A2 & A3 & A4 & A5 & A6 & A7 & A8 & RX & RY).
  assert (NX : xv <> []) by (intros ->; destruct RX as (E & _); cbn in E; lia). assert (NY : yv <> []) by (intros ->; destruct RY as (E & _); cbn in E; lia).
  destruct (interp_ok query nearest t xv yv k boundary crop data f NX NY) as (g & E1 & R & CL & CE & E2).
  { intros x y Hx Hy. destruct (regular_in _ _ _ _ _ RX Hx) as (qx & ->), (regular_in _ _ _ _ _ RY Hy) as (qy & ->). apply H. }
  exists x0, x1, y0, y1, cx, cy, g. unfold u2g, unstruct2grid. rewrite AX. unfold points. rewrite map_length, <- L, Nat.eqb_refl. cbn [negb bind].
  destruct RX as (LX & RX), RY as (LY & RY).
  repeat (split; [first [assumption | lia]|]). split; [|exact E2].
  intros i j Hi Hj. rewrite CE by assumption. cbv zeta. rewrite R, CL, LX, LY in *. rewrite RX, RY by lia. reflexivity.
Qed.
Lemma node_idw query nearest t vs k : (0 < t)%Qc -> 2 <= k -> (forall x y, neighbours (length vs) (query k (XFin x, XFin y))) ->
  forall x y, node_value query nearest (XFin t) k (map XFin vs) (XFin x, XFin y) = Ok (XFin (vsum t vs (query k (XFin x, XFin y)) / wsum t (query k (XFin x, XFin y)))%Qc).
Proof. intros T0 K H x y. unfold node_value. destruct (Z.eqb_spec k 1); [lia|]. apply idw_ok; [exact T0 | apply H]. Qed.

Lemma foldM_bad t n data nb : n = length data -> (forall d i, In (d, i) nb -> 0 <= i <= Z.of_nat n) -> In (Z.of_nat n) (map snd nb) -> forall st,
  foldM (fun (st : xq * xq) (di : xq * Z) => let w := ndiv n1 (nadd (fst di) (XFin t)) in q <- py_nth data (snd di) ;; Ok (nadd (fst st) (nmul q w), nadd (snd st) w)) nb st = Err IndexError.
Proof.
  intros -> H I. induction nb as [|[d i] nb IH]; [contradiction|]. intros st. cbn [foldM fst snd].
  destruct (Z.eq_dec i (Z.of_nat (length data))) as [->|NI].
  - unfold py_nth, norm_ix. rewrite (proj2 (Z.ltb_ge _ _)) by lia. rewrite andb_false_r. rewrite (proj2 (Z.ltb_ge (Z.of_nat (length data)) 0)) by lia. rewrite andb_false_r. reflexivity.
  - specialize (H d i (or_introl eq_refl)) as Hi. pose proof (py_nth_ok XNaN data (Z.to_nat i)) as P. rewrite Z2Nat.id in P by lia. rewrite P by lia. cbn [bind].
    apply IH; [intros; apply (H d0 i0); right; assumption|]. destruct I as [E|I]; [cbn in E; congruence | exact I].
Qed.
Lemma u2g_bad query nearest t pts cs k boundary crop data : pts <> [] -> (0 < cs)%Qc -> length data = length pts -> 2 <= k ->
  (forall x y, padded_neighbours (length data) (query k (XFin x, XFin y))) -> u2g query nearest t pts cs k boundary crop data = Err IndexError.
Proof.
  intros NE C L K H. destruct (axes_ok pts cs NE C) as (x0 & x1 & y0 & y1 & cx & cy & xv & yv & AX & A1 & A2 & A3 & A4 & A5 & A6 & A7 & A8 & RX & RY).
  unfold u2g, unstruct2grid. rewrite AX. unfold points. rewrite map_length, <- L, Nat.eqb_refl. cbn [negb bind]. unfold interp_func.
  destruct xv as [|x xv]; [destruct RX as (E & _); cbn in E; lia|]. destruct yv as [|y yv]; [destruct RY as (E & _); cbn in E; lia|].
  cbn [length]. destruct (Z.eqb_spec (Z.of_nat (S (length yv))) 0); [lia|]. destruct (Z.eqb_spec (Z.of_nat (S (length xv))) 0); [lia|]. cbn [orb mapM].
  destruct (regular_in _ _ _ _ x RX (or_introl eq_refl)) as (qx & ->), (regular_in _ _ _ _ y RY (or_introl eq_refl)) as (qy & ->).
  unfold node_value. destruct (Z.eqb_spec k 1); [lia|]. destruct (H qx qy) as (H1 & H2).
  unfold idw at 1. rewrite (foldM_bad t (length data) data _ eq_refl H1); [reflexivity|]. apply (in_map snd) in H2. exact H2.
Qed.

(** ** The property statements *)
Section Props.
Variables (query : Z -> xq * xq -> list (xq * Z)) (nearest : xq * xq -> Z) (t : Qc) (pts : list (Qc * Qc)) (cs : Qc) (k : Z).
Hypotheses (C : (0 < cs)%Qc) (NE : pts <> []).
Section K.
Hypotheses (T0 : (0 < t)%Qc) (K : 2 <= k).
Lemma grid_between boundary vs : length vs = length pts -> (forall x y, neighbours (length vs) (query k (XFin x, XFin y))) ->
  exists x0 y0 g, least x0 (map fst pts) /\ least y0 (map snd pts) /\ unstruct2grid query nearest (XFin t) (points pts) (map XFin vs) (XFin cs) k boundary false = Ok g /\
  forall i j, 0 <= i < nrow g -> 0 <= j < ncol g -> let p := raster_node x0 y0 cs (nrow g) i j in
    match boundary with Some inside => inside p = false -> cell g i j = XNaN | None => True end /\
    (match boundary with Some inside => inside p = true | None => True end ->
     exists v, cell g i j = XFin v /\ forall lo hi, (forall d n, In (d, n) (query k p) -> (lo <= nth (Z.to_nat n) vs 0)%Qc /\ (nth (Z.to_nat n) vs 0 <= hi)%Qc) -> (lo <= v)%Qc /\ (v <= hi)%Qc).
Proof.
  intros L H. destruct (u2g_ok query nearest t pts cs k boundary false (map XFin vs) (fun p => XFin (vsum t vs (query k p) / wsum t (query k p))%Qc) NE C) as (x0 & x1 & y0 & y1 & cx & cy & g & A1 & _ & A2 & _ & _ & _ & _ & _ & E & _ & _ & CE & _).
  - rewrite map_length. exact L.
  - apply node_idw; assumption.
  - exists x0, y0, g. repeat (split; [assumption|]). intros i j Hi Hj. cbv zeta. rewrite (CE i j Hi Hj). unfold masked. split.
    + destruct boundary as [inside|]; [|exact I]. intros ->. reflexivity.
    + intros B. exists (vsum t vs (query k (raster_node x0 y0 cs (nrow g) i j)) / wsum t (query k (raster_node x0 y0 cs (nrow g) i j)))%Qc. split.
      * destruct boundary as [inside|]; [rewrite B|]; reflexivity.
      * intros lo hi LH. apply (idw_between t vs T0); [apply H | exact LH].
Qed.
Lemma grid_total boundary crop vs : length vs = length pts -> (forall x y, neighbours (length vs) (query k (XFin x, XFin y))) ->
  exists g, unstruct2grid query nearest (XFin t) (points pts) (map XFin vs) (XFin cs) k boundary crop = Ok g.
Proof.
  intros L H. destruct (u2g_ok query nearest t pts cs k boundary crop (map XFin vs) (fun p => XFin (vsum t vs (query k p) / wsum t (query k p))%Qc) NE C) as (x0 & x1 & y0 & y1 & cx & cy & g & A1 & _ & A2 & _ & _ & _ & _ & _ & E & _ & _ & CE & E2).
  - rewrite map_length. exact L.
  - apply node_idw; assumption.
  - eexists. exact E2.
Qed.
Lemma grid_constant vs c : length vs = length pts -> (forall x y, neighbours (length vs) (query k (XFin x, XFin y))) -> (forall v, In v vs -> v = c) ->
  exists g, unstruct2grid query nearest (XFin t) (points pts) (map XFin vs) (XFin cs) k None true = Ok g /\
  forall i j, 0 <= i < nrow g -> 0 <= j < ncol g -> cell g i j = XFin c.
Proof.
  intros L H CST. destruct (u2g_ok query nearest t pts cs k None true (map XFin vs) (fun p => XFin (vsum t vs (query k p) / wsum t (query k p))%Qc) NE C) as (x0 & x1 & y0 & y1 & cx & cy & g & A1 & _ & A2 & _ & _ & _ & _ & _ & E & _ & _ & CE & E2).
  - rewrite map_length. exact L.
  - apply node_idw; assumption.
  - exists g. split; [exact E2|]. intros i j Hi Hj. rewrite (CE i j Hi Hj). cbn [masked]. f_equal.
    destruct (idw_between t vs T0 (query k (raster_node x0 y0 cs (nrow g) i j)) c c) as (P1 & P2); [apply H | |apply Qcle_antisym; assumption].
    intros d n In1. unfold val. destruct (H (x0 + Qcofz j * cs)%Qc (y0 + Qcofz (nrow g - 1 - i) * cs)%Qc) as (_ & H2). destruct (H2 d n In1) as (Hn & _).
    rewrite (CST (nth (Z.to_nat n) vs 0%Qc)) by (apply nth_In; lia). split; apply Qcle_refl.
Qed.
Lemma grid_linear boundary vs ws us a b : length vs = length pts -> length ws = length pts -> length us = length pts ->
  (forall x y, neighbours (length vs) (query k (XFin x, XFin y))) ->
  (forall i, (i < length pts)%nat -> nth i us 0%Qc = (a * nth i vs 0 + b * nth i ws 0)%Qc) ->
  exists g h f, unstruct2grid query nearest (XFin t) (points pts) (map XFin vs) (XFin cs) k boundary false = Ok g /\
    unstruct2grid query nearest (XFin t) (points pts) (map XFin ws) (XFin cs) k boundary false = Ok h /\
    unstruct2grid query nearest (XFin t) (points pts) (map XFin us) (XFin cs) k boundary false = Ok f /\
    nrow f = nrow g /\ nrow h = nrow g /\ ncol f = ncol g /\ ncol h = ncol g /\
    forall i j, 0 <= i < nrow g -> 0 <= j < ncol g ->
      (cell g i j = XNaN /\ cell h i j = XNaN /\ cell f i j = XNaN) \/
      (exists v w, cell g i j = XFin v /\ cell h i j = XFin w /\ cell f i j = XFin (a * v + b * w)%Qc).
Proof.
  intros L1 L2 L3 H CB.
  assert (W : forall us', length us' = length pts -> exists g, unstruct2grid query nearest (XFin t) (points pts) (map XFin us') (XFin cs) k boundary false = Ok g /\ True) by (intros us' L'; destruct (grid_total boundary false us') as (g & E); [exact L' | intros; rewrite L', <- L1; apply H | exists g; tauto]).
  destruct (axes_ok pts cs NE C) as (x0 & x1 & y0 & y1 & cx & cy & xv & yv & AX & A1 & A2 & A3 & A4 & A5 & A6 & A7 & A8 & RX & RY).
  assert (NX : xv <> []) by (intros ->; destruct RX as (E & _); cbn in E; lia). assert (NY : yv <> []) by (intros ->; destruct RY as (E & _); cbn in E; lia).
  assert (Y : forall us', length us' = length pts -> exists g, unstruct2grid query nearest (XFin t) (points pts) (map XFin us') (XFin cs) k boundary false = Ok g /\ nrow g = cy + 1 /\ ncol g = cx + 1 /\
    forall i j, 0 <= i < nrow g -> 0 <= j < ncol g -> cell g i j = let p := raster_node x0 y0 cs (cy + 1) i j in masked boundary p (XFin (vsum t us' (query k p) / wsum t (query k p))%Qc)).
  { intros us' L'. destruct (interp_ok query nearest t xv yv k boundary false (map XFin us') (fun p => XFin (vsum t us' (query k p) / wsum t (query k p))%Qc) NX NY) as (g & E1 & R & CL & CE & _).
    - intros x y Hx Hy. destruct (regular_in _ _ _ _ _ RX Hx) as (qx & ->), (regular_in _ _ _ _ _ RY Hy) as (qy & ->). apply node_idw; [exact T0 | exact K | intros; rewrite L', <- L1; apply H].
    - exists g. unfold unstruct2grid. rewrite AX. unfold points. rewrite !map_length, L', Nat.eqb_refl. cbn [negb bind]. destruct RX as (LX & RX), RY as (LY & RY).
      split; [exact E1|]. split; [lia|]. split; [lia|]. intros i j Hi Hj. rewrite CE by assumption. cbv zeta. rewrite R, CL, LX, LY in *. rewrite RX, RY by lia. reflexivity. }
  clear W. destruct (Y vs L1) as (g & G1 & G2 & G3 & G4), (Y ws L2) as (h & H1 & H2 & H3 & H4), (Y us L3) as (f & F1 & F2 & F3 & F4). exists g, h, f.
  repeat (split; [congruence|]). intros i j Hi Hj. rewrite G4, H4, F4 by congruence. cbv zeta. set (p := raster_node x0 y0 cs (cy + 1) i j).
  assert (NB : neighbours (length vs) (query k p)) by apply H.
  assert (V : (vsum t us (query k p) / wsum t (query k p) = a * (vsum t vs (query k p) / wsum t (query k p)) + b * (vsum t ws (query k p) / wsum t (query k p)))%Qc).
  { rewrite (idw_linear t vs ws us a b); [ | congruence | congruence | intros; apply CB; congruence | intros d n In1; apply (proj2 NB d n In1)]. field. apply qc_pos_nz. apply (wsum_pos t vs T0 _ NB). }
  destruct boundary as [inside|]; cbn [masked].
  - destruct (inside p); [right | left; repeat split; reflexivity]. eexists. eexists. split; [reflexivity|]. split; [reflexivity|]. f_equal. exact V.
  - right. eexists. eexists. split; [reflexivity|]. split; [reflexivity|]. f_equal. exact V.
Qed.
Lemma grid_extent vs : length vs = length pts -> (forall x y, neighbours (length vs) (query k (XFin x, XFin y))) ->
  exists x0 x1 y0 y1 cx cy g,
    least x0 (map fst pts) /\ greatest x1 (map fst pts) /\ least y0 (map snd pts) /\ greatest y1 (map snd pts) /\
    is_ceiling cx ((x1 - x0) / cs) /\ is_ceiling cy ((y1 - y0) / cs) /\
    unstruct2grid query nearest (XFin t) (points pts) (map XFin vs) (XFin cs) k None true = Ok g /\
    nrow g = cy + 1 /\ ncol g = cx + 1 /\ 0 <= cx /\ 0 <= cy /\
    (forall p, In p pts -> (x0 <= fst p)%Qc /\ (fst p <= x0 + Qcofz (ncol g - 1) * cs)%Qc /\ (y0 <= snd p)%Qc /\ (snd p <= y0 + Qcofz (nrow g - 1) * cs)%Qc) /\
    (forall i j, 0 <= i < nrow g -> 0 <= j < ncol g -> Ok (cell g i j) = idw (XFin t) (query k (raster_node x0 y0 cs (nrow g) i j)) (map XFin vs)).
Proof.
  intros L H. destruct (u2g_ok query nearest t pts cs k None true (map XFin vs) (fun p => XFin (vsum t vs (query k p) / wsum t (query k p))%Qc) NE C) as (x0 & x1 & y0 & y1 & cx & cy & g & A1 & A2 & A3 & A4 & A5 & A6 & A7 & A8 & E & R & CL & CE & E2).
  - rewrite map_length. exact L.
  - apply node_idw; assumption.
  - exists x0, x1, y0, y1, cx, cy, g. repeat (split; [assumption|]). split.
    + intros p Hp. rewrite R, CL. replace (cx + 1 - 1) with cx by lia. replace (cy + 1 - 1) with cy by lia.
      pose proof (axis_covers x0 x1 cs cx C A5). pose proof (axis_covers y0 y1 cs cy C A6).
      apply (in_map fst) in Hp as P1. apply (in_map snd) in Hp as P2. split; [apply A1; exact P1|]. split; [apply Qcle_trans with x1; [apply A2; exact P1 | assumption]|].
      split; [apply A3; exact P2|]. apply Qcle_trans with y1; [apply A4; exact P2 | assumption].
    + intros i j Hi Hj. rewrite (CE i j Hi Hj). cbn [masked]. symmetry. apply idw_ok; [exact T0 | apply H].
Qed.
End K.
Lemma grid_nearest boundary vs : length vs = length pts -> (forall x y, 0 <= nearest (XFin x, XFin y) < Z.of_nat (length vs)) ->
  exists x0 y0 g, least x0 (map fst pts) /\ least y0 (map snd pts) /\ unstruct2grid query nearest (XFin t) (points pts) (map XFin vs) (XFin cs) 1 boundary false = Ok g /\
  forall i j, 0 <= i < nrow g -> 0 <= j < ncol g -> let p := raster_node x0 y0 cs (nrow g) i j in
    cell g i j = match boundary with Some inside => if inside p then XFin (nth (Z.to_nat (nearest p)) vs 0%Qc) else XNaN | None => XFin (nth (Z.to_nat (nearest p)) vs 0%Qc) end.
Proof.
  intros L H. destruct (u2g_ok query nearest t pts cs 1 boundary false (map XFin vs) (fun p => XFin (nth (Z.to_nat (nearest p)) vs 0%Qc)) NE C) as (x0 & x1 & y0 & y1 & cx & cy & g & A1 & _ & A2 & _ & _ & _ & _ & _ & E & _ & _ & CE & _).
  - rewrite map_length. exact L.
  - intros x y. unfold node_value. cbn [Z.eqb Pos.eqb]. specialize (H x y). pose proof (py_nth_ok XNaN (map XFin vs) (Z.to_nat (nearest (XFin x, XFin y)))) as P. rewrite Z2Nat.id in P by lia. rewrite P by (rewrite map_length; lia).
    rewrite (nth_indep _ XNaN (XFin 0%Qc)) by (rewrite map_length; lia). rewrite map_nth. reflexivity.
  - exists x0, y0, g. repeat (split; [assumption|]). intros i j Hi Hj. cbv zeta. rewrite (CE i j Hi Hj). unfold masked. reflexivity.
Qed.
End Props.

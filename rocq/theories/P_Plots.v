(** Properties C80 (travel paths), C81 (animation frames) and C82 (heat-map transparency). *)
From Coq Require Import ZArith Bool String List Lia QArith Qcanon Lqa.
From Verif Require Import Num F64 F64Laws XQ XQLaws XQFacts Py NumFacts NumMore NumPost Walker ParticleTrack SpecWeights SpecWalk SpecRout PostProc Routines Plots
  ProofStep ProofPick ProofNour ProofNourQ ProofRout P_Rout.
Import ListNotations.
Open Scope Z_scope.

Lemma skipn_nth {A} k (l : list A) m d : nth m (skipn k l) d = nth (k + m) l d.
Proof. revert l. induction k as [|k IH]; intros l; [reflexivity|]. destruct l as [|a l]; cbn [skipn Nat.add]; [destruct m; reflexivity|]. apply IH. Qed.
Lemma every_from_spec {A} k : (1 <= k)%nat -> forall fuel (l : list A) d, (length l <= fuel)%nat -> forall m,
  (m < length (every_from fuel k l) <-> m * k < length l)%nat /\ ((m * k < length l)%nat -> nth m (every_from fuel k l) d = nth (m * k) l d).
Proof.
  intros K. induction fuel as [|fuel IH]; intros l d L m.
  - destruct l; [|cbn in L; lia]. cbn. split; [split; intros H; lia | intros H; lia].
  - destruct l as [|a l]; [cbn; split; [split; intros H; lia | intros H; lia]|]. cbn [every_from length].
    assert (LS : (length (skipn (k - 1) l) <= fuel)%nat) by (rewrite skipn_length; cbn in L; lia).
    destruct m as [|m]; [split; [split; intros; lia | reflexivity]|].
    destruct (IH (skipn (k - 1) l) d LS m) as (A1 & A2). rewrite skipn_length in A1, A2. split.
    + split; intros H.
      * assert (m < length (every_from fuel k (skipn (k - 1) l)))%nat by lia. apply A1 in H0. nia.
      * enough (m < length (every_from fuel k (skipn (k - 1) l)))%nat by lia. apply A1. nia.
    + intros H. cbn [nth]. rewrite A2 by nia. rewrite skipn_nth. replace (S m * k)%nat with (S (k - 1 + m * k)) by nia. reflexivity.
Qed.

Section S.
Context {T : Type} {N : Num T}.
(** The line drawn for a particle: records 0, k, 2k, ... as (column, row). *)
Definition sampled (r : prow T) (k : nat) (line : list (Z * Z)) : Prop :=
  forall m, ((m < length line)%nat <-> (m * k < length (r_x r))%nat) /\
            ((m < length line)%nat -> nth m line (0, 0) = (yat r (m * k), xat r (m * k))).
Lemma travel_path_spec (w : walk T) interval q : rect_walk w -> (q < count w)%nat -> 0 < interval ->
  exists l, travel_path w interval (Z.of_nat q) = Ok l /\ sampled (record_of w q) (Z.to_nat interval) l.
Proof.
  intros (ND & (LY & LT & LO) & RR) Hq HI. destruct (RR q Hq) as (L1 & L2 & _). unfold record_of, row in L1, L2. cbn [r_x r_y] in L1, L2.
  unfold travel_path. rewrite (py_nth_ok (xinds w) q []) by exact Hq. cbn [bind]. unfold every at 1. destruct (Z.leb_spec interval 0) as [BAD|_]; [lia|]. cbn [bind].
  rewrite (py_nth_ok (yinds w) q []) by lia. cbn [bind]. unfold every. destruct (Z.leb_spec interval 0) as [BAD|_]; [lia|]. cbn [bind].
  eexists. split; [reflexivity|]. set (k := Z.to_nat interval). assert (K : (1 <= k)%nat) by (unfold k; lia).
  set (xs := nth q (xinds w) []) in *. set (ys := nth q (yinds w) []) in *. intros m.
  destruct (every_from_spec k K (length xs) xs 0 (Nat.le_refl _) m) as (X1 & X2).
  destruct (every_from_spec k K (length ys) ys 0 (Nat.le_refl _) m) as (Y1 & Y2).
  assert (LE : length (every_from (length ys) k ys) = length (every_from (length xs) k xs)).
  { destruct (Nat.lt_trichotomy (length (every_from (length ys) k ys)) (length (every_from (length xs) k xs))) as [H|[H|H]]; [|exact H|]; exfalso.
    - pose proof (proj1 (proj1 (every_from_spec k K (length xs) xs 0 (Nat.le_refl _) _)) H) as H1. pose proof (proj2 (proj1 (every_from_spec k K (length ys) ys 0 (Nat.le_refl _) (length (every_from (length ys) k ys))))). lia.
    - pose proof (proj1 (proj1 (every_from_spec k K (length ys) ys 0 (Nat.le_refl _) _)) H) as H1. pose proof (proj2 (proj1 (every_from_spec k K (length xs) xs 0 (Nat.le_refl _) (length (every_from (length xs) k xs))))). lia. }
  unfold record_of, row. cbn [r_x]. fold xs. rewrite combine_length, LE, Nat.min_id. split; [exact X1|].
  intros H. rewrite combine_nth by exact LE. apply X1 in H. rewrite X2 by exact H. rewrite Y2 by lia. reflexivity.
Qed.
Lemma travel_lines_spec (w : walk T) interval draws : rect_walk w -> 0 < interval -> forall qs pos, (forall q, In q qs -> (q < count w)%nat) ->
  exists ls, travel_lines w interval draws (map Z.of_nat qs) pos = Ok (ls, (pos + 3 * length qs)%nat) /\ length ls = length qs /\
    forall i, (i < length qs)%nat -> sampled (record_of w (nth i qs 0%nat)) (Z.to_nat interval) (snd (nth i ls ((n0, n0, n0), []))) /\
      fst (nth i ls ((n0, n0, n0), [])) = (draws (pos + 3 * i)%nat, draws (pos + 3 * i + 1)%nat, draws (pos + 3 * i + 2)%nat).
Proof.
  intros RW HI. induction qs as [|q qs IH]; intros pos RG; cbn [map travel_lines].
  - exists []. split; [f_equal; f_equal; cbn; lia|]. split; [reflexivity | intros i H; cbn in H; lia].
  - destruct (travel_path_spec w interval q RW (RG q (or_introl eq_refl)) HI) as (l & -> & SA). cbn [bind].
    destruct (IH (pos + 3)%nat (fun q0 H => RG q0 (or_intror H))) as (ls & -> & LL & NN). cbn [bind]. eexists. split; [f_equal; f_equal; cbn [length]; lia|].
    split; [cbn [length]; lia|]. intros [|i] H; [split; [exact SA|]; cbn [nth fst]; replace (pos + 3 * 0)%nat with pos by lia; reflexivity|].
    cbn [nth]. replace (pos + 3 * S i)%nat with (pos + 3 + 3 * i)%nat by lia. apply NN. cbn [length] in H. lia.
Qed.
End S.

(** C80 draw_travel_path draws one line per followed particle, in the order given: the positions in records 0, interval, 2*interval, ... of that
    particle, as (column, row).  Its colour is made of the
    next three numbers of the generator, which goes on after the last of them. *)
Theorem C80_travel_paths :
  forall (w : walk f64) follow interval draws pos, rect_walk w -> 0 < interval ->
    (forall qs, follow = Some qs -> exists ns, qs = map Z.of_nat ns /\ forall q, In q ns -> (q < count w)%nat) ->
    let ids := match follow with None => seq 0 (count w) | Some qs => map Z.to_nat qs end in
    exists ls, draw_travel_path w follow interval draws pos = Ok (ls, (pos + 3 * length ids)%nat) /\ length ls = length ids /\
      forall i, (i < length ids)%nat -> sampled (record_of w (nth i ids 0%nat)) (Z.to_nat interval) (snd (nth i ls ((n0, n0, n0), []))) /\
        fst (nth i ls ((n0, n0, n0), [])) = (draws (pos + 3 * i)%nat, draws (pos + 3 * i + 1)%nat, draws (pos + 3 * i + 2)%nat).
Proof.
  intros w follow interval draws pos RW HI HF ids. unfold draw_travel_path. destruct follow as [qs|].
  - destruct (HF qs eq_refl) as (ns & -> & RG). unfold ids. rewrite map_map. rewrite (map_ext _ (fun n => n) Nat2Z.id), map_id.
    apply travel_lines_spec; assumption.
  - assert (EZ : zrange 0 (Z.of_nat (length (xinds w))) = map Z.of_nat (seq 0 (count w))).
    { unfold zrange, count. replace (Z.to_nat (Z.of_nat (length (xinds w)) - 0)) with (length (xinds w)) by lia. apply map_ext. intros a. lia. }
    rewrite EZ. apply travel_lines_spec; [exact RW | exact HI|]. intros q H. apply in_seq in H. lia.
Qed.
Print Assumptions C80_travel_paths.
Example C80_example : rect_walk rw_w /\ draw_travel_path rw_w (Some [2; 0]) 2 (fun _ => n0) 7 = Ok ([((n0, n0, n0), [(8, 5)]); ((n0, n0, n0), [(1, 1); (2, 3)])], 13%nat).
Proof. split; [exact rw_rect|]. reflexivity. Qed.

(** C81 "end_val: number of last plot to use" - the frames end one plot earlier, for every pair of numbers. *)
Theorem C81_last_plot_refuted : forall start_val end_val, ~ In end_val (animate_plots start_val end_val).
Proof. intros a b H. unfold animate_plots in H. apply zrange_In in H. lia. Qed.
Print Assumptions C81_last_plot_refuted.
(** What holds: the plots start_val, start_val+1, ..., end_val-1, in this order. *)
Theorem C81_frames_partial : forall start_val end_val,
  length (animate_plots start_val end_val) = Z.to_nat (end_val - start_val) /\
  forall i, (i < length (animate_plots start_val end_val))%nat -> nth i (animate_plots start_val end_val) 0 = start_val + Z.of_nat i.
Proof. intros a b. unfold animate_plots. rewrite zrange_length. split; [reflexivity|]. intros i H. apply zrange_nth. exact H. Qed.
Print Assumptions C81_frames_partial.
Example C81_example : animate_plots 0 4 = [0; 1; 2; 3].
Proof. reflexivity. Qed.

(** C82, exact arithmetic. *)
Definition is_map (a : arr xq) : Prop := forall x, In x (cells a) -> x = nnan \/ exists v, x = XFin v /\ (0 <= v)%Qc.
Definition number_at (a : arr xq) (i j : Z) (v : Qc) : Prop := 0 <= i < nrow a /\ 0 <= j < ncol a /\ cell a i j = XFin v.

Lemma qc_case (a b : Qc) : (a < b)%Qc \/ (b <= a)%Qc. Proof. destruct (Qclt_le_dec a b); auto. Qed.
Definition qmax (a b : Qc) : Qc := if Qclt_le_dec a b then b else a.
Definition qmin (a b : Qc) : Qc := if Qclt_le_dec b a then b else a.
Lemma xq_max2 a b : np_max2 (XFin a) (XFin b) = XFin (qmax a b).
Proof. unfold np_max2, qmax. cbn [nisnan XQnum xisnan]. destruct (Qclt_le_dec a b) as [C|C]; [rewrite (proj2 (xq_ltb a b) C) | rewrite (proj2 (xq_ltb_f a b) C)]; reflexivity. Qed.
Lemma xq_min2 a b : np_min2 (XFin a) (XFin b) = XFin (qmin a b).
Proof. unfold np_min2, qmin. cbn [nisnan XQnum xisnan]. destruct (Qclt_le_dec b a) as [C|C]; [rewrite (proj2 (xq_ltb b a) C) | rewrite (proj2 (xq_ltb_f b a) C)]; reflexivity. Qed.
Definition alpha_of (amax lo v : Qc) : Qc := qmin (qmax (if Qc_eq_dec amax 0 then 0 else qmin (qmax v 0) amax / amax) lo) 1.
Lemma alpha_cell amax lo v : (0 <= amax)%Qc -> exists r, normalize_clip (XFin amax) (XFin v) = Ok r /\ clip_alpha (XFin lo) r = XFin (alpha_of amax lo v).
Proof.
  intros A0. unfold normalize_clip, alpha_of. rewrite n0_xq. destruct (Qc_eq_dec amax 0) as [->|NZ].
  - rewrite (proj2 (xq_eqb 0 0) eq_refl). eexists. split; [reflexivity|]. unfold clip_alpha. rewrite n1_xq, xq_max2, xq_min2. reflexivity.
  - replace (neqb (XFin 0%Qc) (XFin amax)) with false by (symmetry; apply not_true_iff_false; intros C; apply xq_eqb in C; congruence).
    rewrite (proj2 (xq_ltb_f amax 0) A0). eexists. split; [reflexivity|]. unfold np_clip, clip_alpha. rewrite n0_xq, n1_xq, xq_max2, xq_min2, !xq_sub.
    replace (amax - 0)%Qc with amax by ring. rewrite xq_div by exact NZ. rewrite xq_max2, xq_min2. f_equal. f_equal. f_equal. f_equal. ring.
Qed.
Ltac qc := unfold Qcle, Qclt in *; change (this 0%Qc) with 0%Q in *; change (this 1%Qc) with 1%Q in *; Lqa.lra.
Lemma qmax_mono a b c : (a <= b)%Qc -> (qmax a c <= qmax b c)%Qc.
Proof. intros H. unfold qmax. destruct (Qclt_le_dec a c), (Qclt_le_dec b c); qc. Qed.
Lemma qmin_mono a b c : (a <= b)%Qc -> (qmin a c <= qmin b c)%Qc.
Proof. intros H. unfold qmin. destruct (Qclt_le_dec c a), (Qclt_le_dec c b); qc. Qed.
Lemma qdiv_mono a b c : (0 < c)%Qc -> (a <= b)%Qc -> (a / c <= b / c)%Qc.
Proof.
  intros C H. unfold Qcle, Qclt in *. change (this 0%Qc) with 0%Q in C. rewrite !this_div. apply Qle_shift_div_l; [exact C|].
  unfold Qdiv. rewrite <- Qmult_assoc, (Qmult_comm (/ _)), Qmult_inv_r, Qmult_1_r by (intros E; rewrite E in C; discriminate C). exact H.
Qed.
Lemma alpha_mono amax lo a b : (0 <= amax)%Qc -> (a <= b)%Qc -> (alpha_of amax lo a <= alpha_of amax lo b)%Qc.
Proof.
  intros A0 H. unfold alpha_of. apply qmin_mono, qmax_mono. destruct (Qc_eq_dec amax 0) as [E|NZ]; [apply Qcle_refl|].
  apply qdiv_mono; [|apply qmin_mono, qmax_mono, H]. destruct (Qcle_lt_or_eq _ _ A0) as [|E]; [assumption | congruence].
Qed.
Lemma alpha_range amax lo v : (lo <= 1)%Qc -> (lo <= alpha_of amax lo v)%Qc /\ (alpha_of amax lo v <= 1)%Qc.
Proof.
  intros L. unfold alpha_of. set (z := if Qc_eq_dec amax 0 then _ else _). unfold qmin, qmax. destruct (Qclt_le_dec z lo).
  - destruct (Qclt_le_dec 1 lo); split; qc.
  - destruct (Qclt_le_dec 1 z); split; qc.
Qed.
Lemma alpha_full amax lo v : (0 < amax)%Qc -> (amax <= v)%Qc -> (lo <= 1)%Qc -> alpha_of amax lo v = 1%Qc.
Proof.
  intros A L H. unfold alpha_of. destruct (Qc_eq_dec amax 0) as [E|NZ]; [rewrite E in A; discriminate A|].
  assert (E1 : qmin (qmax v 0) amax = amax). { unfold qmax. destruct (Qclt_le_dec v 0); [qc|]. unfold qmin. destruct (Qclt_le_dec amax v); [reflexivity|]. apply Qc_is_canon. qc. }
  rewrite E1. replace (amax / amax)%Qc with 1%Qc by (unfold Qcdiv; rewrite Qcmult_inv_r; [reflexivity | exact NZ]).
  unfold qmax. destruct (Qclt_le_dec 1 lo); [qc|]. unfold qmin. destruct (Qclt_le_dec 1 1); reflexivity.
Qed.

Lemma percentile_exists (a : arr xq) (c : Qc) i j v : is_map a -> number_at a i j v -> (0 <= c)%Qc -> (this c <= 100)%Q ->
  exists m, np_nanpercentile (cells a) (XFin c) = Ok (XFin m) /\ (0 <= m)%Qc.
Proof.
  intros IM (Hi & Hj & Ev) C0 C1. set (l := filter (fun x => negb (nisnan x)) (cells a)).
  assert (EP : np_nanpercentile (cells a) (XFin c) = np_nanpercentile l (XFin c)).
  { unfold np_nanpercentile. replace (filter (fun x => negb (nisnan x)) l) with l; [reflexivity|]. symmetry. apply filter_all. intros x Hx. apply filter_In in Hx. apply Hx. }
  assert (FIN : forall x, In x l -> exists b, x = XFin b /\ (0 <= b)%Qc).
  { intros x Hx. apply filter_In in Hx as (I & NNx). destruct (IM x I) as [->|Q]; [discriminate | exact Q]. }
  assert (IV : In (XFin v) l).
  { apply filter_In. split; [|reflexivity]. unfold cells. apply in_flat_map. exists i. split; [apply zrange_In; lia|]. apply in_map_iff. exists j. split; [exact Ev | apply zrange_In; lia]. }
  assert (NE : l <> []) by (intros E; rewrite E in IV; exact IV).
  destruct (percentile_zero l c FIN NE C0 C1) as (m & E & HZ & HP). exists m. rewrite EP. split; [exact E|].
  set (U := Z.of_nat (length (filter isz l))) in *. set (n := Z.of_nat (length l)) in *.
  destruct (Qlt_le_dec (100 * inject_Z (U - 1)) (inject_Z (n - 1) * this c)) as [Q|Q]; [|rewrite (HZ Q); apply Qcle_refl].
  destruct (Z.lt_ge_cases U n) as [UL|UG]; [apply Qclt_le_weak, HP; [exact UL | exact Q]|].
  exfalso. assert (UN : U <= n) by (unfold U, n; pose proof (filter_len isz l); lia). assert (U = n) by lia.
  assert (1 <= n) by (unfold n; destruct l; [congruence | cbn; lia]).
  assert (P0 : (0 <= inject_Z (n - 1))%Q) by (change 0%Q with (inject_Z 0); rewrite <- Zle_Qle; lia). rewrite H in Q. Lqa.nra.
Qed.

(** C82 For a heat map of numbers >= 0 (NaN where there is nothing to show), neither routine fails, and the opacity of the cells with a number lies
    between min_alpha and 1, does not decrease with the value, and is 1 from the 60th (sigma >= 0.125) or 30th percentile of the map on (20th for times). *)
Definition faithful_opacity (q : Qc) (a : arr xq) (lo : Qc) (r : res (arr xq)) : Prop :=
  exists al m, r = Ok al /\ np_nanpercentile (cells a) (XFin q) = Ok (XFin m) /\
  (forall i j v, number_at a i j v -> exists x, cell al i j = XFin x /\ (lo <= x)%Qc /\ (x <= 1)%Qc /\ ((0 < m)%Qc -> (m <= v)%Qc -> x = 1%Qc)) /\
  (forall i j v i' j' v' x x', number_at a i j v -> number_at a i' j' v' -> (v <= v')%Qc -> cell al i j = XFin x -> cell al i' j' = XFin x' -> (x <= x')%Qc).
Lemma alphas_ok (q : Qc) (a : arr xq) lo i j v : is_map a -> number_at a i j v -> (lo <= 1)%Qc -> (0 <= q)%Qc -> (this q <= 100)%Q ->
  faithful_opacity q a lo (alphas (XFin q) a (XFin lo)).
Proof.
  intros IM NA LO Q0 Q1. destruct (percentile_exists a q i j v IM NA Q0 Q1) as (m & E & M0).
  unfold alphas. rewrite E. cbn [bind]. rewrite n0_xq. destruct (alpha_cell m lo 0%Qc M0) as (r0 & -> & _). cbn [bind].
  eexists _, m. split; [reflexivity|]. split; [exact E|].
  assert (CE : forall i j v, number_at a i j v -> cell (amap (fun x => match normalize_clip (XFin m) x with Ok v => clip_alpha (XFin lo) v | Err _ => nnan end) a) i j = XFin (alpha_of m lo v)).
  { intros i0 j0 v0 (_ & _ & Ev). cbn [cell amap]. rewrite Ev. destruct (alpha_cell m lo v0 M0) as (r & -> & ->). reflexivity. }
  split.
  - intros i0 j0 v0 H. exists (alpha_of m lo v0). split; [apply CE, H|]. destruct (alpha_range m lo v0 LO) as (A & B). split; [exact A|]. split; [exact B|].
    intros MP MV. apply alpha_full; assumption.
  - intros i0 j0 v0 i' j' v' x x' H H' LE Ex Ex'. rewrite (CE _ _ _ H) in Ex. rewrite (CE _ _ _ H') in Ex'. injection Ex as <-. injection Ex' as <-. apply alpha_mono; assumption.
Qed.
Theorem C82_opacity :
  forall (a : arr xq) (sigma lo : Qc) i j v, is_map a -> number_at a i j v -> (lo <= 1)%Qc ->
    faithful_opacity (if Qclt_le_dec sigma (Q2Qc (1 # 8)) then Qcofz 30 else Qcofz 60) a lo (show_nourishment_area a (XFin sigma) (XFin lo)) /\
    faithful_opacity (Qcofz 20) a lo (show_nourishment_time a (XFin lo)).
Proof.
  intros a sigma lo i j v IM NA LO. split.
  - unfold show_nourishment_area.
    assert (E8 : (ndec 125 3 : xq) = XFin (Q2Qc (1 # 8))) by (apply (f_equal XFin); apply Qc_is_canon; vm_compute; reflexivity). rewrite E8.
    destruct (Qclt_le_dec sigma (Q2Qc (1 # 8))) as [C|C].
    + rewrite (proj2 (xq_leb_f (Q2Qc (1 # 8)) sigma) C). apply (alphas_ok (Qcofz 30) a lo i j v IM NA LO); [unfold Qcle|]; rewrite ?this_ofz; discriminate.
    + rewrite (proj2 (xq_leb (Q2Qc (1 # 8)) sigma) C). apply (alphas_ok (Qcofz 60) a lo i j v IM NA LO); [unfold Qcle|]; rewrite ?this_ofz; discriminate.
  - apply (alphas_ok (Qcofz 20) a lo i j v IM NA LO); [unfold Qcle|]; rewrite ?this_ofz; discriminate.
Qed.
Print Assumptions C82_opacity.
Definition hm_a : arr xq := Arr 2 3 (fun i j => if (i =? 0) && (j =? 0) then nnan else XFin (Qcofz (i + 2 * j))).
Example C82_example : is_map hm_a /\ number_at hm_a 1 2 (Qcofz 5) /\ number_at hm_a 0 1 (Qcofz 2).
Proof.
  split; [|repeat split; try lia; reflexivity].
  intros x Hx. unfold cells in Hx. apply in_flat_map in Hx as (i & Hi & Hx). apply in_map_iff in Hx as (j & <- & Hj). apply zrange_In in Hi, Hj.
  cbn [cell hm_a]. destruct ((i =? 0) && (j =? 0)); [left; reflexivity|]. right. exists (Qcofz (i + 2 * j)). split; [reflexivity|].
  unfold Qcle. rewrite this_ofz. change (this 0%Qc) with (inject_Z 0). rewrite <- Zle_Qle. lia.
Qed.

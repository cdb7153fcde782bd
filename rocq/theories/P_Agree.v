(** Property C100: exposure times and nourishment times agree (exact arithmetic). *)
From Coq Require Import ZArith Bool String List Lia Permutation QArith Qcanon.
From Verif Require Import Num NumFacts NumMore NumPost NumFrac XQ XQLaws XQFacts Py Walker ParticleTrack SpecWeights SpecPick SpecWalk SpecHist SpecInit SpecApi SpecExact SpecPost PostProc
  ProofExposure ProofPost ProofCoord ProofNour ProofNourQ P_Post.
Import ListNotations.
Open Scope Z_scope.

(** The sum of a list, from left to right; NaN counted as zero; the cells of a region. *)
Definition total (l : list xq) : xq := fold_left nadd l n0.
Definition or_zero (v : xq) : xq := if nisnan v then n0 else v.
Definition region_cells (roi : arr Z) : list (Z * Z) :=
  filter (fun c => cell roi (fst c) (snd c) =? 1) (list_prod (zrange 0 (nrow roi)) (zrange 0 (ncol roi))).

Section Sums.
Open Scope Qc_scope.
Fixpoint lsum {A} (f : A -> Qc) (l : list A) : Qc := match l with [] => 0 | a :: r => f a + lsum f r end.
Lemma lsum_app {A} (f : A -> Qc) l m : lsum f (l ++ m) = lsum f l + lsum f m.
Proof. induction l as [|a l IH]; cbn [lsum app]; [ring|]. rewrite IH. ring. Qed.
Lemma lsum_map {A B} (f : B -> Qc) (g : A -> B) l : lsum f (map g l) = lsum (fun a => f (g a)) l.
Proof. induction l as [|a l IH]; cbn [lsum map]; [reflexivity|]. rewrite IH. reflexivity. Qed.
Lemma lsum_ext {A} (f g : A -> Qc) l : (forall a, In a l -> f a = g a) -> lsum f l = lsum g l.
Proof. induction l as [|a l IH]; intros H; [reflexivity|]. cbn [lsum]. rewrite H by (left; reflexivity). rewrite IH; [reflexivity|]. intros; apply H; right; assumption. Qed.
Lemma lsum_0 {A} (f : A -> Qc) l : (forall a, In a l -> f a = 0) -> lsum f l = 0.
Proof. induction l as [|a l IH]; intros H; [reflexivity|]. cbn [lsum]. rewrite H by (left; reflexivity). rewrite IH; [ring|]. intros; apply H; right; assumption. Qed.
Lemma lsum_add {A} (f g : A -> Qc) l : lsum (fun a => f a + g a) l = lsum f l + lsum g l.
Proof. induction l as [|a l IH]; cbn [lsum]; [ring|]. rewrite IH. ring. Qed.
Lemma lsum_flat {A B} (f : B -> Qc) (g : A -> list B) l : lsum f (flat_map g l) = lsum (fun a => lsum f (g a)) l.
Proof. induction l as [|a l IH]; cbn [flat_map lsum]; [reflexivity|]. rewrite lsum_app, IH. reflexivity. Qed.
Lemma lsum_filter {A} (p : A -> bool) (f : A -> Qc) l : lsum f (filter p l) = lsum (fun a => if p a then f a else 0) l.
Proof. induction l as [|a l IH]; cbn [filter lsum]; [reflexivity|]. destruct (p a); cbn [lsum]; rewrite IH; ring. Qed.
Lemma lsum_one {A} (p : A -> bool) (x : Qc) l a : NoDup l -> In a l -> p a = true -> (forall b, In b l -> p b = true -> b = a) -> lsum (fun b => if p b then x else 0) l = x.
Proof.
  induction 1 as [|b l NI ND IH]; intros I P U; [destruct I|]. cbn [lsum]. destruct I as [->|I].
  - rewrite P. rewrite lsum_0; [ring|]. intros b Hb. destruct (p b) eqn:E; [|reflexivity]. rewrite (U b (or_intror Hb) E) in Hb. contradiction.
  - destruct (p b) eqn:E; [rewrite (U b (or_introl eq_refl) E) in NI; contradiction|]. rewrite IH; [ring | exact I | exact P|]. intros c Hc. apply U. right. exact Hc.
Qed.
Lemma lsum_scale {A} (k : Qc) (f : A -> Qc) l : lsum (fun a => k * f a) l = k * lsum f l.
Proof. induction l as [|a l IH]; cbn [lsum]; [ring|]. rewrite IH. ring. Qed.
Lemma total_fin {A} (f : A -> Qc) l : total (map (fun a => XFin (f a)) l) = XFin (lsum f l).
Proof.
  unfold total. assert (K : forall s, fold_left nadd (map (fun a => XFin (f a)) l) (XFin s) = XFin (s + lsum f l)).
  { induction l as [|a l IH]; intros s; cbn [map fold_left lsum]; [f_equal; ring|]. cbn [nadd XQnum xadd]. rewrite IH. f_equal. ring. }
  change (n0 : xq) with (XFin 0). rewrite K. f_equal. ring.
Qed.

(** Half of the step before and half of the step after record i. *)
Definition stayq (tq : nat -> Qc) (i : nat) : Qc := qhalf * ((tq i - tq (i - 1)%nat) + (tq (S i) - tq i)).
Lemma occ_split roi r tq m : qsum (S m) (fun i => (tq (S i) - tq i) * ((ind roi r i + ind roi r (S i)) * qhalf)) =
  ind roi r 0%nat * (qhalf * (tq 1%nat - tq 0%nat)) + lsum (fun i => ind roi r i * stayq tq i) (seq 1 m) + ind roi r (S m) * (qhalf * (tq (S m) - tq m)).
Proof.
  induction m as [|m IH]; [cbn [qsum lsum seq]; ring|]. change (qsum (S (S m)) ?f) with (qsum (S m) f + f (S m)). rewrite IH, seq_S, lsum_app. cbn [lsum plus].
  change (stayq tq (S m)) with (qhalf * ((tq (S m) - tq (S m - 1)%nat) + (tq (S (S m)) - tq (S m)))). replace (S m - 1)%nat with m by lia. ring.
Qed.
Lemma occ_interior roi r tq : (0 < length (r_x r))%nat -> inregion roi r 0 = false -> inregion roi r (last_ix r) = false ->
  occupation_time roi r tq = lsum (fun i => ind roi r i * stayq tq i) (seq 1 (length (r_x r) - 2)).
Proof.
  intros L0 A B. unfold occupation_time. unfold last_ix in B. destruct (length (r_x r) - 1)%nat as [|m] eqn:E.
  - replace (length (r_x r) - 2)%nat with 0%nat by lia. reflexivity.
  - replace (length (r_x r) - 2)%nat with m by lia. rewrite occ_split. unfold ind at 1 3. rewrite A, B. ring.
Qed.
End Sums.

Lemma interior_flat (w : walk xq) : interior_ids w = flat_map (fun q => map (fun i => (q, i)) (seq 1 (length (r_x (path w q)) - 2))) (seq 0 (count w)).
Proof.
  unfold interior_ids, record_ids. rewrite filter_flat_map. apply flat_map_ext. intros q. rewrite filter_map. cbn [fst snd]. f_equal. apply filter_seq_interior.
Qed.

Section Agree.
Variables (w : walk xq) (L W : Z) (roi : arr Z) (tq : nat -> nat -> Qc).
Hypothesis ON : walk_on L W w.
Hypothesis EL : nrow roi = L. Hypothesis EW : ncol roi = W.
Hypothesis FT : forall q, (q < count w)%nat -> finite_times (path w q) (tq q).
Hypothesis START : forall q, (q < count w)%nat -> inregion roi (path w q) 0 = false.
Hypothesis END_ : forall q, (q < count w)%nat -> inregion roi (path w q) (last_ix (path w q)) = false.

Definition st (p : nat * nat) : Qc := stayq (tq (fst p)) (snd p).
Lemma stays_fin x y : stays w x y = map (fun p => XFin (st p)) (filter (recorded_at w x y) (interior_ids w)).
Proof.
  unfold stays. apply map_ext_in. intros p Hp. apply filter_In in Hp as (Hp & _). apply interior_in in Hp as (H1 & H2 & H3). cbv zeta.
  specialize (FT (fst p) H1). rewrite !FT by lia. reflexivity.
Qed.
(** every record of a cell of the region is an interior one *)
Lemma visits_stays x y : cell roi x y = 1 -> visits w x y = Z.of_nat (length (stays w x y)).
Proof.
  intros R. unfold visits, stays. rewrite map_length. f_equal. f_equal. unfold interior_ids.
  assert (K : forall l, (forall p, In p l -> In p (record_ids w)) -> filter (recorded_at w x y) l =
    filter (recorded_at w x y) (filter (fun p => (1 <=? snd p)%nat && (S (snd p) <? length (r_x (path w (fst p))))%nat) l)).
  { induction l as [|p l IH]; intros H; [reflexivity|]. specialize (IH ltac:(intros; apply H; right; assumption)). pose proof (H p (or_introl eq_refl)) as Hp.
    apply record_ids_in in Hp as (H1 & H2). cbn [filter]. destruct (recorded_at w x y p) eqn:E.
    - replace ((1 <=? snd p)%nat && (S (snd p) <? length (r_x (path w (fst p))))%nat) with true; [cbn [filter]; rewrite E, IH; reflexivity|].
      unfold recorded_at in E. apply andb_true_iff in E as (E1 & E2). apply Z.eqb_eq in E1, E2. specialize (START (fst p) H1). specialize (END_ (fst p) H1). unfold inregion, last_ix in *.
      symmetry. apply andb_true_iff. split.
      + apply Nat.leb_le. destruct (snd p) as [|i] eqn:EI; [|lia]. rewrite E1, E2, R in START. discriminate.
      + apply Nat.ltb_lt. destruct (Nat.eq_dec (snd p) (length (r_x (path w (fst p))) - 1)) as [EI|NI]; [|lia]. rewrite <- EI, E1, E2, R in END_. discriminate.
    - destruct (_ && _); cbn [filter]; rewrite ?E; exact IH. }
  apply K. auto.
Qed.
Definition cellsum (x y : Z) : Qc := lsum st (filter (recorded_at w x y) (interior_ids w)).
Lemma cells_total : lsum (fun c => cellsum (fst c) (snd c)) (region_cells roi) = lsum (fun p => (ind roi (path w (fst p)) (snd p) * st p)%Qc) (interior_ids w).
Proof.
  unfold cellsum. assert (K : forall l, (forall p, In p l -> In p (interior_ids w)) ->
    lsum (fun c => lsum st (filter (recorded_at w (fst c) (snd c)) l)) (region_cells roi) = lsum (fun p => (ind roi (path w (fst p)) (snd p) * st p)%Qc) l); [|apply K; auto].
  induction l as [|p l IH]; intros H; [cbn [filter lsum]; apply lsum_0; reflexivity|]. specialize (IH ltac:(intros; apply H; right; assumption)).
  pose proof (H p (or_introl eq_refl)) as Hp. apply interior_in in Hp as (H1 & H2 & H3).
  rewrite (lsum_ext _ (fun c => ((if recorded_at w (fst c) (snd c) p then st p else 0) + lsum st (filter (recorded_at w (fst c) (snd c)) l))%Qc)).
  2:{ intros c _. cbn [filter]. destruct (recorded_at w (fst c) (snd c) p); cbn [lsum]; ring. }
  rewrite lsum_add, IH. cbn [lsum]. f_equal. unfold region_cells. rewrite EL, EW. unfold ind, inregion.
  destruct ON as (_ & ONP). destruct (ONP (fst p) H1) as (_ & PP). destruct (PP (snd p) ltac:(lia)) as (PX & PY).
  set (X := xat (path w (fst p)) (snd p)) in *. set (Y := yat (path w (fst p)) (snd p)) in *.
  assert (ND : NoDup (list_prod (zrange 0 L) (zrange 0 W))) by (apply prod_nodup; apply zrange_nodup).
  destruct (cell roi X Y =? 1) eqn:R.
  - rewrite (lsum_one _ (st p) _ (X, Y)); [ring | apply NoDup_filter, ND | apply filter_In; split; [apply in_prod; apply zrange_in; lia | exact R] | |].
    + unfold recorded_at. cbn [fst snd]. fold X Y. rewrite !Z.eqb_refl. reflexivity.
    + intros (a & b) _ E. unfold recorded_at in E. cbn [fst snd] in E. fold X Y in E. apply andb_true_iff in E as (E1 & E2). apply Z.eqb_eq in E1, E2. congruence.
  - rewrite lsum_0; [ring|]. intros (a & b) Hc. apply filter_In in Hc as (_ & Hc). cbn [fst snd] in *. destruct (recorded_at w a b p) eqn:E; [|reflexivity].
    unfold recorded_at in E. fold X Y in E. apply andb_true_iff in E as (E1 & E2). apply Z.eqb_eq in E1, E2. subst a b. congruence.
Qed.
Lemma exposure_total_eq ets stay : binary roi -> exposure_time w roi = Ok (ets, stay) -> total ets = XFin (lsum (fun c => cellsum (fst c) (snd c)) (region_cells roi)).
Proof.
  intros B E. rewrite cells_total, interior_flat, lsum_flat.
  assert (EE : ets = map (fun q => XFin (occupation_time roi (path w q) (tq q))) (seq 0 (count w))).
  { assert (ON' := ON). rewrite <- EL, <- EW in ON'. pose proof (exposure_time_ok roi w B ON') as E'. rewrite E in E'. injection E' as -> _. apply map_ext_in. intros q Hq. apply in_seq in Hq.
    apply exposure_exact; [apply ON'; lia | apply FT; lia]. }
  rewrite EE, total_fin. f_equal. apply lsum_ext. intros q Hq. apply in_seq in Hq. rewrite lsum_map. cbn [fst snd].
  destruct ON as (_ & ONP). destruct (ONP q ltac:(lia)) as ((LP & _) & _). apply occ_interior; [exact LP | apply START; lia | apply END_; lia].
Qed.
End Agree.

(** C100 Add up the exposure times of all particles in a region in which no particle starts or ends: the result is the sum, over the cells of the region, of the
    number of visits times the mean time per visit that nourishment_time reports (without smoothing and clipping). *)
Theorem C100_agreement :
  forall gaussian (w : walk xq) L W sigma roi tq ets stay a,
    walk_on L W w -> 0 < L -> 0 < W -> L * W <= 2 ^ 53 -> Z.of_nat (length (record_ids w)) <= 2 ^ 53 -> nltb n0 sigma = false ->
    binary roi -> nrow roi = L -> ncol roi = W ->
    (forall q, (q < count w)%nat -> finite_times (path w q) (tq q) /\ forall i, (S i < length (r_x (path w q)))%nat -> (tq q i <= tq q (S i))%Qc) ->
    (forall q, (q < count w)%nat -> cell roi (xat (path w q) 0) (yat (path w q) 0) = 0 /\ cell roi (last_x (path w q)) (last_y (path w q)) = 0) ->
    exposure_time w roi = Ok (ets, stay) -> nourishment_time gaussian w (L, W) sigma (nofZ 100) = Ok a ->
    total ets = total (map (fun c => nmul (nofZ (visits w (fst c) (snd c))) (or_zero (cell a (fst c) (snd c)))) (region_cells roi)).
Proof.
  intros gaussian w L W sigma roi tq ets stay a ON HL HW HS HR SG B EL EW FT SE E A.
  assert (F1 : forall q, (q < count w)%nat -> finite_times (path w q) (tq q)) by (intros q Hq; apply FT, Hq).
  assert (S1 : forall q, (q < count w)%nat -> inregion roi (path w q) 0 = false) by (intros q Hq; unfold inregion; apply Z.eqb_neq; destruct (SE q Hq) as (C & _); rewrite C; discriminate).
  assert (S2 : forall q, (q < count w)%nat -> inregion roi (path w q) (last_ix (path w q)) = false) by (intros q Hq; unfold inregion; apply Z.eqb_neq; destruct (SE q Hq) as (_ & C); unfold last_x, last_y in C; rewrite C; discriminate).
  rewrite (exposure_total_eq w L W roi tq ON EL EW F1 S1 S2 ets stay B E).
  destruct (time_100 gaussian w L W sigma ON HR HL HW HS SG) as (a' & A' & _ & _ & CL).
  { intros q i Hq Hi. rewrite (F1 q Hq) by exact Hi. reflexivity. }
  { intros q i Hq Hi. rewrite !(F1 q Hq) by lia. apply xq_leb. apply FT; assumption. }
  assert (a' = a) by congruence. subst a'. rewrite <- total_fin. f_equal. apply map_ext_in. intros (x & y) Hc. cbn [fst snd].
  unfold region_cells in Hc. apply filter_In in Hc as (Hc & R). apply in_prod_iff in Hc as (Hx & Hy). apply zrange_in in Hx, Hy. cbn [fst snd] in R. apply Z.eqb_eq in R. rewrite EL in Hx. rewrite EW in Hy.
  rewrite (visits_stays w roi S1 S2 x y R). destruct (CL x y Hx Hy) as (C1 & C2 & C3). unfold cellsum. pose proof (stays_fin w tq F1 x y) as SF.
  destruct (stays w x y) as [|v l] eqn:ES.
  - rewrite C1 by reflexivity. destruct (filter _ _); [reflexivity | discriminate].
  - assert (NE : stays w x y <> []) by (rewrite ES; discriminate).
    assert (MS : mean_stay w x y = XFin (lsum (st tq) (filter (recorded_at w x y) (interior_ids w)) / Qcofz (Z.of_nat (length (v :: l))))%Qc).
    { unfold mean_stay. rewrite ES. rewrite SF at 1. fold (total (map (fun p => XFin (st tq p)) (filter (recorded_at w x y) (interior_ids w)))). rewrite total_fin.
      apply xq_div. apply qc_pos_nz. unfold Qclt. rewrite this_ofz. cbn [length]. unfold Qlt. cbn. lia. }
    assert (NZ : Qcofz (Z.of_nat (length (v :: l))) <> 0%Qc) by (apply qc_pos_nz; unfold Qclt; rewrite this_ofz; cbn [length]; unfold Qlt; cbn; lia).
    set (Sm := lsum (st tq) (filter (recorded_at w x y) (interior_ids w))) in *. set (k := Qcofz (Z.of_nat (length (v :: l)))) in *. specialize (C2 ltac:(discriminate)). specialize (C3 ltac:(discriminate)).
    rewrite MS in C2, C3. destruct (neqb (XFin (Sm / k)%Qc) n0) eqn:EQ.
    + rewrite C2 by reflexivity. change (or_zero nnan) with (n0 : xq). rewrite n0_xq in *. apply xq_eqb in EQ. change (nofZ (Z.of_nat (length (v :: l))) : xq) with (XFin k). rewrite xq_mul. f_equal.
      replace Sm with ((Sm / k) * k)%Qc by (field; exact NZ). rewrite EQ. ring.
    + rewrite C3 by reflexivity. change (or_zero (XFin (Sm / k)%Qc)) with (XFin (Sm / k)%Qc). change (nofZ (Z.of_nat (length (v :: l))) : xq) with (XFin k). rewrite xq_mul. f_equal. field. exact NZ.
Qed.
Print Assumptions C100_agreement.
(** The column 2 of the example walk. *)
Definition ag_roi : arr Z := Arr 4 4 (fun _ j => if j =? 2 then 1 else 0).
Definition ag_t (q i : nat) : Qc := nth i (nth q [[Q2Qc 0; Q2Qc 1; Q2Qc 3; Q2Qc 4]; [Q2Qc 0; Q2Qc 2]] []) (Q2Qc 0).
Example C100_example :
  walk_on 4 4 (px_walk : walk xq) /\ Z.of_nat (length (record_ids (px_walk : walk xq))) = 6 /\ binary ag_roi /\
  (forall q, (q < count (px_walk : walk xq))%nat -> finite_times (path px_walk q) (ag_t q) /\ forall i, (S i < length (r_x (path (px_walk : walk xq) q)))%nat -> (ag_t q i <= ag_t q (S i))%Qc) /\
  (forall q, (q < count (px_walk : walk xq))%nat -> cell ag_roi (xat (path (px_walk : walk xq) q) 0) (yat (path (px_walk : walk xq) q) 0) = 0 /\
     cell ag_roi (last_x (path (px_walk : walk xq) q)) (last_y (path (px_walk : walk xq) q)) = 0) /\
  match exposure_time (px_walk : walk xq) ag_roi with Ok (ets, _) => neqb (total ets) (nofZ 3) = true | Err _ => False end /\
  match nourishment_time (fun _ a => a) (px_walk : walk xq) (4, 4) n0 (nofZ 100) with Ok a => neqb (cell a 1 2) (ndec 15 1) = true | Err _ => False end.
Proof.
  split; [exact px_on|]. split; [reflexivity|]. split; [intros i j _ _; cbn; destruct (j =? 2); auto|]. split.
  { intros q Hq. change (q < 2)%nat in Hq. split.
    - intros i Hi. destruct q as [|[|q]]; [| |lia]; cbn in Hi; do 4 (destruct i as [|i]; [reflexivity|]); lia.
    - intros i Hi. destruct q as [|[|q]]; [| |lia]; cbn in Hi; do 4 (destruct i as [|i]; [first [lia | vm_compute; discriminate]|]); lia. }
  split; [intros q Hq; change (q < 2)%nat in Hq; destruct q as [|[|q]]; [| |lia]; split; reflexivity|].
  split; vm_compute; reflexivity.
Qed.

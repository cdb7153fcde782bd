(** exposure_time: characterisation, additivity, bounds. *)
From Coq Require Import ZArith Bool String List Lia QArith Qcanon Lqa.
From Verif Require Import Num NumFacts NumPost XQ XQLaws XQFacts Py Walker ParticleTrack SpecWeights SpecPick SpecWalk SpecExact PostProc SpecPost.
Import ListNotations.
Open Scope Z_scope.
Open Scope res_scope.

Lemma foldM_app {A S} (f : S -> A -> res S) l1 l2 s : foldM f (l1 ++ l2) s = (s' <- foldM f l1 s ;; foldM f l2 s').
Proof.
  revert s. induction l1 as [|a l1 IH]; intros s; cbn [foldM app]; [reflexivity|].
  destruct (f s a) as [s'|e]; cbn [bind]; [apply IH | reflexivity].
Qed.
Lemma zrange_S lo (n : nat) : zrange lo (lo + Z.of_nat (S n)) = zrange lo (lo + Z.of_nat n) ++ [lo + Z.of_nat n].
Proof.
  unfold zrange. replace (Z.to_nat (lo + Z.of_nat (S n) - lo)) with (S n) by lia.
  replace (Z.to_nat (lo + Z.of_nat n - lo)) with n by lia.
  rewrite seq_S, map_app. reflexivity.
Qed.
Lemma zrange_nat n : zrange 0 (Z.of_nat n) = map Z.of_nat (seq 0 n).
Proof. unfold zrange. rewrite Z.sub_0_r, Nat2Z.id. apply map_ext. intros. lia. Qed.
Lemma py_nth_ok {A} (d : A) l (i : nat) : (i < length l)%nat -> py_nth l (Z.of_nat i) = Ok (nth i l d).
Proof.
  intros H. unfold py_nth, norm_ix. rewrite (proj2 (Z.leb_le 0 (Z.of_nat i))), (proj2 (Z.ltb_lt (Z.of_nat i) _)) by lia.
  cbn [andb]. rewrite Nat2Z.id. rewrite (nth_error_nth' l d H). reflexivity.
Qed.
Lemma np_get_ok {A} (a : arr A) i j : 0 <= i < nrow a -> 0 <= j < ncol a -> np_get a i j = Ok (cell a i j).
Proof.
  intros (A1 & A2) (B1 & B2). unfold np_get, norm_ix.
  rewrite (proj2 (Z.leb_le _ _) A1), (proj2 (Z.ltb_lt _ _) A2), (proj2 (Z.leb_le _ _) B1), (proj2 (Z.ltb_lt _ _) B2). reflexivity.
Qed.
Lemma mapM_nat {B} (f : Z -> res B) (g : nat -> B) n : (forall i, (i < n)%nat -> f (Z.of_nat i) = Ok (g i)) ->
  mapM f (zrange 0 (Z.of_nat n)) = Ok (map g (seq 0 n)).
Proof.
  rewrite zrange_nat. intros H.
  assert (K : forall s, (forall i, (s <= i < s + (n))%nat -> f (Z.of_nat i) = Ok (g i)) -> mapM f (map Z.of_nat (seq s n)) = Ok (map g (seq s n))).
  { clear H. induction n as [|n IH]; intros s H; cbn [seq map mapM]; [reflexivity|].
    rewrite H by lia. cbn [bind]. rewrite IH by (intros; apply H; lia). reflexivity. }
  apply K. intros. apply H. lia.
Qed.

Section Generic.
Context {T : Type} {N : Num T}.

(** The accumulated value after the first k steps, in the number semantics at hand. *)
Fixpoint et_acc (roi : arr Z) (r : prow T) (k : nat) : T :=
  match k with
  | O => n0
  | S k' => let acc := et_acc roi r k' in
            let dt := nsub (tat r k) (tat r k') in
            match inregion roi r k', inregion roi r k with
            | true, true => nadd acc dt
            | false, false => acc
            | _, _ => nadd acc (nmul nhalf dt)
            end
  end.
Definition ends_inside (roi : arr Z) (r : prow T) : bool := (1 <? length (r_x r))%nat && inregion roi r (last_ix r).

Lemma bit_cases roi (r : prow T) i : binary roi -> on_raster (nrow roi) (ncol roi) r -> (i < length (r_x r))%nat ->
  cell roi (xat r i) (yat r i) = if inregion roi r i then 1 else 0.
Proof.
  intros B (_ & H) Hi. destruct (H i Hi) as (Hx & Hy). unfold inregion. destruct (B _ _ Hx Hy) as [E|E]; rewrite E; reflexivity.
Qed.

Lemma et_loop roi (r : prow T) : binary roi -> on_raster (nrow roi) (ncol roi) r -> forall k, (S k <= length (r_x r))%nat ->
  foldM (et_step roi (r_x r) (r_y r) (r_t r)) (zrange 1 (1 + Z.of_nat k)) (n0, cell roi (xat r 0) (yat r 0), false)
  = Ok (et_acc roi r k, cell roi (xat r k) (yat r k), (S k =? length (r_x r))%nat && (0 <? k)%nat && inregion roi r k).
Proof.
  intros B H. destruct H as (Hr & Hp). pose proof (conj Hr Hp : on_raster _ _ r) as HR. destruct Hr as (L0 & Ly & Lt & _).
  induction k as [|k IH]; intros Hk.
  { cbn [Z.of_nat]. unfold zrange. simpl. rewrite andb_false_r. reflexivity. }
  rewrite zrange_S, foldM_app, IH by lia. cbn [bind foldM et_step].
  replace (1 + Z.of_nat k) with (Z.of_nat (S k)) by lia.
  rewrite (py_nth_ok 0), (py_nth_ok 0) by lia. cbn [bind].
  fold (xat r (S k)). fold (yat r (S k)).
  destruct (Hp (S k) ltac:(lia)) as (Hx & Hy). rewrite np_get_ok by assumption. cbn [bind].
  rewrite (bit_cases roi r (S k) B HR), (bit_cases roi r k B HR) by lia.
  replace (Z.of_nat (S k) - 1) with (Z.of_nat k) by lia.
  rewrite !(py_nth_ok n0 (r_t r)) by lia. cbn [bind]. fold (tat r (S k)). fold (tat r k).
  assert (E : (Z.of_nat (S k) =? Z.of_nat (length (r_t r)) - 1) = (S (S k) =? length (r_x r))%nat).
  { rewrite Lt. destruct (Nat.eqb_spec (S (S k)) (length (r_x r))); [apply Z.eqb_eq | apply Z.eqb_neq]; lia. }
  rewrite E. replace ((S k =? length (r_x r))%nat) with false by (symmetry; apply Nat.eqb_neq; lia).
  cbn [et_acc]. destruct (inregion roi r (S k)), (inregion roi r k); cbn [andb Z.add Z.eqb Pos.eqb bind];
    destruct (S (S k) =? length (r_x r))%nat; reflexivity.
Qed.

Lemma et_particle_ok roi (r : prow T) : binary roi -> on_raster (nrow roi) (ncol roi) r ->
  et_particle roi (r_x r) (r_y r) (r_t r) = Ok (et_acc roi r (last_ix r), ends_inside roi r).
Proof.
  intros B H. pose proof (et_loop roi r B H (last_ix r)) as K. destruct H as ((L0 & Ly & Lt & Lo) & Hp). unfold et_particle.
  rewrite (py_nth_ok 0 _ 0), (py_nth_ok 0 _ 0) by lia. cbn [bind].
  destruct (Hp 0%nat L0) as (Hx & Hy). rewrite np_get_ok by assumption. cbn [bind].
  fold (xat r 0) (yat r 0). unfold last_ix in *.
  replace (Z.of_nat (length (r_t r))) with (1 + Z.of_nat (length (r_x r) - 1)) by lia.
  rewrite K by lia. cbn [bind]. unfold ends_inside, last_ix. f_equal. f_equal.
  replace (S (length (r_x r) - 1) =? length (r_x r))%nat with true by (symmetry; apply Nat.eqb_eq; lia).
  cbn [andb]. f_equal. destruct (Nat.ltb_spec 0 (length (r_x r) - 1)), (Nat.ltb_spec 1 (length (r_x r))); try reflexivity; lia.
Qed.

Lemma exposure_time_ok roi (w : walk T) : binary roi -> walk_on (nrow roi) (ncol roi) w ->
  exposure_time w roi =
  Ok (map (fun q => et_acc roi (path w q) (last_ix (path w q))) (seq 0 (count w)),
      map Z.of_nat (filter (fun q => ends_inside roi (path w q)) (seq 0 (count w)))).
Proof.
  intros B ((Ly & Lt & _) & H). unfold exposure_time. fold (count w).
  rewrite (mapM_nat _ (fun q => (et_acc roi (path w q) (last_ix (path w q)), ends_inside roi (path w q)))).
  2:{ intros i Hi. rewrite (py_nth_ok []), (py_nth_ok []), (py_nth_ok []) by (unfold count in *; lia). cbn [bind].
      apply (et_particle_ok roi (path w i) B (H i Hi)). }
  cbn [bind]. f_equal. f_equal; [rewrite map_map; reflexivity|].
  rewrite zrange_nat. induction (seq 0 (count w)) as [|q l IH]; [reflexivity|].
  cbn [map combine filter snd fst]. destruct (ends_inside roi (path w q)); cbn [map fst]; rewrite IH; reflexivity.
Qed.

(** Never negative when times are finite and do not decrease. *)
Context {NL : NumLaws T} {NP : NumPost T}.
Lemma et_acc_nn roi (r : prow T) k :
  (forall i, (i <= k)%nat -> nisfin (tat r i) = true) ->
  (forall i, (i < k)%nat -> nleb (tat r i) (tat r (S i)) = true) ->
  nn (et_acc roi r k).
Proof.
  induction k as [|k IH]; intros F M; [apply nn_n0|]. cbn [et_acc].
  assert (P : nn (et_acc roi r k)) by (apply IH; intros; [apply F | apply M]; lia).
  assert (Q : nn (nsub (tat r (S k)) (tat r k))) by (apply sub_nn; [apply F | apply F | apply M]; lia).
  pose proof (half_nn _ Q) as R.
  destruct (inregion roi r k), (inregion roi r (S k)); try (apply nn_add; assumption). exact P.
Qed.
End Generic.

(** ** Exact arithmetic *)
Lemma qhalf_half : (qhalf + qhalf)%Qc = 1%Qc.
Proof. apply Qc_is_canon. reflexivity. Qed.
Lemma xq_half' : (nhalf : xq) = XFin qhalf. Proof. exact xq_half. Qed.

Lemma et_acc_exact roi (r : prow xq) tq k : (S k <= length (r_x r))%nat -> finite_times r tq ->
  et_acc roi r k = XFin (qsum k (fun i => ((tq (S i) - tq i) * ((ind roi r i + ind roi r (S i)) * qhalf))%Qc)).
Proof.
  intros Hk F. induction k as [|k IH]; [reflexivity|]. cbn [et_acc qsum]. rewrite IH by lia.
  rewrite (F (S k)), (F k) by lia. rewrite xq_sub, xq_half', xq_mul, !xq_add. unfold ind.
  destruct (inregion roi r k), (inregion roi r (S k)); f_equal;
  [replace ((1 + 1) * qhalf)%Qc with (qhalf + qhalf)%Qc by ring; rewrite qhalf_half; ring | ring | ring | ring].
Qed.

Lemma exposure_exact roi (r : prow xq) tq : on_raster (nrow roi) (ncol roi) r -> finite_times r tq ->
  et_acc roi r (last_ix r) = XFin (occupation_time roi r tq).
Proof. intros ((L0 & _) & _) F. apply et_acc_exact; [unfold last_ix; lia | exact F]. Qed.

Lemma qsum_ext n f g : (forall i, (i < n)%nat -> f i = g i) -> qsum n f = qsum n g.
Proof. induction n; intros H; [reflexivity|]. cbn [qsum]. rewrite IHn, H by (intros; auto; apply H; lia). reflexivity. Qed.
Lemma qsum_add n f g : (qsum n f + qsum n g)%Qc = qsum n (fun i => (f i + g i)%Qc).
Proof. induction n; cbn [qsum]; [ring|]. rewrite <- IHn. ring. Qed.
Lemma qsum_tele n t : qsum n (fun i => (t (S i) - t i)%Qc) = (t n - t 0%nat)%Qc.
Proof. induction n; cbn [qsum]; [ring|]. rewrite IHn. ring. Qed.
Lemma qsum_le n f g : (forall i, (i < n)%nat -> (f i <= g i)%Qc) -> (qsum n f <= qsum n g)%Qc.
Proof. induction n; intros H; cbn [qsum]; [apply Qcle_refl|]. apply Qcplus_le_compat; [apply IHn; intros; apply H; lia | apply H; lia]. Qed.
Lemma qsum_0 n : qsum n (fun _ => 0%Qc) = 0%Qc.
Proof. induction n; cbn [qsum]; [reflexivity|]. rewrite IHn. ring. Qed.

Lemma occupation_bounds roi (r : prow xq) tq : (forall i, (S i < length (r_x r))%nat -> (tq i <= tq (S i))%Qc) ->
  (0 < length (r_x r))%nat ->
  (0 <= occupation_time roi r tq)%Qc /\ (occupation_time roi r tq <= tq (last_ix r) - tq 0%nat)%Qc.
Proof.
  intros M L0. unfold occupation_time. fold (last_ix r).
  assert (B : forall i, (i < last_ix r)%nat -> let d := (tq (S i) - tq i)%Qc in
     (0 <= d * ((ind roi r i + ind roi r (S i)) * qhalf))%Qc /\ (d * ((ind roi r i + ind roi r (S i)) * qhalf) <= d)%Qc).
  { intros i Hi d. unfold last_ix in Hi. assert (D : (0 <= d)%Qc).
    { unfold d. specialize (M i ltac:(lia)). unfold Qcle in *. rewrite this_sub. change (this 0%Qc) with 0%Q. lra. }
    assert (h : (this qhalf == 1#2)%Q) by reflexivity. unfold Qcle in *. change (this 0%Qc) with 0%Q in *.
    unfold ind. destruct (inregion roi r i), (inregion roi r (S i)); split;
    rewrite !this_mul, !this_add; change (this 1%Qc) with 1%Q; change (this 0%Qc) with 0%Q; rewrite h; nra. }
  split.
  - rewrite <- (qsum_0 (last_ix r)). apply qsum_le. intros i Hi. apply (B i Hi).
  - rewrite <- qsum_tele. apply qsum_le. intros i Hi. apply (B i Hi).
Qed.

Lemma occupation_union a b u (r : prow xq) tq : binary a -> binary b -> binary u -> disjoint_union a b u ->
  on_raster (nrow u) (ncol u) r -> (occupation_time a r tq + occupation_time b r tq)%Qc = occupation_time u r tq.
Proof.
  intros Ba Bb Bu (N1 & N2 & N3 & N4 & E) H. unfold occupation_time. rewrite qsum_add. apply qsum_ext. intros i Hi.
  assert (K : forall i, (i < length (r_x r))%nat -> (ind a r i + ind b r i)%Qc = ind u r i).
  { intros k Hk. unfold ind. destruct H as (Hr & Hp). destruct (Hp k Hk) as (Hx & Hy). specialize (E _ _ Hx Hy).
    assert (on_raster (nrow a) (ncol a) r) by (rewrite N1, N2; split; assumption).
    assert (on_raster (nrow b) (ncol b) r) by (rewrite N3, N4; split; assumption).
    assert (on_raster (nrow u) (ncol u) r) by (split; assumption).
    rewrite (bit_cases a r k), (bit_cases b r k), (bit_cases u r k) in E by assumption.
    destruct (inregion a r k), (inregion b r k), (inregion u r k); try lia; ring. }
  rewrite <- (K i), <- (K (S i)) by lia. ring.
Qed.

Lemma occupation_complement roi roi' (r : prow xq) tq : binary roi -> complement_of roi roi' -> on_raster (nrow roi) (ncol roi) r ->
  (occupation_time roi r tq + occupation_time roi' r tq)%Qc = (tq (last_ix r) - tq 0%nat)%Qc.
Proof.
  intros B (N1 & N2 & E) H. unfold occupation_time. rewrite qsum_add. unfold last_ix. rewrite <- qsum_tele. apply qsum_ext. intros i Hi.
  assert (K : forall i, (i < length (r_x r))%nat -> (ind roi r i + ind roi' r i)%Qc = 1%Qc).
  { intros k Hk. unfold ind. destruct H as (Hr & Hp). destruct (Hp k Hk) as (Hx & Hy). specialize (E _ _ Hx Hy).
    unfold inregion. rewrite E. destruct (B _ _ Hx Hy) as [Z|Z]; rewrite Z; cbn; ring. }
  replace ((tq (S i) - tq i) * ((ind roi r i + ind roi r (S i)) * qhalf) + (tq (S i) - tq i) * ((ind roi' r i + ind roi' r (S i)) * qhalf))%Qc
    with ((tq (S i) - tq i) * (((ind roi r i + ind roi' r i) + (ind roi r (S i) + ind roi' r (S i))) * qhalf))%Qc by ring.
  rewrite !K by lia. replace ((1 + 1) * qhalf)%Qc with (qhalf + qhalf)%Qc by ring. rewrite qhalf_half. ring.
Qed.

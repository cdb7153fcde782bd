(** Property C93: which steps take time (exact arithmetic). *)
From Coq Require Import ZArith Bool String List Lia QArith Qcanon.
From Verif Require Import Num XQ XQLaws XQFacts Py NumFacts NumMore Walker ParticleTrack SpecWeights SpecPick SpecWalk SpecHist SpecInit
  SpecMotion SpecExact SpecApi SpecPost ProofApi2 ProofPost ProofTimeExact Examples ExamplesReach ExamplesExact ExamplesQ P_Motion.
Import ListNotations.
Open Scope Z_scope.

Lemma qmul_pos a b : (0 < a)%Qc -> (0 < b)%Qc -> (0 < a * b)%Qc.
Proof. intros A B. replace 0%Qc with (0 * b)%Qc by ring. apply Qcmult_lt_compat_r; assumption. Qed.
Lemma qadd_pos a b : (0 < a)%Qc -> (0 < b)%Qc -> (0 < a + b)%Qc.
Proof. intros A B. apply (Qclt_trans _ a); [exact A|]. replace a with (a + 0)%Qc at 1 by ring. apply Qclt_minus_iff. replace (a + b + - (a + 0))%Qc with b by ring. exact B. Qed.
Lemma qhalf_pos : (0 < qhalf)%Qc.
Proof. vm_compute. reflexivity. Qed.
Lemma qinv_pos a : (0 < a)%Qc -> (0 < 1 / a)%Qc.
Proof.
  intros A. assert (N : a <> 0%Qc) by (intros ->; exact (Qclt_not_eq _ _ A eq_refl)).
  destruct (Qclt_le_dec 0 (1 / a)) as [H|H]; [exact H|exfalso]. assert (C : (1 / a * a <= 0 * a)%Qc) by (apply Qcmult_le_compat_r; [exact H | apply Qclt_le_weak, A]).
  rewrite Qcmult_0_l in C. replace (1 / a * a)%Qc with 1%Qc in C by (field; exact N). revert C. vm_compute. intros C. apply C. reflexivity.
Qed.
(** |diff| <= diff_coeff / 2 < 1 *)
Lemma diffusion_pos dc diff : (qabs diff <= dc * qhalf)%Qc -> (dc < 1 + 1)%Qc -> (0 < 1 + diff)%Qc.
Proof.
  intros B D. assert (H : (qabs diff < 1)%Qc).
  { eapply Qcle_lt_trans; [exact B|]. replace 1%Qc with ((1 + 1) * qhalf)%Qc by (apply Qc_is_canon; vm_compute; reflexivity). apply Qcmult_lt_compat_r; [exact qhalf_pos | exact D]. }
  unfold qabs in H. destruct (Qclt_le_dec diff 0) as [L|L].
  - apply Qclt_minus_iff in H. replace (1 + - - diff)%Qc with (1 + diff)%Qc in H by ring. exact H.
  - apply (Qclt_le_trans _ 1); [vm_compute; reflexivity|]. replace 1%Qc with (1 + 0)%Qc at 1 by ring. apply Qcplus_le_compat; [apply Qcle_refl | exact L].
Qed.

(** C93 A step takes time exactly when it has a component along the flow at the cell it leaves: with a positive cell size, positive distances and a diffusion
    coefficient below 2, the recorded time grows if the cosine of the angle between the direction taken and the flow is positive, and stays the same otherwise. *)
Theorem C93_positive_iff_along_flow :
  forall G lm L W (p : params xq) P draws s w q i,
    session G lm L W p P draws s -> finite_field lm P -> s_walk s = Some w -> (q < count w)%nat ->
    nisfin (tat (hist P w q) 0) = true -> (S i < length (r_x (hist P w q)))%nat ->
    nltb n0 (o_dx P) = true -> (forall k, (k < 9)%nat -> nltb n0 (nth k (o_dist P) n0) = true) -> nltb (o_diff P) (nofZ 2) = true ->
    exists k, let r := hist P w q in let along := m_cos lm (nsub (nth k (o_angles P) n0) (cell (o_vang P) (xat r i) (yat r i))) in
      (k < 9)%nat /\ xat r (S i) = xat r i + nth k (o_jwalk P) 0 /\ yat r (S i) = yat r i + nth k (o_iwalk P) 0 /\
      (nltb n0 along = true -> nltb (tat r i) (tat r (S i)) = true) /\ (nltb n0 along = false -> tat r (S i) = tat r i).
Proof.
  intros G lm L W p P draws s w q i SS FF SW Hq F Hi DX DD DC.
  destruct (C18_travel_time_formula G lm L W p P draws s w q i SS FF SW Hq F Hi) as (k & d & dx & c & v & v' & dc & diff & t & t' & K & HX & HY & HD & HDX & HC & HV & HV' & HDC & B & T & T' & E).
  exists k. cbv zeta. split; [exact K|]. split; [exact HX|]. split; [exact HY|].
  specialize (DD k K). rewrite HD in DD. rewrite HDX in DX. rewrite HDC in DC. rewrite HC, T, T', E. rewrite n0_xq in *.
  assert (D0 : (0 < d)%Qc) by (apply xq_ltb, DD). assert (DX0 : (0 < dx)%Qc) by (apply xq_ltb, DX).
  assert (D2 : (dc < 1 + 1)%Qc) by (apply xq_ltb; exact DC).
  destruct FF as (_ & _ & _ & _ & VF & _).
  assert (GI : forall n, (n < length (r_x (hist P w q)))%nat -> in_grid P (xat (hist P w q) n) (yat (hist P w q) n)).
  { intros n Hn. destruct (session_walk_on G lm L W p P draws s w SS SW) as (_ & ON). destruct (ON q Hq) as (_ & PP). destruct (PP n Hn) as (A1 & A2).
    destruct (session_field lm L W p P draws s SS) as (_ & _ & _ & _ & EL & EW). unfold in_grid. rewrite EL, EW. split; assumption. }
  assert (V0 : (0 < v)%Qc) by (destruct (VF _ _ (GI i ltac:(lia))) as (_ & X); rewrite HV, n0_xq in X; apply xq_ltb, X).
  assert (V0' : (0 < v')%Qc) by (destruct (VF _ _ (GI (S i) Hi)) as (_ & X); rewrite HV', n0_xq in X; apply xq_ltb, X).
  pose proof (diffusion_pos _ _ B D2) as DP. split.
  - intros C. apply xq_ltb in C. apply xq_ltb. unfold qpos. destruct (Qclt_le_dec 0 c) as [C'|C']; [|exfalso; exact (Qclt_not_le _ _ C C')].
    assert (Z : (0 < d * dx * c * ((1 / v + 1 / v') * qhalf) * (1 + diff))%Qc).
    { apply qmul_pos; [|exact DP]. apply qmul_pos; [apply qmul_pos; [apply qmul_pos; assumption | assumption]|]. apply qmul_pos; [|exact qhalf_pos]. apply qadd_pos; apply qinv_pos; assumption. }
    apply Qclt_minus_iff. match goal with |- (0 < ?a)%Qc => replace a with (d * dx * c * ((1 / v + 1 / v') * qhalf) * (1 + diff))%Qc by ring end. exact Z.
  - intros C. unfold qpos. destruct (Qclt_le_dec 0 c) as [C'|C']; [apply (proj2 (xq_ltb 0%Qc c)) in C'; congruence|]. f_equal. ring.
Qed.
Print Assumptions C93_positive_iff_along_flow.
(** A field whose discharge runs against the water-surface slope, with gamma = 1 (routing by the slope only).  The examples' cosine is a polynomial, so the numbers are
    not those of the real cosine, but the theorem holds for every function.  Particle 1's first step is instantaneous, its second takes time. *)
Definition zt_params : params xq := with_flow (gx_params_gamma n1) (Some "DeltaRCM"%string) (Some (Arr 10 9 (fun i _ => nofZ (- (1 + i))))) (Some (Arr 10 9 (fun _ _ => n0))) None None.
Definition zt_P : pobj xq := fst (unerr (gx_none, zt_params) (init eq_lm zt_params)).
Lemma zt_init : exists p', init eq_lm zt_params = Ok (zt_P, p').
Proof.
  exists (snd (unerr (gx_none, zt_params) (init eq_lm zt_params))). unfold zt_P. rewrite <- surjective_pairing.
  apply is_ok_unerr. vm_compute. reflexivity.
Qed.
Lemma zt_standard : standard eq_lm 10 9 zt_params.
Proof.
  split. { repeat split; try lia; try (intros; discriminate);
    match goal with |- nrow ?a = _ => idtac | |- ncol ?a = _ => idtac end;
    match goal with H : _ = Some ?a |- _ => injection H as <-; reflexivity end. }
  split; [lia|]. split; [lia|]. split; [repeat split|]. split; [intros ct Hc; discriminate|].
  split; [intros g Hg; injection Hg as <-; split; vm_compute; reflexivity|].
  split.
  { intros d H. cbn [eq_lm gx_lm m_pow]. destruct (nltb d n0) eqn:E; [|reflexivity].
    assert (C : nleb d (dflt (p_dry zt_params) ntenth) = true).
    { apply (leb_trans d n0); [apply lt_le, E | apply lt_le, tenth_ok]. }
    congruence. }
  split; [split; [vm_compute; reflexivity | split; [vm_compute; reflexivity | intros x _; reflexivity]]|].
  intros dx Hd. injection Hd as <-. vm_compute. reflexivity.
Qed.
Lemma zt_cells f : cells_10_9 f = true -> forall i j, in_grid zt_P i j -> f i j = true.
Proof.
  intros H i j (Hi & Hj). change (nrow (o_depth zt_P)) with 10 in Hi. change (ncol (o_depth zt_P)) with 9 in Hj.
  unfold cells_10_9 in H. rewrite forallb_forall in H. specialize (H i (in_zrange _ _ _ Hi)).
  rewrite forallb_forall in H. exact (H j (in_zrange _ _ _ Hj)).
Qed.
Lemma zt_finite : finite_field eq_lm zt_P.
Proof.
  split; [vm_compute; reflexivity|]. split; [vm_compute; reflexivity|]. split; [vm_compute; reflexivity|].
  split. { apply (forall9 (fun k => nisfin (nth k (o_dist zt_P) n0))). vm_compute. reflexivity. }
  split.
  { intros i j Hg. apply andb_true_iff. revert i j Hg.
    apply (zt_cells (fun i j => nisfin (cell (o_vel zt_P) i j) && nltb n0 (cell (o_vel zt_P) i j))). vm_compute. reflexivity. }
  intros k i j Hk Hg. apply eq_cos_fin.
  assert (A : nisfin (nth k (o_angles zt_P) n0) = true) by (revert k Hk; apply (forall9 (fun k => nisfin (nth k (o_angles zt_P) n0))); vm_compute; reflexivity).
  assert (C : cells_10_9 (fun i j => nisfin (cell (o_vang zt_P) i j)) = true) by (vm_compute; reflexivity).
  pose proof (zt_cells _ C i j Hg) as D. cbv beta in D.
  destruct (xfin_ex _ A) as (a & ->). destruct (xfin_ex _ D) as (b & ->). reflexivity.
Qed.
Definition zt_ops : list (op xq) := [OpGen 3 [2; 3] [3; 5] n0 Random None; OpRun; OpRun].
Definition zt_s : psim xq := unerr (init_sim eq_lm zt_P 0) (do_ops eq_lm zt_P eq_draws zt_ops (init_sim eq_lm zt_P 0)).
Definition zt_w : walk xq := dflt (s_walk zt_s) {| xinds := []; yinds := []; times := []; opts := [] |}.
Definition zt_check : bool := match do_ops eq_lm zt_P eq_draws zt_ops (init_sim eq_lm zt_P 0) with
  | Ok s => match s_walk s with
            | Some w => let r := hist zt_P w 1 in Nat.eqb (count w) 3 && Nat.eqb (length (r_x r)) 3 && nisfin (tat r 0) && neqb (tat r 0) (tat r 1) && nltb (tat r 1) (tat r 2)
            | None => false end
  | Err _ => false end.
Lemma zt_facts : do_ops eq_lm zt_P eq_draws zt_ops (init_sim eq_lm zt_P 0) = Ok zt_s /\ s_walk zt_s = Some zt_w /\ count zt_w = 3%nat /\ length (r_x (hist zt_P zt_w 1)) = 3%nat /\
  nisfin (tat (hist zt_P zt_w 1) 0) = true /\ neqb (tat (hist zt_P zt_w 1) 0) (tat (hist zt_P zt_w 1) 1) = true /\ nltb (tat (hist zt_P zt_w 1) 1) (tat (hist zt_P zt_w 1) 2) = true.
Proof.
  assert (C : zt_check = true) by (vm_compute; reflexivity). revert C. unfold zt_check, zt_w, zt_s.
  destruct (do_ops eq_lm zt_P eq_draws zt_ops (init_sim eq_lm zt_P 0)) as [s|e]; [|discriminate]. cbn [unerr].
  destruct (s_walk s) as [w|]; [|discriminate]. cbn [dflt]. cbv zeta. rewrite !andb_true_iff, !Nat.eqb_eq. tauto.
Qed.
Lemma zt_session : session (fun _ => True) eq_lm 10 9 zt_params zt_P eq_draws zt_s.
Proof.
  split; [exact zt_standard|]. split; [exact zt_init|]. split; [exact eq_stream|]. exists 0%nat, zt_ops. split; [|apply zt_facts].
  constructor; [split; [|exact I]|repeat (constructor; [split; exact I|]); constructor].
  split; [lia|]. intros x y; cbn [In]; intros. right. change (nrow (o_depth zt_P)) with 10. change (ncol (o_depth zt_P)) with 9. lia.
Qed.
Example C93_example : session (fun _ => True) eq_lm 10 9 zt_params zt_P eq_draws zt_s /\ finite_field eq_lm zt_P /\ s_walk zt_s = Some zt_w /\ count zt_w = 3%nat /\
  (let r := hist zt_P zt_w 1 in nisfin (tat r 0) = true /\ length (r_x r) = 3%nat /\ neqb (tat r 0) (tat r 1) = true /\ nltb (tat r 1) (tat r 2) = true) /\
  nltb n0 (o_dx zt_P) = true /\ (forall k, (k < 9)%nat -> nltb n0 (nth k (o_dist zt_P) n0) = true) /\ nltb (o_diff zt_P) (nofZ 2) = true.
Proof.
  split; [exact zt_session|]. split; [exact zt_finite|]. pose proof zt_facts as F. cbv zeta. split; [tauto|]. split; [tauto|]. split; [tauto|].
  split; [vm_compute; reflexivity|]. split; [|vm_compute; reflexivity]. apply (forall9 (fun k => nltb n0 (nth k (o_dist zt_P) n0))). vm_compute. reflexivity.
Qed.

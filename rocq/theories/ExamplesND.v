(** The concrete set-up of ExamplesQ with diff_coeff = 0 and two random streams. *)
From Coq Require Import ZArith Bool String List Lia QArith Qcanon.
From Verif Require Import Num XQ XQLaws XQFacts Py NumFacts NumMore Walker ParticleTrack SpecWeights SpecPick SpecWalk SpecHist SpecInit
  SpecMotion SpecExact SpecApi Examples ExamplesReach ExamplesExact ExamplesQ.
Import ListNotations.
Open Scope Z_scope.

Definition nd_params : params xq :=
  {| p_dx := Some (nofZ 10); p_depth := Some gx_depth; p_stage := Some gx_stage; p_topo := None;
     p_model := Some "DeltaRCM"%string; p_qx := Some gx_qx; p_qy := Some gx_qy; p_u := None; p_v := None;
     p_theta := Some n1; p_gamma := None; p_diff := Some n0; p_dry := None; p_ct := None; p_steep := None;
     p_dist := None; p_ivec := None; p_jvec := None; p_iwalk := None; p_jwalk := None; p_angles := None;
     p_roi := None; p_vars := Some ["depth"%string] |}.
Definition nd_P : pobj xq := fst (unerr (gx_none, nd_params) (init eq_lm nd_params)).
Lemma nd_init : exists p', init eq_lm nd_params = Ok (nd_P, p').
Proof.
  exists (snd (unerr (gx_none, nd_params) (init eq_lm nd_params))). unfold nd_P. rewrite <- surjective_pairing.
  apply is_ok_unerr. vm_compute. reflexivity.
Qed.
Lemma nd_standard : standard eq_lm 10 9 nd_params.
Proof.
  split. { repeat split; try lia; try (intros; discriminate);
    match goal with |- nrow ?a = _ => idtac | |- ncol ?a = _ => idtac end;
    match goal with H : _ = Some ?a |- _ => injection H as <-; reflexivity end. }
  split; [lia|]. split; [lia|]. split; [repeat split|]. split; [intros ct Hc; discriminate|]. split; [intros g Hg; discriminate|].
  split.
  { intros d H. cbn [eq_lm gx_lm m_pow]. destruct (nltb d n0) eqn:E; [|reflexivity].
    assert (C : nleb d (dflt (p_dry nd_params) ntenth) = true).
    { apply (leb_trans d n0); [apply lt_le, E | apply lt_le, tenth_ok]. }
    congruence. }
  split; [split; [vm_compute; reflexivity | split; [vm_compute; reflexivity | intros x _; reflexivity]]|].
  intros dx Hd. injection Hd as <-. vm_compute. reflexivity.
Qed.
Definition nd_draws1 : nat -> xq := eq_draws.
Definition nd_draws2 : nat -> xq := fun n => eq_draws (S n).
Lemma nd_stream2 : unit_stream (fun _ => True) nd_draws2.
Proof. intros n. exact (eq_stream (S n)). Qed.
Definition nd_ops : list (op xq) := [OpGen 3 [2; 3] [3; 5] n0 Random None; OpRun; OpRun; OpRun].
Definition nd_s (d : nat -> xq) : psim xq := unerr (init_sim eq_lm nd_P 0) (do_ops eq_lm nd_P d nd_ops (init_sim eq_lm nd_P 0)).
Definition nd_w (d : nat -> xq) : walk xq := dflt (s_walk (nd_s d)) {| xinds := []; yinds := []; times := []; opts := [] |}.
(** What the two sessions reach, checked by computation. *)
Definition nd_check (d : nat -> xq) (q : nat) : bool :=
  match do_ops eq_lm nd_P d nd_ops (init_sim eq_lm nd_P 0) with
  | Ok s => match s_walk s with Some w => Nat.eqb (count w) 3 && Nat.eqb (length (r_x (hist nd_P w q))) 4 && nisfin (tat (hist nd_P w q) 0) &&
              ((xat (hist nd_P w q) 1 =? 3) && (yat (hist nd_P w q) 1 =? 4) && (xat (hist nd_P w q) 2 =? 4) && (yat (hist nd_P w q) 2 =? 3))
            | None => false end
  | Err _ => false end.
Lemma nd_checked : nd_check nd_draws1 1 = true /\ nd_check nd_draws2 0 = true.
Proof. split; vm_compute; reflexivity. Qed.
Lemma nd_facts d q : nd_check d q = true -> do_ops eq_lm nd_P d nd_ops (init_sim eq_lm nd_P 0) = Ok (nd_s d) /\ s_walk (nd_s d) = Some (nd_w d) /\
  count (nd_w d) = 3%nat /\ length (r_x (hist nd_P (nd_w d) q)) = 4%nat /\ nisfin (tat (hist nd_P (nd_w d) q) 0) = true /\
  xat (hist nd_P (nd_w d) q) 1 = 3 /\ yat (hist nd_P (nd_w d) q) 1 = 4 /\ xat (hist nd_P (nd_w d) q) 2 = 4 /\ yat (hist nd_P (nd_w d) q) 2 = 3.
Proof.
  unfold nd_check, nd_w, nd_s. destruct (do_ops eq_lm nd_P d nd_ops (init_sim eq_lm nd_P 0)) as [s|e]; [|discriminate]. cbn [unerr].
  destruct (s_walk s) as [w|]; [|discriminate]. cbn [dflt]. rewrite !andb_true_iff, !Nat.eqb_eq, !Z.eqb_eq. tauto.
Qed.
Lemma nd_session d q : unit_stream (fun _ => True) d -> nd_check d q = true -> session (fun _ => True) eq_lm 10 9 nd_params nd_P d (nd_s d).
Proof.
  intros U H. split; [exact nd_standard|]. split; [exact nd_init|]. split; [exact U|]. exists 0%nat, nd_ops. split; [|apply (nd_facts d q H)].
  constructor; [split; [|exact I]|repeat (constructor; [split; exact I|]); constructor].
  split; [lia|]. intros x y; cbn [In]; intros. right. change (nrow (o_depth nd_P)) with 10. change (ncol (o_depth nd_P)) with 9. lia.
Qed.
Lemma nd_cells f : cells_10_9 f = true -> forall i j, in_grid nd_P i j -> f i j = true.
Proof.
  intros H i j (Hi & Hj). change (nrow (o_depth nd_P)) with 10 in Hi. change (ncol (o_depth nd_P)) with 9 in Hj.
  unfold cells_10_9 in H. rewrite forallb_forall in H. specialize (H i (in_zrange _ _ _ Hi)).
  rewrite forallb_forall in H. exact (H j (in_zrange _ _ _ Hj)).
Qed.
Lemma nd_finite : finite_field eq_lm nd_P.
Proof.
  split; [vm_compute; reflexivity|]. split; [vm_compute; reflexivity|]. split; [vm_compute; reflexivity|].
  split. { apply (forall9 (fun k => nisfin (nth k (o_dist nd_P) n0))). vm_compute. reflexivity. }
  split.
  { intros i j Hg. apply andb_true_iff. revert i j Hg.
    apply (nd_cells (fun i j => nisfin (cell (o_vel nd_P) i j) && nltb n0 (cell (o_vel nd_P) i j))). vm_compute. reflexivity. }
  intros k i j Hk Hg. apply eq_cos_fin.
  assert (A : nisfin (nth k (o_angles nd_P) n0) = true) by (revert k Hk; apply (forall9 (fun k => nisfin (nth k (o_angles nd_P) n0))); vm_compute; reflexivity).
  assert (C : cells_10_9 (fun i j => nisfin (cell (o_vang nd_P) i j)) = true) by (vm_compute; reflexivity).
  pose proof (nd_cells _ C i j Hg) as D. cbv beta in D.
  destruct (xfin_ex _ A) as (a & ->). destruct (xfin_ex _ D) as (b & ->). reflexivity.
Qed.
Lemma nd_diff : o_diff nd_P = n0.
Proof. vm_compute. reflexivity. Qed.

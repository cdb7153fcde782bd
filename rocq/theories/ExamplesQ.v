(** The concrete set-up of Examples.v in exact arithmetic. *)
From Coq Require Import ZArith Bool String List Lia QArith Qcanon.
From Verif Require Import Num XQ XQLaws XQFacts Py NumFacts NumMore Walker ParticleTrack SpecWeights SpecPick SpecWalk SpecHist SpecInit SpecMotion SpecExact SpecApi
  ProofInit Examples ExamplesExact.
Import ListNotations.
Open Scope Z_scope.

Definition eq_params : params xq := gx_params.
Lemma eq_standard : standard eq_lm 10 9 eq_params.
Proof.
  split. { repeat split; try lia; try (intros; discriminate);
    match goal with |- nrow ?a = _ => idtac | |- ncol ?a = _ => idtac end;
    match goal with H : _ = Some ?a |- _ => injection H as <-; reflexivity end. }
  split; [lia|]. split; [lia|]. split; [repeat split|]. split; [intros ct Hc; discriminate|]. split; [intros g Hg; discriminate|].
  split.
  { intros d H. cbn [eq_lm gx_lm m_pow]. destruct (nltb d n0) eqn:E; [|reflexivity].
    assert (C : nleb d (dflt (p_dry eq_params) ntenth) = true).
    { apply (leb_trans d n0); [apply lt_le, E | apply lt_le, tenth_ok]. }
    congruence. }
  split; [split; [vm_compute; reflexivity | split; [vm_compute; reflexivity | intros x _; reflexivity]]|].
  intros dx Hd. injection Hd as <-. vm_compute. reflexivity.
Qed.
Definition eq_draws : nat -> xq := gx_draws.
Lemma eq_stream : unit_stream (fun _ => True) eq_draws.
Proof.
  intros n. split; [|exact I]. unfold eq_draws, gx_draws. set (r := (3 * Z.of_nat n) mod 7).
  assert (0 <= r < 7) by (apply Z.mod_pos_bound; lia). assert (D : r = 0 \/ r = 1 \/ r = 2 \/ r = 3 \/ r = 4 \/ r = 5 \/ r = 6) by lia.
  split; clearbody r; repeat (destruct D as [->|D]; [vm_compute; reflexivity|]); subst r; vm_compute; reflexivity.
Qed.
Definition eq_ops : list (op xq) := [OpGen 3 [2; 3] [3; 5] n0 Random None; OpRun; OpRun; OpRunTo (nofZ 40) 3].
Definition eq_s : psim xq := unerr (init_sim eq_lm eq_P 0) (do_ops eq_lm eq_P eq_draws eq_ops (init_sim eq_lm eq_P 0)).
Definition eq_w : walk xq := dflt (s_walk eq_s) {| xinds := []; yinds := []; times := []; opts := [] |}.
(** One computation of the session. *)
Lemma eq_checked : match do_ops eq_lm eq_P eq_draws eq_ops (init_sim eq_lm eq_P 0) with
  | Ok s => match s_walk s with Some w => Nat.eqb (count w) 3 && Nat.eqb (length (r_x (hist eq_P w 1))) 5 && nisfin (tat (hist eq_P w 1) 0) | None => false end
  | Err _ => false end = true.
Proof. vm_compute. reflexivity. Qed.
Lemma eq_facts : do_ops eq_lm eq_P eq_draws eq_ops (init_sim eq_lm eq_P 0) = Ok eq_s /\ s_walk eq_s = Some eq_w /\ count eq_w = 3%nat /\
  length (r_x (hist eq_P eq_w 1)) = 5%nat /\ nisfin (tat (hist eq_P eq_w 1) 0) = true.
Proof.
  pose proof eq_checked as C. unfold eq_w, eq_s. destruct (do_ops eq_lm eq_P eq_draws eq_ops (init_sim eq_lm eq_P 0)) as [s|e]; [|discriminate]. cbn [unerr].
  destruct (s_walk s) as [w|]; [|discriminate]. cbn [dflt]. apply andb_true_iff in C as (C & C3). apply andb_true_iff in C as (C1 & C2).
  apply Nat.eqb_eq in C1, C2. auto.
Qed.
Lemma eq_run : do_ops eq_lm eq_P eq_draws eq_ops (init_sim eq_lm eq_P 0) = Ok eq_s.
Proof. exact (proj1 eq_facts). Qed.
Lemma eq_session : session (fun _ => True) eq_lm 10 9 eq_params eq_P eq_draws eq_s.
Proof.
  split; [exact eq_standard|]. split; [exact eq_init|]. split; [exact eq_stream|]. exists 0%nat, eq_ops. split; [|exact eq_run].
  constructor; [split; [|exact I]|repeat (constructor; [split; exact I|]); constructor].
  split; [lia|]. intros x y; cbn [In]; intros. right. change (nrow (o_depth eq_P)) with 10. change (ncol (o_depth eq_P)) with 9. lia.
Qed.
Lemma eq_walk : s_walk eq_s = Some eq_w /\ count eq_w = 3%nat.
Proof. destruct eq_facts as (_ & A & B & _). split; [exact A | exact B]. Qed.
Lemma eq_row1 : length (r_x (hist eq_P eq_w 1)) = 5%nat.
Proof. destruct eq_facts as (_ & _ & _ & A & _). exact A. Qed.
Definition cells_10_9 (f : Z -> Z -> bool) : bool := forallb (fun i => forallb (f i) (zrange 0 9)) (zrange 0 10).
Lemma cells_10_9_ok f : cells_10_9 f = true -> forall i j, in_grid eq_P i j -> f i j = true.
Proof.
  intros H i j (Hi & Hj). change (nrow (o_depth eq_P)) with 10 in Hi. change (ncol (o_depth eq_P)) with 9 in Hj.
  unfold cells_10_9 in H. rewrite forallb_forall in H. specialize (H i (in_zrange _ _ _ Hi)).
  rewrite forallb_forall in H. exact (H j (in_zrange _ _ _ Hj)).
Qed.
Lemma eq_cos_fin x : nisfin x = true -> nisfin (m_cos eq_lm x) = true.
Proof.
  intros H. destruct (xfin_ex x H) as (a & ->). cbn [eq_lm gx_lm m_cos]. unfold gx_cos. cbv zeta.
  change (nofZ 2 : xq) with (XFin (Qcofz 2)). change (nofZ 24 : xq) with (XFin (Qcofz 24)).
  rewrite n1_xq, !xq_mul, !xq_div, xq_sub, xq_add by (intros C; discriminate C).
  destruct (nltb _ _); [reflexivity|]. destruct (nltb _ _); reflexivity.
Qed.
Lemma eq_finite : finite_field eq_lm eq_P.
Proof.
  split; [vm_compute; reflexivity|]. split; [vm_compute; reflexivity|]. split; [vm_compute; reflexivity|].
  split. { apply (forall9 (fun k => nisfin (nth k (o_dist eq_P) n0))). vm_compute. reflexivity. }
  split.
  { intros i j Hg. apply andb_true_iff. revert i j Hg.
    apply (cells_10_9_ok (fun i j => nisfin (cell (o_vel eq_P) i j) && nltb n0 (cell (o_vel eq_P) i j))). vm_compute. reflexivity. }
  intros k i j Hk Hg. apply eq_cos_fin.
  assert (A : nisfin (nth k (o_angles eq_P) n0) = true) by (revert k Hk; apply (forall9 (fun k => nisfin (nth k (o_angles eq_P) n0))); vm_compute; reflexivity).
  assert (C : cells_10_9 (fun i j => nisfin (cell (o_vang eq_P) i j)) = true) by (vm_compute; reflexivity).
  pose proof (cells_10_9_ok _ C i j Hg) as D. cbv beta in D.
  destruct (xfin_ex _ A) as (a & ->). destruct (xfin_ex _ D) as (b & ->). reflexivity.
Qed.

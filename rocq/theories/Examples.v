(** A concrete set-up in IEEE doubles, used beside the theorems to show that their hypotheses can be met. *)
From Coq Require Import ZArith Bool String List Lia.
From Verif Require Import Num F64 F64Laws Py NumFacts NumMore Walker ParticleTrack SpecWeights SpecPick SpecWalk SpecHist SpecInit SpecMotion
  ProofInit.
Import ListNotations.
Open Scope Z_scope.

(** A stand-in math library: a given square root, a polynomial for the cosine (clipped to [-1,1]), a crude arc
    tangent, and depth**1 = depth.  The theorems hold for every library with the stated properties. *)
Section Generic.
Context {T : Type} {N : Num T}.
Definition gx_cos (x : T) : T :=
  let x2 := nmul x x in
  let c := nadd (nsub n1 (ndiv x2 (nofZ 2))) (ndiv (nmul x2 x2) (nofZ 24)) in
  if nltb n1 c then n1 else if nltb c (nofZ (-1)) then nofZ (-1) else c.
Definition gx_atan2 (y x : T) : T := if nltb n0 x then ndiv y (nadd (nabs x) (nabs y)) else n0.
Definition gx_lm (sq : T -> T) : Libm T := {| m_sqrt := sq; m_cos := gx_cos; m_atan2 := gx_atan2; m_pow := fun d _ => d |}.

(** 10 x 9 cells: a channel of varying depth with a dry bar at (4,4) and a sloping water surface. *)
Definition gx_depth : arr T :=
  Arr 10 9 (fun i j => if (i =? 4) && (j =? 4) then n0 else ndiv (nofZ (4 + Z.abs (j - 3) + i)) (nofZ 4)).
Definition gx_stage : arr T := Arr 10 9 (fun i j => ndiv (nofZ (40 - 3 * i - j)) (nofZ 8)).
Definition gx_qx : arr T := Arr 10 9 (fun i j => nofZ (1 + i)).
Definition gx_qy : arr T := Arr 10 9 (fun i j => ndiv (nofZ (j - 3)) (nofZ 2)).
Definition gx_params : params T :=
  {| p_dx := Some (nofZ 10); p_depth := Some gx_depth; p_stage := Some gx_stage; p_topo := None;
     p_model := Some "DeltaRCM"%string; p_qx := Some gx_qx; p_qy := Some gx_qy; p_u := None; p_v := None;
     p_theta := Some n1; p_gamma := None; p_diff := None; p_dry := None; p_ct := None; p_steep := None;
     p_dist := None; p_ivec := None; p_jvec := None; p_iwalk := None; p_jwalk := None; p_angles := None;
     p_roi := None; p_vars := Some ["depth"%string] |}.
Definition gx_none : pobj T :=
  {| o_dx := n0; o_depth := gx_depth; o_stage := gx_depth; o_qx := gx_depth; o_qy := gx_depth; o_u := gx_depth; o_v := gx_depth;
     o_vel := gx_depth; o_vang := gx_depth; o_theta := n0; o_gamma := n0; o_diff := n0; o_dry := n0; o_ct := Arr 0 0 (fun _ _ => 0);
     o_steep := false; o_dist := []; o_ivec := []; o_jvec := []; o_iwalk := []; o_jwalk := []; o_angles := []; o_roi := None; o_vars := [] |}.
(** A periodic stream of draws. *)
Definition gx_draws (n : nat) : T := ndiv (nofZ (1 + 3 * Z.of_nat n mod 7)) (nofZ 8).
(** A program: two batches of particles, single steps, and a run to a target time. *)
Definition gx_ops : list (op T) :=
  [OpGen 3 [2; 3] [3; 5] n0 Random None; OpRun; OpGen 2 [3] [4] (nofZ 1) Exact None; OpRun; OpRunTo (nofZ 40) 10].
End Generic.

Definition ex_lm : Libm f64 := gx_lm fsqrt.
Definition ex_params : params f64 := gx_params.
Definition ex_draws : nat -> f64 := gx_draws.
Definition ex_ops : list (op f64) := gx_ops.

Definition unerr {A} (d : A) (r : res A) : A := match r with Ok a => a | Err _ => d end.
Definition is_ok {A} (r : res A) : bool := match r with Ok _ => true | Err _ => false end.
Lemma is_ok_unerr {A} (d : A) r : is_ok r = true -> r = Ok (unerr d r).
Proof. destruct r; [reflexivity | discriminate]. Qed.

Definition ex_P : pobj f64 := fst (unerr (gx_none, ex_params) (init ex_lm ex_params)).

Lemma ex_init : exists p', init ex_lm ex_params = Ok (ex_P, p').
Proof.
  exists (snd (unerr (gx_none, ex_params) (init ex_lm ex_params))). unfold ex_P. rewrite <- surjective_pairing.
  apply is_ok_unerr. vm_compute. reflexivity.
Qed.

Lemma ex_sqrt_ok : sqrt_ok ex_lm.
Proof.
  split; [vm_compute; reflexivity|]. split; [vm_compute; reflexivity|].
  intros x H. cbn [ex_lm gx_lm m_sqrt]. unfold nn in H. destruct x as [[|]|[|]| |[|] m e He]; try reflexivity; try (exfalso; revert H; vm_compute; discriminate).
  change (fisnan (fsqrt (BinarySingleNaN.B754_finite false m e He)) = false). unfold fsqrt, fisnan.
  pose proof (BinarySingleNaN.Bsqrt_correct prec emax prec_gt_0 prec_lt_emax BinarySingleNaN.mode_NE (BinarySingleNaN.B754_finite false m e He)) as (_ & F & _).
  destruct (BinarySingleNaN.Bsqrt _ _); cbn in F |- *; congruence.
Qed.
Lemma ex_cos_ok : cos_ok ex_lm.
Proof.
  intros x. cbn [ex_lm gx_lm m_cos]. unfold gx_cos. cbv zeta. set (c := nadd _ _). clearbody c. destruct (nltb n1 c) eqn:E.
  - vm_compute. reflexivity.
  - destruct (nltb c (nofZ (-1))); [vm_compute; reflexivity | exact E].
Qed.
Lemma ex_pow_ok : pow_params_ok ex_lm ex_params.
Proof.
  intros d H. cbn [ex_lm gx_lm m_pow]. destruct (nltb d n0) eqn:E; [|reflexivity].
  assert (C : nleb d (dflt (p_dry ex_params) ntenth) = true).
  { apply (leb_trans d n0); [apply lt_le, E | apply lt_le, tenth_ok]. }
  congruence.
Qed.
Lemma ex_standard : standard ex_lm 10 9 ex_params.
Proof.
  split. { repeat split; try lia; try (intros; discriminate);
    match goal with |- nrow ?a = _ => idtac | |- ncol ?a = _ => idtac end;
    match goal with H : _ = Some ?a |- _ => injection H as <-; reflexivity end. }
  split; [lia|]. split; [lia|]. split; [repeat split|]. split; [intros ct Hc; discriminate|]. split; [intros g Hg; discriminate|].
  split; [exact ex_pow_ok|]. split; [exact ex_sqrt_ok|]. intros dx Hd. injection Hd as <-. vm_compute. reflexivity.
Qed.
Lemma ex_field_ok : field_ok ex_lm ex_P.
Proof. destruct ex_init as (p' & E). eapply standard_field_ok; [exact ex_standard | exact E]. Qed.
Lemma ex_depth_clean : depth_clean ex_P.
Proof. destruct ex_init as (p' & E). eapply (standard_field_ok ex_lm 10 9); [exact ex_standard | exact E]. Qed.

(** Properties of all cells, checked by computation. *)
Definition all_cells (P : pobj f64) (f : Z -> Z -> bool) : bool :=
  forallb (fun i => forallb (f i) (zrange 0 (ncol (o_depth P)))) (zrange 0 (nrow (o_depth P))).
Lemma in_zrange a b x : a <= x < b -> In x (zrange a b).
Proof.
  intros H. unfold zrange. apply in_map_iff. exists (Z.to_nat (x - a)). split; [lia|]. apply in_seq. lia.
Qed.
Lemma all_cells_ok P f : all_cells P f = true -> forall i j, in_grid P i j -> f i j = true.
Proof.
  intros H i j (Hi & Hj). unfold all_cells in H. rewrite forallb_forall in H. specialize (H i (in_zrange _ _ _ Hi)).
  rewrite forallb_forall in H. exact (H j (in_zrange _ _ _ Hj)).
Qed.
(** The values the stream takes. *)
Definition ex_vals : list f64 := map (fun k => ndiv (nofZ k) (nofZ 8)) [1; 2; 3; 4; 5; 6; 7].
Definition ex_G (u : f64) : Prop := In u ex_vals.
(** One computation for all cells: the weight sum is finite, and inside the ring no draw of the stream maps to zero. *)
Lemma ex_cells : all_cells ex_P (fun i j => let v := pick_vector ex_P (weights_of ex_lm ex_P i j) in
    nisfin (nth 8 (cumsum v) nnan) &&
    (negb ((1 <=? i) && (i <? 9) && (1 <=? j) && (j <? 8)) || forallb (fun u => nltb n0 (mapped_draw v u)) ex_vals)) = true.
Proof. vm_compute. reflexivity. Qed.
Lemma ex_weights_finite : weights_finite ex_lm ex_P.
Proof.
  intros i j H. pose proof (all_cells_ok _ _ ex_cells i j H) as D. cbv beta zeta in D. apply andb_true_iff in D. apply D.
Qed.

Lemma ex_draws_7 n : In (ex_draws n) (map (fun k => ndiv (nofZ k) (nofZ 8)) [1; 2; 3; 4; 5; 6; 7]).
Proof.
  unfold ex_draws, gx_draws. set (r := (3 * Z.of_nat n) mod 7). assert (0 <= r < 7) by (apply Z.mod_pos_bound; lia).
  apply in_map_iff. exists (1 + r). split; [reflexivity|]. cbn [In]. lia.
Qed.
Lemma ex_draws_all (f : f64 -> bool) : forallb f (map (fun k => ndiv (nofZ k) (nofZ 8)) [1; 2; 3; 4; 5; 6; 7]) = true -> forall n, f (ex_draws n) = true.
Proof. intros H n. rewrite forallb_forall in H. apply H, ex_draws_7. Qed.
Lemma ex_unit n : unit_draw (ex_draws n).
Proof.
  split; [apply (ex_draws_all (fun u => nleb n0 u)) | apply (ex_draws_all (fun u => nltb u n1))]; vm_compute; reflexivity.
Qed.
Lemma ex_stream : unit_stream unit_draw ex_draws.
Proof. intros n. split; apply ex_unit. Qed.

Definition ex_s : psim f64 := unerr (init_sim ex_lm ex_P 0) (do_ops ex_lm ex_P ex_draws ex_ops (init_sim ex_lm ex_P 0)).
Definition ex_w : walk f64 := dflt (s_walk ex_s) {| xinds := []; yinds := []; times := []; opts := [] |}.

(** One computation of the session, with everything the examples need to know about it. *)
Fixpoint zl_eqb (a b : list Z) : bool :=
  match a, b with [], [] => true | x :: a', y :: b' => (x =? y) && zl_eqb a' b' | _, _ => false end.
Fixpoint zll_eqb (a b : list (list Z)) : bool :=
  match a, b with [], [] => true | x :: a', y :: b' => zl_eqb x y && zll_eqb a' b' | _, _ => false end.
Lemma zl_eqb_ok a : forall b, zl_eqb a b = true -> a = b.
Proof.
  induction a as [|x a IH]; intros [|y b] H; try reflexivity; try discriminate. cbn [zl_eqb] in H. apply andb_true_iff in H as (H1 & H2).
  apply Z.eqb_eq in H1. subst y. f_equal. apply IH, H2.
Qed.
Lemma zll_eqb_ok a : forall b, zll_eqb a b = true -> a = b.
Proof.
  induction a as [|x a IH]; intros [|y b] H; try reflexivity; try discriminate. cbn [zll_eqb] in H. apply andb_true_iff in H as (H1 & H2).
  apply zl_eqb_ok in H1. subst y. f_equal. apply IH, H2.
Qed.
Definition ex_xs : list (list Z) := [[2; 3; 4; 5; 6; 7]; [2; 2; 3; 4; 5; 6; 7; 8]; [3; 4; 5; 6; 7; 8]; [3; 4; 5; 6; 7; 8]; [3; 4; 5; 6; 7; 8]].
Definition ex_check : bool :=
  match do_ops ex_lm ex_P ex_draws ex_ops (init_sim ex_lm ex_P 0) with
  | Ok s =>
    match s_walk s with
    | Some w =>
      zll_eqb (xinds w) ex_xs && zl_eqb (nth 1 (yinds w) []) [5; 6; 6; 6; 6; 5; 4; 5] &&
      match dget "depth"%string (opts w) with Some l => Nat.eqb (length (nth 1 l [])) 8 | None => false end &&
      nisfin (nth 0 (nth 1 (times w) []) n0) && nltb (nth 0 (nth 1 (times w) []) n0) (nth 7 (nth 1 (times w) []) n0) &&
      is_ok (run_step ex_lm ex_P ex_draws s) && is_ok (run_target ex_lm ex_P ex_draws (nofZ 60) 5 s) &&
      is_ok (do_ops ex_lm ex_P ex_draws [OpRun; OpRunTo (nofZ 60) 5] s) &&
      is_ok (generate_particles ex_P ex_draws 4 [2; 3; 4] [3; 5; 6] n0 Exact (Some w) s)
    | None => false
    end
  | Err _ => false
  end.
Lemma ex_checked : ex_check = true.
Proof. vm_compute. reflexivity. Qed.
Lemma ex_facts : do_ops ex_lm ex_P ex_draws ex_ops (init_sim ex_lm ex_P 0) = Ok ex_s /\ s_walk ex_s = Some ex_w /\
  xinds ex_w = ex_xs /\ nth 1 (yinds ex_w) [] = [5; 6; 6; 6; 6; 5; 4; 5] /\
  (exists l, dget "depth"%string (opts ex_w) = Some l /\ length (nth 1 l []) = 8%nat) /\
  nisfin (nth 0 (nth 1 (times ex_w) []) n0) = true /\ nltb (nth 0 (nth 1 (times ex_w) []) n0) (nth 7 (nth 1 (times ex_w) []) n0) = true /\
  is_ok (run_step ex_lm ex_P ex_draws ex_s) = true /\ is_ok (run_target ex_lm ex_P ex_draws (nofZ 60) 5 ex_s) = true /\
  is_ok (do_ops ex_lm ex_P ex_draws [OpRun; OpRunTo (nofZ 60) 5] ex_s) = true /\
  is_ok (generate_particles ex_P ex_draws 4 [2; 3; 4] [3; 5; 6] n0 Exact (Some ex_w) ex_s) = true.
Proof.
  pose proof ex_checked as C. unfold ex_check in C. unfold ex_w, ex_s.
  destruct (do_ops ex_lm ex_P ex_draws ex_ops (init_sim ex_lm ex_P 0)) as [s|e]; [|discriminate]. cbn [unerr].
  destruct (s_walk s) as [w|]; [|discriminate]. cbn [dflt].
  repeat (apply andb_true_iff in C as (C & ?)). destruct (dget "depth"%string (opts w)) as [l|]; [|discriminate].
  repeat match goal with H : Nat.eqb _ _ = true |- _ => apply Nat.eqb_eq in H | H : zl_eqb _ _ = true |- _ => apply zl_eqb_ok in H
    | H : zll_eqb _ _ = true |- _ => apply zll_eqb_ok in H end.
  repeat (split; [solve [assumption | reflexivity | eexists; split; [reflexivity | assumption]]|]). assumption.
Qed.
Lemma ex_run : do_ops ex_lm ex_P ex_draws ex_ops (init_sim ex_lm ex_P 0) = Ok ex_s.
Proof. exact (proj1 ex_facts). Qed.
Lemma ex_stream_G : unit_stream ex_G ex_draws.
Proof. intros n. split; [apply ex_unit | apply ex_draws_7]. Qed.
Lemma ex_clear u : ex_G u -> clear_draw ex_lm ex_P u.
Proof.
  intros H i j (Hi & Hj).
  change (nrow (o_depth ex_P)) with 10 in Hi. change (ncol (o_depth ex_P)) with 9 in Hj.
  pose proof (all_cells_ok _ _ ex_cells i j ltac:(split; [change (nrow (o_depth ex_P)) with 10 | change (ncol (o_depth ex_P)) with 9]; lia)) as D.
  cbv beta zeta in D. apply andb_true_iff in D as (_ & D). apply orb_true_iff in D. destruct D as [D|D]; [apply negb_true_iff in D; lia|].
  rewrite forallb_forall in D. apply D, H.
Qed.

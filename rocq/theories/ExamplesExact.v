(** Variants of the concrete set-up: other gamma, and exact arithmetic. *)
From Coq Require Import ZArith Bool String List Lia QArith Qcanon.
From Verif Require Import Num XQ XQLaws F64 F64Laws Py NumMore Walker ParticleTrack SpecWeights SpecPick SpecWalk SpecHist SpecInit Examples.
Import ListNotations.
Open Scope Z_scope.

Definition gx_params_gamma {T} {N : Num T} (g : T) : params T :=
  {| p_dx := Some (nofZ 10); p_depth := Some gx_depth; p_stage := Some gx_stage; p_topo := None;
     p_model := Some "DeltaRCM"%string; p_qx := Some gx_qx; p_qy := Some gx_qy; p_u := None; p_v := None;
     p_theta := Some n1; p_gamma := Some g; p_diff := None; p_dry := None; p_ct := None; p_steep := None;
     p_dist := None; p_ivec := None; p_jvec := None; p_iwalk := None; p_jwalk := None; p_angles := None;
     p_roi := None; p_vars := Some ["depth"%string] |}.
Definition ex_depth' : arr f64 := gx_depth.

(** Exact arithmetic with 3/2 for the square root of 2 (any number works for the theorems). *)
Definition eq_lm : Libm xq := gx_lm (fun _ => XFin (Q2Qc (3 # 2))).
Definition eq_P : pobj xq := fst (unerr (gx_none, gx_params) (init eq_lm gx_params)).
Lemma eq_init : exists p', init eq_lm gx_params = Ok (eq_P, p').
Proof.
  exists (snd (unerr (gx_none, gx_params) (init eq_lm gx_params))). unfold eq_P. rewrite <- surjective_pairing.
  apply is_ok_unerr. vm_compute. reflexivity.
Qed.
Lemma forall9 (f : nat -> bool) : forallb f (seq 0 9) = true -> forall k, (k < 9)%nat -> f k = true.
Proof. intros H k Hk. rewrite forallb_forall in H. apply H, in_seq. lia. Qed.

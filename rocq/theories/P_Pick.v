(** Properties C07 - C10: picking a direction. *)
From Coq Require Import ZArith Bool String List Lia QArith Qcanon.
From Verif Require Import Num XQ XQLaws F64 F64Laws Py Walker SpecWeights SpecPick ProofPick ProofPickExact Examples ExamplesExact.
Import ListNotations.
Open Scope Z_scope.

(** C07 The random pick returns an index into the vector whose weight is positive, for every draw that does not map to
    exactly zero. *)
Theorem C07_random_pick_positive :
  forall (p : list f64) (u : f64) k p',
    no_negative p -> unit_draw u -> random_pick p u = Ok (k, p') ->
    nltb n0 (mapped_draw (map nanz p) u) = true ->
    (k < length p)%nat /\ nltb n0 (nth k p n0) = true.
Proof. exact random_pick_positive. Qed.
Print Assumptions C07_random_pick_positive.
Definition c07_p : list f64 := [n0; nofZ 2; n0; nnan; n0; nofZ 1; n0; n0; n0].
Lemma c07_nn : no_negative c07_p.
Proof. intros k. do 9 (destruct k as [|k]; [vm_compute; reflexivity|]). destruct k; vm_compute; reflexivity. Qed.
Example C07_example : no_negative c07_p /\ unit_draw (ndec 5 1 : f64) /\ nltb n0 (mapped_draw (map nanz c07_p) (ndec 5 1)) = true /\
  pick (map nanz c07_p) (ndec 5 1) = Ok 1%nat /\ pick (map nanz c07_p) (ndec 9 1) = Ok 5%nat.
Proof. split; [exact c07_nn|]. split; [split; vm_compute; reflexivity|]. split; [|split]; vm_compute; reflexivity. Qed.

(** Without the condition on the draw the claim is false: the draw 0 selects direction 0, whatever its weight. *)
Theorem C07_zero_draw_refuted :
  exists (p : list f64) u k p', no_negative p /\ unit_draw u /\ random_pick p u = Ok (k, p') /\ nth k p n0 = n0.
Proof.
  exists c07_p, n0, 0%nat, (map nanz c07_p). split; [exact c07_nn|]. split; [split; vm_compute; reflexivity|].
  split; [|reflexivity]. rewrite random_pick_pick.
  assert (E : pick (map nanz c07_p) n0 = Ok 0%nat) by (vm_compute; reflexivity). rewrite E. reflexivity.
Qed.
Print Assumptions C07_zero_draw_refuted.

(** C08 In exact arithmetic the draws that select k are exactly the interval between consecutive normalised cumulative
    weights; its length is weight k divided by the total. *)
Theorem C08_pick_interval :
  forall (w : list Qc) (u : Qc) k,
    Forall (fun x => (0 <= x)%Qc) w -> (0 < Qcsum w)%Qc -> (0 <= u)%Qc -> (u < 1)%Qc ->
    random_pick (map XFin w) (XFin u) = Ok (k, map XFin w) <->
    (k < length w)%nat /\ (k = 0%nat \/ (prefix_sum w k / Qcsum w < u)%Qc) /\ (u <= prefix_sum w (S k) / Qcsum w)%Qc.
Proof. exact random_pick_interval. Qed.
Print Assumptions C08_pick_interval.
Theorem C08_interval_length :
  forall (w : list Qc) k, (0 < Qcsum w)%Qc -> (k < length w)%nat ->
    (prefix_sum w (S k) / Qcsum w - prefix_sum w k / Qcsum w)%Qc = (nth k w 0 / Qcsum w)%Qc.
Proof. exact interval_length. Qed.
Print Assumptions C08_interval_length.
Example C08_example : let w := [Q2Qc 1; Q2Qc 0; Q2Qc (3 # 2)] in
  Forall (fun x => (0 <= x)%Qc) w /\ (0 < Qcsum w)%Qc /\ (0 <= Q2Qc (1 # 2))%Qc /\ (Q2Qc (1 # 2) < 1)%Qc.
Proof. cbv zeta. split; [repeat constructor; discriminate|]. split; [reflexivity|]. split; [discriminate | reflexivity]. Qed.

(** C09 Steepest descent selects one of the eight neighbours, with positive weight, and no direction has a larger weight.
    (If the particle's own cell is the only maximum, the pruned vector is zero and no draw meets the condition.) *)
Theorem C09_steepest_is_maximal :
  forall (p : list f64) (u : f64) k p',
    no_negative p -> unit_draw u -> steep_descent p u = Ok (k, p') ->
    nltb n0 (mapped_draw (steep_prune p) u) = true ->
    (k < length p)%nat /\ k <> 4%nat /\ nltb n0 (nth k p n0) = true /\
    forall m, nisnan (nth m p n0) = false -> nleb (nth m p n0) (nth k p n0) = true.
Proof. exact steep_pick_max. Qed.
Print Assumptions C09_steepest_is_maximal.
Example C09_example : no_negative c07_p /\ nltb n0 (mapped_draw (steep_prune c07_p) (ndec 9 1)) = true /\
  pick (steep_prune c07_p) (ndec 9 1) = Ok 1%nat.
Proof. split; [exact c07_nn|]. split; vm_compute; reflexivity. Qed.
(** In a pit (own cell the only maximum) direction 0 is selected for every draw, although its weight may be zero. *)
Definition c09_pit : list f64 := [n0; n1; n0; n0; nofZ 2; n0; n0; n0; n0].
Theorem C09_pit_refuted :
  exists (p : list f64) u k p', no_negative p /\ unit_draw u /\ nltb n0 u = true /\ steep_descent p u = Ok (k, p') /\ nth k p n0 = n0.
Proof.
  exists c09_pit, (ndec 5 1), 0%nat, (steep_prune c09_pit).
  split. { intros k. do 9 (destruct k as [|k]; [vm_compute; reflexivity|]). destruct k; vm_compute; reflexivity. }
  split; [split; vm_compute; reflexivity|]. split; [vm_compute; reflexivity|].
  split; [|reflexivity]. rewrite steep_pick. assert (E : pick (steep_prune c09_pit) (ndec 5 1) = Ok 0%nat) by (vm_compute; reflexivity).
  rewrite E. reflexivity.
Qed.
Print Assumptions C09_pit_refuted.

(** C10 The in-place edits of a pick do not change what a later visit would choose. *)
Theorem C10_random_pick_repeatable :
  forall (p : list f64) u k p', random_pick p u = Ok (k, p') -> forall u2, random_pick p' u2 = random_pick p u2.
Proof. exact random_pick_again. Qed.
Print Assumptions C10_random_pick_repeatable.
Theorem C10_steep_descent_repeatable :
  forall (p : list f64) u k p', no_negative p -> steep_descent p u = Ok (k, p') ->
    forall u2, steep_descent p' u2 = steep_descent p u2.
Proof. exact steep_descent_again. Qed.
Print Assumptions C10_steep_descent_repeatable.
Example C10_example : exists k p', random_pick c07_p (ndec 5 1) = Ok (k, p').
Proof.
  eexists _, _. rewrite random_pick_pick. assert (E : pick (map nanz c07_p) (ndec 5 1) = Ok 1%nat) by (vm_compute; reflexivity).
  rewrite E. reflexivity.
Qed.

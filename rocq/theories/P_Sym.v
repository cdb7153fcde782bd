(** Property C95: routing has no preferred orientation (exact arithmetic). *)
From Coq Require Import ZArith Bool String List Lia Permutation QArith Qcanon.
From Verif Require Import Num NumFacts XQ XQLaws XQFacts Py Walker ParticleTrack SpecWeights SpecPick SpecInit SpecSym SpecPath
  ProofWeightLaws ProofWeightExt ProofApi ProofInit ProofSym ProofStep Examples ExamplesExact ExamplesQ.
Import ListNotations.
Open Scope Z_scope.

(** C95 The constructor accepts the image of an accepted parameter set (3x3 tables at their defaults), and the weight of a direction in a cell of the
    image is the weight of the original direction in the original cell.  The second part says what "the original direction" means: the neighbour
    in direction k is moved to the neighbour in direction [turned s k]. *)
Theorem C95_symmetric_weights :
  forall s lm L W (p : params xq) P p', weight_params lm L W p -> default_tables p -> init lm p = Ok (P, p') ->
    exists P2 p2', init lm (image_params s p) = Ok (P2, p2') /\
      forall i j k, 0 <= i < L -> 0 <= j < W -> (k < 9)%nat ->
        let c2 := moved s L W (i, j) in
        nth (turned s k) (weights_of lm P2 (fst c2) (snd c2)) n0 = nth k (weights_of lm P i j) n0 /\
        moved s L W (i + row_off k, j + col_off k) = (fst c2 + row_off (turned s k), snd c2 + col_off (turned s k)).
Proof.
  intros s lm L W p P p' WP DT E. destruct (init_image s lm L W p P p' WP DT E) as (P2 & p2' & X & H). exists P2, p2'. split; [exact X|].
  intros i j k Hi Hj K c2. split; [apply H; assumption | apply moved_step, K].
Qed.
Print Assumptions C95_symmetric_weights.

Lemma Qcsum_perm l l' : Permutation l l' -> Qcsum l = Qcsum l'.
Proof. induction 1; [reflexivity | change (x + Qcsum l = x + Qcsum l')%Qc; rewrite IHPermutation; reflexivity | change (y + (x + Qcsum l) = x + (y + Qcsum l))%Qc; ring | congruence]. Qed.
Lemma list9 {A} (l : list A) d : length l = 9%nat -> map (fun k => nth k l d) (seq 0 9) = l.
Proof. intros H. destruct l as [|a0 [|a1 [|a2 [|a3 [|a4 [|a5 [|a6 [|a7 [|a8 [|]]]]]]]]]]; try discriminate H. reflexivity. Qed.
Lemma share_image s lm (P P2 : pobj xq) c c2 w w2 k : length (weights_of lm P (fst c) (snd c)) = 9%nat -> length (weights_of lm P2 (fst c2) (snd c2)) = 9%nat ->
  (forall k, (k < 9)%nat -> nth (turned s k) (weights_of lm P2 (fst c2) (snd c2)) n0 = nth k (weights_of lm P (fst c) (snd c)) n0) ->
  weighs lm P c w -> weighs lm P2 c2 w2 -> (k < 9)%nat -> SpecPath.share w2 (turned s k) = SpecPath.share w k.
Proof.
  intros N1 N2 H (E1 & _) (E2 & _) K.
  assert (M1 : length w = 9%nat) by (rewrite <- (map_length XFin w), <- E1, map_length; exact N1).
  assert (M2 : length w2 = 9%nat) by (rewrite <- (map_length XFin w2), <- E2, map_length; exact N2).
  assert (A : forall k, (k < 9)%nat -> nth (turned s k) w2 0%Qc = nth k w 0%Qc).
  { intros m Hm. assert (Q : XFin (nth (turned s m) w2 0%Qc) = XFin (nth m w 0%Qc)); [|injection Q as Q; exact Q].
    rewrite <- !(map_nth XFin), <- E1, <- E2.
    rewrite (nth_indep _ (XFin 0%Qc) (nanz n0)) by (rewrite map_length, N2; apply turned_lt, Hm). rewrite (nth_indep (map nanz (weights_of lm P _ _)) (XFin 0%Qc) (nanz n0)) by (rewrite map_length, N1; exact Hm).
    rewrite !map_nth, H by exact Hm. reflexivity. }
  unfold SpecPath.share. rewrite A by exact K. f_equal. apply Qcsum_perm. rewrite <- (list9 w 0%Qc M1), <- (list9 w2 0%Qc M2). apply Permutation_sym, (turned_map s), A.
Qed.

Lemma turned_back s k : (k < 9)%nat -> turned s (turned s k) = k.
Proof. intros K. destruct s; do 9 (destruct k as [|k]; [reflexivity|]); lia. Qed.
Definition rearranged (s : symmetry) (w : list Qc) : list Qc := map (fun k => nth (turned s k) w 0%Qc) (seq 0 9).
Lemma weighs_image s lm (P P2 : pobj xq) c c2 w : length (weights_of lm P (fst c) (snd c)) = 9%nat -> length (weights_of lm P2 (fst c2) (snd c2)) = 9%nat ->
  (forall k, (k < 9)%nat -> nth (turned s k) (weights_of lm P2 (fst c2) (snd c2)) n0 = nth k (weights_of lm P (fst c) (snd c)) n0) ->
  weighs lm P c w -> weighs lm P2 c2 (rearranged s w).
Proof.
  intros N1 N2 H (E1 & F1 & S1). assert (M1 : length w = 9%nat) by (rewrite <- (map_length XFin w), <- E1, map_length; exact N1).
  assert (PM : Permutation (rearranged s w) w).
  { pose proof (turned_map s (fun k => nth (turned s k) w 0%Qc) (fun k => nth k w 0%Qc) (fun k _ => eq_refl)) as Q. rewrite (list9 w 0%Qc M1) in Q. exact Q. }
  split; [|split].
  - rewrite <- (list9 (weights_of lm P2 (fst c2) (snd c2)) n0 N2). unfold rearranged. rewrite !map_map. apply map_ext_in. intros k Hk. apply in_seq in Hk.
    pose proof (H (turned s k) ltac:(apply turned_lt; lia)) as HK. rewrite turned_back in HK by lia. rewrite HK. rewrite <- (map_nth nanz), E1, <- (map_nth XFin).
    apply nth_indep. rewrite map_length, M1. apply turned_lt. lia.
  - eapply Permutation_Forall; [apply Permutation_sym, PM | exact F1].
  - rewrite (Qcsum_perm _ _ PM). exact S1.
Qed.

(** A path has the probability of its image: if a path leaves cells with weights ws, the image of the path leaves cells with some weights ws2, and the
    shares of the directions taken, multiplied along the path, are the same. *)
Theorem C95_symmetric_paths :
  forall s lm L W (p : params xq) P p', weight_params lm L W p -> default_tables p -> init lm p = Ok (P, p') ->
    exists P2 p2', init lm (image_params s p) = Ok (P2, p2') /\
      forall c (ks : list nat) (ws : nat -> list Qc),
        (forall i, (i < length ks)%nat -> let ci := after P c (firstn i ks) in
           (nth i ks 0 < 9)%nat /\ (0 <= fst ci < L /\ 0 <= snd ci < W) /\ weighs lm P ci (ws i)) ->
        exists ws2 : nat -> list Qc, let ks2 := map (turned s) ks in
          after P2 (moved s L W c) ks2 = moved s L W (after P c ks) /\
          (forall i, (i < length ks)%nat -> weighs lm P2 (after P2 (moved s L W c) (firstn i ks2)) (ws2 i)) /\
          product (map (fun i => SpecPath.share (ws2 i) (nth i ks2 0%nat)) (seq 0 (length ks))) =
          product (map (fun i => SpecPath.share (ws i) (nth i ks 0%nat)) (seq 0 (length ks))).
Proof.
  intros s lm L W p P p' WP DT E. destruct (init_image s lm L W p P p' WP DT E) as (P2 & p2' & X & H). exists P2, p2'. split; [exact X|].
  pose proof WP as (SP & _). destruct (init_wf lm L W p P p' SP E) as (Hw & EL & EW).
  destruct (init_wf lm _ _ _ P2 p2' (shaped_image s L W p SP) X) as (Hw2 & EL2 & EW2).
  destruct DT as (_ & _ & _ & T4 & T5 & _).
  destruct (init_ok lm p P p' E) as (? & ? & ? & ? & ? & ? & _ & _ & _ & _ & _ & _ & _ & _ & _ & _ & _ & _ & _ & _ & _ & _ & _ & _ & _ & _ & _ & _ & _ & I1 & J1 & _).
  destruct (init_ok lm _ P2 p2' X) as (? & ? & ? & ? & ? & ? & _ & _ & _ & _ & _ & _ & _ & _ & _ & _ & _ & _ & _ & _ & _ & _ & _ & _ & _ & _ & _ & _ & _ & I2 & J2 & _).
  cbn [image_params p_iwalk p_jwalk] in I2, J2. rewrite T4 in I1, I2. rewrite T5 in J1, J2. cbn [dflt] in I1, I2, J1, J2.
  intros c ks ws HP. exists (fun i => rearranged s (ws i)). cbv zeta.
  assert (KS : forall k, In k ks -> (k < 9)%nat).
  { intros k Hk. destruct (In_nth ks k 0%nat Hk) as (i & Hi & <-). apply (HP i Hi). }
  assert (AF : forall ks c, (forall k, In k ks -> (k < 9)%nat) -> after P2 (moved s L W c) (map (turned s) ks) = moved s L W (after P c ks)).
  { clear - I1 I2 J1 J2. intros ks. induction ks as [|k ks IH]; intros c KS; [reflexivity|]. cbn [map after].
    rewrite <- IH by (intros; apply KS; right; assumption). f_equal. rewrite I1, I2, J1, J2. destruct c as (i, j). cbn [fst snd].
    symmetry. exact (moved_step s L W i j k (KS k (or_introl eq_refl))). }
  assert (AT : forall i, (i < length ks)%nat -> after P2 (moved s L W c) (firstn i (map (turned s) ks)) = moved s L W (after P c (firstn i ks))).
  { intros i Hi. rewrite firstn_map. apply AF. intros k Hk. apply KS. revert Hk. rewrite <- (firstn_skipn i ks) at 2. intros Hk. apply in_or_app. left. exact Hk. }
  assert (ALL : forall i, (i < length ks)%nat -> let ci := after P c (firstn i ks) in
    weighs lm P2 (moved s L W ci) (rearranged s (ws i)) /\ SpecPath.share (rearranged s (ws i)) (turned s (nth i ks 0%nat)) = SpecPath.share (ws i) (nth i ks 0%nat)).
  { intros i Hi. destruct (HP i Hi) as (K & (R1 & R2) & A). cbv zeta. revert R1 R2 A. generalize (after P c (firstn i ks)) as ci. intros (a, b) R1 R2 A. cbn [fst snd] in R1, R2.
    assert (N1 : length (weights_of lm P a b) = 9%nat) by (apply weights_length; [exact Hw|]; unfold in_grid; rewrite EL, EW; split; assumption).
    assert (N2 : length (weights_of lm P2 (fst (moved s L W (a, b))) (snd (moved s L W (a, b)))) = 9%nat) by (apply weights_length; [exact Hw2|]; unfold in_grid; rewrite EL2, EW2; apply moved_in; assumption).
    assert (B : weighs lm P2 (moved s L W (a, b)) (rearranged s (ws i))) by (apply (weighs_image s lm P P2 (a, b)); try assumption; intros m Hm; apply H; assumption).
    split; [exact B|]. apply (share_image s lm P P2 (a, b) (moved s L W (a, b))); try assumption. intros m Hm. apply H; assumption. }
  split; [apply AF, KS|]. split.
  - intros i Hi. rewrite AT by exact Hi. apply (ALL i Hi).
  - f_equal. apply map_ext_in. intros i Hi. apply in_seq in Hi. rewrite (nth_indep _ 0%nat (turned s 0%nat)) by (rewrite map_length; lia). rewrite map_nth.
    apply (ALL i). lia.
Qed.
Print Assumptions C95_symmetric_paths.
(** The example field meets the hypotheses; at cell (3,3) its weights are not symmetric themselves. *)
Definition finite_part (x : xq) : Qc := match x with XFin q => q | _ => 0%Qc end.
Definition c95_w : list Qc := map finite_part (weights_of eq_lm eq_P 3 3).
Example C95_example : weight_params eq_lm 10 9 eq_params /\ default_tables eq_params /\ (exists p', init eq_lm eq_params = Ok (eq_P, p')) /\
  weighs eq_lm eq_P (after eq_P (3, 3) (firstn 0 [7%nat])) c95_w /\
  (forall s, s <> Diagonal -> neqb (nth 6 (weights_of eq_lm eq_P 3 3) n0) (nth (turned s 6) (weights_of eq_lm eq_P 3 3) n0) = false).
Proof.
  destruct eq_standard as (A & _ & _ & D & _ & B & C & _). split; [exact (conj A (conj B C))|]. split; [exact D|]. split; [exact eq_init|].
  split; [split; [vm_compute; reflexivity|]; split|].
  - apply Forall_forall. intros x Hx. assert (F : forallb (fun q => Qcleb 0%Qc q) c95_w = true) by (vm_compute; reflexivity).
    rewrite forallb_forall in F. apply xq_leb. exact (F x Hx).
  - apply xq_ltb. vm_compute. reflexivity.
  - intros s Hs. destruct s; [vm_compute; reflexivity | vm_compute; reflexivity | congruence].
Qed.

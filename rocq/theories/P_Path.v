(** Property C83: the walk is the Markov chain with the documented transition probabilities. *)
From Coq Require Import ZArith Bool String List Lia QArith Qcanon.
From Verif Require Import Num XQ XQLaws XQFacts Py NumFacts NumMore Walker ParticleTrack SpecWeights SpecPick SpecWalk SpecHist SpecInit SpecApi SpecDraw SpecPath
  ProofApi2 ProofPickExact ProofPath Examples ExamplesExact ExamplesQ.
Import ListNotations.
Open Scope Z_scope.

Lemma product_ext (f g : nat -> Qc) n m : (forall i, (m <= i < m + n)%nat -> f i = g i) -> product (map f (seq m n)) = product (map g (seq m n)).
Proof. intros H. f_equal. apply map_ext_in. intros a Ha. apply in_seq in Ha. apply H. lia. Qed.

(** C83 Exact arithmetic, random routing.  Let particle q be given, and a path: n directions ks such that none of the cells left on the path is (0,0) or
    next to an edge.  Every cell c i of the path has nine rational weights with a positive sum; during n iterations the particle follows the path if and only if
    for every i its i-th direction number lies in the interval of direction ks_i; and the box formed by these n intervals has the volume
    (w_1 / sum w_1) * ... * (w_n / sum w_n), the documented probability of the path. *)
Theorem C83_path_probability :
  forall G lm L W (p : params xq) P draws (st : nat -> psim xq) (wk : nat -> walk xq) q (ks : list nat),
    session G lm L W p P draws (st 0%nat) -> weights_finite lm P -> o_steep P = false ->
    (forall i, (i < length ks)%nat -> s_walk (st i) = Some (wk i) /\ run_step lm P draws (st i) = Ok (wk (S i), st (S i))) ->
    s_walk (st 0%nat) = Some (wk 0%nat) -> (q < count (wk 0%nat))%nat ->
    let c i := after P (place P (wk 0%nat) q) (firstn i ks) in
    (forall i, (i < length ks)%nat -> (nth i ks 0 < 9)%nat /\ c i <> (0, 0) /\ ~ edge_nearby P (fst (c i)) (snd (c i))) ->
    exists ws : nat -> list Qc,
      (forall i, (i < length ks)%nat -> weighs lm P (c i) (ws i) /\ length (ws i) = 9%nat) /\
      ((forall i, (i <= length ks)%nat -> place P (wk i) q = c i) <->
       (forall i, (i < length ks)%nat -> chooses (ws i) (nth i ks 0%nat) (direction_draw P draws (st i) (wk i) q))) /\
      product (map (fun i => hi_draw (ws i) (nth i ks 0%nat) - lo_draw (ws i) (nth i ks 0%nat))%Qc (seq 0 (length ks))) =
        product (map (fun i => share (ws i) (nth i ks 0%nat)) (seq 0 (length ks))).
Proof.
  intros G lm L W p P draws st wk q ks S0 FI SD RUN W0 Hq c PC.
  destruct (path_draws lm L W p P draws st wk q ks S0 FI SD RUN W0 Hq PC) as (ws & HW & IFF). exists ws. split; [exact HW|]. split; [exact IFF|].
  apply product_ext. intros i Hi. destruct (HW i ltac:(lia)) as ((_ & _ & PS) & L9). destruct (PC i ltac:(lia)) as (K9 & _).
  apply interval_length; [exact PS | lia].
Qed.
Print Assumptions C83_path_probability.

Lemma eq_weights_finite : weights_finite eq_lm eq_P.
Proof.
  intros i j H. apply (cells_10_9_ok (fun i j => nisfin (nth 8 (cumsum (pick_vector eq_P (weights_of eq_lm eq_P i j))) nnan))); [vm_compute; reflexivity | exact H].
Qed.
Lemma eq_place : (place eq_P eq_w 1) = (6, 4).
Proof. vm_compute. reflexivity. Qed.
(** Away from the ring of the example there is no edge cell. *)
Lemma eq_no_edge x y : 2 <= x < 8 -> 2 <= y < 7 -> ~ edge_nearby eq_P x y.
Proof.
  intros Hx Hy (x' & y' & Hg & Hx' & Hy' & E).
  assert (C : forallb (fun i => forallb (fun j => negb (cell (o_ct eq_P) i j =? -1)) (zrange 1 8)) (zrange 1 9) = true) by (vm_compute; reflexivity).
  rewrite forallb_forall in C. specialize (C x' ltac:(apply in_zrange; lia)). rewrite forallb_forall in C. specialize (C y' ltac:(apply in_zrange; lia)).
  rewrite E in C. discriminate C.
Qed.
Lemma eq_cells i : (i < 2)%nat -> let c := after eq_P (6, 4) (firstn i [5; 7]%nat) in
  (nth i [5; 7] 0 < 9)%nat /\ c <> (0, 0) /\ ~ edge_nearby eq_P (fst c) (snd c).
Proof.
  intros Hi c. assert (HC : c = (6, 4) \/ c = (6, 5)) by (destruct i as [|[|i]]; [left | right | lia]; vm_compute; reflexivity).
  split; [destruct i as [|[|i]]; cbn; lia|]. clearbody c. destruct HC as [-> | ->]; (split; [discriminate|]; apply eq_no_edge; cbn [fst snd]; lia).
Qed.
Definition three {A} (a b c : A) (i : nat) : A := match i with 0%nat => a | 1%nat => b | _ => c end.
Example C83_example : exists st wk, let ks := [5; 7]%nat in
  session (fun _ => True) eq_lm 10 9 eq_params eq_P eq_draws (st 0%nat) /\ weights_finite eq_lm eq_P /\ o_steep eq_P = false /\
  (forall i, (i < length ks)%nat -> s_walk (st i) = Some (wk i) /\ run_step eq_lm eq_P eq_draws (st i) = Ok (wk (S i), st (S i))) /\
  (1 < count (wk 0%nat))%nat /\ place eq_P (wk 0%nat) 1 = (6, 4) /\
  let c i := after eq_P (6, 4) (firstn i ks) in
  (forall i, (i < length ks)%nat -> (nth i ks 0 < 9)%nat /\ c i <> (0, 0) /\ ~ edge_nearby eq_P (fst (c i)) (snd (c i))).
Proof.
  assert (ALL : exists s0 w0, session (fun _ => True) eq_lm 10 9 eq_params eq_P eq_draws s0 /\ s_walk s0 = Some w0 /\ (1 < count w0)%nat /\ place eq_P w0 1 = (6, 4)).
  { exists eq_s, eq_w. split; [exact eq_session|]. split; [exact (proj1 eq_walk)|]. split; [rewrite (proj2 eq_walk); lia | exact eq_place]. }
  destruct ALL as (s0 & w0 & S0 & W0 & C0 & P0).
  destruct (session_run_ok (G := fun _ => True) eq_lm 10 9 eq_params eq_P eq_draws s0 w0 S0 eq_weights_finite W0) as (w1 & s1 & R1).
  pose proof (fun H => ProofStuck.session_op eq_lm 10 9 eq_params eq_P eq_draws s0 OpRun s1 S0 (conj I I) H) as S1. cbn [do_op] in S1. rewrite R1 in S1. specialize (S1 eq_refl).
  destruct (session_run (G := fun _ => True) eq_lm 10 9 eq_params eq_P eq_draws s0 w0 w1 s1 0 S0 W0 R1) as (W1 & _).
  destruct (session_run_ok (G := fun _ => True) eq_lm 10 9 eq_params eq_P eq_draws s1 w1 S1 eq_weights_finite W1) as (w2 & s2 & R2).
  exists (three s0 s1 s2), (three w0 w1 w2). cbv zeta.
  split; [exact S0|]. split; [exact eq_weights_finite|]. split; [reflexivity|]. split.
  { intros i Hi. cbn [length] in Hi. destruct i as [|[|i]]; [split; [exact W0 | exact R1] | split; [exact W1 | exact R2] | lia]. }
  split; [exact C0|]. split; [exact P0|]. exact eq_cells.
Qed.

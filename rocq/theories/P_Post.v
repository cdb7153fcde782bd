(** Properties C41 - C43: exposure times. *)
From Coq Require Import ZArith Bool String List Lia QArith Qcanon.
From Verif Require Import Num XQ XQLaws F64 F64Laws Py NumFacts NumMore NumPost Walker ParticleTrack SpecWeights SpecPick SpecWalk SpecHist SpecInit
  SpecExact SpecApi PostProc SpecPost ProofPost Examples ExamplesReach P_Motion.
Import ListNotations.
Open Scope Z_scope.

(** ** Concrete walk data: two particles on a 4 x 4 raster, and the region of the columns >= 2. *)
Definition px_walk {T} {N : Num T} : walk T :=
  {| xinds := [[1; 1; 2; 3]; [0; 1]]; yinds := [[1; 2; 2; 1]; [0; 3]];
     times := [[n0; n1; nofZ 3; nofZ 4]; [n0; nofZ 2]]; opts := [] |}.
Definition px_roi : arr Z := Arr 4 4 (fun _ j => if 2 <=? j then 1 else 0).
Lemma px_on {T} {N : Num T} : walk_on 4 4 (px_walk : walk T).
Proof.
  split; [split; [reflexivity|]; split; [reflexivity | intros v []]|]. intros q Hq. change (q < 2)%nat in Hq.
  destruct q as [|[|q]]; [| |lia];
    (split; [split; [cbn; lia|]; split; [reflexivity|]; split; [reflexivity | intros kv []]|]);
    intros i Hi; cbn in Hi; do 4 (destruct i as [|i]; [cbn; lia|]); lia.
Qed.
Lemma px_binary : binary px_roi.
Proof. intros i j _ _. cbn. destruct (2 <=? j); auto. Qed.

(** C41 (all number semantics, stated for doubles) exposure_time succeeds on the walk data of every session, with one value per
    particle, for every 0/1 region of the size of the grid. *)
Theorem C41_exposure_defined :
  forall G lm L W (p : params f64) P draws s w roi,
    session G lm L W p P draws s -> s_walk s = Some w -> binary roi -> nrow roi = L -> ncol roi = W ->
    exists ets stay, exposure_time w roi = Ok (ets, stay) /\ length ets = count w.
Proof.
  intros G lm L W p P draws s w roi SS E B EL EW. apply exposure_total; [exact B|]. rewrite EL, EW.
  exact (session_walk_on G lm L W p P draws s w SS E).
Qed.
Print Assumptions C41_exposure_defined.
Example C41_defined_example : session any_draw ex_lm 10 9 ex_params ex_P ex_draws ex_s /\ s_walk ex_s = Some ex_w /\
  binary (Arr 10 9 (fun i _ => if 5 <=? i then 1 else 0)).
Proof. split; [exact ex_session|]. split; [apply ex_walk|]. intros i j _ _. cbn. destruct (5 <=? i); auto. Qed.

(** C41 In exact arithmetic the exposure time is the trapezoidal occupation time of the region: the sum over all steps of
    duration * (inside before + inside after) / 2.  It lies between 0 and the elapsed time if times do not decrease. *)
Theorem C41_trapezoid :
  forall roi (w : walk xq) ets stay q tq,
    binary roi -> walk_on (nrow roi) (ncol roi) w -> exposure_time w roi = Ok (ets, stay) -> (q < count w)%nat ->
    finite_times (path w q) tq ->
    nth q ets nnan = XFin (occupation_time roi (path w q) tq) /\
    ((forall i, (S i < length (r_x (path w q)))%nat -> (tq i <= tq (S i))%Qc) ->
     (0 <= occupation_time roi (path w q) tq)%Qc /\ (occupation_time roi (path w q) tq <= tq (last_ix (path w q)) - tq 0%nat)%Qc).
Proof. exact exposure_exact_api. Qed.
Print Assumptions C41_trapezoid.
(** In doubles it is never negative either. *)
Theorem C41_never_negative :
  forall roi (w : walk f64) ets stay q,
    binary roi -> walk_on (nrow roi) (ncol roi) w -> exposure_time w roi = Ok (ets, stay) -> (q < count w)%nat ->
    (forall i, (i < length (r_x (path w q)))%nat -> nisfin (tat (path w q) i) = true) ->
    (forall i, (S i < length (r_x (path w q)))%nat -> nleb (tat (path w q) i) (tat (path w q) (S i)) = true) ->
    nleb n0 (nth q ets nnan) = true.
Proof. exact exposure_nn. Qed.
Print Assumptions C41_never_negative.
Example C41_example :
  let tq := fun i => nth i [Q2Qc 0; Q2Qc 1; Q2Qc 3; Q2Qc 4] (Q2Qc 0) in
  binary px_roi /\ walk_on 4 4 (px_walk : walk xq) /\ finite_times (path px_walk 0) tq /\
  match exposure_time (px_walk : walk xq) px_roi with
  | Ok (ets, stay) => forallb (fun p => neqb (fst p) (snd p)) (combine ets [nofZ 3; nofZ 1]) && Nat.eqb (length ets) 2 = true /\ stay = [1]
  | Err _ => False
  end.
Proof.
  cbv zeta. split; [exact px_binary|]. split; [exact px_on|]. split.
  - intros i Hi. cbn in Hi. do 4 (destruct i as [|i]; [reflexivity|]). lia.
  - vm_compute. split; reflexivity.
Qed.
Example C41_example_f64 :
  match exposure_time (px_walk : walk f64) px_roi with
  | Ok (ets, stay) => forallb (fun p => neqb (fst p) (snd p)) (combine ets [nofZ 3; nofZ 1]) && Nat.eqb (length ets) 2 = true /\ stay = [1]
  | Err _ => False
  end.
Proof. vm_compute. split; reflexivity. Qed.

(** C42 Exposure times of a region and its complement add up to the elapsed time. *)
Theorem C42_complement :
  forall roi roi' (w : walk xq) ets stay ets' stay' q tq,
    binary roi -> complement_of roi roi' -> walk_on (nrow roi) (ncol roi) w ->
    exposure_time w roi = Ok (ets, stay) -> exposure_time w roi' = Ok (ets', stay') ->
    (q < count w)%nat -> finite_times (path w q) tq ->
    nadd (nth q ets nnan) (nth q ets' nnan) = XFin (tq (last_ix (path w q)) - tq 0%nat).
Proof. exact exposure_complement. Qed.
Print Assumptions C42_complement.
(** Exposure time is additive over disjoint regions. *)
Theorem C42_additive :
  forall a b u (w : walk xq) ea la eb lb eu lu q tq,
    binary a -> binary b -> binary u -> disjoint_union a b u -> walk_on (nrow u) (ncol u) w ->
    exposure_time w a = Ok (ea, la) -> exposure_time w b = Ok (eb, lb) -> exposure_time w u = Ok (eu, lu) ->
    (q < count w)%nat -> finite_times (path w q) tq -> nadd (nth q ea nnan) (nth q eb nnan) = nth q eu nnan.
Proof. exact exposure_union. Qed.
Print Assumptions C42_additive.
Example C42_example :
  let a := Arr 4 4 (fun _ j => if j =? 2 then 1 else 0) in let b := Arr 4 4 (fun _ j => if 3 <=? j then 1 else 0) in
  let c := Arr 4 4 (fun _ j => if 2 <=? j then 0 else 1) in
  binary a /\ binary b /\ disjoint_union a b px_roi /\ complement_of px_roi c.
Proof.
  cbv zeta. split; [intros i j _ _; cbn; destruct (j =? 2); auto|]. split; [intros i j _ _; cbn; destruct (3 <=? j); auto|].
  split.
  - do 4 (split; [reflexivity|]). intros i j _ Hj. cbn in Hj. cbn.
    destruct (Z.leb_spec 2 j), (Z.eqb_spec j 2), (Z.leb_spec 3 j); lia.
  - do 2 (split; [reflexivity|]). intros i j _ _. cbn. destruct (2 <=? j); reflexivity.
Qed.

(** C43 The value of a particle depends on its own path only, ... *)
Theorem C43_own_path_only :
  forall roi (w1 w2 : walk f64) e1 l1 e2 l2 q1 q2,
    binary roi -> walk_on (nrow roi) (ncol roi) w1 -> walk_on (nrow roi) (ncol roi) w2 ->
    exposure_time w1 roi = Ok (e1, l1) -> exposure_time w2 roi = Ok (e2, l2) ->
    (q1 < count w1)%nat -> (q2 < count w2)%nat -> path w1 q1 = path w2 q2 -> nth q1 e1 nnan = nth q2 e2 nnan.
Proof. exact exposure_same. Qed.
Print Assumptions C43_own_path_only.
(** ... concatenating walk data concatenates the results, ... *)
Theorem C43_concatenation :
  forall roi (w1 w2 : walk f64) e1 l1 e2 l2,
    binary roi -> walk_on (nrow roi) (ncol roi) w1 -> walk_on (nrow roi) (ncol roi) w2 ->
    exposure_time w1 roi = Ok (e1, l1) -> exposure_time w2 roi = Ok (e2, l2) ->
    exposure_time (walk_app w1 w2) roi = Ok (e1 ++ e2, l1 ++ map (Z.add (Z.of_nat (count w1))) l2).
Proof. exact exposure_app. Qed.
Print Assumptions C43_concatenation.
(** ... and the particles reported as still inside are exactly those with more than one record that end in the region. *)
Theorem C43_still_inside :
  forall roi (w : walk f64) ets stay q,
    binary roi -> walk_on (nrow roi) (ncol roi) w -> exposure_time w roi = Ok (ets, stay) ->
    (In q stay <-> exists k, q = Z.of_nat k /\ (k < count w)%nat /\ (1 < length (r_x (path w k)))%nat /\
                   in_region roi (xat (path w k) (last_ix (path w k))) (yat (path w k) (last_ix (path w k)))).
Proof. exact exposure_stay. Qed.
Print Assumptions C43_still_inside.
(* hypotheses: see C41_example and C41_example_f64 (particle 1 is reported, particle 0 is not) *)

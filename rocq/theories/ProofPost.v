(** API-level statements about exposure_time. *)
From Coq Require Import ZArith Bool String List Lia QArith Qcanon Lqa.
From Verif Require Import Num NumFacts NumMore NumPost XQ XQLaws XQFacts Py Walker ParticleTrack SpecWeights SpecPick SpecWalk SpecHist SpecInit SpecExact SpecApi
  ProofApi2 PostProc SpecPost ProofExposure.
Import ListNotations.
Open Scope Z_scope.
Open Scope res_scope.

Section Generic.
Context {T : Type} {N : Num T} {NL : NumLaws T} {NM : NumMore T}.

(** The walk data of a session are on the raster. *)
Lemma session_walk_on G lm L W (p : params T) P draws s w : session G lm L W p P draws s -> s_walk s = Some w -> walk_on L W w.
Proof.
  intros SS E. destruct (session_rect lm L W p P draws s w SS E) as (A & B & _ & D).
  split; [split; [exact A|]; split; [exact B | intros v []]|]. intros q Hq. destruct (D q Hq) as (D1 & D2 & D3 & _).
  split; [split; [exact D1|]; split; [exact D2|]; split; [exact D3 | intros kv []]|].
  intros i Hi. exact (session_positions lm L W p P draws s w q i SS E Hq Hi).
Qed.

Lemma nth_map_seq {A} (f : nat -> A) d n q : (q < n)%nat -> nth q (map f (seq 0 n)) d = f q.
Proof. intros H. rewrite (nth_indep _ d (f 0%nat)) by (rewrite map_length, seq_length; exact H). rewrite map_nth. rewrite seq_nth by exact H. reflexivity. Qed.

(** Total on such data, one value per particle. *)
Lemma exposure_total roi (w : walk T) : binary roi -> walk_on (nrow roi) (ncol roi) w ->
  exists ets stay, exposure_time w roi = Ok (ets, stay) /\ length ets = count w.
Proof. intros B H. rewrite exposure_time_ok by assumption. do 2 eexists. split; [reflexivity|]. rewrite map_length, seq_length. reflexivity. Qed.

Lemma exposure_nth roi (w : walk T) ets stay q : binary roi -> walk_on (nrow roi) (ncol roi) w -> exposure_time w roi = Ok (ets, stay) ->
  (q < count w)%nat -> nth q ets nnan = et_acc roi (path w q) (last_ix (path w q)).
Proof. intros B H E Hq. rewrite exposure_time_ok in E by assumption. injection E as <- _. apply (nth_map_seq (fun q => et_acc roi (path w q) (last_ix (path w q)))). exact Hq. Qed.

Lemma exposure_stay roi (w : walk T) ets stay q : binary roi -> walk_on (nrow roi) (ncol roi) w -> exposure_time w roi = Ok (ets, stay) ->
  (In q stay <-> exists k, q = Z.of_nat k /\ (k < count w)%nat /\ (1 < length (r_x (path w k)))%nat /\
                 in_region roi (xat (path w k) (last_ix (path w k))) (yat (path w k) (last_ix (path w k)))).
Proof.
  intros B H E. rewrite exposure_time_ok in E by assumption. injection E as _ <-. rewrite in_map_iff. split.
  - intros (k & <- & Hk). apply filter_In in Hk as (Hk & C). apply in_seq in Hk. exists k. unfold ends_inside in C.
    apply andb_true_iff in C as (C1 & C2). apply Nat.ltb_lt in C1. unfold inregion in C2. apply Z.eqb_eq in C2. split; [reflexivity|]. split; [lia|]. split; [exact C1|exact C2].
  - intros (k & -> & Hk & C1 & C2). exists k. split; [reflexivity|]. apply filter_In. split; [apply in_seq; lia|].
    unfold ends_inside. apply andb_true_iff. split; [apply Nat.ltb_lt; exact C1 | apply Z.eqb_eq; exact C2].
Qed.

(** Walk data with the particles of w2 after those of w1. *)
Lemma path_app (w1 w2 : walk T) q : shaped [] w1 -> path (walk_app w1 w2) q = if (q <? count w1)%nat then path w1 q else path w2 (q - count w1).
Proof.
  intros (A & B & _). unfold path, row, walk_app, count in *. cbn [xinds yinds times]. destruct (Nat.ltb_spec q (length (xinds w1))).
  - rewrite !app_nth1 by lia. reflexivity.
  - rewrite !app_nth2 by lia. rewrite A, B. reflexivity.
Qed.
Lemma walk_app_on L W (w1 w2 : walk T) : walk_on L W w1 -> walk_on L W w2 -> walk_on L W (walk_app w1 w2).
Proof.
  intros (S1 & H1) (S2 & H2). split.
  - destruct S1 as (A1 & B1 & _), S2 as (A2 & B2 & _). unfold shaped, walk_app, count in *. cbn [xinds yinds times].
    rewrite !app_length. split; [lia|]. split; [lia | intros v []].
  - intros q Hq. rewrite path_app by exact S1. unfold count, walk_app in Hq. cbn [xinds] in Hq. rewrite app_length in Hq. fold (count w1) (count w2) in Hq.
    destruct (Nat.ltb_spec q (count w1)); [apply H1; assumption | apply H2; lia].
Qed.
Lemma exposure_app roi (w1 w2 : walk T) e1 l1 e2 l2 : binary roi -> walk_on (nrow roi) (ncol roi) w1 -> walk_on (nrow roi) (ncol roi) w2 ->
  exposure_time w1 roi = Ok (e1, l1) -> exposure_time w2 roi = Ok (e2, l2) ->
  exposure_time (walk_app w1 w2) roi = Ok (e1 ++ e2, l1 ++ map (Z.add (Z.of_nat (count w1))) l2).
Proof.
  intros B H1 H2 E1 E2. rewrite exposure_time_ok in * by (try assumption; apply walk_app_on; assumption).
  injection E1 as <- <-. injection E2 as <- <-.
  assert (C : count (walk_app w1 w2) = (count w1 + count w2)%nat) by (unfold count, walk_app; cbn [xinds]; apply app_length).
  rewrite C, seq_app, !map_app, filter_app, map_app. cbn [Nat.add].
  assert (P1 : forall q, In q (seq 0 (count w1)) -> path (walk_app w1 w2) q = path w1 q).
  { intros q Hq. apply in_seq in Hq. rewrite path_app by apply H1. destruct (Nat.ltb_spec q (count w1)); [reflexivity | lia]. }
  assert (SH : seq (count w1) (count w2) = map (Nat.add (count w1)) (seq 0 (count w2))).
  { clear. generalize (count w1) (count w2). intros a b.
    assert (K : forall s, seq (a + s) b = map (Nat.add a) (seq s b)). { induction b; intros s; cbn; [reflexivity|]. f_equal. rewrite <- IHb. f_equal. lia. }
    specialize (K 0%nat). rewrite Nat.add_0_r in K. exact K. }
  assert (P2 : forall q, path (walk_app w1 w2) (count w1 + q) = path w2 q).
  { intros q. rewrite path_app by apply H1. destruct (Nat.ltb_spec (count w1 + q) (count w1)); [lia|]. f_equal. lia. }
  f_equal. f_equal; f_equal.
  - apply map_ext_in. intros q Hq. rewrite P1 by exact Hq. reflexivity.
  - rewrite SH, map_map. apply map_ext_in. intros q _. rewrite P2. reflexivity.
  - f_equal. apply filter_ext_in. intros q Hq. rewrite P1 by exact Hq. reflexivity.
  - rewrite SH. rewrite map_map. clear SH. induction (seq 0 (count w2)) as [|q l IH]; [reflexivity|]. cbn [map filter]. rewrite P2.
    destruct (ends_inside roi (path w2 q)); cbn [map]; rewrite IH; [f_equal; lia | reflexivity].
Qed.
Lemma exposure_same roi (w1 w2 : walk T) e1 l1 e2 l2 q1 q2 : binary roi -> walk_on (nrow roi) (ncol roi) w1 -> walk_on (nrow roi) (ncol roi) w2 ->
  exposure_time w1 roi = Ok (e1, l1) -> exposure_time w2 roi = Ok (e2, l2) -> (q1 < count w1)%nat -> (q2 < count w2)%nat ->
  path w1 q1 = path w2 q2 -> nth q1 e1 nnan = nth q2 e2 nnan.
Proof. intros B H1 H2 E1 E2 L1 L2 E. rewrite (exposure_nth roi w1 e1 l1 q1), (exposure_nth roi w2 e2 l2 q2) by assumption. rewrite E. reflexivity. Qed.

Context {NP : NumPost T}.
Lemma exposure_nn roi (w : walk T) ets stay q : binary roi -> walk_on (nrow roi) (ncol roi) w -> exposure_time w roi = Ok (ets, stay) ->
  (q < count w)%nat -> (forall i, (i < length (r_x (path w q)))%nat -> nisfin (tat (path w q) i) = true) ->
  (forall i, (S i < length (r_x (path w q)))%nat -> nleb (tat (path w q) i) (tat (path w q) (S i)) = true) -> nn (nth q ets nnan).
Proof.
  intros B H E Hq F M. rewrite (exposure_nth roi w ets stay q) by assumption. destruct H as (_ & H). destruct (H q Hq) as ((L0 & _) & _). apply et_acc_nn.
  - intros i Hi. apply F. unfold last_ix in Hi. lia.
  - intros i Hi. apply M. unfold last_ix in Hi. lia.
Qed.
End Generic.

Lemma exposure_exact_api roi (w : walk xq) ets stay q tq : binary roi -> walk_on (nrow roi) (ncol roi) w -> exposure_time w roi = Ok (ets, stay) ->
  (q < count w)%nat -> finite_times (path w q) tq ->
  nth q ets nnan = XFin (occupation_time roi (path w q) tq) /\
  ((forall i, (S i < length (r_x (path w q)))%nat -> (tq i <= tq (S i))%Qc) ->
   (0 <= occupation_time roi (path w q) tq)%Qc /\ (occupation_time roi (path w q) tq <= tq (last_ix (path w q)) - tq 0%nat)%Qc).
Proof.
  intros B H E Hq F. rewrite (exposure_nth roi w ets stay q) by assumption. destruct H as (_ & H). specialize (H q Hq). split.
  - apply exposure_exact; assumption.
  - intros M. apply occupation_bounds; [exact M | apply H].
Qed.
Lemma exposure_complement roi roi' (w : walk xq) ets stay ets' stay' q tq : binary roi -> complement_of roi roi' ->
  walk_on (nrow roi) (ncol roi) w -> exposure_time w roi = Ok (ets, stay) -> exposure_time w roi' = Ok (ets', stay') ->
  (q < count w)%nat -> finite_times (path w q) tq ->
  nadd (nth q ets nnan) (nth q ets' nnan) = XFin (tq (last_ix (path w q)) - tq 0%nat).
Proof.
  intros B C H E E' Hq F.
  assert (B' : binary roi').
  { destruct C as (N1 & N2 & C). intros i j Hi Hj. rewrite N1 in Hi. rewrite N2 in Hj. rewrite C by assumption. destruct (B i j Hi Hj); lia. }
  assert (H' : walk_on (nrow roi') (ncol roi') w) by (destruct C as (-> & -> & _); exact H).
  destruct (exposure_exact_api roi w ets stay q tq B H E Hq F) as (-> & _).
  destruct (exposure_exact_api roi' w ets' stay' q tq B' H' E' Hq F) as (-> & _).
  rewrite xq_add. f_equal. apply occupation_complement; [exact B | exact C | apply H; exact Hq].
Qed.
Lemma exposure_union a b u (w : walk xq) ea la eb lb eu lu q tq : binary a -> binary b -> binary u -> disjoint_union a b u ->
  walk_on (nrow u) (ncol u) w -> exposure_time w a = Ok (ea, la) -> exposure_time w b = Ok (eb, lb) -> exposure_time w u = Ok (eu, lu) ->
  (q < count w)%nat -> finite_times (path w q) tq ->
  nadd (nth q ea nnan) (nth q eb nnan) = nth q eu nnan.
Proof.
  intros Ba Bb Bu D H Ea Eb Eu Hq F.
  assert (Ha : walk_on (nrow a) (ncol a) w) by (destruct D as (-> & -> & _); exact H).
  assert (Hb : walk_on (nrow b) (ncol b) w) by (destruct D as (_ & _ & -> & -> & _); exact H).
  destruct (exposure_exact_api a w ea la q tq Ba Ha Ea Hq F) as (-> & _).
  destruct (exposure_exact_api b w eb lb q tq Bb Hb Eb Hq F) as (-> & _).
  destruct (exposure_exact_api u w eu lu q tq Bu H Eu Hq F) as (-> & _).
  rewrite xq_add. f_equal. apply occupation_union; try assumption. apply H; exact Hq.
Qed.

(** Proofs about repeated target-time runs. *)
From Coq Require Import ZArith Bool String List Lia.
From Verif Require Import Num NumFacts NumMore Py Walker ParticleTrack SpecWeights SpecPick SpecWalk SpecHist SpecInit SpecApi SpecDraw SpecSplit
  ProofStep ProofApi ProofApi2 ProofDrawRun.
Import ListNotations.
Open Scope Z_scope.

Section Proofs.
Context {T : Type} {N : Num T}.
Variables (G : T -> Prop) (lm : Libm T) (P : pobj T).

Definition rect3 (r : prow T) : Prop := (0 < length (r_x r))%nat /\ length (r_t r) = length (r_x r).
Lemma one_step_rect r u v r' : one_step lm P r u v r' -> rect3 r -> rect3 r' /\ (length (r_x r) <= length (r_x r') <= S (length (r_x r)))%nat.
Proof.
  intros [(_ & ->)|(_ & _ & k & _ & _ & _ & _ & ->)] (A & B); [split; [split|]; lia || assumption|].
  unfold rect3. cbn [with_record r_x r_t]. rewrite !app_length. cbn. lia.
Qed.
Lemma journey_rect d target mi m a r b r' : journey lm P d target mi m a r b r' -> rect3 r -> rect3 r' /\ (length (r_x r) <= length (r_x r'))%nat.
Proof.
  induction 1; intros R; try (split; [exact R | lia]). destruct (one_step_rect _ _ _ _ H1 R) as (R1 & _). destruct (IHjourney R1) as (R2 & Q). split; [exact R2 | lia].
Qed.
Lemma next_dt_long m r : rect3 r -> (m = 0%nat \/ last_step_long r) -> (m = 0%nat \/ (1 < length (r_x r))%nat) -> next_dt m r = next_dt 0 r.
Proof.
  intros (A & B) [->|L] M; [reflexivity|]. destruct m as [|m]; [reflexivity|]. destruct M as [M|M]; [discriminate|].
  unfold next_dt. rewrite B. destruct (Nat.ltb_spec 1 (length (r_x r))) as [_|C]; [|lia]. unfold py_max. rewrite (L M). reflexivity.
Qed.
Lemma goes_on_long target m r : rect3 r -> (m = 0%nat \/ last_step_long r) -> (m = 0%nat \/ (1 < length (r_x r))%nat) -> goes_on target m r <-> goes_on target 0 r.
Proof. intros R L M. unfold goes_on. rewrite (next_dt_long m r R L M). reflexivity. Qed.
(** Why a journey ends. *)
Definition at_end (target : T) (mi : Z) (m : nat) (r : prow T) : Prop :=
  ((0 < m)%nat /\ mi <= Z.of_nat m) \/ ~ goes_on target m r \/ (last_x r, last_y r) = (0, 0) \/ edge_nearby P (last_x r) (last_y r) \/ ~ always_moves_on G lm P (last_x r) (last_y r).
Lemma stay_why d a r : unit_stream G d -> one_step lm P r (d a) (d (S a)) r ->
  (last_x r, last_y r) = (0, 0) \/ edge_nearby P (last_x r) (last_y r) \/ ~ always_moves_on G lm P (last_x r) (last_y r).
Proof.
  intros U [(C & _)|(_ & _ & k & _ & _ & _ & _ & E)].
  - destruct C as [C|[C|(k & Hk & Sk & C)]]; [left; exact C | right; left; exact C |]. right; right. intros AM. destruct (U a) as (UD & GU).
    destruct (AM k _ Hk UD GU Sk) as (A & B). destruct C as [C|(C1 & C2)]; [contradiction|]. apply B. rewrite C1, C2. reflexivity.
  - exfalso. assert (L : length (r_x r) = length (r_x r)) by reflexivity. rewrite E in L at 1. cbn [with_record r_x] in L. rewrite app_length in L. cbn in L. lia.
Qed.
Lemma journey_end d target mi m a r b r' : unit_stream G d -> journey lm P d target mi m a r b r' -> rect3 r ->
  at_end target mi (m + new_records r r') r'.
Proof.
  intros U. induction 1; intros R; unfold new_records; rewrite ?Nat.sub_diag, ?Nat.add_0_r.
  - left. auto.
  - right; left. assumption.
  - right; right; left. assumption.
  - right; right; right; left. assumption.
  - right; right. eapply stay_why; eassumption.
  - destruct (one_step_rect _ _ _ _ H1 R) as (R1 & _). destruct (journey_rect _ _ _ _ _ _ _ _ H3 R1) as (_ & LE). specialize (IHjourney R1). unfold new_records in IHjourney.
    replace (m + (length (r_x r2) - length (r_x r)))%nat with (S m + (length (r_x r2) - length (r_x r1)))%nat by lia. exact IHjourney.
Qed.
(** A journey that starts where nothing moves. *)
Lemma journey_still d target mi a r b r' : journey lm P d target mi 0 a r b r' -> ~ goes_on target 0 r \/ (last_x r, last_y r) = (0, 0) \/ edge_nearby P (last_x r) (last_y r) -> r' = r.
Proof.
  intros J C. inversion J; subst; try reflexivity. match goal with H : one_step _ _ _ _ _ _, L : length _ = _ |- _ => destruct (one_step_awake _ _ _ _ _ _ H L) as (A & B) end.
  destruct C as [C|[C|C]]; contradiction.
Qed.
(** Running to the same target again. *)
Lemma journey_again d target mi mi' a r b r1 a' c r2 : unit_stream G d -> journey lm P d target mi 0 a r b r1 -> rect3 r ->
  (new_records r r1 = 0%nat \/ Z.of_nat (new_records r r1) < mi) -> (new_records r r1 = 0%nat \/ last_step_long r1) -> rests_or_moves G lm P (last_x r1) (last_y r1) ->
  journey lm P d target mi' 0 a' r1 c r2 -> r2 = r1.
Proof.
  intros U J R LIM LONG AM J2. destruct (journey_rect _ _ _ _ _ _ _ _ J R) as (R1 & LE). pose proof (journey_end _ _ _ _ _ _ _ _ U J R) as E. rewrite Nat.add_0_l in E.
  apply (journey_still _ _ _ _ _ _ _ J2). destruct E as [(A & B)|[E|[E|[E|E]]]]; [lia | | auto | auto | destruct AM as [AM|[AM|AM]]; [auto | auto | contradiction]].
  left. intros C. apply E. apply (goes_on_long target _ r1 R1 LONG); [|exact C]. destruct R as (R & _). unfold new_records. lia.
Qed.

(** The second part of a journey as a continuation of the first. *)
Lemma goes_on_dec target m r : goes_on target m r \/ ~ goes_on target m r.
Proof. unfold goes_on. destruct (nleb _ _); [left; reflexivity | right; discriminate]. Qed.
Lemma goes_on_S target m m' r : goes_on target (S m) r <-> goes_on target (S m') r.
Proof. reflexivity. Qed.
Lemma journey_shift d target mi k a r b r' : journey lm P d target mi k a r b r' -> rect3 r -> forall m, (0 < k + m)%nat ->
  (k = 0%nat -> (m = 0%nat \/ last_step_long r) /\ (m = 0%nat \/ (1 < length (r_x r))%nat)) ->
  Z.of_nat (k + m + new_records r r') < mi -> exists b', journey lm P d target mi (k + m) a r b' r'.
Proof.
  assert (GO : forall target k m r, rect3 r -> (k = 0%nat -> (m = 0%nat \/ last_step_long r) /\ (m = 0%nat \/ (1 < length (r_x r))%nat)) -> goes_on target (k + m) r <-> goes_on target k r).
  { intros tg k0 m r0 R C. destruct k0 as [|k0]; [|apply (goes_on_S tg (k0 + m) k0)]. cbn [Nat.add]. destruct (C eq_refl) as (C1 & C2). exact (goes_on_long tg m r0 R C1 C2). }
  induction 1 as [k a r A B|k a r A|k a r A|a r A|k a r A B C E F|k a r r1 b r2 A B C L J IH]; intros R m KM LL LT.
  - exfalso. lia.
  - exists a. apply j_time. intros X. apply A, (GO target k m r R LL), X.
  - exists a. apply j_zero, A.
  - destruct (goes_on_dec target (0 + m) r) as [X|X]; [|exists a; apply j_time, X].
    assert (D : {(last_x r, last_y r) = (0, 0)} + {(last_x r, last_y r) <> (0, 0)}) by (decide equality; apply Z.eq_dec).
    destruct D as [D|D]; [exists a; apply j_zero, D|].
    exists (S a). apply j_stay; [right; unfold new_records in LT; lia | exact X | exact D | lia |]. left. split; [|reflexivity]. right; left. exact A.
  - exists (S a). apply j_stay; [right; unfold new_records in LT; lia | apply (GO target k m r R LL), B | exact C | lia | exact F].
  - destruct (one_step_rect _ _ _ _ C R) as (R1 & _). destruct (journey_rect _ _ _ _ _ _ _ _ J R1) as (_ & LE).
    destruct (IH R1 m ltac:(lia) ltac:(lia)) as (b' & J'); [unfold new_records in *; lia|]. exists b'.
    eapply j_move; [right; unfold new_records in LT; lia | apply (GO target k m r R LL), B | exact C | exact L | exact J'].
Qed.
Definition prefix_of (r r' : prow T) : Prop := exists lx lt, r_x r' = r_x r ++ lx /\ r_t r' = r_t r ++ lt.
Lemma prefix_refl r : prefix_of r r.
Proof. exists [], []. rewrite !app_nil_r. auto. Qed.
Lemma prefix_trans a b c : prefix_of a b -> prefix_of b c -> prefix_of a c.
Proof. intros (lx & ly & A & B) (mx & my & C & D). exists (lx ++ mx), (ly ++ my). rewrite C, D, A, B, !app_assoc. auto. Qed.
Lemma one_step_prefix r u v r' : one_step lm P r u v r' -> prefix_of r r'.
Proof. intros [(_ & ->)|(_ & _ & k & _ & _ & _ & _ & ->)]; [apply prefix_refl|]. do 2 eexists. cbn [with_record r_x r_t]. split; reflexivity. Qed.
Lemma journey_prefix d target mi m a r b r' : journey lm P d target mi m a r b r' -> prefix_of r r'.
Proof. induction 1; try apply prefix_refl. eapply prefix_trans; [eapply one_step_prefix; eassumption | assumption]. Qed.

(** First to t1, then to t2, is the same as directly to t2, if whoever goes on towards t1 also goes on towards t2. *)
Lemma journey_split d t1 t2 mi m a r b r1 c r2 : unit_stream G d -> journey lm P d t1 mi m a r b r1 -> rect3 r -> (m = 0%nat \/ (1 < length (r_x r))%nat) ->
  (forall n r', prefix_of r' r1 -> rect3 r' -> goes_on t1 n r' -> goes_on t2 n r') ->
  rests_or_moves G lm P (last_x r1) (last_y r1) -> ((m + new_records r r1 = 0)%nat \/ last_step_long r1) ->
  journey lm P d t2 mi 0 b r1 c r2 -> Z.of_nat (m + new_records r r2) < mi -> exists c', journey lm P d t2 mi m a r c' r2.
Proof.
  intros U J. revert c r2. induction J as [m a r A B|m a r A|m a r A|a r A|m a r A B C E F|m a r r1 b r2 A B C L J IH]; intros c rr R ML MONO AM LONG J2 LT.
  - exfalso. lia.
  - destruct m as [|m]; [exists c; exact J2|]. apply (journey_shift _ _ _ _ _ _ _ _ J2 R (S m)); [lia | | exact LT].
    intros _. unfold new_records in LONG. rewrite Nat.sub_diag, Nat.add_0_r in LONG. split; [exact LONG | exact ML].
  - rewrite (journey_still _ _ _ _ _ _ _ J2 (or_intror (or_introl A))). exists a. apply j_zero, A.
  - exists c. exact J2.
  - assert (X : edge_nearby P (last_x r) (last_y r)) by (destruct (stay_why _ _ _ U F) as [X|[X|X]]; [contradiction | exact X |]; destruct AM as [AM|[AM|AM]]; [contradiction | exact AM | contradiction]).
    rewrite (journey_still _ _ _ _ _ _ _ J2 (or_intror (or_intror X))). exists (S a). apply j_stay; try assumption. apply (MONO m r (prefix_refl r) R B).
  - destruct (one_step_rect _ _ _ _ C R) as (R1 & _). destruct (journey_rect _ _ _ _ _ _ _ _ J R1) as (R2 & LE2).
    destruct (journey_rect _ _ _ _ _ _ _ _ J2 R2) as (R3 & LE3).
    assert (Q : exists c', journey lm P d t2 mi (S m) (a + per_move P) r1 c' rr).
    { apply (IH c rr R1); try assumption.
      - right. destruct R as (R & _). lia.
      - right. destruct LONG as [LONG|LONG]; [unfold new_records in LONG; lia | exact LONG].
      - unfold new_records in *. lia. }
    destruct Q as (c' & J'). exists c'. eapply j_move; [right; unfold new_records in LT; lia | | exact C | exact L | exact J'].
    apply (MONO m r); [|exact R | exact B]. eapply prefix_trans; [eapply one_step_prefix; exact C | eapply journey_prefix; exact J].
Qed.
End Proofs.

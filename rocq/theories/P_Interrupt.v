(** Property C88: what is left of the walk data when run_iteration is stopped in the middle. *)
From Coq Require Import ZArith Bool String List Lia.
From Verif Require Import Num F64 F64Laws Py NumFacts NumMore Walker ParticleTrack SpecWeights SpecPick SpecWalk SpecHist SpecInit SpecApi Interrupt SpecInterrupt
  ProofPick ProofStep ProofRun ProofRunTo ProofHist ProofApi2 ProofInterrupt Examples ExamplesReach P_Local.
Import ListNotations.
Open Scope Z_scope.

Lemma session_data G lm L W (p : params f64) P draws s w : session G lm L W p P draws s -> s_walk s = Some w ->
  field_ok lm P /\ unit_stream G draws /\ winv lm P (w_arr (s_wst s)) /\ vars_ok P /\ s_np s = Z.of_nat (count w) /\ walk_ok P w.
Proof.
  intros SS SW. destruct (session_field _ _ _ _ _ _ _ SS) as (FO & _ & U & R & _). destruct (reached_inv lm P draws s FO U R) as (WI & I). rewrite SW in I. destruct I as (VO & NP & KE & HO).
  split; [exact FO|]. split; [exact U|]. split; [exact WI|]. split; [exact VO|]. split; [exact NP|]. eapply hist_walk_ok; eassumption.
Qed.

(** C88 The full property would be: whatever the point at which run_iteration is stopped, all lists of every particle have the same length.  It is false, see below.
    What holds, for every session, every call of run_iteration and every number k of appends that were made before the call was stopped: the number of particles is
    the same; no list has lost or changed an entry; all particles except one have lists of equal length; the lists of that one differ in length by at most one, the
    longer ones coming first in the order x, y, time, tracked variables.  If the call, left alone, returns the walk data w', then every list is an initial part of the
    one in w', and cutting a particle's lists to the shortest one gives the first n complete records of w'. *)
Theorem C88_interrupted_partial :
  forall G lm L W (p : params f64) P draws s w o k,
    session G lm L W p P draws s -> s_walk s = Some w ->
    let m := interrupted lm P draws o s w k in
    count m = count w /\
    exists i, forall q, (q < count w)%nat ->
      row_prefix (hist P w q) (hist P m q) /\
      exists n, (length (r_x (hist P w q)) <= n)%nat /\ torn_row n (hist P m q) /\ (q <> i -> even_row (hist P m q)) /\
        forall s' w', is_run o -> do_op lm P draws o s = Ok s' -> s_walk s' = Some w' ->
          row_prefix (hist P m q) (hist P w' q) /\ cut_row n (hist P w' q) = cut_row n (hist P m q).
Proof.
  intros G lm L W p P draws s w o k SS SW m. destruct (session_data _ _ _ _ _ _ _ _ _ SS SW) as (FO & U & WI & VO & NP & WO). pose proof WO as (KE & SH & RO).
  destruct (interrupt_core (tvars P) w (call_log lm P draws o s) k (NoDup_tvars P) SH (fun q Hq => proj1 (RO q Hq)) (call_wf lm P draws o s w SW NP SH)) as (CT & i & H).
  split; [exact CT|]. exists i. intros q Hq. destruct (H q Hq) as (A & n & B & C & D & E & F). split; [exact A|]. exists n. split; [exact B|]. split; [exact C|]. split; [exact D|].
  intros s' w' IR DO SW'. destruct (call_refine G lm P draws o s w s' w' FO U WI VO SW NP WO IR DO SW') as (_ & R). unfold hist. rewrite (R q Hq). split; [exact E | exact F].
Qed.
Print Assumptions C88_interrupted_partial.

(** The sequence of appends is the one of the call: if the call returns, its appends all happen, and together they turn the old walk data into the new ones. *)
Theorem C88_all_appends :
  forall G lm L W (p : params f64) P draws s w o s' w',
    session G lm L W p P draws s -> s_walk s = Some w -> is_run o -> do_op lm P draws o s = Ok s' -> s_walk s' = Some w' ->
    snd (call_log lm P draws o s) = Ok tt /\
    forall k q, (length (fst (call_log lm P draws o s)) <= k)%nat -> (q < count w)%nat -> hist P (interrupted lm P draws o s w k) q = hist P w' q.
Proof.
  intros G lm L W p P draws s w o s' w' SS SW IR DO SW'. destruct (session_data _ _ _ _ _ _ _ _ _ SS SW) as (FO & U & WI & VO & NP & WO). pose proof WO as (KE & SH & RO).
  destruct (call_refine G lm P draws o s w s' w' FO U WI VO SW NP WO IR DO SW') as (OK & R). split; [exact OK|]. intros k q Hk Hq. unfold interrupted, hist.
  rewrite firstn_all2 by exact Hk. rewrite (replay_row (tvars P) w _ q SH Hq). symmetry. apply R, Hq.
Qed.
Print Assumptions C88_all_appends.

(** Whenever a call changes the walk data of a particle, stopping it after its first append leaves a particle with one more x index than y indices: the last entries of
    its lists are then the row of the new cell and the column of the old one. *)
Theorem C88_interrupted_refuted :
  forall G lm L W (p : params f64) P draws s w o s' w' q,
    session G lm L W p P draws s -> s_walk s = Some w -> is_run o -> do_op lm P draws o s = Ok s' -> s_walk s' = Some w' ->
    (q < count w)%nat -> hist P w' q <> hist P w q ->
    exists i x, (i < count w)%nat /\ let r := hist P w i in let r1 := hist P (interrupted lm P draws o s w 1) i in
      r_x r1 = r_x r ++ [x] /\ r_y r1 = r_y r /\ length (r_x r1) <> length (r_y r1).
Proof.
  intros G lm L W p P draws s w o s' w' q SS SW IR DO SW' Hq NE. destruct (session_data _ _ _ _ _ _ _ _ _ SS SW) as (FO & U & WI & VO & NP & WO). pose proof WO as (KE & SH & RO).
  destruct (call_refine G lm P draws o s w s' w' FO U WI VO SW NP WO IR DO SW') as (OK & R). pose proof (call_wf lm P draws o s w SW NP SH) as WF. unfold wfl in WF. rewrite OK in WF.
  assert (NN : fst (call_log lm P draws o s) <> []).
  { intros E. apply NE. unfold hist. rewrite (R q Hq), E. apply add_row_nil; reflexivity. }
  destruct (part_first (tvars P) (count w) _ (full_part _ _ _ WF) NN) as (i & x & Hi & E1). exists i, x. split; [exact Hi|]. cbv zeta. unfold interrupted, hist. rewrite E1.
  rewrite (replay_row (tvars P) w [AX i x] i SH Hi). unfold add_row. cbn [r_x r_y xs_of ys_of flat_map]. rewrite Nat.eqb_refl, !app_nil_r. cbn [app].
  split; [reflexivity|]. split; [reflexivity|]. destruct (RO i Hi) as ((_ & B & _) & _). rewrite B, app_length. cbn. lia.
Qed.
Print Assumptions C88_interrupted_refuted.

(** Two particles start at (3,3); both move in the first call. *)
Definition it_check : bool :=
  match lo_run 1 with
  | Ok s => match s_walk s with
            | Some w => match do_op ex_lm ex_P ex_draws OpRun s with
                        | Ok s' => match s_walk s' with
                                   | Some w' => Nat.eqb (count w) 2 && Nat.eqb (length (r_x (hist ex_P w 1))) 1 && Nat.eqb (length (r_x (hist ex_P w' 1))) 2 &&
                                                Nat.eqb (length (fst (call_log ex_lm ex_P ex_draws OpRun s))) 8
                                   | None => false end
                        | Err _ => false end
            | None => false end
  | Err _ => false
  end.
Example C88_example : exists s w s' w',
  session any_draw ex_lm 10 9 ex_params ex_P ex_draws s /\ s_walk s = Some w /\ do_op ex_lm ex_P ex_draws OpRun s = Ok s' /\ s_walk s' = Some w' /\
  count w = 2%nat /\ hist ex_P w' 1 <> hist ex_P w 1 /\ length (fst (call_log ex_lm ex_P ex_draws OpRun s)) = 8%nat.
Proof.
  assert (C : it_check = true) by (vm_compute; reflexivity). unfold it_check in C. destruct (lo_run 1) as [s|] eqn:E; [|discriminate]. destruct (s_walk s) as [w|] eqn:SW; [|discriminate].
  destruct (do_op ex_lm ex_P ex_draws OpRun s) as [s'|] eqn:E'; [|discriminate]. destruct (s_walk s') as [w'|] eqn:SW'; [|discriminate].
  apply andb_true_iff in C as (C & C4). apply andb_true_iff in C as (C & C3). apply andb_true_iff in C as (C1 & C2). apply Nat.eqb_eq in C1, C2, C3, C4.
  exists s, w, s', w'. split.
  { split; [exact ex_standard|]. split; [exact ex_init|]. split; [exact ex_stream_any|]. exists 0%nat, (firstn 1 lo_ops). split; [|exact E].
    constructor; [|constructor]. split; [|exact I]. cbn [seeds_ok]. split; [lia|]. split; [reflexivity|].
    intros x y [H|[]]. injection H as <- <-. right. vm_compute. repeat split; congruence. }
  split; [exact SW|]. split; [exact E'|]. split; [exact SW'|]. split; [exact C1|]. split; [|exact C4]. intros EQ. rewrite EQ in C3. congruence.
Qed.

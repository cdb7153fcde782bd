(** Property C120: run_iteration() on walk data that lack a tracked variable. *)
From Coq Require Import ZArith Bool String List Lia.
From Verif Require Import Num F64 F64Laws Py NumFacts Walker ParticleTrack SpecWeights SpecPick SpecWalk SpecHist SpecInit SpecApi Interrupt SpecInterrupt Heap SpecHeap SpecVars
  ProofInit ProofPick ProofStep ProofRun ProofRunTo ProofHist ProofApi2 ProofInside ProofInterrupt ProofHeap ProofHeap2 ProofHeap3 ProofVars Examples ExamplesReach P_Interrupt P_Heap.
Import ListNotations.
Open Scope Z_scope.

(** C120 The walk data m of a session, of which only some variables are kept, are the walk data of an object.  A step moves the particles as if all variables were there.
    The returned dictionary has all tracked variables; one that was missing starts with None, followed by what this step recorded.  The stored dictionary is still
    without it (and otherwise has the step's records). *)
Theorem C120_missing_variable :
  forall G lm L W (p : params f64) P draws keep h s d m m' s',
    session G lm L W p P draws {| s_np := hs_np s; s_walk := Some m; s_wst := hs_wst s |} ->
    hs_walk s = Some d -> valid h d -> unshared d -> view h d = without keep m ->
    run_step lm P draws {| s_np := hs_np s; s_walk := Some m; s_wst := hs_wst s |} = Ok (m', s') ->
    exists h' d' s1, hrun_step lm P draws s h = (h', Ok (d', s1)) /\ starts_again keep m m' (view h' d') /\
      hs_walk s1 = Some d /\ view h' d = without keep m' /\ valid h' d /\ hs_np s1 = s_np s' /\ hs_wst s1 = s_wst s' /\ s_walk s' = Some m'.
Proof.
  intros G lm L W p P draws keep h s d m m' s' SS SW V U VW H. destruct (session_data _ _ _ _ _ _ _ _ m SS eq_refl) as (FO & US & WI & VO & NP & WO).
  exact (step_missing (GV := G) lm P draws FO US keep h s d m m' s' WI VO NP WO SW V U VW H).
Qed.
Print Assumptions C120_missing_variable.

(** After any number n of steps: the next step returns for a missing variable None and what that step recorded, at most two entries, however long the histories are:
    the values of the n steps before are not in the data. *)
Theorem C120_earlier_values_lost :
  forall G lm L W (p : params f64) P draws keep n h s d m sn mn m' s',
    session G lm L W p P draws {| s_np := hs_np s; s_walk := Some m; s_wst := hs_wst s |} ->
    hs_walk s = Some d -> valid h d -> unshared d -> view h d = without keep m ->
    do_ops lm P draws (repeat OpRun n) {| s_np := hs_np s; s_walk := Some m; s_wst := hs_wst s |} = Ok sn -> s_walk sn = Some mn ->
    run_step lm P draws sn = Ok (m', s') ->
    exists hn tn h' d' s1, hruns lm P draws n s h = (hn, Ok tn) /\ view hn d = without keep mn /\
      hrun_step lm P draws tn hn = (h', Ok (d', s1)) /\ starts_again keep mn m' (view h' d') /\ hs_walk s1 = Some d /\ view h' d = without keep m' /\
      forall v q, In v (tvars P) -> keep v = false -> (q < count m')%nat -> (length (values (view h' d') v q) <= 2)%nat.
Proof.
  intros G lm L W p P draws keep n. induction n as [|n IH]; intros h s d m sn mn m' s' SS SW V U VW RN SN H.
  - cbn [repeat do_ops] in RN. injection RN as <-. cbn [s_walk] in SN. injection SN as <-.
    destruct (C120_missing_variable G lm L W p P draws keep h s d m m' s' SS SW V U VW H) as (h' & d' & s1 & E & SA & S1 & VW' & _).
    exists h, s, h', d', s1. split; [reflexivity|]. split; [exact VW|]. split; [exact E|]. split; [exact SA|]. split; [exact S1|]. split; [exact VW'|].
    intros v q I KV Hq. destruct (session_data _ _ _ _ _ _ _ _ m SS eq_refl) as (FO & US & WI & VO & NP & WO).
    destruct (run_step_spec (GV := G) lm P draws _ m m' s' FO US WI VO eq_refl NP WO H) as (_ & _ & CT & _ & KE' & SH' & RW). rewrite CT in Hq.
    destruct SA as (_ & _ & _ & _ & SA). rewrite (SA v q ltac:(rewrite KE'; exact I) Hq), KV. cbn [length]. rewrite skipn_length.
    assert (EV : forall w : walk f64, values w v q = dflt (dget v (r_o (row (tvars P) w q))) []).
    { intros w. unfold values, row. cbn [r_o]. assert (D : forall ks (f : string -> list (option f64)), In v ks -> dget v (map (fun v => (v, f v)) ks) = Some (f v)).
      { clear. intros ks f. induction ks as [|k ks IHk]; [intros []|]. intros I. cbn [map dget]. destruct (String.eqb v k) eqn:E; [apply String.eqb_eq in E; subst; reflexivity|]. apply IHk. destruct I as [->|I]; [rewrite String.eqb_refl in E; discriminate | exact I]. }
      rewrite (D (tvars P) (fun v => nth q (dflt (dget v (opts w)) []) []) I). reflexivity. }
    assert (LE : (length (values m' v q) <= length (values m v q) + 1)%nat); [|lia].
    destruct (RW q Hq) as [(E1 & _)|(x' & y' & t' & _ & _ & _ & _ & EO)]; [rewrite !EV, E1; lia|]. rewrite !EV, EO. clear. induction (r_o (row (tvars P) m q)) as [|(k & l) o IHo]; [cbn; lia|].
    cbn [map dget fst snd]. destruct (String.eqb v k); [cbn [dflt]; rewrite app_length; cbn [length]; lia | exact IHo].
  - cbn [repeat do_ops] in RN. apply bind_ok in RN as (s1 & D1 & RN). 
    cbn [do_op] in D1. destruct (run_step lm P draws {| s_np := hs_np s; s_walk := Some m; s_wst := hs_wst s |}) as [(m1 & z1)|] eqn:R1; [|discriminate]. injection D1 as ->.
    destruct (C120_missing_variable G lm L W p P draws keep h s d m m1 s1 SS SW V U VW R1) as (h1 & d1 & t1 & E1 & _ & S1 & VW1 & V1 & NP1 & WS1 & SM1).
    assert (ES : s1 = {| s_np := hs_np t1; s_walk := Some m1; s_wst := hs_wst t1 |}) by (destruct s1; cbn in *; congruence).
    assert (SS1 : session G lm L W p P draws s1).
    { destruct SS as (A & B & C & pos & os & F & DO). split; [exact A|]. split; [exact B|]. split; [exact C|]. exists pos, (os ++ [OpRun]). split; [apply Forall_app; split; [exact F | constructor; [split; exact I | constructor]]|].
      rewrite do_ops_app, DO. cbn [bind do_ops do_op]. rewrite R1. reflexivity. }
    rewrite ES in SS1, RN. destruct (IH h1 t1 d m1 sn mn m' s' SS1 S1 V1 U VW1 RN SN H) as (hn & tn & h' & d' & u & EN & REST).
    exists hn, tn, h', d', u. split; [|exact REST]. cbn [hruns]. unfold hbind. rewrite E1. exact EN.
Qed.
Print Assumptions C120_earlier_values_lost.

(** The object 0 of P_Heap, with two particles and tracked variable depth, whose walk data were recorded without depth. *)
Definition vx_d : dict := {| d_x := d_x hx_d; d_y := d_y hx_d; d_t := d_t hx_d; d_o := [] |}.
Definition vx_s : hsim f64 := {| hs_np := hs_np (wo hx_1 0%nat); hs_walk := Some vx_d; hs_wst := hs_wst (wo hx_1 0%nat) |}.
Example C120_example : exists m sn mn m' s', session any_draw ex_lm 10 9 ex_params ex_P ex_draws {| s_np := hs_np vx_s; s_walk := Some m; s_wst := hs_wst vx_s |} /\
  valid (wh hx_1) vx_d /\ unshared vx_d /\ view (wh hx_1) vx_d = without (fun _ => false) m /\ tvars ex_P = ["depth"%string] /\
  do_ops ex_lm ex_P ex_draws (repeat OpRun 1) {| s_np := hs_np vx_s; s_walk := Some m; s_wst := hs_wst vx_s |} = Ok sn /\ s_walk sn = Some mn /\ run_step ex_lm ex_P ex_draws sn = Ok (m', s') /\
  (length (nth 0 (xinds m') []) = 3)%nat /\ (length (values m' "depth"%string 0) = 3)%nat.
Proof.
  destruct hx_sessions as (SEP & SS). destruct (proj1 SEP 0%nat hx_d hx_stored) as (V & U). set (m := view (wh hx_1) hx_d).
  assert (E0 : {| s_np := hs_np vx_s; s_walk := Some m; s_wst := hs_wst vx_s |} = value hx_1 0) by (unfold value; rewrite hx_stored; reflexivity).
  assert (LK : forall q l, lookup vx_d q = Some l -> lookup hx_d q = Some l) by (intros [i|i|i|k i] l H; [exact H | exact H | exact H | discriminate H]).
  assert (C : match do_ops ex_lm ex_P ex_draws (repeat OpRun 1) (value hx_1 0) with
              | Ok sn => match s_walk sn, run_step ex_lm ex_P ex_draws sn with
                         | Some _, Ok (m', _) => Nat.eqb (length (nth 0 (xinds m') [])) 3 && Nat.eqb (length (values m' "depth"%string 0)) 3
                         | _, _ => false end
              | Err _ => false end = true) by (vm_compute; reflexivity).
  rewrite <- E0 in C. destruct (do_ops _ _ _ _ _) as [sn|] eqn:D; [|discriminate]. destruct (s_walk sn) as [mn|] eqn:E1; [|discriminate]. destruct (run_step _ _ _ sn) as [(m' & s')|] eqn:E2; [|discriminate].
  apply andb_true_iff in C as (C1 & C2). apply Nat.eqb_eq in C1, C2.
  exists m, sn, mn, m', s'. split; [rewrite E0; exact (SS 0%nat)|]. split; [split; [constructor | intros q l H; exact (proj2 V q l (LK q l H))]|]. split; [intros q q' l A B; exact (U q q' l (LK _ _ A) (LK _ _ B))|].
  split; [reflexivity|]. split; [vm_compute; reflexivity|]. auto.
Qed.

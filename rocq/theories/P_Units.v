(** Property C111: the unit of vertical distances. *)
From Coq Require Import ZArith Bool String List Lia QArith Qcanon.
From Verif Require Import Num NumFacts XQ XQLaws XQFacts Py Walker ParticleTrack SpecWeights SpecPick SpecWalk SpecHist SpecInit SpecApi SpecLocal SpecSim SpecShift SpecFast SpecUnits SpecRoute SpecDraw
  ProofStep ProofWeights ProofWeightLaws ProofWeightExt ProofApi ProofInit ProofApi2 ProofSim ProofShift ProofFast ProofLocal ProofUnits ProofRoute Examples ExamplesExact ExamplesQ.
Import ListNotations.
Open Scope Z_scope.

Definition hu (k : Qc) (v : string) (a : xq) : xq := if vertical v then times_k k a else a.
Lemma units_walk_eq k w : map_walk (fun t => t) (hval (hu k)) w = units_walk k w.
Proof. unfold map_walk, units_walk, map_vals, hval, hu. f_equal. rewrite <- (map_id (times w)) at 2. apply map_ext. intros l. apply map_id. Qed.
Lemma units_ops_eq k os : map (map_op (fun t => t) (hval (hu k))) os = map (units_op k) os.
Proof. apply map_ext. intros [np xl yl t0 m [w|]| | |]; cbn [map_op units_op option_map]; rewrite ?units_walk_eq; reflexivity. Qed.
Lemma sim_units k s t : sim_by (fun t => t) (hval (hu k)) alike s t -> in_units k s t.
Proof. intros (A & B & C). split; [exact A|]. split; [|apply C]. rewrite B. destruct (s_walk s); cbn [option_map]; rewrite ?units_walk_eq; reflexivity. Qed.
Lemma units_shaped k L W (p : params xq) : shaped_params L W p -> shaped_params L W (with_units k p).
Proof.
  assert (O : forall a : option (arr xq), of_shape L W a -> of_shape L W (option_map (times_arr k) a)).
  { intros [a|] H b E; [|discriminate]. injection E as <-. exact (H a eq_refl). }
  intros (A & B & C1 & C2 & C3 & C4 & C5 & D). split; [exact A|]. split; [exact B|]. split; [apply O, C1|]. split; [apply O, C2|]. split; [apply O, C3|]. split; [apply O, C4|].
  split; [apply O, C5|]. exact D.
Qed.
Lemma units_start k c lm L W p P p' Q q' : (0 < k)%Qc -> (0 < c)%Qc -> standard lm L W p -> power_law lm p k c -> init lm p = Ok (P, p') -> init lm (with_units k p) = Ok (Q, q') -> units_obj k P Q ->
  forall pos, wsim_by alike {| w_arr := make_weight lm P; w_pos := pos |} {| w_arr := make_weight lm Q; w_pos := pos |}.
Proof.
  intros K C ST PL I1 I2 U pos. destruct (standard_field_ok lm L W p P p' ST I1) as ((WF & GA & PW & _) & EL & EW & _).
  destruct (init_wf lm L W _ Q q' (units_shaped k L W p (proj1 ST)) I2) as (WQ & QL & QW).
  split; [reflexivity|]. cbn [w_arr]. change (nrow (make_weight lm P)) with (nrow (o_depth P)). change (ncol (make_weight lm P)) with (ncol (o_depth P)).
  change (nrow (make_weight lm Q)) with (nrow (o_depth Q)). change (ncol (make_weight lm Q)) with (ncol (o_depth Q)). split; [congruence|]. split; [congruence|].
  intros i j Hi Hj. fold (weights_of lm P i j) (weights_of lm Q i j). destruct (on_border (nrow (o_depth P)) (ncol (o_depth P)) i j) eqn:B.
  - rewrite (weight_border lm P i j WF B), (weight_border lm Q i j WQ) by (rewrite QL, QW, <- EL, <- EW; exact B). exists 1%Qc. split; [exact one_pos|]. cbn [repeat map]. rewrite !times_1. reflexivity.
  - apply (units_weights k c lm P Q i j K C WF WQ GA PW U).
    + intros d. destruct (init_ok lm p P p' I1) as (dx & depth & pd & stage & ps & f & _ & _ & _ & _ & _ & _ & _ & _ & _ & _ & _ & _ & _ & _ & -> & _). apply PL.
    + unfold inside, on_border in *. lia.
Qed.
(** C111 Multiplying all vertical distances by k > 0 (say, feet for metres) multiplies the tracked depths, stages and discharges by k and changes nothing else, for every
    program of calls, if the flow is given by velocities: positions, times, number of particles, random numbers used, and the error if there is one. *)
Theorem C111_vertical_unit_partial :
  forall lm L W (p : params xq) k c,
    (0 < k)%Qc -> (0 < c)%Qc -> standard lm L W p -> power_law lm p k c -> p_qx p = None \/ p_qy p = None ->
    match_res (fun a b => forall draws os pos, match_res (in_units k) (do_ops lm (fst a) draws os (init_sim lm (fst a) pos)) (do_ops lm (fst b) draws (map (units_op k) os) (init_sim lm (fst b) pos)))
      (init lm p) (init lm (with_units k p)).
Proof.
  intros lm L W p k c K C ST PL BS. pose proof (units_init k K lm p) as UI. destruct (init lm p) as [(P & p')|e] eqn:I1, (init lm (with_units k p)) as [(Q & q')|e'] eqn:I2; try exact UI.
  cbn [match_res fst] in *. destruct UI as (U & V). destruct (V BS) as (EU & EV & EVL & EVA). intros draws os pos. rewrite <- units_ops_eq. eapply match_impl; [apply sim_units|].
  pose proof (units_start k c lm L W p P p' Q q' K C ST PL I1 I2 U pos) as WS.
  destruct U as ((AD & AS & AQX & AQY & AC) & DR & ERO & EDX & ETH & EGA & EDF & EST & EVR & EDI & EIV & EJV & EIW & EJW & EAN).
  apply (do_ops_sim lm P Q draws (fun t => t) (fun a => a) (fun a => a) (hu k) alike (alike_pick (o_steep P))); try assumption; try reflexivity.
  - intros x y. symmetry. apply near_edge_all, AC.
  - intros m. rewrite EDI, EDX. apply match_refl. reflexivity.
  - intros m ind ni d ps. unfold calc_travel_times. rewrite EVL, EVA, EDF, EAN. apply match_refl. intros (a & b). reflexivity.
  - rewrite ERO. destruct (o_roi P); [reflexivity | exact I].
  - intros v. unfold avail_vars. cbn [dget].
    assert (G : forall a b x y, scaled_arr k a b -> vertical v = true -> match_res (fun c0 d : xq => d = hu k v c0) (np_get a x y) (np_get b x y)).
    { intros a b x y (A1 & A2 & A3) E. unfold np_get. rewrite A1, A2. destruct (norm_ix _ x); [|reflexivity]. destruct (norm_ix _ y); [|reflexivity]. cbn [match_res]. unfold hu. rewrite E. apply A3. }
    assert (G' : forall (a : arr xq) x y, vertical v = false -> match_res (fun c0 d : xq => d = hu k v c0) (np_get a x y) (np_get a x y)) by (intros a x y E; apply match_refl; intros q; unfold hu; rewrite E; reflexivity).
    unfold vertical in *. 
    destruct (String.eqb v "depth") eqn:E1; [intros x y; apply G; [exact AD | reflexivity]|]. destruct (String.eqb v "stage") eqn:E2; [intros x y; apply G; [exact AS | reflexivity]|].
    destruct (String.eqb v "qx") eqn:E3; [intros x y; apply G; [exact AQX | reflexivity]|]. destruct (String.eqb v "qy") eqn:E4; [intros x y; apply G; [exact AQY | reflexivity]|].
    destruct (String.eqb v "u"); [intros x y; rewrite EU; apply G'; reflexivity|]. destruct (String.eqb v "v"); [intros x y; rewrite EV; apply G'; reflexivity|]. exact I.
  - split; [reflexivity|]. split; [reflexivity | exact WS].
Qed.
Print Assumptions C111_vertical_unit_partial.

(** If the flow is given by discharges, the particles still go through the same cells (for every program without target times). *)
Lemma units_routed k c lm L W p P p' Q q' : (0 < k)%Qc -> (0 < c)%Qc -> standard lm L W p -> power_law lm p k c -> init lm p = Ok (P, p') -> init lm (with_units k p) = Ok (Q, q') ->
  routed_alike lm P Q.
Proof.
  intros K C ST PL I1 I2. pose proof (units_init k K lm p) as UI. rewrite I1, I2 in UI. destruct UI as (U & _). cbn [fst] in U.
  destruct (standard_field_ok lm L W p P p' ST I1) as ((WF & GA & PW & _) & EL & EW & _). destruct (init_wf lm L W _ Q q' (units_shaped k L W p (proj1 ST)) I2) as (WQ & QL & QW).
  pose proof U as ((AD & AS & AQX & AQY & AC) & DR & ERO & EDX & ETH & EGA & EDF & EST & EVR & EDI & EIV & EJV & EIW & EJW & EAN).
  split; [split; [congruence|]; split; [congruence|]; destruct AC as (A1 & A2 & A3); split; [exact A1|]; split; [exact A2|]; intros i j _ _; apply A3; exact I|].
  split; [|split; [congruence|]; split; [congruence | rewrite EDF; reflexivity]].
  intros x y u a b IN (v1 & E1) (v2 & E2). rewrite EST in E2.
  assert (PO : forall d, m_pow lm (times_k k d) (o_theta P) = times_k c (m_pow lm d (o_theta P))).
  { intros d. destruct (init_ok lm p P p' I1) as (dx & depth & pd & stage & ps & f & _ & _ & _ & _ & _ & _ & _ & _ & _ & _ & _ & _ & _ & _ & -> & _). apply PL. }
  pose proof (alike_pick (o_steep P) _ _ u (units_weights k c lm P Q x y K C WF WQ GA PW U PO IN)) as H. rewrite E1, E2 in H. destruct H as (H & _). symmetry. exact H.
Qed.
Theorem C111_same_paths_partial :
  forall G lm L W (p : params xq) k c P Q draws pos os s t,
    (0 < k)%Qc -> (0 < c)%Qc -> standard lm L W p -> standard lm L W (with_units k p) -> power_law lm p k c ->
    (exists a, init lm p = Ok (P, a)) -> (exists a, init lm (with_units k p) = Ok (Q, a)) -> unit_stream G draws ->
    Forall (fun o => no_target o /\ op_ok G lm P o /\ op_ok G lm Q o) os ->
    do_ops lm P draws os (init_sim lm P pos) = Ok s -> do_ops lm Q draws os (init_sim lm Q pos) = Ok t -> same_places s t.
Proof.
  intros G lm L W p k c P Q draws pos os s t K C S1 S2 PL (a & I1) (b & I2) U F D1 D2.
  assert (F1 : Forall no_target os) by (eapply Forall_impl; [|exact F]; intros o (A & _); exact A).
  assert (F2 : Forall (op_ok G lm P) os) by (eapply Forall_impl; [|exact F]; intros o (_ & A & _); exact A).
  assert (F3 : Forall (op_ok G lm Q) os) by (eapply Forall_impl; [|exact F]; intros o (_ & _ & A); exact A).
  eapply (ops_same lm L W p (with_units k p) P Q draws (units_routed k c lm L W p P a Q b K C S1 PL I1 I2) os F1 F2 F3); [| | |exact D1|exact D2].
  - split; [exact S1|]. split; [eauto|]. split; [exact U|]. exists pos, []. split; [constructor | reflexivity].
  - split; [exact S2|]. split; [eauto|]. split; [exact U|]. exists pos, []. split; [constructor | reflexivity].
  - split; [reflexivity | exact I].
Qed.
Print Assumptions C111_same_paths_partial.

(** The times depend on the unit if the flow is given by discharges, because the velocities are computed as q * depth / (depth^2 + 1e-8): here with depths in metres and in kilometres. *)
Definition un_k : Qc := Q2Qc (1 # 1000).
Lemma un_pos : (0 < un_k)%Qc.
Proof. reflexivity. Qed.
(** A rough square root: one Newton step from 1. *)
Definition un_sqrt (x : xq) : xq := nmul (nadd x n1) nhalf.
Definition un_lm : Libm xq := gx_lm un_sqrt.
Definition un_q : params xq := gx_params.
Definition un_u : params xq := with_flow gx_params (Some "DeltaRCM"%string) None None (Some gx_qx) (Some gx_qy).
Lemma un_power p : power_law un_lm p un_k un_k.
Proof. intros d. reflexivity. Qed.
Lemma un_sqrt_ok : sqrt_ok un_lm.
Proof. split; [vm_compute; reflexivity|]. split; [vm_compute; reflexivity|]. intros [|[|]|q] H; [discriminate | discriminate | reflexivity | reflexivity]. Qed.
Lemma un_dry : times_k un_k ntenth = XFin (Q2Qc (1 # 10000)).
Proof. vm_compute. reflexivity. Qed.
Lemma un_standard p : p = un_q \/ p = un_u \/ p = with_units un_k un_q -> standard un_lm 10 9 p.
Proof.
  assert (PW : forall d e : xq, nltb n0 e = true -> nleb d e = false -> nltb d n0 = false).
  { intros d e He H. destruct (nltb d n0) eqn:E; [|reflexivity]. rewrite (leb_trans d n0 e) in H; [discriminate | apply lt_le, E | apply lt_le, He]. }
  intros [-> | [-> | ->]]; (split; [repeat split; try lia; try (intros; discriminate);
    match goal with |- nrow ?a = _ => idtac | |- ncol ?a = _ => idtac end;
    match goal with H : _ = Some ?a |- _ => injection H as <-; reflexivity end|];
    split; [lia|]; split; [lia|]; split; [repeat split|]; split; [intros ct Hc; discriminate|]; split; [intros g Hg; discriminate|];
    split; [intros d; apply PW; vm_compute; reflexivity|]; split; [exact un_sqrt_ok|]; intros dx Hd; injection Hd as <-; vm_compute; reflexivity).
Qed.
Definition un_P (p : params xq) : pobj xq := fst (unerr (gx_none, p) (init un_lm p)).
Definition un_ops : list (op xq) := [OpGen 3 [2; 3] [3; 5] n0 Random None; OpRun; OpRun; OpRun; OpRun].
Definition un_s (p : params xq) : psim xq := unerr (init_sim un_lm (un_P p) 0) (do_ops un_lm (un_P p) eq_draws un_ops (init_sim un_lm (un_P p) 0)).
Definition un_walk (p : params xq) : walk xq := dflt (s_walk (un_s p)) {| xinds := []; yinds := []; times := []; opts := [] |}.
Definition last_time (w : walk xq) (q : nat) : xq := nth (length (nth q (times w) []) - 1) (nth q (times w) []) nnan.
Definition un_ok (p : params xq) : bool := is_ok (init un_lm p) && is_ok (do_ops un_lm (un_P p) eq_draws un_ops (init_sim un_lm (un_P p) 0)) && match s_walk (un_s p) with Some w => (count w =? 3)%nat | None => false end.
Lemma un_check : un_ok un_q && un_ok (with_units un_k un_q) && negb (neqb (last_time (un_walk (with_units un_k un_q)) 1) (last_time (un_walk un_q) 1)) && (5 =? length (nth 1 (xinds (un_walk un_q)) []))%nat = true.
Proof. vm_compute. reflexivity. Qed.
Lemma un_ran p : un_ok p = true -> (exists a, init un_lm p = Ok (un_P p, a)) /\ do_ops un_lm (un_P p) eq_draws un_ops (init_sim un_lm (un_P p) 0) = Ok (un_s p) /\ s_walk (un_s p) = Some (un_walk p) /\ count (un_walk p) = 3%nat.
Proof.
  intros H. unfold un_ok in H. apply andb_true_iff in H as (H & C). apply andb_true_iff in H as (A & B). split; [|split].
  - unfold un_P. destruct (init un_lm p) as [(P & a)|]; [exists a; reflexivity | discriminate].
  - unfold un_s. apply is_ok_unerr, B.
  - unfold un_walk. destruct (s_walk (un_s p)) as [w|]; [|discriminate]. split; [reflexivity | apply Nat.eqb_eq, C].
Qed.
Lemma un_differ p k :
  un_ok p && un_ok (with_units k p) && negb (neqb (last_time (un_walk (with_units k p)) 1) (last_time (un_walk p) 1)) = true ->
  exists P Q a b draws os s t w v,
    init un_lm p = Ok (P, a) /\ init un_lm (with_units k p) = Ok (Q, b) /\
    do_ops un_lm P draws os (init_sim un_lm P 0) = Ok s /\ do_ops un_lm Q draws os (init_sim un_lm Q 0) = Ok t /\ s_walk s = Some w /\ s_walk t = Some v /\
    neqb (last_time v 1) (last_time w 1) = false.
Proof.
  intros C. apply andb_true_iff in C as (C & D). apply andb_true_iff in C as (A & B). apply negb_true_iff in D.
  destruct (un_ran _ A) as ((a & I1) & D1 & W1 & _). destruct (un_ran _ B) as ((b & I2) & D2 & W2 & _).
  exists (un_P p), (un_P (with_units k p)), a, b, eq_draws, un_ops, (un_s p), (un_s (with_units k p)), (un_walk p), (un_walk (with_units k p)). auto 8.
Qed.
Theorem C111_discharges_refuted :
  exists lm (p : params xq) k P Q a b draws os s t w v,
    (0 < k)%Qc /\ standard lm 10 9 p /\ power_law lm p k k /\ init lm p = Ok (P, a) /\ init lm (with_units k p) = Ok (Q, b) /\
    do_ops lm P draws os (init_sim lm P 0) = Ok s /\ do_ops lm Q draws os (init_sim lm Q 0) = Ok t /\ s_walk s = Some w /\ s_walk t = Some v /\
    neqb (last_time v 1) (last_time w 1) = false.
Proof.
  pose proof un_check as C. apply andb_true_iff in C as (C & _). destruct (un_differ un_q un_k C) as (P & Q & a & b & draws & os & s & t & w & v & H).
  exists un_lm, un_q, un_k, P, Q, a, b, draws, os, s, t, w, v. split; [exact un_pos|]. split; [apply un_standard; auto|]. split; [apply un_power|]. exact H.
Qed.
Print Assumptions C111_discharges_refuted.
(** The hypotheses hold: flow given by velocities, depths in metres and in kilometres, ... *)
Example C111_example : standard un_lm 10 9 un_u /\ power_law un_lm un_u un_k un_k /\ p_qx un_u = None /\
  match init un_lm un_u, init un_lm (with_units un_k un_u) with
  | Ok (P, _), Ok (Q, _) => match do_ops un_lm P eq_draws eq_ops (init_sim un_lm P 0), do_ops un_lm Q eq_draws eq_ops (init_sim un_lm Q 0) with
                            | Ok s, Ok t => match s_walk s, s_walk t with
                                            | Some w, Some v => xinds v = xinds w /\ count w = 3%nat /\ neqb (last_time v 1) (last_time w 1) = true | _, _ => False end
                            | _, _ => False end
  | _, _ => False end.
Proof.
  split; [apply un_standard; auto|]. split; [apply un_power|]. split; [reflexivity|].
  pose proof (C111_vertical_unit_partial un_lm 10 9 un_u un_k un_k un_pos un_pos (un_standard un_u (or_intror (or_introl eq_refl))) (un_power un_u) (or_introl eq_refl)) as H.
  assert (C : match init un_lm un_u with Ok (P, _) => match do_ops un_lm P eq_draws eq_ops (init_sim un_lm P 0) with
     Ok s => match s_walk s with Some w => (count w =? 3)%nat && nisfin (last_time w 1) | None => false end | Err _ => false end | Err _ => false end = true) by (vm_compute; reflexivity).
  destruct (init un_lm un_u) as [(P & a)|]; [|discriminate]. destruct (init un_lm (with_units un_k un_u)) as [(Q & b)|]; [|contradiction]. cbn [match_res fst] in H. specialize (H eq_draws eq_ops 0%nat).
  change (map (units_op un_k) eq_ops) with eq_ops in H. destruct (do_ops un_lm P _ _ _) as [s|]; [|discriminate]. destruct (do_ops un_lm Q _ _ _) as [t|]; [|contradiction].
  destruct H as (_ & H & _). destruct (s_walk s) as [w|]; [|discriminate]. rewrite H. cbn [option_map]. apply andb_true_iff in C as (C1 & C2). split; [reflexivity|]. split; [apply Nat.eqb_eq, C1|].
  change (last_time (units_walk un_k w) 1) with (last_time w 1). destruct (last_time w 1) as [|b0|q]; try discriminate. rewrite eqb_def, leb_refl; [reflexivity | reflexivity].
Qed.
(** ... and by discharges. *)
Lemma un_paths p k : (0 < k)%Qc -> standard un_lm 10 9 p -> standard un_lm 10 9 (with_units k p) -> power_law un_lm p k k -> un_ok p = true -> un_ok (with_units k p) = true ->
  Forall (fun o => no_target o /\ op_ok (fun _ => True) un_lm (un_P p) o /\ op_ok (fun _ => True) un_lm (un_P (with_units k p)) o) un_ops /\
  same_places (un_s p) (un_s (with_units k p)).
Proof.
  intros K S1 S2 PL A B. destruct (un_ran _ A) as (I1 & D1 & _). destruct (un_ran _ B) as (I2 & D2 & _).
  assert (OP : forall p, standard un_lm 10 9 p -> (exists a, init un_lm p = Ok (un_P p, a)) -> Forall (op_ok (fun _ => True) un_lm (un_P p)) un_ops).
  { clear. intros p ST (a & E). destruct (standard_field_ok un_lm 10 9 p (un_P p) a ST E) as (_ & EL & EW & _).
    constructor; [split; [|exact I]|repeat (constructor; [split; exact I|]); constructor]. split; [lia|]. intros x y; cbn [In]; intros. right. rewrite EL, EW. lia. }
  assert (F : Forall (fun o => no_target o /\ op_ok (fun _ => True) un_lm (un_P p) o /\ op_ok (fun _ => True) un_lm (un_P (with_units k p)) o) un_ops).
  { pose proof (OP _ S1 I1) as F1. pose proof (OP _ S2 I2) as F2. rewrite Forall_forall in *. intros o Ho. split; [|split; auto]. cbn [un_ops In] in Ho. repeat (destruct Ho as [<-|Ho]; [exact I|]). contradiction. }
  split; [exact F|]. exact (C111_same_paths_partial (fun _ => True) un_lm 10 9 p k k _ _ eq_draws 0%nat un_ops _ _ K K S1 S2 PL I1 I2 eq_stream F D1 D2).
Qed.
Example C111_paths_example : standard un_lm 10 9 un_q /\ standard un_lm 10 9 (with_units un_k un_q) /\ power_law un_lm un_q un_k un_k /\ unit_stream (fun _ => True) eq_draws /\
  Forall (fun o => no_target o /\ op_ok (fun _ => True) un_lm (un_P un_q) o /\ op_ok (fun _ => True) un_lm (un_P (with_units un_k un_q)) o) un_ops /\
  same_places (un_s un_q) (un_s (with_units un_k un_q)).
Proof.
  pose proof un_check as C. apply andb_true_iff in C as (C & _). apply andb_true_iff in C as (C & _). apply andb_true_iff in C as (A & B).
  assert (S1 : standard un_lm 10 9 un_q) by (apply un_standard; auto). assert (S2 : standard un_lm 10 9 (with_units un_k un_q)) by (apply un_standard; auto).
  split; [exact S1|]. split; [exact S2|]. split; [apply un_power|]. split; [exact eq_stream|]. exact (un_paths un_q un_k un_pos S1 S2 (un_power _) A B).
Qed.

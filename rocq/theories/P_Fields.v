(** Property C22, second part: which variables the walk data hold, and which grid each of them is read from. *)
From Coq Require Import ZArith Bool String List Lia.
From Verif Require Import Num F64 F64Laws Py NumFacts Walker ParticleTrack SpecWeights SpecPick SpecWalk SpecHist SpecInit SpecMotion SpecApi
  ProofInit ProofPick ProofStep ProofRun ProofHist ProofApi2 ProofVars Examples ExamplesReach P_Interrupt.
Import ListNotations.
Open Scope Z_scope.

(** C22 The variables in the walk data, beside the three that are always there, are those the user asked for (particle_variables) and 'roi_flag' if there is a region
    of interest; each is one of the seven documented ones.  Record i of particle q holds, under the name of a variable, the value which the grid of that name has at
    the cell of record i: 1 or 0 for 'roi_flag', according to whether the cell is in the region that was given. *)
Theorem C22_named_grids :
  forall G lm L W (p : params f64) P draws s w, session G lm L W p P draws s -> s_walk s = Some w ->
    (forall v, (exists l, dget v (opts w) = Some l) <->
       v <> "xinds"%string /\ v <> "yinds"%string /\ v <> "travel_times"%string /\ (In v (dflt (p_vars p) []) \/ v = "roi_flag"%string /\ p_roi p <> None)) /\
    (forall v l, dget v (opts w) = Some l -> In v ["depth"; "stage"; "qx"; "qy"; "u"; "v"; "roi_flag"]%string) /\
    forall v l q i, dget v (opts w) = Some l -> (q < length (xinds w))%nat -> (i < length (nth q (xinds w) []))%nat ->
      let x := nth i (nth q (xinds w) []) 0 in let y := nth i (nth q (yinds w) []) 0 in let value := nth i (nth q l []) None in
      (v = "depth"%string -> value = Some (cell (o_depth P) x y)) /\ (v = "stage"%string -> value = Some (cell (o_stage P) x y)) /\
      (v = "qx"%string -> value = Some (cell (o_qx P) x y)) /\ (v = "qy"%string -> value = Some (cell (o_qy P) x y)) /\
      (v = "u"%string -> value = Some (cell (o_u P) x y)) /\ (v = "v"%string -> value = Some (cell (o_v P) x y)) /\
      (v = "roi_flag"%string -> exists roi, p_roi p = Some roi /\ (cell roi x y = 1 -> value = Some n1) /\ (cell roi x y <> 1 -> value = Some n0)).
Proof.
  intros G lm L W p P draws s w SS SW. destruct (session_data _ _ _ _ _ _ _ _ w SS SW) as (_ & _ & _ & VO & _ & (KE & _)).
  pose proof SS as (_ & (p' & IN) & _). destruct (init_ok lm p P p' IN) as (dx & dp & pd & st & ps & f & Q). repeat (destruct Q as (_ & Q)). 
  assert (OR : o_roi P = p_roi p /\ o_vars P = init_vars p).
  { destruct (init_ok lm p P p' IN) as (? & ? & ? & ? & ? & ? & Q'). decompose [and] Q'. split; assumption. }
  clear Q. destruct OR as (OR & OV).
  assert (KI : forall v l, dget v (opts w) = Some l -> In v (tvars P)) by (intros v l D; rewrite <- KE; apply dget_in_keys; congruence).
  split; [|split].
  - intros v. assert (E : (exists l, dget v (opts w) = Some l) <-> In v (tvars P)).
    { rewrite <- KE, dget_in_keys. split; [intros (l & ->); discriminate | intros H; destruct (dget v (opts w)) as [l|]; [exists l; reflexivity | congruence]]. }
    rewrite E, tvars_in, OV. unfold init_vars. cbn [str_in base_vars existsb].
    assert (B : str_in v base_vars = false <-> v <> "xinds"%string /\ v <> "yinds"%string /\ v <> "travel_times"%string).
    { unfold str_in, base_vars. cbn [existsb]. rewrite !orb_false_iff, !String.eqb_neq. tauto. }
    rewrite B. clear. destruct (p_roi p) as [roi|].
    + destruct (str_in "roi_flag" (dflt (p_vars p) [])) eqn:S.
      * assert (In "roi_flag"%string (dflt (p_vars p) [])) by (unfold str_in in S; apply existsb_exists in S as (u & I & Eq); apply String.eqb_eq in Eq; subst u; exact I).
        split; [tauto|]. intros (A & C & D & [I|(-> & _)]); tauto.
      * rewrite in_app_iff. cbn [In]. split; [intros ([I|[<-|[]]] & R); [tauto|]; repeat split; try apply R; right; split; [reflexivity | discriminate]|].
        intros (A & C & D & [I|(-> & _)]); tauto.
    + split; [tauto|]. intros (A & C & D & [I|(_ & N)]); [tauto | congruence].
  - intros v l D. specialize (VO v (KI v l D)). destruct VO as [(_ & ->)|(g & H)]; [cbn; tauto|]. unfold avail_vars in H. cbn [dget] in H.
    repeat (match type of H with context [String.eqb v ?k] => let E := fresh "E" in destruct (String.eqb v k) eqn:E; [apply String.eqb_eq in E; subst v; cbn; tauto|] end). discriminate.
  - intros v l q i D Hq Hi x y value. pose proof (session_vars (G := G) lm L W p P draws s w q v l i SS SW Hq (KI v l D) D Hi) as E. fold x y value in E. clearbody x y value.
    pose proof (VO v (KI v l D)) as LG. rewrite E. unfold field_value. rewrite OR.
    repeat (split; [intros ->; destruct (p_roi p); reflexivity|]). intros ->. destruct LG as [(N & _)|(g & H)]; [|destruct (avail_not_roi P g H)]. rewrite OR in N.
    destruct (p_roi p) as [roi|]; [|congruence]. exists roi. split; [reflexivity|]. cbn [String.eqb]. destruct (cell roi x y =? 1) eqn:C; [apply Z.eqb_eq in C | apply Z.eqb_neq in C].
    + split; [intros _; reflexivity | intros; contradiction].
    + split; [intros; contradiction | intros _; reflexivity].
Qed.
Print Assumptions C22_named_grids.

(** The example set-up with a region of interest (rows 5 and beyond) and two variables. *)
Definition fx_roi : arr Z := Arr 10 9 (fun i j => if 5 <=? i then 1 else 0).
Definition fx_params : params f64 :=
  {| p_dx := Some (nofZ 10); p_depth := Some gx_depth; p_stage := Some gx_stage; p_topo := None;
     p_model := Some "DeltaRCM"%string; p_qx := Some gx_qx; p_qy := Some gx_qy; p_u := None; p_v := None;
     p_theta := Some n1; p_gamma := None; p_diff := None; p_dry := None; p_ct := None; p_steep := None;
     p_dist := None; p_ivec := None; p_jvec := None; p_iwalk := None; p_jwalk := None; p_angles := None;
     p_roi := Some fx_roi; p_vars := Some ["qx"; "stage"]%string |}.
Definition fx_P : pobj f64 := fst (unerr (gx_none, fx_params) (init ex_lm fx_params)).
Definition fx_ops : list (op f64) := [OpGen 2 [4] [3] n0 Random None; OpRun; OpRun].
Definition fx_s : psim f64 := unerr (init_sim ex_lm fx_P 0) (do_ops ex_lm fx_P ex_draws fx_ops (init_sim ex_lm fx_P 0)).
Lemma fx_init : exists p', init ex_lm fx_params = Ok (fx_P, p').
Proof.
  exists (snd (unerr (gx_none, fx_params) (init ex_lm fx_params))). unfold fx_P. rewrite <- surjective_pairing.
  apply is_ok_unerr. vm_compute. reflexivity.
Qed.
Lemma fx_standard : standard ex_lm 10 9 fx_params.
Proof.
  split. { repeat split; try lia; try (intros; discriminate);
    match goal with |- nrow ?a = _ => idtac | |- ncol ?a = _ => idtac end;
    match goal with H : _ = Some ?a |- _ => injection H as <-; reflexivity end. }
  split; [lia|]. split; [lia|]. split; [repeat split|]. split; [intros ct Hc; discriminate|]. split; [intros g Hg; discriminate|].
  split; [exact ex_pow_ok|]. split; [exact ex_sqrt_ok|]. intros dx Hd. injection Hd as <-. vm_compute. reflexivity.
Qed.
(** Particle 0 enters the region: its flags are 0 and then 1. *)
Definition fx_check (d : psim f64) (r : res (psim f64)) : bool :=
  is_ok r && match s_walk (unerr d r) with
  | Some w => match opts w with
      | [(a, _); (b, _); (c, fl)] => String.eqb a "qx" && String.eqb b "stage" && String.eqb c "roi_flag" &&
          match nth 0 fl [] with
          | [Some f0; Some f1; Some f2] => neqb f0 n0 && neqb f1 n1 && neqb f2 n1
          | _ => false end
      | _ => false end
  | None => false end.
Lemma fx_check_ok d r : fx_check d r = true -> r = Ok (unerr d r) /\
  exists w q st fl f0 f1 f2, s_walk (unerr d r) = Some w /\ opts w = [("qx", q); ("stage", st); ("roi_flag", fl)]%string /\ nth 0 fl [] = [Some f0; Some f1; Some f2] /\
    neqb f0 n0 = true /\ neqb f1 n1 = true /\ neqb f2 n1 = true.
Proof.
  unfold fx_check. intros C. apply andb_true_iff in C as (C1 & C). split; [apply is_ok_unerr, C1|].
  destruct (s_walk (unerr d r)) as [w|]; [|discriminate]. destruct (opts w) as [|(a & q) [|(b & st) [|(c & fl) [|? ?]]]] eqn:EO; try discriminate.
  apply andb_true_iff in C as (C & D). apply andb_true_iff in C as (C & C4). apply andb_true_iff in C as (C2 & C3).
  apply String.eqb_eq in C2, C3, C4. subst a b c. destruct (nth 0 fl []) as [|[f0|] [|[f1|] [|[f2|] [|? ?]]]] eqn:EN; try discriminate.
  apply andb_true_iff in D as (D & D3). apply andb_true_iff in D as (D1 & D2).
  exists w, q, st, fl, f0, f1, f2. split; [reflexivity|]. split; [exact EO|]. split; [exact EN|]. split; [exact D1|]. split; [exact D2 | exact D3].
Qed.
Lemma fx_checked : fx_check (init_sim ex_lm fx_P 0) (do_ops ex_lm fx_P ex_draws fx_ops (init_sim ex_lm fx_P 0)) = true.
Proof. vm_compute. reflexivity. Qed.
Lemma fx_valid : Forall (op_ok any_draw ex_lm fx_P) fx_ops.
Proof.
  assert (SP : forall x y, 1 <= x < 10 -> 1 <= y < 9 -> safe_pos fx_P x y).
  { intros x y Hx Hy. right. change (nrow (o_depth fx_P)) with 10. change (ncol (o_depth fx_P)) with 9. lia. }
  assert (O1 : forall np xl yl t, 0 <= np -> (forall x y, In x xl -> In y yl -> safe_pos fx_P x y) -> op_ok any_draw ex_lm fx_P (OpGen np xl yl t Random None)).
  { intros. split; [split; assumption | exact I]. }
  constructor; [apply O1; [lia | intros x y; cbn [In]; intros; apply SP; lia]|].
  constructor; [split; exact I|]. constructor; [split; exact I|]. constructor.
Qed.
Example C22_named_example : session any_draw ex_lm 10 9 fx_params fx_P ex_draws fx_s /\
  exists w q st fl f0 f1 f2, s_walk fx_s = Some w /\ opts w = [("qx", q); ("stage", st); ("roi_flag", fl)]%string /\ nth 0 fl [] = [Some f0; Some f1; Some f2] /\
    neqb f0 n0 = true /\ neqb f1 n1 = true /\ neqb f2 n1 = true.
Proof.
  destruct (fx_check_ok _ _ fx_checked) as (A & B). split; [|exact B].
  split; [exact fx_standard|]. split; [exact fx_init|]. split; [exact ex_stream_any|]. exists 0%nat, fx_ops. split; [exact fx_valid | exact A].
Qed.

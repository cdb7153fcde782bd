(** C117 A larger gamma shifts the choice of a direction from the flow to the slope (exact arithmetic). *)
From Coq Require Import ZArith Bool String List QArith Qcanon Lia Lqa.
From Verif Require Import Num NumFacts NumMore XQ XQLaws XQFacts Py Walker ParticleTrack SpecWeights SpecPick SpecWalk SpecInit SpecPath SpecTheta
  ProofWeights ProofWeightLaws ProofWeightExt ProofInit ProofTheta Examples ExamplesExact ExamplesQ P_Sym.
Import ListNotations.
Open Scope Z_scope.

Lemma init_with_gamma lm (p : params xq) g1 g2 P Q a b : init lm (with_gamma g1 p) = Ok (P, a) -> init lm (with_gamma g2 p) = Ok (Q, b) ->
  (o_depth Q = o_depth P /\ o_stage Q = o_stage P /\ o_qx Q = o_qx P /\ o_qy Q = o_qy P /\ o_ct Q = o_ct P /\ o_dry Q = o_dry P /\ o_theta Q = o_theta P /\
   o_dist Q = o_dist P /\ o_ivec Q = o_ivec P /\ o_jvec Q = o_jvec P) /\ o_gamma P = g1 /\ o_gamma Q = g2.
Proof.
  intros HP HQ. destruct (init_ok _ _ _ _ HP) as (dx & depth & pd & stage & ps & f & DX & D & S1 & F & _ & E). destruct (init_ok _ _ _ _ HQ) as (dx' & depth' & pd' & stage' & ps' & f' & DX' & D' & S1' & F' & _ & E').
  change (init_depth (with_gamma g2 p)) with (init_depth (with_gamma g1 p)) in D'. rewrite D in D'. injection D' as <- <-.
  change (init_stage (with_gamma g2 p) depth pd) with (init_stage (with_gamma g1 p) depth pd) in S1'. rewrite S1 in S1'. injection S1' as <- <-.
  change (init_flow (with_gamma g2 p) depth) with (init_flow (with_gamma g1 p) depth) in F'. rewrite F in F'. injection F' as <-.
  cbn [with_gamma p_theta p_gamma p_dry p_ct p_dist p_ivec p_jvec dflt] in E, E'. decompose [and] E. decompose [and] E'. repeat match goal with |- _ /\ _ => split end; congruence.
Qed.
Lemma same_parts (P Q : pobj xq) i j :
  (o_depth Q = o_depth P /\ o_stage Q = o_stage P /\ o_qx Q = o_qx P /\ o_qy Q = o_qy P /\ o_ct Q = o_ct P /\ o_dry Q = o_dry P /\ o_theta Q = o_theta P /\
   o_dist Q = o_dist P /\ o_ivec Q = o_ivec P /\ o_jvec Q = o_jvec P) ->
  slope Q i j = slope P i j /\ inertia Q i j = inertia P i j /\ (forall k, nb_blocked Q i j k = nb_blocked P i j k).
Proof. intros (A & B & C & D & E & F & G & H & I & J). unfold slope, inertia, nb_blocked. rewrite A, B, C, D, E, F, H, I, J. auto. Qed.

Section Two.
Variables (lm : Libm xq) (P : pobj xq) (i j : Z) (s t : nat -> Qc).
Hypothesis FS : forall k, (k < 9)%nat -> SpecWeights.share (slope P i j) k = XFin (s k).
Hypothesis FI : forall k, (k < 9)%nat -> SpecWeights.share (inertia P i j) k = XFin (t k).
Hypothesis FP : forall k, open_to P i j k -> nisfin (m_pow lm (nb i j (o_depth P) k) (o_theta P)) = true.
Hypothesis PW : pow_ok lm P.
Hypothesis DC : forall k, (k < 9)%nat -> nisnan (nb i j (o_depth P) k) = false.
(** each weight is a factor that does not depend on gamma times the mean of the two shares *)
Lemma factor k : (k < 9)%nat -> exists a, (0 <= a)%Qc /\ (nb_blocked P i j k = true -> a = 0%Qc) /\
  forall Q g, o_depth Q = o_depth P -> o_theta Q = o_theta P -> slope Q i j = slope P i j -> inertia Q i j = inertia P i j -> (forall k, nb_blocked Q i j k = nb_blocked P i j k) -> o_gamma Q = XFin g ->
    base_weight lm Q i j k = XFin (a * (g * s k + (1 - g) * t k))%Qc.
Proof.
  intros Hk. destruct (nb_blocked P i j k) eqn:B.
  - exists 0%Qc. split; [apply Qcle_refl|]. split; [reflexivity|]. intros Q g ED ET ES EI EB EG. unfold base_weight. rewrite EB, B, n0_xq. f_equal. ring.
  - destruct (xfin_ex _ (FP k (conj Hk B))) as (a & A). exists a. split; [|split; [discriminate|]].
    + pose proof B as B2. unfold nb_blocked in B2. apply orb_false_iff in B2 as (B2 & _). pose proof (PW _ B2) as N. rewrite A, n0_xq in N. apply xq_ltb_f, N.
    + intros Q g ED ET ES EI EB EG. unfold base_weight. rewrite EB, B, ED, ET, A, EG, ES, EI, (FS k Hk), (FI k Hk), n1_xq, xq_sub, !xq_mul, xq_add, xq_mul. reflexivity.
Qed.
End Two.

Theorem C117_gamma_favours_slope :
  forall lm L W (p : params xq) g1 g2 P1 P2 a b i j w1 w2,
    standard lm L W (with_gamma g1 p) -> standard lm L W (with_gamma g2 p) -> nleb g1 g2 = true ->
    init lm (with_gamma g1 p) = Ok (P1, a) -> init lm (with_gamma g2 p) = Ok (P2, b) ->
    1 <= i < L - 1 -> 1 <= j < W - 1 -> finite9 (slope P1 i j) -> finite9 (inertia P1 i j) ->
    (forall k, open_to P1 i j k -> nisfin (m_pow lm (nb i j (o_depth P1) k) (o_theta P1)) = true) ->
    (* the cell is a dead end for neither value *)
    ~ dead_end lm P1 i j -> ~ dead_end lm P2 i j ->
    weighs lm P1 (i, j) w1 -> weighs lm P2 (i, j) w2 ->
    (* the shares of the slope and of the flow are the same for both values *)
    (forall k, SpecWeights.share (slope P2 i j) k = SpecWeights.share (slope P1 i j) k /\ SpecWeights.share (inertia P2 i j) k = SpecWeights.share (inertia P1 i j) k) /\
    (* the odds of a direction that owes more to the slope do not fall *)
    (forall k m, (k < 9)%nat -> (m < 9)%nat -> leans_to_slope P1 i j k m -> (nth k w1 0 * nth m w2 0 <= nth k w2 0 * nth m w1 0)%Qc) /\
    (* so the chance of the direction that owes most to the slope does not fall, and the chance of the one that owes least does not rise *)
    (forall k, (k < 9)%nat -> (forall m, open_to P1 i j m -> leans_to_slope P1 i j k m) -> (SpecPath.share w1 k <= SpecPath.share w2 k)%Qc) /\
    (forall k, (k < 9)%nat -> (forall m, open_to P1 i j m -> leans_to_slope P1 i j m k) -> (SpecPath.share w2 k <= SpecPath.share w1 k)%Qc).
Proof.
  intros lm L W p g1 g2 P1 P2 a b i j w1 w2 S1 S2 LE I1 I2 Hi Hj (FS & FST) (FI & FIT) FP D1 D2 W1 W2.
  destruct (standard_field_ok _ _ _ _ _ _ S1 I1) as (F1 & L1 & C1 & DC1). destruct (standard_field_ok _ _ _ _ _ _ S2 I2) as (F2 & L2 & C2 & _).
  destruct F1 as (WF1 & GA1 & PW1 & _). destruct F2 as (WF2 & GA2 & PW2 & _).
  destruct (init_with_gamma _ _ _ _ _ _ _ _ I1 I2) as (SAME & G1 & G2). destruct (same_parts P1 P2 i j SAME) as (ES & EI & EB).
  assert (IN1 : inside P1 i j) by (unfold inside; lia). assert (IN2 : inside P2 i j) by (unfold inside; lia).
  assert (SHF : forall f, (forall k, (k < 9)%nat -> nisfin (f k) = true) -> exists h, forall k, (k < 9)%nat -> SpecWeights.share f k = XFin (h k)).
  { intros f F. destruct (finite_fun f F) as (h & H). assert (exists z, total9 f = XFin z) as (z & T9) by (rewrite (total9_xq f h H); eauto). unfold SpecWeights.share. rewrite T9, n0_xq. destruct (nltb (XFin 0%Qc) (XFin z)) eqn:E.
    - apply xq_ltb in E. exists (fun k => (h k / z)%Qc). intros k Hk. rewrite (H k Hk). apply xq_div, qc_pos_nz, E.
    - exists h. exact H. }
  destruct (SHF _ FS) as (s & HS). destruct (SHF _ FI) as (t & HT).
  destruct GA1 as (GA1 & GB1). destruct GA2 as (GA2 & GB2). rewrite G1 in GA1, GB1. rewrite G2 in GA2, GB2. rewrite n0_xq in GA1, GA2. rewrite n1_xq in GB1, GB2.
  destruct g1 as [|[|]|h1]; try discriminate. destruct g2 as [|[|]|h2]; try discriminate. apply xq_leb in LE.
  assert (LIVE : forall P, (forall k, nltb (base_weight lm P i j k) n0 = false) -> ~ dead_end lm P i j -> forall k, spec_weight lm P i j k = base_weight lm P i j k).
  { intros P NN D k. unfold spec_weight. destruct (nleb (total9 (base_weight lm P i j)) n0) eqn:E; [|reflexivity]. exfalso. apply D. exact (proj1 (dead_iff _ NN) E). }
  assert (EV : forall k, (k < 9)%nat -> exists c, (0 <= c)%Qc /\ (nb_blocked P1 i j k = true -> c = 0%Qc) /\ nth k w1 0%Qc = (c * (h1 * s k + (1 - h1) * t k))%Qc /\ nth k w2 0%Qc = (c * (h2 * s k + (1 - h2) * t k))%Qc).
  { intros k Hk. destruct (factor lm P1 i j s t HS HT FP PW1 k Hk) as (c & C & CB & FC). exists c. split; [exact C|]. split; [exact CB|].
    destruct (weighs_nth lm P1 i j w1 k WF1 IN1 W1 Hk) as (_ & E1). destruct (weighs_nth lm P2 i j w2 k WF2 IN2 W2 Hk) as (_ & E2).
    rewrite (LIVE P1) in E1; [|intros; apply base_notneg; [split; rewrite G1, ?n0_xq, ?n1_xq; assumption | exact PW1] | exact D1].
    rewrite (LIVE P2) in E2; [|intros; apply base_notneg; [split; rewrite G2, ?n0_xq, ?n1_xq; assumption | exact PW2] | exact D2].
    rewrite (FC P1 h1) in E1 by auto. destruct SAME as (A1 & _ & _ & _ & _ & _ & A7 & _). rewrite (FC P2 h2) in E2 by auto. unfold nanz in E1, E2. cbn [nisnan XQnum xisnan] in E1, E2. injection E1 as <-. injection E2 as <-. auto. }
  assert (OD : forall k m, (k < 9)%nat -> (m < 9)%nat -> (nb_blocked P1 i j k = false -> nb_blocked P1 i j m = false -> leans_to_slope P1 i j k m) -> (nth k w1 0 * nth m w2 0 <= nth k w2 0 * nth m w1 0)%Qc).
  { intros k m Hk Hm LN. destruct (EV k Hk) as (c & C & CB & X1 & X2). destruct (EV m Hm) as (d & D & DB & Y1 & Y2). rewrite X1, X2, Y1, Y2.
    destruct (nb_blocked P1 i j k) eqn:BK; [rewrite (CB eq_refl); unfold Qcle; rewrite !this_mul; change (this 0%Qc) with 0%Q; lra|].
    destruct (nb_blocked P1 i j m) eqn:BM; [rewrite (DB eq_refl); unfold Qcle; rewrite !this_mul; change (this 0%Qc) with 0%Q; lra|].
    specialize (LN eq_refl eq_refl). unfold leans_to_slope in LN. rewrite (HS k Hk), (HS m Hm), (HT k Hk), (HT m Hm), !xq_mul in LN. apply xq_leb in LN.
    apply Qcle_minus_iff. replace (c * (h2 * s k + (1 - h2) * t k) * (d * (h1 * s m + (1 - h1) * t m)) + - (c * (h1 * s k + (1 - h1) * t k) * (d * (h2 * s m + (1 - h2) * t m))))%Qc
      with (c * d * ((h2 + - h1) * (s k * t m + - (s m * t k))))%Qc by ring.
    apply Qcle_minus_iff in LE, LN. set (u := (h2 + - h1)%Qc) in *. set (v := (s k * t m + - (s m * t k))%Qc) in *. clearbody u v. unfold Qcle in *. rewrite !this_mul. change (this 0%Qc) with 0%Q in *. apply Qmult_le_0_compat; apply Qmult_le_0_compat; assumption. }
  destruct (weighs_nth lm P1 i j w1 0 WF1 IN1 W1 ltac:(lia)) as (LW1 & _). destruct (weighs_nth lm P2 i j w2 0 WF2 IN2 W2 ltac:(lia)) as (LW2 & _).
  destruct W1 as (_ & _ & PS1). destruct W2 as (_ & _ & PS2).
  split; [rewrite ES, EI; auto|]. split; [|split].
  - intros k m Hk Hm LN. apply OD; auto.
  - intros k Hk DE. unfold SpecPath.share. apply share_le; [exact PS1 | exact PS2|]. apply sum_le; [congruence|]. intros m Hm. apply OD; [exact Hk | lia|]. intros _ Bm. apply DE. split; [lia | exact Bm].
  - intros k Hk DE. unfold SpecPath.share. apply share_le; [exact PS2 | exact PS1|]. apply sum_le; [congruence|]. intros m Hm. rewrite (Qcmult_comm (nth k w2 0%Qc)), (Qcmult_comm (nth k w1 0%Qc)). apply OD; [lia | exact Hk|]. intros Bm _. apply DE. split; [lia | exact Bm].
Qed.
Print Assumptions C117_gamma_favours_slope.

(** The example field with gamma = 1/4 and gamma = 3/4: the chance of one of the directions at cell (3,3) rises. *)
Definition ga_g (n : Z) : xq := ndiv (nofZ n) (nofZ 4).
Definition ga_P (g : xq) : pobj xq := fst (unerr (gx_none, gx_params) (init eq_lm (with_gamma g gx_params))).
Definition ga_w (g : xq) : list Qc := map finite_part (weights_of eq_lm (ga_P g) 3 3).
Definition ga_k : nat := 5%nat.
Lemma ga_standard g : nleb n0 g = true -> nleb g n1 = true -> standard eq_lm 10 9 (with_gamma g gx_params).
Proof.
  intros A B. destruct eq_standard as (S1 & S2 & S3 & S4 & S5 & S6 & S7 & S8 & S9). split; [exact S1|]. split; [exact S2|]. split; [exact S3|]. split; [exact S4|]. split; [exact S5|].
  split; [intros g' Hg; injection Hg as <-; auto|]. split; [exact S7|]. split; [exact S8 | exact S9].
Qed.
Lemma ga_weighs g : forallb (fun q => Qcleb 0%Qc q) (ga_w g) = true -> nltb (XFin 0%Qc) (XFin (Qcsum (ga_w g))) = true -> forallb (fun x => nisfin x) (weights_of eq_lm (ga_P g) 3 3) = true -> weighs eq_lm (ga_P g) (3, 3) (ga_w g).
Proof.
  intros A B C. split; [|split].
  - unfold ga_w. cbn [fst snd]. rewrite map_map. apply map_ext_in. intros x Hx. rewrite forallb_forall in C. destruct (xfin_ex _ (C x Hx)) as (q & ->). reflexivity.
  - apply Forall_forall. intros x Hx. rewrite forallb_forall in A. apply xq_leb. exact (A x Hx).
  - apply xq_ltb, B.
Qed.
Lemma ga_init g : is_ok (init eq_lm (with_gamma g gx_params)) = true -> exists a, init eq_lm (with_gamma g gx_params) = Ok (ga_P g, a).
Proof. intros H. exists (snd (unerr (gx_none, gx_params) (init eq_lm (with_gamma g gx_params)))). unfold ga_P. rewrite <- surjective_pairing. apply is_ok_unerr, H. Qed.
Example C117_example : exists a b, let P1 := ga_P (ga_g 1) in let P2 := ga_P (ga_g 3) in
  standard eq_lm 10 9 (with_gamma (ga_g 1) gx_params) /\ standard eq_lm 10 9 (with_gamma (ga_g 3) gx_params) /\ nleb (ga_g 1) (ga_g 3) = true /\
  init eq_lm (with_gamma (ga_g 1) gx_params) = Ok (P1, a) /\ init eq_lm (with_gamma (ga_g 3) gx_params) = Ok (P2, b) /\
  finite9 (slope P1 3 3) /\ finite9 (inertia P1 3 3) /\ (forall k, open_to P1 3 3 k -> nisfin (m_pow eq_lm (nb 3 3 (o_depth P1) k) (o_theta P1)) = true) /\
  ~ dead_end eq_lm P1 3 3 /\ ~ dead_end eq_lm P2 3 3 /\ weighs eq_lm P1 (3, 3) (ga_w (ga_g 1)) /\ weighs eq_lm P2 (3, 3) (ga_w (ga_g 3)) /\
  (forall m, open_to P1 3 3 m -> leans_to_slope P1 3 3 ga_k m) /\ (SpecPath.share (ga_w (ga_g 1)) ga_k < SpecPath.share (ga_w (ga_g 3)) ga_k)%Qc.
Proof.
  destruct (ga_init (ga_g 1)) as (a & A); [vm_compute; reflexivity|]. destruct (ga_init (ga_g 3)) as (b & B); [vm_compute; reflexivity|]. exists a, b. cbv zeta.
  split; [apply ga_standard; vm_compute; reflexivity|]. split; [apply ga_standard; vm_compute; reflexivity|]. split; [vm_compute; reflexivity|]. split; [exact A|]. split; [exact B|].
  split; [split; [apply (forall9 (fun k => nisfin (slope (ga_P (ga_g 1)) 3 3 k)))|]; vm_compute; reflexivity|].
  split; [split; [apply (forall9 (fun k => nisfin (inertia (ga_P (ga_g 1)) 3 3 k)))|]; vm_compute; reflexivity|].
  split; [intros k (Hk & _); apply (forall9 (fun k => nisfin (m_pow eq_lm (nb 3 3 (o_depth (ga_P (ga_g 1))) k) (o_theta (ga_P (ga_g 1)))))); [vm_compute; reflexivity | exact Hk]|].
  split; [intros D; specialize (D 7%nat ltac:(lia)); vm_compute in D; discriminate|]. split; [intros D; specialize (D 7%nat ltac:(lia)); vm_compute in D; discriminate|].
  split; [apply ga_weighs; vm_compute; reflexivity|]. split; [apply ga_weighs; vm_compute; reflexivity|]. split.
  - intros m (Hm & _). apply (forall9 (fun m => nleb (nmul (SpecWeights.share (slope (ga_P (ga_g 1)) 3 3) m) (SpecWeights.share (inertia (ga_P (ga_g 1)) 3 3) ga_k))
      (nmul (SpecWeights.share (slope (ga_P (ga_g 1)) 3 3) ga_k) (SpecWeights.share (inertia (ga_P (ga_g 1)) 3 3) m)))); [vm_compute; reflexivity | exact Hm].
  - apply xq_ltb. vm_compute. reflexivity.
Qed.

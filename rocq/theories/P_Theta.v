(** C116 A larger theta makes deeper cells more likely (exact arithmetic). *)
From Coq Require Import ZArith Bool String List QArith Qcanon Lia Lqa.
From Verif Require Import Num NumFacts NumMore XQ XQLaws XQFacts Py Walker ParticleTrack SpecWeights SpecPick SpecWalk SpecInit SpecPath SpecTheta
  ProofWeights ProofWeightLaws ProofInit ProofTheta Examples ExamplesExact ExamplesQ P_Sym.
Import ListNotations.
Open Scope Z_scope.

Theorem C116_theta_favours_depth :
  forall lm L W (p : params xq) t1 t2 P1 P2 a b i j w1 w2,
    standard lm L W (with_theta t1 p) -> standard lm L W (with_theta t2 p) -> larger_exponent lm t1 t2 -> nleb n0 (dflt (p_dry p) ntenth) = true ->
    init lm (with_theta t1 p) = Ok (P1, a) -> init lm (with_theta t2 p) = Ok (P2, b) ->
    1 <= i < L - 1 -> 1 <= j < W - 1 -> (forall k, (k < 9)%nat -> nisfin (nb i j (o_depth P1) k) = true) ->
    weighs lm P1 (i, j) w1 -> weighs lm P2 (i, j) w2 ->
    (* the cells a particle may move to, and their depths, are the same *)
    (forall k, nb_blocked P2 i j k = nb_blocked P1 i j k) /\ o_depth P2 = o_depth P1 /\
    (* the odds of a deeper cell against a shallower one do not fall *)
    (forall k m, open_to P1 i j k -> open_to P1 i j m -> nleb (nb i j (o_depth P1) m) (nb i j (o_depth P1) k) = true ->
       (nth k w1 0 * nth m w2 0 <= nth k w2 0 * nth m w1 0)%Qc) /\
    (* so the chance of a deepest cell does not fall, and the chance of a shallowest one does not rise *)
    (forall k, open_to P1 i j k -> deepest_open P1 i j k -> (SpecPath.share w1 k <= SpecPath.share w2 k)%Qc) /\
    (forall k, open_to P1 i j k -> shallowest_open P1 i j k -> (SpecPath.share w2 k <= SpecPath.share w1 k)%Qc).
Proof.
  intros lm L W p t1 t2 P1 P2 a b i j w1 w2 S1 S2 LAW DRY I1 I2 Hi Hj FIN W1 W2.
  destruct (standard_field_ok _ _ _ _ _ _ S1 I1) as (F1 & L1 & C1 & _). destruct (standard_field_ok _ _ _ _ _ _ S2 I2) as (F2 & L2 & C2 & _).
  destruct F1 as (WF1 & GA1 & PW1 & _). destruct F2 as (WF2 & GA2 & PW2 & _).
  destruct (init_with_theta _ _ _ _ _ _ _ _ I1 I2) as (SAME & T1 & T2 & DR). rewrite <- DR in DRY. rewrite <- T1, <- T2 in LAW.
  assert (IN1 : inside P1 i j) by (unfold inside; lia). assert (IN2 : inside P2 i j) by (unfold inside; lia).
  pose proof (odds lm P1 P2 i j SAME LAW DRY FIN (fun k => base_notneg lm P1 i j k GA1 PW1) (fun k => base_notneg lm P2 i j k GA2 PW2) (fun k => nth k w1 0%Qc) (fun k => nth k w2 0%Qc)
    (fun k Hk => proj2 (weighs_nth lm P1 i j w1 k WF1 IN1 W1 Hk)) (fun k Hk => proj2 (weighs_nth lm P2 i j w2 k WF2 IN2 W2 Hk))) as OD. cbv beta in OD.
  destruct (weighs_nth lm P1 i j w1 0 WF1 IN1 W1 ltac:(lia)) as (LW1 & _). destruct (weighs_nth lm P2 i j w2 0 WF2 IN2 W2 ltac:(lia)) as (LW2 & _).
  destruct W1 as (_ & _ & PS1). destruct W2 as (_ & _ & PS2).
  split; [exact (blocked_same P1 P2 i j SAME)|]. split; [exact (proj1 SAME)|]. split; [|split].
  - intros k m (Hk & Bk) (Hm & Bm) LE. apply OD; auto.
  - intros k (Hk & Bk) DE. unfold SpecPath.share. apply share_le; [exact PS1 | exact PS2|]. apply sum_le; [congruence|]. intros m Hm. apply OD; [exact Hk | lia|]. intros _ Bm. apply DE. split; [lia | exact Bm].
  - intros k (Hk & Bk) DE. unfold SpecPath.share. apply share_le; [exact PS2 | exact PS1|]. apply sum_le; [congruence|]. intros m Hm. rewrite (Qcmult_comm (nth k w2 0%Qc)), (Qcmult_comm (nth k w1 0%Qc)). apply OD; [lia | exact Hk|]. intros Bm _. apply DE. split; [lia | exact Bm].
Qed.
Print Assumptions C116_theta_favours_depth.

(** The example field with theta = 1 and theta = 2: next to cell (3,3) direction 6 (south-west) is the deepest, and its chance rises. *)
Definition th_lm : Libm xq := {| m_sqrt := m_sqrt eq_lm; m_cos := m_cos eq_lm; m_atan2 := m_atan2 eq_lm; m_pow := fun d t => if neqb t n1 then d else nmul d d |}.
Definition th_P (t : xq) : pobj xq := fst (unerr (gx_none, gx_params) (init th_lm (with_theta t gx_params))).
Definition th_w (t : xq) : list Qc := map finite_part (weights_of th_lm (th_P t) 3 3).
Lemma th_power : larger_exponent th_lm n1 (nofZ 2).
Proof.
  intros d e D DE. exists d, (d * d)%Qc, e, (e * e)%Qc. split; [reflexivity|]. split; [reflexivity|]. split; [reflexivity|]. split; [reflexivity|].
  unfold Qclt, Qcle in *. rewrite !this_mul. change (this 0%Qc) with 0%Q in *. assert (H : (0 <= this d * this e * (this e - this d))%Q) by (apply Qmult_le_0_compat; [nra | lra]). repeat split; nra.
Qed.
Lemma th_standard t : t = n1 \/ t = nofZ 2 -> standard th_lm 10 9 (with_theta t gx_params).
Proof.
  intros TT. split. { repeat split; try lia; try (intros; discriminate);
    match goal with |- nrow ?a = _ => idtac | |- ncol ?a = _ => idtac end;
    match goal with H : _ = Some ?a |- _ => injection H as <-; reflexivity end. }
  split; [lia|]. split; [lia|]. split; [repeat split|]. split; [intros ct Hc; discriminate|]. split; [intros g Hg; discriminate|].
  split.
  { intros d H. assert (E : nltb d n0 = false).
    { destruct (nltb d n0) eqn:E; [|reflexivity]. assert (C : nleb d (dflt (p_dry (gx_params : params xq)) ntenth) = true) by (apply (leb_trans d n0); [apply lt_le, E | apply lt_le, tenth_ok]). cbn [with_theta p_dry] in H. congruence. }
    destruct TT as [-> | ->]; [exact E|]. change (nltb (nmul d d) n0 = false). destruct d as [|[|]|q]; try reflexivity. rewrite xq_mul, n0_xq in *. apply xq_ltb_f. unfold Qcle. rewrite this_mul. change (this 0%Qc) with 0%Q. nra. }
  split; [split; [vm_compute; reflexivity | split; [vm_compute; reflexivity | intros x _; reflexivity]]|].
  intros dx Hd. injection Hd as <-. vm_compute. reflexivity.
Qed.
Lemma th_weighs t : forallb (fun q => Qcleb 0%Qc q) (th_w t) = true -> nltb (XFin 0%Qc) (XFin (Qcsum (th_w t))) = true -> forallb (fun x => nisfin x) (weights_of th_lm (th_P t) 3 3) = true -> weighs th_lm (th_P t) (3, 3) (th_w t).
Proof.
  intros A B C. split; [|split].
  - unfold th_w. cbn [fst snd]. rewrite map_map. apply map_ext_in. intros x Hx. rewrite forallb_forall in C. destruct (xfin_ex _ (C x Hx)) as (q & ->). reflexivity.
  - apply Forall_forall. intros x Hx. rewrite forallb_forall in A. apply xq_leb. exact (A x Hx).
  - apply xq_ltb, B.
Qed.
Lemma th_init t : is_ok (init th_lm (with_theta t gx_params)) = true -> exists a, init th_lm (with_theta t gx_params) = Ok (th_P t, a).
Proof. intros H. exists (snd (unerr (gx_none, gx_params) (init th_lm (with_theta t gx_params)))). unfold th_P. rewrite <- surjective_pairing. apply is_ok_unerr, H. Qed.
Example C116_example : exists a b, let P1 := th_P n1 in let P2 := th_P (nofZ 2) in
  standard th_lm 10 9 (with_theta n1 gx_params) /\ standard th_lm 10 9 (with_theta (nofZ 2) gx_params) /\ larger_exponent th_lm n1 (nofZ 2) /\
  init th_lm (with_theta n1 gx_params) = Ok (P1, a) /\ init th_lm (with_theta (nofZ 2) gx_params) = Ok (P2, b) /\
  (forall k, (k < 9)%nat -> nisfin (nb 3 3 (o_depth P1) k) = true) /\ weighs th_lm P1 (3, 3) (th_w n1) /\ weighs th_lm P2 (3, 3) (th_w (nofZ 2)) /\
  open_to P1 3 3 6 /\ deepest_open P1 3 3 6 /\ (SpecPath.share (th_w n1) 6 < SpecPath.share (th_w (nofZ 2)) 6)%Qc.
Proof.
  destruct (th_init n1) as (a & A); [vm_compute; reflexivity|]. destruct (th_init (nofZ 2)) as (b & B); [vm_compute; reflexivity|]. exists a, b. cbv zeta.
  split; [apply th_standard; auto|]. split; [apply th_standard; auto|]. split; [exact th_power|]. split; [exact A|]. split; [exact B|].
  split; [apply (forall9 (fun k => nisfin (nb 3 3 (o_depth (th_P n1)) k))); vm_compute; reflexivity|].
  split; [apply th_weighs; vm_compute; reflexivity|]. split; [apply th_weighs; vm_compute; reflexivity|].
  split; [split; [lia | vm_compute; reflexivity]|]. split.
  - intros m (Hm & _). apply (forall9 (fun m => nleb (nb 3 3 (o_depth (th_P n1)) m) (nb 3 3 (o_depth (th_P n1)) 6))); [vm_compute; reflexivity | exact Hm].
  - apply xq_ltb. vm_compute. reflexivity.
Qed.

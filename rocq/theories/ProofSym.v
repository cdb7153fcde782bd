(** Lemmas for C95: routing weights of a mirrored field (exact arithmetic). *)
From Coq Require Import ZArith Bool String List Lia Permutation QArith Qcanon.
From Verif Require Import Num NumFacts XQ XQLaws XQFacts Py Walker ParticleTrack SpecWeights SpecInit SpecSym
  ProofWeightLaws ProofWeightExt ProofApi ProofInit.
Import ListNotations.
Open Scope Z_scope.

(** ** Sums and maxima do not depend on the order *)
Lemma nn_cases (x : xq) : nn x -> (exists q, x = XFin q /\ (0 <= q)%Qc) \/ x = XInf false.
Proof.
  unfold nn. destruct x as [|[|]|q]; intros H; try discriminate; [right; reflexivity|]. left. exists q. split; [reflexivity|]. apply xq_leb. exact H.
Qed.
Lemma xadd_comm (x y : xq) : nadd x y = nadd y x.
Proof. destruct x as [|[|]|a], y as [|[|]|b]; try reflexivity. cbn. apply f_equal. ring. Qed.
Lemma xadd_assoc_nn (x y z : xq) : nn x -> nn y -> nn z -> nadd x (nadd y z) = nadd (nadd x y) z.
Proof.
  intros X Y Z. destruct (nn_cases x X) as [(a & -> & _)| ->], (nn_cases y Y) as [(b & -> & _)| ->], (nn_cases z Z) as [(c & -> & _)| ->]; try reflexivity.
  cbn. apply f_equal. ring.
Qed.
Lemma xadd_0_r (x : xq) : nadd x n0 = x.
Proof. destruct x as [|[|]|a]; try reflexivity. cbn. apply f_equal. change (Qcofz 0) with 0%Qc. ring. Qed.
Definition xsum (l : list xq) : xq := fold_right nadd n0 l.
Lemma xsum_nn l : Forall nn l -> nn (xsum l).
Proof. induction 1; [exact nn_n0|]. cbn [xsum fold_right]. apply nn_add; assumption. Qed.
Lemma xsum_perm l l' : Permutation l l' -> Forall nn l -> xsum l = xsum l'.
Proof.
  induction 1; intros F.
  - reflexivity.
  - inversion F; subst. cbn [xsum fold_right]. f_equal. apply IHPermutation. assumption.
  - inversion F as [|? ? A F']; subst. inversion F' as [|? ? B F'']; subst. pose proof (xsum_nn _ F'') as C.
    cbn [xsum fold_right]. fold (xsum l). rewrite !xadd_assoc_nn by assumption. f_equal. apply xadd_comm.
  - rewrite IHPermutation1 by assumption. apply IHPermutation2. eapply Permutation_Forall; eassumption.
Qed.
Lemma nansum9_xsum l : length l = 9%nat -> Forall (fun x => nltb x n0 = false) l -> nansum9 l = xsum (map nanz l).
Proof.
  intros H F. assert (F' : Forall nn (map nanz l)).
  { apply Forall_forall. intros x Hx. apply in_map_iff in Hx as (y & <- & Hy). apply nanz_nn. rewrite Forall_forall in F. apply F, Hy. }
  unfold nansum9. destruct l as [|a0 [|a1 [|a2 [|a3 [|a4 [|a5 [|a6 [|a7 [|a8 [|]]]]]]]]]]; try discriminate H.
  cbn [map] in *. repeat match goal with H : Forall _ (_ :: _) |- _ => inversion H; subst; clear H end.
  cbn [xsum fold_right]. rewrite xadd_0_r.
  generalize dependent (nanz a0); generalize dependent (nanz a1); generalize dependent (nanz a2); generalize dependent (nanz a3); generalize dependent (nanz a4);
    generalize dependent (nanz a5); generalize dependent (nanz a6); generalize dependent (nanz a7); generalize dependent (nanz a8). intros.
  repeat rewrite xadd_assoc_nn by (repeat apply nn_add; assumption). reflexivity.
Qed.
Lemma nansum9_perm (l l' : list xq) : length l = 9%nat -> Forall (fun x => nltb x n0 = false) l -> Permutation l l' -> nansum9 l = nansum9 l'.
Proof.
  intros H F Q. assert (H' : length l' = 9%nat) by (rewrite <- (Permutation_length Q); exact H).
  assert (F' : Forall (fun x => nltb x n0 = false) l') by (eapply Permutation_Forall; eassumption).
  rewrite (nansum9_xsum l H F), (nansum9_xsum l' H' F').
  apply xsum_perm; [apply Permutation_map, Q|]. apply Forall_forall. intros x Hx. apply in_map_iff in Hx as (y & <- & Hy). apply nanz_nn. rewrite Forall_forall in F. apply F, Hy.
Qed.
Lemma xleb_antisym (x y : xq) : nleb x y = true -> nleb y x = true -> x = y.
Proof.
  destruct x as [|[|]|a], y as [|[|]|b]; intros A B; try discriminate; try reflexivity. f_equal. apply Qcle_antisym; apply xq_leb; assumption.
Qed.
Lemma np_max_perm (l l' : list xq) : l <> [] -> Forall (fun y => nisnan y = false) l -> Permutation l l' -> np_max l = np_max l'.
Proof.
  intros Hl F Q. assert (Hl' : l' <> []) by (intros ->; apply Permutation_sym, Permutation_nil in Q; auto).
  assert (F' : Forall (fun y => nisnan y = false) l') by (eapply Permutation_Forall; eassumption).
  destruct (np_max_spec l Hl F) as (A & B). destruct (np_max_spec l' Hl' F') as (A' & B'). rewrite Forall_forall in B, B'.
  apply xleb_antisym; [apply B', (Permutation_in _ Q A) | apply B, (Permutation_in _ (Permutation_sym Q) A')].
Qed.

(** ** Turned directions *)
Lemma turned_lt s k : (k < 9)%nat -> (turned s k < 9)%nat.
Proof. intros H. destruct s; do 9 (destruct k as [|k]; [cbn; lia|]); lia. Qed.
Lemma turned_perm s : Permutation (map (turned s) (seq 0 9)) (seq 0 9).
Proof.
  apply NoDup_Permutation_bis; [ | rewrite map_length; apply le_n |].
  - destruct s; cbn; repeat constructor; cbn; intuition discriminate.
  - intros x Hx. apply in_map_iff in Hx as (k & <- & Hk). apply in_seq in Hk. apply in_seq. pose proof (turned_lt s k). lia.
Qed.
Lemma turned_map {A} s (f g : nat -> A) : (forall k, (k < 9)%nat -> g (turned s k) = f k) -> Permutation (map f (seq 0 9)) (map g (seq 0 9)).
Proof.
  intros H. replace (map f (seq 0 9)) with (map g (map (turned s) (seq 0 9))); [apply Permutation_map, turned_perm|].
  rewrite map_map. apply map_ext_in. intros k Hk. apply in_seq in Hk. apply H. lia.
Qed.
Lemma total9_turned s (f g : nat -> xq) : (forall k, nltb (f k) n0 = false) -> (forall k, (k < 9)%nat -> g (turned s k) = f k) -> total9 g = total9 f.
Proof.
  intros F H. unfold total9. symmetry. apply nansum9_perm; [reflexivity | | apply (turned_map s), H].
  apply Forall_forall. intros x Hx. apply in_map_iff in Hx as (k & <- & _). apply F.
Qed.
Lemma share_turned s (f g : nat -> xq) k : (forall k, nltb (f k) n0 = false) -> (forall k, (k < 9)%nat -> g (turned s k) = f k) -> (k < 9)%nat ->
  share g (turned s k) = share f k.
Proof. intros F H K. unfold share. rewrite (total9_turned s f g F H), H by exact K. reflexivity. Qed.

(** ** One cell and its image *)
Section OneCell.
Variables (s : symmetry) (lm : Libm xq) (P P2 : pobj xq) (i j i2 j2 : Z).
Hypothesis DEPTH : forall k, (k < 9)%nat -> nb i2 j2 (o_depth P2) (turned s k) = nb i j (o_depth P) k.
Hypothesis STAGE : forall k, (k < 9)%nat -> nb i2 j2 (o_stage P2) (turned s k) = nb i j (o_stage P) k.
Hypothesis CT : forall k, (k < 9)%nat -> nb i2 j2 (o_ct P2) (turned s k) = nb i j (o_ct P) k.
Hypothesis HERE : cell (o_stage P2) i2 j2 = cell (o_stage P) i j.
Hypothesis DIST : forall k, (k < 9)%nat -> nth (turned s k) (o_dist P2) n0 = nth k (o_dist P) n0.
Hypothesis FLOW : forall k, (k < 9)%nat ->
  nadd (nmul (cell (o_qx P2) i2 j2) (nth (turned s k) (o_jvec P2) n0)) (nmul (cell (o_qy P2) i2 j2) (nth (turned s k) (o_ivec P2) n0)) =
  nadd (nmul (cell (o_qx P) i j) (nth k (o_jvec P) n0)) (nmul (cell (o_qy P) i j) (nth k (o_ivec P) n0)).
Hypothesis DRY : o_dry P2 = o_dry P.
Hypothesis THETA : o_theta P2 = o_theta P.
Hypothesis GAMMA : o_gamma P2 = o_gamma P.
Hypothesis GOK : gamma_ok P.
Hypothesis POK : pow_ok lm P.
Hypothesis CLEAN : forall k, (k < 9)%nat -> nisnan (nb i j (o_depth P) k) = false.

Lemma blocked_turned k : (k < 9)%nat -> nb_blocked P2 i2 j2 (turned s k) = nb_blocked P i j k.
Proof. intros K. unfold nb_blocked. rewrite DEPTH, CT, DRY by exact K. reflexivity. Qed.
Lemma slope_turned k : (k < 9)%nat -> slope P2 i2 j2 (turned s k) = slope P i j k.
Proof. intros K. unfold slope. rewrite blocked_turned, STAGE, HERE, DIST by exact K. reflexivity. Qed.
Lemma inertia_turned k : (k < 9)%nat -> inertia P2 i2 j2 (turned s k) = inertia P i j k.
Proof. intros K. unfold inertia. rewrite blocked_turned, FLOW, DIST by exact K. reflexivity. Qed.
Lemma base_turned k : (k < 9)%nat -> base_weight lm P2 i2 j2 (turned s k) = base_weight lm P i j k.
Proof.
  intros K. unfold base_weight. rewrite blocked_turned, DEPTH, THETA, GAMMA by exact K.
  rewrite (share_turned s (slope P i j) (slope P2 i2 j2) k (slope_notneg P i j) slope_turned K).
  rewrite (share_turned s (inertia P i j) (inertia P2 i2 j2) k (inertia_notneg P i j) inertia_turned K). reflexivity.
Qed.
Lemma spec_turned k : (k < 9)%nat -> spec_weight lm P2 i2 j2 (turned s k) = spec_weight lm P i j k.
Proof.
  intros K. unfold spec_weight. rewrite (total9_turned s (base_weight lm P i j)) by (exact base_turned || (intros; apply base_notneg; assumption)).
  rewrite base_turned, DEPTH by exact K.
  replace (deepest P2 i2 j2) with (deepest P i j); [reflexivity|]. unfold deepest. apply np_max_perm; [discriminate | | apply (turned_map s), DEPTH].
  apply Forall_forall. intros x Hx. apply in_map_iff in Hx as (m & <- & Hm). apply in_seq in Hm. apply CLEAN. lia.
Qed.
End OneCell.

(** ** The constructor on the image of a parameter set *)
Definition rows (s : symmetry) (L W : Z) : Z := match s with Diagonal => W | _ => L end.
Definition cols (s : symmetry) (L W : Z) : Z := match s with Diagonal => L | _ => W end.
Definition at_ {A} (a : arr A) (c : Z * Z) : A := cell a (fst c) (snd c).
Definition look {A} (s : symmetry) (L W : Z) (a a2 : arr A) : Prop :=
  (nrow a = L /\ ncol a = W) /\ (nrow a2 = rows s L W /\ ncol a2 = cols s L W) /\
  forall i j, 0 <= i < L -> 0 <= j < W -> at_ a2 (moved s L W (i, j)) = cell a i j.

Lemma image_cell {A} s L W (a : arr A) i j : nrow a = L -> ncol a = W -> at_ (image s a) (moved s L W (i, j)) = cell a i j.
Proof.
  intros <- <-. destruct s; unfold at_; cbn [image moved cell fst snd]; [| |reflexivity].
  - f_equal. lia.
  - f_equal. lia.
Qed.
Lemma image_look {A} s L W (a : arr A) : nrow a = L -> ncol a = W -> look s L W a (image s a).
Proof.
  intros HL HW. split; [auto|]. split; [destruct s; cbn; auto|]. intros. apply image_cell; assumption.
Qed.
Lemma amap_look {A B} s L W (f : A -> B) a a2 : look s L W a a2 -> look s L W (amap f a) (amap f a2).
Proof. intros (D & D2 & C). split; [exact D|]. split; [exact D2|]. intros i j Hi Hj. unfold at_ in *. cbn [amap cell]. rewrite C by assumption. reflexivity. Qed.
Lemma amap2_look {A B C} s L W (f : A -> B -> C) a a2 b b2 : look s L W a a2 -> look s L W b b2 -> look s L W (amap2 f a b) (amap2 f a2 b2).
Proof.
  intros (D & D2 & E) (_ & _ & F). split; [exact D|]. split; [exact D2|]. intros i j Hi Hj. unfold at_ in *. cbn [amap2 cell]. rewrite E, F by assumption. reflexivity.
Qed.
Lemma default_ct_look s L W (d d2 : arr xq) dry : 2 <= L -> 2 <= W -> look s L W d d2 -> look s L W (default_ct d dry) (default_ct d2 dry).
Proof.
  intros L2 W2 LK. apply (amap_look s L W (fun d => if nltb d dry then 2 else 0)) in LK.
  unfold default_ct. revert LK. generalize (amap (fun d => if nltb d dry then 2 else 0) d) as a. generalize (amap (fun d => if nltb d dry then 2 else 0) d2) as a2.
  intros a2 a ((RA & CA) & (R2 & C2) & E). unfold np_pad1, np_inner. split; [cbn [nrow ncol]; lia|]. split; [cbn [nrow ncol]; destruct s; cbn in *; lia|].
  intros i j Hi Hj. unfold at_ in *. cbn [nrow ncol cell]. rewrite RA, CA, R2, C2. specialize (E i j Hi Hj).
  replace (fst (moved s L W (i, j)) - 1 + 1) with (fst (moved s L W (i, j))) by lia.
  replace (snd (moved s L W (i, j)) - 1 + 1) with (snd (moved s L W (i, j))) by lia. rewrite E.
  replace (i - 1 + 1) with i by lia. replace (j - 1 + 1) with j by lia.
  assert (Q : forall b b' : bool, b = b' -> (if b then cell a i j else -1) = (if b' then cell a i j else -1)) by (intros ? ? ->; reflexivity).
  apply Q. destruct s; cbn [moved fst snd rows cols]; apply eq_true_iff_eq; rewrite !andb_true_iff, !Z.leb_le, !Z.ltb_lt; lia.
Qed.

Definition olook {A} s L W (a a2 : option (arr A)) : Prop :=
  match a, a2 with Some a, Some a2 => look s L W a a2 | None, None => True | _, _ => False end.
Lemma depth_image s L W (p : params xq) d pd : shaped_params L W p -> init_depth p = Ok (d, pd) ->
  exists d2 pd2, init_depth (image_params s p) = Ok (d2, pd2) /\ look s L W d d2 /\ olook s L W pd pd2.
Proof.
  intros (_ & _ & SD & SS & ST & _) H. unfold init_depth in *. cbn [image_params p_depth p_stage p_topo].
  destruct (p_depth p) as [a|]; cbn [option_map].
  - injection H as <- <-. destruct (SD a eq_refl). do 2 eexists. split; [reflexivity|].
    split; [apply amap_look, image_look; assumption | cbn; apply amap_look, image_look; assumption].
  - destruct (p_stage p) as [a|]; [|discriminate]. destruct (p_topo p) as [b|]; [|discriminate]. cbn [option_map]. injection H as <- <-.
    destruct (SS a eq_refl), (ST b eq_refl). do 2 eexists. split; [reflexivity|]. split; [|exact I].
    unfold nan_to_0. apply amap_look, amap_look, amap2_look; apply image_look; assumption.
Qed.
Lemma stage_image s L W (p : params xq) d d2 pd pd2 st ps : shaped_params L W p -> look s L W d d2 -> olook s L W pd pd2 ->
  init_stage p d pd = Ok (st, ps) -> exists st2 ps2, init_stage (image_params s p) d2 pd2 = Ok (st2, ps2) /\ look s L W st st2.
Proof.
  intros (_ & _ & _ & SS & ST & _) LD LP H. unfold init_stage in *. cbn [image_params p_stage p_topo].
  destruct (p_stage p) as [a|]; cbn [option_map].
  - injection H as <- <-. destruct (SS a eq_refl). do 2 eexists. split; [reflexivity|]. apply amap2_look; [exact LD | apply image_look; assumption].
  - destruct (p_topo p) as [b|]; [|discriminate]. destruct pd as [e|]; [|discriminate]. destruct pd2 as [e2|]; [|destruct LP]. cbn [option_map]. injection H as <- <-.
    destruct (ST b eq_refl). do 2 eexists. split; [reflexivity|]. apply amap2_look; [exact LD|]. apply amap2_look; [apply image_look; assumption | exact LP].
Qed.

(** The flow at a cell and at its image: (south, east) components. *)
Definition flow_image (s : symmetry) (S E S2 E2 : xq) : Prop :=
  match s with EastWest => S2 = S /\ E2 = xopp E | NorthSouth => S2 = xopp S /\ E2 = E | Diagonal => S2 = E /\ E2 = S end.
Lemma xopp_sub (x : xq) : nsub n0 x = xopp x.
Proof. destruct x as [|[|]|a]; try reflexivity. cbn. apply f_equal. change (Qcofz 0) with 0%Qc. ring. Qed.
Lemma xopp_opp (x : xq) : xopp (xopp x) = x.
Proof. destruct x as [|[|]|a]; try reflexivity. cbn. apply f_equal. ring. Qed.
Lemma xmul_m1 (x : xq) : nmul (nofZ (-1)) x = xopp x.
Proof. destruct x as [|[|]|a]; reflexivity. Qed.
Lemma nanz_opp (x : xq) : nanz (xopp x) = xopp (nanz x).
Proof. destruct x as [|[|]|a]; reflexivity. Qed.
Lemma xzero_true (q : Qc) : xzero (XFin q) = true <-> q = 0%Qc.
Proof.
  unfold xzero, xeqb. change qc0 with 0%Qc. rewrite andb_true_iff. change (xleb (XFin q) (XFin 0%Qc)) with (nleb (XFin q) (XFin 0%Qc)). change (xleb (XFin 0%Qc) (XFin q)) with (nleb (XFin 0%Qc) (XFin q)).
  rewrite !xq_leb. split; [intros (A & B); apply Qcle_antisym; assumption | intros ->; split; apply Qcle_refl].
Qed.
Lemma Qcopp_0 (q : Qc) : (- q)%Qc = 0%Qc -> q = 0%Qc.
Proof. intros A. apply (f_equal Qcopp) in A. rewrite Qcopp_involutive in A. exact A. Qed.
Lemma xzero_opp (x : xq) : xzero (xopp x) = xzero x.
Proof.
  destruct x as [|[|]|q]; try reflexivity. apply eq_true_iff_eq. cbn [xopp]. rewrite !xzero_true. split; [apply Qcopp_0 | intros ->; reflexivity].
Qed.
Lemma xneg_opp (q : Qc) : q <> 0%Qc -> xneg (XFin (- q)%Qc) = negb (xneg (XFin q)).
Proof.
  intros NZ. unfold xneg. change qc0 with 0%Qc. change xltb with (@nltb xq XQnum).
  destruct (nltb (XFin q) (XFin 0%Qc)) eqn:A; cbn [negb].
  - apply xq_ltb in A. apply xq_ltb_f. apply Qclt_le_weak in A. apply Qcopp_le_compat in A. exact A.
  - apply xq_ltb. apply xq_ltb_f in A. apply Qcopp_le_compat in A. change (- 0)%Qc with 0%Qc in A. destruct (Qcle_lt_or_eq _ _ A) as [B|B]; [exact B|].
    exfalso. apply NZ, Qcopp_0, B.
Qed.
Lemma xmul_opp_l (x y : xq) : nmul (xopp x) y = xopp (nmul x y).
Proof.
  cbn [nmul XQnum]. destruct x as [|s|a], y as [|t|b]; try reflexivity.
  - unfold xmul. rewrite xzero_opp. destruct (xzero (XInf s) || xzero (XInf t)); [reflexivity|]. destruct s, t; reflexivity.
  - unfold xmul. cbn [xopp]. change (xzero (XInf (negb s))) with (xzero (xopp (XInf s))). rewrite xzero_opp. destruct (xzero (XInf s) || xzero (XFin b)); [reflexivity|].
    cbn [xopp]. f_equal. destruct s; cbn; destruct (xneg (XFin b)); reflexivity.
  - unfold xmul. cbn [xopp]. change (xzero (XFin (- a)%Qc)) with (xzero (xopp (XFin a))). rewrite xzero_opp. destruct (xzero (XFin a)) eqn:Z; [reflexivity|].
    cbn [orb]. destruct (xzero (XInf t)); [reflexivity|]. cbn [xopp]. f_equal. rewrite xneg_opp; [destruct (xneg (XFin a)), (xneg (XInf t)); reflexivity|].
    intros ->. assert (xzero (XFin 0%Qc) = true) by (apply xzero_true; reflexivity). congruence.
  - cbn. f_equal. ring.
Qed.
Lemma xmul_comm (x y : xq) : nmul x y = nmul y x.
Proof.
  cbn [nmul XQnum]. destruct x as [|s|a], y as [|t|b]; try reflexivity; unfold xmul.
  - rewrite orb_comm, xorb_comm. reflexivity.
  - rewrite orb_comm, xorb_comm. reflexivity.
  - rewrite orb_comm, xorb_comm. reflexivity.
  - f_equal. ring.
Qed.
Lemma xmul_opp_r (x y : xq) : nmul x (xopp y) = xopp (nmul x y).
Proof. rewrite xmul_comm, xmul_opp_l, xmul_comm. reflexivity. Qed.

Lemma image_opposite_cell s L W (a : arr xq) i j : nrow a = L -> ncol a = W -> at_ (opposite (image s a)) (moved s L W (i, j)) = xopp (cell a i j).
Proof. intros HL HW. unfold at_, opposite. cbn [cell]. rewrite xopp_sub. f_equal. apply image_cell; assumption. Qed.

Lemma flow_at s L W (p : params xq) d d2 f : shaped_params L W p -> look s L W d d2 -> init_flow p d = Ok f ->
  exists f2, init_flow (image_params s p) d2 = Ok f2 /\
    forall i j, 0 <= i < L -> 0 <= j < W ->
      flow_image s (cell (f_qx f) i j) (cell (f_qy f) i j) (at_ (f_qx f2) (moved s L W (i, j))) (at_ (f_qy f2) (moved s L W (i, j))).
Proof.
  intros (_ & _ & _ & _ & _ & QX & QY & U & V & _) (_ & _ & LD). unfold init_flow.
  replace (is_deltarcm (image_params s p)) with (is_deltarcm p) by reflexivity.
  cbn [image_params p_qx p_qy p_u p_v].
  destruct (is_deltarcm p), s, (p_qx p) as [qx|], (p_qy p) as [qy|], (p_u p) as [u|], (p_v p) as [v|]; intros H; try discriminate; injection H as <-;
  cbn [image_x image_y option_map]; (eexists; split; [reflexivity|]); intros i j Hi Hj; specialize (LD i j Hi Hj);
  try (destruct (QX _ eq_refl)); try (destruct (QY _ eq_refl)); try (destruct (U _ eq_refl)); try (destruct (V _ eq_refl));
  cbn [f_qx f_qy flow_image]; unfold at_ in *; cbn [nan_to_0 neg1 amap amap2 cell];
  repeat match goal with
  | |- context [cell (opposite (image ?s ?a)) _ _] => rewrite (image_opposite_cell s L W a i j : _ -> _ -> cell (opposite (image s a)) (fst (moved s L W (i, j))) (snd (moved s L W (i, j))) = _) by assumption
  | |- context [cell (image ?s ?a) _ _] => rewrite (image_cell s L W a i j : _ -> _ -> cell (image s a) (fst (moved s L W (i, j))) (snd (moved s L W (i, j))) = _) by assumption
  end; rewrite ?LD, ?xmul_m1, ?xopp_opp, ?nanz_opp, ?xmul_opp_l, ?xopp_opp; auto.
Qed.

Lemma moved_step s L W i j k : (k < 9)%nat ->
  moved s L W (i + row_off k, j + col_off k) = (fst (moved s L W (i, j)) + row_off (turned s k), snd (moved s L W (i, j)) + col_off (turned s k)).
Proof. intros K. destruct s; do 9 (destruct k as [|k]; [cbn [moved turned fst snd row_off col_off nth]; f_equal; lia|]); lia. Qed.
Lemma ivec_turned s lm k : (k < 9)%nat ->
  match s with EastWest => nth (turned s k) (default_ivec lm) n0 = xopp (nth k (default_ivec lm) n0) /\ nth (turned s k) (default_jvec lm) n0 = nth k (default_jvec lm) n0
  | NorthSouth => nth (turned s k) (default_ivec lm) n0 = nth k (default_ivec lm) n0 /\ nth (turned s k) (default_jvec lm) n0 = xopp (nth k (default_jvec lm) n0)
  | Diagonal => nth (turned s k) (default_ivec lm) n0 = nth k (default_jvec lm) n0 /\ nth (turned s k) (default_jvec lm) n0 = nth k (default_ivec lm) n0 end.
Proof.
  intros K. unfold default_ivec, default_jvec, nneg. rewrite !xmul_m1.
  destruct s; do 9 (destruct k as [|k]; [cbn [turned nth]; rewrite ?xopp_opp; split; reflexivity|]); lia.
Qed.
Lemma dist_turned s (lm : Libm xq) k : (k < 9)%nat -> nth (turned s k) (default_dist lm) n0 = nth k (default_dist lm) n0.
Proof. intros K. unfold default_dist. destruct s; do 9 (destruct k as [|k]; [reflexivity|]); lia. Qed.
Lemma project_turned s lm k S E S2 E2 : (k < 9)%nat -> flow_image s S E S2 E2 ->
  nadd (nmul S2 (nth (turned s k) (default_jvec lm) n0)) (nmul E2 (nth (turned s k) (default_ivec lm) n0)) =
  nadd (nmul S (nth k (default_jvec lm) n0)) (nmul E (nth k (default_ivec lm) n0)).
Proof.
  intros K F. pose proof (ivec_turned s lm k K) as V. destruct s; cbn [flow_image] in F; destruct F as (-> & ->), V as (-> & ->).
  - rewrite xmul_opp_l, xmul_opp_r, xopp_opp. reflexivity.
  - rewrite xmul_opp_l, xmul_opp_r, xopp_opp. reflexivity.
  - apply xadd_comm.
Qed.
Lemma look_nb {A} s L W (a a2 : arr A) i j k : look s L W a a2 -> (k < 9)%nat -> 0 <= i + row_off k < L -> 0 <= j + col_off k < W ->
  nb (fst (moved s L W (i, j))) (snd (moved s L W (i, j))) a2 (turned s k) = nb i j a k.
Proof.
  intros (_ & _ & E) K Hi Hj. unfold nb. rewrite <- (E _ _ Hi Hj). unfold at_. rewrite moved_step by exact K. reflexivity.
Qed.
Lemma off_range k : (k < 9)%nat -> -1 <= row_off k <= 1 /\ -1 <= col_off k <= 1.
Proof. intros K. do 9 (destruct k as [|k]; [cbn; lia|]); lia. Qed.
Lemma moved_in s L W i j : 0 <= i < L -> 0 <= j < W ->
  0 <= fst (moved s L W (i, j)) < rows s L W /\ 0 <= snd (moved s L W (i, j)) < cols s L W.
Proof. destruct s; cbn; lia. Qed.

Lemma image_shape {A} s L W (a : arr A) : nrow a = L -> ncol a = W -> nrow (image s a) = rows s L W /\ ncol (image s a) = cols s L W.
Proof. intros <- <-. destruct s; cbn; auto. Qed.
Lemma oimage_shape {A} s L W (o : option (arr A)) : of_shape L W o -> of_shape (rows s L W) (cols s L W) (option_map (image s) o).
Proof. intros H a E. destruct o as [b|]; [|discriminate]. injection E as <-. destruct (H b eq_refl). apply image_shape; assumption. Qed.
Lemma oimage_opp_shape s L W (o : option (arr xq)) : of_shape L W o -> of_shape (rows s L W) (cols s L W) (option_map (fun a => opposite (image s a)) o).
Proof. intros H a E. destruct o as [b|]; [|discriminate]. injection E as <-. destruct (H b eq_refl). apply (image_shape s L W b); assumption. Qed.
Lemma shaped_image s L W (p : params xq) : shaped_params L W p -> shaped_params (rows s L W) (cols s L W) (image_params s p).
Proof.
  intros (L2 & W2 & A1 & A2 & A3 & A4 & A5 & A6 & A7 & A8 & T). unfold shaped_params. cbn [image_params p_depth p_stage p_topo p_qx p_qy p_u p_v p_ct p_dist p_ivec p_jvec p_iwalk p_jwalk p_angles].
  split; [destruct s; cbn; lia|]. split; [destruct s; cbn; lia|]. split; [apply oimage_shape, A1|]. split; [apply oimage_shape, A2|]. split; [apply oimage_shape, A3|].
  split; [destruct s, (is_deltarcm p); cbn [image_x]; (apply oimage_shape || apply oimage_opp_shape); assumption|].
  split; [destruct s, (is_deltarcm p); cbn [image_y]; (apply oimage_shape || apply oimage_opp_shape); assumption|].
  split; [destruct s, (is_deltarcm p); cbn [image_x]; (apply oimage_shape || apply oimage_opp_shape); assumption|].
  split; [destruct s, (is_deltarcm p); cbn [image_y]; (apply oimage_shape || apply oimage_opp_shape); assumption|].
  split; [apply oimage_shape, A8 | exact T].
Qed.
Lemma init_image s lm L W (p : params xq) P p' : weight_params lm L W p -> default_tables p -> init lm p = Ok (P, p') ->
  exists P2 p2', init lm (image_params s p) = Ok (P2, p2') /\
    forall i j k, 0 <= i < L -> 0 <= j < W -> (k < 9)%nat ->
      nth (turned s k) (weights_of lm P2 (fst (moved s L W (i, j))) (snd (moved s L W (i, j)))) n0 = nth k (weights_of lm P i j) n0.
Proof.
  intros WP DT E. pose proof WP as ((L2 & W2 & SP') & GP & PP). pose proof (conj L2 (conj W2 SP')) as SP. fold (shaped_params L W p) in SP.
  destruct (api_object lm L W p P p' WP E) as (Hw & G & Pw & D & EL & EW).
  destruct (init_ok lm p P p' E) as (dx & depth & pd & stage & ps & f & E1 & E2 & E3 & E4 & ER & O1 & O2 & O3 & O4 & O5 & _ & _ & _ & _ & O6 & O7 & _ & O8 & O9 & _ & O10 & O11 & O12 & _).
  destruct (depth_image s L W p depth pd SP E2) as (d2 & pd2 & I2 & LD & LP).
  destruct (stage_image s L W p depth d2 pd pd2 stage ps SP LD LP E3) as (st2 & ps2 & I3 & LS).
  destruct (flow_at s L W p depth d2 f SP LD E4) as (f2 & I4 & LF).
  assert (SP2 : shaped_params (rows s L W) (cols s L W) (image_params s p)).
  { apply shaped_image, SP. }
  assert (X : exists P2 p2', init lm (image_params s p) = Ok (P2, p2')).
  { unfold init. rewrite I2. cbn [image_params p_dx p_roi]. rewrite E1. cbn [bind]. fold (image_params s p). rewrite I3. cbn [bind]. rewrite I4. cbn [bind].
    destruct (p_roi p) as [roi|] eqn:R; cbn [option_map].
    - destruct (ER roi eq_refl) as (RR & RC). destruct LD as ((A1 & A2) & (B1 & B2) & _).
      assert (Q : (nrow (image s roi) =? nrow d2) && (ncol (image s roi) =? ncol d2) = true).
      { rewrite B1, B2. apply andb_true_iff. rewrite !Z.eqb_eq. destruct s; cbn; lia. }
      rewrite Q. cbn [bind]. do 2 eexists. reflexivity.
    - cbn [bind]. do 2 eexists. reflexivity. }
  destruct X as (P2 & p2' & X). exists P2, p2'. split; [exact X|].
  destruct (init_wf lm _ _ _ P2 p2' SP2 X) as (Hw2 & EL2 & EW2).
  destruct (init_ok lm _ P2 p2' X) as (dx' & depth' & pd' & stage' & ps' & f' & _ & F2 & F3 & F4 & _ & Q1 & Q2 & Q3 & Q4 & Q5 & _ & _ & _ & _ & Q6 & Q7 & _ & Q8 & Q9 & _ & Q10 & Q11 & Q12 & _).
  rewrite I2 in F2. injection F2 as <- <-. rewrite I3 in F3. injection F3 as <- <-. rewrite I4 in F4. injection F4 as <-.
  cbn [image_params p_theta p_gamma p_dry p_ct p_dist p_ivec p_jvec] in *.
  destruct DT as (T1 & T2 & T3 & T4 & T5 & T6). rewrite T1 in O10, Q10. rewrite T2 in O11, Q11. rewrite T3 in O12, Q12. cbn [dflt] in O10, O11, O12, Q10, Q11, Q12.
  assert (LC : look s L W (o_ct P) (o_ct P2)).
  { rewrite O9, Q9. destruct (p_ct p) as [ct|] eqn:CT; cbn [dflt option_map].
    - destruct SP as (_ & _ & _ & _ & _ & _ & _ & _ & _ & SC & _). destruct (SC ct CT). apply image_look; assumption.
    - apply default_ct_look; assumption. }
  intros i j k Hi Hj K.
  destruct (on_border L W i j) eqn:B.
  - assert (RG : on_ring P i j).
    { unfold on_border in B. rewrite !orb_true_iff, !Z.eqb_eq in B. unfold on_ring, in_grid, inside. rewrite EL, EW. lia. }
    assert (RG2 : on_ring P2 (fst (moved s L W (i, j))) (snd (moved s L W (i, j)))).
    { unfold on_border in B. rewrite !orb_true_iff, !Z.eqb_eq in B. unfold on_ring, in_grid, inside. rewrite EL2, EW2. destruct s; cbn; lia. }
    rewrite (ring_all_zero lm P i j Hw RG), (ring_all_zero lm P2 _ _ Hw2 RG2), !nth_repeat. reflexivity.
  - assert (Bi : 1 <= i < L - 1 /\ 1 <= j < W - 1) by (unfold on_border in B; rewrite !orb_false_iff, !Z.eqb_neq in B; lia).
    assert (IN : inside P i j) by (unfold inside; rewrite EL, EW; lia).
    assert (IN2 : inside P2 (fst (moved s L W (i, j))) (snd (moved s L W (i, j)))) by (unfold inside; rewrite EL2, EW2; destruct s; cbn; lia).
    rewrite (weight_nth lm P2) by (try assumption; apply turned_lt; exact K). rewrite (weight_nth lm P) by assumption.
    assert (RNG : forall k, (k < 9)%nat -> 0 <= i + row_off k < L /\ 0 <= j + col_off k < W) by (intros m Hm; pose proof (off_range m Hm); lia).
    apply spec_turned; try assumption.
    + intros m Hm. rewrite O2, Q2. destruct (RNG m Hm). apply look_nb; assumption.
    + intros m Hm. rewrite O3, Q3. destruct (RNG m Hm). apply look_nb; assumption.
    + intros m Hm. destruct (RNG m Hm). apply look_nb; assumption.
    + rewrite O3, Q3. apply LS; assumption.
    + intros m Hm. rewrite O10, Q10. apply dist_turned, Hm.
    + intros m Hm. rewrite O4, O5, O11, O12, Q4, Q5, Q11, Q12. apply project_turned; [exact Hm | apply LF; assumption].
    + congruence.
    + congruence.
    + congruence.
    + intros m Hm. destruct (RNG m Hm). apply D. unfold in_grid. rewrite EL, EW. split; assumption.
Qed.

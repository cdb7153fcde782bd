(** One call of particle_stepper: every particle stays or makes a documented move. *)
From Coq Require Import ZArith Bool String List Lia.
From Verif Require Import Num Py NumFacts Walker ParticleTrack SpecWeights SpecPick SpecWalk
  ProofWeights ProofWeightLaws ProofPick.
Import ListNotations.
Open Scope Z_scope.
Open Scope res_scope.

(** monadic list lemmas *)
Lemma bind_ok {A B} (x : res A) (f : A -> res B) b : bind x f = Ok b -> exists a, x = Ok a /\ f a = Ok b.
Proof. destruct x; simpl; [eauto | discriminate]. Qed.
Lemma mapM_length {A B} (f : A -> res B) l r : mapM f l = Ok r -> length r = length l.
Proof.
  revert r. induction l; simpl; intros r H; [injection H as <-; reflexivity|].
  apply bind_ok in H as (b & _ & H). apply bind_ok in H as (bs & E & H). injection H as <-.
  simpl. f_equal. apply IHl, E.
Qed.
Lemma mapM_nth {A B} (f : A -> res B) l r da db : mapM f l = Ok r ->
  forall i, (i < length l)%nat -> f (nth i l da) = Ok (nth i r db).
Proof.
  revert r. induction l; simpl; intros r H i Hi; [lia|].
  apply bind_ok in H as (b & Eb & H). apply bind_ok in H as (bs & E & H). injection H as <-.
  destruct i; simpl; [exact Eb|]. apply IHl; [exact E | lia].
Qed.
Lemma mapM_total {A B} (f : A -> res B) l : (forall a, In a l -> exists b, f a = Ok b) -> exists r, mapM f l = Ok r.
Proof.
  induction l; simpl; intros H; [eauto|].
  destruct (H a (or_introl eq_refl)) as (b & ->). simpl.
  destruct IHl as (r & ->); [intros; apply H; auto|]. simpl. eauto.
Qed.
Lemma mapM_map {A B} (f : A -> res B) (g : A -> B) l : (forall a, In a l -> f a = Ok (g a)) -> mapM f l = Ok (map g l).
Proof.
  induction l; simpl; intros H; [reflexivity|]. rewrite H by auto. simpl. rewrite IHl by auto. reflexivity.
Qed.
Lemma mapS_length {A B S} (f : A -> S -> res (B * S)) l s r s' : mapS f l s = Ok (r, s') -> length r = length l.
Proof.
  revert s r. induction l; simpl; intros s r H; [injection H as <- <-; reflexivity|].
  apply bind_ok in H as ((b & s1) & _ & H). apply bind_ok in H as ((bs & s2) & E & H). injection H as <- <-.
  simpl. f_equal. eapply IHl, E.
Qed.
Lemma mapS_inv {A B S} (f : A -> S -> res (B * S)) (I : S -> Prop) (Q : A -> B -> Prop) l s r s' :
  (forall a s b s', In a l -> I s -> f a s = Ok (b, s') -> I s' /\ Q a b) ->
  I s -> mapS f l s = Ok (r, s') -> I s' /\ Forall2 Q l r.
Proof.
  revert s r. induction l; simpl; intros s r HF HI H.
  - injection H as <- <-. split; [exact HI | constructor].
  - apply bind_ok in H as ((b & s1) & Eb & H). apply bind_ok in H as ((bs & s2) & E & H). injection H as <- <-.
    destruct (HF a s b s1 (or_introl eq_refl) HI Eb) as (I1 & Q1).
    destruct (IHl s1 bs) as (I2 & Q2); [intros; eapply HF; eauto | exact I1 | exact E|].
    split; [exact I2 | constructor; assumption].
Qed.
Lemma mapS_total {A B S} (f : A -> S -> res (B * S)) (I : S -> Prop) l s :
  (forall a s, In a l -> I s -> exists b s', f a s = Ok (b, s') /\ I s') ->
  I s -> exists r s', mapS f l s = Ok (r, s') /\ I s'.
Proof.
  revert s. induction l; simpl; intros s HF HI; [eauto|].
  destruct (HF a s (or_introl eq_refl) HI) as (b & s1 & -> & I1). simpl.
  destruct (IHl s1) as (r & s2 & -> & I2); [intros; apply HF; auto | exact I1|]. simpl. eauto.
Qed.
Lemma Forall2_nth {A B} (Q : A -> B -> Prop) l m da db : Forall2 Q l m ->
  forall i, (i < length l)%nat -> Q (nth i l da) (nth i m db).
Proof. induction 1; simpl; intros i Hi; [lia|]. destruct i; [assumption|]. apply IHForall2. lia. Qed.
Lemma Forall2_len {A B} (Q : A -> B -> Prop) l m : Forall2 Q l m -> length l = length m.
Proof. induction 1; simpl; congruence. Qed.
Lemma map2_length {A B C} (f : A -> B -> C) l m : length l = length m -> length (map2 f l m) = length l.
Proof. revert m. induction l; destruct m; simpl; intros; try discriminate; auto. Qed.
Lemma map2_nth {A B C} (f : A -> B -> C) l m da db dc : length l = length m ->
  forall i, (i < length l)%nat -> nth i (map2 f l m) dc = f (nth i l da) (nth i m db).
Proof.
  revert m. induction l; destruct m; simpl; intros E i Hi; try discriminate; try lia.
  destruct i; [reflexivity|]. apply IHl; lia.
Qed.
Lemma zrange_length a b : length (zrange a b) = Z.to_nat (b - a).
Proof. unfold zrange. rewrite map_length, seq_length. reflexivity. Qed.
Lemma zrange_nth a b i d : (i < Z.to_nat (b - a))%nat -> nth i (zrange a b) d = a + Z.of_nat i.
Proof.
  intros H. unfold zrange. rewrite (nth_indep _ d (a + Z.of_nat 0)) by (rewrite map_length, seq_length; exact H).
  rewrite (map_nth (fun k => a + Z.of_nat k)). rewrite seq_nth by exact H. reflexivity.
Qed.
Lemma zrange_In a b i : In i (zrange a b) <-> a <= i < b.
Proof.
  unfold zrange. rewrite in_map_iff. split.
  - intros (k & <- & H). apply in_seq in H. lia.
  - intros H. exists (Z.to_nat (i - a)). split; [lia|]. apply in_seq. lia.
Qed.
Lemma norm_ix_in n i : 0 <= i < n -> norm_ix n i = Some i.
Proof.
  intros H. unfold norm_ix. replace ((0 <=? i) && (i <? n)) with true; [reflexivity|].
  symmetry. apply andb_true_iff. rewrite Z.leb_le, Z.ltb_lt. lia.
Qed.
Lemma pair_eqb_true a b : pair_eqb a b = true <-> a = b.
Proof.
  destruct a, b. unfold pair_eqb. simpl. rewrite andb_true_iff, !Z.eqb_eq. split; [intros (-> & ->); reflexivity | intros H; injection H as -> ->; auto].
Qed.
Lemma pair_eqb_false a b : pair_eqb a b = false <-> a <> b.
Proof. rewrite <- pair_eqb_true. destruct (pair_eqb a b); split; congruence. Qed.

Section S.
Context {T : Type} {N : Num T} {NL : NumLaws T} {GV : T -> Prop}.

Lemma np_get_in {A} (a : arr A) i j : 0 <= i < nrow a -> 0 <= j < ncol a -> np_get a i j = Ok (cell a i j).
Proof. intros Hi Hj. unfold np_get. rewrite !norm_ix_in by assumption. reflexivity. Qed.

(** near_edge is edge_nearby for positions with positive indices *)
Lemma near_edge_spec (P : pobj T) x y : wf_obj P -> 1 <= x < nrow (o_depth P) -> 1 <= y < ncol (o_depth P) ->
  near_edge (o_ct P) x y = true <-> edge_nearby P x y.
Proof.
  intros Hw Hx Hy.
  assert (C : nrow (o_ct P) = nrow (o_depth P) /\ ncol (o_ct P) = ncol (o_depth P)).
  { destruct Hw as (_ & _ & _ & _ & _ & _ & _ & C & _). exact C. }
  destruct C as (C1 & C2).
  unfold near_edge, in_slice. rewrite C1, C2.
  assert (E1 : slice_bound (nrow (o_depth P)) (x - 1) = x - 1) by (unfold slice_bound; destruct (Z.ltb_spec (x - 1) 0); lia).
  assert (E2 : slice_bound (nrow (o_depth P)) (x + 2) = Z.min (x + 2) (nrow (o_depth P))) by (unfold slice_bound; destruct (Z.ltb_spec (x + 2) 0); lia).
  assert (E3 : slice_bound (ncol (o_depth P)) (y - 1) = y - 1) by (unfold slice_bound; destruct (Z.ltb_spec (y - 1) 0); lia).
  assert (E4 : slice_bound (ncol (o_depth P)) (y + 2) = Z.min (y + 2) (ncol (o_depth P))) by (unfold slice_bound; destruct (Z.ltb_spec (y + 2) 0); lia).
  rewrite E1, E2, E3, E4. rewrite existsb_exists. unfold edge_nearby, in_grid. split.
  - intros (i & Hi & H). apply zrange_In in Hi. apply existsb_exists in H as (j & Hj & H). apply zrange_In in Hj.
    apply Z.eqb_eq in H. exists i, j. repeat split; lia.
  - intros (i & j & G & Hi & Hj & H). exists i. split; [apply zrange_In; lia|].
    apply existsb_exists. exists j. split; [apply zrange_In; lia|]. apply Z.eqb_eq, H.
Qed.

(** geometry of a closed ring *)
Lemma no_edge_deep (P : pobj T) x y : ring_closed P -> 1 <= x < nrow (o_depth P) -> 1 <= y < ncol (o_depth P) ->
  ~ edge_nearby P x y -> 2 <= x < nrow (o_depth P) - 2 /\ 2 <= y < ncol (o_depth P) - 2.
Proof.
  intros R Hx Hy NE.
  assert (K : forall i j, x - 1 <= i <= x + 1 -> y - 1 <= j <= y + 1 -> in_grid P i j -> inside P i j).
  { intros i j Hi Hj G. assert (D : inside P i j \/ ~ inside P i j) by (unfold inside; lia).
    destruct D as [D|D]; [exact D|]. exfalso. apply NE. exists i, j.
    split; [exact G|]. split; [exact Hi|]. split; [exact Hj|]. apply R. split; assumption. }
  unfold inside, in_grid in *.
  pose proof (K (x - 1) y ltac:(lia) ltac:(lia) ltac:(lia)).
  pose proof (K x (y - 1) ltac:(lia) ltac:(lia) ltac:(lia)).
  pose proof (K x y ltac:(lia) ltac:(lia) ltac:(lia)).
  assert (x + 1 < nrow (o_depth P) - 1) by (pose proof (K (x + 1) y ltac:(lia) ltac:(lia)); lia).
  assert (y + 1 < ncol (o_depth P) - 1) by (pose proof (K x (y + 1) ltac:(lia) ltac:(lia)); lia).
  lia.
Qed.
Lemma documented_inside lm (P : pobj T) x y t x' y' t' : ring_closed P -> tables_ok P -> safe_pos P x y ->
  documented_step GV lm P x y t x' y' t' ->
  inside P x y /\ inside P x' y' /\ Z.abs (x' - x) <= 1 /\ Z.abs (y' - y) <= 1 /\ (x', y') <> (x, y).
Proof.
  intros R TB SP (k & u & w & Hk & K4 & Uu & Uw & NE & N0 & SE & EX & EY & ND & _).
  destruct SP as [C|(Hx & Hy)]; [congruence|].
  pose proof (no_edge_deep P x y R Hx Hy NE). destruct (TB k Hk) as (A & B & _).
  unfold inside. repeat split; try lia. exact ND.
Qed.

(** weight state *)
Definition winv (lm : Libm T) (P : pobj T) (a : arr (list T)) : Prop :=
  nrow a = nrow (o_depth P) /\ ncol a = ncol (o_depth P) /\
  forall i j, in_grid P i j ->
    cell a i j = weights_of lm P i j \/ cell a i j = pick_vector P (weights_of lm P i j).

Lemma winv_init lm (P : pobj T) : wf_obj P -> winv lm P (make_weight lm P).
Proof.
  intros (HS & _). split; [reflexivity|]. split; [reflexivity|]. intros i j _. left. reflexivity.
Qed.
Lemma weights_no_negative lm (P : pobj T) i j : wf_obj P -> gamma_ok P -> pow_ok lm P -> in_grid P i j ->
  no_negative (weights_of lm P i j).
Proof. intros Hw G Hp Hg k. apply weights_never_negative; assumption. Qed.
Lemma pick_vector_idem (P : pobj T) v : no_negative v -> pick_vector P (pick_vector P v) = pick_vector P v.
Proof.
  intros H. unfold pick_vector. destruct (o_steep P); [apply steep_prune_idem, H | apply map_nanz_idem].
Qed.
Lemma pickfn_pick (P : pobj T) v u :
  (if o_steep P then steep_descent else random_pick) v u = (k <- pick (pick_vector P v) u ;; Ok (k, pick_vector P v)).
Proof. unfold pick_vector. destruct (o_steep P); [apply steep_pick | apply random_pick_pick]. Qed.
Lemma weights_length lm (P : pobj T) i j : wf_obj P -> in_grid P i j -> length (weights_of lm P i j) = 9%nat.
Proof.
  intros Hw Hg. assert (D : inside P i j \/ ~ inside P i j) by (unfold inside; lia). destruct D as [D|D].
  - rewrite weight_refines by assumption. reflexivity.
  - rewrite ring_all_zero; [reflexivity | exact Hw | split; assumption].
Qed.
Lemma pick_vector_length (P : pobj T) v : length (pick_vector P v) = length v.
Proof. unfold pick_vector. destruct (o_steep P); [apply prune_length | apply map_length]. Qed.
Lemma pick_vector_nn (P : pobj T) v : no_negative v -> allnn (pick_vector P v).
Proof. intros H. unfold pick_vector. destruct (o_steep P); [apply prune_nn, H | apply no_negative_nanz, H]. Qed.

Lemma get_weight_spec lm (P : pobj T) draws x y s k s' :
  wf_obj P -> gamma_ok P -> pow_ok lm P -> unit_stream GV draws -> winv lm P (w_arr s) -> in_grid P x y ->
  get_weight P draws (x, y) s = Ok (k, s') ->
  winv lm P (w_arr s') /\ (k < 9)%nat /\ selects lm P x y (draws (w_pos s)) k /\ w_pos s' = S (w_pos s).
Proof.
  intros Hw G Hp U (WR & WC & WV) Hg H. unfold get_weight in H. cbn [fst snd] in H.
  rewrite WR, WC, !norm_ix_in in H by (unfold in_grid in Hg; lia).
  rewrite pickfn_pick in H. apply bind_ok in H as ((k1 & v) & E & H). apply bind_ok in E as (k2 & E & E2).
  injection E2 as <- <-. injection H as <- <-. cbn [w_arr w_pos].
  pose proof (weights_no_negative lm P x y Hw G Hp Hg) as NN.
  assert (EV : pick_vector P (cell (w_arr s) x y) = pick_vector P (weights_of lm P x y)).
  { destruct (WV x y Hg) as [Q|Q]; rewrite Q; [reflexivity | apply pick_vector_idem, NN]. }
  rewrite EV in *. split; [|split; [|split; [|reflexivity]]].
  - split; [exact WR|]. split; [exact WC|]. intros i j Hij. unfold set_cell. cbn [cell].
    destruct ((i =? x) && (j =? y)) eqn:Q; [|apply WV, Hij].
    apply andb_true_iff in Q as (Q1 & Q2). apply Z.eqb_eq in Q1, Q2. subst. right. reflexivity.
  - destruct (pick_spec _ _ _ (pick_vector_nn P _ NN) (proj1 (U (w_pos s))) E) as (L & _).
    rewrite pick_vector_length, weights_length in L by assumption. exact L.
  - exists (pick_vector P (weights_of lm P x y)). rewrite pickfn_pick, E. reflexivity.
Qed.
Lemma get_weight_total lm (P : pobj T) draws x y s :
  wf_obj P -> gamma_ok P -> pow_ok lm P -> weights_finite lm P -> winv lm P (w_arr s) -> in_grid P x y ->
  exists k s', get_weight P draws (x, y) s = Ok (k, s').
Proof.
  intros Hw G Hp WF (WR & WC & WV) Hg. unfold get_weight. cbn [fst snd].
  rewrite WR, WC, !norm_ix_in by (unfold in_grid in Hg; lia). rewrite pickfn_pick.
  pose proof (weights_no_negative lm P x y Hw G Hp Hg) as NN.
  assert (EV : pick_vector P (cell (w_arr s) x y) = pick_vector P (weights_of lm P x y)).
  { destruct (WV x y Hg) as [Q|Q]; rewrite Q; [reflexivity | apply pick_vector_idem, NN]. }
  rewrite EV. destruct (pick_total (pick_vector P (weights_of lm P x y)) (draws (w_pos s)) (pick_vector_nn P _ NN)) as (k & ->).
  - intros E. apply (f_equal (@length T)) in E. rewrite pick_vector_length, weights_length in E by assumption. discriminate.
  - rewrite pick_vector_length, weights_length by assumption. apply sub_fin_z, WF, Hg.
  - simpl. eauto.
Qed.

Lemma safe_in_grid (P : pobj T) x y : 3 <= nrow (o_depth P) -> 3 <= ncol (o_depth P) -> safe_pos P x y -> in_grid P x y.
Proof. intros A B [C|C]; [injection C as -> ->|]; unfold in_grid; lia. Qed.

(** optional outputs *)
Lemma dget_app_other {A} k k' (v : A) d : k <> k' -> dget k (d ++ [(k', v)]) = dget k d.
Proof.
  intros H. induction d as [|(q & w) d IH]; simpl.
  - destruct (String.eqb_spec k k'); [congruence | reflexivity].
  - destruct (String.eqb k q); [reflexivity | exact IH].
Qed.
Lemma dget_app_new {A} k (v : A) d : dget k d = None -> dget k (d ++ [(k, v)]) = Some v.
Proof.
  induction d as [|(q & w) d IH]; simpl.
  - rewrite String.eqb_refl. reflexivity.
  - destruct (String.eqb k q); [discriminate | exact IH].
Qed.
Lemma dget_app_some {A} k k' (v w : A) d : dget k d = Some w -> dget k (d ++ [(k', v)]) = Some w.
Proof.
  induction d as [|(q & z) d IH]; simpl; [discriminate|]. destruct (String.eqb k q); [auto | exact IH].
Qed.
Lemma opt_outputs_keep (P : pobj T) vars ni : forall acc r, optional_outputs P vars ni acc = Ok r ->
  forall k v, dget k acc = Some v -> dget k r = Some v.
Proof.
  induction vars as [|var vars IH]; cbn [optional_outputs]; intros acc r H k v Hk.
  - injection H as <-. exact Hk.
  - destruct (dmem var acc); [eapply IH; eassumption|].
    destruct (dget var (avail_vars P)) as [g|]; [|eapply IH; eassumption].
    apply bind_ok in H as (vs & _ & H). eapply IH; [exact H|]. apply dget_app_some, Hk.
Qed.
Lemma opt_outputs_get (P : pobj T) vars ni : forall acc r, optional_outputs P vars ni acc = Ok r ->
  forall var g, In var vars -> dget var (avail_vars P) = Some g -> dget var acc = None ->
  exists vs, dget var r = Some vs /\ mapM (fun xy => grid_at g (fst xy) (snd xy)) ni = Ok vs.
Proof.
  induction vars as [|v0 vars IH]; cbn [optional_outputs In]; intros acc r H var g I Hg Ha; [contradiction|].
  destruct (String.eqb_spec var v0) as [->|NE].
  - unfold dmem in H. rewrite Ha, Hg in H. apply bind_ok in H as (vs & E & H).
    exists vs. split; [|exact E]. eapply opt_outputs_keep; [exact H|]. apply dget_app_new, Ha.
  - destruct I as [I|I]; [congruence|].
    destruct (dmem v0 acc); [eapply IH; eassumption|].
    destruct (dget v0 (avail_vars P)) as [g0|]; [|eapply IH; eassumption].
    apply bind_ok in H as (vs & E & H). eapply IH; try eassumption. rewrite dget_app_other by exact NE. exact Ha.
Qed.
Lemma avail_shape (P : pobj T) var g : wf_obj P -> dget var (avail_vars P) = Some g ->
  nrow g = nrow (o_depth P) /\ ncol g = ncol (o_depth P).
Proof.
  intros (A & B & C & D & E & _) H. unfold avail_vars in H. simpl in H.
  repeat match type of H with (if ?b then _ else _) = _ => destruct b; [injection H as <-; first [split; reflexivity | exact A | exact B | exact C | exact D | exact E]|] end. discriminate.
Qed.
Lemma avail_not_roi (P : pobj T) g : dget "roi_flag" (avail_vars P) = Some g -> False.
Proof. simpl. discriminate. Qed.

Lemma grid_at_in (P : pobj T) (g : arr T) x y : nrow g = nrow (o_depth P) -> ncol g = ncol (o_depth P) -> in_grid P x y ->
  grid_at g x y = Ok (Some (cell g x y)).
Proof. intros A B (C & D). unfold grid_at. rewrite np_get_in by lia. reflexivity. Qed.

(** values of the returned dictionary *)
Definition opt_ok (P : pobj T) (vars : list string) (ni : list (Z * Z)) (opt : list (string * list (option T))) : Prop :=
  forall var, In var vars -> (o_roi P <> None /\ var = "roi_flag"%string \/ exists g, dget var (avail_vars P) = Some g) ->
    exists vs, dget var opt = Some vs /\ length vs = length ni /\
      forall i, (i < length ni)%nat -> nth i vs None = field_value P var (fst (nth i ni (0, 0))) (snd (nth i ni (0, 0))).

Lemma opt_stage_ok (P : pobj T) vars ni opt0 opt : wf_obj P -> (forall xy, In xy ni -> in_grid P (fst xy) (snd xy)) ->
  match o_roi P with
  | Some roi => fl <- mapM (fun xy => roi_flag_at roi (fst xy) (snd xy)) ni ;; Ok [("roi_flag"%string, fl)]
  | None => Ok []
  end = Ok opt0 ->
  optional_outputs P vars ni opt0 = Ok opt -> opt_ok P vars ni opt.
Proof.
  intros Hw G H0 H var I Av.
  assert (NR : forall g, dget var (avail_vars P) = Some g -> var <> "roi_flag"%string)
    by (intros g Hg ->; eapply avail_not_roi; eassumption).
  assert (RS : forall roi, o_roi P = Some roi -> nrow roi = nrow (o_depth P) /\ ncol roi = ncol (o_depth P)).
  { intros roi Hr. unfold wf_obj in Hw. destruct Hw as (_&_&_&_&_&_&_&_&_&_&_&_&_&_&RO). exact (RO roi Hr). }
  destruct (String.eqb_spec var "roi_flag") as [->|NE].
  - destruct Av as [(R & _)|(g & Hg)]; [|exfalso; eapply NR; eauto].
    destruct (o_roi P) as [roi|] eqn:ER; [|congruence].
    apply bind_ok in H0 as (fl & Ef & H0). injection H0 as <-.
    exists fl. split; [eapply opt_outputs_keep; [exact H | reflexivity]|].
    split; [eapply mapM_length; exact Ef|]. intros i Hi.
    pose proof (mapM_nth _ _ _ (0, 0) None Ef i Hi) as E. cbv beta in E.
    assert (IG := G _ (nth_In ni (0, 0) Hi)). destruct (RS roi eq_refl) as (R1 & R2).
    unfold roi_flag_at in E. rewrite np_get_in in E by (unfold in_grid in IG; lia). cbn [bind] in E. injection E as <-.
    unfold field_value. rewrite ER. reflexivity.
  - destruct Av as [(_ & ->)|(g & Hg)]; [congruence|].
    assert (D0 : dget var opt0 = None).
    { destruct (o_roi P) as [roi|].
      - apply bind_ok in H0 as (fl & _ & H0). injection H0 as <-. cbn.
        destruct (String.eqb_spec var "roi_flag"); [congruence | reflexivity].
      - injection H0 as <-. reflexivity. }
    destruct (opt_outputs_get P vars ni opt0 opt H var g I Hg D0) as (vs & Ev & Em).
    exists vs. split; [exact Ev|]. split; [eapply mapM_length; exact Em|].
    intros i Hi. pose proof (mapM_nth _ _ _ (0, 0) None Em i Hi) as E. cbv beta in E.
    assert (IG := G _ (nth_In ni (0, 0) Hi)). destruct (avail_shape P var g Hw Hg) as (S1 & S2).
    rewrite (grid_at_in P) in E by assumption. injection E as <-.
    unfold field_value. rewrite Hg. destruct (o_roi P); [|reflexivity].
    destruct (String.eqb_spec var "roi_flag"); [congruence | reflexivity].
Qed.
Lemma opt_stage_total (P : pobj T) vars ni : wf_obj P -> (forall xy, In xy ni -> in_grid P (fst xy) (snd xy)) ->
  exists opt0 opt,
  match o_roi P with
  | Some roi => fl <- mapM (fun xy => roi_flag_at roi (fst xy) (snd xy)) ni ;; Ok [("roi_flag"%string, fl)]
  | None => Ok []
  end = Ok opt0 /\ optional_outputs P vars ni opt0 = Ok opt.
Proof.
  intros Hw G.
  assert (RS : forall roi, o_roi P = Some roi -> nrow roi = nrow (o_depth P) /\ ncol roi = ncol (o_depth P)).
  { intros roi Hr. unfold wf_obj in Hw. destruct Hw as (_&_&_&_&_&_&_&_&_&_&_&_&_&_&RO). exact (RO roi Hr). }
  assert (K : forall acc, exists opt, optional_outputs P vars ni acc = Ok opt).
  { induction vars as [|v vars IH]; cbn [optional_outputs]; intros acc; [eauto|].
    destruct (dmem v acc); [apply IH|]. destruct (dget v (avail_vars P)) as [g|] eqn:E; [|apply IH].
    destruct (avail_shape P v g Hw E) as (S1 & S2).
    destruct (mapM_total (fun xy => grid_at g (fst xy) (snd xy)) ni) as (vs & ->).
    - intros xy I. rewrite (grid_at_in P) by (try apply G; assumption). eauto.
    - simpl. apply IH. }
  destruct (o_roi P) as [roi|] eqn:ER.
  - destruct (RS roi eq_refl) as (R1 & R2).
    destruct (mapM_total (fun xy => roi_flag_at (T:=T) roi (fst xy) (snd xy)) ni) as (fl & ->).
    + intros xy I. unfold roi_flag_at. specialize (G xy I). unfold in_grid in G. rewrite np_get_in by lia. simpl. eauto.
    + simpl. destruct (K [("roi_flag"%string, fl)]) as (opt & E). eauto.
  - destruct (K []) as (opt & E). eauto.
Qed.
End S.

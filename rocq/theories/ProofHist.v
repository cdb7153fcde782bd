(** Histories produced by arbitrary programs of API calls. *)
From Coq Require Import ZArith Bool String List Lia.
From Verif Require Import Num Py NumFacts Walker ParticleTrack Gen SpecWeights SpecPick SpecWalk SpecHist
  ProofWeights ProofWeightLaws ProofPick ProofStep ProofStepper ProofRun ProofRunTo ProofRunTotal ProofGen.
Import ListNotations.
Open Scope Z_scope.
Open Scope res_scope.

Section S.
Context {T : Type} {N : Num T} {NL : NumLaws T} {GV : T -> Prop}.

Lemma history_positions lm (P : pobj T) r : field_ok lm P -> history_ok GV lm P r ->
  forall i, (i < length (r_x r))%nat -> safe_pos P (xat r i) (yat r i) /\ ((0 < i)%nat -> inside P (xat r i) (yat r i)).
Proof.
  intros FO (R & S & D & _). induction i as [|i IH]; intros Hi; [split; [exact S | lia]|].
  destruct (IH ltac:(lia)) as (SI & _). destruct FO as (_ & _ & _ & RC & TB & _).
  destruct (documented_inside _ _ _ _ _ _ _ _ RC TB SI (D i Hi)) as (_ & I & _).
  split; [right; unfold inside in I; lia | auto].
Qed.
Lemma history_base lm (P : pobj T) r : field_ok lm P -> history_ok GV lm P r -> base_row P r.
Proof.
  intros FO H. split; [apply H|]. apply (history_positions lm P r FO H). destruct H as ((A & _) & _). unfold last_ix. lia.
Qed.
Lemma nth_snoc {A} (l : list A) a d i : (i < S (length l))%nat -> nth i (l ++ [a]) d = if (i =? length l)%nat then a else nth i l d.
Proof.
  intros H. destruct (Nat.eqb_spec i (length l)) as [->|NE]; [apply nth_middle|]. apply app_nth1. lia.
Qed.
Lemma history_extend1 lm (P : pobj T) r r' : history_ok GV lm P r -> extend1 GV lm P r r' -> history_ok GV lm P r'.
Proof.
  intros (R & SP & D & V) E. destruct (extend1_lengths _ _ _ _ R E) as (R' & LX & _).
  pose proof (extend1_last _ _ _ _ R E) as DL.
  destruct E as (x & y & t & _ & X & Y & Tm & O). pose proof R as (A & B & C & RO).
  assert (OLD : forall i, (i < length (r_x r))%nat -> xat r' i = xat r i /\ yat r' i = yat r i /\ tat r' i = tat r i).
  { intros i Hi. unfold xat, yat, tat. rewrite X, Y, Tm, !app_nth1 by lia. auto. }
  split; [exact R'|]. split; [destruct (OLD 0%nat A) as (-> & -> & _); exact SP|]. split.
  - intros i Hi. rewrite LX in Hi. destruct (Nat.eq_dec (S i) (length (r_x r))) as [EI|NE].
    + destruct (OLD i ltac:(lia)) as (-> & -> & ->). unfold last_ix in DL. rewrite LX in DL.
      replace (S (length (r_x r)) - 1)%nat with (S i) in DL by lia. replace (length (r_x r) - 1)%nat with i in DL by lia. exact DL.
    + destruct (OLD i ltac:(lia)) as (-> & -> & ->). destruct (OLD (S i) ltac:(lia)) as (-> & -> & ->). apply D. lia.
  - intros v l I i Hi. rewrite O in I. apply in_map_iff in I as ((v0, l0) & E & I). cbn [fst snd] in E. injection E as -> <-.
    specialize (RO _ I). cbn [snd] in RO. rewrite LX in Hi. rewrite nth_snoc by lia. rewrite RO.
    destruct (Nat.eqb_spec i (length (r_x r))) as [->|NE].
    + unfold xat, yat. rewrite X, Y. rewrite nth_middle. rewrite <- B. rewrite nth_middle. reflexivity.
    + destruct (OLD i ltac:(lia)) as (-> & -> & _). apply V; [exact I | lia].
Qed.
Lemma history_extends lm (P : pobj T) n r r' : history_ok GV lm P r -> extends GV lm P n r r' -> history_ok GV lm P r'.
Proof. intros H E. induction E as [|n r r1 r2 E IH E1]; [exact H|]. exact (history_extend1 _ _ _ _ (IH H) E1). Qed.
Lemma history_seed lm (P : pobj T) vars x y t : safe_pos P x y -> history_ok GV lm P (seed_row P vars x y t).
Proof.
  intros S. unfold seed_row. split.
  { split; [simpl; lia|]. split; [reflexivity|]. split; [reflexivity|]. cbn [r_o r_x]. intros kv I. apply in_map_iff in I as (v & <- & _). reflexivity. }
  split; [exact S|]. split; [cbn [r_x]; simpl; intros; lia|].
  intros v l I i Hi. cbn [r_o r_x] in *. apply in_map_iff in I as (v0 & E & _). injection E as -> <-. destruct i; [reflexivity | simpl in Hi; lia].
Qed.

Definition SInv (lm : Libm T) (P : pobj T) (s : psim T) : Prop :=
  winv lm P (w_arr (s_wst s)) /\
  match s_walk s with
  | None => True
  | Some w => vars_ok P /\ s_np s = Z.of_nat (count w) /\ map fst (opts w) = tvars P /\ walk_hist_ok GV lm P w
  end.

Lemma SInv_init lm (P : pobj T) pos : wf_obj P -> SInv lm P (init_sim lm P pos).
Proof. intros W. split; [apply winv_init, W | exact I]. Qed.
Lemma hist_walk_ok lm (P : pobj T) w : field_ok lm P -> map fst (opts w) = tvars P -> walk_hist_ok GV lm P w -> walk_ok P w.
Proof. intros FO K (S & H). split; [exact K|]. split; [exact S|]. intros p Hp. eapply history_base; eauto. Qed.

Lemma gen_inv lm (P : pobj T) draws np xl yl t0 m prev s s' : field_ok lm P -> SInv lm P s ->
  op_ok GV lm P (OpGen np xl yl t0 m prev) ->
  generate_particles P draws np xl yl t0 m prev s = Ok s' -> SInv lm P s'.
Proof.
  intros FO (WI & IN) (SO & PO) H. cbn [prev_of] in PO.
  destruct (generate_spec lm P draws np xl yl t0 m prev s s' FO SO) as (VO & NE & w' & xs & ys & EW & EN & EA & SD & CT & SH & KE & R1 & R2 & R3); try exact H.
  { destruct (s_walk s); [apply IN | exact I]. } { destruct prev; [apply PO | exact I]. }
  split; [rewrite EA; exact WI|]. rewrite EW. split; [exact VO|]. split; [exact EN|]. split; [exact KE|]. split; [exact SH|].
  intros p Hp. destruct (Nat.ltb_spec p (opt_count prev)) as [L|L].
  - rewrite R1 by exact L. destruct prev as [w|]; [|simpl in L; lia]. apply PO, L.
  - destruct (Nat.ltb_spec p (opt_count prev + stored_count s)) as [L2|L2].
    + replace p with (opt_count prev + (p - opt_count prev))%nat by lia. rewrite R2 by lia.
      unfold stored_count in *. destruct (s_walk s) as [w|]; [|lia]. apply IN. lia.
    + replace p with (opt_count prev + stored_count s + (p - (opt_count prev + stored_count s)))%nat by lia. rewrite R3 by lia.
      apply history_seed. eapply (seeded_safe P np xl yl t0 m prev xs ys SO SD NE (_, _)).
      rewrite <- combine_nth by (destruct SD as (-> & -> & _); reflexivity). apply nth_In. rewrite combine_length. destruct SD as (-> & -> & _). lia.
Qed.
Lemma run_inv lm (P : pobj T) draws s w' s' : field_ok lm P -> unit_stream GV draws -> SInv lm P s ->
  run_step lm P draws s = Ok (w', s') -> SInv lm P s'.
Proof.
  intros FO U (WI & IN) H. destruct (s_walk s) as [w|] eqn:SW; [|unfold run_step in H; rewrite SW in H; discriminate].
  destruct IN as (VO & NP & KE & HO).
  destruct (run_step_spec lm P draws s w w' s' FO U WI VO SW NP (hist_walk_ok _ _ _ FO KE HO) H) as (SW' & NP' & CT & WI' & KE' & SH' & RR).
  split; [exact WI'|]. rewrite SW'. split; [exact VO|]. split; [rewrite CT; exact NP'|]. split; [exact KE'|]. split; [exact SH'|].
  intros p Hp. rewrite CT in Hp. destruct (RR p Hp) as [(-> & _)|E]; [apply HO, Hp|]. eapply history_extend1; [apply HO, Hp | exact E].
Qed.
Lemma run_to_inv lm (P : pobj T) draws target mi s w' wl s' : field_ok lm P -> unit_stream GV draws -> SInv lm P s ->
  run_target lm P draws target mi s = Ok (w', wl, s') -> SInv lm P s'.
Proof.
  intros FO U (WI & IN) H. destruct (s_walk s) as [w|] eqn:SW; [|unfold run_target in H; rewrite SW in H; discriminate].
  destruct IN as (VO & NP & KE & HO).
  destruct (run_target_spec lm P draws target mi s w w' wl s' FO U WI VO SW NP (hist_walk_ok _ _ _ FO KE HO) H) as (_ & SW' & NP' & CT & WI' & (KE' & SH' & _) & RR & _).
  split; [exact WI'|]. rewrite SW'. split; [exact VO|]. split; [rewrite CT; exact NP'|]. split; [exact KE'|]. split; [exact SH'|].
  intros p Hp. rewrite CT in Hp. destruct (RR p Hp) as (n & E & _). eapply history_extends; [apply HO, Hp | exact E].
Qed.
Lemma op_inv lm (P : pobj T) draws o s s' : field_ok lm P -> unit_stream GV draws -> SInv lm P s -> op_ok GV lm P o ->
  do_op lm P draws o s = Ok s' -> SInv lm P s'.
Proof.
  intros FO U SI OK H. destruct o as [np xl yl t0 m prev| |target mi|]; cbn [do_op] in H.
  - eapply gen_inv; eauto.
  - destruct (run_step _ _ _ _) as [(w', s1)|] eqn:E; [|discriminate]. injection H as <-. eapply run_inv; eauto.
  - destruct (run_target _ _ _ _ _ _) as [((w', wl), s1)|] eqn:E; [|discriminate]. injection H as <-. eapply run_to_inv; eauto.
  - injection H as <-. split; [apply SI | exact I].
Qed.
Lemma ops_inv lm (P : pobj T) draws : field_ok lm P -> unit_stream GV draws -> forall os s s', SInv lm P s -> Forall (op_ok GV lm P) os ->
  do_ops lm P draws os s = Ok s' -> SInv lm P s'.
Proof.
  intros FO U. induction os as [|o os IH]; intros s s' SI F H; cbn [do_ops] in H; [injection H as <-; exact SI|].
  inversion F as [|? ? OK F']; subst. apply bind_ok in H as (s1 & E & H). eapply IH; [|exact F'|exact H]. eapply op_inv; eauto.
Qed.
Lemma reached_inv lm (P : pobj T) draws s : field_ok lm P -> unit_stream GV draws -> reached GV lm P draws s -> SInv lm P s.
Proof.
  intros FO U (pos & os & F & H). eapply ops_inv; eauto. apply SInv_init, FO.
Qed.

(** C11, C13, C15-C22: every reachable history is documented. *)
Lemma reached_history lm (P : pobj T) draws s w p : field_ok lm P -> unit_stream GV draws -> reached GV lm P draws s ->
  s_walk s = Some w -> (p < count w)%nat -> history_ok GV lm P (row (tvars P) w p).
Proof.
  intros FO U R SW Hp. destruct (reached_inv lm P draws s FO U R) as (_ & I). rewrite SW in I. apply I, Hp.
Qed.

Lemma step_size lm (P : pobj T) r i : field_ok lm P -> history_ok GV lm P r -> (S i < length (r_x r))%nat ->
  Z.abs (xat r (S i) - xat r i) <= 1 /\ Z.abs (yat r (S i) - yat r i) <= 1.
Proof.
  intros FO H Hi. destruct (history_positions lm P r FO H i ltac:(lia)) as (SI & _). destruct H as (_ & _ & D & _).
  destruct FO as (_ & _ & _ & RC & TB & _).
  destruct (documented_inside _ _ _ _ _ _ _ _ RC TB SI (D i Hi)) as (_ & _ & A & B & _). auto.
Qed.

(** one call: the effect on stored particles *)
Lemma run_extends lm (P : pobj T) draws s w w' s' : field_ok lm P -> unit_stream GV draws -> reached GV lm P draws s ->
  s_walk s = Some w -> run_step lm P draws s = Ok (w', s') ->
  s_walk s' = Some w' /\ count w' = count w /\
  forall p, (p < count w)%nat -> 
    (row (tvars P) w' p = row (tvars P) w p /\
       may_stay GV lm P (xat (row (tvars P) w p) (last_ix (row (tvars P) w p))) (yat (row (tvars P) w p) (last_ix (row (tvars P) w p))))
    \/ extend1 GV lm P (row (tvars P) w p) (row (tvars P) w' p).
Proof.
  intros FO U R SW H. destruct (reached_inv lm P draws s FO U R) as (WI & IN). rewrite SW in IN. destruct IN as (VO & NP & KE & HO).
  destruct (run_step_spec lm P draws s w w' s' FO U WI VO SW NP (hist_walk_ok _ _ _ FO KE HO) H) as (SW' & NP' & CT & WI' & KE' & SH' & RR).
  auto.
Qed.
Lemma run_to_extends lm (P : pobj T) draws target mi s w w' wl s' : field_ok lm P -> unit_stream GV draws -> reached GV lm P draws s ->
  s_walk s = Some w -> run_target lm P draws target mi s = Ok (w', wl, s') ->
  s_walk s' = Some w' /\ count w' = count w /\
  (forall p, (p < count w)%nat -> exists n, extends GV lm P n (row (tvars P) w p) (row (tvars P) w' p) /\
     Z.of_nat n <= Z.max 1 mi /\ stopped GV lm P target mi n (row (tvars P) w' p)) /\
  (exists n, extends GV lm P n (row (tvars P) w (count w - 1)) (row (tvars P) w' (count w - 1)) /\
      wl = if Z.of_nat n =? Z.max 1 mi then [Z.of_nat (count w) - 1] else []).
Proof.
  intros FO U R SW H. destruct (reached_inv lm P draws s FO U R) as (WI & IN). rewrite SW in IN. destruct IN as (VO & NP & KE & HO).
  destruct (run_target_spec lm P draws target mi s w w' wl s' FO U WI VO SW NP (hist_walk_ok _ _ _ FO KE HO) H)
    as (_ & SW' & NP' & CT & WI' & _ & RR & WL). auto.
Qed.
Lemma run_never_raises lm (P : pobj T) draws s w : field_ok lm P -> weights_finite lm P -> unit_stream GV draws -> reached GV lm P draws s ->
  s_walk s = Some w -> exists w' s', run_step lm P draws s = Ok (w', s').
Proof.
  intros FO WF U R SW. destruct (reached_inv lm P draws s FO U R) as (WI & IN). rewrite SW in IN. destruct IN as (VO & NP & KE & HO).
  exact (run_step_total lm P draws s w FO WF U WI VO SW NP (hist_walk_ok _ _ _ FO KE HO)).
Qed.
Lemma run_to_never_raises lm (P : pobj T) draws target mi s w : field_ok lm P -> weights_finite lm P -> unit_stream GV draws ->
  reached GV lm P draws s -> s_walk s = Some w -> (0 < count w)%nat ->
  exists w' wl s', run_target lm P draws target mi s = Ok (w', wl, s').
Proof.
  intros FO WF U R SW CP. destruct (reached_inv lm P draws s FO U R) as (WI & IN). rewrite SW in IN. destruct IN as (VO & NP & KE & HO).
  exact (run_target_total lm P draws target mi s w FO WF U WI VO SW NP (hist_walk_ok _ _ _ FO KE HO) CP).
Qed.
Lemma gen_effect lm (P : pobj T) draws np xl yl t0 m prev s s' : field_ok lm P -> unit_stream GV draws -> reached GV lm P draws s ->
  op_ok GV lm P (OpGen np xl yl t0 m prev) -> generate_particles P draws np xl yl t0 m prev s = Ok s' ->
  exists w' xs ys, s_walk s' = Some w' /\ seeded m np xl yl xs ys /\
    count w' = (opt_count prev + stored_count s + Z.to_nat np)%nat /\
    (forall p, (p < opt_count prev)%nat -> row (tvars P) w' p = opt_row (tvars P) prev p) /\
    (forall p, (p < stored_count s)%nat -> row (tvars P) w' (opt_count prev + p) = opt_row (tvars P) (s_walk s) p) /\
    (forall p, (p < Z.to_nat np)%nat -> row (tvars P) w' (opt_count prev + stored_count s + p) =
        seed_row P (tvars P) (nth p xs 0) (nth p ys 0) t0).
Proof.
  intros FO U R (SO & PO) H. destruct (reached_inv lm P draws s FO U R) as (WI & IN). cbn [prev_of] in PO.
  destruct (generate_spec lm P draws np xl yl t0 m prev s s' FO SO) as (VO & NE & w' & xs & ys & EW & EN & EA & SD & CT & SH & KE & R1 & R2 & R3); try exact H.
  { destruct (s_walk s); [apply IN | exact I]. } { destruct prev; [apply PO | exact I]. }
  exists w', xs, ys. auto 8.
Qed.

(** stuck particles *)
Lemma stuck_extends lm (P : pobj T) n r r' : row_rect r ->
  (xat r (last_ix r), yat r (last_ix r)) = (0, 0) \/ edge_nearby P (xat r (last_ix r)) (yat r (last_ix r)) ->
  extends GV lm P n r r' -> r' = r.
Proof.
  intros R ST E. induction E as [r|n r r1 r2 E IH E1]; [reflexivity|]. rewrite (IH R ST) in E1.
  destruct E1 as (x & y & t & (k & u & w & _ & _ & _ & _ & NE & N0 & _) & _). exfalso. destruct ST; contradiction.
Qed.

(** times *)
Lemma extends_prefix lm (P : pobj T) n r r' : extends GV lm P n r r' ->
  (exists l, r_x r' = r_x r ++ l /\ length l = n) /\ (exists l, r_y r' = r_y r ++ l /\ length l = n) /\
  (exists l, r_t r' = r_t r ++ l /\ length l = n) /\
  map fst (r_o r') = map fst (r_o r) /\
  forall k v l, nth_error (r_o r) k = Some (v, l) -> exists l', nth_error (r_o r') k = Some (v, l ++ l') /\ length l' = n.
Proof.
  induction 1 as [r|n r r1 r2 E IH E1].
  - repeat split; try (exists []; rewrite app_nil_r; split; reflexivity). intros k v l H. exists []. rewrite app_nil_r. auto.
  - destruct IH as ((lx & X & LX) & (ly & Y & LY) & (lt & Tm & LT) & KE & O). destruct E1 as (x & y & t & _ & X1 & Y1 & T1 & O1).
    split; [exists (lx ++ [x]); rewrite X1, X, app_assoc, app_length; simpl; split; [reflexivity | lia]|].
    split; [exists (ly ++ [y]); rewrite Y1, Y, app_assoc, app_length; simpl; split; [reflexivity | lia]|].
    split; [exists (lt ++ [t]); rewrite T1, Tm, app_assoc, app_length; simpl; split; [reflexivity | lia]|].
    split; [rewrite O1, map_map; exact KE|].
    intros k v l H. destruct (O k v l H) as (l' & H' & L'). exists (l' ++ [field_value P v x y]).
    rewrite O1, nth_error_map, H'. cbn [option_map fst snd]. rewrite app_assoc, app_length. simpl. split; [reflexivity | lia].
Qed.
End S.

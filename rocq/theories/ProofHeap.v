(** Heap-level walk data behave like walk data as values as long as no list is shared. *)
From Coq Require Import ZArith Bool String List Lia.
From Verif Require Import Num Py NumFacts Walker ParticleTrack SpecWeights SpecPick SpecWalk SpecHist SpecInit SpecApi Interrupt SpecInterrupt
  ProofPick ProofStep ProofStepper ProofRun ProofRunTo ProofHist ProofApi2 ProofInterrupt Heap SpecHeap.
Import ListNotations.
Open Scope nat_scope.

Section Lists.
Context {A : Type}.
Lemma sread_push_same l (v : A) st : l < length st -> sread (push l v st) l = sread st l ++ [v].
Proof. intros H. unfold sread. rewrite nth_push by exact H. rewrite Nat.eqb_refl. reflexivity. Qed.
Lemma sread_push_other l l' (v : A) st : l <> l' -> sread (push l v st) l' = sread st l'.
Proof.
  intros H. unfold sread. destruct (Nat.ltb_spec l' (length st)) as [L|L].
  - rewrite nth_push by exact L. destruct (Nat.eqb_spec l l'); [congruence | apply app_nil_r].
  - rewrite !nth_overflow; [reflexivity | exact L | rewrite push_length; exact L].
Qed.
Lemma map_push_other l (v : A) st ls : ~ In l ls -> map (sread (push l v st)) ls = map (sread st) ls.
Proof. intros H. apply map_ext_in. intros a I. apply sread_push_other. intros ->. exact (H I). Qed.
Lemma map_push_same ls : forall i l (v : A) st, nth_error ls i = Some l -> (forall j, nth_error ls j = Some l -> j = i) -> l < length st ->
  map (sread (push l v st)) ls = push i v (map (sread st) ls).
Proof.
  intros i l v st E U L. apply nth_ext with (d := []) (d' := []); [rewrite push_length, !map_length; reflexivity|]. rewrite map_length. intros q Hq.
  rewrite nth_push by (rewrite map_length; exact Hq). destruct (nth_error ls q) as [m|] eqn:EQ; [|apply nth_error_None in EQ; lia].
  rewrite (nth_error_nth (map (sread (push l v st)) ls) q [] (map_nth_error _ _ _ EQ)), (nth_error_nth (map (sread st) ls) q [] (map_nth_error _ _ _ EQ)).
  destruct (Nat.eqb_spec i q) as [->|NE].
  - assert (m = l) by congruence. subst m. apply sread_push_same, L.
  - rewrite app_nil_r. apply sread_push_other. intros ->. apply NE. symmetry. apply U, EQ.
Qed.
Lemma push_oob i (v : A) l : length l <= i -> push i v l = l.
Proof. unfold push. generalize (nth i l [] ++ [v]). intros x. revert i. induction l as [|a l IH]; intros [|i] H; cbn in *; try reflexivity; try lia. f_equal. apply IH. lia. Qed.
End Lists.

Section Heap.
Context {T : Type} {N : Num T}.
Implicit Types (h : heap T) (d : dict).

Lemma in_lookup_x d l : In l (d_x d) -> exists i, lookup d (PX i) = Some (LZ l).
Proof. intros I. apply In_nth_error in I as (i & E). exists i. cbn. rewrite E. reflexivity. Qed.
Lemma in_lookup_y d l : In l (d_y d) -> exists i, lookup d (PY i) = Some (LZ l).
Proof. intros I. apply In_nth_error in I as (i & E). exists i. cbn. rewrite E. reflexivity. Qed.
Lemma in_lookup_t d l : In l (d_t d) -> exists i, lookup d (PT i) = Some (LT l).
Proof. intros I. apply In_nth_error in I as (i & E). exists i. cbn. rewrite E. reflexivity. Qed.
Lemma dget_nodup {A} k (a : A) o : NoDup (map fst o) -> In (k, a) o -> dget k o = Some a.
Proof.
  induction o as [|(k1 & a1) o IH]; [intros _ []|]. cbn [map fst dget]. intros D [E|I]; inversion D as [|? ? NI D']; subst.
  - injection E as -> ->. rewrite String.eqb_refl. reflexivity.
  - destruct (String.eqb k k1) eqn:EK; [|apply IH; assumption]. apply String.eqb_eq in EK. subst k1. exfalso. apply NI. apply (in_map fst) in I. exact I.
Qed.
Lemma in_lookup_o d k ls l : NoDup (map fst (d_o d)) -> In (k, ls) (d_o d) -> In l ls -> exists i, lookup d (PV k i) = Some (LO l).
Proof. intros D I J. apply In_nth_error in J as (i & E). exists i. cbn. rewrite (dget_nodup _ _ _ D I), E. reflexivity. Qed.

(** An append through d, seen through d. *)
Lemma view_happly h d e : valid h d -> unshared d -> view (happly d h e) d = apply_ev (view h d) e.
Proof.
  intros (ND & V) U. destruct e as [i v|i v|i v|k i v]; cbn [happly apply_ev].
  - destruct (nth_error (d_x d) i) as [l|] eqn:E.
    + assert (LI : lookup d (PX i) = Some (LZ l)) by (cbn; rewrite E; reflexivity). unfold view. cbn [h_z h_t h_o xinds yinds times opts]. f_equal.
      * apply map_push_same; [exact E | | exact (V _ _ LI)]. intros j Ej. assert (LJ : lookup d (PX j) = Some (LZ l)) by (cbn; rewrite Ej; reflexivity). specialize (U _ _ _ LI LJ). congruence.
      * apply map_push_other. intros I. apply in_lookup_y in I as (j & LJ). specialize (U _ _ _ LI LJ). discriminate.
    + unfold view. cbn [xinds yinds times opts]. rewrite push_oob; [reflexivity|]. rewrite map_length. apply nth_error_None, E.
  - destruct (nth_error (d_y d) i) as [l|] eqn:E.
    + assert (LI : lookup d (PY i) = Some (LZ l)) by (cbn; rewrite E; reflexivity). unfold view. cbn [h_z h_t h_o xinds yinds times opts]. f_equal.
      * apply map_push_other. intros I. apply in_lookup_x in I as (j & LJ). specialize (U _ _ _ LI LJ). discriminate.
      * apply map_push_same; [exact E | | exact (V _ _ LI)]. intros j Ej. assert (LJ : lookup d (PY j) = Some (LZ l)) by (cbn; rewrite Ej; reflexivity). specialize (U _ _ _ LI LJ). congruence.
    + unfold view. cbn [xinds yinds times opts]. rewrite push_oob; [reflexivity|]. rewrite map_length. apply nth_error_None, E.
  - destruct (nth_error (d_t d) i) as [l|] eqn:E.
    + assert (LI : lookup d (PT i) = Some (LT l)) by (cbn; rewrite E; reflexivity). unfold view. cbn [h_z h_t h_o xinds yinds times opts]. f_equal.
      apply map_push_same; [exact E | | exact (V _ _ LI)]. intros j Ej. assert (LJ : lookup d (PT j) = Some (LT l)) by (cbn; rewrite Ej; reflexivity). specialize (U _ _ _ LI LJ). congruence.
    + unfold view. cbn [xinds yinds times opts]. rewrite push_oob; [reflexivity|]. rewrite map_length. apply nth_error_None, E.
  - unfold view. destruct (dget k (d_o d)) as [ls|] eqn:DG; [destruct (nth_error ls i) as [l|] eqn:E|].
    + assert (LI : lookup d (PV k i) = Some (LO l)) by (cbn; rewrite DG, E; reflexivity). cbn [h_z h_t h_o xinds yinds times opts]. f_equal. unfold view_opts. cbn [h_o]. rewrite map_map. apply map_ext_in. intros (k1 & l1) I. cbn [fst snd].
      destruct (String.eqb k1 k) eqn:EK.
      * apply String.eqb_eq in EK. subst k1. pose proof (dget_nodup _ _ _ ND I) as DG1. assert (l1 = ls) by congruence. subst l1. f_equal.
        apply map_push_same; [exact E | | exact (V _ _ LI)]. intros j Ej. assert (LJ : lookup d (PV k j) = Some (LO l)) by (cbn; rewrite DG, Ej; reflexivity). specialize (U _ _ _ LI LJ). congruence.
      * f_equal. apply map_push_other. intros J. destruct (in_lookup_o d k1 l1 l ND I J) as (j & LJ). specialize (U _ _ _ LI LJ). injection U as <- _. rewrite String.eqb_refl in EK. discriminate.
    + cbn [xinds yinds times opts]. f_equal. unfold view_opts. rewrite map_map. apply map_ext_in. intros (k1 & l1) I. cbn [fst snd]. destruct (String.eqb k1 k) eqn:EK; [|reflexivity].
      apply String.eqb_eq in EK. subst k1. pose proof (dget_nodup _ _ _ ND I) as DG1. assert (l1 = ls) by congruence. subst l1. rewrite push_oob; [reflexivity|]. rewrite map_length. apply nth_error_None, E.
    + cbn [xinds yinds times opts]. f_equal. unfold view_opts. rewrite map_map. apply map_ext_in. intros (k1 & l1) I. cbn [fst snd]. destruct (String.eqb k1 k) eqn:EK; [|reflexivity].
      apply String.eqb_eq in EK. subst k1. rewrite (dget_nodup _ _ _ ND I) in DG. discriminate.
Qed.
(** An append through d, seen through a dictionary that shares nothing with d. *)
Lemma view_apart h d (e : dict) ev : valid h e -> apart d e -> view (happly d h ev) e = view h e.
Proof.
  intros (ND & V) AP. destruct ev as [i v|i v|i v|k i v]; cbn [happly].
  - destruct (nth_error (d_x d) i) as [l|] eqn:E; [|reflexivity]. assert (LI : lookup d (PX i) = Some (LZ l)) by (cbn; rewrite E; reflexivity). unfold view. cbn [h_z h_t h_o]. f_equal; apply map_push_other; intros I.
    + apply in_lookup_x in I as (j & LJ). exact (AP _ _ _ LI LJ).
    + apply in_lookup_y in I as (j & LJ). exact (AP _ _ _ LI LJ).
  - destruct (nth_error (d_y d) i) as [l|] eqn:E; [|reflexivity]. assert (LI : lookup d (PY i) = Some (LZ l)) by (cbn; rewrite E; reflexivity). unfold view. cbn [h_z h_t h_o]. f_equal; apply map_push_other; intros I.
    + apply in_lookup_x in I as (j & LJ). exact (AP _ _ _ LI LJ).
    + apply in_lookup_y in I as (j & LJ). exact (AP _ _ _ LI LJ).
  - destruct (nth_error (d_t d) i) as [l|] eqn:E; [|reflexivity]. assert (LI : lookup d (PT i) = Some (LT l)) by (cbn; rewrite E; reflexivity). unfold view. cbn [h_z h_t h_o]. f_equal; apply map_push_other; intros I.
    apply in_lookup_t in I as (j & LJ). exact (AP _ _ _ LI LJ).
  - destruct (dget k (d_o d)) as [ls|] eqn:DG; [|reflexivity]. destruct (nth_error ls i) as [l|] eqn:E; [|reflexivity]. assert (LI : lookup d (PV k i) = Some (LO l)) by (cbn; rewrite DG, E; reflexivity).
    unfold view. cbn [h_z h_t h_o]. f_equal. unfold view_opts. cbn [h_o]. apply map_ext_in. intros (k1 & l1) I. cbn [fst snd]. f_equal. apply map_push_other. intros J.
    destruct (in_lookup_o e k1 l1 l ND I J) as (j & LJ). exact (AP _ _ _ LI LJ).
Qed.

(** The heap only grows: lists are added and appended to. *)
Definition store_grows {A} (st st' : list (list A)) : Prop := length st <= length st' /\ forall l, l < length st -> prefix (sread st l) (sread st' l).
Definition grows h h' : Prop := store_grows (h_z h) (h_z h') /\ store_grows (h_t h) (h_t h') /\ store_grows (h_o h) (h_o h').
Lemma prefix_refl {A} (l : list A) : prefix l l.
Proof. exists []. symmetry. apply app_nil_r. Qed.
Lemma prefix_trans {A} (a b c : list A) : prefix a b -> prefix b c -> prefix a c.
Proof. intros (x & ->) (y & ->). exists (x ++ y). rewrite app_assoc. reflexivity. Qed.
Lemma store_refl {A} (st : list (list A)) : store_grows st st.
Proof. split; [reflexivity | intros; apply prefix_refl]. Qed.
Lemma store_trans {A} (a b c : list (list A)) : store_grows a b -> store_grows b c -> store_grows a c.
Proof. intros (L & H) (L' & H'). split; [lia|]. intros l Hl. eapply prefix_trans; [apply H, Hl | apply H'; lia]. Qed.
Lemma store_push {A} l (v : A) st : store_grows st (push l v st).
Proof.
  split; [rewrite push_length; reflexivity|]. intros q Hq. destruct (Nat.eq_dec l q) as [->|NE]; [rewrite sread_push_same by exact Hq; exists [v]; reflexivity | rewrite sread_push_other by exact NE; apply prefix_refl].
Qed.
Lemma store_app {A} (st r : list (list A)) : store_grows st (st ++ r).
Proof. split; [rewrite app_length; lia|]. intros l Hl. unfold sread. rewrite app_nth1 by exact Hl. apply prefix_refl. Qed.
Lemma grows_refl h : grows h h.
Proof. repeat split; try reflexivity; intros; apply prefix_refl. Qed.
Lemma grows_trans a b c : grows a b -> grows b c -> grows a c.
Proof. intros (A & B & C) (A' & B' & C'). split; [|split]; eapply store_trans; eassumption. Qed.
Lemma grows_happly d h e : grows h (happly d h e).
Proof.
  destruct e as [i v|i v|i v|k i v]; cbn [happly].
  1,2: destruct (nth_error _ i); [|apply grows_refl]; split; [apply store_push | split; apply store_refl].
  - destruct (nth_error _ i); [|apply grows_refl]; split; [apply store_refl | split; [apply store_push | apply store_refl]].
  - destruct (dget k (d_o d)) as [ls|]; [|apply grows_refl]. destruct (nth_error ls i); [|apply grows_refl]. split; [apply store_refl | split; [apply store_refl | apply store_push]].
Qed.
Definition mono {A} (c : hm T A) : Prop := forall h, grows h (fst (c h)).
Lemma mono_ret {A} (a : A) : mono (hret a).
Proof. intros h. apply grows_refl. Qed.
Lemma mono_lift {A} (r : res A) : mono (hlift r).
Proof. intros h. apply grows_refl. Qed.
Lemma mono_read {A} (f : heap T -> A) : mono (hread f).
Proof. intros h. apply grows_refl. Qed.
Lemma mono_bind {A B} (c : hm T A) (k : A -> hm T B) : mono c -> (forall a, mono (k a)) -> mono (hbind c k).
Proof. intros C K h. unfold hbind. specialize (C h). destruct (c h) as (h' & [a|e]); [|exact C]. eapply grows_trans; [exact C | apply K]. Qed.
Lemma mono_append {A} d (l : log T A) : mono (happend d l).
Proof. intros h. cbn. generalize (fst l). intros es. revert h. induction es as [|e es IH]; intros h; [apply grows_refl|]. cbn [fold_left]. eapply grows_trans; [apply grows_happly | apply IH]. Qed.
Lemma mono_alloc_o r : mono (alloc_o r).
Proof. intros h. split; [apply store_refl | split; [apply store_refl | apply store_app]]. Qed.
Lemma mono_alloc_z r : mono (alloc_z r).
Proof. intros h. split; [apply store_app | split; apply store_refl]. Qed.
Lemma mono_alloc_t r : mono (alloc_t r).
Proof. intros h. split; [apply store_refl | split; [apply store_app | apply store_refl]]. Qed.
Lemma mono_alloc_opts o : mono (alloc_opts o).
Proof. induction o as [|(k & r) o IH]; [apply mono_ret|]. cbn [alloc_opts]. apply mono_bind; [apply mono_alloc_o|]. intros ls. apply mono_bind; [exact IH|]. intros; apply mono_ret. Qed.
Lemma mono_alloc_walk w : mono (alloc_walk w).
Proof.
  unfold alloc_walk. apply mono_bind; [apply mono_alloc_z|]. intros x. apply mono_bind; [apply mono_alloc_z|]. intros y. apply mono_bind; [apply mono_alloc_t|]. intros t. apply mono_bind; [apply mono_alloc_opts|]. intros; apply mono_ret.
Qed.
Lemma mono_generate P draws np xl yl t0 m prev s : mono (hgenerate P draws np xl yl t0 m prev s).
Proof. unfold hgenerate. apply mono_bind; [apply mono_lift|]. intros s0. destruct (s_walk s0); [|apply mono_lift]. apply mono_bind; [apply mono_alloc_walk|]. intros; apply mono_ret. Qed.
Lemma mono_read_opts np vars : forall o acc, mono (hread_opts np vars o acc).
Proof.
  induction vars as [|v vars IH]; intros o acc; [apply mono_ret|]. cbn [hread_opts]. destruct (str_in v base_vars); [apply IH|]. destruct (dget v o); [apply IH|].
  apply mono_bind; [apply mono_alloc_o|]. intros; apply IH.
Qed.
Lemma mono_step lm P draws s : mono (hrun_step lm P draws s).
Proof.
  unfold hrun_step. destruct (hs_walk s) as [d|]; [|apply mono_lift]. apply mono_bind; [apply mono_read|]. intros wd. do 3 (apply mono_bind; [apply mono_lift|]; intros ?).
  apply mono_bind; [apply mono_read_opts|]. intros od. apply mono_bind; [apply mono_read|]. intros ov. apply mono_bind; [apply mono_lift|]. intros _.
  apply mono_bind; [apply mono_lift|]. intros [[[new_inds tts] upd] ws]. apply mono_bind; [apply mono_append|]. intros; apply mono_ret.
Qed.
Lemma mono_loop lm P draws target mi ii d : forall fuel est c s, mono (hloop fuel lm P draws target mi ii d est c s).
Proof.
  induction fuel as [|fuel IH]; intros est c s; [apply mono_lift|]. cbn [hloop]. apply mono_bind; [apply mono_read|]. intros m. do 3 (apply mono_bind; [apply mono_lift|]; intros ?).
  destruct (nleb _ _); [|apply mono_ret]. apply mono_bind; [apply mono_lift|]. intros _. apply mono_bind; [apply mono_lift|]. intros [[[ni tts] upd] s'].
  apply mono_bind; [apply mono_lift|]. intros p. destruct (negb _); [|apply mono_ret]. apply mono_bind; [apply mono_append|]. intros _. apply mono_bind; [apply mono_read|]. intros m'.
  apply mono_bind; [apply mono_lift|]. intros t'. destruct (_ <? _)%Z; [apply mono_ret | apply IH].
Qed.
Lemma mono_particles lm P draws target mi d : forall idx s, mono (hparticles lm P draws target mi idx d s).
Proof.
  induction idx as [|ii idx IH]; intros s; [apply mono_ret|]. cbn [hparticles]. apply mono_bind; [apply mono_read|]. intros m. do 4 (apply mono_bind; [apply mono_lift|]; intros ?).
  apply mono_bind; [destruct (near_edge _ _ _); [apply mono_ret | apply mono_loop]|]. intros; apply IH.
Qed.
Lemma mono_target lm P draws target mi s : mono (hrun_target lm P draws target mi s).
Proof.
  unfold hrun_target. destruct (hs_walk s) as [d|]; [|apply mono_lift]. apply mono_bind; [apply mono_read|]. intros wd. do 3 (apply mono_bind; [apply mono_lift|]; intros ?).
  apply mono_bind; [apply mono_read_opts|]. intros od. apply mono_bind; [apply mono_read|]. intros ov. apply mono_bind; [apply mono_lift|]. intros _.
  apply mono_bind; [apply mono_particles|]. intros ws. apply mono_bind; [apply mono_lift|]. intros; apply mono_ret.
Qed.
Lemma mono_do lm P draws o s : mono (hdo lm P draws o s).
Proof.
  destruct o; cbn [hdo]; [apply mono_bind; [apply mono_generate | intros; apply mono_ret] | apply mono_bind; [apply mono_step | intros; apply mono_ret] | apply mono_bind; [apply mono_target | intros; apply mono_ret] | apply mono_ret].
Qed.
Lemma grows_wdo lm P draws k o w : grows (wh w) (wh (fst (wdo lm P draws k o w))).
Proof. unfold wdo. pose proof (mono_do lm (P k) (draws k) o (wo w k) (wh w)) as H. destruct (hdo _ _ _ _ _ _) as (h' & [[r s']|e]); exact H. Qed.
Lemma grows_wdos lm P draws prog : forall w, grows (wh w) (wh (wdos lm P draws prog w)).
Proof. induction prog as [|(k & o) prog IH]; intros w; [apply grows_refl|]. cbn [wdos fold_left fst snd]. eapply grows_trans; [apply grows_wdo | apply IH]. Qed.
Lemma exists_grows h h' l : grows h h' -> exists_in h l -> exists_in h' l.
Proof. intros ((A & _) & (B & _) & (C & _)). destruct l; cbn; lia. Qed.
Lemma valid_grows h h' d : grows h h' -> valid h d -> valid h' d.
Proof. intros G (A & B). split; [exact A|]. intros p l E. eapply exists_grows; [exact G | eapply B, E]. Qed.
Lemma view_grows h h' d : grows h h' -> valid h d -> walk_grows (view h d) (view h' d).
Proof.
  intros ((_ & GZ) & (_ & GT) & (_ & GO)) (ND & V).
  assert (F : forall A (st st' : list (list A)) ls, (forall l, In l ls -> prefix (sread st l) (sread st' l)) -> lists_grow (map (sread st) ls) (map (sread st') ls)).
  { clear. intros A st st' ls H. induction ls as [|l ls IH]; [constructor|]. constructor; [apply H; left; reflexivity | apply IH; intros q I; apply H; right; exact I]. }
  split; [|split; [|split]]; cbn [view xinds yinds times opts].
  - apply F. intros l I. apply GZ. destruct (in_lookup_x _ _ I) as (i & E). exact (V _ _ E).
  - apply F. intros l I. apply GZ. destruct (in_lookup_y _ _ I) as (i & E). exact (V _ _ E).
  - apply F. intros l I. apply GT. destruct (in_lookup_t _ _ I) as (i & E). exact (V _ _ E).
  - unfold view_opts. assert (H : forall k ls, In (k, ls) (d_o d) -> lists_grow (map (sread (h_o h)) ls) (map (sread (h_o h')) ls)).
    { intros k ls I. apply F. intros l J. apply GO. destruct (in_lookup_o d k ls l ND I J) as (i & E). exact (V _ _ E). }
    revert H. generalize (d_o d). clear. intros o H. induction o as [|(k & ls) o IH]; [constructor|]. constructor; [split; [reflexivity | apply (H k ls); left; reflexivity] | apply IH; intros k1 l1 I; apply (H k1); right; exact I].
Qed.
End Heap.

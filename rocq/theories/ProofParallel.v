(** parallel_routing: every schedule, and what workers share. *)
From Coq Require Import ZArith Bool String List Lia.
From Verif Require Import Num Py NumFacts NumMore Walker ParticleTrack SpecWeights SpecPick SpecWalk SpecHist SpecInit SpecMotion SpecApi PostProc Parallel SpecPar
  ProofPick ProofStep ProofRun ProofRunTo ProofGen ProofHist ProofApi2 ProofSeed ProofDraws.
Import ListNotations.
Open Scope Z_scope.
Open Scope res_scope.

(** ** Dictionaries *)
Lemma dset_map {A} (f : string -> A) vs k a : NoDup vs -> In k vs -> dset k a (map (fun v => (v, f v)) vs) = map (fun v => (v, if String.eqb v k then a else f v)) vs.
Proof.
  intros ND I. induction ND as [|v vs NI ND IH]; [contradiction|]. cbn [map dset]. destruct (String.eqb_spec k v) as [->|NE].
  - rewrite String.eqb_refl. f_equal. apply map_ext_in. intros u Hu. destruct (String.eqb_spec u v) as [->|_]; [contradiction | reflexivity].
  - destruct I as [->|I]; [congruence|]. rewrite (IH I). f_equal. f_equal. destruct (String.eqb_spec v k); [congruence | reflexivity].
Qed.

Section C.
Context {T : Type} {N : Num T}.
Notation col w v := (dflt (dget v (opts w)) []).

Lemma extend_vars_part (g f : string -> list (list (option T))) vs l : NoDup vs -> NoDup l -> incl l vs ->
  extend_vars (map (fun v => (v, g v)) l) (map (fun v => (v, f v)) vs) = Ok (map (fun v => (v, if str_in v l then f v ++ g v else f v)) vs).
Proof.
  intros NV NL. unfold extend_vars. revert f. induction NL as [|k l NI NL IH]; intros f I; cbn [map foldM].
  - reflexivity.
  - cbn [fst snd]. rewrite dget_map by (apply I; left; reflexivity). cbn [bind]. rewrite dset_map by (first [exact NV | apply I; left; reflexivity]).
    rewrite (IH (fun v => if String.eqb v k then f k ++ g k else f v)) by (intros x Hx; apply I; right; exact Hx). f_equal. apply map_ext. intros v. f_equal.
    unfold str_in. cbn [existsb]. destruct (String.eqb_spec v k) as [->|NE]; cbn [orb]; [|reflexivity].
    fold (str_in k l). destruct (str_in k l) eqn:E; [apply str_in_spec in E; contradiction | reflexivity].
Qed.
Lemma extend_vars_ok (g f : string -> list (list (option T))) vs : NoDup vs ->
  extend_vars (map (fun v => (v, g v)) vs) (map (fun v => (v, f v)) vs) = Ok (map (fun v => (v, f v ++ g v)) vs).
Proof.
  intros ND. rewrite extend_vars_part by (first [assumption | apply incl_refl]). f_equal. apply map_ext_in. intros v Hv. rewrite (proj2 (str_in_spec v vs) Hv). reflexivity.
Qed.

Definition keyed (vs : list string) (r : walk T) : Prop := map fst (opts r) = vs.
Lemma keyed_opts vs r : NoDup vs -> keyed vs r -> opts r = map (fun v => (v, col r v)) vs.
Proof. intros ND <-. apply canon. exact ND. Qed.
Lemma foldM_extend vs : NoDup vs -> forall rs acc, (forall r, In r rs -> keyed vs r) -> keyed vs acc ->
  foldM extend_walk rs acc = Ok {| xinds := xinds acc ++ concat (map xinds rs); yinds := yinds acc ++ concat (map yinds rs); times := times acc ++ concat (map times rs);
    opts := map (fun v => (v, col acc v ++ concat (map (fun r => col r v) rs))) vs |}.
Proof.
  intros ND. induction rs as [|r rs IH]; intros acc H K; cbn [foldM map concat].
  - rewrite !app_nil_r. rewrite (map_ext _ (fun v => (v, col acc v))) by (intros v; rewrite app_nil_r; reflexivity). rewrite <- (keyed_opts vs acc ND K). destruct acc; reflexivity.
  - unfold extend_walk at 1. rewrite (keyed_opts vs r ND) by (apply H; left; reflexivity). rewrite (keyed_opts vs acc ND K). rewrite extend_vars_ok by exact ND. cbn [bind].
    rewrite IH; [| intros; apply H; right; assumption | unfold keyed; cbn [opts]; rewrite map_map; cbn [fst]; apply map_id].
    cbn [xinds yinds times opts]. rewrite !app_assoc. f_equal. f_equal. apply map_ext_in. intros v Hv. f_equal.
    rewrite !(dget_map (fun v => _)) by exact Hv. cbn [dflt]. rewrite <- app_assoc. reflexivity.
Qed.
Lemma combine_ok vs rs : NoDup vs -> rs <> [] -> (forall r, In r rs -> keyed vs r) ->
  combine_result rs = Ok {| xinds := concat (map xinds rs); yinds := concat (map yinds rs); times := concat (map times rs); opts := map (fun v => (v, concat (map (fun r => col r v) rs))) vs |}.
Proof.
  intros ND NE H. unfold combine_result. destruct rs as [|r0 rs]; [congruence|]. assert (K0 := H r0 (or_introl eq_refl)).
  rewrite (foldM_extend vs ND).
  - cbn [xinds yinds times opts app]. f_equal. f_equal. apply map_ext_in. intros v Hv. f_equal. rewrite (keyed_opts vs r0 ND K0), map_map. cbn [fst].
    rewrite (dget_map (fun _ => [])) by exact Hv. reflexivity.
  - exact H.
  - unfold keyed in *. cbn [opts]. rewrite map_map. cbn [fst]. rewrite <- K0. reflexivity.
Qed.
Lemma concat_nth {A} (d : A) K (ls : list (list A)) t q : (forall l, In l ls -> length l = K) -> (t < length ls)%nat -> (q < K)%nat -> nth (t * K + q) (concat ls) d = nth q (nth t ls []) d.
Proof.
  revert t. induction ls as [|l ls IH]; intros t H Ht Hq; [cbn in Ht; lia|]. cbn [concat]. pose proof (H l (or_introl eq_refl)) as Ll. destruct t as [|t].
  - cbn [Nat.mul Nat.add nth]. apply app_nth1. lia.
  - rewrite app_nth2 by (rewrite Ll; cbn [Nat.mul]; lia). rewrite Ll. replace (S t * K + q - K)%nat with (t * K + q)%nat by (cbn [Nat.mul]; lia). cbn [nth]. apply IH; [intros; apply H; right; assumption | cbn in Ht; lia | exact Hq].
Qed.
Lemma concat_len {A} K (ls : list (list A)) : (forall l, In l ls -> length l = K) -> length (concat ls) = (length ls * K)%nat.
Proof. induction ls as [|l ls IH]; intros H; [reflexivity|]. cbn [concat length]. rewrite app_length, (H l (or_introl eq_refl)), IH by (intros; apply H; right; assumption). reflexivity. Qed.

Definition block vs K (r : walk T) : Prop := keyed vs r /\ shaped vs r /\ count r = K.
Lemma combine_blocks vs K rs w : NoDup vs -> rs <> [] -> (forall r, In r rs -> block vs K r) -> combine_result rs = Ok w ->
  count w = (length rs * K)%nat /\ shaped vs w /\ keyed vs w /\
  forall t q, (t < length rs)%nat -> (q < K)%nat -> forall d, row vs w (t * K + q) = row vs (nth t rs d) q.
Proof.
  intros ND NE B E. rewrite (combine_ok vs rs ND NE) in E by (intros r Hr; apply (B r Hr)). injection E as <-.
  assert (X : forall l, In l (map xinds rs) -> length l = K) by (intros l Hl; apply in_map_iff in Hl as (r & <- & Hr); apply (B r Hr)).
  assert (Y : forall l, In l (map yinds rs) -> length l = K) by (intros l Hl; apply in_map_iff in Hl as (r & <- & Hr); destruct (B r Hr) as (_ & (A & _) & <-); exact A).
  assert (TT : forall l, In l (map times rs) -> length l = K) by (intros l Hl; apply in_map_iff in Hl as (r & <- & Hr); destruct (B r Hr) as (_ & (_ & A & _) & <-); exact A).
  assert (O : forall v, In v vs -> forall l, In l (map (fun r => col r v) rs) -> length l = K).
  { intros v Hv l Hl. apply in_map_iff in Hl as (r & <- & Hr). destruct (B r Hr) as (_ & (_ & _ & A) & <-). destruct (A v Hv) as (c & -> & Lc). exact Lc. }
  split; [unfold count; cbn [xinds]; rewrite (concat_len K) by exact X; rewrite map_length; reflexivity|]. split.
  - unfold shaped, count. cbn [xinds yinds times opts]. rewrite !(concat_len K) by assumption. rewrite !map_length. split; [reflexivity|]. split; [reflexivity|].
    intros v Hv. rewrite (dget_map (fun v => _)) by exact Hv. eexists. split; [reflexivity|]. rewrite (concat_len K) by (apply O; exact Hv). rewrite map_length. reflexivity.
  - split; [unfold keyed; cbn [opts]; rewrite map_map; cbn [fst]; apply map_id|].
    intros t q Ht Hq d. unfold row. cbn [xinds yinds times opts].
    assert (NT : forall (f : walk T -> list (list Z)), nth t (map f rs) [] = f (nth t rs d)) by (intros f; rewrite (nth_indep _ [] (f d)) by (rewrite map_length; exact Ht); apply map_nth).
    f_equal.
    + rewrite (concat_nth [] K) by (try assumption; rewrite map_length; exact Ht). rewrite NT. reflexivity.
    + rewrite (concat_nth [] K) by (try assumption; rewrite map_length; exact Ht). rewrite NT. reflexivity.
    + rewrite (concat_nth [] K) by (try assumption; rewrite map_length; exact Ht). rewrite (nth_indep _ [] (times d)) by (rewrite map_length; exact Ht). rewrite map_nth. reflexivity.
    + apply map_ext_in. intros v Hv. f_equal. rewrite (dget_map (fun v => _)) by exact Hv. cbn [dflt]. rewrite (concat_nth [] K) by (try (apply O; exact Hv); try rewrite map_length; assumption).
      rewrite (nth_indep _ [] (col d v)) by (rewrite map_length; exact Ht). rewrite (map_nth (fun r => col r v)). reflexivity.
Qed.

(** ** The pool *)
Section Pool.
Variables (run : nat -> nat -> res (walk T * nat)) (c : nat) (start : nat -> nat).
(** r is what some worker's run from some position delivers *)
Definition delivered (w pos : nat) (r : res (walk T)) : Prop := match run w pos with Ok (wd, _) => r = Ok wd | Err e => r = Err e end.
Definition pool_inv (p : pool T) : Prop := length (p_out p) = c /\ forall t r, nth t (p_out p) None = Some r -> exists w pos, delivered w pos r.
Lemma nth_upd {A} t t' (a d : A) l : nth t (upd_nth t' a l) d = if Nat.eqb t t' && Nat.ltb t (length l) then a else nth t l d.
Proof.
  destruct (Nat.eqb_spec t t') as [->|NE]; [|cbn [andb]; apply upd_nth_other; congruence]. destruct (Nat.ltb_spec t' (length l)); cbn [andb]; [apply upd_nth_same; assumption|].
  rewrite !nth_overflow; [reflexivity | assumption | rewrite upd_nth_length; assumption].
Qed.
Lemma pool_step_inv e p p' : pool_inv p -> pool_step run c e p = Some p' -> pool_inv p'.
Proof.
  intros (L & H) E. destruct e as [w|w]; cbn [pool_step] in E.
  - destruct (Nat.ltb w c && Nat.ltb (p_next p) c); [|discriminate]. destruct (p_busy p w); [discriminate|]. injection E as <-. split; assumption.
  - destruct (p_busy p w) as [t0|]; [|discriminate]. injection E as <-.
    destruct (run w (p_rng p w)) as [(wd, pos)|e] eqn:R; (split; cbn [p_out]; [rewrite upd_nth_length; exact L|]); intros t r; rewrite nth_upd;
      (destruct (Nat.eqb t t0 && Nat.ltb t (length (p_out p))); [|apply H]); intros E; injection E as <-; exists w, (p_rng p w); unfold delivered; rewrite R; reflexivity.
Qed.
Lemma pool_run_inv es : forall p p', pool_inv p -> pool_run run c es p = Some p' -> pool_inv p'.
Proof.
  induction es as [|e es IH]; intros p p' I E; cbn [pool_run] in E; [injection E as <-; exact I|].
  destruct (pool_step run c e p) as [p1|] eqn:S1; [|discriminate]. eapply IH; [eapply pool_step_inv; eassumption | exact E].
Qed.
Lemma pool_init_inv : pool_inv (pool_init c start).
Proof. split; [apply repeat_length|]. intros t r E. cbn [pool_init p_out] in E. rewrite nth_repeat in E. discriminate. Qed.
Lemma gather_ok (l : list (option (res (walk T)))) ws : gather l = Some (Ok ws) -> l = map (fun w => Some (Ok w)) ws.
Proof.
  revert ws. induction l as [|[[w|e]|] l IH]; intros ws E; cbn [gather] in E; try discriminate.
  - injection E as <-. reflexivity.
  - destruct (gather l) as [[ws'|e]|] eqn:G; try discriminate. cbn [bind] in E. injection E as <-. cbn [map]. rewrite <- (IH ws' eq_refl). reflexivity.
  - destruct (gather l) as [[ws'|e']|]; discriminate.
Qed.
Lemma gather_some (l : list (option (res (walk T)))) : (forall t, (t < length l)%nat -> exists w, nth t l None = Some (Ok w)) -> exists ws, gather l = Some (Ok ws).
Proof.
  induction l as [|o l IH]; intros H; [eexists; reflexivity|]. destruct (H 0%nat) as (w & E); [cbn; lia|]. cbn [nth] in E. subst o. destruct IH as (ws & G); [intros t Ht; apply (H (S t)); cbn; lia|].
  cbn [gather]. rewrite G. cbn [bind]. eauto.
Qed.
Lemma gather_none (l : list (option (res (walk T)))) r t : gather l = Some r -> (t < length l)%nat -> nth t l None <> None.
Proof.
  revert r t. induction l as [|[o|] l IH]; intros r t E Ht; [cbn in Ht; lia | |discriminate]. destruct t as [|t]; [discriminate|]. cbn [nth gather] in *. destruct (gather l) as [rs|]; [|discriminate]. eapply IH; [reflexivity | cbn in Ht; lia].
Qed.

(** Executions in which no worker takes two tasks. *)
Definition first_inv (later : list nat) (p : pool T) : Prop :=
  (forall w, In w later -> p_rng p w = start w) /\ (forall w t, p_busy p w = Some t -> p_rng p w = start w /\ ~ In w later) /\
  (forall t r, nth t (p_out p) None = Some r -> exists w, delivered w (start w) r).
Lemma first_run es : forall p p', NoDup (takers es) -> first_inv (takers es) p -> pool_run run c es p = Some p' -> first_inv [] p'.
Proof.
  induction es as [|e es IH]; intros p p' ND (A & B & D) E; cbn [pool_run] in E.
  - injection E as <-. split; [intros w []|]. split; [|exact D]. intros w t Hb. split; [apply (B w t Hb) | intros []].
  - destruct (pool_step run c e p) as [p1|] eqn:S1; [|discriminate]. destruct e as [w|w]; cbn [pool_step takers] in *.
    + destruct (Nat.ltb w c && Nat.ltb (p_next p) c); [|discriminate]. destruct (p_busy p w) eqn:PB; [discriminate|]. injection S1 as <-. inversion ND as [|? ? NI ND']; subst.
      eapply IH; [exact ND' | | exact E]. split; [intros v Hv; apply A; right; exact Hv|]. cbn [p_busy p_rng p_out]. split; [|exact D].
      intros v t Hv. unfold set_at in Hv. destruct (Nat.eqb_spec v w) as [->|NE]; [split; [apply A; left; reflexivity | exact NI]|]. destruct (B v t Hv) as (B1 & B2). split; [exact B1 | intros Hv'; apply B2; right; exact Hv'].
    + destruct (p_busy p w) as [t0|] eqn:PB; [|discriminate]. destruct (B w t0 PB) as (RW & NW). injection S1 as <-. eapply IH; [exact ND | | exact E].
      assert (DL : forall r, delivered w (p_rng p w) r -> forall t r', nth t (upd_nth t0 (Some r) (p_out p)) None = Some r' -> exists w, delivered w (start w) r').
      { intros r Dr t r'. rewrite nth_upd. destruct (Nat.eqb t t0 && Nat.ltb t (length (p_out p))); [|apply D]. intros E'. injection E' as <-. exists w. rewrite <- RW. exact Dr. }
      assert (BS : forall rng, (forall v, v <> w -> rng v = p_rng p v) -> forall v t, set_at (p_busy p) w None v = Some t -> rng v = start v /\ ~ In v (takers es)).
      { intros rng HR v t Hv. unfold set_at in Hv. destruct (Nat.eqb_spec v w) as [->|NE]; [discriminate|]. rewrite (HR v NE). exact (B v t Hv). }
      destruct (run w (p_rng p w)) as [(wd, pos)|e] eqn:R.
      * split; cbn [p_rng p_busy p_out].
        -- intros v Hv. unfold set_at. destruct (Nat.eqb_spec v w) as [->|NE]; [contradiction | apply A; exact Hv].
        -- split; [apply BS; intros v Hv; unfold set_at; destruct (Nat.eqb_spec v w); [contradiction | reflexivity]|]. apply DL. unfold delivered. rewrite R. reflexivity.
      * split; cbn [p_rng p_busy p_out]; [exact A|]. split; [apply BS; reflexivity|]. apply DL. unfold delivered. rewrite R. reflexivity.
Qed.
Lemma first_init l : first_inv l (pool_init c start).
Proof. split; [reflexivity|]. split; [discriminate|]. intros t r E. cbn [pool_init p_out] in E. rewrite nth_repeat in E. discriminate. Qed.

(** Tasks of the same worker use consecutive segments of its stream. *)
Hypothesis mono : forall w n wd n', run w n = Ok (wd, n') -> (n <= n')%nat.
Definition busy_inv (p : pool T) : Prop :=
  (forall w t, p_busy p w = Some t -> (t < p_next p)%nat /\ nth t (p_out p) None = None) /\
  (forall t, (p_next p <= t)%nat -> nth t (p_out p) None = None) /\
  (forall w w' t, p_busy p w = Some t -> p_busy p w' = Some t -> w = w').
Definition seg_inv (wk a b : nat -> nat) (p : pool T) : Prop :=
  (forall t wd, nth t (p_out p) None = Some (Ok wd) -> run (wk t) (a t) = Ok (wd, b t) /\ (b t <= p_rng p (wk t))%nat) /\
  (forall t t' wd wd', nth t (p_out p) None = Some (Ok wd) -> nth t' (p_out p) None = Some (Ok wd') -> t <> t' -> wk t = wk t' -> (b t <= a t' \/ b t' <= a t)%nat).
Lemma busy_step e p p' : busy_inv p -> pool_step run c e p = Some p' -> busy_inv p'.
Proof.
  intros (A & B & D) E. destruct e as [w|w]; cbn [pool_step] in E.
  - destruct (Nat.ltb w c && Nat.ltb (p_next p) c); [|discriminate]. destruct (p_busy p w); [discriminate|]. injection E as <-. unfold busy_inv. cbn [p_next p_busy p_out]. split; [|split].
    + intros v t Hv. unfold set_at in Hv. destruct (Nat.eqb_spec v w); [injection Hv as <-; split; [lia | apply B; lia]|]. destruct (A v t Hv). split; [lia | assumption].
    + intros t Ht. apply B. lia.
    + intros v v' t Hv Hv'. unfold set_at in Hv, Hv'. destruct (Nat.eqb_spec v w) as [->|NE], (Nat.eqb_spec v' w) as [->|NE'].
      * reflexivity.
      * injection Hv as <-. destruct (A v' _ Hv'). lia.
      * injection Hv' as <-. destruct (A v _ Hv). lia.
      * eapply D; eassumption.
  - destruct (p_busy p w) as [t0|] eqn:PB; [|discriminate]. injection E as <-. destruct (A w t0 PB) as (L0 & N0).
    assert (X : forall r rng, busy_inv {| p_next := p_next p; p_busy := set_at (p_busy p) w None; p_rng := rng; p_out := upd_nth t0 (Some r) (p_out p) |}).
    { intros r rng. unfold busy_inv. cbn [p_next p_busy p_out]. split; [|split].
      - intros v t Hv. unfold set_at in Hv. destruct (Nat.eqb_spec v w); [discriminate|]. destruct (A v t Hv) as (A1 & A2). split; [exact A1|]. rewrite nth_upd. destruct (Nat.eqb_spec t t0) as [->|_]; [|exact A2].
        exfalso. apply n. eapply D; eassumption.
      - intros t Ht. rewrite nth_upd. destruct (Nat.eqb_spec t t0); [lia|]. apply B. exact Ht.
      - intros v v' t Hv Hv'. unfold set_at in Hv, Hv'. destruct (Nat.eqb_spec v w), (Nat.eqb_spec v' w); try discriminate. eapply D; eassumption. }
    destruct (run w (p_rng p w)) as [(wd, pos)|e]; apply X.
Qed.
Lemma seg_step e p p' : busy_inv p -> (exists wk a b, seg_inv wk a b p) -> pool_step run c e p = Some p' -> exists wk a b, seg_inv wk a b p'.
Proof.
  intros (A & B & D) (wk & a & b & H1 & H2) E. destruct e as [w|w]; cbn [pool_step] in E.
  - destruct (Nat.ltb w c && Nat.ltb (p_next p) c); [|discriminate]. destruct (p_busy p w); [discriminate|]. injection E as <-. exists wk, a, b. split; assumption.
  - destruct (p_busy p w) as [t0|] eqn:PB; [|discriminate]. injection E as <-. destruct (A w t0 PB) as (L0 & N0). destruct (run w (p_rng p w)) as [(wd, pos)|e] eqn:R.
    + assert (M := mono _ _ _ _ R). exists (set_at wk t0 w), (set_at a t0 (p_rng p w)), (set_at b t0 pos). unfold seg_inv, set_at. cbn [p_out p_rng]. split.
      * intros t wd'. rewrite nth_upd. destruct (Nat.eqb_spec t t0) as [->|NE]; cbn [andb].
        -- destruct (Nat.ltb _ _); [|rewrite N0; discriminate]. intros E. injection E as <-. rewrite Nat.eqb_refl. split; [exact R | lia].
        -- intros E. destruct (H1 t wd' E) as (C1 & C2). split; [exact C1|]. destruct (Nat.eqb_spec (wk t) w) as [Ew|_]; [rewrite Ew in C2; lia | exact C2].
      * intros t t' wd1 wd2. rewrite !nth_upd. destruct (Nat.eqb_spec t t0) as [->|NE]; destruct (Nat.eqb_spec t' t0) as [->|NE']; cbn [andb]; intros E1 E2 NT EW; [congruence| | |eapply H2; eassumption].
        -- right. destruct (H1 t' _ E2) as (_ & C). rewrite <- EW in C. exact C.
        -- left. destruct (H1 t _ E1) as (_ & C). rewrite EW in C. exact C.
    + exists wk, a, b. unfold seg_inv. cbn [p_out p_rng]. split.
      * intros t wd'. rewrite nth_upd. destruct (Nat.eqb t t0 && _); [discriminate | apply H1].
      * intros t t' wd1 wd2. rewrite !nth_upd. destruct (Nat.eqb t t0 && _); [discriminate|]. destruct (Nat.eqb t' t0 && _); [discriminate|]. apply H2.
Qed.
Lemma seg_run es : forall p p', busy_inv p -> (exists wk a b, seg_inv wk a b p) -> pool_run run c es p = Some p' -> exists wk a b, seg_inv wk a b p'.
Proof.
  induction es as [|e es IH]; intros p p' I J E; cbn [pool_run] in E; [injection E as <-; exact J|].
  destruct (pool_step run c e p) as [p1|] eqn:S1; [|discriminate]. eapply IH; [eapply busy_step | eapply seg_step |]; eassumption.
Qed.
Lemma seg_init : busy_inv (pool_init c start) /\ exists wk a b, seg_inv wk a b (pool_init c start).
Proof.
  split.
  - unfold busy_inv. cbn [pool_init p_next p_busy p_out]. split; [discriminate|]. split; [intros; apply nth_repeat | discriminate].
  - exists (fun _ => 0%nat), (fun _ => 0%nat), (fun _ => 0%nat). unfold seg_inv. cbn [pool_init p_out]. split; intros *; rewrite nth_repeat; discriminate.
Qed.
End Pool.

(** ** Tasks *)
Section Task.
Context {NL : NumLaws T} {NM : NumMore T}.
Context {GV : T -> Prop}.
Lemma SInv_pos lm (P : pobj T) s n : SInv (GV := GV) lm P s -> SInv (GV := GV) lm P (with_pos s n).
Proof. exact (fun H => H). Qed.
Lemma iterate_spec lm (P : pobj T) draws : field_ok lm P -> unit_stream GV draws -> forall n last s w0, SInv (GV := GV) lm P s -> s_walk s = Some w0 ->
  forall l s', iterate lm P draws n last s = Ok (l, s') -> SInv (GV := GV) lm P s' /\ exists w', s_walk s' = Some w' /\ count w' = count w0 /\ (l = Some w' \/ (n = 0%nat /\ l = last)) /\
    forall p, (p < count w0)%nat -> exists m, (m <= n)%nat /\ extends GV lm P m (row (tvars P) w0 p) (row (tvars P) w' p).
Proof.
  intros FO U. induction n as [|n IH]; intros last s w0 SI SW l s' E; cbn [iterate] in E.
  - injection E as <- <-. split; [exact SI|]. exists w0. split; [exact SW|]. split; [reflexivity|]. split; [right; auto|]. intros p _. exists 0%nat. split; [lia | constructor].
  - apply bind_ok in E as ((w, s1) & E1 & E2). assert (SI1 := run_inv lm P draws s w s1 FO U SI E1).
    assert (SI' := SI). destruct SI' as (WI & IN). rewrite SW in IN. destruct IN as (VO & NP & KE & HO).
    destruct (run_step_spec lm P draws s w0 w s1 FO U WI VO SW NP (hist_walk_ok _ _ _ FO KE HO) E1) as (SW' & NP' & CT & _ & _ & _ & ST).
    destruct (IH (Some w) s1 w SI1 SW' l s' E2) as (A & w' & B & C & D & F). split; [exact A|]. exists w'. split; [exact B|]. split; [congruence|]. split.
    + left. destruct D as [D|(-> & ->)]; [exact D|]. cbn [iterate] in E2. injection E2 as <-. congruence.
    + intros p Hp. destruct (F p) as (m & Hm & EX); [lia|]. destruct (ST p Hp) as [(EQ & _)|E1'].
      * exists m. split; [lia|]. rewrite <- EQ. exact EX.
      * exists (m + 1)%nat. split; [lia|]. eapply extends_trans; [apply extends_one; exact E1' | exact EX].
Qed.
Lemma iterate_total lm (P : pobj T) draws : field_ok lm P -> weights_finite lm P -> unit_stream GV draws -> forall n last s w0, SInv (GV := GV) lm P s -> s_walk s = Some w0 -> (0 < n)%nat ->
  exists w s', iterate lm P draws n last s = Ok (Some w, s').
Proof.
  intros FO WF U. induction n as [|n IH]; intros last s w0 SI SW Hn; [lia|]. cbn [iterate]. assert (SI' := SI). destruct SI' as (WI & IN). rewrite SW in IN. destruct IN as (VO & NP & KE & HO).
  destruct (run_step_total lm P draws s w0 FO WF U WI VO SW NP (hist_walk_ok _ _ _ FO KE HO)) as (w & s1 & E). rewrite E. cbn [bind].
  destruct (run_step_spec lm P draws s w0 w s1 FO U WI VO SW NP (hist_walk_ok _ _ _ FO KE HO) E) as (SW' & _).
  destruct n as [|n]; [cbn [iterate]; eauto|]. eapply IH; [exact (run_inv lm P draws s w s1 FO U SI E) | exact SW' | lia].
Qed.
Lemma gen_count lm (P : pobj T) draws np xl yl t0 s s' : field_ok lm P -> SInv (GV := GV) lm P s -> op_ok GV lm P (OpGen np xl yl t0 Random None) ->
  generate_particles P draws np xl yl t0 Random None s = Ok s' -> SInv (GV := GV) lm P s' /\ exists w, s_walk s' = Some w /\ count w = (stored_count s + Z.to_nat np)%nat /\
    (forall p, (p < stored_count s)%nat -> row (tvars P) w p = opt_row (tvars P) (s_walk s) p) /\
    forall p, (p < Z.to_nat np)%nat -> exists x y, In x xl /\ In y yl /\ row (tvars P) w (stored_count s + p) = seed_row P (tvars P) x y t0.
Proof.
  intros FO SI OK E. split; [exact (gen_inv lm P draws np xl yl t0 Random None s s' FO SI OK E)|]. destruct SI as (WI & IN), OK as (SO & PO).
  destruct (generate_spec lm P draws np xl yl t0 Random None s s' FO SO) as (VO & NE & w' & xs & ys & EW & EN & EA & SD & CT & _ & _ & _ & OLD & NEW); try exact E; [destruct (s_walk s); [apply IN | exact I] | exact I|].
  exists w'. split; [exact EW|]. split; [exact CT|]. split; [exact OLD|]. intros p Hp. destruct SD as (LX & LY & FX & FY). rewrite Forall_forall in FX, FY.
  exists (nth p xs 0), (nth p ys 0). split; [apply FX, nth_In; lia|]. split; [apply FY, nth_In; lia|]. exact (NEW p Hp).
Qed.
Lemma run_iter_spec lm (P : pobj T) draws num np xl yl s w s' : field_ok lm P -> unit_stream GV draws -> SInv (GV := GV) lm P s -> op_ok GV lm P (OpGen np xl yl n0 Random None) ->
  run_iter lm P draws num np xl yl s = Ok (w, s') -> walk_hist_ok GV lm P w /\ block (tvars P) (stored_count s + Z.to_nat np) w /\
    (forall p, (p < stored_count s)%nat -> exists m, (m <= Z.to_nat num)%nat /\ extends GV lm P m (opt_row (tvars P) (s_walk s) p) (row (tvars P) w p)) /\
    forall p, (p < Z.to_nat np)%nat -> exists x y m, In x xl /\ In y yl /\ (m <= Z.to_nat num)%nat /\ extends GV lm P m (seed_row P (tvars P) x y n0) (row (tvars P) w (stored_count s + p)).
Proof.
  intros FO U SI OK E. unfold run_iter in E. apply bind_ok in E as (s1 & E1 & E). apply bind_ok in E as ((l, s2) & E2 & E).
  destruct (gen_count lm P draws np xl yl n0 s s1 FO SI OK E1) as (SI1 & w1 & SW1 & C1 & O1 & N1).
  destruct (iterate_spec lm P draws FO U (Z.to_nat num) None s1 w1 SI1 SW1 l s2 E2) as (SI2 & w2 & SW2 & C2 & D & F).
  destruct l as [wl|]; [|discriminate]. injection E as -> ->. destruct D as [D|(_ & D)]; [|discriminate]. injection D as ->.
  destruct SI2 as (_ & I2). rewrite SW2 in I2. destruct I2 as (_ & _ & KE & HO). split; [exact HO|]. split; [split; [exact KE|]; split; [apply HO | congruence]|]. split.
  - intros p Hp. rewrite <- (O1 p Hp). apply F. lia.
  - intros p Hp. destruct (N1 p Hp) as (x & y & Hx & Hy & R). destruct (F (stored_count s + p)%nat) as (m & Hm & EX); [lia|]. rewrite R in EX. exists x, y, m. auto.
Qed.
Lemma run_iter_total lm (P : pobj T) draws num np xl yl s : field_ok lm P -> weights_finite lm P -> unit_stream GV draws -> SInv (GV := GV) lm P s -> op_ok GV lm P (OpGen np xl yl n0 Random None) ->
  vars_ok P -> xl <> [] -> yl <> [] -> Z.of_nat (length xl) <= 9007199254740992 -> Z.of_nat (length yl) <= 9007199254740992 -> 1 <= num ->
  exists w s', run_iter lm P draws num np xl yl s = Ok (w, s').
Proof.
  intros FO WF U SI OK VO NX NY BX BY Hn. unfold run_iter. destruct (generate_total lm P draws s np xl yl n0 Random None FO U OK VO NX NY BX BY) as (s1 & E1). rewrite E1. cbn [bind].
  destruct (gen_count lm P draws np xl yl n0 s s1 FO SI OK E1) as (SI1 & w1 & SW1 & C1 & _).
  destruct (iterate_total lm P draws FO WF U (Z.to_nat num) None s1 w1 SI1 SW1) as (w & s2 & E2); [lia|]. rewrite E2. cbn [bind]. eauto.
Qed.
Lemma iterate_loc lm (P : pobj T) d n : forall last s l s', iterate lm P d n last s = Ok (l, s') ->
  (w_pos (s_wst s) <= w_pos (s_wst s'))%nat /\ forall d', agree d d' (w_pos (s_wst s)) (w_pos (s_wst s')) -> iterate lm P d' n last s = Ok (l, s').
Proof.
  induction n as [|n IH]; intros last s l s' E; cbn [iterate] in *; [injection E as <- <-; split; [lia | reflexivity]|].
  apply bind_ok in E as ((w & s1) & E1 & E). destruct (run_step_loc _ _ _ _ _ _ E1) as (A & B). destruct (IH _ _ _ _ E) as (A2 & B2). split; [lia|]. intros d' AG.
  rewrite (B d') by (eapply agree_l; [exact AG | lia]). cbn [bind]. apply (B2 d'). eapply agree_r; [exact AG | lia].
Qed.
Lemma run_iter_loc lm (P : pobj T) d num np xl yl s w s' : run_iter lm P d num np xl yl s = Ok (w, s') ->
  (w_pos (s_wst s) + 2 * Z.to_nat np <= w_pos (s_wst s'))%nat /\ forall d', agree d d' (w_pos (s_wst s)) (w_pos (s_wst s')) -> run_iter lm P d' num np xl yl s = Ok (w, s').
Proof.
  unfold run_iter. intros E. apply bind_ok in E as (s1 & E1 & E). apply bind_ok in E as ((l, s2) & E2 & E). destruct (generate_loc _ _ _ _ _ _ _ _ _ _ E1) as (A & B). destruct (iterate_loc _ _ _ _ _ _ _ _ E2) as (A2 & B2).
  destruct l as [wl|]; [|discriminate]. injection E as -> ->. split; [lia|]. intros d' AG. rewrite (B d') by (eapply agree_l; [exact AG | lia]). cbn [bind]. rewrite (B2 d') by (eapply agree_r; [exact AG | lia]). reflexivity.
Qed.
Lemma task_mono lm (P : pobj T) draws num np xl yl s w n wd n' : task lm P draws num np xl yl s w n = Ok (wd, n') -> (n <= n')%nat.
Proof.
  unfold task. intros E. apply bind_ok in E as ((w1 & s1) & E1 & E). injection E as <- <-. destruct (run_iter_loc _ _ _ _ _ _ _ _ _ _ E1) as (A & _). cbn [with_pos s_wst w_pos] in A. lia.
Qed.

(** ** The whole call *)
Section Call.
Variables (lm : Libm T) (P : pobj T) (draws : nat -> nat -> T) (start : nat -> nat) (num np : Z) (xl yl : list Z) (cores : Z) (s : psim T) (es : list event) (w : walk T).
Hypothesis FO : field_ok lm P.
Hypothesis US : forall k, unit_stream GV (draws k).
Hypothesis SI : SInv (GV := GV) lm P s.
Hypothesis OK : op_ok GV lm P (OpGen np xl yl n0 Random None).
Let K := (stored_count s + Z.to_nat np)%nat.
Let c := Z.to_nat cores.
Lemma par_inv : parallel_routing lm P draws start num np xl yl cores s es = Some (Ok w) ->
  (0 < c)%nat /\ exists p ws, pool_run (task lm P draws num np xl yl s) c es (pool_init c start) = Some p /\ p_out p = map (fun x => Some (Ok x)) ws /\ length ws = c /\ combine_result ws = Ok w.
Proof.
  unfold parallel_routing. destruct (cores <? 1) eqn:E1; [discriminate|]. apply Z.ltb_ge in E1. fold c. destruct (pool_run _ c es _) as [p|] eqn:E2; [|discriminate]. destruct (gather (p_out p)) as [[ws|e]|] eqn:E3; try discriminate.
  cbn [bind]. intros E. injection E as E. split; [unfold c; lia|]. exists p, ws. split; [reflexivity|]. apply gather_ok in E3. split; [exact E3|]. split; [|exact E].
  destruct (pool_run_inv _ c es _ p (pool_init_inv _ c start) E2) as (L & _). rewrite E3, map_length in L. exact L.
Qed.
Lemma out_nth (ws : list (walk T)) t d : (t < length ws)%nat -> nth t (map (fun x => Some (Ok x)) ws) None = Some (Ok (nth t ws d)).
Proof. intros H. rewrite (nth_indep _ None (Some (Ok d))) by (rewrite map_length; exact H). apply (map_nth (fun x => Some (Ok x))). Qed.
Lemma par_segments : parallel_routing lm P draws start num np xl yl cores s es = Some (Ok w) ->
  count w = (c * K)%nat /\ shaped (tvars P) w /\ exists (wk a b : nat -> nat) (wt : nat -> walk T),
    (forall t, (t < c)%nat -> (exists s', run_iter lm P (draws (wk t)) num np xl yl (with_pos s (a t)) = Ok (wt t, s') /\ w_pos (s_wst s') = b t) /\ count (wt t) = K /\
        forall q, (q < K)%nat -> row (tvars P) w (t * K + q) = row (tvars P) (wt t) q) /\
    forall t t', (t < c)%nat -> (t' < c)%nat -> t <> t' -> wk t = wk t' -> (b t <= a t' \/ b t' <= a t)%nat.
Proof.
  intros E. destruct (par_inv E) as (Hc & p & ws & E1 & E2 & E3 & E4). destruct (seg_init (task lm P draws num np xl yl s) c start) as (BI & SG).
  destruct (seg_run _ c (task_mono lm P draws num np xl yl s) es _ p BI SG E1) as (wk & a & b & H1 & H2). rewrite E2 in H1, H2.
  pose (d := {| xinds := []; yinds := []; times := []; opts := [] |} : walk T).
  assert (RUN : forall t, (t < c)%nat -> exists s', run_iter lm P (draws (wk t)) num np xl yl (with_pos s (a t)) = Ok (nth t ws d, s') /\ w_pos (s_wst s') = b t).
  { intros t Ht. rewrite <- E3 in Ht. destruct (H1 t (nth t ws d) (out_nth ws t d Ht)) as (R & _). unfold task in R. apply bind_ok in R as ((w1 & s1) & R1 & R). injection R as -> <-. eauto. }
  assert (BL : forall r, In r ws -> block (tvars P) K r).
  { intros r Hr. destruct (In_nth _ _ d Hr) as (t & Ht & <-). rewrite E3 in Ht. destruct (RUN t Ht) as (s' & R & _).
    destruct (run_iter_spec lm P _ _ _ _ _ _ _ _ FO (US _) (SInv_pos lm P s (a t) SI) OK R) as (_ & B & _). exact B. }
  assert (ND : NoDup (tvars P)) by apply NoDup_tvars.
  destruct (combine_blocks (tvars P) K ws w ND) as (C1 & C2 & _ & C3); [destruct ws; [cbn in E3; lia | discriminate] | exact BL | exact E4|]. rewrite E3 in C1, C3.
  split; [exact C1|]. split; [exact C2|]. exists wk, a, b, (fun t => nth t ws d). split.
  - intros t Ht. split; [exact (RUN t Ht)|]. split; [apply (BL (nth t ws d)); apply nth_In; lia|]. intros q Hq. apply C3; assumption.
  - intros t t' Ht Ht' NE EW. apply (H2 t t' (nth t ws d) (nth t' ws d)); [apply out_nth; lia | apply out_nth; lia | exact NE | exact EW].
Qed.
Lemma par_total r : weights_finite lm P -> vars_ok P -> xl <> [] -> yl <> [] -> Z.of_nat (length xl) <= 9007199254740992 -> Z.of_nat (length yl) <= 9007199254740992 -> 1 <= num -> 1 <= cores ->
  parallel_routing lm P draws start num np xl yl cores s es = Some r -> exists w, r = Ok w.
Proof.
  intros WF VO NX NY BX BY Hn Hc. unfold parallel_routing. replace (cores <? 1) with false by (symmetry; apply Z.ltb_ge; lia). fold c. destruct (pool_run _ c es _) as [p|] eqn:E2; [|discriminate].
  destruct (pool_run_inv _ c es _ p (pool_init_inv _ c start) E2) as (L & H).
  destruct (gather (p_out p)) as [r'|] eqn:E3; [|discriminate].
  destruct (gather_some (p_out p)) as (ws & G).
  { intros t Ht. pose proof (gather_none _ _ t E3 Ht) as NN. destruct (nth t (p_out p) None) as [x|] eqn:EX; [|congruence]. destruct (H t x EX) as (k & n & D). unfold delivered, task in D.
    destruct (run_iter_total lm P (draws k) num np xl yl (with_pos s n) FO WF (US k) (SInv_pos lm P s n SI) OK VO NX NY BX BY Hn) as (w1 & s1 & R). rewrite R in D. cbn [bind] in D. exists w1. rewrite D. reflexivity. }
  rewrite G in E3. injection E3 as <-. cbn [bind]. apply gather_ok in G.
  assert (BL : forall r, In r ws -> block (tvars P) K r).
  { intros x Hx. destruct (In_nth _ _ x Hx) as (t & Ht & ET). destruct (H t (Ok x)) as (k & n & D); [rewrite G, (out_nth ws t x Ht), ET; reflexivity|]. unfold delivered, task in D.
    destruct (run_iter lm P (draws k) num np xl yl (with_pos s n)) as [(w1 & s1)|e] eqn:R; [|discriminate]. cbn [bind] in D. injection D as ->.
    destruct (run_iter_spec lm P _ _ _ _ _ _ _ _ FO (US _) (SInv_pos lm P s n SI) OK R) as (_ & B & _). exact B. }
  rewrite (combine_ok (tvars P) ws); [|apply NoDup_tvars | intros ->; rewrite G in L; cbn in L; unfold c in L; lia | intros r0 Hr; apply (BL r0 Hr)].
  intros E. injection E as <-. eauto.
Qed.
Lemma par_no_iter r : num <= 0 -> 1 <= cores -> vars_ok P -> xl <> [] -> yl <> [] -> Z.of_nat (length xl) <= 9007199254740992 -> Z.of_nat (length yl) <= 9007199254740992 ->
  parallel_routing lm P draws start num np xl yl cores s es = Some r -> r = Err UnboundLocalError.
Proof.
  intros Hn Hc VO NX NY BX BY. unfold parallel_routing. replace (cores <? 1) with false by (symmetry; apply Z.ltb_ge; lia). fold c. destruct (pool_run _ c es _) as [p|] eqn:E2; [|discriminate].
  destruct (pool_run_inv _ c es _ p (pool_init_inv _ c start) E2) as (L & H).
  assert (X : forall t x, nth t (p_out p) None = Some x -> x = Err UnboundLocalError).
  { intros t x EX. destruct (H t x EX) as (k & n & D). unfold delivered, task, run_iter in D. destruct (generate_total lm P (draws k) (with_pos s n) np xl yl n0 Random None FO (US k) OK VO NX NY BX BY) as (s1 & E1).
    rewrite E1 in D. cbn [bind] in D. replace (Z.to_nat num) with 0%nat in D by lia. cbn [iterate bind] in D. exact D. }
  destruct (p_out p) as [|[x|] l] eqn:PO; [cbn in L; unfold c in L; lia | | discriminate]. cbn [gather]. assert (x = Err UnboundLocalError) as -> by (apply (X 0%nat); reflexivity).
  destruct (gather l); [|discriminate]. cbn [bind]. intros E. injection E as <-. reflexivity.
Qed.
(** 'fork': the workers share stream and position. *)
Lemma par_same st : (forall k, draws k = draws 0%nat) -> (forall k, start k = st) -> NoDup (takers es) ->
  parallel_routing lm P draws start num np xl yl cores s es = Some (Ok w) ->
  forall t t' q, (t < c)%nat -> (t' < c)%nat -> (q < K)%nat -> row (tvars P) w (t * K + q) = row (tvars P) w (t' * K + q).
Proof.
  intros DD SS ND E t t' q Ht Ht' Hq. destruct (par_inv E) as (Hc & p & ws & E1 & E2 & E3 & E4).
  destruct (first_run _ c start es _ p ND (first_init _ c start _) E1) as (_ & _ & DEL).
  pose (d := {| xinds := []; yinds := []; times := []; opts := [] |} : walk T).
  assert (TK : forall k n, task lm P draws num np xl yl s k n = task lm P draws num np xl yl s 0%nat n) by (intros k n; unfold task; rewrite (DD k); reflexivity).
  assert (RUN : forall t, (t < c)%nat -> exists n', task lm P draws num np xl yl s 0%nat st = Ok (nth t ws d, n')).
  { intros u Hu. destruct (DEL u (Ok (nth u ws d))) as (k & D); [rewrite E2; apply out_nth; lia|]. unfold delivered in D. rewrite TK, SS in D. destruct (task lm P draws num np xl yl s 0%nat st) as [(x & n')|e]; [injection D as ->; eauto | discriminate]. }
  destruct (RUN t Ht) as (n1 & R1), (RUN t' Ht') as (n2 & R2). rewrite R1 in R2. injection R2 as EQ _.
  assert (BL : forall r, In r ws -> block (tvars P) K r).
  { intros r Hr. destruct (In_nth _ _ d Hr) as (u & Hu & <-). rewrite E3 in Hu. destruct (RUN u Hu) as (n' & R). unfold task in R. apply bind_ok in R as ((wx & sx) & R & RE). injection RE as -> _.
    destruct (run_iter_spec lm P _ _ _ _ _ _ _ _ FO (US _) (SInv_pos lm P s st SI) OK R) as (_ & B & _). exact B. }
  destruct (combine_blocks (tvars P) K ws w (NoDup_tvars P)) as (_ & _ & _ & C3); [destruct ws; [cbn in E3; lia | discriminate] | exact BL | exact E4|].
  rewrite (C3 t q ltac:(lia) Hq d), (C3 t' q ltac:(lia) Hq d), EQ. reflexivity.
Qed.
End Call.
End Task.
End C.

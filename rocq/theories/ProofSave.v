(** Continuing from saved walk data. *)
From Coq Require Import ZArith Bool String List Lia.
From Verif Require Import Num Py NumFacts NumMore Walker ParticleTrack SpecWeights SpecPick SpecWalk SpecHist SpecInit SpecApi SpecSim SpecSave
  ProofWeights ProofWeightLaws ProofPick ProofStep ProofRun ProofRunTo ProofGen ProofHist ProofApi2 ProofSim ProofHeap2 ProofHeap.
Import ListNotations.
Open Scope Z_scope.

Section S.
Context {T : Type} {N : Num T} {NL : NumLaws T} {NM : NumMore T}.

(** Weights that pick the same direction for every draw. *)
Definition visited_like (P : pobj T) (a b : list T) : Prop := pick_vector P b = pick_vector P a /\ pick_vector P (pick_vector P a) = pick_vector P a.
Lemma visited_pick (P : pobj T) (a b : list T) (u : T) : visited_like P a b -> match_res (fun x y => fst y = fst x /\ visited_like P (snd x) (snd y))
  ((if o_steep P then steep_descent else random_pick) a u) ((if o_steep P then steep_descent else random_pick) b u).
Proof.
  unfold visited_like, pick_vector. intros (E & I). destruct (o_steep P).
  - unfold steep_descent. rewrite E. cbv zeta. destruct (py_last _) as [top|]; [|reflexivity]. cbn [bind]. destruct (np_uniform0 top u) as [x|]; [|reflexivity]. cbn [bind match_res fst snd]. rewrite !I. auto.
  - unfold random_pick. rewrite E. cbv zeta. destruct (py_last _) as [top|]; [|reflexivity]. cbn [bind]. destruct (np_uniform0 top u) as [x|]; [|reflexivity]. cbn [bind match_res fst snd]. rewrite !I. auto.
Qed.
Definition keepv (v : string) (x : T) : T := x.
Lemma hval_keep v (o : option T) : hval keepv v o = o.
Proof. destruct o; reflexivity. Qed.
Lemma map_walk_keep (w : walk T) : map_walk (fun t => t) (hval keepv) w = w.
Proof.
  destruct w as [x y t o]. unfold map_walk, map_vals. cbn [xinds yinds times opts]. f_equal.
  - rewrite <- (map_id t) at 2. apply map_ext. intros l. apply map_id.
  - rewrite <- (map_id o) at 2. apply map_ext. intros (k & l). cbn. f_equal. rewrite <- (map_id l) at 2. apply map_ext. intros r. rewrite <- (map_id r) at 2. apply map_ext. apply hval_keep.
Qed.
Lemma map_op_keep (os : list (op T)) : map (map_op (fun t => t) (hval keepv)) os = os.
Proof. rewrite <- (map_id os) at 2. apply map_ext. intros [np xl yl t0 m [w|]| | |]; cbn [map_op option_map]; rewrite ?map_walk_keep; reflexivity. Qed.
Lemma match_self {A} (R : A -> A -> Prop) (x : res A) : (forall a, R a a) -> match_res R x x.
Proof. destruct x; cbn; auto. Qed.

Lemma alike_continue lm (P : pobj T) draws os s t : sim_by (fun t => t) (hval keepv) (visited_like P) s t -> match_res same_data (do_ops lm P draws os s) (do_ops lm P draws os t).
Proof.
  intros S. rewrite <- (map_op_keep os) at 2.
  assert (M : match_res (sim_by (fun t => t) (hval keepv) (visited_like P)) (do_ops lm P draws os s) (do_ops lm P draws (map (map_op (fun t => t) (hval keepv)) os) t)).
  { apply (do_ops_sim lm P P draws (fun t => t) (fun a => a) (fun a => a) keepv (visited_like P) (visited_pick P)); try reflexivity; try assumption.
    - intros c. apply match_self. reflexivity.
    - intros. apply match_self. intros (a & b). reflexivity.
    - destruct (o_roi P); [reflexivity | exact I].
    - intros v. destruct (dget v (avail_vars P)); [|exact I]. intros x y. apply match_self. reflexivity. }
  destruct (do_ops lm P draws os s), (do_ops lm P draws _ t); cbn [match_res] in *; try assumption. destruct M as (A & B & C & _). split; [exact A|]. split; [|exact C].
  rewrite B. destruct (s_walk a); cbn [option_map]; rewrite ?map_walk_keep; reflexivity.
Qed.

Context {G : T -> Prop}.
Lemma resume_gen lm (P : pobj T) w t0 n : wf_obj P -> vars_ok P -> map fst (opts w) = tvars P ->
  generate_particles P (fun _ => n0) 0 [] [] t0 Random (Some w) (init_sim lm P n) = Ok {| s_np := Z.of_nat (count w); s_walk := Some w; s_wst := {| w_arr := make_weight lm P; w_pos := n |} |}.
Proof.
  intros WF VO K. unfold generate_particles. cbv zeta. cbn [pick_seeds Z.to_nat bind init_sim s_wst w_pos w_arr s_walk]. change (zrange 0 0) with (@nil Z). cbn [mapM bind combine repeat].
  destruct (start_vars_total P [] WF) with (vs := o_vars P) (acc := @nil (string * list (list (option T)))) as (r & E); [intros p [] | intros v I B; apply VO, tvars_in; auto |].
  rewrite E. cbn [bind]. destruct (start_vars_spec P [] WF ltac:(intros p []) (o_vars P) [] r E) as (-> & _). rewrite <- tvars_fold.
  assert (M : merge_walk w {| xinds := []; yinds := []; times := []; opts := map (fun v => (v, map (fun p0 : Z * Z => [field_value P v (fst p0) (snd p0)]) [])) (tvars P) |} = w).
  { destruct w as [x y t o]. unfold merge_walk. cbn [xinds yinds times opts] in *. rewrite !app_nil_r. f_equal. unfold merge_vars. rewrite map_map, <- K.
    assert (ND : NoDup (map fst o)) by (rewrite K; apply NoDup_tvars). rewrite map_map. rewrite <- (map_id o) at 2. apply map_ext_in. intros (k & l) I. cbn. rewrite (dget_nodup _ _ _ ND I), app_nil_r. reflexivity. }
  cbn [map] in M |- *. rewrite M. reflexivity.
Qed.
Lemma gen_no_draw (P : pobj T) d d' w t0 s : generate_particles P d 0 [] [] t0 Random (Some w) s = generate_particles P d' 0 [] [] t0 Random (Some w) s.
Proof. reflexivity. Qed.

Theorem resume lm L W p (P : pobj T) draws s w : session G lm L W p P draws s -> s_walk s = Some w ->
  forall later n t0 os, match_res same_data (do_ops lm P later os (at_pos n s)) (do_ops lm P later (OpGen 0 [] [] t0 Random (Some w) :: os) (init_sim lm P n)).
Proof.
  intros SS SW later n t0 os. destruct (session_field lm L W p P draws s SS) as (FO & _ & U & R & _). destruct (reached_inv lm P draws s FO U R) as (WI & I). rewrite SW in I. destruct I as (VO & NP & K & _).
  pose proof FO as (WF & GA & PW & _). cbn [do_ops do_op]. rewrite (gen_no_draw P later (fun _ => n0)), (resume_gen lm P w t0 n WF VO K). cbn [bind].
  apply alike_continue. split; [symmetry; exact NP|]. split; [cbn [at_pos s_walk]; rewrite SW; cbn [option_map]; rewrite map_walk_keep; reflexivity|].
  destruct WI as (WR & WC & WV). destruct (winv_init lm P WF) as (MR & MC & MV). cbn [s_wst at_pos w_pos w_arr]. split; [reflexivity|]. split; [cbn; congruence|]. split; [cbn; congruence|].
  intros i j Hi Hj. assert (IG : in_grid P i j) by (split; [rewrite <- WR | rewrite <- WC]; assumption). pose proof (weights_no_negative lm P i j WF GA PW IG) as NN.
  assert (EV : forall v, v = weights_of lm P i j \/ v = pick_vector P (weights_of lm P i j) -> pick_vector P v = pick_vector P (weights_of lm P i j)) by (intros v [-> | ->]; [reflexivity | apply pick_vector_idem, NN]).
  unfold visited_like. cbn [at_pos s_wst w_arr]. rewrite (EV _ (WV i j IG)), (EV _ (MV i j IG)). split; [reflexivity | apply pick_vector_idem, NN].
Qed.
End S.

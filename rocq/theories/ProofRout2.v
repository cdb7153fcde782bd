(** The routines that unpack a slice. *)
From Coq Require Import ZArith Bool String List Lia.
From Verif Require Import Num F64 F64Laws Py NumFacts NumMore Walker ParticleTrack Gen SpecWeights SpecPick SpecWalk SpecHist SpecInit SpecMotion SpecApi SpecRout
  PostProc Grid Routines Parallel ProofStep ProofRun ProofRunTo ProofHist ProofApi2 ProofParallel ProofRout.
Import ListNotations.
Open Scope Z_scope.
Open Scope res_scope.

Section C.
Context {T : Type} {N : Num T} {NL : NumLaws T} {NM : NumMore T}.

Lemma state_of (w : walk T) n : rect_walk w -> exists s k, get_state w n = Ok (s, k) /\ (st_o s = None <-> opts w = []).
Proof. intros RW. rewrite (get_state_val w n RW). eexists _, _. split; [reflexivity|]. cbn [mk_state st_o gval g_o]. destruct (opts w); cbn [map]; split; congruence. Qed.
Lemma unpack3_iff (s : state T) : (st_o s = None -> unpack3 s = Ok (st_x s, st_y s, st_t s)) /\ (st_o s <> None -> unpack3 s = Err ValueError).
Proof. unfold unpack3. destruct (st_o s); split; congruence. Qed.
Lemma slice3 (w : walk T) n : rect_walk w -> opts w = [] -> exists s k, get_state w n = Ok (s, k) /\ unpack3 s = Ok (st_x s, st_y s, st_t s).
Proof. intros RW E. destruct (state_of w n RW) as (s & k & G & A). exists s, k. split; [exact G|]. apply unpack3_iff, A, E. Qed.
Lemma slice3_fail (w : walk T) n : rect_walk w -> opts w <> [] -> exists s k, get_state w n = Ok (s, k) /\ unpack3 s = Err ValueError.
Proof. intros RW E. destruct (state_of w n RW) as (s & k & G & A). exists s, k. split; [exact G|]. apply unpack3_iff. tauto. Qed.

Context {GV : T -> Prop}.
Lemma SInv_rect lm (P : pobj T) s w : field_ok lm P -> SInv (GV := GV) lm P s -> s_walk s = Some w -> rect_walk w /\ fields w = tvars P.
Proof.
  intros FO (_ & I) SW. rewrite SW in I. destruct I as (_ & _ & KE & HO). destruct (hist_walk_ok lm P w FO KE HO) as (_ & SH & RR).
  split; [|exact KE]. unfold rect_walk, record_of, fields. rewrite KE. split; [apply NoDup_tvars|]. split; [exact SH|]. intros q Hq. apply RR, Hq.
Qed.
Lemma steady_is_iterate lm (P : pobj T) draws : field_ok lm P -> unit_stream GV draws -> tvars P = [] -> forall n save first last s, SInv (GV := GV) lm P s ->
  steady_loop lm P draws save n first last s = iterate lm P draws n last s.
Proof.
  intros FO U TV. induction n as [|n IH]; intros save first last s SI; [reflexivity|]. cbn [steady_loop iterate]. destruct (run_step lm P draws s) as [(w & s')|e] eqn:E; [|reflexivity]. cbn [bind].
  assert (SI' := run_inv lm P draws s w s' FO U SI E).
  assert (SW : s_walk s' = Some w).
  { destruct SI as (WI & IN). destruct (s_walk s) as [w0|] eqn:S0; [|unfold run_step in E; rewrite S0 in E; discriminate]. destruct IN as (VO & NP & KE & HO).
    destruct (run_step_spec lm P draws s w0 w s' FO U WI VO S0 NP (hist_walk_ok _ _ _ FO KE HO) E) as (A & _). exact A. }
  destruct (SInv_rect lm P s' w FO SI' SW) as (RW & KE). rewrite TV in KE. unfold fields in KE. apply map_eq_nil in KE.
  destruct save.
  - destruct (slice3 w (-1) RW KE) as (a & k & -> & A). cbn [bind fst]. rewrite A. cbn [bind]. destruct first.
    + destruct (slice3 w 0 RW KE) as (a0 & k0 & -> & A0). cbn [bind fst]. rewrite A0. cbn [bind]. apply IH, SI'.
    + cbn [bind]. apply IH, SI'.
  - cbn [bind]. apply IH, SI'.
Qed.
Lemma steady_fails lm (P : pobj T) draws s w : field_ok lm P -> weights_finite lm P -> unit_stream GV draws -> SInv (GV := GV) lm P s -> s_walk s = Some w -> tvars P <> [] ->
  forall num, 1 <= num -> steady_plots lm P draws num true s = Err ValueError.
Proof.
  intros FO WF U SI SW TV num Hn. assert (SI0 := SI). destruct SI as (WI & IN). rewrite SW in IN. destruct IN as (VO & NP & KE & HO).
  destruct (run_step_total lm P draws s w FO WF U WI VO SW NP (hist_walk_ok _ _ _ FO KE HO)) as (w' & s' & E).
  destruct (run_step_spec lm P draws s w w' s' FO U WI VO SW NP (hist_walk_ok _ _ _ FO KE HO) E) as (SW' & _).
  destruct (SInv_rect lm P s' w' FO (run_inv lm P draws s w' s' FO U SI0 E) SW') as (RW & KE').
  unfold steady_plots. destruct (Z.to_nat num) as [|n] eqn:EN; [lia|]. cbn [steady_loop]. rewrite E. cbn [bind].
  destruct (slice3_fail w' (-1) RW) as (a & k & -> & A). { intros O. unfold fields in KE'. rewrite O in KE'. cbn in KE'. congruence. }
  cbn [bind fst]. rewrite A. reflexivity.
Qed.
End C.

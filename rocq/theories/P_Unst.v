(** Property C67 (runs through a sequence of flow fields). *)
From Coq Require Import ZArith Bool String List Lia.
From Verif Require Import Num F64 F64Laws Py NumFacts NumMore Walker ParticleTrack Gen SpecWeights SpecPick SpecWalk SpecHist SpecInit SpecApi SpecPost SpecRout PostProc Grid Routines
  Unsteady SpecUnst ProofInit ProofHist ProofUnst F64Arange Examples ExamplesReach.
Import ListNotations.
Open Scope Z_scope.

Lemma grown_refl {T} (r : prow T) : grown 0 r r.
Proof.
  split; [exists []; rewrite app_nil_r; auto|]. split; [exists []; rewrite app_nil_r; auto|]. split; [exists []; rewrite app_nil_r; auto|]. split; [reflexivity|].
  intros k v l H. exists []. rewrite app_nil_r. auto.
Qed.
Lemma grown_trans {T} n m (r r1 r2 : prow T) : grown n r r1 -> grown m r1 r2 -> grown (n + m) r r2.
Proof.
  intros ((a1 & E1 & L1) & (a2 & E2 & L2) & (a3 & E3 & L3) & K1 & O1) ((b1 & F1 & M1) & (b2 & F2 & M2) & (b3 & F3 & M3) & K2 & O2).
  split; [exists (a1 ++ b1); rewrite F1, E1, app_assoc, app_length; auto|]. split; [exists (a2 ++ b2); rewrite F2, E2, app_assoc, app_length; auto|]. split; [exists (a3 ++ b3); rewrite F3, E3, app_assoc, app_length; auto|].
  split; [congruence|]. intros k v l H. destruct (O1 k v l H) as (l1 & H1 & Q1). destruct (O2 k v _ H1) as (l2 & H2 & Q2). exists (l1 ++ l2). rewrite app_assoc, app_length. auto.
Qed.
Lemma continued_grown G lm Ps ts (r r' : prow f64) : continued G lm Ps ts r r' -> exists n, grown n r r'.
Proof.
  induction 1 as [r | P Ps t ts n r r1 r2 E LE ST C (m & IH)]; [exists 0%nat; apply grown_refl|]. exists (n + m)%nat. eapply grown_trans; [exact (extends_prefix lm P n _ _ E) | exact IH].
Qed.

(** C67 A completed run has exactly the requested number of particles.  Each of them was seeded at one of the requested locations at time zero, and its history is
    that seed followed by, for each flow field in turn, documented steps in that field, ending for a documented reason (with respect to target time 1, 2, ... steps). *)
Theorem C67_history :
  forall G lm dx L W draws np xl yl num_steps timestep pos (fields : list (field f64)) w, unsteady_input G lm dx L W draws np xl yl fields ->
    unsteady_plots lm draws pos dx np xl yl num_steps timestep fields = Ok w ->
    count w = Z.to_nat np /\
    exists Ps, Forall2 (built lm dx) (firstn (used num_steps fields) fields) Ps /\
      forall q, (q < count w)%nat -> exists x y, In x xl /\ In y yl /\
        continued G lm Ps (map (target_time timestep) (seq 0 (used num_steps fields))) (fresh x y) (path w q).
Proof.
  intros G lm dx L W draws np xl yl num ts pos fields w (L3 & W3 & SQ & PW & DX & FS & NP & SS & US) H.
  destruct (unsteady_spec lm dx L W L3 W3 SQ PW DX draws US pos np xl yl num ts fields w FS NP SS H) as (_ & Ps & FB & CT & RR). split; [exact CT|]. exists Ps. split; [exact FB | exact RR].
Qed.
Print Assumptions C67_history.

(** Running through more fields only appends to the histories: the run through the first fields is found unchanged as a prefix, and the rest is a continuation
    through the remaining fields. *)
Theorem C67_append_only :
  forall G lm dx L W draws np xl yl n1 n2 timestep pos (fields : list (field f64)) w1 w2, unsteady_input G lm dx L W draws np xl yl fields -> n1 <= n2 ->
    unsteady_plots lm draws pos dx np xl yl n1 timestep fields = Ok w1 -> unsteady_plots lm draws pos dx np xl yl n2 timestep fields = Ok w2 ->
    count w2 = count w1 /\
    forall q, (q < count w1)%nat -> (exists n, grown n (path w1 q) (path w2 q)) /\
      exists Ps, Forall2 (built lm dx) (firstn (used n2 fields - used n1 fields) (skipn (used n1 fields) fields)) Ps /\
        continued G lm Ps (map (target_time timestep) (seq (used n1 fields) (used n2 fields - used n1 fields))) (path w1 q) (path w2 q).
Proof.
  intros G lm dx L W draws np xl yl n1 n2 ts pos fields w1 w2 (L3 & W3 & SQ & PW & DX & FS & NP & SS & US) LE H1 H2.
  destruct (unsteady_prefix lm dx L W L3 W3 SQ PW DX draws US pos np xl yl n1 n2 ts fields w1 w2 FS NP SS LE H1 H2) as (CT & Ps & FB & RR). split; [exact CT|].
  intros q Hq. split; [eapply continued_grown, RR, Hq|]. exists Ps. split; [exact FB | apply RR, Hq].
Qed.
Print Assumptions C67_append_only.

(** It completes, provided there is a field and a particle, and the weights are finite in each field. *)
Theorem C67_completes :
  forall G lm dx L W draws np xl yl num_steps timestep pos (fields : list (field f64)), unsteady_input G lm dx L W draws np xl yl fields ->
    1 <= np -> xl <> [] -> yl <> [] -> Z.of_nat (length xl) <= 9007199254740992 -> Z.of_nat (length yl) <= 9007199254740992 ->
    1 <= num_steps -> fields <> [] -> (forall f P, In f fields -> built lm dx f P -> weights_finite lm P) ->
    (* the timestep is not tiny, and the last target time does not overflow *)
    nisfin timestep = true -> nleb (fmk 1 (-900) : f64) timestep = true -> Z.of_nat (used num_steps fields) <= 562949953421312 ->
    nisfin (nmul timestep (nofZ (Z.of_nat (used num_steps fields) + 1))) = true ->
    exists w, unsteady_plots lm draws pos dx np xl yl num_steps timestep fields = Ok w.
Proof.
  intros G lm dx L W draws np xl yl num ts pos fields (L3 & W3 & SQ & PW & DX & FS & NP & SS & US) NP1 NX NY BX BY N1 NF WF FT LT UB FM.
  assert (LP : (0 < length fields)%nat) by (destruct fields; [contradiction | cbn; lia]).
  assert (EU : Z.of_nat (used num fields) = Z.min num (Z.of_nat (length fields))) by (unfold used; lia). rewrite EU in UB, FM.
  destruct (arange_len ts (Z.min num (Z.of_nat (length fields))) FT (leb_real ts FT LT) ltac:(lia) FM) as (tt & AR & LN).
  apply (unsteady_total lm dx L W L3 W3 SQ PW DX draws US pos np xl yl num ts fields tt); try assumption.
  apply Forall_forall. intros f Hf P BP. exact (WF f P Hf BP).
Qed.
Print Assumptions C67_completes.

(** Without a step or a field the routine cannot return. *)
Theorem C67_no_steps :
  forall lm dx draws np xl yl num_steps timestep pos (fields : list (field f64)) tt, num_steps <= 0 \/ fields = [] ->
    np_arange timestep (nmul timestep (nofZ (Z.min num_steps (Z.of_nat (length fields)) + 1))) timestep = Ok tt ->
    unsteady_plots lm draws pos dx np xl yl num_steps timestep fields = Err UnboundLocalError.
Proof. intros lm dx draws np xl yl num ts pos fields tt. exact (unsteady_none lm dx draws pos np xl yl num ts fields tt). Qed.
Print Assumptions C67_no_steps.

(** Two flow fields on a 9 x 6 grid, flowing down and up the rows. *)
Definition uf_depth : arr f64 := Arr 9 6 (fun i j => nofZ 2).
Definition uf_stage (s : Z) : arr f64 := Arr 9 6 (fun i j => nofZ (20 - s * i)).
Definition uf (s : Z) : field f64 := {| fl_depth := uf_depth; fl_stage := uf_stage s; fl_qx := Arr 9 6 (fun i j => nofZ 0); fl_qy := Arr 9 6 (fun i j => nofZ s) |}.
Definition uf_fields : list (field f64) := [uf 1; uf (-1)].
Definition uf_run (n : Z) : res (walk f64) := unsteady_plots ex_lm ex_draws 0 (nofZ 2) 2 [4] [2; 3] n (nofZ 4) uf_fields.
Example C67_hypotheses : unsteady_input any_draw ex_lm (nofZ 2) 9 6 ex_draws 2 [4] [2; 3] uf_fields.
Proof.
  split; [lia|]. split; [lia|]. split; [exact ex_sqrt_ok|]. split; [exact ex_pow_ok|]. split; [vm_compute; reflexivity|].
  split; [repeat constructor|]. split; [lia|]. split; [|exact ex_stream_any]. intros x y [<-|[]] [<-|[<-|[]]]; right; lia.
Qed.
Definition xs_of (r : res (walk f64)) : list (list Z) := match r with Ok w => xinds w | Err _ => [] end.
Lemma xs_ok r a l : xs_of r = a :: l -> exists w, r = Ok w /\ xinds w = a :: l.
Proof. destruct r as [w|]; [|discriminate]. intros H. exists w. split; [reflexivity | exact H]. Qed.
Lemma uf_run1 : xs_of (uf_run 1) = [[4; 3]; [4; 3]].
Proof. vm_compute. reflexivity. Qed.
Lemma uf_run2 : xs_of (uf_run 2) = [[4; 3]; [4; 3; 4]].
Proof. vm_compute. reflexivity. Qed.
Example C67_example : (exists w, uf_run 1 = Ok w /\ xinds w = [[4; 3]; [4; 3]]) /\ exists w, uf_run 2 = Ok w /\ xinds w = [[4; 3]; [4; 3; 4]].
Proof. split; [exact (xs_ok _ _ _ uf_run1) | exact (xs_ok _ _ _ uf_run2)]. Qed.
Definition uf_P (s : Z) : pobj f64 := fst (unerr (gx_none, unsteady_params n0) (init ex_lm (set_field (uf s) (unsteady_params (nofZ 2))))).
Lemma uf_built s P : built ex_lm (nofZ 2) (uf s) P -> P = uf_P s.
Proof. intros (p' & E). unfold uf_P. rewrite E. reflexivity. Qed.
Lemma uf_cells s : s = 1 \/ s = -1 -> all_cells (uf_P s) (fun i j => nisfin (nth 8 (cumsum (pick_vector (uf_P s) (weights_of ex_lm (uf_P s) i j))) nnan)) = true.
Proof. intros [-> | ->]; vm_compute; reflexivity. Qed.
Example C67_completes_ex : (forall f P, In f uf_fields -> built ex_lm (nofZ 2) f P -> weights_finite ex_lm P) /\
  nisfin (nofZ 4 : f64) = true /\ nleb (fmk 1 (-900) : f64) (nofZ 4) = true /\ used 2 uf_fields = 2%nat /\ nisfin (nmul (nofZ 4 : f64) (nofZ (2 + 1))) = true.
Proof.
  split.
  - assert (WF : forall s, s = 1 \/ s = -1 -> weights_finite ex_lm (uf_P s)) by (intros s Hs i j H; exact (all_cells_ok _ _ (uf_cells s Hs) i j H)).
    intros f P [<-|[<-|[]]] B; rewrite (uf_built _ _ B); apply WF; auto.
  - split; [vm_compute; reflexivity|]. split; [vm_compute; reflexivity|]. split; [reflexivity|]. vm_compute. reflexivity.
Qed.
Example C67_no_steps_ex : exists tt, np_arange (nofZ 4 : f64) (nmul (nofZ 4) (nofZ (Z.min 0 (Z.of_nat (length uf_fields)) + 1))) (nofZ 4) = Ok tt.
Proof. eexists. vm_compute. reflexivity. Qed.

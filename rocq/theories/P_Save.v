(** C112, C113: saving walk data, and continuing from a file. *)
From Coq Require Decimal DecimalString DecimalPos DecimalZ.
From Coq Require Import ZArith Bool String Ascii List Lia Floats.SpecFloat.
From Flocq Require Import IEEE754.BinarySingleNaN.
From Verif Require Import Num F64 F64Laws Py Walker ParticleTrack SpecWeights SpecPick SpecWalk SpecHist SpecInit SpecApi SpecSim Json SpecSave
  ProofInit ProofRun ProofGen ProofHist ProofApi2 ProofHeap ProofJson ProofSave Examples ExamplesReach P_Motion P_Data.
Import ListNotations DecimalString.
Open Scope Z_scope.

Lemma F2_in_r {A B} (R : A -> B -> Prop) l m : Forall2 R l m -> forall b, In b m -> exists a, In a l /\ R a b.
Proof. induction 1 as [|a b l m H F IH]; intros c []; [subst; exists a; cbn; auto|]. destruct (IH c H0) as (x & I & Q). exists x. cbn. auto. Qed.
Lemma F2_in_l {A B} (R : A -> B -> Prop) l m : Forall2 R l m -> forall a, In a l -> exists b, In b m /\ R a b.
Proof. induction 1 as [|a b l m H F IH]; intros c []; [subst; exists b; cbn; auto|]. destruct (IH c H0) as (x & I & Q). exists x. cbn. auto. Qed.
Lemma F2_inj {A B} (R : A -> B -> Prop) : (forall a a' b, R a b -> R a' b -> a = a') -> forall l l' m, Forall2 R l m -> Forall2 R l' m -> l = l'.
Proof. intros J l l' m F. revert l'. induction F as [|a b l m H F IH]; intros l' F'; inversion F'; subst; [reflexivity|]. f_equal; eauto. Qed.
Lemma F2_ex {A B} (R : A -> B -> Prop) l : (forall a, In a l -> exists b, R a b) -> exists m, Forall2 R l m.
Proof. induction l as [|a l IH]; intros H; [exists []; constructor|]. destruct (H a (or_introl eq_refl)) as (b & E). destruct IH as (m & F); [intros; apply H; right; assumption|]. exists (b :: m). constructor; assumption. Qed.

(** A dictionary determines the walk data. *)
Lemma py_time_inj x y v : py_time x v -> py_time y v -> x = y.
Proof. intros [->|(z & -> & <-)] [E|(z' & E & <-)]; congruence. Qed.
Lemma py_value_inj dbl var a b v : py_value dbl var a v -> py_value dbl var b v -> a = b.
Proof.
  unfold py_value. destruct a as [x|], b as [y|]; try reflexivity; destruct (String.eqb var "roi_flag").
  - intros (z & -> & <-) (z' & E & <-). congruence.
  - intros ->. destruct (dbl var); congruence.
  - intros (z & -> & _). discriminate.
  - intros ->. destruct (dbl var); discriminate.
  - intros -> (z & E & _). discriminate.
  - intros ->. destruct (dbl var); discriminate.
Qed.
Lemma py_walk_inj dbl w w' d : py_walk dbl w d -> py_walk dbl w' d -> w' = w.
Proof.
  intros (dx & dy & dt & r & -> & X & Y & TT & O) (dx' & dy' & dt' & r' & E & X' & Y' & TT' & O'). injection E as <- <- <- <-.
  destruct w as [x y t o], w' as [x' y' t' o']. cbn [xinds yinds times opts] in *.
  assert (IZ : forall a b l, Forall2 (fun z v => v = PInt z) a l -> Forall2 (fun z v => v = PInt z) b l -> a = b) by (intros a b l; apply F2_inj; congruence).
  f_equal; [eapply F2_inj; [|eassumption|eassumption]; exact IZ | eapply F2_inj; [|eassumption|eassumption]; exact IZ | eapply F2_inj; [|eassumption|eassumption]; intros a b l; apply F2_inj, py_time_inj |].
  eapply F2_inj; [|exact O'|exact O]. intros (k & a) (k' & b) (k'' & c) (E1 & F1) (E2 & F2). cbn [fst snd] in *. subst k''. subst k'. f_equal. eapply F2_inj; [|exact F1|exact F2]. intros u v l. apply F2_inj, py_value_inj.
Qed.
Lemma py_exists dbl w : ~ In "roi_flag"%string (map fst (opts w)) -> exists d, py_walk dbl w d.
Proof.
  intros NR. assert (IZ : forall l : list (list Z), exists m, Forall2 (Forall2 (fun z v => v = PInt z)) l m) by (intros l; apply F2_ex; intros a _; apply F2_ex; eauto).
  destruct (IZ (xinds w)) as (dx & X). destruct (IZ (yinds w)) as (dy & Y).
  destruct (F2_ex (Forall2 py_time) (times w)) as (dt & TT); [intros a _; apply F2_ex; intros x _; exists (PFloat x); left; reflexivity|].
  destruct (F2_ex (fun kv kv' => fst kv' = fst kv /\ Forall2 (Forall2 (py_value dbl (fst kv))) (snd kv) (snd kv')) (opts w)) as (r & O).
  { intros (k & l) I. cbn [fst snd]. destruct (F2_ex (Forall2 (py_value dbl k)) l) as (m & F); [|exists (k, m); auto]. intros a _. apply F2_ex. intros [x|] _; [|exists PNone; reflexivity].
    unfold py_value. destruct (String.eqb_spec k "roi_flag"); [|eauto]. exfalso. apply NR. subst k. apply in_map_iff. exists ("roi_flag"%string, l). auto. }
  exists (("xinds"%string, dx) :: ("yinds"%string, dy) :: ("travel_times"%string, dt) :: r). exists dx, dy, dt, r. auto 6.
Qed.

(** Keys of the walk data of a session. *)
Lemma session_keys G lm L W p (P : pobj f64) draws s w : session G lm L W p P draws s -> s_walk s = Some w -> map fst (opts w) = tvars P /\ vars_ok P.
Proof.
  intros SS SW. destruct (session_field lm L W p P draws s SS) as (FO & _ & U & R & _). destruct (reached_inv lm P draws s FO U R) as (_ & I). rewrite SW in I. destruct I as (VO & _ & K & _). auto.
Qed.
Lemma dget_in {A} k (a : A) l : dget k l = Some a -> In (k, a) l.
Proof. induction l as [|(k' & b) l IH]; [discriminate|]. cbn [dget]. destruct (String.eqb_spec k k') as [->|NE]; [intros E; injection E as ->; left; reflexivity | intros E; right; auto]. Qed.
Lemma legit_plain (P : pobj f64) v : legit P v -> plain v.
Proof.
  intros [(_ & ->)|(g & E)]; [reflexivity|]. apply dget_in in E. unfold avail_vars in E. cbn [In] in E. repeat (destruct E as [E|E]; [injection E as <- _; reflexivity|]). contradiction.
Qed.
Lemma py_plain G lm L W p (P : pobj f64) draws s w dbl d : session G lm L W p P draws s -> s_walk s = Some w -> py_walk dbl w d -> Forall (fun kv => plain (fst kv)) d.
Proof.
  intros SS SW (dx & dy & dt & r & -> & _ & _ & _ & O). destruct (session_keys _ _ _ _ _ _ _ _ _ SS SW) as (K & VO). do 3 (constructor; [reflexivity|]). apply Forall_forall. intros kv' I.
  destruct (F2_in_r _ _ _ O kv' I) as (kv & J & E & _). rewrite E. apply (legit_plain P), VO. rewrite <- K. apply in_map, J.
Qed.

(** C112 Walk data written with json.dump are read back by json.load exactly: here for the walk data of every session (all times and tracked values, also NaN and
    infinities), provided that the tracked grids are of type float64. *)
Theorem C112_saved_data_partial :
  forall frepr fread G lm L W (p : params f64) P draws s w dbl d,
    float_text frepr fread -> session G lm L W p P draws s -> s_walk s = Some w -> py_walk dbl w d -> double_grids dbl P ->
    exists t, json_dump frepr d = Ok t /\ json_load fread t = Ok d /\ forall w', py_walk dbl w' d -> w' = w.
Proof.
  intros frepr fread G lm L W p P draws s w dbl d FT SS SW PW DG. pose proof (py_plain _ _ _ _ _ _ _ _ _ _ _ SS SW PW) as PL. destruct (session_keys _ _ _ _ _ _ _ _ _ SS SW) as (K & VO).
  assert (JS : forall k ll l v, In (k, ll) d -> In l ll -> In v l -> json_scalar v).
  { intros k ll l v I1 I2 I3. destruct PW as (dx & dy & dt & r & -> & X & Y & TT & O). cbn [In] in I1. destruct I1 as [E|[E|[E|I1]]]; [injection E as <- <- .. |].
    - destruct (F2_in_r _ _ _ X l I2) as (a & _ & F). destruct (F2_in_r _ _ _ F v I3) as (z & _ & ->). exact I.
    - destruct (F2_in_r _ _ _ Y l I2) as (a & _ & F). destruct (F2_in_r _ _ _ F v I3) as (z & _ & ->). exact I.
    - destruct (F2_in_r _ _ _ TT l I2) as (a & _ & F). destruct (F2_in_r _ _ _ F v I3) as (z & _ & [->|(n & -> & _)]); exact I.
    - destruct (F2_in_r _ _ _ O _ I1) as ((k0 & l0) & J & E & F). cbn [fst snd] in *. subst k. destruct (F2_in_r _ _ _ F l I2) as (a & _ & F'). destruct (F2_in_r _ _ _ F' v I3) as (o & _ & Q).
      unfold py_value in Q. destruct o as [x|]; [|subst v; exact I]. destruct (String.eqb_spec k0 "roi_flag") as [->|NE]; [destruct Q as (n & -> & _); exact I|].
      rewrite (DG k0) in Q; [subst v; exact I | rewrite <- K; apply in_map_iff; exists (k0, l0); auto | exact NE]. }
  destruct (dump_total frepr d JS) as (t & E). exists t. split; [exact E|]. split; [exact (load_dump frepr fread (float_number _ _ FT) d t PL E)|]. intros w' PW'. exact (py_walk_inj dbl w w' d PW PW').
Qed.
Print Assumptions C112_saved_data_partial.
(** Refuted otherwise: if a tracked grid has another type (float32 rasters, integer grids), json.dump raises a TypeError, in every session with a particle. *)
Theorem C112_float32_refuted :
  forall frepr G lm L W (p : params f64) P draws s w dbl d v,
    session G lm L W p P draws s -> s_walk s = Some w -> (0 < count w)%nat -> py_walk dbl w d ->
    In v (tvars P) -> v <> "roi_flag"%string -> dbl v = false -> json_dump frepr d = Err TypeError.
Proof.
  intros frepr G lm L W p P draws s w dbl d v SS SW C0 PW IV NR DB. destruct (session_keys _ _ _ _ _ _ _ _ _ SS SW) as (K & VO).
  destruct (session_rect lm L W p P draws s w SS SW) as (_ & _ & RV & RQ). destruct (RV v IV) as (l & DL & LL). specialize (RQ 0%nat C0). cbv zeta in RQ. destruct RQ as (PX & _ & _ & RL). specialize (RL v l IV DL).
  pose proof (session_vars lm L W p P draws s w 0 v l 0 SS SW C0 IV DL PX) as SV.
  assert (FV : forall x y, exists a, field_value P v x y = Some a).
  { intros x y. unfold field_value. destruct (VO v IV) as [(_ & E)|(g & E)]; [contradiction|]. rewrite E. destruct (o_roi P); [|eauto]. destruct (String.eqb_spec v "roi_flag"); [contradiction | eauto]. }
  destruct (FV (nth 0 (nth 0 (xinds w) []) 0) (nth 0 (nth 0 (yinds w) []) 0)) as (a & EA). rewrite EA in SV.
  destruct PW as (dx & dy & dt & r & -> & _ & _ & _ & O). destruct (F2_in_l _ _ _ O (v, l) (dget_in v l _ DL)) as ((k & ll) & I1 & E & F). cbn [fst snd] in *. subst k.
  destruct (F2_in_l _ _ _ F (nth 0 l [])) as (rw & I2 & F'); [apply nth_In; rewrite LL; exact C0|]. destruct (F2_in_l _ _ _ F' (Some a)) as (pv & I3 & Q); [rewrite <- SV; apply nth_In; lia|].
  apply (dump_fails frepr _ v ll rw pv); [right; right; right; exact I1 | exact I2 | exact I3|]. unfold py_value in Q. destruct (String.eqb_spec v "roi_flag"); [contradiction|]. rewrite DB in Q. subst pv. exact (fun H => H).
Qed.
Print Assumptions C112_float32_refuted.

(** A number format for the example: the integer significand and the binary exponent, both in decimal. *)
Definition ex_sign (s : bool) : text := if s then txt "-" else [].
Definition ex_frepr (x : f64) : text :=
  match x with B754_zero s => ex_sign s ++ txt "0.0" | B754_finite s m e _ => ex_sign s ++ show_int (Zpos m) ++ txt ".0e" ++ show_int e | _ => [] end.
Definition digit (c : ascii) : bool := existsb (Ascii.eqb c) (txt "0123456789").
Definition read_z (t : text) : option Z := option_map Z.of_int (NilZero.int_of_string (string_of_list_ascii t)).
Definition ex_make (s : bool) (m e : Z) : option f64 :=
  match m with Zpos q => match Bool.bool_dec (bounded prec emax q e) true with left H => Some (B754_finite s q e H) | right _ => None end | _ => None end.
Definition ex_fread (t : text) : option f64 :=
  let (s, r) := match strip (txt "-") t with Some r => (true, r) | None => (false, t) end in
  let (m, r1) := span digit r in
  match strip (txt ".0") r1 with
  | Some [] => Some (B754_zero s)
  | Some r2 => match strip (txt "e") r2, read_z m with Some r3, Some z => match read_z r3 with Some e => ex_make s z e | None => None end | _, _ => None end
  | None => None end.
Lemma read_z_show z : read_z (show_int z) = Some z.
Proof. unfold read_z, show_int, txt. rewrite string_of_list_ascii_of_string, to_int_isi. cbn [option_map]. rewrite DecimalZ.of_to. reflexivity. Qed.
Lemma uint_digits d : forallb digit (txt (NilEmpty.string_of_uint d)) = true.
Proof. induction d; cbn; auto. Qed.
Lemma pos_digits m : forallb digit (show_int (Zpos m)) = true.
Proof. unfold show_int. cbn [Z.to_int NilZero.string_of_int]. destruct (Pos.to_uint m); try apply uint_digits; reflexivity. Qed.
Lemma ex_sign_read s t : match t with c :: _ => digit c = true | [] => False end -> match strip (txt "-") (ex_sign s ++ t) with Some r => (true, r) | None => (false, ex_sign s ++ t) end = (s, t).
Proof.
  destruct s; [reflexivity|]. destruct t as [|c t]; [contradiction|]. intros D. cbn [ex_sign app]. change (txt "-") with ["-"%char]. cbn [strip]. destruct (Ascii.eqb "-" c) eqn:E; [|reflexivity]. apply Ascii.eqb_eq in E. subst c. discriminate.
Qed.
Lemma int_float_chars z : Forall (fun c => In c (txt "0123456789+-.e")) (show_int z).
Proof.
  assert (U : forall d, Forall (fun c => In c (txt "0123456789+-.e")) (txt (NilEmpty.string_of_uint d))) by (intros d; induction d; cbn [NilEmpty.string_of_uint txt list_ascii_of_string]; constructor; try exact IHd; cbn; tauto).
  assert (U0 : forall d, Forall (fun c => In c (txt "0123456789+-.e")) (txt (NilZero.string_of_uint d))) by (intros d; destruct d; try apply U; constructor; [cbn; tauto | constructor]).
  unfold show_int. destruct (Z.to_int z) as [d|d]; cbn [NilZero.string_of_int]; [apply U0|]. unfold txt at 2. cbn [list_ascii_of_string]. constructor; [cbn; tauto | apply U0].
Qed.
Lemma ex_float_text : float_text ex_frepr ex_fread.
Proof.
  intros x F. destruct x as [s|s| |s m e He]; try discriminate.
  - destruct s; (split; [reflexivity|]); (split; [repeat (constructor; [cbn; tauto|]); constructor | left; cbn; tauto]).
  - cbn [ex_frepr]. destruct (int_chars (Zpos m)) as (A1 & A2). destruct (int_chars e) as (B1 & B2). split; [|split].
    + unfold ex_fread. pose proof (pos_digits m) as PD. pose proof (show_int_nonnil (Zpos m)) as NN. rewrite ex_sign_read.
      * rewrite (span_app digit (show_int (Zpos m))); [|exact PD | reflexivity]. rewrite read_z_show. change (strip (txt ".0") (txt ".0e" ++ show_int e)) with (Some ("e"%char :: show_int e)). cbv iota.
        change (strip (txt "e") ("e"%char :: show_int e)) with (Some (show_int e)). cbv iota. rewrite read_z_show. unfold ex_make. destruct (Bool.bool_dec (bounded prec emax m e) true) as [H|H]; [|contradiction]. f_equal. f_equal. apply Eqdep_dec.UIP_dec, Bool.bool_dec.
      * destruct (show_int (Zpos m)) as [|c l]; [contradiction|]. cbn [forallb] in PD. apply andb_true_iff in PD as (PD & _). exact PD.
    + rewrite !Forall_app. split; [destruct s; [constructor; [cbn; tauto | constructor] | constructor]|]. split; [apply int_float_chars|]. split; [repeat (constructor; [cbn; tauto|]); constructor | apply int_float_chars].
    + left. apply in_or_app. right. apply in_or_app. right. cbn. tauto.
Qed.
(** The hypotheses hold: a session that tracks the depth. *)
Lemma ex_no_roi : ~ In "roi_flag"%string (map fst (opts ex_w)).
Proof.
  intros I. assert (E : existsb (String.eqb "roi_flag") (map fst (opts ex_w)) = false) by (vm_compute; reflexivity). apply not_true_iff_false in E. apply E, existsb_exists. exists "roi_flag"%string. split; [exact I | apply String.eqb_refl].
Qed.
Example C112_example : float_text ex_frepr ex_fread /\ session any_draw ex_lm 10 9 ex_params ex_P ex_draws ex_s /\ s_walk ex_s = Some ex_w /\ (exists d, py_walk (fun _ => true) ex_w d) /\
  double_grids (fun _ => true) ex_P /\ (0 < count ex_w)%nat /\ In "depth"%string (tvars ex_P) /\ exists d, py_walk (fun _ => false) ex_w d.
Proof.
  split; [exact ex_float_text|]. split; [exact ex_session|]. split; [apply ex_walk|]. split; [apply py_exists, ex_no_roi|]. split; [intros v _ _; reflexivity|]. split; [vm_compute; lia|]. split; [vm_compute; left; reflexivity | apply py_exists, ex_no_roi].
Qed.

(** C113 A simulation can be continued from a file: a new object (from equal parameters) that takes over the loaded walk data as previous_walk_data, without adding
    particles, goes on exactly as the old object would have done - whatever calls follow, and whatever random numbers are delivered after the interruption. *)
Theorem C113_continue_from_file :
  forall frepr fread G lm L W (p : params f64) P draws s w dbl d t d' w',
    float_text frepr fread -> session G lm L W p P draws s -> s_walk s = Some w -> py_walk dbl w d ->
    json_dump frepr d = Ok t -> json_load fread t = Ok d' -> py_walk dbl w' d' ->
    forall later n t0 os, match_res same_data (do_ops lm P later os (at_pos n s)) (do_ops lm P later (OpGen 0 [] [] t0 Random (Some w') :: os) (init_sim lm P n)).
Proof.
  intros frepr fread G lm L W p P draws s w dbl d t d' w' FT SS SW PW E E' PW' later n t0 os.
  rewrite (load_dump frepr fread (float_number _ _ FT) d t (py_plain _ _ _ _ _ _ _ _ _ _ _ SS SW PW) E) in E'. injection E' as <-. rewrite (py_walk_inj dbl w w' d PW PW'). exact (resume lm L W p P draws s w SS SW later n t0 os).
Qed.
Print Assumptions C113_continue_from_file.
Example C113_example : exists d t, float_text ex_frepr ex_fread /\ session any_draw ex_lm 10 9 ex_params ex_P ex_draws ex_s /\ s_walk ex_s = Some ex_w /\ py_walk (fun _ => true) ex_w d /\
  json_dump ex_frepr d = Ok t /\ json_load ex_fread t = Ok d.
Proof.
  destruct C112_example as (FT & SS & SW & (d & PW) & DG & _). destruct (C112_saved_data_partial _ _ _ _ _ _ _ _ _ _ _ _ d FT SS SW PW DG) as (t & A & B & _). exists d, t. auto 7.
Qed.

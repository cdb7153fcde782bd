(** Properties C98 and C99: the files of an unsteady run. *)
From Coq Require Import ZArith NArith Bool String Ascii List Permutation Sorted Lia.
From Verif Require Import Num F64 F64Laws Py NumFacts NumMore Walker ParticleTrack Gen SpecWeights SpecPick SpecWalk SpecHist SpecInit SpecApi SpecPost SpecRout PostProc Grid Routines
  Unsteady SpecUnst Examples ExamplesReach P_Unst Files SpecFiles ProofFiles.
Import ListNotations.
Open Scope Z_scope.
Open Scope string_scope.

Section Ext.
Context {T : Type} {N : Num T}.
Lemma loop_ext lm draws otype (d d' : folder T) tt : (forall k, load_step otype d k = load_step otype d' k) ->
  forall ks q prev p pos, files_loop lm draws otype d tt ks q prev p pos = files_loop lm draws otype d' tt ks q prev p pos.
Proof.
  intros H. induction ks as [|k ks IH]; intros q prev p pos; [reflexivity|]. cbn [files_loop]. rewrite H. destruct (load_step otype d' k) as [f|e|n]; cbn [fbind]; [|reflexivity|reflexivity].
  destruct (nth_error tt (Z.to_nat k)); [|reflexivity]. destruct (lift _) as [((w & p') & pos')|e|n]; cbn [fbind]; [apply IH | reflexivity | reflexivity].
Qed.
Lemma step_ext otype (d d' : folder T) : (forall w, In w ["depth"; "stage"; "qx"; "qy"; "data"] -> listed w d = listed w d') ->
  (forall n, d_csv d n = d_csv d' n) -> (forall n, d_npy d n = d_npy d' n) -> (forall n, d_npz d n = d_npz d' n) -> forall k, load_step otype d k = load_step otype d' k.
Proof.
  intros L A B C k. assert (LN : forall X (r r' : string -> option X) l, (forall n, r n = r' n) -> load_nth r l k = load_nth r' l k) by (intros X r r' l E; unfold load_nth; destruct (lift _); cbn [fbind]; rewrite ?E; reflexivity).
  unfold load_step. rewrite !L by (cbn; tauto). rewrite !(LN _ _ _ _ A), !(LN _ _ _ _ B), !(LN _ _ _ _ C). reflexivity.
Qed.
Lemma existsb_perm {A} (f : A -> bool) a b : Permutation a b -> existsb f a = existsb f b.
Proof.
  intros P. apply eq_true_iff_eq. rewrite !existsb_exists. split; intros (x & I & H); exists x; (split; [|exact H]); [apply (Permutation_in x P I) | apply (Permutation_in x (Permutation_sym P) I)].
Qed.
Lemma make_dir_same name (d d' : folder T) : Permutation (d_names d) (d_names d') ->
  (forall n, d_csv d n = d_csv d' n) -> (forall n, d_npy d n = d_npy d' n) -> (forall n, d_npz d n = d_npz d' n) ->
  Permutation (d_names (make_dir name d)) (d_names (make_dir name d')) /\ (forall n, d_csv (make_dir name d) n = d_csv (make_dir name d') n) /\
  (forall n, d_npy (make_dir name d) n = d_npy (make_dir name d') n) /\ (forall n, d_npz (make_dir name d) n = d_npz (make_dir name d') n).
Proof.
  intros P A B C. unfold make_dir. rewrite (existsb_perm _ _ _ P). destruct (existsb _ _); [auto|]. cbn [d_names d_csv d_npy d_npz].
  split; [apply Permutation_app; [exact P | reflexivity]|]. repeat split; intros n; destruct (String.eqb n name); auto.
Qed.
End Ext.

(** C98 The outcome of an unsteady run does not depend on the order in which the operating system lists the files. *)
Theorem C98_listing_order :
  forall lm draws pos dx np xl yl num_steps timestep (d d' : folder f64) otype here,
    Permutation (d_names d) (d_names d') -> (forall n, d_csv d n = d_csv d' n) -> (forall n, d_npy d n = d_npy d' n) -> (forall n, d_npz d n = d_npz d' n) ->
    unsteady_files lm draws pos dx np xl yl num_steps timestep d otype here = unsteady_files lm draws pos dx np xl yl num_steps timestep d' otype here.
Proof.
  intros lm draws pos dx np xl yl num ts d d' otype here P A B C.
  assert (K : Permutation (d_names (make_dirs here d)) (d_names (make_dirs here d')) /\ (forall n, d_csv (make_dirs here d) n = d_csv (make_dirs here d') n) /\
    (forall n, d_npy (make_dirs here d) n = d_npy (make_dirs here d') n) /\ (forall n, d_npz (make_dirs here d) n = d_npz (make_dirs here d') n)).
  { destruct here; [|auto]. cbn [make_dirs]. destruct (make_dir_same "figs" d d' P A B C) as (P1 & A1 & B1 & C1). apply make_dir_same; assumption. }
  destruct K as (P1 & A1 & B1 & C1). unfold unsteady_files. cbv zeta. rewrite !(listed_perm _ _ _ P1). destruct (lift _); cbn [fbind]; [|reflexivity|reflexivity].
  rewrite (loop_ext lm draws otype (make_dirs here d) (make_dirs here d')); [reflexivity|]. apply step_ext; try assumption. intros w _. apply listed_perm, P1.
Qed.
Print Assumptions C98_listing_order.

Lemma sort_labels {A} (labels : list string) : forall (fs : list A), length fs = length labels -> NoDup labels ->
  exists labels' fs', length fs' = length labels' /\ Permutation (combine labels fs) (combine labels' fs') /\ StronglySorted before labels'.
Proof.
  induction labels as [|l labels IH]; intros [|f fs] LN ND; try discriminate; [exists [], []; repeat constructor|].
  inversion ND as [|? ? NI ND']; subst. cbn [length] in LN. destruct (IH fs ltac:(lia) ND') as (ls & gs & L & P & S).
  assert (NI' : ~ In l ls).
  { intros C. apply NI. destruct (In_nth_error _ _ C) as (i & Hi). destruct (nth_error gs i) as [g|] eqn:E; [|apply nth_error_None in E; assert (i < length ls)%nat by (apply nth_error_Some; congruence); lia].
    assert (I : In (l, g) (combine ls gs)) by (clear - Hi E; revert gs i Hi E; induction ls as [|a ls IH]; intros [|b gs] [|i] Hi E; try discriminate; cbn [nth_error combine] in *; [left; congruence | right; eapply IH; eassumption]).
    apply (Permutation_in _ (Permutation_sym P)), in_combine_l in I. exact I. }
  cut (exists ls' gs', length gs' = length ls' /\ Permutation ((l, f) :: combine ls gs) (combine ls' gs') /\ StronglySorted before ls' /\ forall x, before x l -> Forall (before x) ls -> Forall (before x) ls').
  { intros (ls' & gs' & L' & P' & S' & _). exists ls', gs'. split; [exact L'|]. split; [|exact S']. cbn [combine]. rewrite P. exact P'. }
  clear IH P NI ND ND' LN fs labels. revert gs L NI'. induction S as [|y ls S IH F]; intros [|g gs] L NI; try discriminate.
  { exists [l], [f]. split; [reflexivity|]. split; [reflexivity|]. split; [repeat constructor|]. intros x B _. repeat constructor; exact B. }
  destruct (leb_total l y) as [C|C]; apply leb_before in C as [E|B]; try (exfalso; apply NI; left; congruence).
  - exists (l :: y :: ls), (f :: g :: gs). split; [cbn [length] in *; lia|]. split; [reflexivity|]. split.
    + constructor; [constructor; assumption|]. constructor; [exact B|]. eapply Forall_impl; [|exact F]. intros z Z.
      destruct (leb_before l z) as [E|Q]; [eapply leb_trans; apply before_leb; eassumption | | exact Q]. subst z. exfalso. pose proof (leb_antisym _ _ (before_leb _ _ B) (before_leb _ _ Z)) as E. apply NI. left. congruence.
    + intros x Bx Fx. constructor; assumption.
  - destruct (IH gs ltac:(cbn [length] in *; lia) ltac:(intros I; apply NI; right; exact I)) as (ls' & gs' & L' & P' & S' & Q). exists (y :: ls'), (g :: gs').
    split; [cbn [length]; lia|]. split; [cbn [combine]; rewrite <- P'; apply perm_swap|]. split; [constructor; [exact S' | apply Q; assumption]|].
    intros x Bx Fx. inversion Fx; subst. constructor; [assumption | apply Q; assumption].
Qed.
Lemma combine_split {A B} (a : list A) : forall (b : list B), length b = length a -> map fst (combine a b) = a /\ map snd (combine a b) = b.
Proof. induction a as [|x a IH]; intros [|y b] L; try discriminate; [auto|]. cbn [combine map fst snd] in *. destruct (IH b ltac:(cbn in L; lia)) as (E1 & E2). rewrite E1, E2. auto. Qed.
Lemma Forall2_combine {A B} (R : A -> B -> Prop) a : forall b, length b = length a -> (Forall2 R a b <-> Forall (fun c => R (fst c) (snd c)) (combine a b)).
Proof.
  induction a as [|x a IH]; intros [|y b] L; try discriminate; [split; constructor|]. cbn [combine]. split; intros H; inversion H; subst; constructor; auto; apply IH; auto.
Qed.
(** Each step reads the files of one timestep: the run is the one through the flow fields in some order, namely that of their labels as strings. *)
Theorem C98_one_label_per_step :
  forall lm draws pos dx np xl yl num_steps timestep (d : folder f64) otype labels fields, holds_fields d otype labels fields ->
    exists labels' fields', length fields' = length labels' /\ Permutation (combine labels fields) (combine labels' fields') /\ StronglySorted before labels' /\
      unsteady_files lm draws pos dx np xl yl num_steps timestep d otype false = lift (unsteady_plots lm draws pos dx np xl yl num_steps timestep fields').
Proof.
  intros lm draws pos dx np xl yl num ts d otype labels fields H.
  assert (K : NoDup labels /\ length fields = length labels).
  { destruct H as [(_ & (ND & _) & F)|[(_ & (ND & _) & F)|(_ & (ND & _) & F)]]; apply Forall2_len in F; auto. }
  destruct K as (ND & LN). destruct (sort_labels labels fields LN ND) as (ls & fs & L & P & S). exists ls, fs. split; [exact L|]. split; [exact P|]. split; [exact S|].
  apply (holds_reads lm draws pos dx np xl yl num ts d otype ls fs); [|exact S].
  assert (PL : Permutation labels ls). { destruct (combine_split labels fields LN) as (E1 & _). destruct (combine_split ls fs L) as (E2 & _). rewrite <- E1, <- E2. apply Permutation_map, P. }
  assert (ND' : NoDup ls) by (eapply Permutation_NoDup; eassumption).
  assert (FP : forall R : string -> field f64 -> Prop, Forall2 R labels fields -> Forall2 R ls fs).
  { intros R F. apply Forall2_combine; [exact L|]. rewrite <- P. apply Forall2_combine; [exact LN | exact F]. }
  assert (FE : four_each d labels -> four_each d ls).
  { intros (_ & o & U & Q). split; [exact ND'|]. exists o. split; [exact U|]. rewrite Q, !(Permutation_map _ PL). reflexivity. }
  destruct H as [(-> & HE & F)|[(-> & HE & F)|(-> & (_ & o & U & Q) & F)]].
  - left. split; [reflexivity|]. split; [exact (FE HE) | exact (FP _ F)].
  - right; left. split; [reflexivity|]. split; [exact (FE HE) | exact (FP _ F)].
  - right; right. split; [reflexivity|]. split; [split; [exact ND'|]; exists o; split; [exact U | rewrite Q, (Permutation_map _ PL); reflexivity] | exact (FP _ F)].
Qed.
Print Assumptions C98_one_label_per_step.

(** What holds of "in the order of time": the fields are used in the order given if their labels ascend as strings. *)
Theorem C98_time_order_partial :
  forall lm draws pos dx np xl yl num_steps timestep (d : folder f64) otype labels fields, holds_fields d otype labels fields -> StronglySorted before labels ->
    unsteady_files lm draws pos dx np xl yl num_steps timestep d otype false = lift (unsteady_plots lm draws pos dx np xl yl num_steps timestep fields).
Proof. intros lm draws pos dx np xl yl num ts d otype labels fields. apply holds_reads. Qed.
Print Assumptions C98_time_order_partial.

Lemma value_bound s : forall acc, digits s -> 10 ^ Z.of_nat (String.length s) * acc <= value acc s < 10 ^ Z.of_nat (String.length s) * (acc + 1).
Proof.
  induction s as [|c s IH]; intros acc D; cbn [value String.length]; [change (10 ^ Z.of_nat 0) with 1; lia|]. destruct D as ((D1 & D2) & D). specialize (IH (10 * acc + (Z.of_N (N_of_ascii c) - 48)) D).
  rewrite Nat2Z.inj_succ, Z.pow_succ_r by lia. assert (Hp : 0 < 10 ^ Z.of_nat (String.length s)) by (apply Z.pow_pos_nonneg; lia).
  remember (10 ^ Z.of_nat (String.length s)) as p eqn:Ep. remember (Z.of_N (N_of_ascii c) - 48) as X eqn:EX. assert (0 <= X <= 9) by lia.
  assert (0 <= p * X) by (apply Z.mul_nonneg_nonneg; lia). assert (0 <= p * (9 - X)) by (apply Z.mul_nonneg_nonneg; lia). lia.
Qed.
Lemma value_before a : forall b m e, digits a -> digits b -> String.length a = String.length b -> value m a < value m b -> before (a ++ e) (b ++ e).
Proof.
  induction a as [|c a IH]; intros [|d b] m e DA DB L V; try discriminate; [cbn [value] in V; lia|].
  cbn [digits value append String.length] in *. destruct DA as ((A1 & A2) & DA). destruct DB as ((B1 & B2) & DB). injection L as L.
  destruct (N.lt_total (N_of_ascii c) (N_of_ascii d)) as [C|[C|C]].
  - apply before_byte, C.
  - apply ascii_N in C. subst d. apply before_rest. eapply IH; eassumption.
  - exfalso. pose proof (value_bound a (10 * m + (Z.of_N (N_of_ascii c) - 48)) DA) as (V1 & _). pose proof (value_bound b (10 * m + (Z.of_N (N_of_ascii d) - 48)) DB) as (_ & V2). rewrite L in V1.
    assert (Hp : 0 < 10 ^ Z.of_nat (String.length b)) by (apply Z.pow_pos_nonneg; lia).
    remember (10 ^ Z.of_nat (String.length b)) as p eqn:Ep. assert (0 <= p * (Z.of_N (N_of_ascii c) - Z.of_N (N_of_ascii d) - 1)) by (apply Z.mul_nonneg_nonneg; lia). lia.
Qed.
(** In particular: labels that are numbers written with equally many digits, followed by the same ending, are used in the order of the numbers. *)
Theorem C98_padded_numbers_partial :
  forall lm draws pos dx np xl yl num_steps timestep (d : folder f64) otype numbers ending fields k,
    holds_fields d otype (map (fun n => n ++ ending) numbers) fields -> Forall (fun n => digits n /\ String.length n = k) numbers -> StronglySorted (fun a b => value 0 a < value 0 b) numbers ->
    unsteady_files lm draws pos dx np xl yl num_steps timestep d otype false = lift (unsteady_plots lm draws pos dx np xl yl num_steps timestep fields).
Proof.
  intros lm draws pos dx np xl yl num ts d otype numbers ending fields k H D S. apply (holds_reads lm draws pos dx np xl yl num ts d otype _ fields H). clear H.
  induction S as [|a l S IH F]; cbn [map]; [constructor|]. inversion D as [|? ? (DA & LA) D']; subst. constructor; [apply IH, D'|]. apply Forall_map.
  rewrite Forall_forall in *. intros b Hb. destruct (D' b Hb) as (DB & LB). apply (value_before a b 0); auto; congruence.
Qed.
Print Assumptions C98_padded_numbers_partial.

(** False of plain numbers: with the files ...1, ..., ...10 the second step uses the tenth timestep, whatever they contain. *)
Definition ten_labels (e : string) : list string := map (fun n => n ++ e) ["1"; "2"; "3"; "4"; "5"; "6"; "7"; "8"; "9"; "10"].
Theorem C98_time_order_refuted :
  forall lm draws pos dx np xl yl num_steps timestep (d : folder f64) otype f1 f2 f3 f4 f5 f6 f7 f8 f9 f10,
    holds_fields d otype (ten_labels ".npy") [f1; f2; f3; f4; f5; f6; f7; f8; f9; f10] ->
    unsteady_files lm draws pos dx np xl yl num_steps timestep d otype false =
    lift (unsteady_plots lm draws pos dx np xl yl num_steps timestep [f1; f10; f2; f3; f4; f5; f6; f7; f8; f9]).
Proof.
  intros lm draws pos dx np xl yl num ts d otype f1 f2 f3 f4 f5 f6 f7 f8 f9 f10 H.
  pose (ls := map (fun n => n ++ ".npy") ["1"; "10"; "2"; "3"; "4"; "5"; "6"; "7"; "8"; "9"]).
  assert (S : StronglySorted before ls).
  { unfold ls. cbn [map append]. repeat first [apply SSorted_nil | apply SSorted_cons | apply Forall_nil | apply Forall_cons]; repeat apply before_rest; apply before_byte; vm_compute; reflexivity. }
  apply (holds_reads lm draws pos dx np xl yl num ts d otype ls); [|exact S].
  assert (PL : Permutation (ten_labels ".npy") ls).
  { unfold ls, ten_labels. apply Permutation_map. apply perm_skip. change ["2"; "3"; "4"; "5"; "6"; "7"; "8"; "9"; "10"] with (["2"; "3"; "4"; "5"; "6"; "7"; "8"; "9"] ++ ["10"])%list. apply Permutation_sym, Permutation_cons_append. }
  assert (FP : forall R : string -> field f64 -> Prop, Forall2 R (ten_labels ".npy") [f1; f2; f3; f4; f5; f6; f7; f8; f9; f10] -> Forall2 R ls [f1; f10; f2; f3; f4; f5; f6; f7; f8; f9]).
  { intros R F. repeat match goal with F : Forall2 _ (_ :: _) _ |- _ => inversion F; clear F; subst | F : Forall2 _ (ten_labels _) _ |- _ => unfold ten_labels in F; cbn [map] in F end. repeat constructor; assumption. }
  assert (FE : four_each d (ten_labels ".npy") -> four_each d ls).
  { intros (ND & o & U & Q). split; [eapply Permutation_NoDup; eassumption|]. exists o. split; [exact U|]. rewrite Q, !(Permutation_map _ PL). reflexivity. }
  destruct H as [(-> & HE & F)|[(-> & HE & F)|(-> & (ND & o & U & Q) & F)]].
  - left. split; [reflexivity|]. split; [exact (FE HE) | exact (FP _ F)].
  - right; left. split; [reflexivity|]. split; [exact (FE HE) | exact (FP _ F)].
  - right; right. split; [reflexivity|]. split; [split; [eapply Permutation_NoDup; eassumption|]; exists o; split; [exact U | rewrite Q, (Permutation_map _ PL); reflexivity] | exact (FP _ F)].
Qed.
Print Assumptions C98_time_order_refuted.

(** Ten timesteps, the flow turns round in the last one; the names are listed in reverse. *)
Definition tf_field (l : string) : field f64 := if String.eqb l "10.npy" then uf (-1) else uf 1.
Definition tf_read (n : string) : option (arr f64) :=
  if String.prefix "depth" n then Some (fl_depth (tf_field (substring 5 20 n))) else if String.prefix "stage" n then Some (fl_stage (tf_field (substring 5 20 n)))
  else if String.prefix "qx" n then Some (fl_qx (tf_field (substring 2 20 n))) else if String.prefix "qy" n then Some (fl_qy (tf_field (substring 2 20 n))) else None.
Definition tf_names (labels : list string) : list string :=
  rev (map (append "depth") labels ++ map (append "stage") labels ++ map (append "qx") labels ++ map (append "qy") labels ++ ["notes.txt"]).
Definition tf (labels : list string) : folder f64 := {| d_names := tf_names labels; d_csv := fun _ => None; d_npy := tf_read; d_npz := fun _ => None |}.
Lemma tf_holds labels : NoDup labels -> Forall (fun l => contents tf_read l (tf_field l)) labels -> holds_fields (tf labels) "npy" labels (map tf_field labels).
Proof.
  intros ND F. right; left. split; [reflexivity|]. split.
  - split; [exact ND|]. exists ["notes.txt"]. split; [|cbn [tf d_names]; symmetry; apply Permutation_rev].
    constructor; [|constructor]. intros w Hw. cbn [In] in Hw. destruct Hw as [<-|[<-|[<-|[<-|[<-|[]]]]]]; reflexivity.
  - cbn [tf d_npy]. induction F; constructor; auto. apply IHF. inversion ND; assumption.
Qed.
Lemma ten_nodup : NoDup (ten_labels ".npy").
Proof. unfold ten_labels. cbn [map append]. repeat constructor; cbn [In]; intros C; repeat (destruct C as [C|C]; [discriminate C|]); destruct C. Qed.
Lemma ten_holds : holds_fields (tf (ten_labels ".npy")) "npy" (ten_labels ".npy") (map tf_field (ten_labels ".npy")).
Proof. apply tf_holds; [exact ten_nodup|]. unfold ten_labels. cbn [map]. repeat constructor. Qed.
Definition files_run (d : folder f64) (otype : string) (here : bool) (n : Z) : fres (walk f64) := unsteady_files ex_lm ex_draws 0 (nofZ 2) 2 [4] [2; 3] n (nofZ 4) d otype here.
Lemma later_differs : xs_of (unsteady_plots ex_lm ex_draws 0 (nofZ 2) 2 [4] [2; 3] 2 (nofZ 4) (map tf_field (ten_labels ".npy"))) <> [[4; 3]; [4; 3; 4]].
Proof. vm_compute. discriminate. Qed.
(** The particles do not go where the flow fields, in the order of time, would take them. *)
Example C98_refuted_example : holds_fields (tf (ten_labels ".npy")) "npy" (ten_labels ".npy") (map tf_field (ten_labels ".npy")) /\
  exists w, files_run (tf (ten_labels ".npy")) "npy" false 2 = Done w /\ xinds w = [[4; 3]; [4; 3; 4]] /\
    unsteady_plots ex_lm ex_draws 0 (nofZ 2) 2 [4] [2; 3] 2 (nofZ 4) (map tf_field (ten_labels ".npy")) <> Ok w.
Proof.
  split; [exact ten_holds|]. pose proof later_differs as LD. unfold files_run.
  rewrite (C98_time_order_refuted ex_lm ex_draws 0 (nofZ 2) 2 [4] [2; 3] 2 (nofZ 4) _ "npy" _ _ _ _ _ _ _ _ _ _ ten_holds).
  destruct (xs_ok (unsteady_plots ex_lm ex_draws 0 (nofZ 2) 2 [4] [2; 3] 2 (nofZ 4) (map tf_field ["1.npy"; "10.npy"; "2.npy"; "3.npy"; "4.npy"; "5.npy"; "6.npy"; "7.npy"; "8.npy"; "9.npy"])) [4; 3] [[4; 3; 4]]) as (w & E & X); [vm_compute; reflexivity|].
  cbn [map] in E. exists w. split; [exact (f_equal lift E)|]. split; [exact X|]. intros C. rewrite C in LD. exact (LD X).
Qed.
(** Ten padded numbers are read in the order of time. *)
Definition padded : list string := ["01"; "02"; "03"; "04"; "05"; "06"; "07"; "08"; "09"; "10"].
Example C98_padded_example : holds_fields (tf (map (fun n => n ++ ".npy") padded)) "npy" (map (fun n => n ++ ".npy") padded) (map tf_field (map (fun n => n ++ ".npy") padded)) /\
  Forall (fun n => digits n /\ String.length n = 2%nat) padded /\ StronglySorted (fun a b => value 0 a < value 0 b) padded.
Proof.
  split; [apply tf_holds; [unfold padded; cbn [map append]; repeat constructor; cbn [In]; intros C; repeat (destruct C as [C|C]; [discriminate C|]); destruct C | unfold padded; cbn [map]; repeat constructor]|].
  split; [|unfold padded; repeat constructor].
  unfold padded. repeat (constructor; [split; [cbn [digits]; repeat split; vm_compute; discriminate | reflexivity]|]). constructor.
Qed.
(** Two listings of one folder. *)
Example C98_listing_example : Permutation (d_names (tf padded)) (rev (d_names (tf padded))) /\ d_names (tf padded) <> rev (d_names (tf padded)).
Proof. split; [apply Permutation_rev | vm_compute; discriminate]. Qed.

(** C99 Saving into the folder of the flow fields.  False for npz: the routine creates the folder "data" there before it lists the input, takes it for the first file and fails. *)
Theorem C99_npz_refuted :
  forall lm draws pos dx np xl yl num_steps timestep (d : folder f64),
    1 <= num_steps -> (In "data" (d_names d) -> d_npz d "data" = None) ->
    unsteady_files lm draws pos dx np xl yl num_steps timestep d "npz" true = NotRead "data" \/
    unsteady_files lm draws pos dx np xl yl num_steps timestep d "npz" true = Raises ValueError.
Proof.
  intros lm draws pos dx np xl yl num ts d NS RD. unfold unsteady_files. cbv zeta. set (d' := make_dirs true d).
  assert (IN : In "data" (d_names d')).
  { unfold d'. cbn [make_dirs]. unfold make_dir at 1. destruct (existsb _ _) eqn:E; [|cbn [d_names]; apply in_or_app; right; left; reflexivity].
    apply existsb_exists in E as (x & I & E). apply String.eqb_eq in E. subst x. exact I. }
  assert (NL : d_npz d' "data" = None).
  { unfold d'. cbn [make_dirs]. unfold make_dir at 1. destruct (existsb _ _) eqn:E; [|reflexivity]. apply existsb_exists in E as (x & I & E). apply String.eqb_eq in E. subst x. revert I.
    unfold make_dir. destruct (existsb (String.eqb "figs") (d_names d)); [exact RD|]. cbn [d_names d_npz]. intros I. apply in_app_or in I as [I|[I|[]]]; [exact (RD I) | discriminate I]. }
  assert (FI : exists l, listed "data" d' = "data" :: l).
  { assert (I : In "data" (listed "data" d')) by (apply (Permutation_in _ (Permutation_sym (sort_perm _))), filter_In; split; [exact IN | reflexivity]).
    assert (AL : Forall (fun n => exists r, n = "data" ++ r) (listed "data" d')).
    { unfold listed. rewrite sort_perm. apply Forall_forall. intros n Hn. apply filter_In in Hn as (_ & Hn). clear - Hn.
      do 4 (destruct n as [|? n]; [discriminate Hn|]; cbn [String.prefix] in Hn; match type of Hn with (if ?b then _ else _) = _ => destruct b as [<-|]; [|discriminate Hn] end). exists n. reflexivity. }
    pose proof (sort_sorted (filter (String.prefix "data") (d_names d'))) as S. fold (listed "data" d') in S. destruct (listed "data" d') as [|x l]; [destruct I|].
    exists l. destruct I as [->|I]; [reflexivity|]. f_equal. inversion S as [|? ? _ F]; subst. rewrite Forall_forall in F. specialize (F _ I). inversion AL as [|? ? (r & ->) _]; subst.
    destruct r as [|c r]; [reflexivity | vm_compute in F; discriminate F]. }
  destruct FI as (l & FI). match goal with |- context [zrange 0 ?n] => set (n' := n) end.
  assert (N1 : 1 <= n') by (unfold n'; rewrite FI; cbn [length]; destruct (Z.ltb_spec (Z.max (Z.of_nat (length (listed "depth" d'))) (Z.of_nat (S (length l)))) num); lia).
  unfold np_arange. destruct (nfrac _) as [fr|]; [|right; reflexivity]. cbn [lift fbind]. left.
  replace (zrange 0 n') with (0 :: map (fun k => 0 + Z.of_nat k) (seq 1 (Z.to_nat n' - 1))) by (unfold zrange; replace (Z.to_nat (n' - 0)) with (S (Z.to_nat n' - 1)) by lia; reflexivity).
  cbn [files_loop]. unfold load_step at 1. cbn [String.eqb Ascii.eqb Bool.eqb]. rewrite FI. unfold load_nth at 1, py_nth, norm_ix. cbn [length].
  replace ((0 <=? 0) && (0 <? Z.of_nat (S (length l))))%Z with true by (symmetry; apply andb_true_iff; split; [reflexivity | apply Z.ltb_lt; lia]). cbn [Z.to_nat nth_error lift fbind]. rewrite NL. reflexivity.
Qed.
Print Assumptions C99_npz_refuted.
Definition zf : folder f64 := {| d_names := ["data1.npz"; "data2.npz"]; d_csv := fun _ => None; d_npy := fun _ => None; d_npz := fun n => if String.eqb n "data1.npz" then Some (uf 1) else if String.eqb n "data2.npz" then Some (uf (-1)) else None |}.
Example C99_npz_example : (In "data" (d_names zf) -> d_npz zf "data" = None) /\ files_run zf "npz" true 2 = NotRead "data" /\ exists w, files_run zf "npz" false 2 = Done w.
Proof.
  split; [intros [C|[C|[]]]; discriminate C|]. split; [vm_compute; reflexivity|].
  assert (K : match files_run zf "npz" false 2 with Done _ => true | _ => false end = true) by (vm_compute; reflexivity). destruct (files_run zf "npz" false 2) as [w|e|n]; try discriminate K. exists w. reflexivity.
Qed.

(** What holds: with csv or npy files (more depth files than entries that begin with "data") it makes no difference where the results are saved. *)
Theorem C99_same_folder_partial :
  forall lm draws pos dx np xl yl num_steps timestep (d : folder f64) otype, otype <> "npz" ->
    (length (filter (String.prefix "data") (d_names d)) < length (filter (String.prefix "depth") (d_names d)))%nat ->
    unsteady_files lm draws pos dx np xl yl num_steps timestep d otype true = unsteady_files lm draws pos dx np xl yl num_steps timestep d otype false.
Proof.
  intros lm draws pos dx np xl yl num ts d otype NZ LT.
  assert (FI : forall w name (e : folder f64), String.prefix w name = false -> listed w (make_dir name e) = listed w e).
  { intros w name e H. unfold listed, make_dir. destruct (existsb _ _); [reflexivity|]. cbn [d_names]. rewrite filter_app. cbn [filter]. rewrite H, app_nil_r. reflexivity. }
  assert (LS : forall w, In w ["depth"; "stage"; "qx"; "qy"] -> listed w (make_dirs true d) = listed w d).
  { intros w Hw. cbn [make_dirs]. rewrite !FI; [reflexivity| |]; cbn [In] in Hw; destruct Hw as [<-|[<-|[<-|[<-|[]]]]]; reflexivity. }
  assert (LD : (length (listed "data" (make_dirs true d)) <= S (length (filter (String.prefix "data") (d_names d))))%nat).
  { unfold listed. rewrite (Permutation_length (sort_perm _)). cbn [make_dirs]. unfold make_dir at 1. destruct (existsb _ (d_names (make_dir "figs" d))).
    - unfold make_dir. destruct (existsb _ _); [lia|]. cbn [d_names]. rewrite filter_app, app_length. cbn. lia.
    - cbn [d_names]. rewrite filter_app, app_length. unfold make_dir. destruct (existsb _ _); [cbn; lia|]. cbn [d_names]. rewrite filter_app, app_length. cbn. lia. }
  assert (LE : length (listed "depth" d) = length (filter (String.prefix "depth") (d_names d))) by apply (Permutation_length (sort_perm _)).
  assert (LF : length (listed "data" d) = length (filter (String.prefix "data") (d_names d))) by apply (Permutation_length (sort_perm _)).
  assert (RD : forall X (sel : folder f64 -> string -> option X),
    (forall name e n, sel (make_dir name e) n = if existsb (String.eqb name) (d_names e) then sel e n else if String.eqb n name then None else sel e n) ->
    forall w k, In w ["depth"; "stage"; "qx"; "qy"] -> load_nth (sel (make_dirs true d)) (listed w d) k = load_nth (sel d) (listed w d) k).
  { intros X sel HS w k Hw. unfold load_nth. destruct (py_nth (listed w d) k) as [n|e] eqn:E; [|reflexivity]. cbn [lift fbind].
    assert (PR : String.prefix w n = true).
    { assert (I : In n (listed w d)).
      { revert E. unfold py_nth. destruct (norm_ix _ _) as [z|]; [|discriminate]. destruct (nth_error (listed w d) (Z.to_nat z)) eqn:EN; [|discriminate]. intros E. injection E as <-. eapply nth_error_In, EN. }
      apply (Permutation_in _ (sort_perm _)), filter_In in I. apply I. }
    cbn [make_dirs]. rewrite !HS.
    assert (ND : String.eqb n "data" = false) by (apply String.eqb_neq; intros ->; cbn [In] in Hw; destruct Hw as [<-|[<-|[<-|[<-|[]]]]]; discriminate PR).
    assert (NF : String.eqb n "figs" = false) by (apply String.eqb_neq; intros ->; cbn [In] in Hw; destruct Hw as [<-|[<-|[<-|[<-|[]]]]]; discriminate PR).
    rewrite ND, NF. destruct (existsb _ _), (existsb _ _); reflexivity. }
  assert (RC := RD _ d_csv ltac:(intros name e n; unfold make_dir; destruct (existsb _ _); reflexivity)).
  assert (RN := RD _ d_npy ltac:(intros name e n; unfold make_dir; destruct (existsb _ _); reflexivity)).
  assert (ST : forall k, load_step otype (make_dirs true d) k = load_step otype d k).
  { intros k. unfold load_step. rewrite !LS by (cbn; tauto). rewrite !RC, !RN by (cbn; tauto). replace (String.eqb otype "npz") with false by (symmetry; apply String.eqb_neq; exact NZ). reflexivity. }
  unfold unsteady_files. cbv zeta. change (make_dirs false d) with d. rewrite (LS "depth") by (cbn; tauto).
  replace (Z.max (Z.of_nat (length (listed "depth" d))) (Z.of_nat (length (listed "data" (make_dirs true d))))) with (Z.max (Z.of_nat (length (listed "depth" d))) (Z.of_nat (length (listed "data" d)))) by lia.
  destruct (lift _) as [tt|e|n]; cbn [fbind]; [|reflexivity|reflexivity]. rewrite (loop_ext lm draws otype _ d tt ST). reflexivity.
Qed.
Print Assumptions C99_same_folder_partial.
Example C99_same_folder_example : (length (filter (String.prefix "data") (d_names (tf padded))) < length (filter (String.prefix "depth") (d_names (tf padded))))%nat.
Proof. vm_compute. lia. Qed.

(** Which files are read in which step. *)
From Coq Require Import ZArith NArith Bool String Ascii List Permutation Sorted Lia.
From Verif Require Import Num Py NumFacts Walker ParticleTrack Gen PostProc Grid Routines Unsteady Files SpecFiles.
Import ListNotations.
Open Scope Z_scope.
Open Scope string_scope.

(** ** Order of strings *)
Lemma leb_total a : forall b, str_leb a b = true \/ str_leb b a = true.
Proof.
  induction a as [|c a IH]; intros [|d b]; cbn [str_leb]; auto. rewrite (N.eqb_sym (N_of_ascii d)). destruct (N_of_ascii c =? N_of_ascii d)%N eqn:E; [apply IH|]. apply N.eqb_neq in E.
  rewrite !N.ltb_lt. lia.
Qed.
Lemma ascii_N c d : N_of_ascii c = N_of_ascii d -> c = d.
Proof. intros H. rewrite <- (ascii_N_embedding c), <- (ascii_N_embedding d), H. reflexivity. Qed.
Lemma leb_antisym a : forall b, str_leb a b = true -> str_leb b a = true -> a = b.
Proof.
  induction a as [|c a IH]; intros [|d b]; cbn [str_leb]; try discriminate; auto. rewrite (N.eqb_sym (N_of_ascii d)). destruct (N_of_ascii c =? N_of_ascii d)%N eqn:E.
  - intros A B. apply N.eqb_eq, ascii_N in E. rewrite E, (IH b A B). reflexivity.
  - rewrite !N.ltb_lt. lia.
Qed.
Lemma leb_trans a : forall b c, str_leb a b = true -> str_leb b c = true -> str_leb a c = true.
Proof.
  induction a as [|x a IH]; intros [|y b] [|z c]; cbn [str_leb]; try discriminate; auto.
  destruct (N_of_ascii x =? N_of_ascii y)%N eqn:E1; destruct (N_of_ascii y =? N_of_ascii z)%N eqn:E2; destruct (N_of_ascii x =? N_of_ascii z)%N eqn:E3;
    rewrite ?N.eqb_eq, ?N.eqb_neq, ?N.ltb_lt in *; try lia; intros A B; try lia. eapply IH; eassumption.
Qed.
Lemma before_leb a b : before a b -> str_leb a b = true.
Proof.
  induction 1 as [c s | c d r s H | c r s H IH]; cbn [str_leb]; [reflexivity | | rewrite N.eqb_refl; exact IH].
  replace (N_of_ascii c =? N_of_ascii d)%N with false by (symmetry; apply N.eqb_neq; lia). apply N.ltb_lt, H.
Qed.
Lemma leb_before a : forall b, str_leb a b = true -> a = b \/ before a b.
Proof.
  induction a as [|c a IH]; intros [|d b]; cbn [str_leb]; try discriminate; [auto | right; constructor|]. destruct (N_of_ascii c =? N_of_ascii d)%N eqn:E; intros H.
  - apply N.eqb_eq, ascii_N in E. subst d. destruct (IH b H) as [-> | B]; [auto | right; apply before_rest, B].
  - right. apply before_byte, N.ltb_lt, H.
Qed.
Lemma leb_append w a : forall b, str_leb (w ++ a) (w ++ b) = str_leb a b.
Proof. induction w as [|c w IH]; intros b; [reflexivity|]. cbn [append str_leb]. rewrite N.eqb_refl. apply IH. Qed.

(** ** Sorting *)
Definition leb_rel a b : Prop := str_leb a b = true.
Lemma insert_perm x l : Permutation (insert_name x l) (x :: l).
Proof.
  induction l as [|y l IH]; [reflexivity|]. cbn [insert_name]. destruct (str_leb x y); [reflexivity|]. rewrite IH. apply perm_swap.
Qed.
Lemma sort_perm l : Permutation (sort_names l) l.
Proof. induction l as [|x l IH]; [reflexivity|]. cbn [sort_names fold_right]. rewrite insert_perm. apply perm_skip, IH. Qed.
Lemma insert_sorted x l : StronglySorted leb_rel l -> StronglySorted leb_rel (insert_name x l).
Proof.
  induction 1 as [|y l S IH F]; [repeat constructor|]. cbn [insert_name]. destruct (str_leb x y) eqn:E.
  - constructor; [constructor; assumption|]. constructor; [exact E|]. eapply Forall_impl; [|exact F]. intros z. apply leb_trans, E.
  - constructor; [exact IH|]. assert (YX : leb_rel y x) by (destruct (leb_total x y) as [C|C]; [congruence | exact C]).
    rewrite (insert_perm x l). constructor; assumption.
Qed.
Lemma sort_sorted l : StronglySorted leb_rel (sort_names l).
Proof. induction l as [|x l IH]; [constructor | apply insert_sorted, IH]. Qed.
Lemma sorted_unique a : forall b, StronglySorted leb_rel a -> StronglySorted leb_rel b -> Permutation a b -> a = b.
Proof.
  induction a as [|x a IH]; intros b SA SB P; [apply Permutation_nil in P; auto|]. destruct b as [|y b]; [apply Permutation_sym, Permutation_nil in P; discriminate|].
  assert (E : x = y).
  { inversion SA as [|? ? SA' FA]; inversion SB as [|? ? SB' FB]; subst. rewrite Forall_forall in FA, FB.
    assert (IX : In x (y :: b)) by (apply (Permutation_in x P); left; reflexivity). assert (IY : In y (x :: a)) by (apply (Permutation_in y (Permutation_sym P)); left; reflexivity).
    destruct IX as [->|IX]; [reflexivity|]. destruct IY as [->|IY]; [reflexivity|]. apply leb_antisym; [apply FA, IY | apply FB, IX]. }
  subst y. apply Permutation_cons_inv in P. inversion SA; inversion SB; subst. rewrite (IH b); auto.
Qed.
Lemma sort_same a b : Permutation a b -> sort_names a = sort_names b.
Proof. intros P. apply sorted_unique; [apply sort_sorted | apply sort_sorted|]. rewrite !sort_perm. exact P. Qed.
Lemma sort_id l : StronglySorted leb_rel l -> sort_names l = l.
Proof. intros S. apply sorted_unique; [apply sort_sorted | exact S | apply sort_perm]. Qed.
Lemma before_sorted l : StronglySorted before l -> StronglySorted leb_rel l.
Proof.
  induction 1 as [|x l S IH F]; constructor; [exact IH|]. eapply Forall_impl; [|exact F]. intros y. apply before_leb.
Qed.
Lemma append_sorted w l : StronglySorted leb_rel l -> StronglySorted leb_rel (map (append w) l).
Proof.
  induction 1 as [|x l S IH F]; cbn [map]; constructor; [exact IH|]. apply Forall_map. eapply Forall_impl; [|exact F]. intros y H. unfold leb_rel. rewrite leb_append. exact H.
Qed.
Lemma filter_perm {A} (f : A -> bool) a b : Permutation a b -> Permutation (filter f a) (filter f b).
Proof.
  induction 1 as [|x a b P IH | x y a | a b c P1 IH1 P2 IH2]; [reflexivity | | | etransitivity; eassumption]; cbn [filter].
  - destruct (f x); [apply perm_skip|]; exact IH.
  - destruct (f x), (f y); try reflexivity. apply perm_swap.
Qed.
Lemma filter_all {A} (f : A -> bool) l : Forall (fun x => f x = true) l -> filter f l = l.
Proof. induction 1 as [|x l H F IH]; [reflexivity|]. cbn [filter]. rewrite H, IH. reflexivity. Qed.
Lemma filter_none {A} (f : A -> bool) l : Forall (fun x => f x = false) l -> filter f l = [].
Proof. induction 1 as [|x l H F IH]; [reflexivity|]. cbn [filter]. rewrite H. exact IH. Qed.
Lemma prefix_append w s : String.prefix w (w ++ s) = true.
Proof. induction w as [|c w IH]; [destruct s; reflexivity|]. cbn [append String.prefix]. destruct (ascii_dec c c); [exact IH | congruence]. Qed.

Section Folder.
Context {T : Type} {N : Num T}.
Implicit Types d : folder T.
Lemma listed_perm w d d' : Permutation (d_names d) (d_names d') -> listed w d = listed w d'.
Proof. intros P. apply sort_same, filter_perm, P. Qed.

(** The listed files of a folder with the four kinds of files: one for each label, in the order of the labels. *)
Lemma four_listed d labels : four_each d labels -> StronglySorted before labels ->
  listed "depth" d = map (append "depth") labels /\ listed "stage" d = map (append "stage") labels /\ listed "qx" d = map (append "qx") labels /\ listed "qy" d = map (append "qy") labels /\
  listed "data" d = [].
Proof.
  intros (_ & others & U & P) S. apply before_sorted in S.
  assert (K : forall w, In w ["depth"; "stage"; "qx"; "qy"; "data"] -> listed w d =
    sort_names (filter (String.prefix w) (map (append "depth") labels) ++ filter (String.prefix w) (map (append "stage") labels) ++ filter (String.prefix w) (map (append "qx") labels) ++
                filter (String.prefix w) (map (append "qy") labels))).
  { intros w Hw. unfold listed. rewrite (sort_same _ _ (filter_perm (String.prefix w) _ _ P)), !filter_app. f_equal. do 3 f_equal. rewrite (filter_none _ others); [apply app_nil_r|].
    eapply Forall_impl; [|exact U]. intros n Un. apply Un, Hw. }
  assert (YES : forall w, filter (String.prefix w) (map (append w) labels) = map (append w) labels) by (intros w; apply filter_all, Forall_map, Forall_forall; intros l _; apply prefix_append).
  assert (NO : forall w v, (forall l, String.prefix w (v ++ l) = false) -> filter (String.prefix w) (map (append v) labels) = []) by (intros w v H; apply filter_none, Forall_map, Forall_forall; intros l _; apply H).
  repeat split; (rewrite K by (cbn; tauto)); rewrite ?YES; repeat (rewrite NO by (intros l; reflexivity)); cbn [app]; rewrite ?app_nil_r; try reflexivity; apply sort_id, append_sorted, S.
Qed.
Lemma data_listed d labels : data_each d labels -> StronglySorted before labels -> listed "data" d = map (append "data") labels /\ listed "depth" d = [].
Proof.
  intros (_ & others & U & P) S. apply before_sorted in S.
  assert (K : forall w, In w ["depth"; "stage"; "qx"; "qy"; "data"] -> listed w d = sort_names (filter (String.prefix w) (map (append "data") labels))).
  { intros w Hw. unfold listed. rewrite (sort_same _ _ (filter_perm (String.prefix w) _ _ P)), filter_app. f_equal. rewrite (filter_none _ others); [apply app_nil_r|].
    eapply Forall_impl; [|exact U]. intros n Un. apply Un, Hw. }
  split; rewrite K by (cbn; tauto).
  - rewrite filter_all by (apply Forall_map, Forall_forall; intros l _; apply prefix_append). apply sort_id, append_sorted, S.
  - rewrite filter_none by (apply Forall_map, Forall_forall; intros l _; reflexivity). reflexivity.
Qed.

(** ** The loop reads the fields one after the other *)
Lemma loop_fields lm draws otype d tt : forall ks fs q prev p pos, Forall2 (fun k f => load_step otype d k = Done f) ks fs ->
  files_loop lm draws otype d tt ks q prev p pos = lift (unsteady_loop lm draws (combine fs (map (fun k => nth_error tt (Z.to_nat k)) ks)) q prev p pos).
Proof.
  induction ks as [|k ks IH]; intros fs q prev p pos F; inversion F as [|? f ? fs' Hk Hf]; subst; [reflexivity|].
  cbn [files_loop map combine unsteady_loop]. rewrite Hk. cbn [fbind]. destruct (nth_error tt (Z.to_nat k)) as [t|].
  - destruct (unsteady_step lm draws q f t prev p pos) as [((w & p') & pos')|e]; [|reflexivity]. cbn [lift fbind bind]. apply IH, Hf.
  - destruct (init lm (set_field f p)) as [(P & p')|e]; [|reflexivity]. cbn [lift fbind bind]. destruct (call_generate P draws q prev (init_sim lm P pos)) as ([?|?] & ?); reflexivity.
Qed.
Lemma steps_fields (otype : string) d (fields : list (field T)) n : n <= Z.of_nat (length fields) ->
  (forall i f, nth_error fields i = Some f -> load_step otype d (Z.of_nat i) = Done f) ->
  exists fs, Forall2 (fun k f => load_step otype d k = Done f) (zrange 0 n) fs /\
    forall tt : list T, combine fs (map (fun k => nth_error tt (Z.to_nat k)) (zrange 0 n)) =
      concat (map (fun i => match nth_error fields (Z.to_nat i) with Some f => [(f, nth_error tt (Z.to_nat i))] | None => [] end) (zrange 0 n)).
Proof.
  intros LE H. assert (B : Forall (fun k => 0 <= k < Z.of_nat (length fields)) (zrange 0 n)).
  { unfold zrange. apply Forall_map, Forall_forall. intros k Hk. apply in_seq in Hk. lia. }
  induction B as [|k ks Hk B IH]; [exists []; split; [constructor | reflexivity]|]. destruct IH as (fs & F & C).
  destruct (nth_error fields (Z.to_nat k)) as [f|] eqn:E; [|apply nth_error_None in E; lia]. exists (f :: fs). split.
  - constructor; [|exact F]. rewrite <- (H _ _ E). f_equal. lia.
  - intros tt. cbn [map combine concat]. rewrite E, C. reflexivity.
Qed.
Lemma reads_fields lm draws pos dx np xl yl num ts (d : folder T) otype here fields :
  Z.max (Z.of_nat (length (listed "depth" (make_dirs here d)))) (Z.of_nat (length (listed "data" (make_dirs here d)))) = Z.of_nat (length fields) ->
  (forall i f, nth_error fields i = Some f -> load_step otype (make_dirs here d) (Z.of_nat i) = Done f) ->
  unsteady_files lm draws pos dx np xl yl num ts d otype here = lift (unsteady_plots lm draws pos dx np xl yl num ts fields).
Proof.
  intros LN H. unfold unsteady_files, unsteady_plots. cbv zeta. rewrite LN. set (m := Z.of_nat (length fields)).
  replace (if (m <? num)%Z then m else num) with (Z.min num m) by (destruct (Z.ltb_spec m num); lia). set (n := Z.min num m).
  destruct (np_arange ts (nmul ts (nofZ (n + 1))) ts) as [tt|e]; [|reflexivity]. cbn [lift fbind bind].
  destruct (steps_fields otype (make_dirs here d) fields n ltac:(unfold n, m; lia) H) as (fs & F & C). rewrite (loop_fields _ _ _ _ _ _ _ _ _ _ _ F), C.
  destruct (unsteady_loop _ _ _ _ _ _ _) as [[w|]|e]; reflexivity.
Qed.

(** ** Folders as documented *)
Lemma py_nth_ok {A} (l : list A) i a : nth_error l i = Some a -> py_nth l (Z.of_nat i) = Ok a.
Proof.
  intros H. assert (L : (i < length l)%nat) by (apply nth_error_Some; congruence). unfold py_nth, norm_ix.
  replace ((0 <=? Z.of_nat i) && (Z.of_nat i <? Z.of_nat (length l)))%Z with true by (symmetry; apply andb_true_iff; split; [apply Z.leb_le | apply Z.ltb_lt]; lia).
  rewrite Nat2Z.id, H. reflexivity.
Qed.
Lemma load_label {A} (rd : string -> option A) w labels i l a : nth_error labels i = Some l -> rd (w ++ l) = Some a -> load_nth rd (map (append w) labels) (Z.of_nat i) = Done a.
Proof. intros H E. unfold load_nth. rewrite (py_nth_ok _ _ (w ++ l)); [cbn [lift fbind]; rewrite E; reflexivity|]. apply map_nth_error, H. Qed.
Lemma Forall2_nth {A B} (R : A -> B -> Prop) a : forall b i y, Forall2 R a b -> nth_error b i = Some y -> exists x, nth_error a i = Some x /\ R x y.
Proof.
  induction a as [|x a IH]; intros b i y F H; inversion F; subst; destruct i; try discriminate; cbn [nth_error] in *; [injection H as <-; eauto | eapply IH; eassumption].
Qed.
Lemma Forall2_len {A B} (R : A -> B -> Prop) a b : Forall2 R a b -> length a = length b.
Proof. induction 1; cbn; congruence. Qed.
Lemma four_reads lm draws pos dx np xl yl num ts d otype here labels fields rd :
  (forall k, load_step otype (make_dirs here d) k =
     (h <~ load_nth rd (listed "depth" (make_dirs here d)) k ;; s <~ load_nth rd (listed "stage" (make_dirs here d)) k ;;
      x <~ load_nth rd (listed "qx" (make_dirs here d)) k ;; y <~ load_nth rd (listed "qy" (make_dirs here d)) k ;;
      Done {| fl_depth := h; fl_stage := s; fl_qx := x; fl_qy := y |})) ->
  listed "depth" (make_dirs here d) = map (append "depth") labels -> listed "stage" (make_dirs here d) = map (append "stage") labels ->
  listed "qx" (make_dirs here d) = map (append "qx") labels -> listed "qy" (make_dirs here d) = map (append "qy") labels ->
  (length (listed "data" (make_dirs here d)) <= length labels)%nat -> Forall2 (contents rd) labels fields ->
  unsteady_files lm draws pos dx np xl yl num ts d otype here = lift (unsteady_plots lm draws pos dx np xl yl num ts fields).
Proof.
  intros LS ED ES EX EY LD F. apply reads_fields.
  - rewrite ED, map_length, <- (Forall2_len _ _ _ F). lia.
  - intros i f Hf. destruct (Forall2_nth _ _ _ i f F Hf) as (l & Hl & (C1 & C2 & C3 & C4)). rewrite LS, ED, ES, EX, EY.
    rewrite (load_label _ _ _ _ _ _ Hl C1), (load_label _ _ _ _ _ _ Hl C2), (load_label _ _ _ _ _ _ Hl C3), (load_label _ _ _ _ _ _ Hl C4). cbn [fbind]. destruct f; reflexivity.
Qed.
Lemma holds_reads lm draws pos dx np xl yl num ts d otype labels fields : holds_fields d otype labels fields -> StronglySorted before labels ->
  unsteady_files lm draws pos dx np xl yl num ts d otype false = lift (unsteady_plots lm draws pos dx np xl yl num ts fields).
Proof.
  intros [(-> & FE & F)|[(-> & FE & F)|(-> & FE & F)]] S.
  - destruct (four_listed d labels FE S) as (A & B & C & D & E). apply (four_reads _ _ _ _ _ _ _ _ _ d "csv" false labels fields (d_csv d)); cbn [make_dirs]; auto. rewrite E. cbn; lia.
  - destruct (four_listed d labels FE S) as (A & B & C & D & E). apply (four_reads _ _ _ _ _ _ _ _ _ d "npy" false labels fields (d_npy d)); cbn [make_dirs]; auto. rewrite E. cbn; lia.
  - destruct (data_listed d labels FE S) as (A & B). apply reads_fields; cbn [make_dirs].
    + rewrite A, B, map_length, <- (Forall2_len _ _ _ F). cbn [length]. lia.
    + intros i f Hf. destruct (Forall2_nth _ _ _ i f F Hf) as (l & Hl & C1). unfold load_step. cbn [String.eqb Ascii.eqb Bool.eqb]. rewrite A. apply (load_label _ _ _ _ _ _ Hl C1).
Qed.
End Folder.

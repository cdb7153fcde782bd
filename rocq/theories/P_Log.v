(** Properties C66, C77 and C78 (logging set-up). *)
From Coq Require Import ZArith Bool String Ascii List Lia.
From Verif Require Import Py Logging SpecLog.
Import ListNotations.
Open Scope string_scope.
Open Scope Z_scope.

Lemma upper_char_same c d : upper_char c = upper_char d <-> same_letter c d.
Proof.
  split.
  - unfold upper_char, same_letter. cbv zeta. pose proof (ascii_nat_embedding c) as EC. pose proof (ascii_nat_embedding d) as ED.
    destruct ((97 <=? nat_of_ascii c) && (nat_of_ascii c <=? 122))%nat eqn:C; destruct ((97 <=? nat_of_ascii d) && (nat_of_ascii d <=? 122))%nat eqn:D; intros H.
    + apply andb_true_iff in C as (C1 & C2), D as (D1 & D2). apply Nat.leb_le in C1, C2, D1, D2. left. apply (f_equal nat_of_ascii) in H. rewrite !nat_ascii_embedding in H by lia.
      rewrite <- EC, <- ED. f_equal. lia.
    + apply andb_true_iff in C as (C1 & C2). apply Nat.leb_le in C1, C2. right. exists (nat_of_ascii c - 97)%nat. split; [lia|]. right. split; [rewrite <- EC at 1; f_equal; lia|]. rewrite <- H. f_equal. lia.
    + apply andb_true_iff in D as (D1 & D2). apply Nat.leb_le in D1, D2. right. exists (nat_of_ascii d - 97)%nat. split; [lia|]. left. split; [rewrite H; f_equal; lia|]. rewrite <- ED at 1. f_equal. lia.
    + left. exact H.
  - intros [->|(n & Hn & [(-> & ->)|(-> & ->)])]; [reflexivity| |]; do 26 (destruct n as [|n]; [reflexivity|]); lia.
Qed.
Lemma upper_same s t : upper s = upper t <-> same_word s t.
Proof.
  split.
  - revert t. induction s as [|c s IH]; intros [|d t] H; try discriminate; [constructor|]. cbn [upper] in H. injection H as H1 H2. constructor; [apply upper_char_same, H1 | apply IH, H2].
  - induction 1 as [|c d s t H1 H2 IH]; [reflexivity|]. cbn [upper]. rewrite IH. f_equal. apply upper_char_same, H1.
Qed.
(** What a call does with a level name. *)
Lemma get_attr_spec s : 
  (exists name n, (documented name n \/ undocumented name n) /\ s = name /\ get_attr s logging_attrs = Some (AInt n)) \/
  (s = "BASIC_FORMAT" /\ get_attr s logging_attrs = Some AStr) \/ (s = "_STYLES" /\ get_attr s logging_attrs = Some ADict) \/ 
  ((forall name n, documented name n \/ undocumented name n -> s <> name) /\ get_attr s logging_attrs = None).
Proof.
  unfold logging_attrs. cbn [get_attr].
  repeat (match goal with |- context[String.eqb s ?k] => destruct (String.eqb_spec s k) as [E|?] end;
    [first [left; exists s; rewrite E; eexists; split; [first [left; constructor | right; constructor] | split; reflexivity]
          | right; left; split; [exact E | reflexivity] | right; right; left; split; [exact E | reflexivity]]|]).
  right. right. right. split; [|reflexivity]. intros name m [D|D]; destruct D; assumption.
Qed.
Lemma upper_name name n : documented name n \/ undocumented name n -> upper name = name.
Proof. intros [H|H]; destruct H; reflexivity. Qed.

(** C66 Which names are accepted, and that a rejected call changes nothing.  "Exactly the documented names" is false: NOTSET, WARN and FATAL are accepted too. *)
Theorem C66_levels_partial :
  forall level h g,
    match setup_logging level h g with
    | (Ok _, g') => exists name n, (documented name n \/ undocumented name n) /\ same_word level name /\ g_level g' = n /\ g_warned g' = g_warned g
    | (Err e, g') => g' = g /\ (e = ValueError \/ (e = TypeError /\ same_word level "_STYLES")) /\
                     forall name n, documented name n \/ undocumented name n -> ~ same_word level name
    end.
Proof.
  intros level h g. unfold setup_logging. destruct (get_attr_spec (upper level)) as [(name & n & D & E & ->) | [(E & ->) | [(E & ->) | (NE & ->)]]]; cbn [check_level].
  - exists name, n. split; [exact D|]. split; [apply upper_same; rewrite E; symmetry; eapply upper_name, D|]. split; reflexivity.
  - split; [reflexivity|]. split; [left; reflexivity|]. intros name n D SW. apply upper_same in SW. rewrite (upper_name _ _ D), E in SW. destruct D as [D|D]; destruct D; discriminate.
  - split; [reflexivity|]. split; [right; split; [reflexivity | apply upper_same; rewrite E; reflexivity]|]. intros name n D SW. apply upper_same in SW. rewrite (upper_name _ _ D), E in SW. destruct D as [D|D]; destruct D; discriminate.
  - split; [reflexivity|]. split; [left; reflexivity|]. intros name n D SW. apply upper_same in SW. rewrite (upper_name _ _ D) in SW. exact (NE name n D SW).
Qed.
Print Assumptions C66_levels_partial.
Lemma setup_named level name n h g : documented name n \/ undocumented name n -> same_word level name ->
  exists g', setup_logging level h g = (Ok tt, g') /\ g_level g' = n /\ g_warned g' = g_warned g /\ g_handlers g' = match g_handlers g with [] => [match h with Some x => x | None => Default end] | l => l end.
Proof.
  intros D SW. apply upper_same in SW. rewrite (upper_name _ _ D) in SW. unfold setup_logging. rewrite SW. destruct D as [D|D]; destruct D; eexists; (split; [reflexivity|]); auto.
Qed.
(** Every documented name is accepted in any mixture of cases and sets its level. *)
Theorem C66_documented_accepted :
  forall level name n h g, documented name n -> same_word level name -> exists g', setup_logging level h g = (Ok tt, g') /\ g_level g' = n.
Proof. intros level name n h g D SW. destruct (setup_named level name n h g (or_introl D) SW) as (g' & E & L & _). exists g'. split; assumption. Qed.
Print Assumptions C66_documented_accepted.
Theorem C66_undocumented_refuted :
  exists level, (forall name n, documented name n -> ~ same_word level name) /\ forall h g, fst (setup_logging level h g) = Ok tt.
Proof. exists "fatal". split; [|reflexivity]. intros name n D SW. apply upper_same in SW. destruct D; discriminate. Qed.
Print Assumptions C66_undocumented_refuted.
(** verbose: True means INFO, False means ERROR, each with one deprecation warning; None does nothing. *)
Theorem C66_verbose :
  forall v g, exists g', handle_verbose v g = (Ok tt, g') /\
    match v with
    | None => g' = g
    | Some b => g_level g' = (if b then 20 else 40) /\ g_warned g' = g_warned g + 1
    end.
Proof. intros [[|]|] g; eexists; (split; [reflexivity|]); try reflexivity; split; reflexivity. Qed.
Print Assumptions C66_verbose.

Lemma do_call_handlers g c : g_handlers g <> [] -> g_handlers (do_call g c) = g_handlers g.
Proof.
  intros H. destruct c as [l h|[v|]]; unfold do_call; cbn [handle_verbose]; [| |reflexivity].
  - unfold setup_logging. destruct (get_attr (upper l) logging_attrs) as [a|]; [|reflexivity]. destruct (check_level a); [|reflexivity]. cbn. destruct (g_handlers g); [contradiction | reflexivity].
  - unfold setup_logging. destruct v; cbn; destruct (g_handlers g); try contradiction; reflexivity.
Qed.
Lemma do_calls_handlers cs : forall g, g_handlers g <> [] -> g_handlers (do_calls cs g) = g_handlers g.
Proof.
  induction cs as [|c cs IH]; intros g H; [reflexivity|]. cbn [do_calls fold_left]. pose proof (do_call_handlers g c H) as E. change (g_handlers (do_calls cs (do_call g c)) = g_handlers g). rewrite IH; [exact E | rewrite E; exact H].
Qed.
(** Over any history of calls the logger has at most one handler (starting from the fresh logger); handlers that were attached beforehand stay and none is added. *)
Theorem C66_one_handler :
  forall cs g, (length (g_handlers g) <= 1)%nat -> (length (g_handlers (do_calls cs g)) <= 1)%nat.
Proof.
  induction cs as [|c cs IH]; intros g H; [exact H|]. apply IH. destruct (g_handlers g) as [|a l] eqn:E.
  - destruct c as [l h|[v|]]; unfold do_call; cbn [handle_verbose]; [| |cbn [snd g_handlers]; rewrite E; cbn; lia].
    + unfold setup_logging. destruct (get_attr (upper l) logging_attrs) as [a|]; [|cbn [snd g_handlers]; rewrite E; cbn; lia]. destruct (check_level a); [|cbn [snd g_handlers]; rewrite E; cbn; lia]. cbn. rewrite E. cbn. lia.
    + destruct g as [lv hs wn]. cbn [g_handlers] in E. subst hs. destruct v; vm_compute; lia.
  - rewrite do_call_handlers by (rewrite E; discriminate). rewrite E. exact H.
Qed.
Print Assumptions C66_one_handler.
Theorem C66_handlers_kept :
  forall cs g, g_handlers g <> [] -> g_handlers (do_calls cs g) = g_handlers g.
Proof. exact do_calls_handlers. Qed.
Print Assumptions C66_handlers_kept.
Example C66_example : same_word "iNfO" "INFO" /\
  do_calls [CSetup "loud" None; CSetup "iNfO" None; CVerbose (Some false); CSetup "DEBUG" (Some (Custom 3))] new_logger = {| g_level := 10; g_handlers := [Default]; g_warned := 1 |}.
Proof. split; [apply upper_same|]; reflexivity. Qed.

(** C77 The handler given to setup_logging receives the messages.  True for the first call that configures a logger without handlers, and then for good ... *)
Theorem C77_first_handler_partial :
  forall level name n h g cs, documented name n -> same_word level name -> g_handlers g = [] ->
    g_handlers (do_calls (CSetup level (Some h) :: cs) g) = [h].
Proof.
  intros level name n h g cs D SW E. destruct (setup_named level name n (Some h) g (or_introl D) SW) as (g' & S & _ & _ & H). rewrite E in H. cbn [do_calls fold_left].
  change (g_handlers (do_calls cs (do_call g (CSetup level (Some h)))) = [h]). unfold do_call at 1. rewrite S. cbn [snd]. rewrite do_calls_handlers; rewrite H; [reflexivity | discriminate].
Qed.
Print Assumptions C77_first_handler_partial.
(** ... but a handler given later is silently ignored, even if the earlier one was only the default of a deprecated verbose=... *)
Theorem C77_later_handler_refuted :
  exists cs level h, fst (setup_logging level (Some h) (do_calls cs new_logger)) = Ok tt /\ documented level 10 /\ ~ In h (g_handlers (do_calls (cs ++ [CSetup level (Some h)]) new_logger)).
Proof. exists [CVerbose (Some true)], "DEBUG", (Custom 1). split; [reflexivity|]. split; [constructor|]. cbn. intros [H|[]]. discriminate. Qed.
Print Assumptions C77_later_handler_refuted.
Example C77_example : documented "DEBUG" 10 /\ same_word "debug" "DEBUG" /\ g_handlers new_logger = [].
Proof. split; [constructor|]. split; [apply upper_same|]; reflexivity. Qed.

(** C78 The level in force is that of the last call that set one: later calls that only fail, or pass verbose=None, do not change it; with a documented level exactly the
    messages of that severity or more are processed. *)
Definition neutral (c : call) : Prop :=
  match c with CSetup l _ => forall name n, documented name n \/ undocumented name n -> ~ same_word l name | CVerbose v => v = None end.
Lemma neutral_same g c : neutral c -> do_call g c = g.
Proof.
  destruct c as [l h|v]; cbn [neutral]; unfold do_call; [|intros ->; reflexivity]. intros H. pose proof (C66_levels_partial l h g) as P. destruct (setup_logging l h g) as ([u|e] & g').
  - destruct P as (name & n & D & SW & _). exfalso. exact (H name n D SW).
  - apply P.
Qed.
Definition sets (c : call) (n : Z) : Prop :=
  match c with CSetup l _ => exists name, documented name n /\ same_word l name | CVerbose v => exists b, v = Some b /\ n = if b then 20 else 40 end.
Lemma sets_level g c n : sets c n -> g_level (do_call g c) = n /\ n <> 0.
Proof.
  destruct c as [l h|v]; cbn [sets].
  - intros (name & D & SW). destruct (setup_named l name n h g (or_introl D) SW) as (g2 & E & L & _). unfold do_call. rewrite E. split; [exact L|]. destruct D; lia.
  - intros (b & -> & ->). destruct (C66_verbose (Some b) g) as (g' & E & L & _). unfold do_call. rewrite E. split; [exact L|]. destruct b; lia.
Qed.
Theorem C78_last_level :
  forall cs1 c n cs2 root g l, sets c n -> Forall neutral cs2 ->
    let g' := do_calls (cs1 ++ c :: cs2) g in
    g_level g' = n /\ (processed root g' l = true <-> n <= l).
Proof.
  intros cs1 c n cs2 root g l D N g'. assert (E : g_level g' = n).
  { unfold g', do_calls. rewrite fold_left_app. cbn [fold_left]. set (g1 := fold_left do_call cs1 g). destruct (sets_level g1 c n D) as (L & _). revert L. generalize (do_call g1 c) as g2. clear - N.
    induction N as [|c cs HC N IH]; intros g2 L; [exact L|]. cbn [fold_left]. rewrite neutral_same by exact HC. apply IH, L. }
  split; [exact E|]. unfold processed. rewrite E. destruct (Z.eqb_spec n 0) as [C|C]; [exfalso; exact (proj2 (sets_level g c n D) C)|]. apply Z.leb_le.
Qed.
Print Assumptions C78_last_level.
Example C78_example : sets (CSetup "Warning" None) 30 /\ sets (CVerbose (Some true)) 20 /\ Forall neutral [CSetup "verbose" None; CVerbose None; CSetup "_styles" None] /\
  processed 30 (do_calls [CVerbose (Some true); CSetup "Warning" None; CSetup "verbose" None] new_logger) 20 = false.
Proof.
  split; [exists "WARNING"; split; [constructor | apply upper_same; reflexivity]|]. split; [exists true; split; reflexivity|]. split; [|reflexivity].
  repeat constructor; intros name n D SW; apply upper_same in SW; destruct D as [D|D]; destruct D; discriminate.
Qed.

(** generate_particles on the heap; several objects. *)
From Coq Require Import ZArith Bool String List Lia.
From Verif Require Import Num Py NumFacts Walker ParticleTrack SpecWeights SpecPick SpecWalk SpecHist SpecInit SpecApi Interrupt SpecInterrupt
  ProofPick ProofStep ProofStepper ProofRun ProofRunTo ProofGen ProofHist ProofApi2 ProofInterrupt Heap SpecHeap ProofHeap ProofHeap2.
Import ListNotations.
Open Scope nat_scope.

Section Alloc.
Context {T : Type} {N : Num T}.
Implicit Types (h : heap T) (d : dict).
Lemma nth_error_seq b n i l : nth_error (seq b n) i = Some l -> l = b + i /\ i < n.
Proof.
  intros E. assert (L : i < n) by (rewrite <- (seq_length n b); apply nth_error_Some; congruence). split; [|exact L].
  rewrite <- (nth_error_nth _ _ 0 E). apply seq_nth, L.
Qed.
Lemma map_sread_seq {A} (a r b : list (list A)) : map (sread ((a ++ r) ++ b)) (seq (length a) (length r)) = r.
Proof.
  apply nth_ext with (d := []) (d' := []); [rewrite map_length, seq_length; reflexivity|]. rewrite map_length, seq_length. intros i Hi.
  rewrite (nth_indep _ [] (sread ((a ++ r) ++ b) 0)) by (rewrite map_length, seq_length; exact Hi). rewrite map_nth, seq_nth by exact Hi. unfold sread.
  rewrite app_nth1 by (rewrite app_length; lia). rewrite app_nth2_plus. reflexivity.
Qed.
Fixpoint locs_of (b : nat) (o : list (string * list (list (option T)))) : list (string * list nat) :=
  match o with [] => [] | (k, r) :: o' => (k, seq b (length r)) :: locs_of (b + length r) o' end.
Lemma alloc_opts_eq o : forall h, alloc_opts o h = ({| h_z := h_z h; h_t := h_t h; h_o := h_o h ++ flat_map snd o |}, Ok (locs_of (length (h_o h)) o)).
Proof.
  induction o as [|(k & r) o IH]; intros h; [cbn; rewrite app_nil_r; destruct h; reflexivity|]. cbn [alloc_opts flat_map snd locs_of]. unfold hbind, alloc_o. rewrite IH. cbn [h_z h_t h_o hret].
  rewrite app_length, <- app_assoc. reflexivity.
Qed.
Lemma locs_keys o : forall b, map fst (locs_of b o) = map fst o.
Proof. induction o as [|(k & r) o IH]; intros b; [reflexivity|]. cbn. rewrite IH. reflexivity. Qed.
Lemma locs_range o : forall b k ls i l, dget k (locs_of b o) = Some ls -> nth_error ls i = Some l -> b <= l < b + length (flat_map snd o).
Proof.
  induction o as [|(k1 & r) o IH]; intros b k ls i l; cbn [locs_of dget flat_map snd]; [discriminate|]. rewrite app_length. destruct (String.eqb k k1).
  - intros E EI. injection E as <-. apply nth_error_seq in EI as (-> & L). lia.
  - intros E EI. specialize (IH _ _ _ _ _ E EI). lia.
Qed.
Lemma locs_unique o : forall b k ls i k' ls' i' l, dget k (locs_of b o) = Some ls -> nth_error ls i = Some l -> dget k' (locs_of b o) = Some ls' -> nth_error ls' i' = Some l -> k = k' /\ i = i'.
Proof.
  induction o as [|(k1 & r) o IH]; intros b k ls i k' ls' i' l; cbn [locs_of dget]; [discriminate|].
  destruct (String.eqb k k1) eqn:EK; destruct (String.eqb k' k1) eqn:EK'.
  - apply String.eqb_eq in EK, EK'. intros E EI E' EI'. injection E as <-. injection E' as <-. apply nth_error_seq in EI as (-> & L), EI' as (EE & L'). split; [congruence | lia].
  - intros E EI E' EI'. injection E as <-. apply nth_error_seq in EI as (-> & L). pose proof (locs_range _ _ _ _ _ _ E' EI'). lia.
  - intros E EI E' EI'. injection E' as <-. apply nth_error_seq in EI' as (-> & L). pose proof (locs_range _ _ _ _ _ _ E EI). lia.
  - apply IH.
Qed.
Lemma view_locs o : forall a h, h_o h = a ++ flat_map snd o -> view_opts h (locs_of (length a) o) = o.
Proof.
  induction o as [|(k & r) o IH]; intros a h E; [reflexivity|]. cbn [locs_of view_opts map fst snd]. f_equal.
  - f_equal. rewrite E. cbn [flat_map snd]. rewrite app_assoc. apply map_sread_seq.
  - replace (length a + length r) with (length (a ++ r)) by apply app_length. apply IH. rewrite E. cbn [flat_map snd]. apply app_assoc.
Qed.
Definition old_kept h h' : Prop := forall e, valid h e -> view h' e = view h e.
Definition fresh h d : Prop := forall p l, lookup d p = Some l -> exists_in h l -> False.
Lemma sread_app {A} (a b : list (list A)) l : l < length a -> sread (a ++ b) l = sread a l.
Proof. intros H. apply app_nth1, H. Qed.
Lemma alloc_walk_spec (m : walk T) h : NoDup (map fst (opts m)) ->
  exists h' d, alloc_walk m h = (h', Ok d) /\ view h' d = m /\ valid h' d /\ unshared d /\ fresh h d /\ old_kept h h' /\ map fst (d_o d) = map fst (opts m).
Proof.
  intros ND. destruct m as [x y t o]. cbn [opts] in ND. unfold alloc_walk, hbind, alloc_z, alloc_t. cbn [xinds yinds times opts h_z h_t h_o]. rewrite alloc_opts_eq. cbn [h_z h_t h_o hret].
  rewrite app_length. set (h' := {| h_z := (h_z h ++ x) ++ y; h_t := h_t h ++ t; h_o := h_o h ++ flat_map snd o |}).
  set (d := {| d_x := _; d_y := _; d_t := _; d_o := _ |}). exists h', d. split; [reflexivity|].
  assert (LK : forall p l, lookup d p = Some l -> match p, l with
    | PX i, LZ n => n = length (h_z h) + i /\ i < length x | PY i, LZ n => n = length (h_z h) + length x + i /\ i < length y
    | PT i, LT n => n = length (h_t h) + i /\ i < length t | PV k i, LO n => length (h_o h) <= n < length (h_o h) + length (flat_map snd o) | _, _ => False end).
  { intros p l. destruct p as [i|i|i|k i]; cbn [lookup d d_x d_y d_t d_o].
    - destruct (nth_error _ i) eqn:E; [|discriminate]. intros EL. injection EL as <-. apply nth_error_seq in E as (-> & L). auto.
    - destruct (nth_error _ i) eqn:E; [|discriminate]. intros EL. injection EL as <-. apply nth_error_seq in E as (-> & L). auto.
    - destruct (nth_error _ i) eqn:E; [|discriminate]. intros EL. injection EL as <-. apply nth_error_seq in E as (-> & L). auto.
    - destruct (dget k _) as [ls|] eqn:EG; [|discriminate]. destruct (nth_error ls i) eqn:E; [|discriminate]. intros EL. injection EL as <-. eapply locs_range; eassumption. }
  split.
  { unfold view. cbn [h' d h_z h_t h_o d_x d_y d_t d_o]. f_equal.
    - apply map_sread_seq.
    - rewrite <- app_length. rewrite <- (app_nil_r ((h_z h ++ x) ++ y)). apply map_sread_seq.
    - rewrite <- (app_nil_r (h_t h ++ t)). apply map_sread_seq.
    - apply view_locs. reflexivity. }
  split; [split; [cbn [d d_o]; rewrite locs_keys; exact ND|]; intros p l E; specialize (LK p l E); cbn [h' exists_in h_z h_t h_o]; destruct p, l; try contradiction; cbn [exists_in h' h_z h_t h_o]; rewrite ?app_length; lia|].
  split.
  { intros p q l E E'. pose proof (LK p l E) as A. pose proof (LK q l E') as B. destruct p as [i|i|i|k i], q as [j|j|j|k' j], l as [n|n|n]; try contradiction; try (f_equal; lia); try lia.
    cbn [lookup d d_o] in E, E'. destruct (dget k _) as [ls|] eqn:EG; [|discriminate]. destruct (dget k' _) as [ls'|] eqn:EG'; [|discriminate].
    destruct (nth_error ls i) eqn:EI; [|discriminate]. destruct (nth_error ls' j) eqn:EJ; [|discriminate]. injection E as ->. injection E' as ->.
    destruct (locs_unique _ _ _ _ _ _ _ _ _ EG EI EG' EJ) as (-> & ->). reflexivity. }
  split; [intros p l E X; specialize (LK p l E); destruct p, l; try contradiction; cbn [exists_in] in X; lia|].
  split; [|cbn [d d_o]; apply locs_keys].
  intros e (NDe & V). unfold view. cbn [h' h_z h_t h_o]. f_equal.
  - apply map_ext_in. intros l I. destruct (in_lookup_x _ _ I) as (i & E). specialize (V _ _ E). cbn in V. rewrite !sread_app by (rewrite ?app_length; lia). reflexivity.
  - apply map_ext_in. intros l I. destruct (in_lookup_y _ _ I) as (i & E). specialize (V _ _ E). cbn in V. rewrite !sread_app by (rewrite ?app_length; lia). reflexivity.
  - apply map_ext_in. intros l I. destruct (in_lookup_t _ _ I) as (i & E). specialize (V _ _ E). cbn in V. rewrite !sread_app by (rewrite ?app_length; lia). reflexivity.
  - unfold view_opts. apply map_ext_in. intros (k & ls) I. cbn [fst snd]. f_equal. apply map_ext_in. intros l J. destruct (in_lookup_o e k ls l NDe I J) as (i & E). specialize (V _ _ E). cbn in V. cbn [h_o]. apply sread_app. exact V.
Qed.

(** Putting dictionaries together. *)
Definition shift (a : dict) (p : place) : place :=
  match p with
  | PX i => PX (length (d_x a) + i) | PY i => PY (length (d_y a) + i) | PT i => PT (length (d_t a) + i)
  | PV k i => PV k (length (dflt (dget k (d_o a)) []) + i)
  end.
Lemma nth_error_app_inv {A} (a b : list A) i x : nth_error (a ++ b) i = Some x -> nth_error a i = Some x \/ exists j, i = length a + j /\ nth_error b j = Some x.
Proof.
  intros E. destruct (Nat.ltb_spec i (length a)) as [L|L]; [left; rewrite nth_error_app1 in E by exact L; exact E|]. right. exists (i - length a). split; [lia|]. rewrite nth_error_app2 in E by exact L. exact E.
Qed.
Lemma dget_merge (a : list (string * list nat)) k o : dget k (map (fun kv => match dget (fst kv) a with Some l => (fst kv, l ++ snd kv) | None => kv end) o) = option_map (fun l => dflt (dget k a) [] ++ l) (dget k o).
Proof.
  induction o as [|(k1 & l) o IH]; [reflexivity|]. cbn [map fst snd]. destruct (dget k1 a) as [l1|] eqn:E1; cbn [dget]; destruct (String.eqb k k1) eqn:EK; try exact IH; apply String.eqb_eq in EK; subst k1; rewrite E1; reflexivity.
Qed.
Lemma merge_inv a b p l : lookup (hmerge a b) p = Some l -> lookup a p = Some l \/ exists q, lookup b q = Some l /\ p = shift a q.
Proof.
  destruct p as [i|i|i|k i]; cbn [lookup hmerge d_x d_y d_t d_o].
  1,2,3: destruct (nth_error (_ ++ _) i) as [n|] eqn:E; [|discriminate]; intros EL; injection EL as <-; apply nth_error_app_inv in E as [E|(j & -> & E)];
    [left; rewrite E; reflexivity | right].
  - exists (PX j). cbn. rewrite E. auto.
  - exists (PY j). cbn. rewrite E. auto.
  - exists (PT j). cbn. rewrite E. auto.
  - rewrite dget_merge. destruct (dget k (d_o b)) as [lb|] eqn:EB; [|discriminate]. cbn [option_map]. destruct (nth_error (_ ++ lb) i) as [n|] eqn:E; [|discriminate]. intros EL. injection EL as <-.
    apply nth_error_app_inv in E as [E|(j & -> & E)].
    + left. destruct (dget k (d_o a)) as [la|]; cbn [dflt] in E; [rewrite E; reflexivity | destruct i; discriminate].
    + right. exists (PV k j). cbn. rewrite EB, E. auto.
Qed.
Lemma merge_keys a b : map fst (d_o (hmerge a b)) = map fst (d_o b).
Proof. cbn [hmerge d_o]. rewrite map_map. apply map_ext. intros (k & l). cbn. destruct (dget k (d_o a)); reflexivity. Qed.
Lemma valid_merge h a b : valid h a -> valid h b -> valid h (hmerge a b).
Proof. intros (_ & A) (NB & B). split; [rewrite merge_keys; exact NB|]. intros p l E. destruct (merge_inv a b p l E) as [EA|(q & EB & _)]; [exact (A _ _ EA) | exact (B _ _ EB)]. Qed.
Lemma apart_merge a b (e : dict) : apart a e -> apart b e -> apart (hmerge a b) e.
Proof. intros A B p q l E E'. destruct (merge_inv a b p l E) as [EA|(r & EB & _)]; [exact (A _ _ _ EA E') | exact (B _ _ _ EB E')]. Qed.
Lemma apart_sym a b : apart a b -> apart b a.
Proof. intros A p q l E E'. exact (A _ _ _ E' E). Qed.
Lemma unshared_merge a b : unshared a -> unshared b -> apart a b -> unshared (hmerge a b).
Proof.
  intros A B AP p q l E E'. destruct (merge_inv a b p l E) as [EA|(r & EB & ->)]; destruct (merge_inv a b q l E') as [EA'|(r' & EB' & ->)].
  - exact (A _ _ _ EA EA').
  - destruct (AP _ _ _ EA EB').
  - destruct (AP _ _ _ EA' EB).
  - rewrite (B _ _ _ EB EB'). reflexivity.
Qed.
Lemma view_merge h a b : view h (hmerge a b) = merge_walk (view h a) (view h b).
Proof.
  unfold view, merge_walk. cbn [hmerge d_x d_y d_t d_o xinds yinds times opts]. rewrite !map_app. f_equal. unfold view_opts, merge_vars. rewrite !map_map. apply map_ext. intros (k & l). cbn [fst snd].
  rewrite (dget_map_keys (map (sread (h_o h)))). destruct (dget k (d_o a)); cbn [option_map fst snd]; [rewrite map_app|]; reflexivity.
Qed.
Lemma fresh_apart h d (e : dict) : fresh h d -> valid h e -> apart d e.
Proof. intros F (_ & V) p q l E E'. exact (F _ _ E (V _ _ E')). Qed.
End Alloc.

Section Gen.
Context {T : Type} {N : Num T}.
Lemma gen_split P draws np xl yl t0 m prev (s : psim T) s' : generate_particles P draws np xl yl t0 m prev s = Ok s' ->
  exists s0 w0, generate_particles P draws np xl yl t0 m None {| s_np := s_np s; s_walk := None; s_wst := s_wst s |} = Ok s0 /\ s_walk s0 = Some w0 /\
    let w1 := match s_walk s with Some w => merge_walk w w0 | None => w0 end in
    let w2 := match prev with Some w => merge_walk w w1 | None => w1 end in
    s' = {| s_np := Z.of_nat (length (xinds w2)); s_walk := Some w2; s_wst := s_wst s0 |}.
Proof.
  intros H. unfold generate_particles in H |- *. cbv zeta in *. cbn [s_walk s_wst s_np].
  apply bind_ok in H as (((xs & ys) & pos') & E1 & H). rewrite E1. cbn [bind] in H |- *.
  apply bind_ok in H as (nx & E2 & H). rewrite E2. cbn [bind]. apply bind_ok in H as (ny & E3 & H). rewrite E3. cbn [bind]. apply bind_ok in H as (ov & E4 & H). rewrite E4. cbn [bind].
  injection H as <-. eexists _, _. split; [reflexivity|]. cbn [s_walk s_wst]. split; reflexivity.
Qed.
Lemma merge_walk_keys (a b : walk T) : map fst (opts (merge_walk a b)) = map fst (opts b).
Proof. cbn [merge_walk opts merge_vars]. unfold merge_vars. rewrite map_map. apply map_ext. intros (k & l). cbn. destruct (dget k (opts a)); reflexivity. Qed.
End Gen.

Section Worlds.
Context {T : Type} {N : Num T} {NL : NumLaws T} (G : T -> Prop).
Variables (lm : Libm T) (P : nat -> pobj T) (draws : nat -> nat -> T).
Lemma value_val (w : world T) k : value w k = val (wh w) (wo w k).
Proof. reflexivity. Qed.
Lemma set_same f k (s : hsim T) : set_obj f k s k = s.
Proof. unfold set_obj. rewrite Nat.eqb_refl. reflexivity. Qed.
Lemma set_other f k (s : hsim T) j : j <> k -> set_obj f k s j = f j.
Proof. intros H. unfold set_obj. destruct (Nat.eqb_spec j k); [contradiction | reflexivity]. Qed.

(** Replacing the state of one object. *)
Lemma separate_set (w : world T) k h' s' : separate w -> grows (wh w) h' ->
  (forall d, hs_walk s' = Some d -> valid h' d /\ unshared d /\ forall j e, j <> k -> hs_walk (wo w j) = Some e -> apart d e) ->
  separate {| wh := h'; wo := set_obj (wo w) k s' |}.
Proof.
  intros (A & B) GR H. split; cbn [wh wo].
  - intros j d. destruct (Nat.eq_dec j k) as [->|NE].
    + rewrite set_same. intros E. destruct (H d E) as (V & U & _). auto.
    + rewrite set_other by exact NE. intros E. destruct (A j d E) as (V & U). split; [eapply valid_grows; eassumption | exact U].
  - intros i j d e NE. destruct (Nat.eq_dec i k) as [->|Ni]; destruct (Nat.eq_dec j k) as [->|Nj]; [congruence | | |].
    + rewrite set_same, set_other by exact Nj. intros E E'. destruct (H d E) as (_ & _ & AP). eapply AP; eassumption.
    + rewrite set_same, set_other by exact Ni. intros E E'. destruct (H e E') as (_ & _ & AP). apply apart_sym. eapply AP; eassumption.
    + rewrite !set_other by assumption. apply B. exact NE.
Qed.

Lemma wdo_sim (w : world T) k o s' : field_ok lm (P k) -> unit_stream G (draws k) -> SInv (GV := G) lm (P k) (value w k) -> separate w -> not_in_use w o ->
  op_ok G lm (P k) (value_op (wh w) o) -> do_op lm (P k) (draws k) (value_op (wh w) o) (value w k) = Ok s' ->
  exists w' r, wdo lm P draws k o w = (w', Ok r) /\ value w' k = s' /\ (forall j, j <> k -> value w' j = value w j) /\ separate w' /\
    match r with None => True | Some d => hs_walk (wo w k) = Some d /\ hs_walk (wo w' k) = Some d end.
Proof.
  intros FO US SI SEP NU OK DO.
  assert (OTH : forall h' s1 j, (forall e, hs_walk (wo w j) = Some e -> view h' e = view (wh w) e) -> j <> k -> value {| wh := h'; wo := set_obj (wo w) k s1 |} j = value w j).
  { intros h' s1 j H NE. unfold value. cbn [wh wo]. rewrite set_other by exact NE. f_equal. destruct (hs_walk (wo w j)) as [e|]; [|reflexivity]. cbn. rewrite H by reflexivity. reflexivity. }
  destruct SEP as (SEP1 & SEP2). pose proof (conj SEP1 SEP2) as SEP. unfold wdo.
  destruct o as [np xl yl t0 m prev| |target mi|]; cbn [value_op do_op] in DO.
  - destruct (gen_split _ _ _ _ _ _ _ _ _ _ DO) as (s0 & w0 & E0 & W0 & EQ). cbv zeta in EQ. cbn [value s_walk s_np s_wst] in E0, EQ.
    assert (KW : map fst (opts w0) = tvars (P k)).
    { destruct OK as (SO & PO). cbn [value_op prev_of] in SO, PO. destruct SI as (_ & SI). destruct (generate_spec lm (P k) (draws k) np xl yl t0 m (option_map (view (wh w)) prev) (value w k) s' FO SO) as (_ & _ & w' & _ & _ & EW & _ & _ & _ & _ & _ & KE & _);
        [destruct (s_walk (value w k)); [apply SI | exact I] | destruct (option_map (view (wh w)) prev); [apply PO | exact I] | exact DO|].
      rewrite EQ in EW. cbn [s_walk] in EW. injection EW as <-. rewrite <- KE. destruct (option_map (view (wh w)) prev), (option_map (view (wh w)) (hs_walk (wo w k))); rewrite ?merge_walk_keys; reflexivity. }
    assert (ND : NoDup (map fst (opts w0))) by (rewrite KW; apply NoDup_tvars).
    destruct (alloc_walk_spec w0 (wh w) ND) as (h' & d0 & EA & VW & V0 & U0 & FR & OLD & _).
    assert (GR : grows (wh w) h') by (pose proof (mono_alloc_walk w0 (wh w)) as GG; rewrite EA in GG; exact GG).
    cbn [hdo]. unfold hbind at 1, hgenerate. rewrite hbind_lift, E0, W0. unfold hbind at 1. rewrite EA. cbn [hret].
    set (d1 := match hs_walk (wo w k) with Some d => hmerge d d0 | None => d0 end). set (d2 := match prev with Some d => hmerge d d1 | None => d1 end).
    assert (H1 : valid h' d1 /\ unshared d1 /\ (forall j e, j <> k -> hs_walk (wo w j) = Some e -> apart d1 e) /\ (forall e, (forall d, hs_walk (wo w k) = Some d -> apart e d) -> valid (wh w) e -> apart e d1) /\
      view h' d1 = match option_map (view (wh w)) (hs_walk (wo w k)) with Some x => merge_walk x w0 | None => w0 end).
    { unfold d1. destruct (hs_walk (wo w k)) as [d|] eqn:EK; cbn [option_map].
      - destruct (SEP1 k d EK) as (V & U). assert (AP0 : apart d d0) by (apply apart_sym; eapply fresh_apart; eassumption).
        split; [apply valid_merge; [eapply valid_grows; eassumption | exact V0]|]. split; [apply unshared_merge; assumption|].
        split; [intros j e NE EJ; apply apart_merge; [eapply SEP2; [apply not_eq_sym, NE | exact EK | exact EJ] | eapply fresh_apart; [exact FR | apply (SEP1 j e EJ)]]|].
        split; [intros e AE VE; apply apart_sym, apart_merge; [apply apart_sym, AE; reflexivity | eapply fresh_apart; eassumption]|].
        rewrite view_merge, VW, (OLD d V). reflexivity.
      - split; [exact V0|]. split; [exact U0|]. split; [intros j e NE EJ; eapply fresh_apart; [exact FR | apply (SEP1 j e EJ)]|].
        split; [intros e _ VE; apply apart_sym; eapply fresh_apart; eassumption|]. exact VW. }
    destruct H1 as (V1 & U1 & AP1 & AO1 & VW1).
    assert (H2 : valid h' d2 /\ unshared d2 /\ (forall j e, j <> k -> hs_walk (wo w j) = Some e -> apart d2 e) /\
      view h' d2 = match option_map (view (wh w)) prev with Some x => merge_walk x (view h' d1) | None => view h' d1 end).
    { unfold d2. destruct prev as [d|]; cbn [option_map]; [|repeat split; try assumption; apply V1].
      destruct (NU d eq_refl) as (V & U & AP). assert (APD : apart d d1) by (apply AO1; [intros e EE; eapply AP, EE | exact V]).
      split; [apply valid_merge; [eapply valid_grows; eassumption | exact V1]|]. split; [apply unshared_merge; assumption|].
      split; [intros j e NE EJ; apply apart_merge; [eapply AP, EJ | eapply AP1; eassumption]|]. rewrite view_merge, (OLD d V). reflexivity. }
    destruct H2 as (V2 & U2 & AP2 & VW2).
    eexists _, None. split; [reflexivity|]. split.
    + unfold value. cbn [wh wo]. rewrite set_same. cbn [hs_np hs_walk hs_wst option_map]. rewrite EQ, VW2, VW1. f_equal. f_equal.
      transitivity (length (xinds (view h' d2))); [cbn [view xinds]; symmetry; apply map_length | rewrite VW2, VW1; reflexivity].
    + split; [intros j NE; apply OTH; [|exact NE]; intros e EJ; apply OLD; apply (SEP1 j e EJ)|]. split; [|exact I].
      apply separate_set; [exact SEP | exact GR|]. cbn [hs_walk]. intros d ED. injection ED as <-. auto.
  - destruct (run_step lm (P k) (draws k) (value w k)) as [(w' & s1)|] eqn:E; [|discriminate]. injection DO as <-. destruct (hs_walk (wo w k)) as [d|] eqn:EK.
    2:{ unfold run_step in E. unfold value in E. rewrite EK in E. cbn in E. discriminate. }
    destruct (SEP1 k d EK) as (V & U). destruct SI as (WI & SI). unfold value in SI. rewrite EK in SI. cbn [s_walk option_map s_np] in SI. destruct SI as (VO & NP & KE & HO).
    pose proof (hist_walk_ok lm (P k) _ FO KE HO) as WO.
    destruct (hstep_sim lm (P k) (draws k) FO US (wh w) (wo w k) d w' s1 WI VO EK V U NP WO E) as (es & s2 & EH & ES & EV). cbn [hdo]. unfold hbind at 1. rewrite EH. cbn [hret fst snd].
    eexists _, (Some d). split; [reflexivity|]. split; [unfold value; cbn [wh wo]; rewrite set_same; exact EV|].
    split; [intros j NE; apply OTH; [|exact NE]; intros e EJ; apply frame_happs; [apply (SEP1 j e EJ) | eapply SEP2; [apply not_eq_sym, NE | exact EK | exact EJ]]|].
    split; [|split; [reflexivity | cbn [wo]; rewrite set_same; exact ES]].
    apply separate_set; [exact SEP | apply grows_happs|]. rewrite ES. intros d' ED. injection ED as <-. split; [eapply valid_grows; [apply grows_happs | exact V]|]. split; [exact U|].
    intros j e NE EJ. eapply SEP2; [apply not_eq_sym, NE | exact EK | exact EJ].
  - destruct (run_target lm (P k) (draws k) target mi (value w k)) as [((w' & wl) & s1)|] eqn:E; [|discriminate]. injection DO as <-. destruct (hs_walk (wo w k)) as [d|] eqn:EK.
    2:{ unfold run_target in E. unfold value in E. rewrite EK in E. cbn in E. discriminate. }
    destruct (SEP1 k d EK) as (V & U). destruct SI as (WI & SI). unfold value in SI. rewrite EK in SI. cbn [s_walk option_map s_np] in SI. destruct SI as (VO & NP & KE & HO).
    pose proof (hist_walk_ok lm (P k) _ FO KE HO) as WO.
    destruct (htarget_sim lm (P k) (draws k) FO US (wh w) (wo w k) d target mi w' wl s1 WI VO EK V U NP WO E) as (es & s2 & EH & ES & EV). cbn [hdo]. unfold hbind at 1. rewrite EH. cbn [hret fst snd].
    eexists _, (Some d). split; [reflexivity|]. split; [unfold value; cbn [wh wo]; rewrite set_same; exact EV|].
    split; [intros j NE; apply OTH; [|exact NE]; intros e EJ; apply frame_happs; [apply (SEP1 j e EJ) | eapply SEP2; [apply not_eq_sym, NE | exact EK | exact EJ]]|].
    split; [|split; [reflexivity | cbn [wo]; rewrite set_same; exact ES]].
    apply separate_set; [exact SEP | apply grows_happs|]. rewrite ES. intros d' ED. injection ED as <-. split; [eapply valid_grows; [apply grows_happs | exact V]|]. split; [exact U|].
    intros j e NE EJ. eapply SEP2; [apply not_eq_sym, NE | exact EK | exact EJ].
  - injection DO as <-. cbn [hdo hret]. eexists _, None. split; [reflexivity|]. split; [unfold value; cbn [wh wo]; rewrite set_same; reflexivity|].
    split; [intros j NE; apply OTH; [reflexivity | exact NE]|]. split; [|exact I]. apply separate_set; [exact SEP | apply grows_refl | cbn; discriminate].
Qed.
(** generate_particles, whatever dictionary it is given: the contents are those of the value model, and the stored dictionary refers to the old lists. *)
Lemma hgen_sim (w : world T) k np xl yl t0 m prev s' : field_ok lm (P k) -> SInv (GV := G) lm (P k) (value w k) ->
  (forall d, hs_walk (wo w k) = Some d -> valid (wh w) d) -> (forall d, prev = Some d -> valid (wh w) d) ->
  op_ok G lm (P k) (value_op (wh w) (HGen np xl yl t0 m prev)) -> do_op lm (P k) (draws k) (value_op (wh w) (HGen np xl yl t0 m prev)) (value w k) = Ok s' ->
  exists h' d0 s1, hdo lm (P k) (draws k) (HGen np xl yl t0 m prev) (wo w k) (wh w) = (h', Ok (None, s1)) /\ val h' s1 = s' /\
    valid h' d0 /\ unshared d0 /\ fresh (wh w) d0 /\ old_kept (wh w) h' /\ grows (wh w) h' /\ map fst (d_o d0) = tvars (P k) /\
    hs_walk s1 = Some (let d1 := match hs_walk (wo w k) with Some d => hmerge d d0 | None => d0 end in match prev with Some d => hmerge d d1 | None => d1 end).
Proof.
  intros FO SI VS VP OK DO. cbn [value_op do_op] in DO.
  destruct (gen_split _ _ _ _ _ _ _ _ _ _ DO) as (s0 & w0 & E0 & W0 & EQ). cbv zeta in EQ. cbn [value s_walk s_np s_wst] in E0, EQ.
  assert (KW : map fst (opts w0) = tvars (P k)).
  { destruct OK as (SO & PO). cbn [value_op prev_of] in SO, PO. destruct SI as (_ & SI). destruct (generate_spec lm (P k) (draws k) np xl yl t0 m (option_map (view (wh w)) prev) (value w k) s' FO SO) as (_ & _ & w' & _ & _ & EW & _ & _ & _ & _ & _ & KE & _);
      [destruct (s_walk (value w k)); [apply SI | exact I] | destruct (option_map (view (wh w)) prev); [apply PO | exact I] | exact DO|].
    rewrite EQ in EW. cbn [s_walk] in EW. injection EW as <-. rewrite <- KE. destruct (option_map (view (wh w)) prev), (option_map (view (wh w)) (hs_walk (wo w k))); rewrite ?merge_walk_keys; reflexivity. }
  assert (ND : NoDup (map fst (opts w0))) by (rewrite KW; apply NoDup_tvars).
  destruct (alloc_walk_spec w0 (wh w) ND) as (h' & d0 & EA & VW & V0 & U0 & FR & OLD & KD).
  assert (GR : grows (wh w) h') by (pose proof (mono_alloc_walk w0 (wh w)) as GG; rewrite EA in GG; exact GG).
  cbn [hdo]. unfold hbind at 1, hgenerate. rewrite hbind_lift, E0, W0. unfold hbind at 1. rewrite EA. cbn [hret].
  exists h', d0. eexists _. split; [reflexivity|]. split; [|split; [exact V0|]; split; [exact U0|]; split; [exact FR|]; split; [exact OLD|]; split; [exact GR|]; split; [congruence | reflexivity]].
  unfold val. cbn [hs_np hs_walk hs_wst option_map]. rewrite EQ.
  set (d1 := match hs_walk (wo w k) with Some d => hmerge d d0 | None => d0 end). set (d2 := match prev with Some d => hmerge d d1 | None => d1 end).
  assert (V1 : view h' d1 = match option_map (view (wh w)) (hs_walk (wo w k)) with Some x => merge_walk x w0 | None => w0 end).
  { unfold d1. destruct (hs_walk (wo w k)) as [d|] eqn:EK; cbn [option_map]; [rewrite view_merge, VW, (OLD d (VS d eq_refl)); reflexivity | exact VW]. }
  assert (V2 : view h' d2 = match option_map (view (wh w)) prev with Some x => merge_walk x (view h' d1) | None => view h' d1 end).
  { unfold d2. destruct prev as [d|]; cbn [option_map]; [rewrite view_merge, (OLD d (VP d eq_refl)); reflexivity | reflexivity]. }
  rewrite V2, V1. f_equal. f_equal. transitivity (length (xinds (view h' d2))); [cbn [view xinds]; symmetry; apply map_length | rewrite V2, V1; reflexivity].
Qed.
End Worlds.

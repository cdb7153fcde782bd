From Coq Require Import ZArith Bool String List Lia.
From Verif Require Import Num Py NumFacts Walker ParticleTrack SpecWeights SpecPick SpecWalk SpecHist SpecInit SpecApi SpecInterrupt Interrupt
  ProofPick ProofStep ProofStepper ProofRun ProofRunTo ProofHist ProofApi2 ProofLocal.
Import ListNotations.
Open Scope Z_scope.

Section Proj.
Context {T : Type}.
Notation event := (event T).
(** The entries that a list of appends adds to the lists of particle q. *)
Definition xs_of (q : nat) (es : list event) : list Z := flat_map (fun e => match e with AX i v => if Nat.eqb i q then [v] else [] | _ => [] end) es.
Definition ys_of (q : nat) (es : list event) : list Z := flat_map (fun e => match e with AY i v => if Nat.eqb i q then [v] else [] | _ => [] end) es.
Definition ts_of (q : nat) (es : list event) : list T := flat_map (fun e => match e with AT i v => if Nat.eqb i q then [v] else [] | _ => [] end) es.
Definition vs_of (var : string) (q : nat) (es : list event) : list (option T) :=
  flat_map (fun e => match e with AV k i v => if String.eqb var k && Nat.eqb i q then [v] else [] | _ => [] end) es.
Lemma nth_push {A} i (v : A) l q : (q < length l)%nat -> nth q (push i v l) [] = nth q l [] ++ (if Nat.eqb i q then [v] else []).
Proof.
  intros H. unfold push. destruct (Nat.eqb_spec i q) as [->|NE]; [apply upd_nth_same, H|]. rewrite upd_nth_other by exact NE. rewrite app_nil_r. reflexivity.
Qed.
Lemma push_length {A} i (v : A) l : length (push i v l) = length l.
Proof. apply upd_nth_length. Qed.
Lemma replay_x es : forall m, length (xinds (replay m es)) = length (xinds m) /\ forall q, (q < length (xinds m))%nat -> nth q (xinds (replay m es)) [] = nth q (xinds m) [] ++ xs_of q es.
Proof.
  induction es as [|e es IH]; intros m; cbn [replay fold_left]; [split; [reflexivity | intros; rewrite app_nil_r; reflexivity]|].
  fold (replay (apply_ev m e) es). destruct (IH (apply_ev m e)) as (L & H). destruct e as [i v|i v|i v|k i v]; cbn [apply_ev xinds xs_of flat_map] in *; try (split; [exact L | exact H]).
  rewrite push_length in *. split; [exact L|]. intros q Hq. rewrite H, nth_push, <- app_assoc by exact Hq. reflexivity.
Qed.
Lemma replay_y es : forall m, length (yinds (replay m es)) = length (yinds m) /\ forall q, (q < length (yinds m))%nat -> nth q (yinds (replay m es)) [] = nth q (yinds m) [] ++ ys_of q es.
Proof.
  induction es as [|e es IH]; intros m; cbn [replay fold_left]; [split; [reflexivity | intros; rewrite app_nil_r; reflexivity]|].
  fold (replay (apply_ev m e) es). destruct (IH (apply_ev m e)) as (L & H). destruct e as [i v|i v|i v|k i v]; cbn [apply_ev yinds ys_of flat_map] in *; try (split; [exact L | exact H]).
  rewrite push_length in *. split; [exact L|]. intros q Hq. rewrite H, nth_push, <- app_assoc by exact Hq. reflexivity.
Qed.
Lemma replay_t es : forall m, length (times (replay m es)) = length (times m) /\ forall q, (q < length (times m))%nat -> nth q (times (replay m es)) [] = nth q (times m) [] ++ ts_of q es.
Proof.
  induction es as [|e es IH]; intros m; cbn [replay fold_left]; [split; [reflexivity | intros; rewrite app_nil_r; reflexivity]|].
  fold (replay (apply_ev m e) es). destruct (IH (apply_ev m e)) as (L & H). destruct e as [i v|i v|i v|k i v]; cbn [apply_ev times ts_of flat_map] in *; try (split; [exact L | exact H]).
  rewrite push_length in *. split; [exact L|]. intros q Hq. rewrite H, nth_push, <- app_assoc by exact Hq. reflexivity.
Qed.
Lemma dget_app_ev v k i o (l : list (string * list (list (option T)))) : dget v (map (fun kv => if String.eqb (fst kv) k then (fst kv, push i o (snd kv)) else kv) l) =
  option_map (fun a => if String.eqb v k then push i o a else a) (dget v l).
Proof.
  induction l as [|(k1 & a) l IH]; [reflexivity|]. cbn [map fst snd]. destruct (String.eqb k1 k) eqn:EK; cbn [dget]; destruct (String.eqb v k1) eqn:EV; try exact IH;
    apply String.eqb_eq in EV; subst k1; cbn [option_map]; rewrite EK; reflexivity.
Qed.
Lemma replay_keys es : forall m : walk T, map fst (opts (replay m es)) = map fst (opts m).
Proof.
  induction es as [|e es IH]; intros m; [reflexivity|]. cbn [replay fold_left]. fold (replay (apply_ev m e) es). rewrite IH. destruct e; cbn [apply_ev opts]; try reflexivity.
  rewrite map_map. apply map_ext. intros (k & a). cbn. destruct (String.eqb k var); reflexivity.
Qed.
Lemma replay_v v es : forall m l, dget v (opts m) = Some l -> exists l', dget v (opts (replay m es)) = Some l' /\ length l' = length l /\
  forall q, (q < length l)%nat -> nth q l' [] = nth q l [] ++ vs_of v q es.
Proof.
  induction es as [|e es IH]; intros m l E; cbn [replay fold_left]; [exists l; split; [exact E|]; split; [reflexivity | intros; rewrite app_nil_r; reflexivity]|].
  fold (replay (apply_ev m e) es). destruct e as [i w|i w|i w|k i w];
    [exact (IH (apply_ev m (AX i w)) l E) | exact (IH (apply_ev m (AY i w)) l E) | exact (IH (apply_ev m (AT i w)) l E) |].
  destruct (String.eqb v k) eqn:EK.
  - destruct (IH (apply_ev m (AV k i w)) (push i w l)) as (l' & A & B & C). { cbn [apply_ev opts]. rewrite dget_app_ev, E. cbn. rewrite EK. reflexivity. }
    exists l'. split; [exact A|]. rewrite push_length in *. split; [exact B|]. intros q Hq. rewrite C, nth_push, <- app_assoc by exact Hq. cbn [vs_of flat_map]. rewrite EK. cbn [andb]. reflexivity.
  - destruct (IH (apply_ev m (AV k i w)) l) as (l' & A & B & C). { cbn [apply_ev opts]. rewrite dget_app_ev, E. cbn. rewrite EK. reflexivity. }
    exists l'. split; [exact A|]. split; [exact B|]. intros q Hq. rewrite C by exact Hq. cbn [vs_of flat_map]. rewrite EK. reflexivity.
Qed.
Lemma xs_app q a b : xs_of q (a ++ b) = xs_of q a ++ xs_of q b. Proof. apply flat_map_app. Qed.
Lemma ys_app q a b : ys_of q (a ++ b) = ys_of q a ++ ys_of q b. Proof. apply flat_map_app. Qed.
Lemma ts_app q a b : ts_of q (a ++ b) = ts_of q a ++ ts_of q b. Proof. apply flat_map_app. Qed.
Lemma vs_app v q a b : vs_of v q (a ++ b) = vs_of v q a ++ vs_of v q b. Proof. apply flat_map_app. Qed.

(** Records. *)
Definition rec_events (i : nat) (x y : Z) (t : T) (vals : list (string * option T)) : list event := AX i x :: AY i y :: AT i t :: map (fun kv => AV (fst kv) i (snd kv)) vals.
Section Keys.
Variables (keys : list string) (n : nat).
Definition group (es : list event) : Prop := exists i x y t vals, (i < n)%nat /\ map fst vals = keys /\ es = rec_events i x y t vals.
Inductive full : list event -> Prop := full_nil : full [] | full_cons g e : group g -> full e -> full (g ++ e).
Definition part (es : list event) : Prop := exists e1 e2, es = e1 ++ e2 /\ full e1 /\ (e2 = [] \/ exists e3, group (e2 ++ e3)).
Lemma full_app a b : full a -> full b -> full (a ++ b).
Proof. induction 1 as [|g e G F IH]; intros FB; [exact FB|]. rewrite <- app_assoc. constructor; auto. Qed.
Lemma full_part a : full a -> part a.
Proof. intros F. exists a, []. rewrite app_nil_r. auto. Qed.
Lemma full_part_app a b : full a -> part b -> part (a ++ b).
Proof. intros F (e1 & e2 & -> & F1 & G). exists (a ++ e1), e2. rewrite app_assoc. split; [reflexivity|]. split; [apply full_app; assumption | exact G]. Qed.
Lemma group_full g : group g -> full g.
Proof. intros G. rewrite <- (app_nil_r g). constructor; [exact G | constructor]. Qed.
Lemma firstn_group g k : group g -> exists e3, group (firstn k g ++ e3).
Proof. intros G. exists (skipn k g). rewrite firstn_skipn. exact G. Qed.
Lemma firstn_full a : full a -> forall k, part (firstn k a).
Proof.
  induction 1 as [|g e G F IH]; intros k; [rewrite firstn_nil; apply full_part; constructor|]. rewrite firstn_app. destruct (Nat.leb_spec (length g) k) as [L|L].
  - rewrite firstn_all2 by exact L. apply full_part_app; [apply group_full, G | apply IH].
  - replace (k - length g)%nat with 0%nat by lia. cbn [firstn]. rewrite app_nil_r. exists [], (firstn k g). split; [reflexivity|]. split; [constructor|]. right. apply firstn_group, G.
Qed.
Lemma firstn_part a : part a -> forall k, part (firstn k a).
Proof.
  intros (e1 & e2 & -> & F & G) k. rewrite firstn_app. destruct (Nat.leb_spec (length e1) k) as [L|L].
  - rewrite firstn_all2 by exact L. apply full_part_app; [exact F|]. exists [], (firstn (k - length e1) e2). split; [reflexivity|]. split; [constructor|].
    destruct G as [->|(e3 & G)]; [left; apply firstn_nil|]. right. exists (skipn (k - length e1) e2 ++ e3). rewrite app_assoc, firstn_skipn. exact G.
  - replace (k - length e1)%nat with 0%nat by lia. cbn [firstn]. rewrite app_nil_r. apply firstn_full, F.
Qed.

(** Lengths. *)
Hypothesis ND : NoDup keys.
Definition lens_of (q : nat) (es : list event) : list nat := length (xs_of q es) :: length (ys_of q es) :: length (ts_of q es) :: map (fun v => length (vs_of v q es)) keys.
Lemma map_AV_x q i vals : xs_of q (map (fun kv : string * option T => AV (fst kv) i (snd kv)) vals) = [].
Proof. induction vals; [reflexivity | exact IHvals]. Qed.
Lemma map_AV_y q i vals : ys_of q (map (fun kv : string * option T => AV (fst kv) i (snd kv)) vals) = [].
Proof. induction vals; [reflexivity | exact IHvals]. Qed.
Lemma map_AV_t q i vals : ts_of q (map (fun kv : string * option T => AV (fst kv) i (snd kv)) vals) = [].
Proof. induction vals; [reflexivity | exact IHvals]. Qed.
Lemma vs_other v q i vals : i <> q -> vs_of v q (map (fun kv : string * option T => AV (fst kv) i (snd kv)) vals) = [].
Proof. intros NE. induction vals as [|(k & o) vals IH]; [reflexivity|]. cbn. destruct (Nat.eqb_spec i q); [contradiction|]. rewrite andb_false_r. exact IH. Qed.
Lemma vs_notin v q i (vals : list (string * option T)) : ~ In v (map fst vals) -> vs_of v q (map (fun kv : string * option T => AV (fst kv) i (snd kv)) vals) = [].
Proof.
  induction vals as [|(k & o) vals IH]; [reflexivity|]. cbn. intros H. destruct (String.eqb_spec v k) as [->|NE]; [exfalso; apply H; left; reflexivity|]. cbn [andb app]. apply IH. tauto.
Qed.
Lemma firstn_in {A} (a : A) k l : In a (firstn k l) -> In a l.
Proof. intros H. rewrite <- (firstn_skipn k l). apply in_or_app. left. exact H. Qed.
Lemma vs_lens i : forall (vals : list (string * option T)) b, NoDup (map fst vals) ->
  exists c d, map (fun v => length (vs_of v i (firstn b (map (fun kv : string * option T => AV (fst kv) i (snd kv)) vals)))) (map fst vals) = repeat 1%nat c ++ repeat 0%nat d /\ c = Nat.min b (length vals) /\ (c + d = length vals)%nat.
Proof.
  induction vals as [|(k & o) vals IH]; intros b D; [exists 0%nat, 0%nat; cbn; rewrite Nat.min_0_r; auto|]. inversion D as [|? ? NI D']; subst. destruct b as [|b].
  - exists 0%nat, (S (length vals)). split; [|auto].
    assert (H : forall l : list string, map (fun _ => 0%nat) l = repeat 0%nat (length l)) by (induction l as [|? ? IHl]; cbn; [|rewrite IHl]; reflexivity).
    change (map (fun _ => 0%nat) (k :: map fst vals) = repeat 0%nat (S (length vals))). rewrite H. cbn [length]. rewrite map_length. reflexivity.
  - destruct (IH b D') as (c & d & E & EC & ES). exists (S c), d. cbn [Nat.min length]. split; [|lia]. cbn [map fst firstn]. cbn [repeat app]. f_equal.
    + cbn [vs_of flat_map]. rewrite String.eqb_refl, Nat.eqb_refl. cbn [andb app length]. f_equal. rewrite firstn_map. fold (vs_of k i (map (fun kv : string * option T => AV (fst kv) i (snd kv)) (firstn b vals))).
      rewrite vs_notin; [reflexivity|]. intros H. apply NI. rewrite <- firstn_map in H. apply firstn_in in H. exact H.
    + rewrite <- E. apply map_ext_in. intros v Iv. cbn [vs_of flat_map fst]. destruct (String.eqb_spec v k) as [->|NE]; [contradiction | reflexivity].
Qed.
Lemma group_other q i x y t vals a : i <> q -> lens_of q (firstn a (rec_events i x y t vals)) = repeat 0%nat (3 + length keys).
Proof.
  intros NE. assert (E : forall es, (forall e, In e es -> In e (rec_events i x y t vals)) -> xs_of q es = [] /\ ys_of q es = [] /\ ts_of q es = [] /\ forall v, vs_of v q es = []).
  { induction es as [|e es IH]; intros H; [auto|]. destruct (IH (fun e I => H e (or_intror I))) as (A & B & C & D). specialize (H e (or_introl eq_refl)).
    assert (NQ : Nat.eqb i q = false) by (apply Nat.eqb_neq; exact NE).
    unfold rec_events in H. cbn [In] in H. destruct H as [<-|[<-|[<-|H]]]; cbn [xs_of ys_of ts_of vs_of flat_map]; rewrite ?NQ; cbn [app]; auto.
    apply in_map_iff in H as (kv & <- & _). cbn [xs_of ys_of ts_of vs_of flat_map]. repeat split; auto. intros v. rewrite NQ, andb_false_r. apply D. }
  destruct (E (firstn a (rec_events i x y t vals)) (fun e => firstn_in e a _)) as (A & B & C & D). unfold lens_of. rewrite A, B, C. cbn [length Nat.add repeat]. do 3 f_equal.
  induction keys as [|k l IH]; [reflexivity|]. cbn [map length repeat]. rewrite D. cbn [length]. f_equal. inversion ND; subst. apply IH. assumption.
Qed.
Lemma group_lens i x y t vals a : map fst vals = keys -> exists c d, lens_of i (firstn a (rec_events i x y t vals)) = repeat 1%nat c ++ repeat 0%nat d /\ c = Nat.min a (3 + length keys) /\ (c + d = 3 + length keys)%nat.
Proof.
  intros EK. unfold rec_events. assert (LV : length vals = length keys) by (rewrite <- EK, map_length; reflexivity).
  destruct (vs_lens i vals (a - 3) ltac:(rewrite EK; exact ND)) as (c & d & E & EC & ES). rewrite EK in E.
  assert (Z0 : map (fun v => length (vs_of v i [])) keys = repeat 0%nat (length keys)) by (clear; induction keys as [|? ? IHl]; cbn; [|rewrite <- IHl]; reflexivity).
  destruct a as [|[|[|a]]].
  - exists 0%nat, (3 + length keys)%nat. cbn [firstn]. unfold lens_of. cbn [xs_of ys_of ts_of flat_map length]. rewrite Z0. split; [reflexivity | lia].
  - exists 1%nat, (2 + length keys)%nat. cbn [firstn]. unfold lens_of. cbn [xs_of ys_of ts_of flat_map length]. rewrite Nat.eqb_refl. change (map (fun v => length (vs_of v i [AX i x])) keys) with (map (fun v => length (vs_of v i [])) keys). rewrite Z0. split; [reflexivity | lia].
  - exists 2%nat, (1 + length keys)%nat. cbn [firstn]. unfold lens_of. cbn [xs_of ys_of ts_of flat_map length]. rewrite Nat.eqb_refl. change (map (fun v => length (vs_of v i [AX i x; AY i y])) keys) with (map (fun v => length (vs_of v i [])) keys). rewrite Z0. split; [reflexivity | lia].
  - exists (3 + c)%nat, d. cbn [firstn]. replace (S (S (S a)) - 3)%nat with a in * by lia. unfold lens_of. cbn [xs_of ys_of ts_of flat_map]. rewrite Nat.eqb_refl.
    assert (EX : flat_map (fun e => match e with AX i0 v => if Nat.eqb i0 i then [v] else [] | _ => [] end) (firstn a (map (fun kv : string * option T => AV (fst kv) i (snd kv)) vals)) = []) by (rewrite firstn_map; apply map_AV_x).
    assert (EY : flat_map (fun e => match e with AY i0 v => if Nat.eqb i0 i then [v] else [] | _ => [] end) (firstn a (map (fun kv : string * option T => AV (fst kv) i (snd kv)) vals)) = []) by (rewrite firstn_map; apply map_AV_y).
    assert (ET : flat_map (fun e => match e with AT i0 v => if Nat.eqb i0 i then [v] else [] | _ => [] end) (firstn a (map (fun kv : string * option T => AV (fst kv) i (snd kv)) vals)) = []) by (rewrite firstn_map; apply map_AV_t).
    rewrite EX, EY, ET. cbn [app length Nat.add repeat]. split; [|lia]. do 3 f_equal. exact E.
Qed.
Lemma full_lens es q : full es -> exists c, lens_of q es = repeat c (3 + length keys).
Proof.
  induction 1 as [|g e (i & x & y & t & vals & Hi & EK & ->) F (c & IH)].
  - exists 0%nat. unfold lens_of. cbn. do 3 f_equal. clear. induction keys as [|? ? IHl]; cbn; [|rewrite <- IHl]; reflexivity.
  - destruct (Nat.eq_dec i q) as [->|NE].
    + exists (S c). destruct (group_lens q x y t vals (3 + length keys) EK) as (c1 & d1 & E & EC & ES). replace d1 with 0%nat in E by lia. rewrite Nat.min_id in EC. subst c1. cbn [repeat] in E. rewrite app_nil_r in E.
      rewrite firstn_all2 in E by (unfold rec_events; cbn [length]; rewrite map_length, <- (map_length fst vals), EK; lia).
      set (g := rec_events q x y t vals) in *. clearbody g.
      unfold lens_of in *. rewrite xs_app, ys_app, ts_app. cbn [Nat.add repeat] in *. rewrite !app_length. injection E as E1 E2 E3 E4. injection IH as F1 F2 F3 F4. rewrite E1, E2, E3, F1, F2, F3. do 3 f_equal.
      clear - E4 F4. revert E4 F4. induction keys as [|k l IHl]; [reflexivity|]. cbn [map length repeat]. intros E4 F4. injection E4 as A B. injection F4 as C D. rewrite vs_app, app_length, A, C. f_equal. apply IHl; assumption.
    + exists c. rewrite <- IH. pose proof (group_other q i x y t vals (length (rec_events i x y t vals)) NE) as E. rewrite firstn_all in E.
      set (g := rec_events i x y t vals) in *. clearbody g.
      unfold lens_of in *. rewrite xs_app, ys_app, ts_app. cbn [Nat.add repeat] in E. rewrite !app_length. injection E as E1 E2 E3 E4. rewrite E1, E2, E3. do 3 f_equal.
      clear - E4. revert E4. induction keys as [|k l IHl]; [reflexivity|]. cbn [map length repeat]. intros E4. injection E4 as A B. rewrite vs_app, app_length, A. cbn [Nat.add]. f_equal. apply IHl. exact B.
Qed.
Lemma lens_app q a b c : lens_of q a = repeat c (3 + length keys) -> lens_of q (a ++ b) = map (fun d => (c + d)%nat) (lens_of q b).
Proof.
  intros E. unfold lens_of in *. rewrite xs_app, ys_app, ts_app. cbn [Nat.add repeat] in E. rewrite !app_length. injection E as E1 E2 E3 E4. rewrite E1, E2, E3. cbn [map]. do 3 f_equal.
  rewrite map_map. revert E4. clear. induction keys as [|k l IHl]; [reflexivity|]. cbn [map length repeat]. intros E4. injection E4 as A B. rewrite vs_app, app_length, A. f_equal. apply IHl. exact B.
Qed.
Lemma map_repeat' {A B} (f : A -> B) x k : map f (repeat x k) = repeat (f x) k.
Proof. induction k; cbn; congruence. Qed.
(** Any part of the appends leaves all particles but one even. *)
Lemma part_lens es : part es -> exists i, forall q, exists c, (exists a b, lens_of q es = repeat (S c) a ++ repeat c b) /\ (q <> i -> lens_of q es = repeat c (3 + length keys)).
Proof.
  intros (e1 & e2 & -> & F & [->|(e3 & (i & x & y & t & vals & Hi & EK & EG))]).
  - exists 0%nat. intros q. destruct (full_lens e1 q F) as (c & E). exists c. rewrite app_nil_r. split; [exists 0%nat, (3 + length keys)%nat; exact E | intros _; exact E].
  - assert (E2 : e2 = firstn (length e2) (rec_events i x y t vals)) by (rewrite <- EG, firstn_app, firstn_all, Nat.sub_diag; cbn [firstn]; rewrite app_nil_r; reflexivity).
    exists i. intros q. destruct (full_lens e1 q F) as (c & E). exists c. rewrite (lens_app q e1 e2 c E). destruct (Nat.eq_dec q i) as [->|NE].
    + split; [|congruence]. destruct (group_lens i x y t vals (length e2) EK) as (a & b & G & _). rewrite <- E2 in G. rewrite G, map_app, !map_repeat'. exists a, b. rewrite Nat.add_0_r, Nat.add_1_r. reflexivity.
    + pose proof (group_other q i x y t vals (length e2) (not_eq_sym NE)) as G. rewrite <- E2 in G. rewrite G, map_repeat', Nat.add_0_r. split; [exists 0%nat, (3 + length keys)%nat; reflexivity | reflexivity].
Qed.
End Keys.
End Proj.

(** The appends of a computation consist of complete records, and of a part of one more record if it raises. *)
Section Log.
Context {T : Type} {N : Num T}.
Variables (keys : list string) (n : nat).
Definition wfl {A} (l : log T A) : Prop := match snd l with Ok _ => full keys n (fst l) | Err _ => part keys n (fst l) end.
Lemma wfl_ret {A} (a : A) : wfl (lret a).
Proof. constructor. Qed.
Lemma wfl_lift {A} (r : res A) : wfl (lift r).
Proof. destruct r; cbn; [constructor | apply full_part; constructor]. Qed.
Lemma wfl_bind {A B} (x : log T A) (k : A -> log T B) : wfl x -> (forall a, snd x = Ok a -> wfl (k a)) -> wfl (lbind x k).
Proof.
  unfold wfl, lbind. intros H K. destruct (snd x) as [a|e]; cbn [fst snd] in *; [|exact H]. specialize (K a eq_refl).
  destruct (snd (k a)); [apply full_app | apply full_part_app]; assumption.
Qed.
Lemma wfl_lbind {A B} (r : res A) (k : A -> log T B) : (forall a, r = Ok a -> wfl (k a)) -> wfl (lbind (lift r) k).
Proof. intros K. apply wfl_bind; [apply wfl_lift | exact K]. Qed.
Lemma wfl_foreach {A} (f : A -> log T unit) l : (forall a, In a l -> wfl (f a)) -> wfl (lforeach f l).
Proof.
  induction l as [|a l IH]; intros H; cbn [lforeach]; [apply wfl_ret|]. apply wfl_bind; [apply H; left; reflexivity|]. intros _ _. apply IH. intros b I. apply H. right. exact I.
Qed.
Lemma rec_vars i upd k : forall ks, let l := lforeach (fun var => lbind (lift (match dget var upd with Some vs => py_nth vs k | None => Err KeyError end)) (fun v => emit (AV var i v))) ks in
  exists (vals : list (string * option T)) rest, map fst vals ++ rest = ks /\ fst l = map (fun kv => AV (fst kv) i (snd kv)) vals /\ (forall u, snd l = Ok u -> rest = [] /\ forall kv, In kv vals -> exists vs, dget (fst kv) upd = Some vs /\ py_nth vs k = Ok (snd kv)).
Proof.
  induction ks as [|v ks (vals & rest & E & F & G)]; [exists [], []; split; [reflexivity|]; split; [reflexivity | intros u _; split; [reflexivity | intros kv []]]|]. cbn [lforeach].
  destruct (dget v upd) as [vs|] eqn:DG; [destruct (py_nth vs k) as [o|e] eqn:PN|].
  - exists ((v, o) :: vals), rest. cbn. split; [congruence|]. split; [f_equal; exact F|]. intros u H. destruct (G u H) as (R & K). split; [exact R|]. intros kv [<-|I]; [exists vs; auto | apply K, I].
  - exists [], (v :: ks). cbn. split; [reflexivity|]. split; [reflexivity | discriminate].
  - exists [], (v :: ks). cbn. split; [reflexivity|]. split; [reflexivity | discriminate].
Qed.
Lemma wfl_record i p k tts upd : (i < n)%nat -> wfl (record_log i p k tts keys upd).
Proof.
  intros Hi. unfold record_log. destruct (py_nth tts k) as [t|e] eqn:PT.
  - destruct (rec_vars i upd k keys) as (vals & rest & E & F & G). set (l := lforeach _ keys) in *. unfold lbind, emit, lift. cbn [fst snd app]. unfold wfl. cbn [fst snd]. rewrite F. destruct (snd l) as [u|e] eqn:S.
    + apply group_full. exists i, (fst p), (snd p), t, vals. destruct (G u eq_refl) as (-> & _). rewrite app_nil_r in E. auto.
    + exists [], (AX i (fst p) :: AY i (snd p) :: AT i t :: map (fun kv => AV (fst kv) i (snd kv)) vals). split; [reflexivity|]. split; [constructor|]. right.
      exists (map (fun v => AV v i None) rest). exists i, (fst p), (snd p), t, (vals ++ map (fun v => (v, None)) rest). split; [exact Hi|]. rewrite map_app, map_map. cbn [fst]. rewrite map_id. split; [exact E|].
      unfold rec_events. cbn [app]. rewrite map_app, map_map. reflexivity.
  - cbn. unfold wfl. cbn [fst snd]. exists [], [AX i (fst p); AY i (snd p)]. split; [reflexivity|]. split; [constructor|]. right. exists (AT i n0 :: map (fun v => AV v i None) keys).
    exists i, (fst p), (snd p), n0, (map (fun v => (v, None)) keys). split; [exact Hi|]. rewrite map_map, map_id. split; [reflexivity|]. unfold rec_events. cbn [app]. rewrite map_map. reflexivity.
Qed.
End Log.

Section Wf.
Context {T : Type} {N : Num T}.
Lemma loop_keys lm (P : pobj T) draws target mi ii : forall fuel m est c s evs m' s', loop_log fuel lm P draws target mi ii m est c s = (evs, Ok (m', s')) -> map fst (opts m') = map fst (opts m).
Proof.
  assert (LI : forall {A B} (r : res A) (k : A -> log T B) evs b, lbind (lift r) k = (evs, Ok b) -> exists a, r = Ok a /\ k a = (evs, Ok b)).
  { intros A B r k evs b H. destruct r as [a|e]; [|discriminate]. exists a. split; [reflexivity|]. unfold lbind, lift in H. cbn [fst snd app] in H. rewrite <- surjective_pairing in H. exact H. }
  induction fuel as [|fuel IH]; intros m est c s evs m' s' H; cbn [loop_log] in H; [discriminate|].
  apply LI in H as (x & _ & H). apply LI in H as (y & _ & H). apply LI in H as (t & _ & H). destruct (nleb _ _); [|injection H as <- <- <-; reflexivity].
  apply LI in H as (? & _ & H). apply LI in H as ((((ni & tts) & upd) & s1) & _ & H). apply LI in H as (p & _ & H). destruct (negb _); [|injection H as <- <- <-; reflexivity].
  cbv zeta in H. set (rl := record_log _ _ _ _ _ _) in H. unfold lbind at 1 in H. destruct (snd rl) as [u|e]; [|discriminate].
  match type of H with (_ ++ fst ?k, snd ?k) = _ => destruct k as (ev2 & r2) eqn:EK end. cbn [fst snd] in H. injection H as <- ->.
  apply LI in EK as (t' & _ & EK). clearbody rl. destruct (mi <? c + 1); [unfold lret in EK; assert (EM : m' = replay m (fst rl)) by congruence; rewrite EM; apply replay_keys|]. rewrite (IH _ _ _ _ _ _ _ EK). apply replay_keys.
Qed.
Lemma wfl_loop lm (P : pobj T) draws target mi ii keys n : (Z.to_nat ii < n)%nat -> forall fuel m est c s, map fst (opts m) = keys -> wfl keys n (loop_log fuel lm P draws target mi ii m est c s).
Proof.
  intros Hi. induction fuel as [|fuel IH]; intros m est c s KE; cbn [loop_log]; [apply wfl_lift|].
  apply wfl_lbind; intros x _. apply wfl_lbind; intros y _. apply wfl_lbind; intros t _. destruct (nleb _ _); [|apply wfl_ret]. apply wfl_lbind; intros _ _. apply wfl_lbind; intros (((ni & tts) & upd) & s1) _.
  apply wfl_lbind; intros p _. destruct (negb _); [|apply wfl_ret]. cbv zeta. apply wfl_bind; [rewrite KE; apply wfl_record, Hi|]. intros u _. apply wfl_lbind; intros t' _. destruct (mi <? c + 1); [apply wfl_ret|].
  apply IH. rewrite replay_keys. exact KE.
Qed.
Lemma wfl_particles lm (P : pobj T) draws target mi keys n : forall idx m s, (forall ii, In ii idx -> (Z.to_nat ii < n)%nat) -> map fst (opts m) = keys -> wfl keys n (particles_log lm P draws target mi idx m s).
Proof.
  induction idx as [|ii idx IH]; intros m s HI KE; cbn [particles_log]; [apply wfl_ret|].
  apply wfl_lbind; intros ts _. apply wfl_lbind; intros est _. apply wfl_lbind; intros x _. apply wfl_lbind; intros y _. apply wfl_bind.
  - destruct (near_edge _ _ _); [apply wfl_ret|]. apply wfl_loop; [apply HI; left; reflexivity | exact KE].
  - intros (m' & s') E. cbn [fst snd]. apply IH; [intros i I; apply HI; right; exact I|]. rewrite <- KE. destruct (near_edge _ _ _); [cbn in E; injection E as <- _; reflexivity|].
    eapply loop_keys. rewrite <- E. apply surjective_pairing.
Qed.
Lemma wfl_target lm (P : pobj T) draws target mi s w : s_walk s = Some w -> s_np s = Z.of_nat (count w) -> shaped (tvars P) w -> wfl (tvars P) (count w) (target_log lm P draws target mi s).
Proof.
  intros SW NP SH. unfold target_log. rewrite SW, NP. replace (if Z.of_nat (count w) =? 0 then Z.of_nat (length (xinds w)) else Z.of_nat (count w)) with (Z.of_nat (count w)) by (unfold count; destruct (Z.of_nat (length (xinds w)) =? 0); reflexivity).
  rewrite (read_opts_shaped P _ w SH). apply wfl_lbind; intros ? _. apply wfl_lbind; intros ? _. apply wfl_lbind; intros ? _. cbv zeta. apply wfl_lbind; intros ? _. apply wfl_bind; [|intros; apply wfl_ret].
  apply wfl_particles; [intros ii I; apply zrange_In in I; lia|]. cbn [opts]. rewrite map_map. apply map_id.
Qed.
Lemma wfl_step lm (P : pobj T) draws s w : s_walk s = Some w -> s_np s = Z.of_nat (count w) -> shaped (tvars P) w -> wfl (tvars P) (count w) (step_log lm P draws s).
Proof.
  intros SW NP SH. unfold step_log. rewrite SW, NP. replace (if Z.of_nat (count w) =? 0 then Z.of_nat (length (xinds w)) else Z.of_nat (count w)) with (Z.of_nat (count w)) by (unfold count; destruct (Z.of_nat (length (xinds w)) =? 0); reflexivity).
  rewrite (read_opts_shaped P _ w SH). apply wfl_lbind; intros ? _. apply wfl_lbind; intros ? _. apply wfl_lbind; intros ? _. cbv zeta. apply wfl_lbind; intros ? _. apply wfl_lbind; intros (((ni & tts) & upd) & s1) _.
  assert (MV : forall f : string -> list (list (option T)), map fst (map (fun v => (v, f v)) (tvars P)) = tvars P) by (intros f; rewrite map_map; apply map_id). rewrite MV.
  apply wfl_foreach. intros ii I. apply zrange_In in I. apply wfl_lbind; intros p _. apply wfl_lbind; intros q _. destruct (negb _); [|apply wfl_ret]. apply wfl_record. lia.
Qed.
End Wf.

(** The appends rebuild the result of a call that returns. *)
Section Refine.
Context {T : Type} {N : Num T}.
Definition add_row (q : nat) (r : prow T) (es : list (event T)) : prow T :=
  {| r_x := r_x r ++ xs_of q es; r_y := r_y r ++ ys_of q es; r_t := r_t r ++ ts_of q es; r_o := map (fun kv => (fst kv, snd kv ++ vs_of (fst kv) q es)) (r_o r) |}.
Lemma replay_shaped keys (m : walk T) es : shaped keys m -> shaped keys (replay m es) /\ count (replay m es) = count m.
Proof.
  intros (A & B & C). unfold count in *. destruct (replay_x es m) as (LX & _). destruct (replay_y es m) as (LY & _). destruct (replay_t es m) as (LT & _). unfold shaped, count. rewrite LX, LY, LT. split; [|reflexivity].
  split; [exact A|]. split; [exact B|]. intros v I. destruct (C v I) as (l & El & Ll). destruct (replay_v v es m l El) as (l' & E' & L' & _). exists l'. split; [exact E' | congruence].
Qed.
Lemma replay_row keys (m : walk T) es q : shaped keys m -> (q < count m)%nat -> row keys (replay m es) q = add_row q (row keys m q) es.
Proof.
  intros (A & B & C) Hq. unfold row, add_row, count in *. cbn [r_x r_y r_t r_o].
  destruct (replay_x es m) as (_ & HX). destruct (replay_y es m) as (_ & HY). destruct (replay_t es m) as (_ & HT). rewrite HX, HY, HT by lia. f_equal.
  rewrite map_map. apply map_ext_in. intros v I. cbn [fst snd]. f_equal. destruct (C v I) as (l & El & Ll). destruct (replay_v v es m l El) as (l' & E' & L' & H). rewrite E', El. cbn [dflt]. apply H. lia.
Qed.
Lemma vs_in i g : forall ks v, NoDup ks -> In v ks -> vs_of v i (map (fun kv : string * option T => AV (fst kv) i (snd kv)) (map (fun v => (v, g v)) ks)) = [g v].
Proof.
  induction ks as [|k ks IH]; intros v D I; [destruct I|]. inversion D as [|? ? NI D']; subst. cbn [map vs_of flat_map fst snd]. rewrite Nat.eqb_refl, andb_true_r. destruct (String.eqb v k) eqn:E.
  - apply String.eqb_eq in E. subst k. cbn [app]. f_equal. apply vs_notin. rewrite map_map, map_id. exact NI.
  - cbn [app]. apply IH; [exact D'|]. destruct I as [->|I]; [rewrite String.eqb_refl in E; discriminate | exact I].
Qed.
Lemma add_row_nil q (r : prow T) es : xs_of q es = [] -> ys_of q es = [] -> ts_of q es = [] -> (forall v, vs_of v q es = []) -> add_row q r es = r.
Proof.
  intros A B C D. unfold add_row. rewrite A, B, C, !app_nil_r. destruct r as [x y t o]. cbn [r_x r_y r_t r_o]. f_equal. transitivity (map id o); [|apply map_id]. apply map_ext. intros (k & l). cbn. rewrite D, app_nil_r. reflexivity.
Qed.
Lemma rec_other q i x y t (vals : list (string * option T)) : i <> q -> xs_of q (rec_events i x y t vals) = [] /\ ys_of q (rec_events i x y t vals) = [] /\ ts_of q (rec_events i x y t vals) = [] /\ forall v, vs_of v q (rec_events i x y t vals) = [].
Proof.
  intros NE. assert (NQ : Nat.eqb i q = false) by (apply Nat.eqb_neq; exact NE). unfold rec_events. cbn [xs_of ys_of ts_of vs_of flat_map]. rewrite NQ. cbn [app].
  split; [apply map_AV_x|]. split; [apply map_AV_y|]. split; [apply map_AV_t|]. intros v. apply vs_other, NE.
Qed.
Lemma rec_same i x y t g ks : NoDup ks -> xs_of i (rec_events i x y t (map (fun v => (v, g v)) ks)) = [x] /\ ys_of i (rec_events i x y t (map (fun v => (v, g v)) ks)) = [y] /\
  ts_of i (rec_events i x y t (map (fun v => (v, g v)) ks)) = [t] /\ forall v : string, In v ks -> vs_of v i (rec_events i x y t (map (fun v => (v, g v)) ks)) = [g v : option T].
Proof.
  intros D. unfold rec_events. cbn [xs_of ys_of ts_of vs_of flat_map]. rewrite Nat.eqb_refl. cbn [app].
  split; [f_equal; apply map_AV_x|]. split; [f_equal; apply map_AV_y|]. split; [f_equal; apply map_AV_t|]. intros v I. apply vs_in; assumption.
Qed.
Lemma record_ok i p k (tts : list T) keys upd t g : py_nth tts k = Ok t -> (forall v, In v keys -> exists vs, dget v upd = Some vs /\ py_nth vs k = Ok (g v)) ->
  record_log i p k tts keys upd = (rec_events i (fst p) (snd p) t (map (fun v => (v, g v)) keys), Ok tt).
Proof.
  intros PT H. unfold record_log. rewrite PT. assert (E : lforeach (fun var => lbind (lift (match dget var upd with Some vs => py_nth vs k | None => Err KeyError end)) (fun v => emit (AV var i v))) keys =
    (map (fun kv => AV (fst kv) i (snd kv)) (map (fun v => (v, g v)) keys), Ok tt)).
  { induction keys as [|v keys IH]; [reflexivity|]. cbn [lforeach]. destruct (H v (or_introl eq_refl)) as (vs & -> & ->). rewrite IH by (intros u I; apply H; right; exact I). reflexivity. }
  rewrite E. reflexivity.
Qed.
Lemma lbind_ok {A B} (a : A) (k : A -> log T B) : lbind (lift (Ok a)) k = k a.
Proof. unfold lbind, lift. cbn [fst snd app]. symmetry. apply surjective_pairing. Qed.
Lemma foreach_ok {A} (f : A -> log T unit) (h : A -> list (event T)) : forall l, (forall a, In a l -> f a = (h a, Ok tt)) -> lforeach f l = (flat_map h l, Ok tt).
Proof.
  induction l as [|a l IH]; intros H; [reflexivity|]. cbn [lforeach flat_map]. rewrite (H a (or_introl eq_refl)), IH by (intros b I; apply H; right; exact I). reflexivity.
Qed.
Lemma flat_map_flat {A B C} (f : B -> list C) (g : A -> list B) l : flat_map f (flat_map g l) = flat_map (fun a => flat_map f (g a)) l.
Proof. induction l as [|a l IH]; [reflexivity|]. cbn [flat_map]. rewrite flat_map_app, IH. reflexivity. Qed.
Lemma flat_map_none {A B} (g : A -> list B) l : (forall a, In a l -> g a = []) -> flat_map g l = [].
Proof. induction l as [|a l IH]; intros H; [reflexivity|]. cbn [flat_map]. rewrite H by (left; reflexivity). apply IH. intros b I. apply H. right. exact I. Qed.
Lemma flat_map_single {A B} (g : A -> list B) l a0 : NoDup l -> In a0 l -> (forall a, In a l -> a <> a0 -> g a = []) -> flat_map g l = g a0.
Proof.
  induction l as [|a l IH]; intros D I H; [destruct I|]. inversion D as [|? ? NI D']; subst. cbn [flat_map]. destruct I as [->|I].
  - rewrite flat_map_none, app_nil_r; [reflexivity|]. intros b Ib. apply H; [right; exact Ib|]. intros ->. contradiction.
  - rewrite (H a (or_introl eq_refl)) by (intros ->; contradiction). apply IH; [exact D' | exact I|]. intros b Ib. apply H. right. exact Ib.
Qed.
End Refine.

Section RefineStep.
Context {T : Type} {N : Num T} {NL : NumLaws T} {GV : T -> Prop}.
Lemma step_refine lm (P : pobj T) draws s w w' s' :
  field_ok lm P -> unit_stream GV draws -> winv lm P (w_arr (s_wst s)) -> vars_ok P ->
  s_walk s = Some w -> s_np s = Z.of_nat (count w) -> walk_ok P w ->
  run_step lm P draws s = Ok (w', s') ->
  snd (step_log lm P draws s) = Ok tt /\ forall p, (p < count w)%nat -> row (tvars P) w' p = add_row p (row (tvars P) w p) (fst (step_log lm P draws s)).
Proof.
  intros FO U WI VO SW NP (KE & SH & RO) H. unfold run_step in H. unfold step_log. rewrite SW in *. rewrite NP in *.
  replace (if Z.of_nat (count w) =? 0 then Z.of_nat (length (xinds w)) else Z.of_nat (count w)) with (Z.of_nat (count w)) in *
    by (unfold count; destruct (Z.of_nat (length (xinds w)) =? 0); reflexivity).
  assert (SH' := SH). destruct SH' as (LY & LT & LO).
  assert (RR : forall p, (p < count w)%nat -> row_rect (row (tvars P) w p)) by (intros p Hp; apply RO, Hp).
  assert (EX : mapM (last_of (xinds w)) (zrange 0 (Z.of_nat (count w))) = Ok (map (lastd 0) (xinds w))).
  { apply mapM_last; [reflexivity|]. intros r I. apply (In_nth _ _ []) in I as (p & Hp & <-). apply (row_rect_lengths _ _ _ (RR p Hp)). }
  assert (EY : mapM (last_of (yinds w)) (zrange 0 (Z.of_nat (count w))) = Ok (map (lastd 0) (yinds w))).
  { apply mapM_last; [symmetry; exact LY|]. intros r I. apply (In_nth _ _ []) in I as (p & Hp & <-). rewrite LY in Hp. destruct (row_rect_lengths _ _ _ (RR p Hp)). lia. }
  assert (ET : mapM (last_of (times w)) (zrange 0 (Z.of_nat (count w))) = Ok (map (lastd n0) (times w))).
  { apply mapM_last; [symmetry; exact LT|]. intros r I. apply (In_nth _ _ []) in I as (p & Hp & <-). rewrite LT in Hp. destruct (row_rect_lengths _ _ _ (RR p Hp)). lia. }
  rewrite EX, EY, ET in H. cbn [bind] in H. rewrite EX, lbind_ok, EY, lbind_ok, ET, lbind_ok. cbv zeta. rewrite (read_opts_shaped P _ w SH) in *.
  set (ov := map (fun v => (v, dflt (dget v (opts w)) [])) (tvars P)) in *.
  apply bind_ok in H as (lo & EL & H). rewrite EL, lbind_ok. cbv zeta in *.
  set (cur := combine (map (lastd 0) (xinds w)) (map (lastd 0) (yinds w))) in *.
  apply bind_ok in H as ((((ni & tts) & upd) & ws) & E1 & H). cbv beta iota in H. rewrite E1, lbind_ok. cbv beta iota.
  apply bind_ok in H as (ov' & E2 & H). injection H as <- <-. cbn [s_walk s_np s_wst opts xinds yinds times].
  assert (LCur : length cur = count w) by (unfold cur; rewrite combine_length, !map_length, LY; unfold count; lia).
  assert (CurN : forall p, (p < count w)%nat -> nth p cur (0, 0) = (xat (row (tvars P) w p) (last_ix (row (tvars P) w p)), yat (row (tvars P) w p) (last_ix (row (tvars P) w p)))).
  { intros p Hp. unfold cur. rewrite combine_nth by (rewrite !map_length, LY; reflexivity).
    rewrite (last_ix_y _ (RR p Hp)), last_ix_x. unfold row; cbn [r_x r_y].
    rewrite !(nth_map_d (lastd 0) _ p []) by (try rewrite LY; exact Hp). reflexivity. }
  destruct (stepper_spec lm P draws cur (map (lastd n0) (times w)) (map fst ov) (s_wst s) ni tts upd ws FO U WI) as (LN & LTT & WI' & OO & OUT); try assumption.
  { intros xy I. apply (In_nth _ _ (0, 0)) in I as (p & Hp & <-). rewrite LCur in Hp. rewrite CurN by exact Hp. cbn [fst snd]. apply RO, Hp. }
  { rewrite map_length, LT. symmetry. exact LCur. }
  set (moved := map2 (fun a b => negb (pair_eqb a b)) ni cur) in *.
  assert (LM : length moved = count w) by (unfold moved; rewrite map2_length; lia).
  assert (MV : map fst ov = tvars P) by (unfold ov; rewrite map_map; apply map_id).
  set (vals := fun v => dflt (dget v upd) []).
  assert (VAL : forall v, In v (tvars P) -> dget v upd = Some (vals v) /\ length (vals v) = count w).
  { intros v I. rewrite MV in OO. destruct (OO v I (VO v I)) as (vs & Ev & Lv & Nv). unfold vals. rewrite Ev. cbn [dflt].
    split; [reflexivity | lia]. }
  assert (OV' : ov' = map (fun v => (v, append_where moved (vals v) (dflt (dget v (opts w)) []))) (tvars P)).
  { rewrite (mapM_map _ (fun kv => (fst kv, append_where moved (vals (fst kv)) (snd kv)))) in E2.
    - injection E2 as <-. unfold ov. rewrite map_map. reflexivity.
    - intros kv I. unfold ov in I. apply in_map_iff in I as (v & <- & I). unfold append_opt. cbn [fst snd].
      destruct (VAL v I) as (-> & _). reflexivity. }
  rewrite MV.
  set (h := fun ii : Z => if nth (Z.to_nat ii) moved false then rec_events (Z.to_nat ii) (fst (nth (Z.to_nat ii) ni (0, 0))) (snd (nth (Z.to_nat ii) ni (0, 0))) (nth (Z.to_nat ii) tts n0)
     (map (fun v => (v, nth (Z.to_nat ii) (vals v) None)) (tvars P)) else []).
  assert (FE : lforeach (fun ii : Z => lbind (lift (py_nth ni ii)) (fun p : Z * Z => lbind (lift (py_nth cur ii)) (fun q : Z * Z =>
      if negb (pair_eqb p q) then record_log (Z.to_nat ii) p ii tts (tvars P) upd else lret tt))) (zrange 0 (Z.of_nat (count w))) = (flat_map h (zrange 0 (Z.of_nat (count w))), Ok tt)).
  { apply foreach_ok. intros ii I. apply zrange_In in I. set (p := Z.to_nat ii). assert (EP : ii = Z.of_nat p) by (unfold p; lia). rewrite EP.
    rewrite (py_nth_ok ni p (0, 0)) by lia. rewrite lbind_ok. rewrite (py_nth_ok cur p (0, 0)) by lia. rewrite lbind_ok. unfold h. rewrite Nat2Z.id. unfold moved. rewrite (map2_nth _ ni cur (0, 0) (0, 0)) by lia.
    destruct (negb _); [|reflexivity]. rewrite (record_ok p _ (Z.of_nat p) tts (tvars P) upd (nth p tts n0) (fun v => nth p (vals v) None)); [reflexivity | apply py_nth_ok; lia|].
    intros v Iv. destruct (VAL v Iv) as (A & B). exists (vals v). split; [exact A|]. apply py_nth_ok. lia. }
  rewrite FE. cbn [fst snd]. split; [reflexivity|]. intros p Hp.
  assert (IZ : In (Z.of_nat p) (zrange 0 (Z.of_nat (count w)))) by (apply zrange_In; lia).
  assert (HO : forall a, In a (zrange 0 (Z.of_nat (count w))) -> a <> Z.of_nat p -> xs_of p (h a) = [] /\ ys_of p (h a) = [] /\ ts_of p (h a) = [] /\ forall v, vs_of v p (h a) = []).
  { intros a Ia NE. unfold h. destruct (nth _ moved false); [|auto]. apply rec_other. apply zrange_In in Ia. lia. }
  unfold add_row, row. cbn [r_x r_y r_t r_o xinds yinds times opts].
  assert (XX : xs_of p (flat_map h (zrange 0 (Z.of_nat (count w)))) = xs_of p (h (Z.of_nat p))).
  { unfold xs_of at 1. rewrite flat_map_flat. apply (flat_map_single (fun a => xs_of p (h a))); [apply zrange_NoDup | exact IZ|]. intros a Ia NE. apply (HO a Ia NE). }
  assert (YY : ys_of p (flat_map h (zrange 0 (Z.of_nat (count w)))) = ys_of p (h (Z.of_nat p))).
  { unfold ys_of at 1. rewrite flat_map_flat. apply (flat_map_single (fun a => ys_of p (h a))); [apply zrange_NoDup | exact IZ|]. intros a Ia NE. apply (HO a Ia NE). }
  assert (TT : ts_of p (flat_map h (zrange 0 (Z.of_nat (count w)))) = ts_of p (h (Z.of_nat p))).
  { unfold ts_of at 1. rewrite flat_map_flat. apply (flat_map_single (fun a => ts_of p (h a))); [apply zrange_NoDup | exact IZ|]. intros a Ia NE. apply (HO a Ia NE). }
  assert (VV : forall v, vs_of v p (flat_map h (zrange 0 (Z.of_nat (count w)))) = vs_of v p (h (Z.of_nat p))).
  { intros v. unfold vs_of at 1. rewrite flat_map_flat. apply (flat_map_single (fun a => vs_of v p (h a))); [apply zrange_NoDup | exact IZ|]. intros a Ia NE. apply (HO a Ia NE). }
  rewrite XX, YY, TT. unfold count in *.
  rewrite (append_where_nth moved (map fst ni) (xinds w) 0) by (rewrite ?map_length; lia).
  rewrite (append_where_nth moved (map snd ni) (yinds w) 0) by (rewrite ?map_length; lia).
  rewrite (append_where_nth moved tts (times w) n0) by lia.
  unfold h in *. rewrite Nat2Z.id in *. destruct (nth p moved false) eqn:EM.
  - destruct (rec_same p (fst (nth p ni (0, 0))) (snd (nth p ni (0, 0))) (nth p tts n0) (fun v => nth p (vals v) None) (tvars P) (NoDup_tvars P)) as (A & B & C & D). rewrite A, B, C.
    rewrite !(nth_map_d _ ni p (0, 0)) by lia. f_equal. rewrite map_map. apply map_ext_in. intros v I. cbn [fst snd]. f_equal. rewrite VV, D by exact I. rewrite OV', dget_map by exact I. cbn [dflt].
    destruct (LO v I) as (l & El & Ll). rewrite El. cbn [dflt]. destruct (VAL v I) as (_ & Lv). rewrite (append_where_nth moved (vals v) l None) by lia. rewrite EM. reflexivity.
  - rewrite !app_nil_r. f_equal. rewrite map_map. apply map_ext_in. intros v I. cbn [fst snd]. f_equal. rewrite VV. cbn [vs_of flat_map]. rewrite app_nil_r. rewrite OV', dget_map by exact I. cbn [dflt].
    destruct (LO v I) as (l & El & Ll). rewrite El. cbn [dflt]. destruct (VAL v I) as (_ & Lv). rewrite (append_where_nth moved (vals v) l None) by lia. rewrite EM. reflexivity.
Qed.
End RefineStep.

Section RefineTarget.
Context {T : Type} {N : Num T}.
Definition first_of (upd : list (string * list (option T))) (v : string) : option T :=
  match dget v upd with Some vs => match py_nth vs 0 with Ok o => o | Err _ => None end | None => None end.
Lemma opts_ext upd : forall (o o' : list (string * list (option T))),
  mapM (fun kv => match dget (fst kv) upd with Some vs => bind (py_nth vs 0) (fun v => Ok (fst kv, snd kv ++ [v])) | None => Err KeyError end) o = Ok o' ->
  o' = map (fun kv => (fst kv, snd kv ++ [first_of upd (fst kv)])) o /\ forall v, In v (map fst o) -> exists vs, dget v upd = Some vs /\ py_nth vs 0 = Ok (first_of upd v).
Proof.
  induction o as [|(k & l) o IH]; intros o' H; cbn [mapM] in H; [injection H as <-; split; [reflexivity | intros v []]|].
  apply bind_ok in H as (a & EA & H). apply bind_ok in H as (b & EB & H). injection H as <-. destruct (IH b EB) as (-> & K). cbn [fst snd] in EA.
  destruct (dget k upd) as [vs|] eqn:DG; [|discriminate]. apply bind_ok in EA as (v & EV & EA). injection EA as <-.
  assert (F : first_of upd k = v) by (unfold first_of; rewrite DG, EV; reflexivity).
  split; [cbn [map fst snd]; rewrite F; reflexivity|]. cbn [map fst]. intros u [<-|I]; [exists vs; split; [exact DG | rewrite F; exact EV] | apply K, I].
Qed.
Lemma last_of_nth {A} (l : list (list A)) i : (i < length l)%nat -> last_of l (Z.of_nat i) = py_last (nth i l []).
Proof. intros H. unfold last_of. rewrite (py_nth_ok l i []) by exact H. reflexivity. Qed.
Lemma py_last_snoc {A} (l : list A) a : py_last (l ++ [a]) = Ok a.
Proof. rewrite (py_last_lastd a) by (rewrite app_length; cbn; lia). rewrite lastd_app. reflexivity. Qed.
Lemma opts_last keys (m : walk T) i : shaped keys m -> map fst (opts m) = keys -> NoDup keys -> (i < count m)%nat ->
  forall lo, mapM (fun kv => py_last (snd kv)) (r_o (row keys m i)) = Ok lo -> mapM (fun kv => last_of (snd kv) (Z.of_nat i)) (opts m) = Ok lo.
Proof.
  intros (_ & _ & C) KE ND Hi lo H. assert (CA : opts m = map (fun v => (v, dflt (dget v (opts m)) [])) keys) by (rewrite <- KE; apply canon; rewrite KE; exact ND).
  rewrite CA. unfold row in H. cbn [r_o] in H. rewrite <- H. clear H CA KE.
  assert (E : forall ks, incl ks keys -> mapM (fun kv : string * list (list (option T)) => last_of (snd kv) (Z.of_nat i)) (map (fun v => (v, dflt (dget v (opts m)) [])) ks) =
     mapM (fun kv : string * list (option T) => py_last (snd kv)) (map (fun v => (v, nth i (dflt (dget v (opts m)) []) [])) ks)).
  { induction ks as [|k ks IH]; intros I; [reflexivity|]. cbn [map mapM snd]. rewrite IH by (intros v Iv; apply I; right; exact Iv).
    destruct (C k (I k (or_introl eq_refl))) as (l & El & Ll). rewrite El. cbn [dflt]. rewrite last_of_nth by lia. reflexivity. }
  apply E, incl_refl.
Qed.
Lemma row_record keys (m : walk T) i x y t g : shaped keys m -> map fst (opts m) = keys -> NoDup keys -> (i < count m)%nat ->
  let m' := replay m (rec_events i x y t (map (fun v => (v, g v)) keys)) in
  row keys m' i = {| r_x := r_x (row keys m i) ++ [x]; r_y := r_y (row keys m i) ++ [y]; r_t := r_t (row keys m i) ++ [t];
                     r_o := map (fun kv => (fst kv, snd kv ++ [g (fst kv)])) (r_o (row keys m i)) |} /\
  forall q, (q < count m)%nat -> q <> i -> row keys m' q = row keys m q.
Proof.
  intros SH KE ND Hi m'. split.
  - unfold m'. rewrite (replay_row keys m _ i SH Hi). unfold add_row. destruct (rec_same i x y t g keys ND) as (A & B & C & D). rewrite A, B, C. f_equal.
    unfold row. cbn [r_o]. rewrite !map_map. apply map_ext_in. intros v I. cbn [fst snd]. rewrite D by exact I. reflexivity.
  - intros q Hq NE. unfold m'. rewrite (replay_row keys m _ q SH Hq). destruct (rec_other q i x y t (map (fun v => (v, g v)) keys) (not_eq_sym NE)) as (A & B & C & D). apply add_row_nil; assumption.
Qed.
Lemma replay_app (m : walk T) a b : replay m (a ++ b) = replay (replay m a) b.
Proof. apply fold_left_app. Qed.
Lemma loop_refine lm (P : pobj T) draws target mi keys i : NoDup keys -> forall fuel (m : walk T) est c s r' s' over, shaped keys m -> map fst (opts m) = keys -> (i < count m)%nat ->
  run_row fuel lm P draws target mi (row keys m i) est c s = Ok (r', s', over) ->
  exists evs, loop_log fuel lm P draws target mi (Z.of_nat i) m est c s = (evs, Ok (replay m evs, s')) /\ row keys (replay m evs) i = r' /\ forall q, (q < count m)%nat -> q <> i -> row keys (replay m evs) q = row keys m q.
Proof.
  intros ND. induction fuel as [|fuel IH]; intros m est c s r' s' over SH KE Hi H; cbn [run_row] in H; [discriminate|]. cbn [loop_log].
  pose proof SH as (LY & LT & LO). unfold count in *. rewrite !last_of_nth by lia.
  apply bind_ok in H as (x & Ex & H). apply bind_ok in H as (y & Ey & H). apply bind_ok in H as (t & Et & H).
  change (py_last (nth i (xinds m) []) = Ok x) in Ex. change (py_last (nth i (yinds m) []) = Ok y) in Ey. change (py_last (nth i (times m) []) = Ok t) in Et.
  rewrite Ex, lbind_ok, Ey, lbind_ok, Et, lbind_ok. destruct (nleb _ _).
  2:{ injection H as <- <- <-. exists []. split; [reflexivity|]. split; [reflexivity | reflexivity]. }
  apply bind_ok in H as (lo & El & H). rewrite (opts_last keys m i SH KE ND Hi lo El), lbind_ok. clear El lo.
  assert (MK : map fst (r_o (row keys m i)) = keys) by (unfold row; cbn [r_o]; rewrite map_map; apply map_id). rewrite MK in H. rewrite KE.
  apply bind_ok in H as ((((ni & tts) & upd) & s1) & E1 & H). rewrite E1, lbind_ok. cbv beta iota in H |- *.
  apply bind_ok in H as (p & Ep & H). rewrite Ep, lbind_ok. destruct (negb _).
  2:{ injection H as <- <- <-. exists []. split; [reflexivity|]. split; [reflexivity | reflexivity]. }
  apply bind_ok in H as (t' & Et' & H). apply bind_ok in H as (o' & Eo & H). apply opts_ext in Eo as (-> & VO). rewrite MK in VO. cbv zeta in H |- *. rewrite Nat2Z.id.
  rewrite (record_ok i p 0 tts keys upd t' (first_of upd) Et' VO). set (re := rec_events i (fst p) (snd p) t' (map (fun v => (v, first_of upd v)) keys)).
  destruct (row_record keys m i (fst p) (snd p) t' (first_of upd) SH KE ND Hi) as (RI & RQ). fold re in RI, RQ.
  destruct (replay_shaped keys m re SH) as (SH1 & CT1). unfold count in CT1.
  assert (KE1 : map fst (opts (replay m re)) = keys) by (rewrite replay_keys; exact KE).
  assert (T1 : last_of (times (replay m re)) (Z.of_nat i) = Ok t').
  { rewrite last_of_nth by (destruct SH1 as (_ & B & _); rewrite B; unfold count; lia). change (nth i (times (replay m re)) []) with (r_t (row keys (replay m re) i)). rewrite RI. cbn [r_t]. apply py_last_snoc. }
  clearbody re. unfold lbind at 1. cbn [fst snd]. rewrite T1, lbind_ok. rewrite <- RI in H. destruct (mi <? c + 1).
  - injection H as <- <- <-. exists re. cbn [lret fst snd]. rewrite app_nil_r. split; [reflexivity|]. split; [reflexivity | exact RQ].
  - destruct (IH (replay m re) _ _ _ _ _ _ SH1 KE1 ltac:(lia) H) as (evs & E & R & Q). rewrite E. cbn [fst snd]. exists (re ++ evs). rewrite replay_app. split; [reflexivity|]. split; [exact R|].
    intros q Hq NE. rewrite Q by (try exact NE; lia). apply RQ; assumption.
Qed.
End RefineTarget.

Section RefineAll.
Context {T : Type} {N : Num T} {NL : NumLaws T}.
Lemma particles_refine lm (P : pobj T) draws target mi : forall idx wd ov (m : walk T) s warn wd' ov' s' warn',
  let w := {| xinds := xinds wd; yinds := yinds wd; times := times wd; opts := ov |} in
  let w' := {| xinds := xinds wd'; yinds := yinds wd'; times := times wd'; opts := ov' |} in
  map fst ov = tvars P -> shaped (tvars P) w -> shaped (tvars P) m -> map fst (opts m) = tvars P -> count m = count w ->
  (forall q, (q < count w)%nat -> row (tvars P) m q = row (tvars P) w q) -> (forall i, In i idx -> 0 <= i < Z.of_nat (count w)) ->
  run_particles lm P draws target mi idx wd ov s warn = Ok (wd', ov', s', warn') ->
  exists evs, particles_log lm P draws target mi idx m s = (evs, Ok (replay m evs, s')) /\ count w' = count w /\
    forall q, (q < count w)%nat -> row (tvars P) w' q = row (tvars P) (replay m evs) q.
Proof.
  induction idx as [|ii idx IH]; intros wd ov m s warn wd' ov' s' warn' w w' KE SH SM KM CM RM RG H; cbn [run_particles] in H.
  - injection H as <- <- <- <-. exists []. split; [reflexivity|]. split; [reflexivity|]. intros q Hq. symmetry. apply RM, Hq.
  - assert (HI : 0 <= ii < Z.of_nat (count w)) by (apply RG; left; reflexivity).
    set (p := Z.to_nat ii) in *. assert (EP : ii = Z.of_nat p) by (unfold p; lia). assert (Hp : (p < count w)%nat) by lia.
    rewrite EP in H at 1. rewrite (get_row_spec P wd ov p KE SH Hp) in H. cbn [bind] in H. fold w in H.
    rewrite <- (RM p Hp) in H. apply bind_ok in H as (((r' & s1) & over) & E1 & H). cbv beta iota zeta in H.
    unfold run_particle in E1. apply bind_ok in E1 as (est & EE & E1). apply bind_ok in E1 as (x & Ex & E1). apply bind_ok in E1 as (y & Ey & E1).
    pose proof SM as (LY & LT & _).
    assert (PL : exists evs, (if near_edge (o_ct P) x y then lret (m, s) else loop_log (S (Z.to_nat mi)) lm P draws target mi ii m est 1 s) = (evs, Ok (replay m evs, s1)) /\
       row (tvars P) (replay m evs) p = r' /\ forall q, (q < count m)%nat -> q <> p -> row (tvars P) (replay m evs) q = row (tvars P) m q).
    { destruct (near_edge _ _ _).
      - injection E1 as <- <- <-. exists []. split; [reflexivity|]. split; reflexivity.
      - rewrite EP. eapply loop_refine; [apply NoDup_tvars | exact SM | exact KM | lia | exact E1]. }
    destruct PL as (ev1 & L1 & R1 & Q1).
    assert (RG' : r_o r' = map (fun v => (v, nth p (dflt (dget v (opts (replay m ev1))) []) [])) (tvars P)) by (rewrite <- R1; reflexivity).
    destruct (put_row_spec P wd ov p r' _ KE SH Hp RG') as (CT & KE1 & SH1 & RW & RWO). fold w in CT, RWO.
    set (w1 := {| xinds := upd_nth p (r_x r') (xinds wd); yinds := upd_nth p (r_y r') (yinds wd); times := upd_nth p (r_t r') (times wd); opts := set_opts p r' ov |}) in *.
    destruct (replay_shaped (tvars P) m ev1 SM) as (SM1 & CM1).
    match type of H with run_particles _ _ _ _ _ _ ?wd1 _ _ ?wn1 = _ =>
      pose proof (IH wd1 (set_opts p r' ov) (replay m ev1) s1 wn1 wd' ov' s' warn') as IH1 end. cbn [xinds yinds times opts] in IH1. fold w1 w' in IH1.
    assert (RM1 : forall q, (q < count w1)%nat -> row (tvars P) (replay m ev1) q = row (tvars P) w1 q).
    { intros q Hq. rewrite CT in Hq. destruct (Nat.eq_dec q p) as [->|NQ]; [rewrite RW; exact R1|]. rewrite RWO by exact NQ. rewrite Q1 by (try exact NQ; lia). apply RM, Hq. }
    destruct (IH1 KE1 SH1 SM1 ltac:(rewrite replay_keys; exact KM) ltac:(lia) RM1 ltac:(intros i I; rewrite CT; apply RG; right; exact I) H) as (ev2 & L2 & CT2 & RR).
    exists (ev1 ++ ev2). split; [|split; [lia | intros q Hq; rewrite replay_app; apply RR; lia]].
    cbn [particles_log]. rewrite EP at 1. rewrite (py_nth_ok (times m) p []) by (rewrite LT; lia). rewrite lbind_ok.
    change (r_t (row (tvars P) m p)) with (nth p (times m) []) in EE. rewrite EE, lbind_ok. rewrite EP at 1. rewrite last_of_nth by (unfold count in *; lia).
    change (r_x (row (tvars P) m p)) with (nth p (xinds m) []) in Ex. rewrite Ex, lbind_ok. rewrite EP at 1. rewrite last_of_nth by (unfold count in *; lia).
    change (r_y (row (tvars P) m p)) with (nth p (yinds m) []) in Ey. rewrite Ey, lbind_ok. rewrite L1. unfold lbind. cbn [fst snd]. rewrite L2. cbn [fst snd]. rewrite replay_app. reflexivity.
Qed.
Lemma target_refine lm (P : pobj T) draws target mi s w w' wl s' : s_walk s = Some w -> s_np s = Z.of_nat (count w) -> map fst (opts w) = tvars P -> shaped (tvars P) w ->
  run_target lm P draws target mi s = Ok (w', wl, s') ->
  snd (target_log lm P draws target mi s) = Ok tt /\ forall p, (p < count w)%nat -> row (tvars P) w' p = add_row p (row (tvars P) w p) (fst (target_log lm P draws target mi s)).
Proof.
  intros SW NP KE SH H. unfold run_target in H. unfold target_log. rewrite SW, NP in *.
  replace (if Z.of_nat (count w) =? 0 then Z.of_nat (length (xinds w)) else Z.of_nat (count w)) with (Z.of_nat (count w)) in *
    by (unfold count; destruct (Z.of_nat (length (xinds w)) =? 0); reflexivity).
  apply bind_ok in H as (? & E1 & H). rewrite E1, lbind_ok. apply bind_ok in H as (? & E2 & H). rewrite E2, lbind_ok. apply bind_ok in H as (? & E3 & H). rewrite E3, lbind_ok. cbv zeta in *.
  rewrite (read_opts_shaped P _ w SH) in *. apply bind_ok in H as (? & E4 & H). rewrite E4, lbind_ok.
  set (ov := map (fun v => (v, dflt (dget v (opts w)) [])) (tvars P)) in *.
  assert (EO : ov = opts w) by (unfold ov; rewrite <- KE; symmetry; apply canon; rewrite KE; apply NoDup_tvars).
  rewrite EO in *. apply bind_ok in H as ((((wd' & ov') & ws) & wn) & E & H). cbv beta iota in H.
  assert (EW : {| xinds := xinds w; yinds := yinds w; times := times w; opts := opts w |} = w) by (destruct w; reflexivity). rewrite EW.
  pose proof (particles_refine lm P draws target mi (zrange 0 (Z.of_nat (count w))) w (opts w) w (s_wst s) None wd' ov' ws wn) as RS. cbv zeta in RS. rewrite EW in RS.
  destruct (RS KE SH SH KE eq_refl (fun q _ => eq_refl) (fun i I => proj1 (zrange_In _ _ _) I) E) as (evs & L & CT & RR).
  destruct wn as [wl'|]; [|discriminate]. injection H as <- <- <-. rewrite L. cbn [lbind fst snd lret]. rewrite app_nil_r. split; [reflexivity|]. intros p Hp. rewrite RR by exact Hp. apply replay_row; assumption.
Qed.
End RefineAll.

Section Cut.
Context {T : Type} {N : Num T} {NL : NumLaws T}.
Lemma add_app q (r : prow T) a b : add_row q r (a ++ b) = add_row q (add_row q r a) b.
Proof.
  unfold add_row. cbn [r_x r_y r_t r_o]. rewrite xs_app, ys_app, ts_app, !app_assoc. f_equal. rewrite map_map. apply map_ext. intros kv. cbn [fst snd]. rewrite vs_app, app_assoc. reflexivity.
Qed.
Lemma add_prefix q (r : prow T) es : row_prefix r (add_row q r es).
Proof.
  unfold row_prefix, add_row, prefix. cbn [r_x r_y r_t r_o]. split; [eexists; reflexivity|]. split; [eexists; reflexivity|]. split; [eexists; reflexivity|].
  induction (r_o r) as [|kv o IH]; cbn [map]; constructor; [|exact IH]. split; [reflexivity | eexists; reflexivity].
Qed.
Lemma add_lens keys q (r : prow T) es n : map fst (r_o r) = keys -> lens r = repeat n (3 + length keys) -> lens (add_row q r es) = map (fun d => (n + d)%nat) (lens_of keys q es).
Proof.
  intros <- L. unfold lens, lens_of, add_row in *. cbn [r_x r_y r_t r_o map Nat.add repeat] in *. injection L as L1 L2 L3 L4. rewrite !app_length, L1, L2, L3. do 3 f_equal. rewrite !map_map. revert L4.
  induction (r_o r) as [|kv o IH]; [reflexivity|]. cbn [map length repeat fst snd]. intros L4. injection L4 as A B. rewrite app_length, A. f_equal. apply IH, B.
Qed.
Lemma in_torn n a b (l : list nat) m : l = repeat (S n) a ++ repeat n b -> In m l -> (n <= m)%nat.
Proof. intros -> I. apply in_app_or in I as [I|I]; apply repeat_spec in I; lia. Qed.
Lemma cut_eq n (r r' : prow T) : torn_row n r -> row_prefix r r' -> cut_row n r' = cut_row n r.
Proof.
  intros (a & b & L) ((x & EX) & (y & EY) & (t & ET) & F). assert (GE : forall m, In m (lens r) -> (n <= m)%nat) by (intros m; apply (in_torn n a b _ m L)).
  assert (C : forall {A} (l l' : list A), (n <= length l)%nat -> firstn n (l ++ l') = firstn n l) by (intros A l l' H; rewrite firstn_app; replace (n - length l)%nat with 0%nat by lia; cbn [firstn]; apply app_nil_r).
  unfold cut_row. rewrite EX, EY, ET, !C by (apply GE; unfold lens; cbn; tauto). f_equal.
  assert (GO : forall kv, In kv (r_o r) -> (n <= length (snd kv))%nat) by (intros kv I; apply GE; unfold lens; do 3 right; apply (in_map (fun kv => length (snd kv))), I).
  clear - F GO C. induction F as [|u v o o' (E1 & (z & E2)) F IH]; [reflexivity|]. cbn [map]. rewrite <- E1, E2, C by (apply GO; left; reflexivity). f_equal. apply IH. intros kv I. apply GO. right. exact I.
Qed.
Lemma interrupt_core (keys : list string) (w : walk T) (l : log T unit) k : NoDup keys -> shaped keys w -> (forall q, (q < count w)%nat -> row_rect (row keys w q)) ->
  wfl keys (count w) l ->
  let m := replay w (firstn k (fst l)) in
  count m = count w /\
  exists i, forall q, (q < count w)%nat -> row_prefix (row keys w q) (row keys m q) /\
    exists n, (length (r_x (row keys w q)) <= n)%nat /\ torn_row n (row keys m q) /\ (q <> i -> even_row (row keys m q)) /\
      row_prefix (row keys m q) (add_row q (row keys w q) (fst l)) /\ cut_row n (add_row q (row keys w q) (fst l)) = cut_row n (row keys m q).
Proof.
  intros ND SH RR WF m. split; [apply (replay_shaped keys w _ SH)|].
  assert (PT : part keys (count w) (firstn k (fst l))) by (apply firstn_part; unfold wfl in WF; destruct (snd l); [apply full_part|]; exact WF).
  destruct (part_lens keys (count w) ND _ PT) as (i & HL). exists i. intros q Hq. unfold m. rewrite (replay_row keys w _ q SH Hq). set (r := row keys w q) in *. set (es := firstn k (fst l)) in *.
  split; [apply add_prefix|].
  assert (MK : map fst (r_o r) = keys) by (unfold r, row; cbn [r_o]; rewrite map_map; apply map_id).
  assert (LR : lens r = repeat (length (r_x r)) (3 + length keys)).
  { destruct (RR q Hq) as (A & B & C & D). fold r in A, B, C, D. unfold lens. rewrite B, C. cbn [Nat.add repeat]. do 3 f_equal. rewrite <- MK, map_length. clear - D.
    revert D. generalize (length (r_x r)). induction (r_o r) as [|kv o IH]; intros n D; [reflexivity|].
    cbn [map length repeat]. rewrite D by (left; reflexivity). f_equal. apply IH. intros u I. apply D. right. exact I. }
  pose proof (add_lens keys q r es _ MK LR) as AL. destruct (HL q) as (c & (a & b & LT) & LE).
  assert (TR : torn_row (length (r_x r) + c) (add_row q r es)) by (exists a, b; rewrite AL, LT, map_app, !map_repeat'; f_equal; f_equal; lia).
  assert (PX : row_prefix (add_row q r es) (add_row q r (fst l))) by (rewrite <- (firstn_skipn k (fst l)), add_app; apply add_prefix).
  exists (length (r_x r) + c)%nat. split; [lia|]. split; [exact TR|]. split.
  - intros NE. specialize (LE NE). rewrite LE, map_repeat' in AL. intros n I. assert (E : length (r_x (add_row q r es)) = (length (r_x r) + c)%nat) by (unfold lens in AL; cbn [Nat.add repeat] in AL; injection AL as A _; exact A).
    rewrite E. rewrite AL in I. apply repeat_spec in I. exact I.
  - split; [exact PX | apply cut_eq; assumption].
Qed.
(** One append in: the x list is longer than the y list. *)
Lemma part_first keys n (es : list (event T)) : part keys n es -> es <> [] -> exists i x, (i < n)%nat /\ firstn 1 es = [AX i x].
Proof.
  intros (e1 & e2 & -> & F & G) NE. destruct F as [|g e (i & x & y & t & vals & Hi & _ & ->) F].
  - destruct G as [->|(e3 & (i & x & y & t & vals & Hi & _ & EG))]; [cbn in NE; congruence|]. cbn [app] in *. destruct e2 as [|ev e2]; [congruence|]. exists i, x. split; [exact Hi|]. unfold rec_events in EG. cbn [app] in EG. injection EG as -> _. reflexivity.
  - exists i, x. split; [exact Hi | reflexivity].
Qed.
End Cut.

Section Session.
Context {T : Type} {N : Num T} {NL : NumLaws T} (G : T -> Prop).
Lemma call_wf lm (P : pobj T) draws o s w : s_walk s = Some w -> s_np s = Z.of_nat (count w) -> shaped (tvars P) w -> wfl (tvars P) (count w) (call_log lm P draws o s).
Proof. intros SW NP SH. destruct o; cbn [call_log]; try apply wfl_ret; [apply wfl_step | apply wfl_target]; assumption. Qed.
Lemma call_refine lm (P : pobj T) draws o s w s' w' : field_ok lm P -> unit_stream G draws -> winv lm P (w_arr (s_wst s)) -> vars_ok P -> s_walk s = Some w -> s_np s = Z.of_nat (count w) -> walk_ok P w ->
  is_run o -> do_op lm P draws o s = Ok s' -> s_walk s' = Some w' ->
  snd (call_log lm P draws o s) = Ok tt /\ forall p, (p < count w)%nat -> row (tvars P) w' p = add_row p (row (tvars P) w p) (fst (call_log lm P draws o s)).
Proof.
  intros FO U WI VO SW NP WO IR H SW'. destruct o; try contradiction; cbn [do_op call_log] in *.
  - destruct (run_step lm P draws s) as [(w1 & s1)|e] eqn:E; [|discriminate]. injection H as <-.
    destruct (run_step_spec lm P draws s w w1 s1 FO U WI VO SW NP WO E) as (A & _). assert (w1 = w') by congruence. subst w1. eapply step_refine; eassumption.
  - destruct (run_target lm P draws target max_iter s) as [((w1 & wl) & s1)|e] eqn:E; [|discriminate]. injection H as <-.
    destruct (run_target_spec lm P draws target max_iter s w w1 wl s1 FO U WI VO SW NP WO E) as (_ & A & _). assert (w1 = w') by congruence. subst w1. eapply target_refine; try eassumption; apply WO.
Qed.
End Session.

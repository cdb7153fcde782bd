(** generate_particles as a call: a rejected request leaves the walk data alone, an accepted one does what
    [generate_particles] says. *)
From Coq Require Import ZArith Bool String List Lia.
From Verif Require Import Num Py Walker ParticleTrack Gen.
Import ListNotations.
Open Scope Z_scope.

Section S.
Context {T : Type} {N : Num T}.

(** Everything but the generator position is the same. *)
Definition same_data (s s' : psim T) : Prop :=
  s_np s' = s_np s /\ s_walk s' = s_walk s /\ w_arr (s_wst s') = w_arr (s_wst s).
Lemma same_data_refl s : same_data s s.
Proof. repeat split. Qed.
Lemma same_data_trans s1 s2 s3 : same_data s1 s2 -> same_data s2 s3 -> same_data s1 s3.
Proof. intros (A & B & C) (D & E & F). repeat split; congruence. Qed.

Definition at_pos (s : psim T) (n : nat) : psim T :=
  {| s_np := s_np s; s_walk := s_walk s; s_wst := {| w_arr := w_arr (s_wst s); w_pos := n |} |}.
Lemma at_pos_same s n : same_data s (at_pos s n).
Proof. repeat split. Qed.
Lemma at_pos_id s : at_pos s (w_pos (s_wst s)) = s.
Proof. destruct s as [a b [c d]]. reflexivity. Qed.
Lemma at_pos_at s n m : at_pos (at_pos s n) m = at_pos s m.
Proof. reflexivity. Qed.

Lemma call_pick_seeds_spec draws locs n : forall s,
  (exists xs, pick_seeds draws locs n (w_pos (s_wst s)) = Ok (xs, (w_pos (s_wst s) + n)%nat) /\
              call_pick_seeds draws locs n s = (Ok xs, at_pos s (w_pos (s_wst s) + n))) \/
  (exists e s', pick_seeds draws locs n (w_pos (s_wst s)) = Err e /\ call_pick_seeds draws locs n s = (Err e, s') /\ same_data s s').
Proof.
  induction n as [|n IH]; intros s.
  - left. exists []. cbn [pick_seeds call_pick_seeds]. rewrite Nat.add_0_r. split; [reflexivity|]. unfold ret. rewrite at_pos_id. reflexivity.
  - cbn [pick_seeds call_pick_seeds]. unfold seqc at 1, call_pick_seed. destruct locs as [|l0 ls].
    + right. exists IndexError, s. cbn. split; [reflexivity|]. split; [reflexivity | apply same_data_refl].
    + unfold seqc at 1, draw. set (s1 := {| s_np := s_np s; s_walk := _; s_wst := _ |}).
      assert (E1 : s1 = at_pos s (S (w_pos (s_wst s)))) by reflexivity. clearbody s1. subst s1. unfold pure.
      destruct (random_pick_seed (l0 :: ls) (draws (w_pos (s_wst s)))) as [x|e] eqn:Ex.
      * cbn [bind]. specialize (IH (at_pos s (S (w_pos (s_wst s))))). cbn [at_pos s_wst w_pos] in IH.
        destruct IH as [(xs & P1 & C1)|(e & s' & P1 & C1 & SD)].
        -- left. exists (x :: xs). rewrite P1. cbn [bind]. split; [rewrite Nat.add_succ_comm; reflexivity|].
           unfold seqc. unfold at_pos in C1 |- *. cbn [s_np s_walk s_wst w_arr w_pos] in C1 |- *.
           rewrite C1. unfold ret. rewrite Nat.add_succ_comm. reflexivity.
        -- right. exists e, s'. rewrite P1. cbn [bind]. split; [reflexivity|]. unfold seqc. rewrite Ex. unfold at_pos in C1 |- *. cbn [s_np s_walk s_wst w_arr w_pos] in C1 |- *.
           rewrite C1. split; [reflexivity|]. exact SD.
      * right. exists e, (at_pos s (S (w_pos (s_wst s)))). cbn [bind]. split; [reflexivity|]. split; [unfold seqc; rewrite Ex; reflexivity | apply at_pos_same].
Qed.

Lemma call_generate_spec (P : pobj T) draws q prev s :
  match call_generate P draws q prev s with
  | (Ok _, s') => exists np xl yl t0 m, gen_input_check q = Ok (np, xl, yl, t0, m) /\
                  generate_particles P draws np xl yl t0 m prev s = Ok s'
  | (Err e, s') => same_data s s' /\
                  (gen_input_check q = Err e \/
                   exists np xl yl t0 m, gen_input_check q = Ok (np, xl, yl, t0, m) /\
                   generate_particles P draws np xl yl t0 m prev s = Err e)
  end.
Proof.
  unfold call_generate. unfold seqc at 1, pure at 1.
  destruct (gen_input_check q) as [((((np & xl) & yl) & t0) & m)|e] eqn:EC; [|split; [apply same_data_refl | left; reflexivity]].
  (* the common part after the seeds are known *)
  assert (REST : forall xs ys n,
    match (seqc (pure (mapM (fun i => (x <- py_nth xs i ;; Ok [x])%res) (zrange 0 np))) (fun new_x =>
      seqc (pure (mapM (fun i => (y <- py_nth ys i ;; Ok [y])%res) (zrange 0 np))) (fun new_y =>
      seqc (pure (start_vars P (o_vars P) (combine xs ys) [])) (fun ov =>
      seqc get_walk (fun stored =>
      let w0 := {| xinds := new_x; yinds := new_y; times := repeat [t0] (Z.to_nat np); opts := ov |} in
      let w1 := match stored with Some w => merge_walk w w0 | None => w0 end in
      let w2 := match prev with Some w => merge_walk w w1 | None => w1 end in
      seqc (set_np (Z.of_nat (length (xinds w2)))) (fun _ => set_walk w2)))))) (at_pos s n),
      (new_x <- mapM (fun i => x <- py_nth xs i ;; Ok [x]) (zrange 0 np) ;;
       new_y <- mapM (fun i => y <- py_nth ys i ;; Ok [y]) (zrange 0 np) ;;
       ov <- start_vars P (o_vars P) (combine xs ys) [] ;;
       let w0 := {| xinds := new_x; yinds := new_y; times := repeat [t0] (Z.to_nat np); opts := ov |} in
       let w1 := match s_walk s with Some w => merge_walk w w0 | None => w0 end in
       let w2 := match prev with Some w => merge_walk w w1 | None => w1 end in
       Ok {| s_np := Z.of_nat (length (xinds w2)); s_walk := Some w2;
             s_wst := {| w_arr := w_arr (s_wst s); w_pos := n |} |})%res with
    | (Ok _, s'), r => r = Ok s'
    | (Err e, s'), r => r = Err e /\ same_data s s'
    end).
  { intros xs ys n. unfold seqc, pure, get_walk, set_np, set_walk.
    destruct (mapM (fun i => x <- py_nth xs i ;; Ok [x]) (zrange 0 np)) as [new_x|e] eqn:E1; [|cbn; split; [reflexivity | apply at_pos_same]].
    destruct (mapM (fun i => y <- py_nth ys i ;; Ok [y]) (zrange 0 np)) as [new_y|e] eqn:E2; [|cbn; split; [reflexivity | apply at_pos_same]].
    destruct (start_vars P (o_vars P) (combine xs ys) []) as [ov|e] eqn:E3; [|cbn; split; [reflexivity | apply at_pos_same]].
    cbn [bind s_np s_walk s_wst at_pos]. reflexivity. }
  unfold seqc at 1. destruct m.
  - unfold seqc at 1. destruct (call_pick_seeds_spec draws xl (Z.to_nat np) s) as [(xs & P1 & C1)|(e & s' & P1 & C1 & SD)]; rewrite C1.
    + unfold seqc at 1. set (s1 := at_pos s (w_pos (s_wst s) + Z.to_nat np)%nat).
      destruct (call_pick_seeds_spec draws yl (Z.to_nat np) s1) as [(ys & P2 & C2)|(e & s' & P2 & C2 & SD)]; rewrite C2.
      * unfold ret. unfold s1. rewrite at_pos_at. specialize (REST xs ys (w_pos (s_wst s1) + Z.to_nat np)%nat). cbv beta in REST |- *.
        match type of REST with (match ?c with _ => _ end) => match goal with |- (match ?d with _ => _ end) => change d with c end; destruct c as [[u|e] s'] end; cbv beta iota in REST |- *.
        -- exists np, xl, yl, t0, Random. split; [reflexivity|]. unfold generate_particles. rewrite P1. cbn [bind]. 
           unfold s1 in P2, REST. cbn [at_pos s_wst w_pos] in P2, REST. rewrite P2. cbn [bind]. exact REST.
        -- destruct REST as (R1 & R2). split; [exact R2|]. right. exists np, xl, yl, t0, Random. split; [reflexivity|].
           unfold generate_particles. rewrite P1. cbn [bind]. 
           unfold s1 in P2, R1. cbn [at_pos s_wst w_pos] in P2, R1. rewrite P2. cbn [bind]. exact R1.
      * split; [eapply same_data_trans; [apply at_pos_same | exact SD]|]. right. exists np, xl, yl, t0, Random. split; [reflexivity|].
        unfold generate_particles. rewrite P1. cbn [bind]. unfold s1 in P2. cbn [at_pos s_wst w_pos] in P2. rewrite P2. reflexivity.
    + split; [exact SD|]. right. exists np, xl, yl, t0, Random. split; [reflexivity|]. unfold generate_particles. rewrite P1. reflexivity.
  - unfold pure at 1. destruct (exact_seeds np xl yl) as [(xs & ys)|e] eqn:EX.
    + specialize (REST xs ys (w_pos (s_wst s))). rewrite at_pos_id in REST. cbv beta in REST |- *.
      match type of REST with (match ?c with _ => _ end) => match goal with |- (match ?d with _ => _ end) => change d with c end; destruct c as [[u|e] s'] end; cbv beta iota in REST |- *.
      * exists np, xl, yl, t0, Exact. split; [reflexivity|]. unfold generate_particles. rewrite EX. cbn [bind]. exact REST.
      * destruct REST as (R1 & R2). split; [exact R2|]. right. exists np, xl, yl, t0, Exact. split; [reflexivity|].
        unfold generate_particles. rewrite EX. cbn [bind]. exact R1.
    + split; [apply same_data_refl|]. right. exists np, xl, yl, t0, Exact. split; [reflexivity|]. unfold generate_particles. rewrite EX. reflexivity.
Qed.

(** C33 *)
Lemma rejected_changes_nothing (P : pobj T) draws q prev s e s' :
  call_generate P draws q prev s = (Err e, s') -> same_data s s'.
Proof. intros H. pose proof (call_generate_spec P draws q prev s) as G. rewrite H in G. apply G. Qed.
End S.

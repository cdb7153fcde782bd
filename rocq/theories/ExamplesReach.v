(** The concrete set-up of Examples.v reaches a state in which five particles have moved. *)
From Coq Require Import ZArith Bool String List Lia.
From Verif Require Import Num F64 F64Laws Py NumFacts NumMore Walker ParticleTrack SpecWeights SpecPick SpecWalk SpecHist SpecInit SpecMotion
  ProofInit Examples.
Import ListNotations.
Open Scope Z_scope.

Definition any_draw : f64 -> Prop := fun _ => True.
Lemma ex_stream_any : unit_stream any_draw ex_draws.
Proof. intros n. split; [apply ex_unit | exact I]. Qed.

Lemma ex_reached G : reached G ex_lm ex_P ex_draws ex_s.
Proof.
  exists 0%nat, ex_ops. split; [|exact ex_run]. unfold ex_ops, gx_ops.
  assert (SP : forall x y, 1 <= x < 10 -> 1 <= y < 9 -> safe_pos ex_P x y).
  { intros x y Hx Hy. right. change (nrow (o_depth ex_P)) with 10. change (ncol (o_depth ex_P)) with 9. lia. }
  assert (O1 : forall np xl yl t, 0 <= np -> (forall x y, In x xl -> In y yl -> safe_pos ex_P x y) -> op_ok G ex_lm ex_P (OpGen np xl yl t Random None)).
  { intros. split; [split; assumption | exact I]. }
  assert (O2 : forall np xl yl t, 0 <= np -> length yl = length xl -> (forall x y, In (x, y) (combine xl yl) -> safe_pos ex_P x y) -> op_ok G ex_lm ex_P (OpGen np xl yl t Exact None)).
  { intros. split; [split; [assumption | split; assumption] | exact I]. }
  constructor; [apply O1; [lia | intros x y; cbn [In]; intros; apply SP; lia]|].
  constructor; [split; exact I|].
  constructor; [apply O2; [lia | reflexivity | intros x y; cbn [In combine]; intros [H|[]]; injection H as <- <-; apply SP; lia]|].
  constructor; [split; exact I|]. constructor; [split; exact I|]. constructor.
Qed.
Lemma ex_walk : s_walk ex_s = Some ex_w /\ count ex_w = 5%nat.
Proof. destruct ex_facts as (_ & A & B & _). split; [exact A|]. unfold count. rewrite B. reflexivity. Qed.
(** Particle 1 has eight records and moved from (2,5) to (8,5). *)
Lemma ex_row1 : r_x (row (tvars ex_P) ex_w 1) = [2; 2; 3; 4; 5; 6; 7; 8] /\ r_y (row (tvars ex_P) ex_w 1) = [5; 6; 6; 6; 6; 5; 4; 5].
Proof. destruct ex_facts as (_ & _ & A & B & _). split; [unfold row; cbn [r_x]; rewrite A; reflexivity | exact B]. Qed.

Lemma ex_d8 : d8_steps ex_P.
Proof. intros k H. do 9 (destruct k as [|k]; [split; reflexivity|]). lia. Qed.
Lemma ex_times_defined : times_defined ex_lm ex_P.
Proof.
  split.
  { intros k H. assert (C : forallb (fun k => nleb n0 (nmul (nth k (o_dist ex_P) n0) (o_dx ex_P)) && nisfin (nmul (nth k (o_dist ex_P) n0) (o_dx ex_P))) (seq 0 9) = true) by (vm_compute; reflexivity).
    rewrite forallb_forall in C. specialize (C k ltac:(apply in_seq; lia)). apply andb_true_iff in C. exact C. }
  split. { intros i j _. destruct ex_init as (p' & E). apply (init_velocity ex_lm ex_params ex_P p' i j ex_sqrt_ok E). }
  split; [vm_compute; reflexivity|]. split; [vm_compute; reflexivity|]. exact ex_cos_ok.
Qed.

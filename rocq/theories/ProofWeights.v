(** Proofs about make_weight. *)
From Coq Require Import ZArith Bool List Lia.
From Verif Require Import Num Py NumFacts Walker SpecWeights.
Import ListNotations.
Open Scope Z_scope.

Section W.
Context {T : Type} {N : Num T}.

Lemma inside_interior (P : pobj T) i j : inside P i j ->
  interior (nrow (o_depth P)) (ncol (o_depth P)) i j = true /\
  on_border (nrow (o_depth P)) (ncol (o_depth P)) i j = false.
Proof.
  unfold inside, interior, on_border. intros H. split.
  - rewrite !andb_true_iff, !Z.leb_le, !Z.ltb_lt. lia.
  - rewrite !orb_false_iff, !Z.eqb_neq. lia.
Qed.

Lemma weight_border lm (P : pobj T) i j : wf_obj P ->
  on_border (nrow (o_depth P)) (ncol (o_depth P)) i j = true -> weights_of lm P i j = repeat n0 9.
Proof.
  intros (HS & _) B. unfold weights_of, make_weight. cbn [cell clear_borders].
  unfold clear_borders; cbn [cell nrow ncol amap2 mask0 lift2 big_sliding_window tile_domain_array amap].
  unfold mask0, lift2, amap2; cbn [nrow ncol cell].
  unfold big_sliding_window; cbn [nrow ncol]. rewrite B. reflexivity.
Qed.

(** lists of nine as maps over the direction index *)
Lemma map2_map {A B C K} (f : A -> B -> C) (g : K -> A) (h : K -> B) (l : list K) :
  map2 f (map g l) (map h l) = map (fun k => f (g k) (h k)) l.
Proof. induction l; simpl; congruence. Qed.
Lemma repeat_map9 {A} (a : A) : repeat a 9 = map (fun _ => a) (seq 0 9).
Proof. reflexivity. Qed.
Lemma list_map9 {A} (l : list A) d : length l = 9%nat -> l = map (fun k => nth k l d) (seq 0 9).
Proof.
  intros H. destruct (nine_cases _ H) as (d0&d1&d2&d3&d4&d5&d6&d7&d8&->). reflexivity.
Qed.
Lemma window_map9 {A} (r : arr A) z i j :
  interior (nrow r) (ncol r) i j = true ->
  cell (big_sliding_window z r) i j = map (nb i j r) (seq 0 9).
Proof.
  intros I. unfold big_sliding_window; cbn [cell]. rewrite I. cbn [map seq]. unfold nb.
  cbn [row_off col_off nth]. rewrite !Z.add_0_r. reflexivity.
Qed.

(** the 9-vector computed by the code at an interior cell, as a list of spec weights *)
Lemma weight_refines lm (P : pobj T) i j : wf_obj P -> inside P i j ->
  weights_of lm P i j = map (spec_weight lm P i j) (seq 0 9).
Proof.
  intros (HS & Hqx & Hqy & _ & _ & _ & _ & Hct & Ld & Li & Lj & _) Hin.
  destruct (inside_interior P i j Hin) as (I & B).
  destruct HS as (S1 & S2). destruct Hct as (C1 & C2).
  assert (WD : cell (big_sliding_window n0 (o_depth P)) i j = map (nb i j (o_depth P)) (seq 0 9))
    by (apply window_map9; exact I).
  assert (WS : cell (big_sliding_window n0 (o_stage P)) i j = map (nb i j (o_stage P)) (seq 0 9))
    by (apply window_map9; rewrite S1, S2; exact I).
  assert (WC : cell (big_sliding_window 0 (o_ct P)) i j = map (nb i j (o_ct P)) (seq 0 9))
    by (apply window_map9; rewrite C1, C2; exact I).
  pose proof (list_map9 _ n0 Ld) as ED. pose proof (list_map9 _ n0 Li) as EI. pose proof (list_map9 _ n0 Lj) as EJ.
  (* blocked *)
  set (blk := lift2 (fun d c => nleb d (o_dry P) || (c =? 2)) (big_sliding_window n0 (o_depth P)) (big_sliding_window 0 (o_ct P))).
  assert (EB : cell blk i j = map (nb_blocked P i j) (seq 0 9)).
  { unfold blk, lift2, amap2; cbn [cell]. rewrite WD, WC, map2_map. reflexivity. }
  unfold weights_of, make_weight. fold blk. cbv zeta.
  match goal with |- context [mask0 blk (clear_borders (amap _ (lift2 ndiv (lift2 nsub ?a ?b) ?c)))] =>
    set (sfc := mask0 blk (clear_borders (amap (map (fun x => if nleb x n0 then n0 else x)) (lift2 ndiv (lift2 nsub a b) c)))) end.
  match goal with |- context [mask0 blk (clear_borders (amap _ (lift2 ndiv (lift2 nadd ?a ?b) ?c)))] =>
    set (int := mask0 blk (clear_borders (amap (map (fun x => if nleb x n0 then n0 else x)) (lift2 ndiv (lift2 nadd a b) c)))) end.
  assert (ES : cell sfc i j = map (slope P i j) (seq 0 9)).
  { unfold sfc, mask0, lift2, clear_borders, amap, amap2, tile_domain_array, tile_local_array; cbn [cell nrow ncol].
    fold (big_sliding_window n0 (o_stage P)). rewrite S1, S2, B, WS, EB, ED, repeat_map9.
    rewrite !map2_map, map_map, map2_map. apply map_ext. intros k. reflexivity. }
  assert (ET : cell int i j = map (inertia P i j) (seq 0 9)).
  { unfold int, mask0, lift2, clear_borders, amap, amap2, tile_domain_array, tile_local_array; cbn [cell nrow ncol].
    destruct Hqx as (X1 & X2). rewrite X1, X2, B, EB, ED, EI, EJ, !repeat_map9.
    rewrite !map2_map, map_map, map2_map. apply map_ext. intros k. reflexivity. }
  assert (NS : cell (amap normalize sfc) i j = map (share (slope P i j)) (seq 0 9)).
  { unfold amap; cbn [cell]. rewrite ES. unfold normalize, share. fold (total9 (slope P i j)).
    destruct (nltb n0 (total9 (slope P i j))); [rewrite map_map|]; reflexivity. }
  assert (NT : cell (amap normalize int) i j = map (share (inertia P i j)) (seq 0 9)).
  { unfold amap; cbn [cell]. rewrite ET. unfold normalize, share. fold (total9 (inertia P i j)).
    destruct (nltb n0 (total9 (inertia P i j))); [rewrite map_map|]; reflexivity. }
  set (asfc := amap normalize sfc) in *. set (aint := amap normalize int) in *.
  set (w2 := mask0 blk _).
  assert (E2 : cell w2 i j = map (base_weight lm P i j) (seq 0 9)).
  { unfold w2, mask0, lift2, amap2; cbn [cell]. rewrite NS, NT, WD, EB, !map2_map. reflexivity. }
  unfold clear_borders, amap2; cbn [cell nrow ncol].
  assert (R1 : nrow w2 = nrow (o_depth P)) by reflexivity.
  assert (R2 : ncol w2 = ncol (o_depth P)) by reflexivity.
  rewrite R1, R2, B, E2, WD.
  fold (total9 (base_weight lm P i j)). fold (deepest P i j).
  unfold spec_weight.
  destruct (nleb (total9 (base_weight lm P i j)) n0); cbn [andb].
  - rewrite map2_map. reflexivity.
  - reflexivity.
Qed.
End W.

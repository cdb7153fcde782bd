(** Consequences of the number laws. *)
From Coq Require Import ZArith Bool List Lia.
From Verif Require Import Num Py.
Import ListNotations.
Open Scope Z_scope.

Section Facts.
Context {T : Type} {N : Num T} {NL : NumLaws T}.
Implicit Types x y z : T.

Lemma lt_split x y : nltb x y = true <-> nleb x y = true /\ nleb y x = false.
Proof. rewrite ltb_def, andb_true_iff, negb_true_iff. reflexivity. Qed.
Lemma eq_split x y : neqb x y = true <-> nleb x y = true /\ nleb y x = true.
Proof. rewrite eqb_def, andb_true_iff. reflexivity. Qed.
Lemma lt_le x y : nltb x y = true -> nleb x y = true.
Proof. rewrite lt_split; tauto. Qed.
Lemma lt_not_le x y : nltb x y = true -> nleb y x = false.
Proof. rewrite lt_split; tauto. Qed.
Lemma not_le_lt x y : nisnan x = false -> nisnan y = false -> nleb x y = false -> nltb y x = true.
Proof.
  intros Nx Ny H. apply lt_split. split; [|exact H].
  destruct (leb_total x y Nx Ny) as [C|C]; [congruence|exact C].
Qed.
Lemma not_lt_le x y : nisnan x = false -> nisnan y = false -> nltb x y = false -> nleb y x = true.
Proof.
  intros Nx Ny H. destruct (nleb y x) eqn:E; [reflexivity|].
  rewrite (not_le_lt y x Ny Nx E) in H. discriminate.
Qed.
Lemma le_not_lt x y : nleb x y = true -> nltb y x = false.
Proof. intros H. rewrite ltb_def, H. apply andb_false_r. Qed.
Lemma lt_le_trans x y z : nltb x y = true -> nleb y z = true -> nltb x z = true.
Proof.
  rewrite !lt_split. intros (A & B) C. split; [eapply leb_trans; eassumption|].
  destruct (nleb z x) eqn:E; [|reflexivity].
  rewrite (leb_trans _ _ _ C E) in B. discriminate.
Qed.
Lemma le_lt_trans x y z : nleb x y = true -> nltb y z = true -> nltb x z = true.
Proof.
  rewrite !lt_split. intros A (B & C). split; [eapply leb_trans; eassumption|].
  destruct (nleb z x) eqn:E; [|reflexivity].
  rewrite (leb_trans _ _ _ E A) in C. discriminate.
Qed.
Lemma lt_trans x y z : nltb x y = true -> nltb y z = true -> nltb x z = true.
Proof. intros H1 H2. eapply lt_le_trans; [exact H1 | apply lt_le; exact H2]. Qed.
Lemma lt_irrefl x : nltb x x = false.
Proof. rewrite ltb_def. destruct (nleb x x); reflexivity. Qed.
Lemma lt_nan_l x y : nltb x y = true -> nisnan x = false.
Proof. intros H. eapply leb_nan_l, lt_le, H. Qed.
Lemma lt_nan_r x y : nltb x y = true -> nisnan y = false.
Proof. intros H. eapply leb_nan_r, lt_le, H. Qed.
Lemma eq_le x y : neqb x y = true -> nleb x y = true.
Proof. rewrite eq_split; tauto. Qed.
Lemma eq_ge x y : neqb x y = true -> nleb y x = true.
Proof. rewrite eq_split; tauto. Qed.
Lemma eq_refl' x : nisnan x = false -> neqb x x = true.
Proof. intros. apply eq_split. split; apply leb_refl; assumption. Qed.
Lemma eq_sym x y : neqb x y = true -> neqb y x = true.
Proof. rewrite !eq_split; tauto. Qed.
Lemma eq_trans x y z : neqb x y = true -> neqb y z = true -> neqb x z = true.
Proof. rewrite !eq_split. intros (A & B) (C & D). split; eapply leb_trans; eassumption. Qed.
Lemma lt_not_eq x y : nltb x y = true -> neqb x y = false.
Proof. rewrite lt_split, eqb_def. intros (A & B). rewrite B. apply andb_false_r. Qed.

Lemma n0_notnan : nisnan (n0 : T) = false.
Proof. apply fin_notnan, ofZ_fin. lia. Qed.
Lemma n1_notnan : nisnan (n1 : T) = false.
Proof. apply fin_notnan, ofZ_fin. lia. Qed.
Lemma n0_fin : nisfin (n0 : T) = true.
Proof. apply ofZ_fin. lia. Qed.
Lemma n1_fin : nisfin (n1 : T) = true.
Proof. apply ofZ_fin. lia. Qed.
Lemma n0_lt_n1 : nltb (n0 : T) n1 = true.
Proof. apply ofZ_lt; lia. Qed.
Lemma n0_le_n1 : nleb (n0 : T) n1 = true.
Proof. apply ofZ_le; lia. Qed.
Lemma nn_n0 : nn (n0 : T).
Proof. apply ofZ_le; lia. Qed.
Lemma nn_n1 : nn (n1 : T).
Proof. apply ofZ_le; lia. Qed.
Lemma nn_notnan x : nn x -> nisnan x = false.
Proof. intros H. eapply leb_nan_r, H. Qed.
Lemma nn_notneg x : nn x -> nltb x n0 = false.
Proof. apply le_not_lt. Qed.
Lemma notneg_nn x : nisnan x = false -> nltb x n0 = false -> nn x.
Proof. intros Nx H. apply not_lt_le; [exact Nx | apply n0_notnan | exact H]. Qed.
Lemma notneg_n0 : nltb (n0 : T) n0 = false.
Proof. apply lt_irrefl. Qed.
Lemma nanz_nn x : nltb x n0 = false -> nn (nanz x).
Proof.
  intros H. unfold nanz. destruct (nisnan x) eqn:E; [apply nn_n0 | apply notneg_nn; assumption].
Qed.
Lemma nanz_pos x : nltb n0 (nanz x) = true -> nltb n0 x = true.
Proof. unfold nanz. destruct (nisnan x); [rewrite lt_irrefl; discriminate | auto]. Qed.
Lemma nanz_notnan x : nisnan (nanz x) = false.
Proof. unfold nanz. destruct (nisnan x) eqn:E; [apply n0_notnan | exact E]. Qed.
Lemma nanz_id x : nisnan x = false -> nanz x = x.
Proof. unfold nanz. intros ->. reflexivity. Qed.
Lemma nn_add x y : nn x -> nn y -> nn (nadd x y).
Proof. intros Hx Hy. eapply leb_trans; [exact Hx | apply add_nn_l; assumption]. Qed.
Lemma pos_nn x : nltb n0 x = true -> nn x.
Proof. apply lt_le. Qed.
Lemma nn_zero_or_pos x : nn x -> neqb x n0 = true \/ nltb n0 x = true.
Proof.
  intros H. destruct (nleb x n0) eqn:E.
  - left. apply eq_split. auto.
  - right. apply lt_split. auto.
Qed.
Lemma eq0_not_pos x : neqb x n0 = true -> nltb n0 x = false.
Proof. intros H. apply le_not_lt, eq_le, H. Qed.
Lemma eq_notnan_l x y : neqb x y = true -> nisnan x = false.
Proof. intros H. eapply leb_nan_l, eq_le, H. Qed.

(** nansum of nine numbers without negatives *)
Lemma nine_cases {A} (l : list A) : length l = 9%nat ->
  exists a0 a1 a2 a3 a4 a5 a6 a7 a8, l = [a0;a1;a2;a3;a4;a5;a6;a7;a8].
Proof.
  intros H. do 9 (destruct l as [|? l]; [discriminate|]). destruct l; [|discriminate].
  repeat eexists.
Qed.

Lemma nansum9_nn l : length l = 9%nat -> Forall (fun x => nltb x n0 = false) l -> nn (nansum9 l).
Proof.
  intros H F. destruct (nine_cases l H) as (a0&a1&a2&a3&a4&a5&a6&a7&a8&->).
  repeat match goal with H : Forall _ (_ :: _) |- _ => apply Forall_cons_iff in H; destruct H end.
  unfold nansum9; simpl. repeat apply nn_add; apply nanz_nn; assumption.
Qed.

Lemma nansum9_zero l : length l = 9%nat -> Forall (fun x => neqb (nanz x) n0 = true) l ->
  neqb (nansum9 l) n0 = true.
Proof.
  intros H F. destruct (nine_cases l H) as (a0&a1&a2&a3&a4&a5&a6&a7&a8&->).
  repeat match goal with H : Forall _ (_ :: _) |- _ => apply Forall_cons_iff in H; destruct H end.
  unfold nansum9; simpl. repeat apply add_zz; assumption.
Qed.

(** each summand is at most the sum *)
Lemma nansum9_ge l x : length l = 9%nat -> Forall (fun x => nltb x n0 = false) l -> In x l ->
  nleb (nanz x) (nansum9 l) = true.
Proof.
  intros H F I. destruct (nine_cases l H) as (a0&a1&a2&a3&a4&a5&a6&a7&a8&->).
  repeat match goal with H : Forall _ (_ :: _) |- _ => apply Forall_cons_iff in H; destruct H end.
  unfold nansum9; cbn [map].
  assert (LT : forall a b c, nn b -> nn c -> nleb a b = true -> nleb a (nadd b c) = true)
    by (intros a b c Hb Hc Hab; eapply leb_trans; [exact Hab | apply add_nn_l; assumption]).
  assert (RT : forall a b c, nn b -> nn c -> nleb a c = true -> nleb a (nadd b c) = true)
    by (intros a b c Hb Hc Hab; eapply leb_trans; [exact Hab | apply add_nn_r; assumption]).
  simpl in I.
  repeat match goal with
  | I : _ \/ _ |- _ => destruct I as [I|I]
  end; try contradiction; subst;
  repeat first
   [ apply leb_refl, nanz_notnan
   | solve [ apply LT; [ repeat apply nn_add; apply nanz_nn; assumption
                       | repeat apply nn_add; apply nanz_nn; assumption
                       | repeat first [apply leb_refl, nanz_notnan
                                      | solve [apply LT; [repeat apply nn_add; apply nanz_nn; assumption | repeat apply nn_add; apply nanz_nn; assumption | apply leb_refl, nanz_notnan ] ]
                                      | solve [apply RT; [repeat apply nn_add; apply nanz_nn; assumption | repeat apply nn_add; apply nanz_nn; assumption | apply leb_refl, nanz_notnan ] ]
                                      | apply LT; [repeat apply nn_add; apply nanz_nn; assumption | repeat apply nn_add; apply nanz_nn; assumption | ]
                                      ] ] ]
   | idtac ].
  all: try solve [
    repeat match goal with
    | |- nleb ?a ?a = true => apply leb_refl, nanz_notnan
    | |- nleb ?a (nadd ?b ?c) = true =>
        match b with context [a] => apply LT | _ => apply RT end;
        [ repeat apply nn_add; apply nanz_nn; assumption
        | repeat apply nn_add; apply nanz_nn; assumption | ]
    end ].
Qed.

Lemma nansum9_pos_exists l : length l = 9%nat -> Forall (fun x => nltb x n0 = false) l ->
  nltb n0 (nansum9 l) = true -> Exists (fun x => nltb n0 x = true) l.
Proof.
  intros H F P.
  destruct (Exists_dec (fun x => nltb n0 x = true) l) as [E|E]; [intros x; destruct (nltb n0 x); auto | exact E |].
  exfalso. apply Forall_Exists_neg in E.
  assert (Z : neqb (nansum9 l) n0 = true).
  { apply nansum9_zero; [exact H|]. rewrite Forall_forall in *. intros x I.
    destruct (nn_zero_or_pos _ (nanz_nn _ (F x I))) as [Q|Q]; [exact Q|].
    exfalso. apply (E x I), nanz_pos, Q. }
  rewrite (eq0_not_pos _ Z) in P. discriminate.
Qed.

(** np.max of NaN-free lists *)
Lemma np_max2_cases x y : nisnan x = false -> nisnan y = false ->
  (np_max2 x y = x \/ np_max2 x y = y) /\ nleb x (np_max2 x y) = true /\ nleb y (np_max2 x y) = true.
Proof.
  intros Nx Ny. unfold np_max2. rewrite Nx, Ny. destruct (nltb x y) eqn:E.
  - split; [auto|]. split; [apply lt_le, E | apply leb_refl, Ny].
  - split; [auto|]. split; [apply leb_refl, Nx | apply not_lt_le; assumption].
Qed.
Lemma fold_max l x : nisnan x = false -> Forall (fun y => nisnan y = false) l ->
  let m := fold_left np_max2 l x in
  (m = x \/ In m l) /\ nleb x m = true /\ Forall (fun y => nleb y m = true) l.
Proof.
  revert x. induction l as [|y l IH]; intros x Nx F; simpl.
  - split; [auto|]. split; [apply leb_refl, Nx | constructor].
  - apply Forall_cons_iff in F as (Ny & F). destruct (np_max2_cases x y Nx Ny) as (C & Lx & Ly).
    assert (Nm : nisnan (np_max2 x y) = false) by (eapply leb_nan_r; exact Lx).
    destruct (IH (np_max2 x y) Nm F) as (A & B & G). split; [|split].
    + destruct A as [A|A]; [|auto]. rewrite A. destruct C as [C|C]; rewrite C; auto.
    + eapply leb_trans; eassumption.
    + constructor; [eapply leb_trans; eassumption | exact G].
Qed.
Lemma np_max_spec l : l <> [] -> Forall (fun y => nisnan y = false) l ->
  In (np_max l) l /\ Forall (fun y => nleb y (np_max l) = true) l.
Proof.
  destruct l as [|x l]; [congruence|]. intros _ F. apply Forall_cons_iff in F as (Nx & F).
  destruct (fold_max l x Nx F) as (A & B & C). unfold np_max. split.
  - destruct A as [->|A]; [left; reflexivity | right; exact A].
  - constructor; assumption.
Qed.

End Facts.

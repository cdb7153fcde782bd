(** Specification of the routing weights, written per cell and per direction (no vectorised code).
    Sources: docs/source/background and the comments of dorado/lagrangian_walker.py:149-220. *)
From Coq Require Import ZArith Bool List.
From Verif Require Import Num Py Walker.
Import ListNotations.
Open Scope Z_scope.

(** The nine directions in the order NW N NE W . E SW S SE: row and column offset of the neighbour. *)
Definition row_off (k : nat) : Z := nth k [-1; -1; -1; 0; 0; 0; 1; 1; 1] 0.
Definition col_off (k : nat) : Z := nth k [-1; 0; 1; -1; 0; 1; -1; 0; 1] 0.

Section Spec.
Context {T : Type} {N : Num T}.

(** A well-formed object: one common grid shape, 3x3 tables. *)
Definition wf_obj (P : pobj T) : Prop :=
  let L := nrow (o_depth P) in let W := ncol (o_depth P) in
  let sh {A} (a : arr A) := nrow a = L /\ ncol a = W in
  sh (o_stage P) /\ sh (o_qx P) /\ sh (o_qy P) /\ sh (o_u P) /\ sh (o_v P) /\ sh (o_vel P) /\ sh (o_vang P) /\
  sh (o_ct P) /\
  length (o_dist P) = 9%nat /\ length (o_ivec P) = 9%nat /\ length (o_jvec P) = 9%nat /\
  length (o_iwalk P) = 9%nat /\ length (o_jwalk P) = 9%nat /\ length (o_angles P) = 9%nat /\
  (forall roi, o_roi P = Some roi -> sh roi).

(** Cells of the grid, and cells that are not on its outer ring. *)
Definition in_grid (P : pobj T) (i j : Z) : Prop := 0 <= i < nrow (o_depth P) /\ 0 <= j < ncol (o_depth P).
Definition inside (P : pobj T) (i j : Z) : Prop :=
  1 <= i < nrow (o_depth P) - 1 /\ 1 <= j < ncol (o_depth P) - 1.

Variable lm : Libm T.
Variable P : pobj T.
Variables i j : Z.

(** value of a grid at the k-th neighbour *)
Definition nb {A} (a : arr A) (k : nat) : A := cell a (i + row_off k) (j + col_off k).
(** the k-th neighbour is too shallow or land *)
Definition nb_blocked (k : nat) : bool := nleb (nb (o_depth P) k) (o_dry P) || (nb (o_ct P) k =? 2).
Definition pospart (x : T) : T := if nleb x n0 then n0 else x.
(** water-surface slope towards the k-th neighbour, discharge projected on the k-th direction *)
Definition slope (k : nat) : T :=
  if nb_blocked k then n0
  else pospart (ndiv (nsub (cell (o_stage P) i j) (nb (o_stage P) k)) (nth k (o_dist P) n0)).
Definition inertia (k : nat) : T :=
  if nb_blocked k then n0
  else pospart (ndiv (nadd (nmul (cell (o_qx P) i j) (nth k (o_jvec P) n0))
                           (nmul (cell (o_qy P) i j) (nth k (o_ivec P) n0))) (nth k (o_dist P) n0)).
(** division by the (NaN-ignoring) sum over the nine directions, if that is positive *)
Definition total9 (f : nat -> T) : T := nansum9 (map f (seq 0 9)).
Definition share (f : nat -> T) (k : nat) : T := if nltb n0 (total9 f) then ndiv (f k) (total9 f) else f k.
(** routing weight before the dead-end rule *)
Definition base_weight (k : nat) : T :=
  if nb_blocked k then n0
  else nmul (m_pow lm (nb (o_depth P) k) (o_theta P))
            (nadd (nmul (o_gamma P) (share slope k)) (nmul (nsub n1 (o_gamma P)) (share inertia k))).
(** largest depth among the nine cells *)
Definition deepest : T := np_max (map (nb (o_depth P)) (seq 0 9)).
(** routing weight: at a dead end the deepest cells get weight one *)
Definition spec_weight (k : nat) : T :=
  if nleb (total9 base_weight) n0 && neqb (nb (o_depth P) k) deepest then n1 else base_weight k.

(** A cell is a dead end if no direction has a positive weight. *)
Definition dead_end : Prop := forall k, (k < 9)%nat -> nltb n0 (base_weight k) = false.
End Spec.

(** The stored weight vector of a cell after construction. *)
Definition weights_of {T} {N : Num T} (lm : Libm T) (P : pobj T) (i j : Z) : list T := cell (make_weight lm P) i j.

(** Conditions on the inputs of the weight computation, in plain words:
    gamma lies in [0,1]; the power function is not negative on depths above dry_depth; depth has no NaN. *)
Definition gamma_ok {T} {N : Num T} (P : pobj T) : Prop := nleb n0 (o_gamma P) = true /\ nleb (o_gamma P) n1 = true.
Definition pow_ok {T} {N : Num T} (lm : Libm T) (P : pobj T) : Prop :=
  forall d, nleb d (o_dry P) = false -> nltb (m_pow lm d (o_theta P)) n0 = false.
Definition depth_clean {T} {N : Num T} (P : pobj T) : Prop :=
  forall i j, in_grid P i j -> nisnan (cell (o_depth P) i j) = false.
(** a cell of the outer ring *)
Definition on_ring {T} (P : pobj T) (i j : Z) : Prop := in_grid P i j /\ ~ inside P i j.

(** The same object with other discharge, stage or depth arrays. *)
Definition set_q {T} (P : pobj T) (qx qy : arr T) : pobj T :=
  {| o_dx := o_dx P; o_depth := o_depth P; o_stage := o_stage P; o_qx := qx; o_qy := qy; o_u := o_u P; o_v := o_v P;
     o_vel := o_vel P; o_vang := o_vang P; o_theta := o_theta P; o_gamma := o_gamma P; o_diff := o_diff P;
     o_dry := o_dry P; o_ct := o_ct P; o_steep := o_steep P; o_dist := o_dist P; o_ivec := o_ivec P; o_jvec := o_jvec P;
     o_iwalk := o_iwalk P; o_jwalk := o_jwalk P; o_angles := o_angles P; o_roi := o_roi P; o_vars := o_vars P |}.
Definition set_stage {T} (P : pobj T) (stage : arr T) : pobj T :=
  {| o_dx := o_dx P; o_depth := o_depth P; o_stage := stage; o_qx := o_qx P; o_qy := o_qy P; o_u := o_u P; o_v := o_v P;
     o_vel := o_vel P; o_vang := o_vang P; o_theta := o_theta P; o_gamma := o_gamma P; o_diff := o_diff P;
     o_dry := o_dry P; o_ct := o_ct P; o_steep := o_steep P; o_dist := o_dist P; o_ivec := o_ivec P; o_jvec := o_jvec P;
     o_iwalk := o_iwalk P; o_jwalk := o_jwalk P; o_angles := o_angles P; o_roi := o_roi P; o_vars := o_vars P |}.
Definition set_depth {T} (P : pobj T) (depth : arr T) : pobj T :=
  {| o_dx := o_dx P; o_depth := depth; o_stage := o_stage P; o_qx := o_qx P; o_qy := o_qy P; o_u := o_u P; o_v := o_v P;
     o_vel := o_vel P; o_vang := o_vang P; o_theta := o_theta P; o_gamma := o_gamma P; o_diff := o_diff P;
     o_dry := o_dry P; o_ct := o_ct P; o_steep := o_steep P; o_dist := o_dist P; o_ivec := o_ivec P; o_jvec := o_jvec P;
     o_iwalk := o_iwalk P; o_jwalk := o_jwalk P; o_angles := o_angles P; o_roi := o_roi P; o_vars := o_vars P |}.
(** discharge scaled by a factor *)
Definition scale {T} {N : Num T} (c : T) (a : arr T) : arr T := Arr (nrow a) (ncol a) (fun i j => nmul c (cell a i j)).
(** all nine entries of a component, and their sum, are finite numbers *)
Definition finite9 {T} {N : Num T} (f : nat -> T) : Prop :=
  (forall k, (k < 9)%nat -> nisfin (f k) = true) /\ nisfin (total9 f) = true.
Definition same_shape {A B} (a : arr A) (b : arr B) : Prop := nrow a = nrow b /\ ncol a = ncol b.

(** Model of dorado/lagrangian_walker.py (cited as lw). *)
From Coq Require Import ZArith Bool String List Lia.
From Verif Require Import Num Py.
Import ListNotations.
Open Scope Z_scope.
Open Scope res_scope.

Section Walker.
Context {T : Type} {N : Num T}.

(** Fields of a [Particles] object that the walker reads (dorado/particle_track.py:131-443).  3x3 tables are
    stored flattened in C order, as [.flat] / [.ravel()] present them.
    Simplifications: cell_type and roi_grid hold integers; all arrays have the shape of the depth array. *)
Record pobj := {
  o_dx : T;
  o_depth : arr T; o_stage : arr T;
  o_qx : arr T; o_qy : arr T; o_u : arr T; o_v : arr T;
  o_vel : arr T; o_vang : arr T;
  o_theta : T; o_gamma : T; o_diff : T; o_dry : T;
  o_ct : arr Z;
  o_steep : bool;
  o_dist : list T; o_ivec : list T; o_jvec : list T;
  o_iwalk : list Z; o_jwalk : list Z;
  o_angles : list T;
  o_roi : option (arr Z);
  o_vars : list string            (* particle_variables, after the constructor's update *)
}.

(** Mutable state shared by all walker calls: Particles.weight and the generator position. *)
Record wst := { w_arr : arr (list T); w_pos : nat }.

(** lw:15-39 random_pick_seed, called with probs=None, so probs is an integer array of ones and cutoffs is
    1, 2, ..., n.  cutoffs[-1] on an empty list is an IndexError. *)
Definition random_pick_seed {A} (choices : list A) (u : T) : res A :=
  let cutoffs := map (fun k => nofZ (Z.of_nat k)) (seq 1 (length choices)) in
  top <- py_last cutoffs ;;
  x <- np_uniform0 top u ;;
  py_nth choices (Z.of_nat (searchsorted cutoffs x)).

(** lw:42-77 big_sliding_window: zeros of shape (L, W, 9); the interior [1:-1, 1:-1] of plane k is the raster
    shifted by the k-th neighbour offset, in the order NW N NE W 0 E SW S SE. *)
Definition interior (L W i j : Z) : bool := (1 <=? i) && (i <? L - 1) && (1 <=? j) && (j <? W - 1).
Definition big_sliding_window {A} (zero : A) (r : arr A) : arr (list A) :=
  Arr (nrow r) (ncol r) (fun i j =>
    if interior (nrow r) (ncol r) i j then
      [cell r (i-1) (j-1); cell r (i-1) j; cell r (i-1) (j+1);
       cell r i     (j-1); cell r i     j; cell r i     (j+1);
       cell r (i+1) (j-1); cell r (i+1) j; cell r (i+1) (j+1)]
    else repeat zero 9).

(** lw:80-104 tile_local_array: np.tile(local.ravel(), (L, W, 1)). *)
Definition tile_local_array {A} (local : list A) (L W : Z) : arr (list A) := Arr L W (fun _ _ => local).

(** lw:107-122 tile_domain_array: np.repeat(raster[:, :, newaxis], 9, axis=2). *)
Definition tile_domain_array {A} (r : arr A) : arr (list A) :=
  Arr (nrow r) (ncol r) (fun i j => repeat (cell r i j) 9).

(** lw:125-146 clear_borders: first/last row and column set to 0. (in place) *)
Definition on_border (L W i j : Z) : bool := (i =? 0) || (j =? 0) || (i =? L - 1) || (j =? W - 1).
Definition clear_borders (a : arr (list T)) : arr (list T) :=
  Arr (nrow a) (ncol a) (fun i j => if on_border (nrow a) (ncol a) i j then repeat n0 9 else cell a i j).

(** Elementwise operations along the third axis. *)
Fixpoint map2 {A B C} (f : A -> B -> C) (l : list A) (m : list B) : list C :=
  match l, m with a :: l', b :: m' => f a b :: map2 f l' m' | _, _ => [] end.
Definition lift2 {A B C} (f : A -> B -> C) := amap2 (map2 f).
(** a[mask] = 0 *)
Definition mask0 (mask : arr (list bool)) (a : arr (list T)) : arr (list T) :=
  lift2 (fun (m : bool) x => if m then n0 else x) mask a.

(** lw:191-198 normalisation: where the nansum along axis 2 is positive, divide by it. *)
Definition normalize (w : list T) : list T :=
  let s := nansum9 w in
  if nltb n0 s then map (fun x => ndiv x s) w else w.

(** lw:149-220 make_weight: the weight array stored as Particles.weight. *)
Definition make_weight (lm : Libm T) (P : pobj) : arr (list T) :=
  let L := nrow (o_stage P) in
  let W := ncol (o_stage P) in
  (* 169-174 surface slope *)
  let sfc0 := lift2 nsub (tile_domain_array (o_stage P)) (big_sliding_window n0 (o_stage P)) in
  let sfc1 := lift2 ndiv sfc0 (tile_local_array (o_dist P) L W) in
  let sfc2 := clear_borders (amap (map (fun x => if nleb x n0 then n0 else x)) sfc1) in
  (* 177-181 inertia *)
  let int0 := lift2 nadd (lift2 nmul (tile_domain_array (o_qx P)) (tile_local_array (o_jvec P) L W))
                         (lift2 nmul (tile_domain_array (o_qy P)) (tile_local_array (o_ivec P) L W)) in
  let int1 := lift2 ndiv int0 (tile_local_array (o_dist P) L W) in
  let int2 := clear_borders (amap (map (fun x => if nleb x n0 then n0 else x)) int1) in
  (* 184-189 dry and land neighbours *)
  let depth_ind := big_sliding_window n0 (o_depth P) in
  let ct_ind := big_sliding_window 0 (o_ct P) in
  let blocked := lift2 (fun d c => nleb d (o_dry P) || (c =? 2)) depth_ind ct_ind in
  let sfc3 := mask0 blocked sfc2 in
  let int3 := mask0 blocked int2 in
  (* 192-198 normalise *)
  let sfc4 := amap normalize sfc3 in
  let int4 := amap normalize int3 in
  (* 201-205 combine, weight by depth ** theta *)
  let w0 := lift2 (fun a b => nadd (nmul (o_gamma P) a) (nmul (nsub n1 (o_gamma P)) b)) sfc4 int4 in
  let w1 := lift2 (fun d w => nmul (m_pow lm d (o_theta P)) w) depth_ind w0 in
  (* 208 dry and land neighbours again *)
  let w2 := mask0 blocked w1 in
  (* 211-214 dead ends: the deepest cells get weight 1 *)
  let w3 := amap2 (fun w d =>
                     if nleb (nansum9 w) n0
                     then map2 (fun x di => if neqb di (np_max d) then n1 else x) w d
                     else w) w2 depth_ind in
  (* 217 *)
  clear_borders w3.

(** lw:409-432 random_pick: returns the index and the in-place edited weights. *)
Definition random_pick (probs : list T) (u : T) : res (nat * list T) :=
  let probs' := map nanz probs in
  let cutoffs := cumsum probs' in
  top <- py_last cutoffs ;;
  x <- np_uniform0 top u ;;
  Ok (searchsorted cutoffs x, probs').

(** lw:435-467 steep_descent. *)
Definition steep_prune (probs : list T) : list T :=
  let mx := np_nanmax probs in
  let p1 := upd_nth 4 n0 probs in
  let p2 := map (fun p => if nltb p mx then n0 else p) p1 in
  map nanz p2.
Definition steep_descent (probs : list T) (u : T) : res (nat * list T) :=
  let probs' := steep_prune probs in
  let cutoffs := cumsum probs' in
  top <- py_last cutoffs ;;
  x <- np_uniform0 top u ;;
  Ok (searchsorted cutoffs x, probs').

(** Writing back the edited view Particles.weight[i, j, :]. *)
Definition set_cell {A} (a : arr A) (i j : Z) (v : A) : arr A :=
  Arr (nrow a) (ncol a) (fun i' j' => if (i' =? i) && (j' =? j) then v else cell a i' j').

(** lw:223-250 get_weight: picks from the weight vector of the cell (NumPy indexing, so negative indices
    wrap); one draw of the generator; the vector is edited in place. *)
Definition get_weight (P : pobj) (draws : nat -> T) (ind : Z * Z) (s : wst) : res (nat * wst) :=
  let a := w_arr s in
  match norm_ix (nrow a) (fst ind), norm_ix (ncol a) (snd ind) with
  | Some i, Some j =>
      '(k, v) <- (if o_steep P then steep_descent else random_pick) (cell a i j) (draws (w_pos s)) ;;
      Ok (k, {| w_arr := set_cell a i j v; w_pos := S (w_pos s) |})
  | _, _ => Err IndexError
  end.

(** lw:253-282 calculate_new_ind. *)
Definition calculate_new_ind (ind : Z * Z) (new_cell : nat) (iwalk jwalk : list Z) : res (Z * Z) :=
  dj <- py_nth jwalk (Z.of_nat new_cell) ;;
  di <- py_nth iwalk (Z.of_nat new_cell) ;;
  Ok (fst ind + dj, snd ind + di).

(** lw:285-311 step_update. *)
Definition step_update (new_cell : nat) (distances : list T) (dx : T) : res T :=
  d <- py_nth distances (Z.of_nat new_cell) ;; Ok (nmul d dx).

Definition pair_eqb (a b : Z * Z) : bool := (fst a =? fst b) && (snd a =? snd b).

(** lw:314-366 calc_travel_times; the generator is used only for a real move with diff_coeff > 0. *)
Definition calc_travel_times (lm : Libm T) (P : pobj) (draws : nat -> T)
    (new_cell : nat) (ind new_ind : Z * Z) (dist : T) (pos : nat) : res (T * nat) :=
  if negb (pair_eqb ind new_ind) then
    old_vel <- np_get (o_vel P) (fst ind) (snd ind) ;;
    new_vel <- np_get (o_vel P) (fst new_ind) (snd new_ind) ;;
    let '(diff, pos') := if nltb n0 (o_diff P)
                         then (nmul (nsub nhalf (draws pos)) (o_diff P), S pos)
                         else (n0, pos) in
    ang <- py_nth (o_angles P) (Z.of_nat new_cell) ;;
    vang <- np_get (o_vang P) (fst ind) (snd ind) ;;
    let projected := nmul dist (py_max n0 (m_cos lm (nsub ang vang))) in
    Ok (nmul (nmul (nmul nhalf projected) (nadd (ndiv n1 old_vel) (ndiv n1 new_vel))) (nadd n1 diff), pos')
  else Ok (n0, pos).

(** lw:399-404, particle_track.py:738-741: "-1 in cell_type[x-1:x+2, y-1:y+2]". *)
Definition near_edge (ct : arr Z) (x y : Z) : bool := in_slice (-1) ct (x - 1) (x + 2) (y - 1) (y + 2).

(** lw:369-406 check_for_boundary. *)
Definition check_for_boundary (new_inds current_inds : list (Z * Z)) (ct : arr Z) : list (Z * Z) :=
  map2 (fun new cur => if near_edge ct (fst cur) (snd cur) then cur else new) new_inds current_inds.

(** particle_track.py:421-428 available_particle_vars. *)
Definition avail_vars (P : pobj) : list (string * arr T) :=
  [("depth", o_depth P); ("stage", o_stage P); ("qx", o_qx P); ("qy", o_qy P); ("u", o_u P); ("v", o_v P)]%string.

(** lw:539 / particle_track.py:565 the roi flag of a cell: 1 if ROI[x, y] == 1 else 0. *)
Definition roi_flag_at (roi : arr Z) (x y : Z) : res (option T) :=
  r <- np_get roi x y ;; Ok (Some (if r =? 1 then n1 else n0)).
Definition grid_at (g : arr T) (x y : Z) : res (option T) := v <- np_get g x y ;; Ok (Some v).

(** lw:535-545: the dictionary of optional outputs.  [vars] are the keys of start_optional. *)
Fixpoint optional_outputs (P : pobj) (vars : list string) (new_inds : list (Z * Z))
    (acc : list (string * list (option T))) : res (list (string * list (option T))) :=
  match vars with
  | [] => Ok acc
  | var :: rest =>
      if dmem var acc then optional_outputs P rest new_inds acc
      else match dget var (avail_vars P) with
           | Some g => vs <- mapM (fun xy => grid_at g (fst xy) (snd xy)) new_inds ;;
                       optional_outputs P rest new_inds (acc ++ [(var, vs)])
           | None => optional_outputs P rest new_inds acc
           end
  end.

(** lw:470-547 particle_stepper. *)
Definition particle_stepper (lm : Libm T) (P : pobj) (draws : nat -> T)
    (current_inds : list (Z * Z)) (travel_times : list T) (opt_vars : list string) (s : wst)
  : res (list (Z * Z) * list T * list (string * list (option T)) * wst) :=
  (* 507-508 *)
  '(new_cells, s1) <- mapS (fun x s => if pair_eqb x (0, 0) then Ok (4%nat, s) else get_weight P draws x s)
                           current_inds s ;;
  (* 510-513 *)
  new_inds0 <- mapM (fun xy => let '(x, y) := xy in
                               if Nat.eqb y 4 then Ok x else calculate_new_ind x y (o_iwalk P) (o_jwalk P))
                    (combine current_inds new_cells) ;;
  (* 515-517 *)
  dist <- mapM (fun c => step_update c (o_dist P) (o_dx P)) new_cells ;;
  (* 519-520 *)
  let new_inds1 := map2 (fun d ni => if neqb d n0 then (0, 0) else ni) dist new_inds0 in
  (* 522 *)
  let new_inds := check_for_boundary new_inds1 current_inds (o_ct P) in
  (* 527-529 *)
  '(temp, pos') <- mapS (fun w pos => let '(c, (ind, (nind, d))) := w in
                                      calc_travel_times lm P draws c ind nind d pos)
                        (combine new_cells (combine current_inds (combine new_inds dist))) (w_pos s1) ;;
  (* 531-533: travel_times[i] + temp_travel[i] for i in range(len(travel_times)) *)
  times <- mapM (fun it => t2 <- py_nth temp (fst it) ;; Ok (nadd (snd it) t2))
                (combine (zrange 0 (Z.of_nat (length travel_times))) travel_times) ;;
  (* 538-539 *)
  opt0 <- match o_roi P with
          | Some roi => fl <- mapM (fun xy => roi_flag_at roi (fst xy) (snd xy)) new_inds ;;
                        Ok [("roi_flag"%string, fl)]
          | None => Ok []
          end ;;
  opt <- optional_outputs P opt_vars new_inds opt0 ;;
  Ok (new_inds, times, opt, {| w_arr := w_arr s1; w_pos := pos' |}).

End Walker.
Arguments pobj : clear implicits.
Arguments wst : clear implicits.

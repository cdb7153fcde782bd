(** Model of unstruct2grid and flux_proportional_seeding (/repo/dorado/particle_track.py:1197-1394, cited as pt:N). *)
From Coq Require Import ZArith Bool String List.
From Verif Require Import Num Py Walker ParticleTrack PostProc.
Import ListNotations.
Open Scope Z_scope.
Open Scope res_scope.

Section Grid.
Context {T : Type} {N : Num T}.

(** ** unstruct2grid *)

(** Python's max(l) and min(l) on a list of floats: ValueError if empty; the first extreme element wins, comparisons with NaN are false. *)
Definition py_maxl (l : list T) : res T := match l with [] => Err ValueError | a :: r => Ok (fold_left (fun m x => if nltb m x then x else m) r a) end.
Definition py_minl (l : list T) : res T := match l with [] => Err ValueError | a :: r => Ok (fold_left (fun m x => if nltb x m then x else m) r a) end.
(** int(np.ceil(x)+1): ceil of a finite number is integral, and so is the sum with 1 unless it is beyond 2^53, where the sum is rounded
    (not modelled: such a grid does not fit into memory). *)
Definition ceil1 (x : T) : res Z :=
  match nfrac x with
  | Some f => Ok (zceil f + 1)
  | None => if nisnan x then Err ValueError else Err OverflowError
  end.
(** np.linspace(a, b, n): ValueError for n < 0; a + i*step with step = (b-a)/(n-1), the last point is b exactly; n = 1 gives [a]. *)
Definition np_linspace (a b : T) (n : Z) : res (list T) :=
  if n <? 0 then Err ValueError
  else if n =? 1 then Ok [nadd (nmul (nofZ 0) (nsub b a)) a]
  else let step := ndiv (nsub b a) (nofZ (n - 1)) in
       Ok (map (fun i => if i =? n - 1 then b else nadd (nmul (nofZ i) step) a) (zrange 0 n)).
(** pt:1263-1267 (one axis): number of nodes and their coordinates. *)
Definition grid_axis (v : list T) (cs : T) : res (list T) :=
  hi <- py_maxl v ;; lo <- py_minl v ;;
  d <- py_div (nsub hi lo) cs ;;
  n <- ceil1 d ;;
  np_linspace lo (nadd lo (nmul cs (nofZ (n - 1)))) n.

(** External functions: [query k p] = scipy.spatial.cKDTree(inputXY).query(p, k), the k nearest input points as (distance, index) pairs;
    [nearest p] = scipy.interpolate.NearestNDInterpolator on the indices; [inside p] = matplotlib.path.Path(boundary).contains_points. *)
Variable query : Z -> T * T -> list (T * Z).
Variable nearest : T * T -> Z.

(** pt:1315-1320: weights 1/(d + 1e-100) and the weighted mean of data at one grid node.  [tiny] stands for the literal 1.0e-100. *)
Definition idw (tiny : T) (nb : list (T * Z)) (data : list T) : res T :=
  '(num, den) <- foldM (fun st di =>
                   let wt := ndiv n1 (nadd (fst di) tiny) in
                   q <- py_nth data (snd di) ;;
                   Ok (nadd (fst st) (nmul q wt), nadd (snd st) wt)) nb (n0, n0) ;;
  Ok (ndiv num den).
(** pt:1285-1300 and 1310-1329: the value at a node.  k = 1: the datum of the nearest point. *)
Definition node_value (tiny : T) (k : Z) (data : list T) (p : T * T) : res T :=
  if k =? 1 then py_nth data (nearest p) else idw tiny (query k p) data.
(** pt:1321-1323: nodes outside the boundary become NaN. *)
Definition masked (boundary : option (T * T -> bool)) (p : T * T) (v : T) : T :=
  match boundary with Some inside => if inside p then v else nnan | None => v end.
(** np.ix_(mask.any(1), mask.any(0)): the rows and columns with at least one number. *)
Definition keep_rows (a : arr T) : list Z := filter (fun i => existsb (fun j => negb (nisnan (cell a i j))) (zrange 0 (ncol a))) (zrange 0 (nrow a)).
Definition keep_cols (a : arr T) : list Z := filter (fun j => existsb (fun i => negb (nisnan (cell a i j))) (zrange 0 (nrow a))) (zrange 0 (ncol a)).
Definition crop_nan (a : arr T) : arr T :=
  let rs := keep_rows a in let cs := keep_cols a in
  Arr (Z.of_nat (length rs)) (Z.of_nat (length cs)) (fun i j => cell a (nth (Z.to_nat i) rs 0) (nth (Z.to_nat j) cs 0)).

(** pt:1285-1329 interp_func: the grid as a function of the data.  np.flipud: row i of the result is node row ny-1-i. *)
Definition interp_func (tiny : T) (xv yv : list T) (k : Z) (boundary : option (T * T -> bool)) (crop : bool) (data : list T) : res (arr T) :=
  let ny := Z.of_nat (length yv) in let nx := Z.of_nat (length xv) in
  if (ny =? 0) || (nx =? 0) then Err ValueError   (* np.concatenate of an empty grid *)
  else
  rows <- mapM (fun y => mapM (fun x => v <- node_value tiny k data (x, y) ;; Ok (masked boundary (x, y) v)) xv) yv ;;
  let g := Arr ny nx (fun i j => nth (Z.to_nat j) (nth (Z.to_nat (ny - 1 - i)) rows []) nnan) in
  Ok (match boundary with Some _ => if crop then crop_nan g else g | None => g end).

(** pt:1197-1335 unstruct2grid: the second component of the result; the first is [interp_func] on the same axes. *)
Definition grid_axes (coords : list (T * T)) (cs : T) : res (list T * list T) :=
  xv <- grid_axis (map fst coords) cs ;; yv <- grid_axis (map snd coords) cs ;; Ok (xv, yv).
Definition unstruct2grid (tiny : T) (coords : list (T * T)) (quantity : list T) (cs : T) (k : Z)
  (boundary : option (T * T -> bool)) (crop : bool) : res (arr T) :=
  if negb (Nat.eqb (length quantity) (length coords)) then Err ValueError
  else
  '(xv, yv) <- grid_axes coords cs ;;
  interp_func tiny xv yv k boundary crop quantity.

(** ** flux_proportional_seeding *)

(** np.floor(x).astype(int): INT64_MIN for NaN and infinities. *)
Definition floor_int (x : T) : Z := match nfrac x with Some f => zfloor f | None => - 2 ^ 63 end.
Definition zsuml (l : list Z) : Z := fold_right Z.add 0 l.
(** np.argsort, an external function: the indices that sort a list. *)
Variable argsort : list T -> list nat.
(** l[-k:] for k > 0 *)
Definition last_n {A} (k : Z) (l : list A) : list A := skipn (length l - Z.to_nat k) l.
(** a[idx] += 1 with distinct indices *)
Definition inc_at (idx : list nat) (l : list Z) : list Z :=
  map (fun p => if existsb (Nat.eqb (fst p)) idx then snd p + 1 else snd p) (combine (seq 0 (length l)) l).

(** pt:1366-1382: ideal counts.  ndarray.sum adds in NumPy's pairwise order; here left to right. *)
Definition ideal_counts (Q : list T) (n_total : Z) : list T :=
  let qabs := map nabs Q in let s := fold_left nadd qabs n0 in
  map (fun q => nmul (ndiv q s) (nofZ n_total)) qabs.
(** pt:1338-1394 for a one-dimensional Q. *)
Definition flux_proportional_seeding (Q : list T) (n_total num_steps : Z) : res (list Z) :=
  let qabs := map nabs Q in
  if Z.of_nat (length qabs) <? num_steps then Err ValueError
  else if neqb (fold_left nadd qabs n0) n0 then Err ValueError
  else
    let nf := ideal_counts Q n_total in
    let ni := map floor_int nf in
    let rem := map (fun p => nsub (fst p) (nofZ (snd p))) (combine nf ni) in
    let left := n_total - zsuml ni in
    let ni' := if 0 <? left then inc_at (last_n left (argsort rem)) ni else ni in
    if zsuml ni' =? n_total then Ok ni' else Err AssertionError.
(** The same for Q of shape (n, 1), the documented layout.  argsort sorts the last axis, which has length 1, so every index is 0, and
    N_int[add_idx] += 1 increments row 0 once, however often it is named. *)
Definition flux_proportional_seeding_column (Q : list T) (n_total num_steps : Z) : res (list Z) :=
  let qabs := map nabs Q in
  if Z.of_nat (length qabs) <? num_steps then Err ValueError
  else if neqb (fold_left nadd qabs n0) n0 then Err ValueError
  else
    let ni := map floor_int (ideal_counts Q n_total) in
    let left := n_total - zsuml ni in
    let ni' := if 0 <? left then inc_at [0%nat] ni else ni in
    if zsuml ni' =? n_total then Ok ni' else Err AssertionError.
End Grid.

(** Model of /repo/dorado/spatial.py (cited as sp:N): chunked exposure times, percentile maps, outlier filter.  plot_spatial (drawing) is not modelled. *)
From Coq Require Import ZArith Bool String List.
From Verif Require Import Num Py Walker ParticleTrack PostProc Grid.
Import ListNotations.
Open Scope Z_scope.
Open Scope res_scope.

Section Spatial.
Context {T : Type} {N : Num T}.

(** ** Chunks *)
(** sp:53-62, 141-154: the bounds ((r0, r1), (c0, c1)) of the chunks, row by row; the last row and column of chunks extend to the border. *)
Definition chunk_bounds (rows cols k : Z) : res (list ((Z * Z) * (Z * Z))) :=
  if k =? 0 then Err ZeroDivisionError
  else
    let ny := rows / k in let nx := cols / k in
    Ok (flat_map (fun r => map (fun c => ((r * k, if r =? ny - 1 then rows else (r + 1) * k),
                                          (c * k, if c =? nx - 1 then cols else (c + 1) * k))) (zrange 0 nx)) (zrange 0 ny)).

(** sp:73-109 _find_common_indices_info.  First which particles are taken (sp:102-105; both bounds included), then their lists (sp:106-107).
    Simplification: the particles are found first and copied afterwards, which differs only in when an IndexError is raised. *)
Definition starts_in (w : walk T) (xr yr : Z * Z) (idx : Z) : res bool :=
  xs <- py_nth (xinds w) idx ;;
  match xs with
  | [] => Ok false
  | x0 :: _ =>
      ys <- py_nth (yinds w) idx ;;
      match ys with
      | [] => Ok false
      | y0 :: _ => Ok ((fst xr <=? x0) && (x0 <=? snd xr) && (fst yr <=? y0) && (y0 <=? snd yr))
      end
  end.
Definition find_common (w : walk T) (xr yr : Z * Z) : res (walk T) :=
  let idx := zrange 0 (Z.of_nat (length (xinds w))) in
  flags <- mapM (starts_in w xr yr) idx ;;
  let ids := map fst (filter snd (combine idx flags)) in
  xs <- mapM (py_nth (xinds w)) ids ;; ys <- mapM (py_nth (yinds w)) ids ;; ts <- mapM (py_nth (times w)) ids ;;
  os <- mapM (fun kv => l <- mapM (py_nth (snd kv)) ids ;; Ok (fst kv, l)) (opts w) ;;
  Ok {| xinds := xs; yinds := ys; times := ts; opts := os |}.

(** sp:46-51, 139-146: the binary region map; a mask of another shape is an IndexError.  [shape] is elevation.shape. *)
Definition regions (shape : Z * Z) (ct : arr Z) : res (arr Z) :=
  if (nrow ct =? fst shape) && (ncol ct =? snd shape)
  then Ok (Arr (fst shape) (snd shape) (fun i j => if cell ct i j =? 1 then 1 else 0)) else Err IndexError.
(** np.any(in_regions[r0:r1, c0:c1]) *)
Definition any_region (reg : arr Z) (b : (Z * Z) * (Z * Z)) : bool :=
  in_slice 1 reg (fst (fst b)) (snd (fst b)) (fst (snd b)) (snd (snd b)).
(** sp:158-159: the part of the region inside the chunk. *)
Definition region_chunk (reg : arr Z) (b : (Z * Z) * (Z * Z)) : arr Z :=
  Arr (nrow reg) (ncol reg) (fun i j =>
    if (fst (fst b) <=? i) && (i <? snd (fst b)) && (fst (snd b) <=? j) && (j <? snd (snd b)) then cell reg i j else 0).

(** One chunk: None = np.nan. *)
Definition chunk_exposure (w : walk T) (reg : arr Z) (roi : (Z * Z) * (Z * Z) -> arr Z) (b : (Z * Z) * (Z * Z)) : res (option (list T)) :=
  if any_region reg b then cw <- find_common w (fst b) (snd b) ;; e <- exposure_time cw (roi b) ;; Ok (Some (fst e)) else Ok None.
(** sp:18-71 systemwide. *)
Definition systemwide (w : walk T) (shape : Z * Z) (ct : arr Z) (k : Z) : res (list (option (list T))) :=
  reg <- regions shape ct ;; bs <- chunk_bounds (fst shape) (snd shape) k ;; mapM (chunk_exposure w reg (fun _ => reg)) bs.
(** sp:111-167 localized. *)
Definition localized (w : walk T) (shape : Z * Z) (ct : arr Z) (k : Z) : res (list (option (list T))) :=
  bs <- chunk_bounds (fst shape) (snd shape) k ;; reg <- regions shape ct ;; mapM (chunk_exposure w reg (region_chunk reg)) bs.

(** ** Percentiles *)
(** sp:169-175 percentile_from_cdf. *)
Definition percentile_from_cdf (cdf grid : list T) (p : T) : option T := nth_error grid (searchsorted cdf p).
(** percentile / timedelta: an array element divides as NumPy does, the literal np.nan as a Python float. *)
Definition over_timedelta (o : option T) (td : T) : res T :=
  match o with Some x => Ok (ndiv x td) | None => if neqb td n0 then Err ZeroDivisionError else Ok nnan end.
(** len(set(l)) for a list without NaN *)
Fixpoint distinct (l : list T) : nat :=
  match l with [] => O | x :: r => if existsb (neqb x) r then distinct r else S (distinct r) end.
(** scipy.stats.gaussian_kde(sample)(grid), an external function. *)
Variable kde : list T -> list T -> list T.
(** sp:214-235: the three percentiles of one chunk. *)
Definition percentiles : list T := [nhalf; ndec 75 2; ndec 9 1].
Definition chunk_percentiles (td : T) (item : option (list T)) : res (list T) :=
  let nans := [nnan; nnan; nnan] in
  match item with
  | None | Some [] => Ok nans
  | Some l =>
      let f := filter (fun x => negb (neqb x n0) && negb (nisnan x)) l in
      if (distinct f <? 5)%nat then Ok nans
      else
        lo <- py_minl f ;; hi <- py_maxl f ;;
        grid <- np_linspace lo hi 1000 ;;
        let c := cumsum (kde f grid) in
        top <- py_last c ;;
        let cdf := map (fun x => ndiv x top) c in
        mapM (fun p => over_timedelta (percentile_from_cdf cdf grid p) td) percentiles
  end.
(** np.array(l).reshape(shape); ValueError if the sizes differ (a dimension -1, which NumPy would infer, cannot occur for k > 0). *)
Definition reshape (l : list T) (shape : Z * Z) : res (arr T) :=
  if (0 <=? fst shape) && (0 <=? snd shape) && (Z.of_nat (length l) =? fst shape * snd shape)
  then Ok (Arr (fst shape) (snd shape) (fun i j => nth (Z.to_nat (i * snd shape + j)) l nnan)) else Err ValueError.

(** ** Outlier filter *)
(** np.mean and np.median of a non-empty list (np.mean adds in NumPy's pairwise order; here left to right). *)
Definition mean (l : list T) : T := ndiv (fold_left nadd l n0) (nofZ (Z.of_nat (length l))).
Definition median (l : list T) : T :=
  let s := isort l in let n := length s in
  if Nat.even n then ndiv (nadd (nth (n / 2 - 1) s nnan) (nth (n / 2) s nnan)) (nofZ 2) else nth (n / 2) s nnan.
(** sp:275-280 the numbers of the window around (i, j). *)
Definition window (a : arr T) (size i j : Z) : list T :=
  let h := size / 2 in
  let i0 := Z.max (i - h) 0 in let i1 := Z.min (i + h + 1) (nrow a) in
  let j0 := Z.max (j - h) 0 in let j1 := Z.min (j + h + 1) (ncol a) in
  filter (fun x => negb (nisnan x))
    (flat_map (fun p => map (cell a p) (zrange (slice_bound (ncol a) j0) (slice_bound (ncol a) j1)))
              (zrange (slice_bound (nrow a) i0) (slice_bound (nrow a) i1))).
(** sp:284-290 the value at a cell with a non-empty window. *)
Definition mad_value (l : list T) (threshold : T) : T :=
  let m := median l in
  let mad := median (map (fun x => nabs (nsub x m)) l) in
  if neqb mad n0 then m
  else match filter (fun x => nleb (nabs (nsub x m)) (nmul threshold mad)) l with [] => nnan | f => mean f end.
(** sp:249-291 median_absolute_deviation_filter. *)
Definition mad_filter (a : arr T) (size : Z) (threshold : T) : arr T :=
  Arr (nrow a) (ncol a) (fun i j =>
    if nisnan (cell a i j) then nnan
    else match window a size i j with [] => nnan | l => mad_value l threshold end).

(** sp:177-247 compute_thresholds: the three maps. *)
Definition raw_thresholds (data : list (option (list T))) (shape : Z * Z) (td : T) (k : Z) : res (list (arr T)) :=
  ps <- mapM (chunk_percentiles td) data ;;
  if k =? 0 then Err ZeroDivisionError
  else mapM (fun n => reshape (map (fun p => nth n p nnan) ps) (fst shape / k, snd shape / k)) [0%nat; 1%nat; 2%nat].
Definition compute_thresholds (data : list (option (list T))) (shape : Z * Z) (td : T) (k size : Z) (threshold : T) : res (list (arr T)) :=
  raw <- raw_thresholds data shape td k ;; Ok (map (fun a => mad_filter a size threshold) raw).

End Spatial.

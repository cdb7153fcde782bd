(** Model of the post-processing functions of particle_track.py (cited as pt:lines): coordinate conversion,
    exposure time, nourishment area and time, flux-proportional seeding, gridding of unstructured data. *)
From Coq Require Import ZArith Bool String List Lia.
From Verif Require Import Num Py Walker ParticleTrack.
Import ListNotations.
Open Scope Z_scope.
Open Scope res_scope.

(** Threading a state through a for loop. *)
Fixpoint foldM {A S} (f : S -> A -> res S) (l : list A) (s : S) : res S :=
  match l with [] => Ok s | a :: r => s' <- f s a ;; foldM f r s' end.

Section Post.
Context {T : Type} {N : Num T}.

(** Python's float division and round(x) (half to even): ZeroDivisionError for a zero divisor, ValueError for
    NaN, OverflowError for infinities. *)
Definition py_div (a b : T) : res T := if neqb b n0 then Err ZeroDivisionError else Ok (ndiv a b).
Definition py_round (x : T) : res Z :=
  match nfrac x with
  | Some f => Ok (zround_he f)
  | None => if nisnan x then Err ValueError else Err OverflowError
  end.

(** pt:864-909 coord2ind; coordinates and origin are (x, y) pairs of Python floats; [L] is raster_size[0]. *)
Definition coord2ind1 (orig : T * T) (L : Z) (cs : T) (c : T * T) : res (Z * Z) :=
  dy <- py_div (nsub (snd c) (snd orig)) cs ;;
  ry <- py_round dy ;;
  dx <- py_div (nsub (fst c) (fst orig)) cs ;;
  rx <- py_round dx ;;
  Ok (L - ry, rx).
Definition coord2ind (coords : list (T * T)) (orig : T * T) (size : Z * Z) (cs : T) : res (list (Z * Z)) :=
  mapM (coord2ind1 orig (fst size) cs) coords.

(** pt:912-971 ind2coord.  The result stands for the dictionary with the two added fields. *)
Record gwalk := { g_walk : walk T; xcoord : list (list T); ycoord : list (list T) }.
Definition ycoord1 (orig : T * T) (L : Z) (cs : T) (j : Z) : T :=
  nadd (nmul (nsub (nofZ L) (nofZ j)) cs) (snd orig).
Definition xcoord1 (orig : T * T) (cs : T) (j : Z) : T := nadd (nmul (nofZ j) cs) (fst orig).
Definition ind2coord (w : walk T) (orig : T * T) (size : Z * Z) (cs : T) : res gwalk :=
  let np := Z.of_nat (length (xinds w)) in
  both <- mapM (fun i =>
            xs <- py_nth (xinds w) i ;;
            ys <- py_nth (yinds w) i ;;
            Ok (map (xcoord1 orig cs) ys, map (ycoord1 orig (fst size) cs) xs)) (zrange 0 np) ;;
  Ok {| g_walk := w; xcoord := map fst both; ycoord := map snd both |}.

(** pt:974-1053 exposure_time.  Per particle: the accumulated time, the region flag of the previous record, and
    whether the particle was put on the list of particles that are still in the region (pt:1039-1041). *)
Definition et_step (roi : arr Z) (xs ys : list Z) (ts : list T) (st : T * Z * bool) (jj : Z) : res (T * Z * bool) :=
  let '(acc, prev, stuck) := st in
  x <- py_nth xs jj ;; y <- py_nth ys jj ;; cur <- np_get roi x y ;;
  acc' <- (if cur + prev =? 2 then
             t1 <- py_nth ts jj ;; t0 <- py_nth ts (jj - 1) ;; Ok (nadd acc (nsub t1 t0))
           else if cur + prev =? 1 then
             t1 <- py_nth ts jj ;; t0 <- py_nth ts (jj - 1) ;; Ok (nadd acc (nmul nhalf (nsub t1 t0)))
           else Ok acc) ;;
  Ok (acc', cur, if (jj =? Z.of_nat (length ts) - 1) && (cur =? 1) then true else stuck).
Definition et_particle (roi : arr Z) (xs ys : list Z) (ts : list T) : res (T * bool) :=
  x0 <- py_nth xs 0 ;; y0 <- py_nth ys 0 ;; r0 <- np_get roi x0 y0 ;;
  '(acc, _, stuck) <- foldM (et_step roi xs ys ts) (zrange 1 (Z.of_nat (length ts))) (n0, r0, false) ;;
  Ok (acc, stuck).
(** Result: the list of exposure times and the list of particles reported as still inside (the log message of
    pt:1044-1048 lists exactly these). *)
Definition exposure_time (w : walk T) (roi : arr Z) : res (list T * list Z) :=
  let ids := zrange 0 (Z.of_nat (length (xinds w))) in
  rs <- mapM (fun ii => xs <- py_nth (xinds w) ii ;; ys <- py_nth (yinds w) ii ;; ts <- py_nth (times w) ii ;;
                        et_particle roi xs ys ts) ids ;;
  Ok (map fst rs, map fst (filter (fun p => snd (snd p)) (combine ids rs))).

(** ** NumPy helpers of the nourishment maps *)

(** np.zeros((L, W)) *)
Definition np_zeros (size : Z * Z) : arr T := Arr (fst size) (snd size) (fun _ _ => n0).
(** a[i, j] += d *)
Definition np_inc (d : T) (a : arr T) (i j : Z) : res (arr T) :=
  match norm_ix (nrow a) i, norm_ix (ncol a) j with
  | Some i', Some j' =>
      Ok (Arr (nrow a) (ncol a)
              (fun p q => if (p =? i') && (q =? j') then nadd (cell a p q) d else cell a p q))
  | _, _ => Err IndexError
  end.
(** All cells in row-major order. *)
Definition cells {A} (a : arr A) : list A :=
  flat_map (fun i => map (cell a i) (zrange 0 (ncol a))) (zrange 0 (nrow a)).
(** np.sort on a 1-D array without NaN (the order statistics do not depend on the algorithm). *)
Fixpoint insert (x : T) (l : list T) : list T :=
  match l with [] => [x] | y :: r => if nltb y x then y :: insert x r else x :: y :: r end.
Fixpoint isort (l : list T) : list T := match l with [] => [] | x :: r => insert x (isort r) end.
(** np.nanpercentile(a, q) with the default linear interpolation (numpy >= 1.22): ValueError outside [0, 100],
    NaN if there are no numbers; position (n-1)*(q/100) in the sorted numbers; NumPy's two-sided lerp. *)
Definition np_lerp (a b t : T) : T :=
  let d := nsub b a in if nleb nhalf t then nsub b (nmul d (nsub n1 t)) else nadd a (nmul d t).
Definition np_nanpercentile (l : list T) (q : T) : res T :=
  if nleb n0 q && nleb q (nofZ 100) then
    let s := isort (filter (fun x => negb (nisnan x)) l) in
    let n := Z.of_nat (length s) in
    if n =? 0 then Ok nnan
    else
      let vi := nmul (nofZ (n - 1)) (ndiv q (nofZ 100)) in
      if nleb (nofZ (n - 1)) vi then py_last s
      else match nfrac vi with
           | Some f => let k := zfloor f in
                       a <- py_nth s k ;; b <- py_nth s (k + 1) ;; Ok (np_lerp a b (nsub vi (nofZ k)))
           | None => Err ValueError
           end
  else Err ValueError.
(** np.minimum, np.clip(a, 0, hi) = minimum(maximum(a, 0), hi); NaN propagates. *)
Definition np_min2 (a b : T) : T := if nisnan a then a else if nisnan b then b else if nltb b a then b else a.
Definition np_clip (hi x : T) : T := np_min2 (np_max2 x n0) hi.
Definition np_min (l : list T) : T := match l with [] => nnan | x :: r => fold_left np_min2 r x end.
(** a[a == v] = np.nan *)
Definition nan_where (v : T) (a : arr T) : arr T := amap (fun x => if neqb x v then nnan else x) a.

(** scipy.ndimage.gaussian_filter(a, sigma=s), an external function of the array. *)
Variable gaussian : T -> arr T -> arr T.

(** pt:1099-1103: one increment per recorded position, over every particle and every record.  The length of
    xinds[ii] bounds the loop. *)
Definition visit_record (w : walk T) (a : arr T) (ij : Z * Z) : res (arr T) :=
  xs <- py_nth (xinds w) (fst ij) ;; x <- py_nth xs (snd ij) ;;
  ys <- py_nth (yinds w) (fst ij) ;; y <- py_nth ys (snd ij) ;;
  np_inc n1 a x y.
Definition records_of (lo back : Z) (w : walk T) : list (Z * Z) :=
  flat_map (fun p => map (fun jj => (fst p, jj)) (zrange lo (Z.of_nat (length (snd p)) - back)))
           (combine (zrange 0 (Z.of_nat (length (xinds w)))) (xinds w)).
Definition visit_count (w : walk T) (size : Z * Z) : res (arr T) :=
  foldM (visit_record w) (records_of 0 0 w) (np_zeros size).

(** pt:1056-1119 nourishment_area.  A raster without cells makes np.nanmax raise ValueError. *)
Definition nourishment_area (w : walk T) (size : Z * Z) (sigma clip : T) : res (arr T) :=
  v <- visit_count w size ;;
  vmax <- np_nanpercentile (cells v) clip ;;
  let v1 := amap (np_clip vmax) v in
  let v2 := if nltb n0 sigma then let g := gaussian sigma v1 in nan_where (np_min (cells g)) g
            else nan_where n0 v1 in
  match cells v2 with
  | [] => Err ValueError
  | l => let m := np_nanmax l in Ok (amap (fun x => ndiv x m) v2)
  end.

(** pt:1122-1194 nourishment_time: occupation time of interior records (all but the first and last record). *)
Definition time_record (w : walk T) (st : arr T * arr T) (ij : Z * Z) : res (arr T * arr T) :=
  xs <- py_nth (xinds w) (fst ij) ;; x <- py_nth xs (snd ij) ;;
  ys <- py_nth (yinds w) (fst ij) ;; y <- py_nth ys (snd ij) ;;
  v <- np_inc n1 (fst st) x y ;;
  ts <- py_nth (times w) (fst ij) ;;
  t1 <- py_nth ts (snd ij) ;; t0 <- py_nth ts (snd ij - 1) ;; t2 <- py_nth ts (snd ij + 1) ;;
  tot <- np_inc (nmul nhalf (nadd (nsub t1 t0) (nsub t2 t1))) (snd st) x y ;;
  Ok (v, tot).
Definition occupation (w : walk T) (size : Z * Z) : res (arr T * arr T) :=
  foldM (time_record w) (records_of 1 1 w) (np_zeros size, np_zeros size).
Definition nourishment_time (w : walk T) (size : Z * Z) (sigma clip : T) : res (arr T) :=
  '(v, tot) <- occupation w size ;;
  let mean := amap2 (fun t n => if neqb n n0 then n0 else ndiv t n) tot v in
  vmax <- np_nanpercentile (cells mean) clip ;;
  let m1 := amap (np_clip vmax) mean in
  Ok (if nltb n0 sigma then let g := gaussian sigma m1 in nan_where (np_min (cells g)) g
      else nan_where n0 m1).

End Post.

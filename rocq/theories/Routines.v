(** Model of /repo/dorado/routines.py (cited as rt:N): slicing walk data, exposure-time curves, snake plots.  Drawing and file output are not modelled. *)
From Coq Require Import ZArith Bool String List.
From Verif Require Import Num Py Walker ParticleTrack PostProc Grid.
Import ListNotations.
Open Scope Z_scope.
Open Scope res_scope.

Section Rout.
Context {T : Type} {N : Num T}.

(** ** get_state (rt:393-474) *)
(** The four collecting lists. *)
Record gst := { g_x : list Z; g_y : list Z; g_t : list T; g_o : list (string * list (option T)) }.
(** l[ii][it], None = IndexError *)
Definition at2 {A} (l : list (list A)) (ii it : Z) : option A :=
  match py_nth l ii with Ok r => match py_nth r it with Ok a => Some a | Err _ => None end | Err _ => None end.
(** rt:455-456, 462-463: append for one variable after the other, up to the first IndexError (false); what was appended before stays. *)
Fixpoint push_vars (vs : list (string * list (list (option T)))) (ii it : Z) (od : list (string * list (option T))) : list (string * list (option T)) * bool :=
  match vs, od with
  | kv :: vs', (k, acc) :: od' =>
      match at2 (snd kv) ii it with
      | Some a => let '(od2, ok) := push_vars vs' ii it od' in ((k, acc ++ [a]) :: od2, ok)
      | None => (od, false)
      end
  | _, _ => (od, true)
  end.
(** rt:452-456 (it = iteration) and rt:459-463 (it = -1). *)
Definition push (w : walk T) (ii it : Z) (st : gst) : gst * bool :=
  match at2 (xinds w) ii it with
  | None => (st, false)
  | Some x =>
    let st := {| g_x := g_x st ++ [x]; g_y := g_y st; g_t := g_t st; g_o := g_o st |} in
    match at2 (yinds w) ii it with
    | None => (st, false)
    | Some y =>
      let st := {| g_x := g_x st; g_y := g_y st ++ [y]; g_t := g_t st; g_o := g_o st |} in
      match at2 (times w) ii it with
      | None => (st, false)
      | Some t =>
        let '(od, ok) := push_vars (opts w) ii it (g_o st) in
        ({| g_x := g_x st; g_y := g_y st; g_t := g_t st ++ [t]; g_o := od |}, ok)
      end
    end
  end.
(** rt:450-464: the loop; the number counts the particles with fewer records. *)
Definition state_step (w : walk T) (it : Z) (sw : gst * Z) (ii : Z) : res (gst * Z) :=
  let '(st1, ok) := push w ii it (fst sw) in
  if ok then Ok (st1, snd sw)
  else let '(st2, ok2) := push w ii (-1) st1 in if ok2 then Ok (st2, snd sw + 1) else Err IndexError.
(** The returned tuple: three or four components (rt:471-474). *)
Record state := { st_x : list Z; st_y : list Z; st_t : list T; st_o : option (list (string * list (option T))) }.
Definition mk_state (st : gst) : state :=
  {| st_x := g_x st; st_y := g_y st; st_t := g_t st; st_o := match g_o st with [] => None | o => Some o end |}.
Definition gst0 (w : walk T) : gst := {| g_x := []; g_y := []; g_t := []; g_o := map (fun kv => (fst kv, [])) (opts w) |}.
(** Result: the tuple and the number in the log message (no message if 0). *)
Definition get_state (w : walk T) (it : Z) : res (state * Z) :=
  '(st, n) <- foldM (state_step w it) (zrange 0 (Z.of_nat (length (xinds w)))) (gst0 w, 0) ;; Ok (mk_state st, n).

(** ** get_time_state (rt:476-549) *)
(** np.argmin: the first smallest element, or the first NaN; ValueError for an empty array. *)
Fixpoint argmin_from (l : list T) (i best : Z) (b : T) : Z :=
  match l with
  | [] => best
  | x :: r => if negb (nisnan b) && (nltb x b || nisnan x) then argmin_from r (i + 1) i x else argmin_from r (i + 1) best b
  end.
Definition np_argmin (l : list T) : res Z := match l with [] => Err ValueError | x :: r => Ok (argmin_from r 1 0 x) end.
Definition opt_index {A} (o : option A) : res A := match o with Some a => Ok a | None => Err IndexError end.
(** rt:533-544 for one particle; the flag says that the note about it is logged. *)
Definition time_step (w : walk T) (target : T) (sw : gst * list Z) (ii : Z) : res (gst * list Z) :=
  ts <- py_nth (times w) ii ;;
  k <- np_argmin (map (fun t => nabs (nsub t target)) ts) ;;
  let '(st, ok) := push w ii k (fst sw) in
  if ok then l <- py_last ts ;; Ok (st, if nltb l target then snd sw ++ [ii] else snd sw) else Err IndexError.
(** Result: the tuple and the particles reported as not having reached the target time. *)
Definition get_time_state (w : walk T) (target : T) : res (state * list Z) :=
  '(st, n) <- foldM (time_step w target) (zrange 0 (Z.of_nat (length (xinds w)))) (gst0 w, []) ;; Ok (mk_state st, n).

(** Tuple unpacking: x, y, t = ...  and  x, y, t, o = ...; ValueError if the number of components differs. *)
Definition unpack3 (s : state) : res (list Z * list Z * list T) := match st_o s with None => Ok (st_x s, st_y s, st_t s) | Some _ => Err ValueError end.
Definition unpack4 (s : state) : res (list Z * list Z * list T * list (string * list (option T))) :=
  match st_o s with Some o => Ok (st_x s, st_y s, st_t s, o) | None => Err ValueError end.
(** rt:1054-1097 plot_state: the positions that are drawn. *)
Definition plot_state (w : walk T) (it : Z) (target : option T) : res (list Z * list Z) :=
  s <- match target with None => s <- get_state w it ;; Ok (fst s) | Some t => s <- get_time_state w t ;; Ok (fst s) end ;;
  '(x, y, _) <- unpack3 s ;; Ok (x, y).
(** rt:81-118, 343-387 the loops of steady_plots (save_output True) and time_plots: per iteration run the model, then unpack the current (and, the
    first time, the initial) state.  [None] = walk_data never assigned: UnboundLocalError when it is saved. *)
Fixpoint steady_loop (lm : Libm T) (P : pobj T) (draws : nat -> T) (save : bool) (n : nat) (first : bool) (last : option (walk T)) (s : psim T)
  : res (option (walk T) * psim T) :=
  match n with
  | O => Ok (last, s)
  | S n' =>
    '(w, s') <- run_step lm P draws s ;;
    (if save : bool then
       st <- get_state w (-1) ;; unpack3 (fst st) ;;;
       if first : bool then st0 <- get_state w 0 ;; unpack3 (fst st0) ;;; Ok tt else Ok tt
     else Ok tt) ;;;
    steady_loop lm P draws save n' false (Some w) s'
  end.
Definition steady_plots (lm : Libm T) (P : pobj T) (draws : nat -> T) (num_iter : Z) (save : bool) (s : psim T) : res (walk T * psim T) :=
  '(last, s') <- steady_loop lm P draws save (Z.to_nat num_iter) true None s ;;
  match last with Some w => Ok (w, s') | None => Err UnboundLocalError end.

(** ** Exposure-time curves *)
(** rt:656-677, 842-857: the step curve; [uniform] selects max instead of min. *)
Definition included (ets : list T) (end_time : T) : list T :=
  filter (fun t => nltb t (nmul (ndec 99 2) end_time)) (filter (fun t => nltb (ndec 1 6) t) ets).
Definition end_of (uniform : bool) (ts : list T) : res T := if uniform then py_maxl ts else py_minl ts.
Definition cdf_times (ets : list T) (end_time : T) : list T := [n0] ++ isort (included ets end_time) ++ [end_time].
Definition cdf_fracs (ets : list T) (end_time : T) (np : Z) : list T :=
  let n := Z.of_nat (length (included ets end_time)) in
  map (fun k => ndiv (nofZ k) (nofZ np)) (zrange 0 (n + 1)) ++ [ndiv (nofZ n) (nofZ np)].
(** scipy.interpolate.interp1d(x, y, kind='previous') on a grid: sorts the points by x (stable), ValueError outside their range, otherwise the value
    of the last point that is not to the right. *)
Fixpoint pinsert (p : T * T) (l : list (T * T)) : list (T * T) :=
  match l with [] => [p] | q :: r => if nltb (fst q) (fst p) then q :: pinsert p r else p :: q :: r end.
Definition psort (l : list (T * T)) : list (T * T) := fold_right pinsert [] l.
Definition interp_prev (pts : list (T * T)) (x : T) : res T :=
  match psort pts with
  | [] => Err ValueError
  | p0 :: r =>
    let hi := fst (last r p0) in
    if nltb x (fst p0) || nltb hi x then Err ValueError
    else Ok (fold_left (fun acc p => if nleb (fst p) x then snd p else acc) r (snd p0))
  end.
Definition smooth_cdf (ets : list T) (end_time : T) (np nbins : Z) : res (list T * list T) :=
  tv <- np_linspace n0 end_time nbins ;;
  cv <- mapM (interp_prev (combine (cdf_times ets end_time) (cdf_fracs ets end_time np))) tv ;;
  Ok (tv, cv).
(** rt:710-727: the thresholds that are logged; None = "not reached". *)
Definition targets : list T := [nhalf; ndec 75 2; ndec 9 1].
Definition report (ets : list T) (end_time : T) (np : Z) (td : T) (lv : T) : res (option T) :=
  let fr := cdf_fracs ets end_time np in let tv := cdf_times ets end_time in
  if nleb lv (nadd (np_max fr) (ndec 1 12)) then
    let k := Z.max 0 (Z.min (Z.of_nat (searchsorted fr lv)) (Z.of_nat (length tv) - 1)) in
    t <- py_nth tv k ;; Ok (Some (ndiv t td))
  else Ok None.
(** What plot_exposure_time computes: the exact curve, the smoothed curve, the reported thresholds.  The differential curve (rt:739-756) is not modelled
    except that it needs two points. *)
Record etd := { e_t : list T; e_f : list T; e_st : list T; e_sf : list T; e_thr : list (option T) }.
Definition plot_exposure_time (w : walk T) (ets : list T) (td : T) (nbins : Z) (uniform show : bool) : res etd :=
  let np := Z.of_nat (length (xinds w)) in
  s <- get_state w (-1) ;;
  '(_, _, ends, _) <- unpack4 (fst s) ;;
  e <- end_of uniform ends ;;
  '(st, sf) <- smooth_cdf ets e np nbins ;;
  thr <- (if show then mapM (report ets e np td) targets else Ok []) ;;
  py_nth st 1 ;;; py_nth st 0 ;;;
  Ok {| e_t := cdf_times ets e; e_f := cdf_fracs ets e np; e_st := st; e_sf := sf; e_thr := thr |}.
(** int(x): truncation. *)
Definition ztrunc (nd : Z * positive) : Z := Z.quot (fst nd) (Zpos (snd nd)).
Definition py_int (x : T) : res Z := match nfrac x with Some f => Ok (ztrunc f) | None => if nisnan x then Err ValueError else Err OverflowError end.
(** rt:761-898 plot_exposure_time_thresholds: the three logged times. *)
Definition plot_exposure_time_thresholds (w : walk T) (ets : list T) (td : T) (nbins : Z) (uniform : bool) : res (list Z) :=
  let np := Z.of_nat (length (xinds w)) in
  s <- get_state w (-1) ;;
  '(_, _, ends) <- unpack3 (fst s) ;;
  e <- end_of uniform ends ;;
  '(st, sf) <- smooth_cdf ets e np nbins ;;
  mapM (fun lv => t <- py_nth st (Z.of_nat (searchsorted sf lv)) ;; py_int (ndiv t td)) targets.

(** ** Travel paths (rt:1032-1035); the routine around it is in Plots.v *)
(** l[0::k] for k > 0 (fuel = length) *)
Fixpoint every_from {A} (fuel : nat) (k : nat) (l : list A) : list A :=
  match fuel, l with
  | S f, a :: r => a :: every_from f k (skipn (k - 1) r)
  | _, _ => []
  end.
Definition every {A} (k : Z) (l : list A) : res (list A) := if k <=? 0 then Err ValueError else Ok (every_from (length l) (Z.to_nat k) l).
Definition travel_path (w : walk T) (interval : Z) (i : Z) : res (list (Z * Z)) :=
  xs <- py_nth (xinds w) i ;; x <- every interval xs ;; ys <- py_nth (yinds w) i ;; y <- every interval ys ;; Ok (combine y x).

(** ** Snake plots (rt:1100-1236) *)
(** list(range(a, b, step)) *)
Definition zrange_step (a b step : Z) : res (list Z) :=
  if step =? 0 then Err ValueError
  else if 0 <? step then Ok (map (fun k => a + Z.of_nat k * step) (seq 0 (Z.to_nat ((b - a + step - 1) / step))))
  else Ok (map (fun k => a + Z.of_nat k * step) (seq 0 (Z.to_nat ((a - b - step - 1) / - step)))).
(** l[a:b:step] for 0 <= a and step > 0 *)
Definition slice_step {A} (l : list A) (a b step : Z) : list A :=
  every_from (length l) (Z.to_nat step) (firstn (Z.to_nat (Z.min b (Z.of_nat (length l)) - a)) (skipn (Z.to_nat a) l)).
(** rt:1201-1220: the segments of one particle at step ii. *)
Fixpoint tail_segments (l : list (Z * Z)) (interval : Z) (chunks : list Z) (newest : list (Z * Z)) : list (list (Z * Z)) :=
  match chunks with
  | [] => []
  | c :: r =>
    if 0 <=? c - interval - 1 then let s := slice_step l (c - interval - 1) c interval in s :: tail_segments l interval r s
    else newest :: tail_segments l interval r newest
  end.
Definition particle_segments (w : walk T) (ii interval tail_length : Z) (jj : Z) : res (list (list (Z * Z))) :=
  x <- py_nth (xinds w) jj ;; y <- py_nth (yinds w) jj ;;
  let l := combine y x in
  if Z.of_nat (length l) <? ii then Ok []
  else chunks <- zrange_step ii (ii - tail_length * interval) (- interval) ;; Ok (tail_segments l interval chunks (firstn 2 l)).
Definition frame (w : walk T) (interval tail_length ii : Z) : res (list (list (Z * Z))) :=
  ps <- mapM (particle_segments w ii interval tail_length) (zrange 0 (Z.of_nat (length (xinds w)))) ;; Ok (concat ps).
(** rt:1187-1236: the frames that are drawn, with their step number; the loop ends at the first frame without segments. *)
Fixpoint frames (w : walk T) (interval tail_length : Z) (iis : list Z) : res (list (Z * list (list (Z * Z)))) :=
  match iis with
  | [] => Ok []
  | ii :: r => f <- frame w interval tail_length ii ;;
               match f with [] => Ok [] | _ => fs <- frames w interval tail_length r ;; Ok ((ii, f) :: fs) end
  end.
Definition snake_plots (w : walk T) (num_steps interval tail_length : Z) : res (list (Z * list (list (Z * Z)))) :=
  if tail_length <? 0 then Err ValueError   (* np.zeros, rt:1182 *)
  else iis <- zrange_step interval (num_steps * interval) interval ;; frames w interval tail_length iis.
End Rout.
Arguments gst : clear implicits.
Arguments state : clear implicits.
Arguments etd : clear implicits.

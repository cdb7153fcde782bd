(** Model of what the drawing routines of /repo/dorado/routines.py (cited as rt:N) compute before they draw: travel paths, the frames of an animation,
    the transparency of the nourishment heat maps.  Drawing, colour maps and file output are not modelled. *)
From Coq Require Import ZArith Bool String List.
From Verif Require Import Num Py Walker ParticleTrack PostProc Routines.
Import ListNotations.
Open Scope Z_scope.
Open Scope res_scope.

Section Plots.
Context {T : Type} {N : Num T}.

(** rt:1015-1035 draw_travel_path: the line of every followed particle with its colour (three numbers of NumPy's generator, which also drives the
    walks), and the position of the generator afterwards.  particles_to_follow is None for 'all' or a list of particle numbers. *)
Fixpoint travel_lines (w : walk T) (interval : Z) (draws : nat -> T) (ids : list Z) (pos : nat)
  : res (list ((T * T * T) * list (Z * Z)) * nat) :=
  match ids with
  | [] => Ok ([], pos)
  | i :: rest =>
      p <- travel_path w interval i ;;
      '(ls, pos') <- travel_lines w interval draws rest (pos + 3) ;;
      Ok (((draws pos, draws (pos + 1)%nat, draws (pos + 2)%nat), p) :: ls, pos')
  end.
Definition draw_travel_path (w : walk T) (follow : option (list Z)) (interval : Z) (draws : nat -> T) (pos : nat)
  : res (list ((T * T * T) * list (Z * Z)) * nat) :=
  let ids := match follow with None => zrange 0 (Z.of_nat (length (xinds w))) | Some l => l end in
  travel_lines w interval draws ids pos.

(** rt:957-960 animate_plots: frames=list(range(start_val, end_val)); frame i shows the file output<i>.png (rt:939-948). *)
Definition animate_plots (start_val end_val : Z) : list Z := zrange start_val end_val.

(** matplotlib.colors.Normalize(0, hi, clip=True)(x) on floats: 0 if hi = 0, ValueError if hi < 0, otherwise clip and divide. *)
Definition normalize_clip (hi x : T) : res T :=
  if neqb n0 hi then Ok n0
  else if nltb hi n0 then Err ValueError
  else Ok (ndiv (nsub (np_clip hi x) n0) (nsub hi n0)).
(** np.clip(x, lo, 1) *)
Definition clip_alpha (lo x : T) : T := np_min2 (np_max2 x lo) n1.
(** rt:1299-1305 (q = 60 or 30) and rt:1391-1394 (q = 20): the alpha value of every cell. *)
Definition alphas (q : T) (freq : arr T) (min_alpha : T) : res (arr T) :=
  amax <- np_nanpercentile (cells freq) q ;;
  normalize_clip amax n0 ;;;   (* raises for the whole array or not at all *)
  Ok (amap (fun x => match normalize_clip amax x with Ok v => clip_alpha min_alpha v | Err _ => nnan end) freq).
Definition show_nourishment_area (freq : arr T) (sigma min_alpha : T) : res (arr T) :=
  alphas (if nleb (ndec 125 3) sigma then nofZ 60 else nofZ 30) freq min_alpha.
Definition show_nourishment_time (mean_times : arr T) (min_alpha : T) : res (arr T) := alphas (nofZ 20) mean_times min_alpha.
End Plots.

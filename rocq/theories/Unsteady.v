(** Model of unsteady_plots (dorado/routines.py, cited as rt).  Not modelled: reading the files (the flow fields are given, in file order), folders,
    figures and the saved json file, log messages. *)
From Coq Require Import ZArith Bool String List.
From Verif Require Import Num Py Walker ParticleTrack Gen PostProc Grid Routines.
Import ListNotations.
Open Scope Z_scope.
Open Scope res_scope.

Section Unsteady.
Context {T : Type} {N : Num T}.

(** The four arrays loaded for one model timestep (rt:226-249). *)
Record field := { fl_depth : arr T; fl_stage : arr T; fl_qx : arr T; fl_qy : arr T }.
(** rt:183-185 the parameter object: only dx (and the deprecated verbose flag) is set. *)
Definition unsteady_params (dx : T) : params T :=
  {| p_dx := Some dx; p_depth := None; p_stage := None; p_topo := None; p_model := None; p_qx := None; p_qy := None; p_u := None; p_v := None;
     p_theta := None; p_gamma := None; p_diff := None; p_dry := None; p_ct := None; p_steep := None;
     p_dist := None; p_ivec := None; p_jvec := None; p_iwalk := None; p_jwalk := None; p_angles := None; p_roi := None; p_vars := None |}.
(** rt:226-249 assignments to the parameter object. *)
Definition set_field (f : field) (p : params T) : params T :=
  {| p_dx := p_dx p; p_depth := Some (fl_depth f); p_stage := Some (fl_stage f); p_topo := p_topo p; p_model := p_model p;
     p_qx := Some (fl_qx f); p_qy := Some (fl_qy f); p_u := p_u p; p_v := p_v p;
     p_theta := p_theta p; p_gamma := p_gamma p; p_diff := p_diff p; p_dry := p_dry p; p_ct := p_ct p; p_steep := p_steep p;
     p_dist := p_dist p; p_ivec := p_ivec p; p_jvec := p_jvec p; p_iwalk := p_iwalk p; p_jwalk := p_jwalk p; p_angles := p_angles p;
     p_roi := p_roi p; p_vars := p_vars p |}.
(** np.arange(start, stop, step) for floats: ceil((stop-start)/step) entries; entry 1 is start+step, entry i is start + i*(entry 1 - start). *)
Definition np_arange (start stop step : T) : res (list T) :=
  match nfrac (ndiv (nsub stop start) step) with
  | None => Err ValueError
  | Some fr =>
      let delta := nsub (nadd start step) start in
      Ok (map (fun i => if i =? 0 then start else if i =? 1 then nadd start step else nadd start (nmul (nofZ i) delta)) (zrange 0 (zceil fr)))
  end.
(** rt:253-258 the seeding request: the given one for the first field, none later. *)
Definition first_request (np : Z) (xl yl : list Z) : request T :=
  {| q_np := Some np; q_x := Some xl; q_y := Some yl; q_time := Some n0; q_method := Some "random"%string |}.
Definition later_request : request T := {| q_np := Some 0; q_x := Some []; q_y := Some []; q_time := Some n0; q_method := Some "random"%string |}.
(** rt:224-264 one pass of the loop.  [prev] is None in the first pass.  The generator position is carried over, the parameter object is reused. *)
Definition unsteady_step (lm : Libm T) (draws : nat -> T) (q : request T) (f : field) (target : T) (prev : option (walk T)) (p : params T) (pos : nat)
  : res (walk T * params T * nat) :=
  '(P, p') <- init lm (set_field f p) ;;
  s <- match call_generate P draws q prev (init_sim lm P pos) with (Ok _, s) => Ok s | (Err e, _) => Err e end ;;
  '(w, _, s') <- run_target lm P draws target 10000 s ;;
  st <- get_state w (-1) ;; unpack3 (fst st) ;;;
  match prev with None => st0 <- get_state w 0 ;; unpack3 (fst st0) ;;; Ok tt | Some _ => Ok tt end ;;;
  Ok (w, p', w_pos (s_wst s')).
(** rt:219-289 the loop: [fts] pairs the remaining fields with their target times ([None]: target_times[i] raises IndexError). *)
Fixpoint unsteady_loop (lm : Libm T) (draws : nat -> T) (fts : list (field * option T)) (q : request T) (prev : option (walk T)) (p : params T) (pos : nat)
  : res (option (walk T)) :=
  match fts with
  | [] => Ok prev
  | (f, ot) :: rest =>
      match ot with
      | None => (* construction and seeding come first, but their only effects are exceptions *)
          '(P, p') <- init lm (set_field f p) ;;
          match call_generate P draws q prev (init_sim lm P pos) with (Ok _, _) => Err IndexError | (Err e, _) => Err e end
      | Some target =>
          '(w, p', pos') <- unsteady_step lm draws q f target prev p pos ;;
          unsteady_loop lm draws rest later_request (Some w) p' pos'
      end
  end.
(** rt:121-294.  [fields]: the flow fields found in output_base. *)
Definition unsteady_plots (lm : Libm T) (draws : nat -> T) (pos : nat) (dx : T) (np : Z) (xl yl : list Z) (num_steps : Z) (timestep : T) (fields : list field)
  : res (walk T) :=
  let n := Z.min num_steps (Z.of_nat (length fields)) in
  tt <- np_arange timestep (nmul timestep (nofZ (n + 1))) timestep ;;
  let fts := map (fun i => match nth_error fields (Z.to_nat i) with Some f => [(f, nth_error tt (Z.to_nat i))] | None => [] end) (zrange 0 n) in
  r <- unsteady_loop lm draws (concat fts) (first_request np xl yl) None (unsteady_params dx) pos ;;
  match r with Some w => Ok w | None => Err UnboundLocalError end.
End Unsteady.
Arguments field : clear implicits.

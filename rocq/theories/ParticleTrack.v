(** Model of the Particles class of dorado/particle_track.py (cited as pt). *)
From Coq Require Import ZArith Bool String List Lia.
From Verif Require Import Num Py Walker.
Import ListNotations.
Open Scope Z_scope.
Open Scope res_scope.

Section ParticleTrack.
Context {T : Type} {N : Num T}.

(** pt:21-125 modelParams, as a user fills it.  [None] means the attribute is missing or None.
    Simplifications: arrays are float arrays of one common shape (int arrays, on which NaN cannot be stored, and
    NumPy's broadcast errors for differing shapes are outside the model); optional attributes are either
    absent or usable (e.g. theta = None behaves like absent because float(None) raises). *)
Record params := {
  p_dx : option T;
  p_depth : option (arr T); p_stage : option (arr T); p_topo : option (arr T);
  p_model : option string;
  p_qx : option (arr T); p_qy : option (arr T); p_u : option (arr T); p_v : option (arr T);
  p_theta : option T; p_gamma : option T; p_diff : option T; p_dry : option T;
  p_ct : option (arr Z); p_steep : option bool;
  p_dist : option (list T); p_ivec : option (list T); p_jvec : option (list T);
  p_iwalk : option (list Z); p_jwalk : option (list Z); p_angles : option (list T);
  p_roi : option (arr Z); p_vars : option (list string)
}.

Definition dflt {A} (o : option A) (d : A) : A := match o with Some a => a | None => d end.
Definition nan_to_0 (a : arr T) : arr T := amap nanz a.              (* a[np.isnan(a)] = 0 *)

(** pt:159-177 depth: (self.depth, params.depth afterwards).  params.depth is the same array object, so it is
    edited as well. *)
Definition init_depth (p : params) : res (arr T * option (arr T)) :=
  match p_depth p with
  | Some d => let d' := nan_to_0 d in Ok (d', Some d')
  | None =>
      match p_stage p, p_topo p with
      | Some s, Some t =>
          Ok (nan_to_0 (amap (fun x => if nltb x n0 then n0 else x) (amap2 nsub s t)), None)
      | _, _ => Err ValueError
      end
  end.

(** pt:180-197 stage: (self.stage, params.stage afterwards).  Line 192 adds params.depth, which by then has its
    NaNs replaced. *)
Definition dry_to_nan (depth stage : arr T) : arr T :=
  amap2 (fun d s => if neqb d n0 then nnan else s) depth stage.
Definition init_stage (p : params) (depth : arr T) (pdepth' : option (arr T)) : res (arr T * option (arr T)) :=
  match p_stage p with
  | Some s => let s' := dry_to_nan depth s in Ok (s', Some s')
  | None =>
      match p_topo p, pdepth' with
      | Some t, Some d => Ok (dry_to_nan depth (amap2 nadd t d), None)
      | _, _ => Err ValueError
      end
  end.

Definition neg1 (a : arr T) : arr T := amap (nmul (nofZ (-1))) a.   (* -1*a *)
(* q*depth/(depth**2 + 1e-8) with NaN -> 0 *)
Definition vel_of_q (q depth : arr T) : arr T :=
  nan_to_0 (amap2 (fun q d => ndiv (nmul q d) (nadd (nmul d d) neps8)) q depth).

(** pt:199-253 discharge and velocity: (qx, qy, u, v) of self and of params afterwards. *)
Record flow := { f_qx : arr T; f_qy : arr T; f_u : arr T; f_v : arr T;
                 f_pqx : option (arr T); f_pqy : option (arr T); f_pu : option (arr T); f_pv : option (arr T);
                 (* does self.u / self.v share memory with params.u / params.v ? *)
                 f_u_alias : option bool;  (* Some true: self.u is params.u;  Some false: self.v is params.u *)
                 f_v_alias : bool          (* self.v is params.v *) }.
Definition is_deltarcm (p : params) : bool :=
  match p_model p with Some m => String.eqb m "DeltaRCM" | None => false end.
Definition init_flow (p : params) (depth : arr T) : res flow :=
  if is_deltarcm p then
    match p_qx p, p_qy p with
    | Some pqx, Some pqy =>
        let qx := nan_to_0 pqx in let qy := nan_to_0 pqy in
        Ok {| f_qx := qx; f_qy := qy; f_u := vel_of_q qx depth; f_v := vel_of_q qy depth;
              f_pqx := Some qx; f_pqy := Some qy; f_pu := p_u p; f_pv := p_v p;
              f_u_alias := None; f_v_alias := false |}
    | _, _ =>
        match p_u p, p_v p with
        | Some pu, Some pv =>
            let u := nan_to_0 pu in let v := nan_to_0 pv in
            Ok {| f_qx := amap2 nmul u depth; f_qy := amap2 nmul v depth; f_u := u; f_v := v;
                  f_pqx := p_qx p; f_pqy := p_qy p; f_pu := Some u; f_pv := Some v;
                  f_u_alias := Some true; f_v_alias := true |}
        | _, _ => Err ValueError
        end
    end
  else
    match p_qx p, p_qy p with
    | Some pqx, Some pqy =>
        let qx := nan_to_0 (neg1 pqy) in let qy := nan_to_0 pqx in
        Ok {| f_qx := qx; f_qy := qy; f_u := vel_of_q qx depth; f_v := vel_of_q qy depth;
              f_pqx := Some qy; f_pqy := Some pqy; f_pu := p_u p; f_pv := p_v p;
              f_u_alias := None; f_v_alias := false |}
    | _, _ =>
        match p_u p, p_v p with
        | Some pu, Some pv =>
            let u := nan_to_0 (neg1 pv) in let v := nan_to_0 pu in
            Ok {| f_qx := amap2 nmul u depth; f_qy := amap2 nmul v depth; f_u := u; f_v := v;
                  f_pqx := p_qx p; f_pqy := p_qy p; f_pu := Some v; f_pv := Some pv;
                  f_u_alias := Some false; f_v_alias := false |}
        | _, _ => Err ValueError
        end
    end.

(** pt:256-262 velocity magnitude, floors, direction. *)
Definition floor_vel (x : T) : T := if nltb x neps8 then neps8 else x.
Definition floor_comp (x : T) : T := if nltb (nabs x) neps8 then neps8 else x.

(** a[1:-1, 1:-1] and np.pad(a, 1, 'constant', constant_values=v) *)
Definition np_inner {A} (a : arr A) : arr A :=
  Arr (Z.max 0 (nrow a - 2)) (Z.max 0 (ncol a - 2)) (fun i j => cell a (i + 1) (j + 1)).
Definition np_pad1 {A} (v : A) (a : arr A) : arr A :=
  Arr (nrow a + 2) (ncol a + 2) (fun i j =>
    if (1 <=? i) && (i <? nrow a + 1) && (1 <=? j) && (j <? ncol a + 1) then cell a (i - 1) (j - 1) else v).

(** pt:314-317 default cell types: 2 where depth < dry_depth, else 0; then the interior padded with -1. *)
Definition default_ct (depth : arr T) (dry : T) : arr Z :=
  np_pad1 (-1) (np_inner (amap (fun d => if nltb d dry then 2 else 0) depth)).

(** pt:335-390 default D8 tables. *)
Definition default_dist (lm : Libm T) : list T :=
  let s2 := m_sqrt lm (nofZ 2) in [s2; n1; s2; n1; n1; n1; s2; n1; s2].
Definition nneg (x : T) : T := nmul (nofZ (-1)) x.
Definition default_ivec (lm : Libm T) : list T :=
  let s := m_sqrt lm nhalf in [nneg s; n0; s; nofZ (-1); n0; n1; nneg s; n0; s].
Definition default_jvec (lm : Libm T) : list T :=
  let s := m_sqrt lm nhalf in [nneg s; nofZ (-1); nneg s; n0; n0; n0; s; n1; s].
Definition default_iwalk : list Z := [-1; 0; 1; -1; 0; 1; -1; 0; 1].
Definition default_jwalk : list Z := [-1; -1; -1; 0; 0; 0; 1; 1; 1].
(* math.pi = 884279719003555 / 2^48 *)
Definition npi : T := ndiv (nofZ 884279719003555) (nofZ (2 ^ 48)).
Definition angles_from (pi : T) : list T :=
  let q (k d : Z) := ndiv (nmul (nofZ k) pi) (nofZ d) in
  [q 3 4; ndiv pi (nofZ 2); ndiv pi (nofZ 4); pi; n0; n0; q 5 4; q 3 2; q 7 4].
Definition default_angles : list T := angles_from npi.

(** pt:283-300 diffusion coefficient. *)
Definition init_diff (p : params) : T :=
  match p_diff p with
  | Some d => if nltb d n0 then n0 else d
  | None => match p_steep p with Some true => n0 | _ => ndec 2 1 end
  end.

(** pt:431-437 particle variables. *)
Definition init_vars (p : params) : list string :=
  let vs := dflt (p_vars p) [] in
  match p_roi p with
  | Some _ => if str_in "roi_flag" vs then vs else (vs ++ ["roi_flag"%string])
  | None => vs
  end.

(** pt:131-443 Particles.__init__: the new object (without its weight array, which [make_weight] computes from it)
    and the parameter object after the call: arrays passed by the caller are edited in place. *)
Definition init (lm : Libm T) (p : params) : res (pobj T * params) :=
  match p_dx p with
  | None => Err ValueError
  | Some dx =>
    '(depth, pdepth') <- init_depth p ;;
    '(stage, pstage') <- init_stage p depth pdepth' ;;
    f <- init_flow p depth ;;
    let vel := amap floor_vel (amap2 (fun u v => m_sqrt lm (nadd (nmul u u) (nmul v v))) (f_u f) (f_v f)) in
    let u := amap floor_comp (f_u f) in
    let v := amap floor_comp (f_v f) in
    let vang := amap2 (fun u v => m_atan2 lm (nmul (nofZ (-1)) u) v) u v in
    let dry := dflt (p_dry p) ntenth in
    match p_roi p with
    | Some roi =>
        if (nrow roi =? nrow depth) && (ncol roi =? ncol depth) then Ok tt else Err ValueError
    | None => Ok tt
    end ;;;
    Ok ({| o_dx := dx; o_depth := depth; o_stage := stage;
           o_qx := f_qx f; o_qy := f_qy f; o_u := u; o_v := v; o_vel := vel; o_vang := vang;
           o_theta := dflt (p_theta p) n1; o_gamma := dflt (p_gamma p) (ndec 5 2);
           o_diff := init_diff p; o_dry := dry;
           o_ct := dflt (p_ct p) (default_ct depth dry);
           o_steep := dflt (p_steep p) false;
           o_dist := dflt (p_dist p) (default_dist lm);
           o_ivec := dflt (p_ivec p) (default_ivec lm);
           o_jvec := dflt (p_jvec p) (default_jvec lm);
           o_iwalk := dflt (p_iwalk p) default_iwalk;
           o_jwalk := dflt (p_jwalk p) default_jwalk;
           o_angles := dflt (p_angles p) default_angles;
           o_roi := p_roi p; o_vars := init_vars p |},
        {| p_dx := p_dx p; p_depth := pdepth'; p_stage := pstage'; p_topo := p_topo p;
           p_model := p_model p;    (* pt:203 stores [] for a missing model, which is again not 'DeltaRCM' *)
           p_qx := f_pqx f; p_qy := f_pqy f;
           p_u := match f_u_alias f with
                  | Some true => Some u | Some false => Some v | None => f_pu f end;
           p_v := if f_v_alias f then Some v else f_pv f;
           p_theta := p_theta p; p_gamma := p_gamma p;
           p_diff := match p_diff p with Some _ => Some (init_diff p) | None => None end;
           p_dry := p_dry p; p_ct := p_ct p; p_steep := p_steep p;
           p_dist := p_dist p; p_ivec := p_ivec p; p_jvec := p_jvec p;
           p_iwalk := p_iwalk p; p_jwalk := p_jwalk p; p_angles := p_angles p;
           p_roi := p_roi p;
           p_vars := match p_vars p with Some _ => Some (init_vars p) | None => None end |})
  end.

(** Walk data (pt:617-623): field -> particle -> record.  Optional values are [option T] because missing
    fields are initialised to None (pt:689). *)
Record walk := {
  xinds : list (list Z); yinds : list (list Z); times : list (list T);
  opts : list (string * list (list (option T)))
}.

(** Dynamic state of a Particles object. *)
Record psim := { s_np : Z; s_walk : option walk; s_wst : wst T }.

(** State after construction. *)
Definition init_sim (lm : Libm T) (P : pobj T) (pos : nat) : psim :=
  {| s_np := 0; s_walk := None; s_wst := {| w_arr := make_weight lm P; w_pos := pos |} |}.

(** pt:446-448 clear_walk_data. *)
Definition clear_walk_data (s : psim) : psim := {| s_np := s_np s; s_walk := None; s_wst := s_wst s |}.

Inductive method := Random | Exact.

(** pt:529-533: one generator draw per coordinate, all x first, then all y. *)
Fixpoint pick_seeds (draws : nat -> T) (locs : list Z) (n : nat) (pos : nat) : res (list Z * nat) :=
  match n with
  | O => Ok ([], pos)
  | S n' => x <- random_pick_seed locs (draws pos) ;;
            '(xs, pos') <- pick_seeds draws locs n' (S pos) ;; Ok (x :: xs, pos')
  end.

(** pt:536-546: divmod and the remainder loop. *)
Definition exact_seeds (np : Z) (xl yl : list Z) : res (list Z * list Z) :=
  let m := Z.of_nat (length xl) in
  if m =? 0 then Err ZeroDivisionError
  else
    let q := np / m in let r := np mod m in
    xr <- mapM (py_nth xl) (zrange 0 r) ;;
    yr <- mapM (py_nth yl) (zrange 0 r) ;;
    Ok (py_repeat xl q ++ xr, py_repeat yl q ++ yr).

Definition base_vars : list string := ["xinds"; "yinds"; "travel_times"]%string.

(** pt:560-571 start values of the tracked variables (zip stops at the shorter list). *)
Fixpoint start_vars (P : pobj T) (vars : list string) (xy : list (Z * Z))
    (acc : list (string * list (list (option T)))) : res (list (string * list (list (option T)))) :=
  match vars with
  | [] => Ok acc
  | var :: rest =>
      if str_in var base_vars then start_vars P rest xy acc
      else match o_roi P, String.eqb var "roi_flag" with
           | Some roi, true =>
               vs <- mapM (fun p => v <- roi_flag_at roi (fst p) (snd p) ;; Ok [v]) xy ;;
               start_vars P rest xy (dset var vs acc)
           | _, _ =>
               match dget var (avail_vars P) with
               | Some g => vs <- mapM (fun p => v <- grid_at g (fst p) (snd p) ;; Ok [v]) xy ;;
                           start_vars P rest xy (dset var vs acc)
               | None => Err ValueError
               end
           end
  end.

(** pt:588-591, 608-611: prepend the old lists of a variable if the old dictionary has it. *)
Definition merge_vars (old : list (string * list (list (option T))))
    (new : list (string * list (list (option T)))) : list (string * list (list (option T))) :=
  map (fun kv => match dget (fst kv) old with
                 | Some l => (fst kv, l ++ snd kv)
                 | None => kv end) new.

Definition merge_walk (old new : walk) : walk :=
  {| xinds := xinds old ++ xinds new; yinds := yinds old ++ yinds new; times := times old ++ times new;
     opts := merge_vars (opts old) (opts new) |}.

(** pt:451-623 generate_particles (inputs already of the types gen_input_check returns; see [gen_input_check]
    below).  [prev] is previous_walk_data. *)
Definition generate_particles (P : pobj T) (draws : nat -> T)
    (np : Z) (xl yl : list Z) (t0 : T) (m : method) (prev : option walk) (s : psim) : res psim :=
  let pos := w_pos (s_wst s) in
  '(xs, ys, pos') <- match m with
    | Random => '(xs, p1) <- pick_seeds draws xl (Z.to_nat np) pos ;;
                '(ys, p2) <- pick_seeds draws yl (Z.to_nat np) p1 ;; Ok (xs, ys, p2)
    | Exact => '(xs, ys) <- exact_seeds np xl yl ;; Ok (xs, ys, pos)
    end ;;
  (* 549-553 *)
  new_x <- mapM (fun i => x <- py_nth xs i ;; Ok [x]) (zrange 0 np) ;;
  new_y <- mapM (fun i => y <- py_nth ys i ;; Ok [y]) (zrange 0 np) ;;
  let new_t := repeat [t0] (Z.to_nat np) in
  ov <- start_vars P (o_vars P) (combine xs ys) [] ;;
  let w0 := {| xinds := new_x; yinds := new_y; times := new_t; opts := ov |} in
  let w1 := match s_walk s with Some w => merge_walk w w0 | None => w0 end in
  let w2 := match prev with Some w => merge_walk w w1 | None => w1 end in
  Ok {| s_np := Z.of_nat (length (xinds w2)); s_walk := Some w2;
        s_wst := {| w_arr := w_arr (s_wst s); w_pos := pos' |} |}.

(** l[i][-1] *)
Definition last_of {A} (l : list (list A)) (i : Z) : res A := row <- py_nth l i ;; py_last row.

(** Optional fields as run_iteration reads them (pt:683-689): missing ones become [[None]]*Np, and duplicates
    in the variable list collapse into one dictionary key. *)
Fixpoint read_opts (np : Z) (vars : list string) (o : list (string * list (list (option T))))
    (acc : list (string * list (list (option T)))) : list (string * list (list (option T))) :=
  match vars with
  | [] => acc
  | var :: rest =>
      if str_in var base_vars then read_opts np rest o acc
      else read_opts np rest o
             (dset var (match dget var o with Some l => l | None => repeat [None] (Z.to_nat np) end) acc)
  end.

(** pt:704-713: append where the particle moved. *)
Fixpoint append_where {A} (moved : list bool) (vals : list A) (rows : list (list A)) : list (list A) :=
  match rows, moved, vals with
  | r :: rs, m :: ms, v :: vs => (if m : bool then r ++ [v] else r) :: append_where ms vs rs
  | _, _, _ => rows
  end.

(** pt:712-713 for one tracked variable; a missing key raises KeyError if some particle moved. *)
Definition append_opt (moved : list bool) (upd : list (string * list (option T)))
    (kv : string * list (list (option T))) : res (string * list (list (option T))) :=
  match dget (fst kv) upd with
  | Some vals => Ok (fst kv, append_where moved vals (snd kv))
  | None => if existsb id moved then Err KeyError else Ok kv
  end.

(** pt:628-720, 789 run_iteration(target_time=None): the returned dictionary and the new state.  The stored
    dictionary shares its lists with the returned one, except for variables it did not contain. *)
Definition run_step (lm : Libm T) (P : pobj T) (draws : nat -> T) (s : psim) : res (walk * psim) :=
  match s_walk s with
  | None => Err ValueError
  | Some wd =>
    let np := if s_np s =? 0 then Z.of_nat (length (xinds wd)) else s_np s in
    let idx := zrange 0 np in
    sx <- mapM (last_of (xinds wd)) idx ;;
    sy <- mapM (last_of (yinds wd)) idx ;;
    st <- mapM (last_of (times wd)) idx ;;
    let ov := read_opts np (o_vars P) (opts wd) [] in
    mapM (fun kv => mapM (last_of (snd kv)) idx) ov ;;;
    let pairs := combine sx sy in
    '(new_inds, tts, upd, ws) <- particle_stepper lm P draws pairs st (map fst ov) (s_wst s) ;;
    let moved := map2 (fun a b => negb (pair_eqb a b)) new_inds pairs in
    ov' <- mapM (append_opt moved upd) ov ;;
    let x' := append_where moved (map fst new_inds) (xinds wd) in
    let y' := append_where moved (map snd new_inds) (yinds wd) in
    let t' := append_where moved tts (times wd) in
    Ok ({| xinds := x'; yinds := y'; times := t'; opts := ov' |},
        {| s_np := np;
           s_walk := Some {| xinds := x'; yinds := y'; times := t';
                             opts := map (fun kv => (fst kv, match dget (fst kv) ov' with
                                                             | Some l => l | None => snd kv end)) (opts wd) |};
           s_wst := ws |})
  end.

(** One particle's rows, used by the target-time loop. *)
Record prow := { r_x : list Z; r_y : list Z; r_t : list T; r_o : list (string * list (option T)) }.

Definition get_row (wd : walk) (ov : list (string * list (list (option T)))) (ii : Z) : res prow :=
  x <- py_nth (xinds wd) ii ;; y <- py_nth (yinds wd) ii ;; t <- py_nth (times wd) ii ;;
  o <- mapM (fun kv => l <- py_nth (snd kv) ii ;; Ok (fst kv, l)) ov ;;
  Ok {| r_x := x; r_y := y; r_t := t; r_o := o |}.

(** pt:744-769 the while loop for one particle.  The result also says whether the particle hit max_iter
    (it is then appended to _iter_particles).  [fuel] bounds the number of iterations; max_iter >= count makes
    Z.to_nat (max_iter) + 1 sufficient (theorem [run_row_fuel]). *)
Fixpoint run_row (fuel : nat) (lm : Libm T) (P : pobj T) (draws : nat -> T) (target : T) (max_iter : Z)
    (r : prow) (est : T) (count : Z) (s : wst T) : res (prow * wst T * bool) :=
  match fuel with
  | O => Err FuelError
  | S fuel' =>
    x <- py_last (r_x r) ;; y <- py_last (r_y r) ;; t <- py_last (r_t r) ;;
    if nleb (nabs (nsub (nadd t est) target)) (nabs (nsub t target)) then
      mapM (fun kv => py_last (snd kv)) (r_o r) ;;;
      '(ni, tts, upd, s') <- particle_stepper lm P draws [(x, y)] [t] (map fst (r_o r)) s ;;
      p <- py_nth ni 0 ;;
      if negb (pair_eqb p (x, y)) then
        t' <- py_nth tts 0 ;;
        o' <- mapM (fun kv => match dget (fst kv) upd with
                              | Some vs => v <- py_nth vs 0 ;; Ok (fst kv, snd kv ++ [v])
                              | None => Err KeyError end) (r_o r) ;;
        let r' := {| r_x := r_x r ++ [fst p]; r_y := r_y r ++ [snd p]; r_t := r_t r ++ [t']; r_o := o' |} in
        let est' := py_max ntenth (nsub t' t) in
        if max_iter <? count + 1 then Ok (r', s', true)
        else run_row fuel' lm P draws target max_iter r' est' (count + 1) s'
      else Ok (r, s', false)
    else Ok (r, s, false)
  end.

(** pt:727-769 one iteration of the particle loop. *)
Definition run_particle (lm : Libm T) (P : pobj T) (draws : nat -> T) (target : T) (max_iter : Z)
    (r : prow) (s : wst T) : res (prow * wst T * bool) :=
  est <- (if 1 <? Z.of_nat (length (r_t r)) then
            a <- py_nth (r_t r) (-1) ;; b <- py_nth (r_t r) (-2) ;; Ok (nsub a b)
          else Ok ntenth) ;;
  x <- py_last (r_x r) ;; y <- py_last (r_y r) ;;
  if near_edge (o_ct P) x y then Ok (r, s, false)
  else run_row (S (Z.to_nat max_iter)) lm P draws target max_iter r est 1 s.

Definition set_opts (ii : nat) (r : prow) (ov : list (string * list (list (option T))))
  : list (string * list (list (option T))) :=
  map (fun kv => (fst kv, match dget (fst kv) (r_o r) with
                          | Some l => upd_nth ii l (snd kv) | None => snd kv end)) ov.

(** pt:726-769: all particles in order.  [warn] is the list _iter_particles, which line 735 resets for every
    particle, so after the loop it only speaks about the last one; [None] = never assigned. *)
Fixpoint run_particles (lm : Libm T) (P : pobj T) (draws : nat -> T) (target : T) (max_iter : Z)
    (idx : list Z) (wd : walk) (ov : list (string * list (list (option T)))) (s : wst T)
    (warn : option (list Z))
  : res (walk * list (string * list (list (option T))) * wst T * option (list Z)) :=
  match idx with
  | [] => Ok (wd, ov, s, warn)
  | ii :: rest =>
      r <- get_row wd ov ii ;;
      '(r', s', over) <- run_particle lm P draws target max_iter r s ;;
      let n := Z.to_nat ii in
      let wd' := {| xinds := upd_nth n (r_x r') (xinds wd); yinds := upd_nth n (r_y r') (yinds wd);
                    times := upd_nth n (r_t r') (times wd); opts := opts wd |} in
      run_particles lm P draws target max_iter rest wd' (set_opts n r' ov) s'
        (Some (if over : bool then [ii] else []))
  end.

(** pt:628-697, 722-789 run_iteration(target_time, max_iter): returned dictionary, warning list, new state.
    max_iter is an integer here (the default 1e4 is integral). *)
Definition run_target (lm : Libm T) (P : pobj T) (draws : nat -> T) (target : T) (max_iter : Z) (s : psim)
  : res (walk * list Z * psim) :=
  match s_walk s with
  | None => Err ValueError
  | Some wd =>
    let np := if s_np s =? 0 then Z.of_nat (length (xinds wd)) else s_np s in
    let idx := zrange 0 np in
    mapM (last_of (xinds wd)) idx ;;;
    mapM (last_of (yinds wd)) idx ;;;
    mapM (last_of (times wd)) idx ;;;
    let ov := read_opts np (o_vars P) (opts wd) [] in
    mapM (fun kv => mapM (last_of (snd kv)) idx) ov ;;;
    '(wd', ov', ws, warn) <- run_particles lm P draws target max_iter idx wd ov (s_wst s) None ;;
    (* 779: len(_iter_particles) when the loop never ran: UnboundLocalError *)
    match warn with
    | None => Err UnboundLocalError
    | Some wl =>
        let w' := {| xinds := xinds wd'; yinds := yinds wd'; times := times wd'; opts := ov' |} in
        Ok (w', wl, {| s_np := np; s_walk := Some w'; s_wst := ws |})
    end
  end.

End ParticleTrack.
Arguments params : clear implicits.
Arguments walk : clear implicits.
Arguments psim : clear implicits.
Arguments prow : clear implicits.
Arguments flow : clear implicits.

(** Vocabulary for symmetry: a grid seen in a mirror, or with rows and columns exchanged. *)
From Coq Require Import ZArith Bool String List.
From Verif Require Import Num XQ Py Walker ParticleTrack.
Import ListNotations.
Open Scope Z_scope.

(** Left-right mirror image, top-bottom mirror image, reflection in the main diagonal.  Together they generate all eight symmetries of a raster. *)
Inductive symmetry := EastWest | NorthSouth | Diagonal.

(** Where cell (i,j) of an L x W raster is found in the image. *)
Definition moved (s : symmetry) (L W : Z) (c : Z * Z) : Z * Z :=
  match s with EastWest => (fst c, W - 1 - snd c) | NorthSouth => (L - 1 - fst c, snd c) | Diagonal => (snd c, fst c) end.
(** The image of an array. *)
Definition image {A} (s : symmetry) (a : arr A) : arr A :=
  match s with
  | EastWest => Arr (nrow a) (ncol a) (fun i j => cell a i (ncol a - 1 - j))
  | NorthSouth => Arr (nrow a) (ncol a) (fun i j => cell a (nrow a - 1 - i) j)
  | Diagonal => Arr (ncol a) (nrow a) (fun i j => cell a j i)
  end.
(** The image of a direction, in the order NW N NE W . E SW S SE. *)
Definition turned (s : symmetry) (k : nat) : nat :=
  match s with
  | EastWest => nth k [2; 1; 0; 5; 4; 3; 8; 7; 6]%nat 0%nat
  | NorthSouth => nth k [6; 7; 8; 3; 4; 5; 0; 1; 2]%nat 0%nat
  | Diagonal => nth k [0; 3; 6; 1; 4; 7; 2; 5; 8]%nat 0%nat
  end.

(** The image of a vector field.  Usually the x component points east and the y component north; in the "DeltaRCM" convention x points south and y east. *)
Definition opposite (a : arr xq) : arr xq := Arr (nrow a) (ncol a) (fun i j => nsub n0 (cell a i j)).
Definition image_x (s : symmetry) (deltarcm : bool) (x y : option (arr xq)) : option (arr xq) :=
  match s, deltarcm with
  | EastWest, true | NorthSouth, false => option_map (image s) x
  | EastWest, false | NorthSouth, true => option_map (fun a => opposite (image s a)) x
  | Diagonal, true => option_map (image s) y
  | Diagonal, false => option_map (fun a => opposite (image s a)) y
  end.
Definition image_y (s : symmetry) (deltarcm : bool) (x y : option (arr xq)) : option (arr xq) :=
  match s, deltarcm with
  | EastWest, false | NorthSouth, true => option_map (image s) y
  | EastWest, true | NorthSouth, false => option_map (fun a => opposite (image s a)) y
  | Diagonal, true => option_map (image s) x
  | Diagonal, false => option_map (fun a => opposite (image s a)) x
  end.
(** The image of a parameter set: all arrays and the flow replaced by their images, everything else kept. *)
Definition image_params (s : symmetry) (p : params xq) : params xq :=
  let d := is_deltarcm p in
  {| p_dx := p_dx p; p_depth := option_map (image s) (p_depth p); p_stage := option_map (image s) (p_stage p); p_topo := option_map (image s) (p_topo p);
     p_model := p_model p;
     p_qx := image_x s d (p_qx p) (p_qy p); p_qy := image_y s d (p_qx p) (p_qy p);
     p_u := image_x s d (p_u p) (p_v p); p_v := image_y s d (p_u p) (p_v p);
     p_theta := p_theta p; p_gamma := p_gamma p; p_diff := p_diff p; p_dry := p_dry p;
     p_ct := option_map (image s) (p_ct p); p_steep := p_steep p;
     p_dist := p_dist p; p_ivec := p_ivec p; p_jvec := p_jvec p; p_iwalk := p_iwalk p; p_jwalk := p_jwalk p; p_angles := p_angles p;
     p_roi := option_map (image s) (p_roi p); p_vars := p_vars p |}.

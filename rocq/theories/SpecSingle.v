(** Single precision: values, coordinates inside the cube, resolutions that keep
    them inside the grid. *)
From Verif Require Import Base Arith Arith32 MUtils MXyz MTess SpecGeom SpecParam.
From Flocq Require Import Core IEEE754.BinarySingleNaN.
From Coq Require Import Reals Lra.
Open Scope Z_scope.

Definition not_nan (x : f32) : Prop := x <> B754_nan.
Definition one32 : f32 := fofZ arith32 1.
Definition zero32 : f32 := fofZ arith32 0.
(** the largest float below one, 1 - 2^-24 *)
Definition pred_one32 : f32 := f32_norm 16777215 (-24).
Notation div32 := (@Bdiv 24 128 f32_prec f32_emax mode_NE).
(** Test evaluated per resolution: the cell of 1 - 2^-24 is inside the grid. *)
Definition pos_finite (x : f32) : bool :=
  match x with B754_finite false _ _ _ => true | _ => false end.
Definition safe_res (gr : Z) : bool :=
  let gl := grid_len arith32 gr in
  pos_finite gl && is_finite (div32 pred_one32 gl) && 
  match f32_floor (div32 pred_one32 gl) with Some c => c <? gr | None => false end.
(** a coordinate strictly between 0 and 1 *)
Definition open01 (x : f32) : Prop := is_finite x = true /\ (0 < B2R x < 1)%R.
Definition open01p (p : point arith32) : Prop :=
  let '(x, y, z) := p in open01 x /\ open01 y /\ open01 z.
(** a call in single precision *)
Definition float_ok (c : cfg) (P0 : list (point arith32)) : Prop :=
  cfg_ok c /\ 0 < c_gr c /\ c_gr c * c_gr c * c_gr c <= int_max /\ safe_res (c_gr c) = true /\ Forall open01p P0 /\
  1 <= c_nthreads c /\ fits c (zlen P0) /\ c_k c * zlen P0 <= int_max.
Definition real_pt (p : point arith32) : pt := let '(x, y, z) := p in (B2R x, B2R y, B2R z).
(** the float a / 2^24 *)
Definition q24 (a : Z) : f32 := f32_norm a (-24).
(** a / 2^24, b / 2^24, c / 2^24 *)
Definition pt24 (a b c : Z) : point arith32 := (q24 a, q24 b, q24 c).
(** points, rows and states of a result; the floats by sign, mantissa and exponent *)
Definition bits (p : point arith32) := let '(x, y, z) := p in (B2SF (prec := 24) (emax := 128) x, B2SF (prec := 24) (emax := 128) y, B2SF (prec := 24) (emax := 128) z).
Definition view32 (r : res (outcome arith32)) := match r with Ok o => Some (map bits (o_pts _ o), o_rows _ o, o_states _ o) | Err _ => None end.

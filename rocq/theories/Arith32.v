(** IEEE 754 binary32 with rounding to nearest even (C++ float, the type used by
    the Python module and the command line), on Flocq's formalisation. *)
From Verif Require Import Base Arith.
From Flocq Require Import Core IEEE754.BinarySingleNaN.
From Coq Require Import ZArith.

Definition f32 := binary_float 24 128.
Definition f32_prec : FLX.Prec_gt_0 24 := eq_refl.
Definition f32_emax : Prec_lt_emax 24 128 := eq_refl.

Definition f32_norm (m e : Z) : f32 :=
  binary_normalize 24 128 f32_prec f32_emax mode_NE m e false.

(** Comparisons are false when an operand is NaN. *)
Definition f32_lt (a b : f32) : bool := Bltb a b.
Definition f32_le (a b : f32) : bool := Bleb a b.
Definition f32_eq (a b : f32) : bool := Beqb a b.

(** floor of (-1)^s m 2^e *)
Definition f32_floor (a : f32) : option Z :=
  match a with
  | B754_zero _ => Some 0
  | B754_finite s m e _ =>
      let z := if s then Zneg m else Zpos m in
      Some (if 0 <=? e then z * 2 ^ e else z / 2 ^ (- e))
  | _ => None
  end.

(** std::fmod: exact remainder with the sign of the dividend.  The sign of a
    zero result is not modelled (it is +0). *)
Definition f32_fmod (a b : f32) : f32 :=
  match a, b with
  | B754_finite sa ma ea _, B754_finite _ mb eb _ =>
      let e := Z.min ea eb in
      let x := (if sa then Zneg ma else Zpos ma) * 2 ^ (ea - e) in
      let y := Zpos mb * 2 ^ (eb - e) in
      f32_norm (Z.rem x y) e
  | B754_zero _, B754_finite _ _ _ _ | B754_zero _, B754_infinity _ => a
  | B754_finite _ _ _ _, B754_infinity _ => a
  | _, _ => B754_nan
  end.

Definition arith32 : Arith :=
  mkArith f32
    (@Bplus 24 128 f32_prec f32_emax mode_NE)
    (@Bminus 24 128 f32_prec f32_emax mode_NE)
    (@Bmult 24 128 f32_prec f32_emax mode_NE)
    (@Bdiv 24 128 f32_prec f32_emax mode_NE)
    Bopp f32_lt f32_le f32_eq (fun z => f32_norm z 0) f32_floor f32_fmod
    (B754_infinity false).

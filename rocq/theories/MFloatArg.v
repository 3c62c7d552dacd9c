(** Floating-point values of any size as parameter values: include/arguments.hpp:80-85
    [oss << v] for a float or double v with the default format, %g with 6 significant
    digits, and src/pybind11/pyvotess.cpp:38-39.  For integral values [show_float_int] of
    MArgs gives the same text. *)
From Verif Require Import Base MDnn MArgs MPy Arith32.
From Flocq Require Import IEEE754.BinarySingleNaN.
From Coq Require Import String Ascii.
Local Open Scope res_scope.
Local Open Scope string_scope.
Local Open Scope Z_scope.

(** a float or double: NaN, an infinity, or m 2^e (m >= 0) with a sign *)
Inductive fval := FNan | FInf (neg : bool) | FFin (neg : bool) (m e : Z).

(** x = num / den > 0.  The position of the first digit: 10^d <= x < 10^(d+1) *)
Fixpoint below_one (fuel : nat) (num den : Z) : Z :=
  match fuel with
  | O => 0
  | S fuel => if den <=? num then 0 else below_one fuel (num * 10) den - 1
  end.
Definition first_digit (num den : Z) : Z :=
  if den <=? num then num_digits (S (Z.to_nat (Z.log2 (num / den)))) (num / den) - 1
  else below_one (S (Z.to_nat (Z.log2 den))) num den.

(** the 6 digits (100000 .. 999999) and the position of the first after rounding *)
Definition digits6 (num den : Z) : Z * Z :=
  let d := first_digit num den in
  let m := if d <=? 5 then round_half_even (num * 10 ^ (5 - d)) den
           else round_half_even num (den * 10 ^ (d - 5)) in
  if m =? 1000000 then (100000, d + 1) else (m, d).

(** [nd] decimals with the value r / 10^nd, without zeros at the end *)
Definition frac_text (nd r : Z) : string :=
  if r =? 0 then "" else
  let '(r, nd) := strip_zeros (Z.to_nat nd) r nd in
  match show_nat (10 ^ nd + r) with
  | String _ t => String "." t
  | EmptyString => EmptyString
  end.
Definition exp_text (d : Z) : string :=
  append (if d <? 0 then "e-" else "e+")
         (if Z.abs d <? 10 then append "0" (show_nat (Z.abs d)) else show_nat (Z.abs d)).

(** %g: fixed form if -4 <= d < 6, otherwise with an exponent *)
Definition show_pos (num den : Z) : string :=
  let '(m, d) := digits6 num den in
  if (-4 <=? d) && (d <? 6) then
    append (show_nat (m / 10 ^ (5 - d))) (frac_text (5 - d) (m mod 10 ^ (5 - d)))
  else append (show_nat (m / 100000)) (append (frac_text 5 (m mod 100000)) (exp_text d)).

Definition show_g (x : fval) : string :=
  match x with
  | FNan => "nan"
  | FInf neg => if neg then "-inf" else "inf"
  | FFin neg m e =>
      let s := if m =? 0 then "0"
               else if 0 <=? e then show_pos (m * 2 ^ e) 1 else show_pos m (2 ^ (- e)) in
      if neg then String "-" s else s
  end.

(** args[key] = x.  Only the text matters for what is stored. *)
Definition args_set_float (a : vtargs) (key : string) (x : fval) : res vtargs :=
  args_set a key (VStr (show_g x)).

(** value.cast<float>() of a Python float (a double): rounding to nearest even; too
    large values become infinite. *)
Definition f32_val (x : f32) : fval :=
  match x with
  | B754_zero s => FFin s 0 0
  | B754_infinity s => FInf s
  | B754_nan => FNan
  | B754_finite s m e _ => FFin s (Zpos m) e
  end.
Definition to_float (x : fval) : fval :=
  match x with
  | FFin neg m e => if m =? 0 then FFin neg 0 0 else f32_val (f32_norm (if neg then - m else m) e)
  | _ => x
  end.
Definition py_setitem_float (a : vtargs) (key : string) (x : fval) : res vtargs :=
  args_set_float a key (to_float x).

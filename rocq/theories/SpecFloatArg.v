(** What a floating-point parameter value should mean. *)
From Verif Require Import Base MFloatArg.
From Flocq Require Import Core.
From Coq Require Import Reals.
Local Open Scope Z_scope.

(** the number; 0 stands for NaN and the infinities *)
Definition fvalR (x : fval) : R := match x with FFin neg m e => (if neg then - IZR m else IZR m) * bpow radix2 e | _ => 0 end.
Definition finite (x : fval) : Prop := match x with FFin _ m _ => 0 <= m | _ => False end.

Definition radix10 : radix := Build_radix 10 eq_refl.
(** rounded to 6 significant decimal digits, ties to the even digit (Flocq's rounding) *)
Definition six (x : R) : R := round radix10 (FLX_exp 6) ZnearestE x.
(** neither tiny nor large *)
Definition plain (r : R) : Prop := (r = 0 \/ 1 / 10000 <= Rabs r < 1000000)%R.
(** v is the first significant digit of r, with its sign *)
Definition leading (r : R) (v : Z) : Prop :=
  1 <= Z.abs v < 10 /\ (0 < IZR v * r)%R /\ exists e, (IZR (Z.abs v) * bpow radix10 e <= Rabs r < IZR (Z.abs v + 1) * bpow radix10 e)%R.
(** rounded to binary32 (Flocq) *)
Definition single (x : R) : R := round radix2 (FLT_exp (-149) 24) ZnearestE x.

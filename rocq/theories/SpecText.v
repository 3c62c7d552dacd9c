(** Decimal numbers and the floats next to them. *)
From Verif Require Import Base Arith Arith32 MUtils MTess SpecRead SpecParam SpecSingle.
From Flocq Require Import Core IEEE754.BinarySingleNaN.
From Coq Require Import Reals Lra.
Open Scope Z_scope.

(** the float nearest to a real number, ties to even *)
Definition nearest (v : R) : R := round radix2 (SpecFloat.fexp 24 128) ZnearestE v.
(** a point as written, and the floats next to it *)
Definition in_reach (v : R) : Prop := (bpow radix2 (-149) <= v <= 1 - bpow radix2 (-24))%R.
Definition reach3 (t : numeral * numeral * numeral) : Prop := let '(a, b, c) := t in in_reach (value a) /\ in_reach (value b) /\ in_reach (value c).
Definition rounded (t : numeral * numeral * numeral) (p : point arith32) : Prop :=
  let '(a, b, c) := t in let '(x, y, z) := p in B2R x = nearest (value a) /\ B2R y = nearest (value b) /\ B2R z = nearest (value c).
(** the parameters work for n points *)
Definition float_cfg (c : cfg) (n : Z) : Prop :=
  cfg_ok c /\ 0 < c_gr c /\ c_gr c * c_gr c * c_gr c <= int_max /\ safe_res (c_gr c) = true /\ 1 <= c_nthreads c /\ fits c n /\ c_k c * n <= int_max.

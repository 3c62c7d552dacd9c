(** What it means for an [Arith] to compute exactly: a set of finite values
    with a real value each, on which every operation is the real operation, and
    one infinite element above all of them.  Geometric theorems assume this;
    [ArithQ] and [ArithR] satisfy it, IEEE floats do not. *)
From Verif Require Import Base Arith.
From Coq Require Export Reals Lra.

Record Exact (N : Arith) := mkExact {
  fin : F N -> Prop;
  val : F N -> R;
  ex_add : forall a b, fin a -> fin b ->
    fin (fadd N a b) /\ val (fadd N a b) = (val a + val b)%R;
  ex_sub : forall a b, fin a -> fin b ->
    fin (fsub N a b) /\ val (fsub N a b) = (val a - val b)%R;
  ex_mul : forall a b, fin a -> fin b ->
    fin (fmul N a b) /\ val (fmul N a b) = (val a * val b)%R;
  ex_div : forall a b, fin a -> fin b -> val b <> 0%R ->
    fin (fdiv N a b) /\ val (fdiv N a b) = (val a / val b)%R;
  ex_neg : forall a, fin a -> fin (fneg N a) /\ val (fneg N a) = (- val a)%R;
  ex_ofZ : forall z, fin (fofZ N z) /\ val (fofZ N z) = IZR z;
  ex_lt : forall a b, fin a -> fin b -> (flt N a b = true <-> (val a < val b)%R);
  ex_le : forall a b, fin a -> fin b -> (fle N a b = true <-> (val a <= val b)%R);
  ex_eq : forall a b, fin a -> fin b -> (feq N a b = true <-> val a = val b);
  ex_floor : forall a z, fin a -> (IZR z <= val a < IZR z + 1)%R ->
    ffloor N a = Some z;
  ex_fmod : forall a b z, fin a -> fin b -> (0 < val b)%R -> (0 <= val a)%R ->
    (IZR z * val b <= val a < (IZR z + 1) * val b)%R ->
    fin (ffmod N a b) /\ val (ffmod N a b) = (val a - IZR z * val b)%R;
  ex_inf : ~ fin (finf N);
  ex_lt_inf : forall a, fin a -> flt N a (finf N) = true;
  ex_inf_lt : forall a, fin a -> flt N (finf N) a = false;
  ex_inf_inf : flt N (finf N) (finf N) = false
}.
Arguments fin {N} _ _.
Arguments val {N} _ _.

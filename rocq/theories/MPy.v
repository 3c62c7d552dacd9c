(** Model of src/pybind11/pyvotess.cpp: the Python module. *)
From Verif Require Import Base Arith MUtils MDnn MArgs MTess.
From Coq Require Import String.
Local Open Scope res_scope.

(** Python values as arguments of vtargs.__setitem__.  Of the floats only those
    with an integral value are modelled. *)
Inductive pyval := PyInt (z : Z) | PyBool (b : bool) | PyFloatInt (z : Z) | PyStr (s : string) | PyOther.

(** value.cast<float>() of an integral value: 24 significant bits, half to even *)
Definition f32_int (z : Z) : Z :=
  let e := Z.log2 (Z.abs z) - 23 in
  if e <=? 0 then z else Z.sgn z * (round_half_even (Z.abs z) (2 ^ e) * 2 ^ e).

(** 32-45 __setitem__.  The first test, isinstance<int_>, also holds for a Python
    bool, which is a subclass of int; cast<int>() throws when out of range. *)
Definition py_setitem (a : vtargs) (key : string) (v : pyval) : res vtargs :=
  match v with
  | PyInt z => if in_int z then args_set a key (VInt z) else Err EThrow
  | PyBool b => args_set a key (VInt (b2z b))
  | PyFloatInt z => args_set a key (VFloatInt (f32_int z))
  | PyStr s => args_set a key (VStr s)
  | PyOther => Err EThrow
  end.

Section Py.
Variable N : Arith.
(** Python floats and their conversion to the C++ floating-point type *)
Variable D : Type.
Variable conv : D -> F N.

(** 81-92 tesellate.  The sequence is converted to a new std::vector
    (pybind11/stl.h), so the sort at src/votess.ipp:669 is not seen by the caller.
    Returned: the caller's sequence after the call, and the object.  The default
    device is gpu (88), unlike include/votess.hpp:19. *)
Definition conv3 (p : D * D * D) : point N := let '(x, y, z) := p in (conv x, conv y, conv z).
Definition py_tesellate (w : world N) (a : vtargs) (dev : option device) (xyz : list (D * D * D))
  : res (list (D * D * D) * dnn) :=
  o <-r tesellate N w a (match dev with Some d => d | None => gpu end) (map conv3 xyz) ;;
  Ok (xyz, o_dnn N o).
End Py.

(** 63-68, 52-56: d[i][m].  Nothing raises IndexError: the index goes to
    operator[] of std::vector as it is. *)
Definition py_get (d : dnn) (i m : Z) : res Z := row_get d i m.

(** [for x in d[i]]: Python calls __getitem__ with 0, 1, 2, ... until IndexError.
    The entries seen and how it ends.  [d_list] is finite, so |list| + 1 steps are
    enough. *)
Fixpoint py_for (fuel : nat) (d : dnn) (i m : Z) : list Z * err :=
  match fuel with
  | O => ([], EDiverge)
  | S fuel =>
      match py_get d i m with
      | Ok x => let '(l, e) := py_for fuel d i (m + 1) in (x :: l, e)
      | Err e => ([], e)
      end
  end.
Definition py_for_row (d : dnn) (i : Z) : list Z * err := py_for (S (List.length (d_list d))) d i 0.

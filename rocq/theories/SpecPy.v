(** Assignments from Python and the C++ assignments they stand for. *)
From Verif Require Import Base MArgs MPy.
From Coq Require Import String.

Definition py_assign (a : vtargs) (ops : list (string * pyval)) : res vtargs := rfold ops (fun a '(k, v) => py_setitem a k v) a.

(** the C++ value of a Python value *)
Definition as_cpp (v : pyval) : option argval :=
  match v with PyInt z => Some (VInt z) | PyBool b => Some (VBool b) | PyStr s => Some (VStr s) | _ => None end.
Definition translates (po : string * pyval) (o : string * argval) : Prop := fst po = fst o /\ as_cpp (snd po) = Some (snd o).

(** ** floats with an integral value *)
(** [y] is a float: at most 24 significant bits *)
Definition float_int (y : Z) : Prop := exists m e, 0 <= e /\ Z.abs m < 2 ^ 24 /\ y = m * 2 ^ e.
(** [y] is the float nearest to [z]; between two floats at the same distance, which
    are then neighbours, the one with even significand *)
Definition nearest_float (z y : Z) : Prop := float_int y /\
  forall y', float_int y' -> y' <> y -> Z.abs (z - y) < Z.abs (z - y') \/
    (Z.abs (z - y) = Z.abs (z - y') /\ exists m e, 0 <= e /\ Z.even m = true /\ y = m * 2 ^ e /\ Z.abs (y' - y) = 2 ^ e).

(** the caller's points with each coordinate converted *)
Definition as_given {D F} (conv : D -> F) (xyz : list (D * D * D)) (P : list (F * F * F)) : Prop :=
  Forall2 (fun d p => fst (fst p) = conv (fst (fst d)) /\ snd (fst p) = conv (snd (fst d)) /\ snd p = conv (snd d)) xyz P.

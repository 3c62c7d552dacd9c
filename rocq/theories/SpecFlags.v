(** Sequences of calls on a state byte. *)
From Verif Require Import Base MUtils.

(** ** Sequences of operations *)
Inductive flag_op := FSet (s : Z) | FClear (s : Z) | FReset.
(** the API calls, on the byte *)
Definition apply_op (b : Z) (o : flag_op) : Z :=
  match o with
  | FSet s => st_set_true b s
  | FClear s => st_set_false b s
  | FReset => st_reset
  end.
Definition apply_ops (l : list flag_op) (b : Z) : Z := fold_left apply_op l b.
(** specification: the value flag [t] should have after the operations, newest
    first, were applied to an object where it was [old] *)
Fixpoint last_value (newest_first : list flag_op) (old : bool) (t : Z) : bool :=
  match newest_first with
  | [] => old
  | FSet s :: l => if s =? t then true else last_value l old t
  | FClear s :: l => if s =? t then false else last_value l old t
  | FReset :: _ => false
  end.
Definition op_ok (o : flag_op) : Prop :=
  match o with FSet s | FClear s => 0 <= s < 8 | FReset => True end.

(** all flags *)
Definition flags : list Z := [security_radius_reached; error_p_overflow; error_t_overflow; error_infinite_boundary; error_nonvalid_vertices; error_nonvalid_neighbor; error_occurred].

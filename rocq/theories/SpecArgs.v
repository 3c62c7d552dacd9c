(** Sequences of calls on parameter objects, and characters of texts. *)
From Verif Require Import Base MArgs.
From Coq Require Import String Ascii.

(** a program of assignments, run until the first exception *)
Definition run_assign (a : vtargs) (ops : list (string * argval)) : res vtargs :=
  rfold ops (fun a '(k, v) => args_set a k v) a.
(** the last value given to a key *)
Definition last_value (key : string) (ops : list (string * argval)) : option argval :=
  fold_left (fun r '(k, v) => if String.eqb k key then Some v else r) ops None.
Fixpoint all_chars (P : ascii -> Prop) (s : string) : Prop :=
  match s with EmptyString => True | String c s => P c /\ all_chars P s end.

(** Whole numbers at the start of a text; independent of the model. *)
From Coq Require Import ZArith String Ascii List.
Import ListNotations.
Local Open Scope Z_scope.

(** blank, tab, line feed, vertical tab, form feed, carriage return *)
Definition blank (c : ascii) : Prop := In (nat_of_ascii c) [9; 10; 11; 12; 13; 32]%nat.
Fixpoint every (P : ascii -> Prop) (s : string) : Prop := match s with EmptyString => True | String c t => P c /\ every P t end.
(** the text of decimal digits and their value *)
Definition digit_of (d : Z) : ascii := ascii_of_nat (Z.to_nat (48 + d)).
Definition digits_text (ds : list Z) : string := fold_right (fun d s => String (digit_of d) s) EmptyString ds.
Definition digits_value (ds : list Z) : Z := fold_left (fun v d => 10 * v + d) ds 0.
Definition is_digits (ds : list Z) : Prop := ds <> [] /\ Forall (fun d => 0 <= d <= 9) ds.
(** the text does not go on with a digit *)
Definition no_digit_next (s : string) : Prop := match s with EmptyString => True | String c _ => forall d, 0 <= d <= 9 -> c <> digit_of d end.
(** s is white space, a sign if any, digits, anything; z is the number *)
Definition number (s : string) (z : Z) : Prop :=
  exists blanks ds rest, every blank blanks /\ is_digits ds /\ no_digit_next rest /\
  ((s = append blanks (append (digits_text ds) rest) /\ z = digits_value ds) \/
   (s = append blanks (String "+" (append (digits_text ds) rest)) /\ z = digits_value ds) \/
   (s = append blanks (String "-" (append (digits_text ds) rest)) /\ z = - digits_value ds)).

(** Decimal numbers as written in a file. *)
From Coq Require Import ZArith List String Ascii Reals.
Import ListNotations.
Local Open Scope string_scope.
Local Open Scope Z_scope.

Definition digit (d : Z) : ascii := ascii_of_nat (Z.to_nat (48 + d)).
Fixpoint digits (l : list Z) : string := match l with [] => "" | d :: l => String (digit d) (digits l) end.
Definition is_digit (d : Z) : Prop := 0 <= d <= 9.
(** the number a list of digits stands for *)
Definition number (l : list Z) : Z := fold_left (fun a d => 10 * a + d) l 0.

Inductive sign := NoSign | Plus | Minus.
Definition write_sign (s : sign) : string := match s with NoSign => "" | Plus => "+" | Minus => "-" end.
Definition sgn (s : sign) : Z := match s with Minus => -1 | _ => 1 end.

(** sign, digits, digits behind the point (if there is one), exponent *)
Record numeral := mkNum { n_sign : sign; n_int : list Z; n_frac : option (list Z); n_exp : option (bool * sign * list Z) }.
Definition write (n : numeral) : string :=
  write_sign (n_sign n) ++ digits (n_int n) ++
  (match n_frac n with None => "" | Some f => "." ++ digits f end) ++
  (match n_exp n with None => "" | Some (up, s, e) => (if up then "E" else "e") ++ write_sign s ++ digits e end).
Definition frac (n : numeral) : list Z := match n_frac n with None => [] | Some f => f end.
Definition exponent (n : numeral) : Z := match n_exp n with None => 0 | Some (_, s, e) => sgn s * number e end.
Definition well_written (n : numeral) : Prop :=
  Forall is_digit (n_int n) /\ Forall is_digit (frac n) /\ (n_int n <> [] \/ frac n <> []) /\
  match n_exp n with None => True | Some (_, _, e) => Forall is_digit e /\ e <> [] end.
(** the value *)
Definition value (n : numeral) : R :=
  (IZR (sgn (n_sign n)) * IZR (number (n_int n ++ frac n)) * powerRZ 10 (exponent n - Z.of_nat (List.length (frac n))))%R.

Definition blank (c : ascii) : Prop := c = " "%char \/ c = ascii_of_nat 9 \/ c = ascii_of_nat 13.
Fixpoint blanks (s : string) : Prop := match s with EmptyString => True | String c s => blank c /\ blanks s end.
(** nothing or a blank follows *)
Definition stops (s : string) : Prop := match s with EmptyString => True | String c _ => blank c end.

(** a line with three numbers; what comes after them does not matter *)
Inductive three : numeral * numeral * numeral -> string -> Prop :=
| three_intro a b c w1 w2 w3 rest : well_written a -> well_written b -> well_written c ->
    blanks w1 -> blanks w2 -> w2 <> "" -> blanks w3 -> w3 <> "" -> stops rest ->
    three (a, b, c) (w1 ++ write a ++ w2 ++ write b ++ w3 ++ write c ++ rest).

(** no newline *)
Fixpoint one_line (s : string) : Prop := match s with EmptyString => True | String c s => c <> ascii_of_nat 10 /\ one_line s end.
(** lines, each with its newline *)
Definition file_text (lines : list string) : string := List.fold_right (fun l s => l ++ String (ascii_of_nat 10) s) "" lines.

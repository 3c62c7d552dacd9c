(** Rows of neighbours: what the jagged array and its text forms should show. *)
From Coq Require Export ZArith String Ascii List.
Export ListNotations.
Open Scope Z_scope.

(** the entries before the undefined marker -32 *)
Fixpoint visible (row : list Z) : list Z :=
  match row with
  | [] => []
  | x :: r => if x =? -32 then [] else x :: visible r
  end.

Definition total (rows : list (list Z)) : Z := Z.of_nat (List.length (concat rows)).

(** one line per row, each entry followed by a blank *)
Section Text.
Variable show : Z -> string.
Definition row_text (fin : string) (row : list Z) : string :=
  fold_right (fun x s => append (show x) (append fin s)) EmptyString row.
Definition newline : string := String (ascii_of_nat 10) EmptyString.
Definition lines_text (rows : list (list Z)) : string :=
  fold_right (fun r s => append (row_text " " r) (append newline s)) EmptyString rows.
(** "{", one "  {...}" line per row, "}" *)
Definition braces_text (rows : list (list Z)) : string :=
  append "{" (append newline
    (fold_right (fun r s => append "  {" (append (row_text ", " r) (append "}" (append newline s))))
       (append "}" newline) rows)).
End Text.

(** n entries from position a on *)
Definition slice {A} (l : list A) (a n : Z) : list A := firstn (Z.to_nat n) (skipn (Z.to_nat a) l).

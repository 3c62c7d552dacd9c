(** The rows that the two text forms of a result show. *)
From Verif Require Import SpecDnn.

(** up to the first empty row behind row 0 the rows are shown one by one; that row is not
    shown, and all entries behind it come in one row *)
Fixpoint shown_tail (rows : list (list Z)) : list (list Z) :=
  match rows with
  | [] => []
  | [] :: rest => match concat rest with [] => [] | l => [l] end
  | r :: rest => r :: shown_tail rest
  end.
Definition shown (rows : list (list Z)) : list (list Z) :=
  match rows with [] => [[]] | r :: rest => r :: shown_tail rest end.

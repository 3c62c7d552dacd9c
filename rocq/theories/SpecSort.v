(** Specification of a stable sort by an integer key, independent of the model. *)
From Coq Require Export ZArith List Bool Permutation Sorted.
Export ListNotations.
Open Scope Z_scope.

Definition sorted_by {A} (key : A -> Z) (l : list A) : Prop :=
  StronglySorted (fun a b => key a <= key b) l.

(** [l'] is [l] sorted by [key], and the elements with one key keep their order *)
Definition stable_sort_of {A} (key : A -> Z) (l l' : list A) : Prop :=
  Permutation l l' /\ sorted_by key l' /\
  forall c, filter (fun x => key x =? c) l' = filter (fun x => key x =? c) l.

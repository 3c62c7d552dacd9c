(** C95: the byte of shared edges in boundary::compute. *)
From Verif Require Import Base MUtils PVst.
From Coq Require Import List.
Local Open Scope Z_scope.

(** ** C95.  After set_true for the positions bs, in any order and however often, get tells
    which were set, get_nshared_edges counts them, and get_shared_position is the only one
    set, the only one not set, or 255. *)
Theorem C95_get : forall bs b, Forall (fun b => 0 <= b <= 7) bs -> 0 <= b <= 7 ->
  (In b bs -> vs_get (fold_left vs_set_true bs 0) b = 1) /\ (~ In b bs -> vs_get (fold_left vs_set_true bs 0) b = 0).
Proof. exact vs_made_get. Qed.
Print Assumptions C95_get.
Theorem C95_count : forall bs on off, Forall (fun b => 0 <= b <= 2) bs -> NoDup on -> NoDup off -> (forall b, In b on <-> In b bs) -> (forall b, In b off <-> 0 <= b <= 2 /\ ~ In b bs) ->
  vs_nshared (fold_left vs_set_true bs 0) = zlen on /\
  match on, off with
  | [b], _ | _, [b] => vs_position (fold_left vs_set_true bs 0) = b
  | _, _ => vs_position (fold_left vs_set_true bs 0) = 255
  end.
Proof. exact vs_count. Qed.
Print Assumptions C95_count.

Example C95_ex : let v := fold_left vs_set_true [2; 0; 2] 0 in vs_get v 0 = 1 /\ vs_get v 1 = 0 /\ vs_nshared v = 2 /\ vs_position v = 1 /\
  (forall b, In b [0; 2] <-> In b [2; 0; 2]) /\ (forall b, In b [1] <-> 0 <= b <= 2 /\ ~ In b [2; 0; 2]).
Proof. cbv zeta. repeat (split; [reflexivity|]). split; [intros b; simpl; tauto|]. intros b. simpl. Lia.lia. Qed.

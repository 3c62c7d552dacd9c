(** Results of whole calls. *)
From Verif Require Import Base Arith Exact MUtils MDnn MTess SpecGeom SpecVor SpecRows SpecPoints.
From Coq Require Import Permutation.

(** row i of the returned object contains j *)
Definition lists (d : dnn) (i j : Z) : Prop := exists sz m, row_size d i = Ok sz /\ (0 <= m < sz)%Z /\ row_get d i m = Ok j.

Section R.
Variable N : Arith.
Variable E : Exact N.
Notation valp := (valp N E).
(** a call whose result is complete: one row per point, all exact, no flags *)
Definition complete (P0 : list (point N)) (o : outcome N) : Prop :=
  Permutation P0 (o_pts N o) /\ zlen (o_rows N o) = zlen P0 /\ zlen (o_states N o) = zlen P0 /\ shows (o_dnn N o) (o_rows N o) /\
  (forall i b, znth (o_states N o) i = Some b -> errorless b) /\
  forall i row, znth (o_rows N o) i = Some row -> exact_row (map valp (o_pts N o)) i row.
End R.

(** recompute rounds *)
Section Rec.
Variable N : Arith.
Variable g : grid N.
Notation rstate := (cfg * list Z * list (list Z) * list Z)%type.
(** [goes_on j s s']: j rounds from s lead to s', none of them the last one *)
Inductive goes_on : nat -> rstate -> rstate -> Prop :=
| on_0 s : goes_on 0 s s
| on_S j sched c ind rows st c1 ind1 rows1 st1 s' :
    recompute_round N sched c g ind rows st = Ok (ind1, st1, rows1, c1, false) ->
    goes_on j (c1, ind1, rows1, st1) s' -> goes_on (S j) (c, ind, rows, st) s'.
End Rec.

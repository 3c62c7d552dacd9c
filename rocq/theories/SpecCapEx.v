(** The centre of the cube and 13 points around it (units of 1/16).  The cell of the
    centre has a facet with each of them and one on each wall. *)
From Verif Require Import Base SpecGeom SpecCert.
Local Open Scope Z_scope.
Definition crowd : list zpt :=
  [(8, 8, 8); (15, 15, 15); (15, 15, 1); (15, 1, 15); (15, 1, 1); (1, 15, 15); (1, 15, 1); (1, 1, 15); (1, 1, 1); (8, 15, 15); (15, 15, 8); (1, 8, 15); (1, 1, 8); (15, 8, 1)].
Definition crowd_pts : list pt := map (upt 16) crowd.

(** C61: parameters that cannot work. *)
From Verif Require Import Base Arith PBase Prog MUtils MHeap MXyz MKnn MBoundary MCell MDnn MArgs MTess Exact ArithQ PExact SpecGeom SpecSort SpecSlot
  PXyz PRanges PTessRun PNeed PropsCell PropsTess PropsGeom.
From Coq Require Import QArith Qreals.
Local Open Scope Z_scope.

(** ** C61.  A call on the CPU with at least one point returns only if the grid
    resolution is positive and its cube fits an int, k >= 1, the capacities hold the
    planes and triangles of the unit cube, there is a thread, and the buffer sizes
    fit; any arithmetic, any schedule. *)
Theorem C61_necessary : forall (N : Arith) (w : world N) c P0 o, 0 <= c_nthreads c -> P0 <> [] -> tess_core N w c cpu P0 = Ok o ->
  let cap := first_subsize (chunk_of c (zlen P0)) (zlen P0) in
  1 <= c_gr c /\ c_gr c * c_gr c * c_gr c <= int_max /\ 1 <= c_k c /\ 6 <= c_pmax c /\ 8 <= c_tmax c /\ 1 <= c_nthreads c /\
  cap * c_k c <= int_max /\ cap * c_pmax c * 4 <= int_max /\ cap * c_tmax c * 3 <= int_max.
Proof. exact need_final. Qed.
Print Assumptions C61_necessary.

(** "Such parameters are rejected by an exception" is false: undefined behaviour
    (division by zero, accesses out of bounds). *)
Theorem C61_refuted :
  Forall (fun c => tess_core arithQ (ex_world [] 4 false) c cpu ex_row = Err EUB)
    [mkCfg 2 0 9 14 2 1 false 0 false; mkCfg 0 1 9 14 2 1 false 0 false; mkCfg 2 1 5 14 2 1 false 0 false; mkCfg 2 1 9 7 2 1 false 0 false;
     mkCfg 2 1 9 14 0 1 false 0 false; mkCfg 2 1291 9 14 2 1 false 0 false].
Proof. repeat (apply Forall_cons; [vm_compute; reflexivity|]). apply Forall_nil. Qed.
Print Assumptions C61_refuted.
(** the smallest values that return *)
Example C61_ex : match tess_core arithQ (ex_world [] 4 false) (mkCfg 1 1 6 8 1 1 false 0 false) cpu ex_row with Ok o => o_rows _ o = [[1]; [0]; [1]] /\ o_states _ o = [16; 16; 16] | Err _ => False end.
Proof. vm_compute. split; reflexivity. Qed.

(** C44: sizes and int. *)
From Verif Require Import Base Arith PBase Prog MUtils MHeap MXyz MKnn MCell MDnn MArgs MTess ArithQ SpecSlot PXyz PSlotHost PTessRun PTessFinal PSize PropsCell PropsTess.
Local Open Scope Z_scope.

(** ** C44 (first half).  If the buffers fit, the call returns: no int computation
    overflows and no access leaves a buffer. *)
Theorem C44_fits_returns : forall (N : Arith) w c P0 P ids offs,
  cfg_ok c -> 0 < c_gr c -> in_range_ids N (c_gr c) P0 -> xyz_sort N (c_gr c) P0 = Ok (P, ids, offs) ->
  c_k c * zlen P <= int_max -> c_recompute c = false -> 1 <= c_nthreads c -> fits c (zlen P) ->
  exists o, tess_core N w c cpu P0 = Ok o /\ zlen (o_rows N o) = zlen P.
Proof. exact fits_returns. Qed.
Print Assumptions C44_fits_returns.
Example C44_fits_ex : fits (mkCfg 64 16 32 32 4 1 false 0 false) 16777215 /\ ~ fits (mkCfg 64 16 32 32 4 1 false 0 false) 16777216.
Proof. split; [vm_compute; repeat split; discriminate|]. intros (_ & _ & H & _). vm_compute in H. congruence. Qed.

(** ** C44 (second half) is false.  Sizes that do not fit are not rejected: the
    product is a signed overflow, undefined behaviour.  With the default parameters
    this happens from 16777216 points on. *)
Theorem C44_overflow_refuted : forall (N : Arith) w c P0 P ids offs,
  xyz_sort N (c_gr c) P0 = Ok (P, ids, offs) -> 0 <= c_k c -> 0 <= c_pmax c -> 0 <= c_tmax c ->
  zlen P + 1 <= int_max -> ~ fits c (zlen P) -> tess_core N w c cpu P0 = Err EUB.
Proof. exact too_big. Qed.
Print Assumptions C44_overflow_refuted.
Theorem C44_count_refuted : forall (N : Arith) w c P0 P ids offs,
  xyz_sort N (c_gr c) P0 = Ok (P, ids, offs) -> c_use_chunking c = false -> int_max < zlen P + 1 -> tess_core N w c cpu P0 = Err EUB.
Proof. exact too_many. Qed.
Print Assumptions C44_count_refuted.
(** four points with k = 536870912 *)
Example C44_overflow_ex : exists ids offs P, xyz_sort arithQ 1 ex4_pts = Ok (P, ids, offs) /\ zlen P + 1 <= int_max /\ ~ fits (mkCfg 536870912 1 9 14 1 1 false 0 false) (zlen P).
Proof. do 3 eexists. split; [vm_compute; reflexivity|]. split; [vm_compute; discriminate|]. intros (_ & H & _). vm_compute in H. congruence. Qed.

(** C83: in robust position single precision lists exactly the cells that share a face,
    the neighbours of exact arithmetic. *)
From Verif Require Import Base Arith ArithQ Exact PBase Prog MUtils MHeap MXyz MKnn MBoundary MCell MDnn MArgs MTess Arith32 SpecPoints SpecGeom SpecHeap SpecVor SpecKnn SpecRows SpecAny SpecDev SpecFlags SpecNear SpecRobust SpecParam SpecCert
  PFloat PFloatRows PRobustFace PRobustCanon PCert PropsTess PropsGeom PropsCanon PropsFloat PropsNear PropsGpu32 PropsRobust.
From Flocq Require Import IEEE754.BinarySingleNaN.
From Coq Require Import Reals Lra Permutation QArith Qreals.
Import SpecGeom.
Local Open Scope Z_scope.

(** ** C83.  In robust position cells do not touch without a common face: no four cells
    meet along an edge, no five in a point.  So [exact_cell], which leaves open whether a
    cell that is only touched is listed, fixes the row. *)
Theorem C83_contact : forall S i rho j p q x, robust S i rho -> znth S i = Some p -> znth S j = Some q -> j <> i -> touches S p q x -> face S i j.
Proof. intros S i rho j p q x HR Ep Eq N T. exact (robust_face S i rho p Ep HR j q x (conj (znth_some _ _ _ Eq) N) Eq T). Qed.
Print Assumptions C83_contact.
Theorem C83_row : forall S i rho row, robust S i rho -> 0 <= i < zlen S -> exact_cell S i row -> forall j, In j row <-> j <> i /\ face S i j.
Proof. exact robust_row. Qed.
Print Assumptions C83_row.
Theorem C83_generic : forall S, (forall i, 0 <= i < zlen S -> exists rho, robust S i rho) -> generic S.
Proof. exact robust_generic. Qed.
Print Assumptions C83_generic.

(** The rows of a single-precision call on points in robust position: the face
    neighbours in the Voronoi diagram of the floats as real numbers, whatever the grid,
    k, threads and chunks; no error state. *)
Theorem C83_neighbours : forall c P0 (w : world arith32), float_ok c P0 -> c_k c < zlen P0 -> roomy c (zlen P0 - 1) -> (c_recompute c = true \/ zlen P0 - 1 <= c_k c) ->
  (forall i, 0 <= i < zlen P0 -> exists rho, robust (map real_pt P0) i rho) ->
  exists o, tess_core arith32 w c cpu P0 = Ok o /\ Permutation P0 (o_pts arith32 o) /\
  (forall i row b, znth (o_rows arith32 o) i = Some row -> znth (o_states arith32 o) i = Some b -> errorless b /\ NoDup row /\ forall j, In j row <-> j <> i /\ face (map real_pt (o_pts arith32 o)) i j) /\
  forall p q, neighbour (map real_pt (o_pts arith32 o)) (o_rows arith32 o) p q <->
    In p (map real_pt P0) /\ In q (map real_pt P0) /\ p <> q /\ common_face (map real_pt P0) p q.
Proof. exact robust_neighbours. Qed.
Print Assumptions C83_neighbours.
Theorem C83_symmetric : forall c P0 (w : world arith32), float_ok c P0 -> c_k c < zlen P0 -> roomy c (zlen P0 - 1) -> (c_recompute c = true \/ zlen P0 - 1 <= c_k c) ->
  (forall i, 0 <= i < zlen P0 -> exists rho, robust (map real_pt P0) i rho) ->
  exists o, tess_core arith32 w c cpu P0 = Ok o /\
  forall i j ri rj, znth (o_rows arith32 o) i = Some ri -> znth (o_rows arith32 o) j = Some rj -> In j ri -> In i rj.
Proof. exact robust_symmetric. Qed.
Print Assumptions C83_symmetric.
(** the same neighbours as a call in exact arithmetic on the same positions *)
Theorem C83_as_exact : forall c P0 (w : world arith32), float_ok c P0 -> c_k c < zlen P0 -> roomy c (zlen P0 - 1) -> (c_recompute c = true \/ zlen P0 - 1 <= c_k c) ->
  (forall i, 0 <= i < zlen P0 -> exists rho, robust (map real_pt P0) i rho) ->
  forall (N : Arith) (E : Exact N) (w' : world N) c' P0', Permutation (map real_pt P0) (map (valp N E) P0') -> enough N E c' P0' ->
  exists o o', tess_core arith32 w c cpu P0 = Ok o /\ tess_core N w' c' cpu P0' = Ok o' /\
  forall p q, neighbour (map real_pt (o_pts arith32 o)) (o_rows arith32 o) p q <-> neighbour (map (valp N E) (o_pts N o')) (o_rows N o') p q.
Proof. exact robust_as_exact. Qed.
Print Assumptions C83_as_exact.
(** the same neighbours for every order of the points and all parameters *)
Theorem C83_order_free : forall (w w' : world arith32) c c' P0 P0', Permutation P0 P0' -> float_ok c P0 -> float_ok c' P0' -> c_k c < zlen P0 -> c_k c' < zlen P0 ->
  roomy c (zlen P0 - 1) -> roomy c' (zlen P0 - 1) -> (c_recompute c = true \/ zlen P0 - 1 <= c_k c) -> (c_recompute c' = true \/ zlen P0 - 1 <= c_k c') ->
  (forall i, 0 <= i < zlen P0 -> exists rho, robust (map real_pt P0) i rho) ->
  exists o o', tess_core arith32 w c cpu P0 = Ok o /\ tess_core arith32 w' c' cpu P0' = Ok o' /\
  forall p q, neighbour (map real_pt (o_pts arith32 o)) (o_rows arith32 o) p q <-> neighbour (map real_pt (o_pts arith32 o')) (o_rows arith32 o') p q.
Proof. exact robust_perm_calls. Qed.
Print Assumptions C83_order_free.

(** The points of C82_case, robust with rho = 1/8, and the same positions as fractions
    in another order, with another grid, k = 2 of 3 and recompute: in both results the
    middle point has both others as neighbours and those only the middle one. *)
Definition ex_qline : list (point arithQ) := [ptq 14 4 4; ptq 4 4 4; ptq 8 4 4].
Definition ex_qcfg : cfg := mkCfg 2 2 9 14 1 1 true 2 true.
Example C83_case : on_line (1 / 8) (map real_pt ex_fline) /\ Permutation (map real_pt ex_fline) (map (valp arithQ arithQ_exact) ex_qline) /\ enough arithQ arithQ_exact ex_qcfg ex_qline /\
  view32 (tess_core arith32 (w32 []) (cfg32g 2) cpu ex_fline) = Some (map bits ex_fline, [[1]; [0; 2]; [1]], [0; 0; 0]) /\
  ex_view (tess_core arithQ (ex_world [] 4 false) ex_qcfg cpu ex_qline) = Some ([ptq 4 4 4; ptq 14 4 4; ptq 8 4 4], [2; 2; 0; 1], [0; 1; 2; 4], [0; 0; 0]).
Proof.
  destruct C82_case as (_ & _ & _ & L & V). split; [exact L|]. split; [|split; [|split; [exact V|vm_compute; reflexivity]]].
  - unfold ex_fline, ex_qline. cbn [map]. rewrite !real_pt24 by lia.
    replace (4194304 / 16777216)%R with (1 / 4)%R by lra. replace (8388608 / 16777216)%R with (1 / 2)%R by lra. replace (14680064 / 16777216)%R with (7 / 8)%R by lra.
    replace (valp arithQ arithQ_exact (ptq 4 4 4)) with (1 / 4, 1 / 4, 1 / 4)%R by (unfold valp, val, ptq; simpl; unfold Q2R; simpl; f_equal; [f_equal|]; lra).
    replace (valp arithQ arithQ_exact (ptq 8 4 4)) with (1 / 2, 1 / 4, 1 / 4)%R by (unfold valp, val, ptq; simpl; unfold Q2R; simpl; f_equal; [f_equal|]; lra).
    replace (valp arithQ arithQ_exact (ptq 14 4 4)) with (7 / 8, 1 / 4, 1 / 4)%R by (unfold valp, val, ptq; simpl; unfold Q2R; simpl; f_equal; [f_equal|]; lra).
    exact (Permutation_sym (Permutation_cons_append [_; _] _)).
  - right. unfold api_full. split; [discriminate|]. split; [split; discriminate|]. split; [split; discriminate|]. split; [discriminate|]. split; [discriminate|].
    split; [reflexivity|]. split; [discriminate|]. split; [intros q Hq; simpl in Hq; repeat (destruct Hq as [<-|Hq]; [inq|]); contradiction|].
    split; [reflexivity|]. split; [discriminate|]. vm_compute. repeat split; discriminate.
Qed.

(** Robust position can be tested.  [certb U S i] is a test in integers, of about
    n (n + 5)^3 / 6 sign and size comparisons, for point i among the points a / U. *)
Theorem C83_certificate : forall U S i, 0 < U -> certb U S i = true -> exists rho, robust (map (upt U) S) i rho.
Proof. exact cert_robust. Qed.
Print Assumptions C83_certificate.
(** a call on points that pass the test *)
Theorem C83_checked : forall c P0 (w : world arith32) U S, float_ok c P0 -> c_k c < zlen P0 -> roomy c (zlen P0 - 1) -> (c_recompute c = true \/ zlen P0 - 1 <= c_k c) ->
  0 < U -> map real_pt P0 = map (upt U) S -> certs U S = true ->
  exists o, tess_core arith32 w c cpu P0 = Ok o /\ Permutation P0 (o_pts arith32 o) /\
  (forall i row b, znth (o_rows arith32 o) i = Some row -> znth (o_states arith32 o) i = Some b -> errorless b /\ NoDup row /\ forall j, In j row <-> j <> i /\ face (map real_pt (o_pts arith32 o)) i j) /\
  forall p q, neighbour (map real_pt (o_pts arith32 o)) (o_rows arith32 o) p q <->
    In p (map real_pt P0) /\ In q (map real_pt P0) /\ p <> q /\ common_face (map real_pt P0) p q.
Proof. exact checked_neighbours. Qed.
Print Assumptions C83_checked.

(** five points in space; the second and the fourth cell do not meet.  (Tried outside
    Coq on random points: 20 of 20 sets of 6 or 10 points pass, 7 of 10 of 14 points; in
    the others most points pass.) *)
Definition ex_z5 : list zpt := [(3, 4, 9); (12, 5, 3); (7, 11, 5); (5, 13, 12); (13, 10, 11)].
Definition ex_f5 : list (point arith32) := [pt24 3145728 4194304 9437184; pt24 12582912 5242880 3145728; pt24 7340032 11534336 5242880; pt24 5242880 13631488 12582912; pt24 13631488 10485760 11534336].
Example C83_checked_case : float_ok (cfg32 4) ex_f5 /\ roomy (cfg32 4) 4 /\ map real_pt ex_f5 = map (upt 16) ex_z5 /\ certs 16 ex_z5 = true /\
  rows32 (tess_core arith32 (w32 []) (cfg32 4) cpu ex_f5) = Some ([[2; 3; 1; 4]; [2; 4; 0]; [3; 1; 4; 0]; [2; 4; 0]; [2; 3; 1; 0]], [0; 0; 0; 0; 0]).
Proof.
  split; [float_case ltac:(by24)|]. split; [vm_compute; split; discriminate|]. split; [|split; vm_compute; reflexivity].
  unfold ex_f5, ex_z5. cbn [map upt]. rewrite !real_pt24 by lia. repeat (apply f_equal2; [apply f_equal2; [apply f_equal2|]; lra|]). reflexivity.
Qed.

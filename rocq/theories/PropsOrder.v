(** C85: in robust position, with distances apart, single precision returns the rows of
    exact arithmetic entry for entry. *)
From Verif Require Import Base Arith ArithQ Exact PBase Prog MUtils MXyz MTess MDnn MArgs Arith32 SpecPoints SpecKnn SpecRobust SpecArgs SpecApi SpecDnn SpecGeom SpecVor SpecRows SpecSort SpecNear SpecDev SpecParam SpecAny SpecCert SpecFace SpecOrder
  Arith32 PFloat PFloatRows PCert PText PRobustText PRobustOrder PropsTess PropsGeom PropsCanon PropsFloat PropsNear PropsGpu32 PropsApi PropsFace PropsEnd.
From Flocq Require Import Core IEEE754.BinarySingleNaN.
From Coq Require Import Reals Lra Lia Permutation QArith Qreals.
Import SpecGeom.
Local Open Scope Z_scope.

(** ** C85.  [spread]: the distances from each point to the others are more than 2^-20
    apart.  Then the rows are the true neighbours from the nearest to the farthest. *)
Theorem C85_rows : forall c P0 (w : world arith32), full_cfg c (zlen P0) -> Forall open01p P0 -> all_robust (map real_pt P0) -> spread (map real_pt P0) ->
  exists o, tess_core arith32 w c cpu P0 = Ok o /\ stable_sort_of (fun p => cell32 (c_gr c) (real_pt p)) P0 (o_pts arith32 o) /\ ordered_face_rows (map real_pt (o_pts arith32 o)) (o_rows arith32 o) /\ 
    Forall errorless (o_states arith32 o) /\ shows (o_dnn arith32 o) (o_rows arith32 o).
Proof. exact ordered_core. Qed.
Print Assumptions C85_rows.
(** there is one such list of rows *)
Theorem C85_unique : forall S rows rows', ordered_face_rows S rows -> ordered_face_rows S rows' -> rows = rows'.
Proof. exact ordered_unique. Qed.
Print Assumptions C85_unique.
(** so k, recompute, capacities, threads and schedules do not matter *)
Theorem C85_same : forall (w w' : world arith32) c c' P0, full_cfg c (zlen P0) -> full_cfg c' (zlen P0) -> c_gr c' = c_gr c -> Forall open01p P0 -> all_robust (map real_pt P0) -> spread (map real_pt P0) ->
  exists o o', tess_core arith32 w c cpu P0 = Ok o /\ tess_core arith32 w' c' cpu P0 = Ok o' /\ o_pts arith32 o' = o_pts arith32 o /\ o_rows arith32 o' = o_rows arith32 o /\ o_dnn arith32 o' = o_dnn arith32 o.
Proof. exact ordered_same. Qed.
Print Assumptions C85_same.
(** and exact arithmetic on the same positions gives the same neighbour object, if the
    points fall into the same grid cells *)
Theorem C85_as_exact : forall (w : world arith32) c P0 N (E : Exact N) (w' : world N) c' P0', full_cfg c (zlen P0) -> Forall open01p P0 -> all_robust (map real_pt P0) -> spread (map real_pt P0) ->
  map (valp N E) P0' = map real_pt P0 -> enough N E c' P0' -> (forall p, In p P0 -> cell32 (c_gr c) (real_pt p) = grid_cell (c_gr c') (real_pt p)) ->
  exists o o', tess_core arith32 w c cpu P0 = Ok o /\ tess_core N w' c' cpu P0' = Ok o' /\
    map (valp N E) (o_pts N o') = map real_pt (o_pts arith32 o) /\ o_rows N o' = o_rows arith32 o /\ o_dnn N o' = o_dnn arith32 o.
Proof. exact ordered_as_exact. Qed.
Print Assumptions C85_as_exact.
(** which they do at every resolution that is a power of two, the default 16 among them *)
Theorem C85_power_of_two : forall m p, 0 <= m <= 10 -> open01p p -> cell32 (2 ^ m) (real_pt p) = grid_cell (2 ^ m) (real_pt p).
Proof. exact cell_pow2. Qed.
Print Assumptions C85_power_of_two.
(** on the device, without recompute or with device states that happen to be zero *)
Theorem C85_device : forall c P0 (w : world arith32), full_cfg c (zlen P0) -> Forall open01p P0 -> all_robust (map real_pt P0) -> dev_ok c (zlen P0) -> w_gpu arith32 w = true ->
  c_recompute c = false \/ (forall x, jZ arith32 (w_junk arith32 w) x = st_init) ->
  exists o, tess_core arith32 w c gpu P0 = Ok o /\ stable_sort_of (fun p => cell32 (c_gr c) (real_pt p)) P0 (o_pts arith32 o) /\ face_rows (map real_pt (o_pts arith32 o)) (o_rows arith32 o) /\
    shows (o_dnn arith32 o) (o_rows arith32 o) /\ dnn_savetxt (o_dnn arith32 o) = Ok (lines_text show_int (o_rows arith32 o)) /\
    (spread (map real_pt P0) -> ordered_face_rows (map real_pt (o_pts arith32 o)) (o_rows arith32 o)).
Proof. exact device_faces. Qed.
Print Assumptions C85_device.
(** a test in integers for [spread] *)
Theorem C85_test : forall U S, 0 < U -> spreadb U S = true -> spread (map (upt U) S).
Proof. exact spread_test. Qed.
Print Assumptions C85_test.

(** the five points of C83_checked_case: distances apart; k = 4 at once, k = 2 with
    recompute, the device, and rationals give the same rows *)
Definition cfg32d (k : Z) (rec : bool) : cfg := mkCfg k 1 16 32 1 1 false 0 rec.
Definition ex_q5 : list (point arithQ) := [ptq 3 4 9; ptq 12 5 3; ptq 7 11 5; ptq 5 13 12; ptq 13 10 11].
Definition ex_rows5 : list (list Z) := [[2; 3; 1; 4]; [2; 4; 0]; [3; 1; 4; 0]; [2; 4; 0]; [2; 3; 1; 0]].
Example C85_case : full_cfg (cfg32d 4 false) 5 /\ full_cfg (cfg32d 2 true) 5 /\ dev_ok (cfg32d 4 false) 5 /\ Forall open01p ex_f5 /\ all_robust (map real_pt ex_f5) /\ spread (map real_pt ex_f5) /\
  map (valp arithQ arithQ_exact) ex_q5 = map real_pt ex_f5 /\ enough arithQ arithQ_exact (cfg32d 4 false) ex_q5 /\
  rows32 (tess_core arith32 (w32 []) (cfg32d 2 true) cpu ex_f5) = Some (ex_rows5, [0; 0; 0; 0; 0]) /\
  rows32 (tess_core arith32 (g32 [3; 1; 4; 0; 2; 2]%nat 0) (cfg32d 4 false) gpu ex_f5) = Some (ex_rows5, [0; 0; 0; 0; 0]) /\
  rows_of (tess_core arithQ (ex_world [] 4 false) (cfg32d 4 false) cpu ex_q5) = Some (ex_rows5, [0; 0; 0; 0; 0]).
Proof.
  destruct C83_checked_case as ((_ & _ & _ & _ & O5 & _) & _ & E5 & CS & _).
  split. { split; [|split; [reflexivity|split; [split; discriminate|right; discriminate]]]. split; [unfold cfg_ok; simpl; lia|]. split; [reflexivity|]. split; [discriminate|]. split; [vm_compute; reflexivity|]. split; [discriminate|]. split; [vm_compute; repeat split; discriminate|discriminate]. }
  split. { split; [|split; [reflexivity|split; [split; discriminate|now left]]]. split; [unfold cfg_ok; simpl; lia|]. split; [reflexivity|]. split; [discriminate|]. split; [vm_compute; reflexivity|]. split; [discriminate|]. split; [vm_compute; repeat split; discriminate|discriminate]. }
  split. { vm_compute. repeat split; try discriminate. now left. }
  split; [exact O5|]. split. { rewrite E5. intros i Hi. rewrite zlen_map in Hi. now apply certs_robust. }
  split. { rewrite E5. apply spread_test; [lia|vm_compute; reflexivity]. }
  split. { rewrite E5. unfold ex_q5, ex_z5. cbn [map upt].
    assert (Q : forall a b c, 0 < a -> 0 < b -> 0 < c -> valp arithQ arithQ_exact (ptq a b c) = (IZR a / 16, IZR b / 16, IZR c / 16)%R). { intros a b c _ _ _. reflexivity. }
    rewrite !Q by lia. reflexivity. }
  split. { left. split; [|split; [split; discriminate|discriminate]]. unfold api_ok. split; [unfold cfg_ok; simpl; lia|]. split; [reflexivity|]. split; [discriminate|]. split.
    - intros q Hq. simpl in Hq. repeat (destruct Hq as [<-|Hq]; [inq|]). contradiction.
    - split; [reflexivity|]. split; [discriminate|]. split; [vm_compute; repeat split; discriminate|discriminate]. }
  split; [vm_compute; reflexivity|]. split; vm_compute; reflexivity.
Qed.

(** The README example again: the neighbour object is that of exact arithmetic on the
    same positions, and of any other usable parameters with the same grid. *)
Definition rq (p : zpt) : point arithQ := let '(a, b, c) := p in (Fin (Qmake a 67108864), Fin (Qmake b 67108864), Fin (Qmake c 67108864)).
Theorem C85_readme : spread (map real_pt readme32) /\
  forall (w : world arith32) (w' : world arithQ), w_hwc arith32 w = 4 -> w_hwc arithQ w' = 4 -> exists a o o', run_assign args_init readme_ops = Ok a /\
    tesellate arith32 w a cpu readme32 = Ok o /\ tesellate arithQ w' a cpu (map rq readme26) = Ok o' /\ o_rows arithQ o' = o_rows arith32 o /\ o_dnn arithQ o' = o_dnn arith32 o.
Proof.
  assert (E : map real_pt readme32 = map (upt 67108864) readme26) by (unfold readme32, readme26; cbn [map upt]; repeat (apply f_equal2; [apply real26; vm_compute; reflexivity|]); reflexivity).
  assert (SP : spread (map real_pt readme32)) by (rewrite E; apply spread_test; [lia|vm_compute; reflexivity]).
  split; [exact SP|]. intros w w' Hw Hw'. destruct C84_readme as (A1 & A2 & A3 & _). destruct (PApi.api_reads readme_ops (proj1 C55_hypotheses_ex)) as (a & HA & T).
  assert (EQ : map (valp arithQ arithQ_exact) (map rq readme26) = map real_pt readme32).
  { rewrite E, map_map. apply map_ext. intros [[x y] z]. reflexivity. }
  assert (EN : enough arithQ arithQ_exact (api_cfg 4 readme_ops) (map rq readme26)).
  { left. split; [|split; [split; discriminate|discriminate]]. unfold api_ok. split; [vm_compute; repeat split; discriminate|]. split; [reflexivity|]. split; [discriminate|]. split.
    - intros q Hq. apply in_map_iff in Hq as (z & <- & Hz). split; [destruct z as [[x y] t]; repeat split; discriminate|].
      assert (Iz : In (upt 67108864 z) (map real_pt readme32)) by (rewrite E; now apply in_map). apply in_map_iff in Iz as (p & Ep & Ip). rewrite Forall_forall in A2. pose proof (open_cube p (A2 p Ip)) as Q. rewrite Ep in Q. destruct z as [[x y] t]. exact Q.
    - split; [reflexivity|]. split; [discriminate|]. split; [vm_compute; repeat split; discriminate|discriminate]. }
  destruct (ordered_as_exact w (api_cfg 4 readme_ops) readme32 arithQ arithQ_exact w' (api_cfg 4 readme_ops) (map rq readme26) A1 A2 A3 SP EQ EN) as (o & o' & R & R' & _ & E1 & E2).
  { intros p Hp. rewrite Forall_forall in A2. apply (cell_pow2 1); [lia|now apply A2]. }
  exists a, o, o'. split; [exact HA|]. rewrite !T, Hw, Hw'. auto.
Qed.
Print Assumptions C85_readme.

(** C58 - C60: the Python module. *)
From Verif Require Import Base Arith PBase Prog MUtils MHeap MXyz MKnn MBoundary MCell MDnn MArgs MTess MPy Exact ArithQ PExact SpecGeom SpecSort SpecSlot SpecVor SpecRows SpecApi SpecPy
  PXyz PSortFinal PGrid PArgs PSlotHost PTessRun PTessFinal PGeomFinal PRecGeom PNoFailApi PExactApi PCanon PApi PPy PropsCell PropsTess PropsGeom PropsRec PropsFull PropsCanon PropsApi.
From Coq Require Import String QArith Qreals Permutation Sorted.
Local Open Scope string_scope.
Local Open Scope Z_scope.

(** ** C58.  Assignments from Python have the effect of the C++ assignments; an int
    outside the C++ range, or a value of another type, raises an exception. *)
Theorem C58_assignments : forall pops ops, Forall2 translates pops ops -> well_typed ops -> forall a, py_assign a pops = run_assign a ops.
Proof. exact assign_cpp. Qed.
Print Assumptions C58_assignments.
Theorem C58_rejects : forall a key, (forall z, ~ (int_min <= z <= int_max) -> py_setitem a key (PyInt z) = Err EThrow) /\ py_setitem a key PyOther = Err EThrow.
Proof. exact setitem_rejects. Qed.
Print Assumptions C58_rejects.

(** A float with an integral value is stored as the nearest single precision number;
    below a million it is read back as that int. *)
Theorem C58_floats : forall a key z, (exists y, nearest_float z y /\ py_setitem a key (PyFloatInt z) = args_set a key (VFloatInt y)) /\
  (forall a', Z.abs z < 1000000 -> py_setitem a key (PyFloatInt z) = Ok a' -> get_int a' key = Ok z).
Proof. intros a key z. split; [apply setitem_float|]. intros a'. apply setitem_float_int. Qed.
Print Assumptions C58_floats.
Example C58_floats_ex : map f32_int [16777217; 16777219; -16777217; 33554431; 100] = [16777216; 16777220; -16777216; 33554432; 100] /\
  rbind (py_setitem args_init "k" (PyFloatInt 40)) (fun a => get_int a "k") = Ok 40.
Proof. split; vm_compute; reflexivity. Qed.

Definition ex_pops : list (string * pyval) :=
  [("k", PyInt 2); ("knn_grid_resolution", PyInt 2); ("cc_p_maxsize", PyInt 9); ("cc_t_maxsize", PyInt 14); ("use_recompute", PyBool false)].
Definition ex_cops : list (string * argval) :=
  [("k", VInt 2); ("knn_grid_resolution", VInt 2); ("cc_p_maxsize", VInt 9); ("cc_t_maxsize", VInt 14); ("use_recompute", VBool false)].
Example C58_hypotheses_ex : Forall2 translates ex_pops ex_cops /\ well_typed ex_cops /\ py_setitem args_init "k" (PyInt 2147483648) = Err EThrow.
Proof.
  split; [|split; [|reflexivity]].
  - unfold ex_pops, ex_cops. repeat (constructor; [split; reflexivity|]). constructor.
  - unfold well_typed, ex_cops.
    repeat (apply Forall_cons; [first [left; split; [simpl; tauto|eexists; split; [reflexivity|unfold int_min, int_max; lia]]|right; split; [simpl; tauto|eexists; reflexivity]]|]).
    apply Forall_nil.
Qed.

(** ** C59.  "Row i of the result describes the i-th point given by the caller" is
    false: the module sorts a copy.  Three points on a line, the outermost right one
    first: its row names the outermost left one; the row of the middle point has one
    entry. *)
Definition ex_xyz : list (Q * Q * Q) := map (fun p => ((p # 16)%Q, (8 # 16)%Q, (8 # 16)%Q)) [14; 8; 2].
Definition py_view (r : res (list (Q * Q * Q) * dnn)) : option (list (Q * Q * Q) * list Z * list Z) :=
  match r with Ok (l, d) => Some (l, d_list d, d_offs d) | Err _ => None end.
Definition py_call (pops : list (string * pyval)) (dev : option device) (xyz : list (Q * Q * Q)) : res (list (Q * Q * Q) * dnn) :=
  rbind (py_assign args_init pops) (fun a => py_tesellate arithQ Q Fin (ex_world [] 4 false) a dev xyz).
(** the points in the arithmetic of the run *)
Definition fins (xyz : list (Q * Q * Q)) : list (point arithQ) := map (fun '(x, y, z) => (Fin x, Fin y, Fin z)) xyz.
Definition pos (xyz : list (Q * Q * Q)) : list pt := map (valp arithQ arithQ_exact) (fins xyz).

Lemma ex_xyz_enough : enough arithQ arithQ_exact (api_cfg 4 ex_cops) (fins ex_xyz).
Proof.
  left. split; [|split; [split; discriminate|discriminate]]. unfold api_ok. split; [vm_compute; repeat split; discriminate|]. split; [reflexivity|]. split; [discriminate|]. split.
  - intros q Hq. simpl in Hq. repeat (destruct Hq as [<-|Hq]; [inq|]). contradiction.
  - split; [reflexivity|]. split; [discriminate|]. split; [vm_compute; repeat split; discriminate|discriminate].
Qed.

Theorem C59_refuted : enough arithQ arithQ_exact (api_cfg 4 ex_cops) (fins ex_xyz) /\
  py_view (py_call ex_pops None ex_xyz) = Some (ex_xyz, [2; 2; 1; 0], [0; 1; 2; 4]) /\ ~ exact_row (pos ex_xyz) 0 [2].
Proof.
  split; [exact ex_xyz_enough|]. split; [vm_compute; reflexivity|]. intros (_ & H & _). destruct (H 2) as (p & q & [[x y] z] & Hp & Hq & _ & T1 & T2); [now left|].
  unfold pos, fins, ex_xyz, valp, val in *. simpl in *. unfold Q2R in *. simpl in *. injection Hp as <-. injection Hq as <-.
  specialize (T2 (8 * / 16, 8 * / 16, 8 * / 16)%R ltac:(auto)). unfold d2 in *. lra.
Qed.
Print Assumptions C59_refuted.

(** The rows describe the stable sort of the caller's points by grid cell; without a
    GPU the default device is the CPU. *)
Theorem C59_sorted_copy : forall (N : Arith) (E : Exact N) (D : Type) (conv : D -> F N) w pops ops dev xyz P0,
  Forall2 translates pops ops -> well_typed ops -> (dev = Some cpu \/ w_gpu N w = false) ->
  as_given conv xyz P0 -> let c := api_cfg (w_hwc N w) ops in enough N E c P0 ->
  exists a d rows P, py_assign args_init pops = Ok a /\ py_tesellate N D conv w a dev xyz = Ok (xyz, d) /\
    stable_sort_of (fun p => grid_cell (c_gr c) (valp N E p)) P0 P /\ zlen rows = zlen xyz /\ shows d rows /\
    forall i row, znth rows i = Some row -> exact_row (map (valp N E) P) i row.
Proof. exact py_rows_given. Qed.
Print Assumptions C59_sorted_copy.
(** so they describe the caller's points if these are in the order of the cells *)
Theorem C59_sorted_input : forall (N : Arith) (E : Exact N) (D : Type) (conv : D -> F N) w pops ops dev xyz P0,
  Forall2 translates pops ops -> well_typed ops -> (dev = Some cpu \/ w_gpu N w = false) ->
  as_given conv xyz P0 -> let c := api_cfg (w_hwc N w) ops in enough N E c P0 -> sorted_by (fun p => grid_cell (c_gr c) (valp N E p)) P0 ->
  exists a d rows, py_assign args_init pops = Ok a /\ py_tesellate N D conv w a dev xyz = Ok (xyz, d) /\ zlen rows = zlen xyz /\ shows d rows /\
    forall i row, znth rows i = Some row -> exact_row (map (valp N E) P0) i row.
Proof. exact py_sorted_given. Qed.
Print Assumptions C59_sorted_input.

(** the points sorted *)
Definition ex_zyx : list (Q * Q * Q) := map (fun p => ((p # 16)%Q, (8 # 16)%Q, (8 # 16)%Q)) [2; 14; 8].
Example C59_ex : py_view (py_call ex_pops None ex_zyx) = Some (ex_zyx, [2; 2; 1; 0], [0; 1; 2; 4]).
Proof. vm_compute. reflexivity. Qed.
Example C59_given_ex : as_given (Fin : Q -> F arithQ) ex_zyx (fins ex_zyx).
Proof. repeat constructor. Qed.
Example C59_hypotheses_ex : sorted_by (fun p => grid_cell 2 (valp arithQ arithQ_exact p)) (fins ex_zyx).
Proof.
  unfold sorted_by, ex_zyx, fins, valp, val. simpl. unfold Q2R. simpl.
  assert (I0 : Int_part (2 * / 16 * 2) = 0) by (apply int_part_unique; lra). assert (I1 : Int_part (8 * / 16 * 2) = 1) by (apply int_part_unique; lra).
  assert (I2 : Int_part (14 * / 16 * 2) = 1) by (apply int_part_unique; lra).
  repeat (first [apply SSorted_nil|apply SSorted_cons|apply Forall_cons|apply Forall_nil]); unfold grid_cell, xq_val, Q2R; cbn [Qnum Qden]; rewrite ?I0, ?I1, ?I2; lia.
Qed.

(** ** C60.  "Iterating over row i gives its entries and ends" is false for every row
    of every result: no index raises IndexError, so the loop goes on through the
    following rows and then out of bounds (undefined behaviour). *)
Theorem C60_refuted : forall (N : Arith) (D : Type) (conv : D -> F N) w a dev xyz r, py_tesellate N D conv w a dev xyz = Ok r ->
  exists rows, (zlen rows <= int_max -> shows (snd r) rows) /\ fst r = xyz /\
    forall i, 0 <= i <= zlen rows -> py_for_row (snd r) i = (List.concat (skipn (Z.to_nat i) rows), EUB).
Proof. exact py_for_api. Qed.
Print Assumptions C60_refuted.
Example C60_ex : match py_call ex_pops None ex_zyx with Ok (_, d) => py_for_row d 1 = ([2; 1; 0], EUB) /\ row_size d 1 = Ok 1 | Err _ => False end.
Proof. vm_compute. split; reflexivity. Qed.

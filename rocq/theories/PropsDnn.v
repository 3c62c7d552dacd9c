(** C30, C31: the jagged result array and its text forms. *)
From Verif Require Import Base PBase MUtils MDnn SpecDnn PDnn PText PFill.
From Coq Require Import String List.

(** The rows of one chunk are recorded, cut at the first undefined entry, at
    the positions given by [indices]; all other rows keep their contents. *)
Theorem C30_rows_recorded : forall k indices size knn tmpnn,
  0 <= k -> 0 <= size <= zlen indices -> k * size <= zlen knn ->
  (forall i x, 0 <= i < size -> znth indices i = Some x -> 0 <= x < zlen tmpnn) ->
  (forall i j x, 0 <= i < size -> 0 <= j < size ->
     znth indices i = Some x -> znth indices j = Some x -> i = j) ->
  exists t, tmpnn_fill k indices size knn tmpnn = Ok t /\ zlen t = zlen tmpnn /\
    (forall i x, 0 <= i < size -> znth indices i = Some x ->
       znth t x = Some (visible (slice knn (k * i) k))) /\
    (forall x, (forall i, 0 <= i < size -> znth indices i <> Some x) -> znth t x = znth tmpnn x).
Proof. exact fill_ok. Qed.
Print Assumptions C30_rows_recorded.

Example C30_rows_recorded_ex :
  tmpnn_fill 3 [2; 0] 2 [5; 6; -32; 7; -32; 1] [[]; [9]; [8]] = Ok [[7]; [9]; [5; 6]].
Proof. vm_compute. reflexivity. Qed.

Theorem C30_jagged_array_builds : forall tmpnn,
  total (map visible tmpnn) <= int_max -> exists d, getdnn tmpnn = Ok d.
Proof. intros t H. eexists. apply (getdnn_ok t H). Qed.
Print Assumptions C30_jagged_array_builds.

Theorem C30_jagged_array : forall tmpnn d, let rows := map visible tmpnn in
  zlen tmpnn <= int_max -> total rows <= int_max -> getdnn tmpnn = Ok d ->
  dnn_size d = zlen tmpnn /\
  (forall i r, znth rows i = Some r ->
     row_size d i = Ok (zlen r) /\
     forall j x, znth r j = Some x -> row_get d i j = Ok x) /\
  d_list d = concat rows /\ ~ In (-32) (d_list d).
Proof. exact dnn_view. Qed.
Print Assumptions C30_jagged_array.

Example C30_jagged_array_ex : exists d,
  getdnn [[1; 2; -32; 4]; []; [0]; [3; 1]] = Ok d /\
  dnn_size d = 4 /\ row_size d 0 = Ok 2 /\ row_size d 1 = Ok 0 /\ row_size d 3 = Ok 2 /\
  row_get d 0 1 = Ok 2 /\ row_get d 3 0 = Ok 3 /\ d_list d = [1; 2; 0; 3; 1].
Proof. eexists. split; [vm_compute; reflexivity|]. repeat split; vm_compute; reflexivity. Qed.

(** C44, for the offsets (vector<int>): more than INT_MAX neighbours in total
    overflow a signed sum, so no array is returned. *)
Theorem C44_offsets_overflow : forall tmpnn,
  total (map visible tmpnn) > int_max -> getdnn tmpnn = Err EUB.
Proof. exact getdnn_ub. Qed.
Print Assumptions C44_offsets_overflow.

(** Full C31: for every table, savetxt writes [lines_text rows] and print
    writes [braces_text rows].  It holds when no row (after the first) is
    empty; see the refutation below for empty rows. *)
Theorem C31_savetxt_partial : forall tmpnn d, let rows := map visible tmpnn in
  rows <> [] -> Forall (fun r => r <> []) (tl rows) -> total rows <= int_max ->
  getdnn tmpnn = Ok d -> dnn_savetxt d = Ok (lines_text show_int rows).
Proof. exact savetxt_final. Qed.
Print Assumptions C31_savetxt_partial.

Theorem C31_print_partial : forall tmpnn d, let rows := map visible tmpnn in
  rows <> [] -> Forall (fun r => r <> []) rows -> total rows <= int_max ->
  getdnn tmpnn = Ok d -> dnn_print d = Ok (braces_text show_int rows).
Proof. exact print_final. Qed.
Print Assumptions C31_print_partial.

Open Scope string_scope.
Example C31_ex : exists d, getdnn [[1; 2; -32]; [0]; [10; 305]] = Ok d /\
  dnn_savetxt d = Ok ("1 2 " ++ newline ++ "0 " ++ newline ++ "10 305 " ++ newline) /\
  dnn_print d = Ok ("{" ++ newline ++ "  {1, 2, }" ++ newline ++ "  {0, }" ++ newline ++
                    "  {10, 305, }" ++ newline ++ "}" ++ newline).
Proof. eexists. split; [vm_compute; reflexivity|]. split; vm_compute; reflexivity. Qed.

(** the correct text determines the rows, so it can be read back *)
Theorem C31_lines_readable : forall rows rows',
  lines_text show_int rows = lines_text show_int rows' -> rows = rows'.
Proof. intros rows. exact (lines_text_inj rows). Qed.
Print Assumptions C31_lines_readable.

(** An empty row is not shown by savetxt or print: two different results give
    the same file, with fewer lines than points. *)
Theorem C31_refuted : exists t1 t2 d1 d2 s p,
  getdnn t1 = Ok d1 /\ getdnn t2 = Ok d2 /\ map visible t1 <> map visible t2 /\
  dnn_savetxt d1 = Ok s /\ dnn_savetxt d2 = Ok s /\ s <> lines_text show_int (map visible t1) /\
  dnn_print d1 = Ok p /\ dnn_print d2 = Ok p /\ p <> braces_text show_int (map visible t1).
Proof. exact savetxt_witness. Qed.
Print Assumptions C31_refuted.

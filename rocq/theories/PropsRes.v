(** C78 (and C05 made exact): the grid resolutions for which the sort, and with it
    every call, stays inside its arrays. *)
From Verif Require Import Base Arith Exact MUtils MXyz MArgs MTess PRes ArithQ Arith32 PSortFinal PropsSort PropsFloat.
From Flocq Require Import IEEE754.BinarySingleNaN.
From Coq Require Import String.
Open Scope Z_scope.
Open Scope Z_scope.

(** ** C05, exactly: for a positive resolution whose cube is an int, [safe_res] holds
    if and only if every set of points in the open cube is sorted without undefined
    behaviour. *)
Theorem C05_float32_exactly : forall gr, 0 < gr -> gr * gr * gr <= int_max ->
  (safe_res gr = true <-> forall pts, Forall open01p pts -> exists r, xyz_sort arith32 gr pts = Ok r).
Proof. exact safe_iff. Qed.
Print Assumptions C05_float32_exactly.
(** both sides occur: 16 and 25 *)
Example C05_float32_exactly_ex : safe_res 16 = true /\ safe_res 25 = false /\ 25 * 25 * 25 <= int_max.
Proof. split; [|split]; vm_compute; congruence. Qed.

(** ** C78.  For any number type: the sort ends without undefined behaviour and without
    an exception if and only if the resolution is not negative, its cube is an int and
    every point has a cell id between -1 and the number of cells. *)
Theorem C78_sort_ends_iff : forall (N : Arith) gr pts,
  (exists r, xyz_sort N gr pts = Ok r) <->
  0 <= gr /\ gr * gr * gr <= int_max /\ forall p, In p pts -> exists c, has_cell N gr p c /\ -1 <= c < gr * gr * gr.
Proof. exact sort_ends_iff. Qed.
Print Assumptions C78_sort_ends_iff.
(** three points at resolution 2; one of them at 1 makes the id 8, the number of cells *)
Example C78_sort_ends_iff_ex :
  (exists r, xyz_sort arithQ 2 [ex_pt (100, 200, 900); ex_pt (600, 700, 800)] = Ok r) /\
  has_cell arithQ 2 (ex_pt (600, 700, 800)) 7 /\
  has_cell arithQ 2 (ex_pt (0, 0, 1000)) 8 /\ xyz_sort arithQ 2 [ex_pt (100, 200, 900); ex_pt (0, 0, 1000)] = Err EUB.
Proof. split; [eexists; vm_compute; reflexivity|]. repeat split; vm_compute; reflexivity. Qed.

(** so a call that returns had such a resolution and such points *)
Theorem C78_call_needs : forall (N : Arith) (w : world N) c dev pts o, tess_core N w c dev pts = Ok o ->
  0 <= c_gr c /\ c_gr c * c_gr c * c_gr c <= int_max /\
  forall p, In p pts -> exists i, has_cell N (c_gr c) p i /\ -1 <= i < c_gr c * c_gr c * c_gr c.
Proof. exact call_never. Qed.
Print Assumptions C78_call_needs.
Example C78_call_needs_ex : exists o, tess_core arith32 (w32 []) (cfg32 2) cpu ex_f3 = Ok o.
Proof.
  destruct C62_case as [_ H]. destruct (tess_core arith32 (w32 []) (cfg32 2) cpu ex_f3) as [o|e]; [now exists o|discriminate].
Qed.

(** The parameter is an int and nothing checks it.  Below -1 the library throws
    std::length_error. *)
Theorem C78_negative_throws : forall (N : Arith) gr pts, gr <= -2 -> int_min <= gr * gr * gr ->
  (forall p, In p pts -> exists c, has_cell N gr p c) -> xyz_sort N gr pts = Err EThrow.
Proof. exact sort_throws. Qed.
Print Assumptions C78_negative_throws.
Example C78_negative_throws_ex : has_cell arith32 (-3) (pt10 1 3 3) (-7) /\ xyz_sort arith32 (-3) [pt10 1 3 3] = Err EThrow.
Proof. split; vm_compute; reflexivity. Qed.

(** At 0 and -1 every call with at least one point in the open cube writes past the end
    of the offset array. *)
Theorem C78_zero_refuted : forall (w : world arith32) c dev pts, c_gr c = 0 \/ c_gr c = -1 -> Forall open01p pts -> pts <> [] ->
  tess_core arith32 w c dev pts = Err EUB.
Proof. exact call_stops. Qed.
Print Assumptions C78_zero_refuted.
(** through the public parameters: the defaults with knn_grid_resolution = 0 *)
Example C78_zero_refuted_ex :
  match args_set args_init "knn_grid_resolution"%string (VInt 0) with
  | Ok a => match tesellate arith32 (w32 []) a cpu ex_f3 with Err EUB => validate_xyzset arith32 ex_f3 | _ => false end
  | Err _ => false
  end = true.
Proof. vm_compute. reflexivity. Qed.

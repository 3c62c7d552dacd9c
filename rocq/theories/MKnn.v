(** Model of src/knn.ipp. *)
From Verif Require Import Base Arith Prog MUtils MHeap.
Local Open Scope prog_scope.

(** src/knn.ipp:7-20 is_inshell *)
Definition is_inshell (x y z px py pz r : Z) : bool :=
  ((px - r <? x) && (x <? px + r)) &&
  ((py - r <? y) && (y <? py + r)) &&
  ((pz - r <? z) && (z <? pz + r)).

(** The (x,y,z) visited for one value of r, in order: src/knn.ipp:71-84.
    Clamping uses std::max/min on the host and bmax/bmin on the device; both are
    the integer maximum and minimum. *)
Definition shell_cells (gr px py pz r : Z) : list (Z * Z * Z) :=
  let bz := Z.max (pz - r) 0 in let ez := Z.min (pz + r) (gr - 1) in
  let by_ := Z.max (py - r) 0 in let ey := Z.min (py + r) (gr - 1) in
  let bx := Z.max (px - r) 0 in let ex := Z.min (px + r) (gr - 1) in
  flat_map (fun z =>
    flat_map (fun y =>
      flat_map (fun x =>
        if is_inshell x y z px py pz r then [] else [(x, y, z)])
        (zrange bx (ex + 1)))
      (zrange by_ (ey + 1)))
    (zrange bz (ez + 1)).

Section Knn.
Variable N : Arith.
Notation F := (F N).
Notation point := (point N).

(** src/knn.ipp:60-66 (dx, min_dx; the same for y and z): distance of a
    coordinate to the nearer face of its grid cell *)
Definition face_dist (gl q : F) : F :=
  let gl2 := fdiv N gl (fofZ N 2) in
  let dx := ffmod N q gl in
  fadd N (fmul N dx (fbool N (fle N dx gl2)))
         (fmul N (fsub N gl dx) (fbool N (flt N gl2 dx))).

(** [devmin] selects utils::bmin (device, src/knn.ipp:170,264) or std::min
    (host, src/knn.ipp:67). *)
Definition face_min (devmin : bool) (gl : F) (q : point) : F :=
  let '(q0, q1, q2) := q in
  let a := face_dist gl q0 in let b := face_dist gl q1 in let c := face_dist gl q2 in
  if devmin then fbmin3 N a b c else stdmin3 N a b c.

Variable ad : Z -> Z.                 (* address of heap slot j *)
Variable pts : Z -> option point.     (* xyzset[p]; None = out of bounds *)
Variable dev : bool.                  (* device (branch-free) or host code *)

(** src/knn.ipp:92-112 (host), 194-210 and 288-305 (device): one candidate *)
Definition knn_visit (k index : Z) (q : point) (p : Z) : prog F unit :=
  if p =? index then Ret tt
  else
    pp <- pure_opt (pts p) ;;
    let pq := get_distance N pp q in
    cur <- rd AHeapPq (ad 0) ;;
    let cond := flt N pq cur in
    if dev then
      hi <- rd AHeapId (ad 0) ;;
      wr AHeapId (ad 0) (b2z (negb cond) * hi + b2z cond * p) ;;;
      hp <- rd AHeapPq (ad 0) ;;
      wr AHeapPq (ad 0)
        (fadd N (fmul N (fbool N (negb cond)) hp) (fmul N (fbool N cond) pq)) ;;;
      maxheapify N ad (b2z cond * k) 0
    else if cond then
      wr AHeapId (ad 0) p ;;;
      wr AHeapPq (ad 0) pq ;;;
      maxheapify N ad k 0
    else Ret tt.

(** src/knn.ipp:86-112: one grid cell *)
Definition knn_cell (k gr : Z) (offset : list Z) (index : Z) (q : point)
  (c : Z * Z * Z) : prog F unit :=
  let '(x, y, z) := c in
  let cid := gr * gr * z + gr * y + x in
  o0 <- pure_opt (znth offset cid) ;;
  o1 <- pure_opt (znth offset (cid + 1)) ;;
  forM (zrange o0 o1) (knn_visit k index q).

(** src/knn.ipp:69-121: shells r, r+1, ..., with the early exit of 116-119 *)
Fixpoint knn_shells (rs : list Z) (k gr : Z) (gl mn : F) (offset : list Z)
  (index : Z) (q : point) (px py pz : Z) : prog F unit :=
  match rs with
  | [] => Ret tt
  | r :: rs =>
      forM (shell_cells gr px py pz r) (knn_cell k gr offset index q) ;;;
      top <- rd AHeapPq (ad 0) ;;
      if flt N top (square N (fadd N (fmul N gl (fofZ N r)) mn)) then Ret tt
      else knn_shells rs k gr gl mn offset index q px py pz
  end.

(** src/knn.ipp:22-127 (host), 129-223 and 225-318 (device).  [k] and [gr] are
    the values used by loops; on the strided device version (249-250) they are
    narrowed to 16 and 8 bits before being passed here, while [gl] is computed
    from the parameter (251).  [wp] is the conversion of px, py, pz: identity
    for int (56-58), w16 for uint16_t (253-255). *)
Definition knn_compute (wp : Z -> Z) (refs : Z -> option point) (k gr gr_arg : Z)
  (ids offset : list Z) (index : Z) : prog F unit :=
  q <- pure_opt (refs index) ;;
  let gl := fdiv N (fofZ N 1) (fofZ N gr_arg) in
  idv <- pure_opt (znth ids index) ;;
  (if gr =? 0 then Fail EUB else Ret tt) ;;;
  let px := wp (Z.rem idv gr) in
  let py := wp (Z.rem (Z.quot idv gr) gr) in
  let pz := wp (Z.quot idv (gr * gr)) in
  let mn := face_min dev gl q in
  knn_shells (zrange 0 gr) k gr gl mn offset index q px py pz ;;;
  heap_sort N ad k.

End Knn.

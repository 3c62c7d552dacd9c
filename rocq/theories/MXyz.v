(** Model of src/xyzset.ipp with T1 = int (the instantiation used by the Python
    binding and the command line). *)
From Verif Require Import Base Arith MUtils.
Local Open Scope res_scope.

Section Xyz.
Variable N : Arith.
Notation F := (F N).
Notation point := (point N).

(** static_cast<T1>(std::floor(x / gl)) in src/xyzset.ipp:29-31; a value that
    is not representable as int is undefined behaviour. *)
Definition cell_coord (gl x : F) : res Z :=
  match ffloor N (fdiv N x gl) with
  | Some z => if in_int z then Ok z else Err EUB
  | None => Err EUB
  end.

(** src/xyzset.ipp:28-32, one iteration *)
Definition cell_id (gr : Z) (gl : F) (p : point) : res Z :=
  let '(x, y, z) := p in
  cx <-r cell_coord gl x ;;
  cy <-r cell_coord gl y ;;
  cz <-r cell_coord gl z ;;
  cy <-r chk (cy * gr) ;;
  s <-r chk (cx + cy) ;;
  cz <-r chk (cz * gr) ;;
  cz <-r chk (cz * gr) ;;
  chk (s + cz).

Fixpoint rmap {A B} (f : A -> res B) (l : list A) : res (list B) :=
  match l with
  | [] => Ok []
  | x :: l => y <-r f x ;; ys <-r rmap f l ;; Ok (y :: ys)
  end.

(** (id[i] >> shift) & 0xFF, src/xyzset.ipp:42,48 *)
Definition digit (shift id : Z) : Z := Z.land (Z.shiftr id shift) 255.

(** src/xyzset.ipp:40-46: histogram and its prefix sums *)
Definition count_digits (shift : Z) (ids : list Z) : res (list Z) :=
  rfold ids (fun c id =>
    let d := digit shift id in
    v <-r rget c d ;; rset c d (v + 1)) (repeat 0 256%nat).

Definition prefix_sums (c : list Z) : res (list Z) :=
  rfold (zrange 1 256) (fun c i =>
    a <-r rget c i ;; b <-r rget c (i - 1) ;; rset c i (a + b)) c.

(** src/xyzset.ipp:47-52: placement, i from size-1 down to 0 *)
Definition place_one (shift : Z) (ids : list Z) (pts : list point)
  (s : list Z * list Z * list point) (i : Z) : res (list Z * list Z * list point) :=
  let '(c, tid, tpt) := s in
  idv <-r rget ids i ;;
  p <-r rget pts i ;;
  let d := digit shift idv in
  v <-r rget c d ;;
  let si := v - 1 in
  c <-r rset c d si ;;
  tid <-r rset tid si idv ;;
  tpt <-r rset tpt si p ;;
  Ok (c, tid, tpt).

(** src/xyzset.ipp:39-55, one value of shift; tmp arrays keep the contents of
    the previous pass, as in the code. *)
Definition radix_pass (s : list Z * list point * list Z * list point) (shift : Z)
  : res (list Z * list point * list Z * list point) :=
  let '(ids, pts, tid, tpt) := s in
  c <-r count_digits shift ids ;;
  c <-r prefix_sums c ;;
  r <-r rfold (zrange_down 0 (zlen ids)) (place_one shift ids pts) (c, tid, tpt) ;;
  let '(_, tid, tpt) := r in
  Ok (tid, tpt, tid, tpt).

(** src/xyzset.ipp:34-55 *)
Definition radix_sort (ids : list Z) (pts : list point) : res (list Z * list point) :=
  let z := fofZ N 0 in
  r <-r rfold [0; 8; 16; 24] radix_pass
         (ids, pts, repeat 0 (length ids), repeat (z, z, z) (length ids)) ;;
  let '(ids, pts, _, _) := r in
  Ok (ids, pts).

(** src/xyzset.ipp:57-67 *)
Definition offsets (idmax : Z) (ids : list Z) : res (list Z) :=
  o <-r (if idmax + 1 <? 0 then Err EThrow else Ok (repeat 0 (Z.to_nat (idmax + 1)))) ;;
  o <-r rfold ids (fun o id => v <-r rget o (id + 1) ;; rset o (id + 1) (v + 1)) o ;;
  r <-r rfold (zrange 0 (zlen o)) (fun '(o, u) i =>
         v <-r rget o i ;; o <-r rset o i (u + v) ;; Ok (o, u + v)) (o, 0) ;;
  let '(o, _) := r in
  rset o (zlen o - 1) (zlen ids).

(** gl = 1.0f / gr, src/xyzset.ipp:21 (for Tf = float the division is in float) *)
Definition grid_len (gr : Z) : F := fdiv N (fofZ N 1) (fofZ N gr).

(** src/xyzset.ipp:16-70 sort: returns the permuted points, id and offset *)
Definition xyz_sort (gr : Z) (pts : list point) : res (list point * list Z * list Z) :=
  let gl := grid_len gr in
  g2 <-r chk (gr * gr) ;;
  idmax <-r chk (g2 * gr) ;;
  ids <-r rmap (cell_id gr gl) pts ;;
  '(ids, pts) <-r radix_sort ids pts ;;
  o <-r offsets idmax ids ;;
  Ok (pts, ids, o).

(** src/xyzset.ipp:72-83 validate_xyzset *)
Definition coord_ok (x : F) : bool := negb (fle N (fofZ N 1) x || fle N x (fofZ N 0)).
Definition validate_xyzset (pts : list point) : bool :=
  forallb (fun '(x, y, z) => coord_ok x && coord_ok y && coord_ok z) pts.

(** src/xyzset.ipp:85-94 validate_id *)
Fixpoint validate_id (ids : list Z) : bool :=
  match ids with
  | a :: ((b :: _) as l) => if b <? a then false else validate_id l
  | _ => true
  end.

(** src/xyzset.ipp:96-101 validate_offset *)
Definition validate_offset (o : list Z) : bool := true.

(** src/xyzset.ipp:103-119 validate_sort; the products are taken in floating
    point before the cast, unlike in sort.  Simplification: floor(x/gl)*gr is
    integral, so the cast of the product is modelled as the product of the cast. *)
Definition validate_sort (gr : Z) (pts : list point) (ids : list Z) : bool :=
  (length pts <=? length ids)%nat &&
  forallb (fun '(p, i) =>
    match cell_id gr (grid_len gr) p with Ok c => c =? i | Err _ => false end)
    (combine pts ids).

End Xyz.

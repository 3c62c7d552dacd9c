(** Conformance of the model with the repository's own unit tests: the inputs and
    assertions of test/*.cpp, evaluated on the model.  This file proves no property;
    it checks the translation of the source into the model.

    test/planes.cpp, test/util.cpp (integer and double cases), test/heap.cpp and
    test/boundary.cpp are taken over with rational numbers in place of float and
    double (WithinRel becomes an exact comparison of rationals), test/xyzset.cpp and
    the float cases of bfmod with binary32.  Not taken over: inputs drawn at random or
    with sin and cos, the million-point and 256-point sets, double's extreme values,
    the values the model's parameters cannot hold (3.14159, characters), and
    test/votess.cpp and test/regression, which need voro++. *)
From Verif Require Import Base Arith PBase Prog MUtils MHeap MXyz MBoundary MArgs MTess MRead ArithQ Arith32.
From Coq Require Import QArith Qabs Ascii String.
Open Scope Z_scope.

Definition q (n : Z) (d : positive) : xq := Fin (Qmake n d).
Definition qval (x : xq) : option Q := match x with Fin v => Some v | _ => None end.
(** Catch::Matchers::WithinRel(target, rel): |x - target| <= rel * max |x| |target| *)
Definition within_rel (x : xq) (t r : Q) : bool :=
  match x with
  | Fin v => Qle_bool (Qabs (v - t)) (r * (if Qle_bool (Qabs v) (Qabs t) then Qabs t else Qabs v))
  | _ => false
  end.
Definition qeqb (x y : xq) : bool := match x, y with Fin a, Fin b => Qeq_bool a b | _, _ => false end.
Definition qleb (x y : xq) : bool := fle arithQ x y.

(** ** test/planes.cpp:6-16 *)
Example t_planes_dot : forallb (fun b => b) [
  qeqb (dot arithQ (q 1 1, q 2 1, q 3 1, q 4 1) (q 5 1, q 6 1, q 7 1, q 8 1)) (q 70 1);
  qeqb (dot arithQ (q 1 1, q 2 1, q 3 1, q 4 1) (q 5 1, q 6 1, q 7 1, q 8 1)) (q 70 1);
  qeqb (dot arithQ (q 1 1, q 0 1, q 0 1, q 0 1) (q 0 1, q 1 1, q 0 1, q 0 1)) (q 0 1);
  qeqb (dot arithQ (q (-1) 1, q (-2) 1, q (-3) 1, q (-4) 1) (q (-5) 1, q (-6) 1, q (-7) 1, q (-8) 1)) (q 70 1);
  qeqb (dot arithQ (q (-1) 1, q (-2) 1, q (-3) 1, q (-4) 1) (q 5 1, q 6 1, q 7 1, q 8 1)) (q (-70) 1)] = true.
Proof. vm_compute. reflexivity. Qed.

(** ** test/planes.cpp:18-156: the result within 1% in each component *)
Definition isect_is (p : plane arithQ) (t : list Q) : bool :=
  let '(a, b, c, d) := p in
  forallb (fun '(x, v) => within_rel x v (1 # 100)) (combine [a; b; c; d] t).

Example t_planes_intersect : forallb (fun b => b) [
  (* Case 1 *) isect_is (intersect arithQ (q (-145383169) 20000000, q (-300580757) 50000000, q 713903569 100000000, q 425780487 100000000) (q 43772757 20000000, q 423319007 50000000, q 908512613 100000000, q 13567887 25000000) (q (-48022109) 20000000, q 142030429 25000000, q 44537151 6250000, q 148054489 100000000))
    [(Qmake 278099 1250000); (Qmake 14461607 100000000); (Qmake (-6202491) 25000000); (Qmake 1 1)];
  (* Case 2 *) isect_is (intersect arithQ (q (-645188017) 100000000, q 201583873 25000000, q (-65427573) 10000000, q (-299987203) 100000000) (q 16460571 3125000, q (-764728783) 100000000, q 155136299 100000000, q 22646999 2500000) (q 9894771 20000000, q (-946365599) 100000000, q (-160194839) 20000000, q (-348068579) 50000000))
    [(Qmake (-93390563) 12500000); (Qmake (-42666769) 12500000); (Qmake 270233493 100000000); (Qmake 1 1)];
  (* Case 3 *) isect_is (intersect arithQ (q (-49094379) 50000000, q 24798441 6250000, q 935059983 100000000, q 3811047 6250000) (q (-84605569) 20000000, q 5779741 800000, q (-420916011) 100000000, q (-299469027) 100000000) (q (-101267321) 25000000, q 707849567 100000000, q 184669679 20000000, q 846712423 100000000))
    [(Qmake 611440371 100000000); (Qmake 86808421 25000000); (Qmake (-89657103) 100000000); (Qmake 1 1)];
  (* Case 4 *) isect_is (intersect arithQ (q (-810038267) 100000000, q (-568548483) 100000000, q (-317091839) 100000000, q 954064891 100000000) (q 64665809 20000000, q (-159587963) 50000000, q 666274889 100000000, q (-9935143) 1562500) (q (-201723377) 100000000, q (-268522449) 100000000, q (-140804203) 25000000, q 381384971 50000000))
    [(Qmake 46539981 100000000); (Qmake 24018069 50000000); (Qmake 23965021 25000000); (Qmake 1 1)];
  (* Case 5 *) isect_is (intersect arithQ (q (-433766033) 50000000, q 258425607 100000000, q 363715419 50000000, q 704316317 100000000) (q 406235503 100000000, q 122814697 100000000, q 983399229 100000000, q 134992551 20000000) (q 6390301 100000000, q 610761669 100000000, q (-583292943) 100000000, q (-551293143) 100000000))
    [(Qmake 19699621 100000000); (Qmake 14953031 100000000); (Qmake (-78640913) 100000000); (Qmake 1 1)];
  (* Case 6 *) isect_is (intersect arithQ (q 216346147 25000000, q 95659587 12500000, q 110384509 12500000, q 13500449 6250000) (q 11342811 2500000, q 139808981 100000000, q 212025491 25000000, q 180656989 20000000) (q (-132019721) 25000000, q (-102808027) 25000000, q (-826587303) 100000000, q 123360373 20000000))
    [(Qmake (-1328673789) 100000000); (Qmake 191889229 20000000); (Qmake 446135207 100000000); (Qmake 1 1)];
  (* Case 7 *) isect_is (intersect arithQ (q 114431791 20000000, q (-7352171) 4000000, q (-399566531) 100000000, q (-7260049) 10000000) (q (-500300389) 100000000, q (-117869279) 50000000, q 53755163 6250000, q (-759861043) 100000000) (q (-200745769) 25000000, q (-171353759) 25000000, q (-192194247) 25000000, q 881260021 100000000))
    [(Qmake 65658917 100000000); (Qmake (-69050893) 100000000); (Qmake 107614463 100000000); (Qmake 1 1)];
  (* Case 8 *) isect_is (intersect arithQ (q (-127221301) 25000000, q 136371627 20000000, q (-120361171) 12500000, q (-891963827) 100000000) (q (-481068193) 50000000, q 559220333 100000000, q 454587427 100000000, q 994841461 100000000) (q 93934439 10000000, q (-560903) 625000, q 744166019 100000000, q 194100189 100000000))
    [(Qmake 17063813 25000000); (Qmake 28026757 100000000); (Qmake (-3401877) 3125000); (Qmake 1 1)];
  (* Case 8 *) isect_is (intersect arithQ (q 1 1, q 0 1, q 0 1, q 0 1) (q 0 1, q 1 1, q 0 1, q 0 1) (q 0 1, q 0 1, q 1 1, q 0 1))
    [(Qmake 0 1); (Qmake 0 1); (Qmake 0 1); (Qmake 1 1)];
  (* Case 9 *) isect_is (intersect arithQ (q 1 1, q 0 1, q 0 1, q 1 1) (q 0 1, q 1 1, q 0 1, q 2 1) (q 0 1, q 0 1, q 1 1, q (-1) 1))
    [(Qmake (-1) 1); (Qmake (-2) 1); (Qmake 1 1); (Qmake 1 1)];
  (* Case 11 *) isect_is (intersect arithQ (q 1 1, q 1 1, q 0 1, q 1 1) (q 0 1, q 1 1, q 1 1, q 2 1) (q 1 1, q 0 1, q 1 1, q 3 1))
    [(Qmake (-1) 1); (Qmake 0 1); (Qmake (-2) 1); (Qmake 1 1)];
  (* Case 12 *) isect_is (intersect arithQ (q (-1) 1, q 0 1, q 0 1, q (-1) 1) (q 0 1, q (-1) 1, q 0 1, q (-2) 1) (q 0 1, q 0 1, q (-1) 1, q 1 1))
    [(Qmake (-1) 1); (Qmake (-2) 1); (Qmake 1 1); (Qmake 1 1)];
  (* Case 13 *) isect_is (intersect arithQ (q 1 1, q 0 1, q 0 1, q 0 1) (q 0 1, q 1 1, q 0 1, q 0 1) (q 1 1, q 1 1000, q 1 1, q 1 1000))
    [(Qmake 0 1); (Qmake 0 1); (Qmake (-1) 1000); (Qmake 1 1)];
  (* Case 14 *) isect_is (intersect arithQ (q 1 2, q 1 2, q 1 1, q 1 1) (q 1 1, q 1 2, q 1 2, q 1 1) (q 1 2, q 1 1, q 1 1, q 1 1))
    [(Qmake (-66666667) 100000000); (Qmake 0 1); (Qmake (-66666667) 100000000); (Qmake 1 1)]] = true.
Proof. vm_compute. reflexivity. Qed.

(** ** test/util.cpp:7-118 bmax and bmin *)
Example t_util_int : forallb (fun b => b) [
  ibmax 1 2 =? 2;
  ibmax 2 1 =? 2;
  ibmax (-1) (-2) =? (-1);
  ibmax (-2) (-1) =? (-1);
  ibmax 0 0 =? 0;
  ibmin 1 2 =? 1;
  ibmin 2 1 =? 1;
  ibmin (-1) (-2) =? (-2);
  ibmin (-2) (-1) =? (-2);
  ibmin 0 0 =? 0;
  ibmax 2147483647 0 =? 2147483647;
  ibmax 0 2147483647 =? 2147483647;
  ibmax (-2147483648) 2147483647 =? 2147483647;
  ibmin (-2147483648) 0 =? (-2147483648);
  ibmin 0 (-2147483648) =? (-2147483648);
  ibmin (-2147483648) 2147483647 =? (-2147483648);
  ibmax (ibmax 1 2) 3 =? 3;
  ibmax (ibmax 2 3) 1 =? 3;
  ibmax (ibmax 3 1) 2 =? 3;
  ibmax (ibmax (-1) (-2)) (-3) =? (-1);
  ibmin (ibmin 1 2) 3 =? 1;
  ibmin (ibmin 2 3) 1 =? 1;
  ibmin (ibmin 3 1) 2 =? 1;
  ibmin (ibmin (-1) (-2)) (-3) =? (-3)] = true.
Proof. vm_compute. reflexivity. Qed.
Example t_util_float : forallb (fun b => b) [
  qeqb (fbmax arithQ (q 3 2) (q 5 2)) (q 5 2);
  qeqb (fbmax arithQ (q (-3) 2) (q (-5) 2)) (q (-3) 2);
  qeqb (fbmax arithQ (q 3 2) (q 3 2)) (q 3 2);
  qeqb (fbmax arithQ (q 1 10) (q 1 5)) (q 1 5);
  qeqb (fbmin arithQ (q 3 2) (q 5 2)) (q 3 2);
  qeqb (fbmin arithQ (q (-3) 2) (q (-5) 2)) (q (-5) 2);
  qeqb (fbmin arithQ (q 3 2) (q 3 2)) (q 3 2);
  qeqb (fbmin arithQ (q 1 10) (q 1 5)) (q 1 10);
  qeqb (fbmax3 arithQ (q 11 10) (q 11 5) (q 33 10)) (q 33 10);
  qeqb (fbmax3 arithQ (q (-11) 10) (q (-11) 5) (q (-33) 10)) (q (-11) 10);
  qeqb (fbmax3 arithQ (q 11 10) (q 11 5) (q 33 10)) (q 33 10);
  qeqb (fbmax3 arithQ (q (-11) 10) (q (-11) 5) (q (-33) 10)) (q (-11) 10);
  qeqb (fbmin3 arithQ (q 11 10) (q 11 5) (q 33 10)) (q 11 10);
  qeqb (fbmin3 arithQ (q (-11) 10) (q (-11) 5) (q (-33) 10)) (q (-33) 10);
  qeqb (fbmin3 arithQ (q 11 10) (q 11 5) (q 33 10)) (q 11 10);
  qeqb (fbmin3 arithQ (q (-11) 10) (q (-11) 5) (q (-33) 10)) (q (-33) 10)] = true.
Proof. vm_compute. reflexivity. Qed.

(** ** test/util.cpp:120-138 bfmod on float.  [f n d] is the float nearest to n/d (n, d
    below 2^24); [near x y]: within the float epsilon 2^-23. *)
Definition f (n d : Z) : f32 := fdiv arith32 (fofZ arith32 n) (fofZ arith32 d).
Definition fmax32 : f32 := fmul arith32 (fofZ arith32 16777215) (f32_norm 1 104).
Definition fmin32 : f32 := f32_norm 1 (-126).
Definition near (x y : f32) : bool :=
  let d := fsub arith32 x y in
  fle arith32 d (f32_norm 1 (-23)) && fle arith32 (f32_norm (-1) (-23)) d.
Example t_util_bfmod : forallb (fun b => b) [
  near (ffmod arith32 (f 55 10) (f 2 1)) (f 15 10);
  near (ffmod arith32 (f 10 1) (f 3 1)) (f 1 1);
  near (ffmod arith32 (f 9 1) (f 45 10)) (f 0 1);
  near (ffmod arith32 (f 5 10) (f 2 10)) (f 1 10);
  near (ffmod arith32 (f 1 1) (f 1 1)) (f 0 1);
  near (ffmod arith32 fmax32 (f 1 1)) (f 0 1);
  feq arith32 (ffmod arith32 fmin32 fmax32) fmin32] = true.
Proof. vm_compute. reflexivity. Qed.

(** ** test/status.cpp *)
Definition statuses : list Z := [security_radius_reached; error_infinite_boundary; error_nonvalid_vertices;
  error_nonvalid_neighbor; error_p_overflow; error_t_overflow; error_occurred].
Example t_status_init : forallb (fun s => negb (st_get st_init s)) statuses = true.
Proof. vm_compute. reflexivity. Qed.
Example t_status_true : forallb (fun s => st_get (st_set_true st_init s) s) statuses = true.
Proof. vm_compute. reflexivity. Qed.
Example t_status_false : forallb (fun s => negb (st_get (st_set_false (st_set_true st_init s) s) s)) statuses = true.
Proof. vm_compute. reflexivity. Qed.
Example t_status_independent : forallb (fun s => forallb (fun o => (o =? s) || negb (st_get (st_set_true st_init s) o)) statuses) statuses = true.
Proof. vm_compute. reflexivity. Qed.

(** ** test/heap.cpp.  [hmem ids pqs]: the two heap arrays *)
Definition hmem (ids : list Z) (pqs : list xq) : mem xq := mkMem ids pqs [] [] [] [] [].
Definition hrun (p : prog xq unit) (m : mem xq) (t : list Z -> list xq -> bool) : bool :=
  match run p m with Ok (_, m') => t (m_hid m') (m_hpq m') | Err _ => false end.
Definition at_pq (l : list xq) (i : Z) : xq := match znth l i with Some x => x | None => Inf end.
Definition id_is (l : list Z) (i v : Z) : bool := match znth l i with Some x => x =? v | None => false end.
Definition sorted_pq (l : list xq) (ad : Z -> Z) (n : Z) : bool :=
  forallb (fun i => qleb (at_pq l (ad i)) (at_pq l (ad (i + 1)))) (zrange 0 (n - 1)).

Example t_heap_gpu_swap : forallb (fun b => b) [
  hrun (heap_swap arithQ (ad_strided 3 0) 0 1) (hmem [1; 4; 7; 2; 5; 8; 3; 6; 9] [q 1 1; q 4 1; q 7 1; q 2 1; q 5 1; q 8 1; q 3 1; q 6 1; q 9 1])
    (fun i p => id_is i (3 * 0 + 0) 2 && id_is i (3 * 1 + 0) 1 && qeqb (at_pq p (3 * 0 + 0)) (q 2 1) && qeqb (at_pq p (3 * 1 + 0)) (q 1 1));
  hrun (heap_swap arithQ (ad_strided 3 1) 1 2) (hmem [1; 4; 7; 2; 5; 8; 3; 6; 9] [q 1 1; q 4 1; q 7 1; q 2 1; q 5 1; q 8 1; q 3 1; q 6 1; q 9 1])
    (fun i p => id_is i (3 * 1 + 1) 6 && id_is i (3 * 2 + 1) 5 && qeqb (at_pq p (3 * 1 + 1)) (q 6 1) && qeqb (at_pq p (3 * 2 + 1)) (q 5 1));
  hrun (heap_swap arithQ (ad_strided 3 2) 0 2) (hmem [1; 4; 7; 2; 5; 8; 3; 6; 9] [q 1 1; q 4 1; q 7 1; q 2 1; q 5 1; q 8 1; q 3 1; q 6 1; q 9 1])
    (fun i p => id_is i (3 * 0 + 2) 9 && id_is i (3 * 2 + 2) 7 && qeqb (at_pq p (3 * 0 + 2)) (q 9 1) && qeqb (at_pq p (3 * 2 + 2)) (q 7 1));
  hrun (heap_swap arithQ (ad_strided 3 0) 0 0) (hmem [1; 4; 7; 2; 5; 8; 3; 6; 9] [q 1 1; q 4 1; q 7 1; q 2 1; q 5 1; q 8 1; q 3 1; q 6 1; q 9 1])
    (fun i p => id_is i (3 * 0 + 0) 1 && id_is i (3 * 1 + 0) 2 && id_is i (3 * 2 + 0) 3 && qeqb (at_pq p (3 * 0 + 0)) (q 1 1) && qeqb (at_pq p (3 * 1 + 0)) (q 2 1) && qeqb (at_pq p (3 * 2 + 0)) (q 3 1));
  hrun (heap_swap arithQ (ad_strided 3 1) 0 2) (hmem [1; 4; 7; 2; 5; 8; 3; 6; 9] [q 1 1; q 4 1; q 7 1; q 2 1; q 5 1; q 8 1; q 3 1; q 6 1; q 9 1])
    (fun i p => id_is i (3 * 0 + 1) 6 && id_is i (3 * 2 + 1) 4 && qeqb (at_pq p (3 * 0 + 1)) (q 6 1) && qeqb (at_pq p (3 * 2 + 1)) (q 4 1));
  hrun (heap_swap arithQ (ad_strided 3 2) 1 1) (hmem [1; 4; 7; 2; 5; 8; 3; 6; 9] [q 1 1; q 4 1; q 7 1; q 2 1; q 5 1; q 8 1; q 3 1; q 6 1; q 9 1])
    (fun i p => id_is i (3 * 1 + 2) 8 && qeqb (at_pq p (3 * 1 + 2)) (q 8 1))] = true.
Proof. vm_compute. reflexivity. Qed.

Example t_heap_cpu_swap : forallb (fun b => b) [
  hrun (heap_swap arithQ (ad_host 0) 0 1) (hmem [1; 2] [q 7 2; q 41 10])
    (fun i p => id_is i 0 2 && qeqb (at_pq p 0) (q 41 10) && id_is i 1 1 && qeqb (at_pq p 1) (q 7 2));
  hrun (heap_swap arithQ (ad_host 0) 1 0) (hmem [1; 2] [q 7 2; q 41 10])
    (fun i p => id_is i 0 2 && qeqb (at_pq p 0) (q 41 10) && id_is i 1 1 && qeqb (at_pq p 1) (q 7 2));
  hrun (heap_swap arithQ (ad_host 0) 1 1) (hmem [1; 2] [q 7 2; q 41 10])
    (fun i p => id_is i 0 1 && qeqb (at_pq p 0) (q 7 2) && id_is i 1 2 && qeqb (at_pq p 1) (q 41 10));
  hrun (heap_swap arithQ (ad_host 0) 0 0) (hmem [1; 2] [q 7 2; q 41 10])
    (fun i p => id_is i 0 1 && qeqb (at_pq p 0) (q 7 2) && id_is i 1 2 && qeqb (at_pq p 1) (q 41 10))] = true.
Proof. vm_compute. reflexivity. Qed.

Example t_heap_gpu_maxheapify : forallb (fun b => b) [
  hrun (maxheapify arithQ (ad_strided 3 0) 6 0) (hmem [1; 7; 13; 2; 7; 14; 3; 7; 15; 4; 10; 16; 5; 11; 17; 6; 12; 18] [q 5 1; q 9 1; q 13 1; q 4 1; q 8 1; q 14 1; q 3 1; q 7 1; q 15 1; q 2 1; q 10 1; q 16 1; q 1 1; q 11 1; q 17 1; q 6 1; q 12 1; q 18 1])
    (fun i p => qleb (at_pq p (3 * 1 + 0)) (at_pq p (3 * 0 + 0)) && qleb (at_pq p (3 * 2 + 0)) (at_pq p (3 * 0 + 0)));
  hrun (maxheapify arithQ (ad_strided 3 1) 6 0) (hmem [1; 7; 13; 2; 7; 14; 3; 7; 15; 4; 10; 16; 5; 11; 17; 6; 12; 18] [q 18 1; q 17 1; q 16 1; q 15 1; q 14 1; q 13 1; q 12 1; q 11 1; q 10 1; q 9 1; q 8 1; q 7 1; q 6 1; q 5 1; q 4 1; q 3 1; q 2 1; q 1 1])
    (fun i p => qleb (at_pq p (3 * 1 + 1)) (at_pq p (3 * 0 + 1)) && qleb (at_pq p (3 * 2 + 1)) (at_pq p (3 * 0 + 1)));
  hrun (maxheapify arithQ (ad_strided 3 2) 6 0) (hmem [1; 7; 13; 2; 7; 14; 3; 7; 15; 4; 10; 16; 5; 11; 17; 6; 12; 18] [q 10 1; q 10 1; q 10 1; q 10 1; q 10 1; q 10 1; q 10 1; q 10 1; q 10 1; q 10 1; q 10 1; q 10 1; q 10 1; q 10 1; q 10 1; q 10 1; q 10 1; q 10 1])
    (fun i p => qeqb (at_pq p (3 * 0 + 2)) (q 10 1) && qeqb (at_pq p (3 * 1 + 2)) (q 10 1) && qeqb (at_pq p (3 * 2 + 2)) (q 10 1));
  hrun (maxheapify arithQ (ad_strided 3 0) 6 0) (hmem [1; 7; 13; 2; 7; 14; 3; 7; 15; 4; 10; 16; 5; 11; 17; 6; 12; 18] [q 1 1; q 2 1; q 3 1; q 10 1; q 20 1; q 30 1; q 5 1; q 15 1; q 25 1; q 7 1; q 17 1; q 27 1; q 6 1; q 16 1; q 26 1; q 9 1; q 19 1; q 29 1])
    (fun i p => qleb (at_pq p (3 * 1 + 0)) (at_pq p (3 * 0 + 0)) && qleb (at_pq p (3 * 2 + 0)) (at_pq p (3 * 0 + 0)));
  hrun (maxheapify arithQ (ad_strided 3 2) 6 0) (hmem [1; 7; 13; 2; 7; 14; 3; 7; 15; 4; 10; 16; 5; 11; 17; 6; 12; 18] [q 10 1; q 20 1; q 30 1; q 5 1; q 15 1; q 25 1; q 7 1; q 17 1; q 27 1; q 6 1; q 16 1; q 26 1; q 9 1; q 19 1; q 29 1; q 4 1; q 14 1; q 24 1])
    (fun i p => qleb (at_pq p (3 * 1 + 2)) (at_pq p (3 * 0 + 2)) && qleb (at_pq p (3 * 2 + 2)) (at_pq p (3 * 0 + 2)));
  hrun (maxheapify arithQ (ad_strided 3 0) 6 0) (hmem [1; 7; 13; 2; 7; 14; 3; 7; 15; 4; 10; 16; 5; 11; 17; 6; 12; 18] [q 30 1; q 29 1; q 28 1; q 27 1; q 26 1; q 25 1; q 24 1; q 23 1; q 22 1; q 21 1; q 20 1; q 19 1; q 18 1; q 17 1; q 16 1; q 15 1; q 14 1; q 13 1])
    (fun i p => qleb (at_pq p (3 * 1 + 0)) (at_pq p (3 * 0 + 0)) && qleb (at_pq p (3 * 2 + 0)) (at_pq p (3 * 0 + 0)));
  hrun (maxheapify arithQ (ad_strided 3 1) 6 0) (hmem [1; 7; 13; 2; 7; 14; 3; 7; 15; 4; 10; 16; 5; 11; 17; 6; 12; 18] [q 3 8388608; q 2 8388608; q 1 8388608; q 3 8388608; q 2 8388608; q 1 8388608; q 3 8388608; q 2 8388608; q 1 8388608; q 3 8388608; q 2 8388608; q 1 8388608; q 3 8388608; q 2 8388608; q 1 8388608; q 3 8388608; q 2 8388608; q 1 8388608])
    (fun i p => qleb (at_pq p (3 * 1 + 1)) (at_pq p (3 * 0 + 1)) && qleb (at_pq p (3 * 2 + 1)) (at_pq p (3 * 0 + 1)))] = true.
Proof. vm_compute. reflexivity. Qed.

Example t_heap_cpu_maxheapify : forallb (fun b => b) [
  hrun (maxheapify arithQ (ad_host 0) 4 0) (hmem [4; 3; 2; 1] [q 0 1; q 32 1; q 1 100; q 32 1])
    (fun i p => qeqb (at_pq p 0) (q 32 1) && qleb (at_pq p 1) (at_pq p 0) && qleb (at_pq p 2) (at_pq p 0));
  hrun (maxheapify arithQ (ad_host 0) 4 1) (hmem [4; 3; 2; 1] [q 0 1; q 32 1; q 1 100; q 32 1])
    (fun i p => qeqb (at_pq p 1) (q 32 1) && qleb (at_pq p 3) (at_pq p 1));
  hrun (maxheapify arithQ (ad_host 0) 1 0) (hmem [4] [q 0 1])
    (fun i p => (zlen i =? 1) && qeqb (at_pq p 0) (q 0 1));
  hrun (maxheapify arithQ (ad_host 0) 4 0) (hmem [1; 1; 1; 1] [q 32 1; q 32 1; q 32 1; q 32 1])
    (fun i p => id_is i 0 1 && qeqb (at_pq p 0) (q 32 1));
  hrun (maxheapify arithQ (ad_host 0) 4 0) (hmem [4; 3; 2; 1] [q 32 1; q 1 100; q 0 1; q (-32) 1])
    (fun i p => qleb (at_pq p 1) (at_pq p 0) && qleb (at_pq p 2) (at_pq p 0))] = true.
Proof. vm_compute. reflexivity. Qed.

Example t_heap_gpu_sort : forallb (fun b => b) [
  hrun (heap_sort arithQ (ad_strided 3 0) 6) (hmem [1; 7; 13; 2; 7; 14; 3; 7; 15; 4; 10; 16; 5; 11; 17; 6; 12; 18] [q 5 1; q 9 1; q 13 1; q 4 1; q 8 1; q 14 1; q 3 1; q 7 1; q 15 1; q 2 1; q 10 1; q 16 1; q 1 1; q 11 1; q 17 1; q 6 1; q 12 1; q 18 1])
    (fun i p => sorted_pq p (ad_strided 3 0) 6);
  hrun (heap_sort arithQ (ad_strided 3 1) 6) (hmem [1; 7; 13; 2; 7; 14; 3; 7; 15; 4; 10; 16; 5; 11; 17; 6; 12; 18] [q 1 1; q 2 1; q 3 1; q 4 1; q 5 1; q 6 1; q 7 1; q 8 1; q 9 1; q 10 1; q 11 1; q 12 1; q 13 1; q 14 1; q 15 1; q 16 1; q 17 1; q 18 1])
    (fun i p => sorted_pq p (ad_strided 3 1) 6);
  hrun (heap_sort arithQ (ad_strided 3 2) 6) (hmem [1; 7; 13; 2; 7; 14; 3; 7; 15; 4; 10; 16; 5; 11; 17; 6; 12; 18] [q 18 1; q 17 1; q 16 1; q 15 1; q 14 1; q 13 1; q 12 1; q 11 1; q 10 1; q 9 1; q 8 1; q 7 1; q 6 1; q 5 1; q 4 1; q 3 1; q 2 1; q 1 1])
    (fun i p => sorted_pq p (ad_strided 3 2) 6);
  hrun (heap_sort arithQ (ad_strided 3 0) 6) (hmem [1; 7; 13; 2; 7; 14; 3; 7; 15; 4; 10; 16; 5; 11; 17; 6; 12; 18] [q 10 1; q 10 1; q 10 1; q 8 1; q 8 1; q 8 1; q 6 1; q 6 1; q 6 1; q 4 1; q 4 1; q 4 1; q 2 1; q 2 1; q 2 1; q 1 1; q 1 1; q 1 1])
    (fun i p => sorted_pq p (ad_strided 3 0) 6);
  hrun (heap_sort arithQ (ad_strided 3 1) 6) (hmem [1; 7; 13; 2; 7; 14; 3; 7; 15; 4; 10; 16; 5; 11; 17; 6; 12; 18] [q 18 1; q 1 1; q 13 1; q 18 1; q 1 1; q 14 1; q 18 1; q 1 1; q 15 1; q 18 1; q 1 1; q 16 1; q 18 1; q 1 1; q 17 1; q 18 1; q 1 1; q 18 1])
    (fun i p => sorted_pq p (ad_strided 3 1) 6);
  hrun (heap_sort arithQ (ad_strided 3 0) 6) (hmem [1; 7; 13; 2; 7; 14; 3; 7; 15; 4; 10; 16; 5; 11; 17; 6; 12; 18] [q 5 8388608; q 9 8388608; q 13 8388608; q 1 2097152; q 1 1048576; q 7 4194304; q 3 8388608; q 7 8388608; q 15 8388608; q 1 4194304; q 5 4194304; q 1 524288; q 1 8388608; q 11 8388608; q 17 8388608; q 3 4194304; q 3 2097152; q 9 4194304])
    (fun i p => sorted_pq p (ad_strided 3 0) 6)] = true.
Proof. vm_compute. reflexivity. Qed.

Example t_heap_cpu_sort : forallb (fun b => b) [
  hrun (heap_sort arithQ (ad_host 0) 4) (hmem [1; 4; 2; 3] [q 4 1; q 1 1; q 3 1; q 2 1])
    (fun i p => qleb (at_pq p 0) (at_pq p 1) && qleb (at_pq p 1) (at_pq p 2) && qleb (at_pq p 2) (at_pq p 3));
  hrun (heap_sort arithQ (ad_host 0) 1) (hmem [4] [q 32 1])
    (fun i p => (zlen p =? 1) && qeqb (at_pq p 0) (q 32 1));
  hrun (heap_sort arithQ (ad_host 0) 4) (hmem [1; 1; 1; 1] [q 32 1; q 32 1; q 32 1; q 32 1])
    (fun i p => sorted_pq p (ad_host 0) 4 && qleb (at_pq p 3) (at_pq p 0));
  hrun (heap_sort arithQ (ad_host 0) 4) (hmem [1; 2; 3; 4] [q 1 1; q 2 1; q 3 1; q 4 1])
    (fun i p => sorted_pq p (ad_host 0) 4)] = true.
Proof. vm_compute. reflexivity. Qed.

(** ** test/boundary.cpp:132-541, host and device: the cycle visits 0, 2, 1, 3 in this
    cyclic order or backwards.  [bnd_check] is boundary::test (85-130). *)
Fixpoint find_idx (l : list Z) (v : Z) : option Z :=
  match l with [] => None | x :: l => if x =? v then Some 0 else match find_idx l v with Some i => Some (i + 1) | None => None end end.
Fixpoint bnd_check (fuel : nat) (c ans : list Z) (first head : Z) : bool :=
  match fuel with
  | O => true
  | S fuel =>
      match znth c head with
      | Some v0 =>
          match znth c v0 with
          | Some v1 =>
              match find_idx ans v0, find_idx ans v1 with
              | Some a, Some b =>
                  (((a + 1) mod zlen ans =? b) || ((b + 1) mod zlen ans =? a)) &&
                  (v0 <? zlen c) && (if v1 =? first then true else bnd_check fuel c ans first v0)
              | _, _ => false
              end
          | None => false
          end
      | None => false
      end
  end.
Definition bnd_case (cast : Z -> Z) (T : list Z) : bool :=
  match run (bnd_compute cast 0 16 0 4) (mkMem (F := Z) [] [] [] T (repeat 255 16) [] []) with
  | Ok ((Bsuccess, head), m) => bnd_check 12 (m_dR m) [0; 2; 1; 3] head head
  | _ => false
  end.
Definition bnd_cases : list (list Z) := [
  [2; 5; 0; 5; 3; 0; 1; 5; 2; 5; 1; 3];
  [2; 5; 0; 5; 3; 0; 5; 1; 3; 1; 5; 2];
  [2; 5; 0; 1; 5; 2; 5; 3; 0; 5; 1; 3];
  [2; 5; 0; 1; 5; 2; 5; 1; 3; 5; 3; 0];
  [2; 5; 0; 5; 1; 3; 5; 3; 0; 1; 5; 2];
  [2; 5; 0; 5; 1; 3; 1; 5; 2; 5; 3; 0];
  [5; 3; 0; 2; 5; 0; 1; 5; 2; 5; 1; 3];
  [5; 3; 0; 2; 5; 0; 5; 1; 3; 1; 5; 2];
  [5; 3; 0; 1; 5; 2; 2; 5; 0; 5; 1; 3];
  [5; 3; 0; 1; 5; 2; 5; 1; 3; 2; 5; 0];
  [5; 3; 0; 5; 1; 3; 2; 5; 0; 1; 5; 2];
  [5; 3; 0; 5; 1; 3; 1; 5; 2; 2; 5; 0];
  [1; 5; 2; 2; 5; 0; 5; 3; 0; 5; 1; 3];
  [1; 5; 2; 2; 5; 0; 5; 1; 3; 5; 3; 0];
  [1; 5; 2; 5; 3; 0; 2; 5; 0; 5; 1; 3];
  [1; 5; 2; 5; 3; 0; 5; 1; 3; 2; 5; 0];
  [1; 5; 2; 5; 1; 3; 2; 5; 0; 5; 3; 0];
  [1; 5; 2; 5; 1; 3; 5; 3; 0; 2; 5; 0];
  [5; 1; 3; 2; 5; 0; 5; 3; 0; 1; 5; 2];
  [5; 1; 3; 2; 5; 0; 1; 5; 2; 5; 3; 0];
  [5; 1; 3; 5; 3; 0; 2; 5; 0; 1; 5; 2];
  [5; 1; 3; 5; 3; 0; 1; 5; 2; 2; 5; 0];
  [5; 1; 3; 1; 5; 2; 2; 5; 0; 5; 3; 0];
  [5; 1; 3; 1; 5; 2; 5; 3; 0; 2; 5; 0]].
Example t_boundary_cpu : forallb (bnd_case (fun x => x)) bnd_cases = true.
Proof. vm_compute. reflexivity. Qed.
Example t_boundary_gpu : forallb (bnd_case w8) bnd_cases = true.
Proof. vm_compute. reflexivity. Qed.

(** ** test/arguments.cpp.  The defaults are those of include/arguments.hpp:14-23. *)
Open Scope string_scope.
Definition int_is (r : res Z) (v : Z) : bool := match r with Ok x => Z.eqb x v | Err _ => false end.
Definition bool_is (r : res bool) (v : bool) : bool := match r with Ok x => Bool.eqb x v | Err _ => false end.
Definition throws {A} (r : res A) : bool := match r with Err EThrow => true | _ => false end.
Definition str_is (s t : string) : bool := String.eqb s t.
(** 4-115 *)
Example t_args_ref : forallb (fun b => b) [
  str_is (to_str (VInt 53)) "53"; int_is (from_int (to_str (VInt 53))) 53;
  str_is (to_str (VStr "hello")) "hello";
  str_is (to_str (VBool true)) "1"; bool_is (from_bool (to_str (VBool true))) true;
  str_is (to_str (VBool false)) "0"; bool_is (from_bool (to_str (VBool false))) false;
  throws (from_int (to_str (VStr "hello"))); throws (from_int (to_str (VStr "test"))); throws (from_int "b");
  int_is (from_int (to_str (VInt 123))) 123; str_is (to_str (VStr "world")) "world";
  bool_is (from_bool (to_str (VBool false))) false; int_is (from_int (to_str (VBool true))) 1;
  str_is (to_str (VInt 243)) "243"; bool_is (from_bool (to_str (VBool true))) true;
  int_is (from_int (to_str (VInt 42))) 42] = true.
Proof. vm_compute. reflexivity. Qed.
Definition int_arg (a : vtargs) (kv : string * Z) : bool := int_is (get_int a (fst kv)) (snd kv).
(** 117-150 *)
Example t_args_default : forallb (int_arg args_init)
  [("k", 64); ("cpu_nthreads", 0); ("gpu_ndsize", 1); ("chunksize", 8196); ("knn_grid_resolution", 16);
   ("cc_p_maxsize", 32); ("cc_t_maxsize", 32)] && bool_is (get_bool args_init "use_recompute") false = true.
Proof. vm_compute. reflexivity. Qed.
Definition assign (l : list (string * argval)) (a : vtargs) : res vtargs :=
  fold_left (fun r '(k, v) => match r with Ok a => args_set a k v | Err e => Err e end) l (Ok a).
Example t_args_assign :
  match assign [("k", VInt 42); ("cpu_nthreads", VInt 8); ("gpu_ndsize", VInt 512); ("chunksize", VInt 2048);
                ("use_recompute", VBool false); ("knn_grid_resolution", VInt 128); ("cc_p_maxsize", VInt 256);
                ("cc_t_maxsize", VInt 512)] args_init with
  | Ok a => forallb (int_arg a) [("k", 42); ("cpu_nthreads", 8); ("gpu_ndsize", 512); ("chunksize", 2048);
              ("knn_grid_resolution", 128); ("cc_p_maxsize", 256); ("cc_t_maxsize", 512)] && bool_is (get_bool a "use_recompute") false
  | Err _ => false
  end = true.
Proof. vm_compute. reflexivity. Qed.
(** 152-201: get_xyzset, get_knn, get_cc read the parameters again after an assignment *)
Example t_args_again :
  match assign [("k", VInt 42); ("knn_grid_resolution", VInt 64); ("cc_p_maxsize", VInt 128); ("cc_t_maxsize", VInt 256)] args_init with
  | Ok a => forallb (int_arg a) [("k", 42); ("knn_grid_resolution", 64); ("cc_p_maxsize", 128); ("cc_t_maxsize", 256)] &&
      match assign [("k", VInt 84); ("knn_grid_resolution", VInt 128); ("cc_p_maxsize", VInt 256); ("cc_t_maxsize", VInt 512)] a with
      | Ok a => forallb (int_arg a) [("k", 84); ("knn_grid_resolution", 128); ("cc_p_maxsize", 256); ("cc_t_maxsize", 512)]
      | Err _ => false
      end
  | Err _ => false
  end = true.
Proof. vm_compute. reflexivity. Qed.
Close Scope string_scope.

(** ** test/xyzset.cpp on binary32.  [sort_case] is the body of test_xyzset for one
    resolution (291-320).  The tests start at resolution 0: there the model, like the
    code, writes past the end of the offset array unless the set is empty, and the
    assertions say nothing (C78 proves it for every set). *)
Definition sort_case (gr : Z) (pts : list (point arith32)) : bool :=
  match xyz_sort arith32 gr pts with
  | Ok (pts', ids, o) => validate_xyzset arith32 pts' && validate_id ids && validate_offset o && validate_sort arith32 gr pts' ids
  | Err _ => false
  end.
(** 18-32, resolutions 1 to 4 of 1 to 16 *)
Definition std10 : list (point arith32) := [
  (f 605223 1000000, f 108484 1000000, f 90937 1000000); (f 500792 1000000, f 499641 1000000, f 464576 1000000); (f 437936 1000000, f 786332 1000000, f 160392 1000000); (f 663354 1000000, f 170894 1000000, f 810284 1000000); (f 614869 1000000, f 96867 1000000, f 204147 1000000); (f 556911 1000000, f 895342 1000000, f 802266 1000000); (f 305748 1000000, f 124146 1000000, f 516249 1000000); (f 406888 1000000, f 157835 1000000, f 919622 1000000); (f 94412 1000000, f 861991 1000000, f 798644 1000000); (f 511958 1000000, f 560537 1000000, f 345479 1000000)].
Example t_xyzset_standard : forallb (fun gr => sort_case gr std10) [1; 2; 3; 4] = true.
Proof. vm_compute. reflexivity. Qed.
(** 206-218 *)
Example t_xyzset_empty : sort_case 0 [] = true.
Proof. vm_compute. reflexivity. Qed.
(** 220-232; at resolution 1, since 0 is out of bounds *)
Example t_xyzset_single : sort_case 1 [(f 1 2, f 1 2, f 1 2)] = true.
Proof. vm_compute. reflexivity. Qed.
(** 234-244 *)
Definition feps : f32 := f32_norm 1 (-23).
Definition fone_eps : f32 := fsub arith32 (f 1 1) feps.
Example t_xyzset_boundary : sort_case 1
  [(feps, feps, feps); (fone_eps, fone_eps, fone_eps); (feps, feps, fone_eps); (fone_eps, fone_eps, feps);
   (feps, fone_eps, feps); (fone_eps, feps, fone_eps)] = true.
Proof. vm_compute. reflexivity. Qed.

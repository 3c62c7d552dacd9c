(** C13, C14, C35, C42. *)
From Verif Require Import Base Arith Exact MUtils SpecGeom PExact PFlags PUtilFinal ArithQ PSortFinal.
From Coq Require Import Permutation QArith.
Open Scope Z_scope.

(** ** C13 *)
Theorem C13_bisector_separates : forall (N : Arith) (E : Exact N) (p q x : point N),
  finp N E p -> finp N E q -> finp N E x ->
  (flt N (fofZ N 0) (side N x (bisect N q p)) = true <->
     (d2 (valp N E x) (valp N E q) < d2 (valp N E x) (valp N E p))%R) /\
  (feq N (side N x (bisect N q p)) (fofZ N 0) = true <->
     d2 (valp N E x) (valp N E q) = d2 (valp N E x) (valp N E p)) /\
  (flt N (side N x (bisect N q p)) (fofZ N 0) = true <->
     (d2 (valp N E x) (valp N E p) < d2 (valp N E x) (valp N E q))%R).
Proof. exact bisect_sides. Qed.
Print Assumptions C13_bisector_separates.

Theorem C13_bisector_zero_iff_equal : forall (N : Arith) (E : Exact N) (p q : point N),
  finp N E p -> finp N E q ->
  (valh N E (bisect N q p) = (0, 0, 0, 0)%R <-> valp N E p = valp N E q).
Proof. exact bisect_zero. Qed.
Print Assumptions C13_bisector_zero_iff_equal.

(** nearer to q, on the bisector, nearer to p *)
Example C13_case :
  let p := ex_pt (100, 200, 300) in let q := ex_pt (500, 200, 300) in
  map (fun x => (flt arithQ (fofZ arithQ 0) (side arithQ x (bisect arithQ q p)),
                 feq arithQ (side arithQ x (bisect arithQ q p)) (fofZ arithQ 0)))
    [ex_pt (600, 900, 1); ex_pt (300, 900, 1); ex_pt (200, 900, 1)] =
  [(true, false); (false, true); (false, false)].
Proof. vm_compute. reflexivity. Qed.

(** ** C14 *)
Theorem C14_intersect_unique_point : forall (N : Arith) (E : Exact N) (h1 h2 h3 : plane N),
  finh N E h1 -> finh N E h2 -> finh N E h3 ->
  finp N E (ipoint N h1 h2 h3) /\ iw N h1 h2 h3 = fofZ N 1 /\
  (det3 (valh N E h1) (valh N E h2) (valh N E h3) <> 0%R ->
     forall x, (ev (valh N E h1) x = 0 /\ ev (valh N E h2) x = 0 /\ ev (valh N E h3) x = 0)%R <->
               x = valp N E (ipoint N h1 h2 h3)) /\
  (det3 (valh N E h1) (valh N E h2) (valh N E h3) = 0%R ->
     valp N E (ipoint N h1 h2 h3) = (0, 0, 0)%R).
Proof. exact intersect_point. Qed.
Print Assumptions C14_intersect_unique_point.

Theorem C14_intersect_any_order : forall (N : Arith) (E : Exact N) (h1 h2 h3 g1 g2 g3 : plane N),
  finh N E h1 -> finh N E h2 -> finh N E h3 ->
  Permutation [h1; h2; h3] [g1; g2; g3] ->
  det3 (valh N E h1) (valh N E h2) (valh N E h3) <> 0%R ->
  valp N E (ipoint N g1 g2 g3) = valp N E (ipoint N h1 h2 h3).
Proof. exact intersect_perm. Qed.
Print Assumptions C14_intersect_any_order.

(** scaling each plane by a non-zero factor (in particular its sign) changes nothing *)
Theorem C14_intersect_any_scale :
  forall (N : Arith) (E : Exact N) (l1 l2 l3 : R) (h1 h2 h3 g1 g2 g3 : plane N),
  finh N E h1 -> finh N E h2 -> finh N E h3 -> finh N E g1 -> finh N E g2 -> finh N E g3 ->
  l1 <> 0%R -> l2 <> 0%R -> l3 <> 0%R ->
  scaled l1 (valh N E h1) (valh N E g1) -> scaled l2 (valh N E h2) (valh N E g2) ->
  scaled l3 (valh N E h3) (valh N E g3) ->
  det3 (valh N E h1) (valh N E h2) (valh N E h3) <> 0%R ->
  valp N E (ipoint N g1 g2 g3) = valp N E (ipoint N h1 h2 h3).
Proof. exact intersect_scaled. Qed.
Print Assumptions C14_intersect_any_scale.

Example C14_case :
  let h a b c d : plane arithQ := (exq a, exq b, exq c, exq d) in
  let h1 := h 2000 0 0 (-1000) in let h2 := h 1000 1000 0 (-1000) in let h3 := h 0 0 (-4000) 1000 in
  (ipoint arithQ h1 h2 h3, ipoint arithQ h3 h1 h2, ipoint arithQ h1 h1 h3) =
  (ex_pt (500, 500, 250), ex_pt (500, 500, 250), ex_pt (0, 0, 0)).
Proof. vm_compute. reflexivity. Qed.

(** ** C35 *)
Theorem C35_set_true : forall b s t, 0 <= s < 8 -> 0 <= t < 8 ->
  st_get (st_set_true b s) t = (t =? s) || st_get b t.
Proof. exact get_set_true. Qed.
Print Assumptions C35_set_true.

Theorem C35_set_false : forall b s t, 0 <= s < 8 -> 0 <= t < 8 ->
  st_get (st_set_false b s) t = negb (t =? s) && st_get b t.
Proof. exact get_set_false. Qed.
Print Assumptions C35_set_false.

Theorem C35_sequences : forall l b t, Forall op_ok l -> 0 <= t < 8 ->
  st_get (apply_ops l b) t = last_value (rev l) (st_get b t) t.
Proof. exact flags_last_value. Qed.
Print Assumptions C35_sequences.

(** the eight flags determine the byte: nothing else is stored *)
Theorem C35_byte_is_its_flags : forall a b, 0 <= a < 256 -> 0 <= b < 256 ->
  (forall t, 0 <= t < 8 -> st_get a t = st_get b t) -> a = b.
Proof. exact byte_ext. Qed.
Print Assumptions C35_byte_is_its_flags.

Example C35_case :
  map (st_get (apply_ops [FSet 0; FSet 4; FReset; FSet 6; FSet 5; FClear 6; FClear 2] 9)) [0;1;2;3;4;5;6]
  = [false; false; false; false; false; true; false].
Proof. vm_compute. reflexivity. Qed.

(** ** C42 *)
Theorem C42_minmax2 : forall (N : Arith) (E : Exact N) a b, fin E a -> fin E b ->
  (fin E (fbmax N a b) /\ val E (fbmax N a b) = Rmax (val E a) (val E b)) /\
  (fin E (fbmin N a b) /\ val E (fbmin N a b) = Rmin (val E a) (val E b)).
Proof. intros N E a b Ha Hb. split; [exact (fbmax_exact N E a b Ha Hb)|exact (fbmin_exact N E a b Ha Hb)]. Qed.
Print Assumptions C42_minmax2.

Theorem C42_minmax3 : forall (N : Arith) (E : Exact N) a b c, fin E a -> fin E b -> fin E c ->
  (fin E (fbmax3 N a b c) /\ val E (fbmax3 N a b c) = Rmax (Rmax (val E a) (val E b)) (val E c)) /\
  (fin E (fbmin3 N a b c) /\ val E (fbmin3 N a b c) = Rmin (Rmin (val E a) (val E b)) (val E c)).
Proof.
  intros N E a b c Ha Hb Hc.
  split; [exact (fbmax3_exact N E a b c Ha Hb Hc)|exact (fbmin3_exact N E a b c Ha Hb Hc)].
Qed.
Print Assumptions C42_minmax3.

Theorem C42_minmax_int : forall a b, ibmax a b = Z.max a b /\ ibmin a b = Z.min a b.
Proof. intros a b. split; [exact (ibmax_ok a b)|exact (ibmin_ok a b)]. Qed.
Print Assumptions C42_minmax_int.

Theorem C42_radius_update : forall (N : Arith) (E : Exact N) p v r,
  finp N E p -> finp N E v -> fin E r ->
  fin E (sr_update N p v r) /\
  val E (sr_update N p v r) = Rmax (val E r) (d2 (valp N E p) (valp N E v)).
Proof. exact sr_update_exact. Qed.
Print Assumptions C42_radius_update.

Example C42_case :
  (fbmax arithQ (exq (-3)) (exq 7), fbmin3 arithQ (exq 5) (exq (-1)) (exq 2), ibmax 3 (-9), ibmin 3 (-9),
   sr_update arithQ (ex_pt (0,0,0)) (ex_pt (3000,4000,0)) (exq 1000)) =
  (exq 7, exq (-1), 3, -9, exq 25000).
Proof. vm_compute. reflexivity. Qed.

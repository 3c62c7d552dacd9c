(** k-nearest-neighbour theorems: C10, C11, C12. *)
From Verif Require Import Base Arith Exact Prog MUtils MHeap MXyz MKnn SpecHeap SpecGeom SpecKnn PGrid PHeapFinal PKnnFinal ArithQ PSortFinal.

(** Common reading: P0 are the caller's points, (P, ids, offset) the result of
    xyzset::sort at resolution gr, [ad] the layout of the heap row.  The row
    starts as k copies of (0, pad): index 0, distance infinity (host) or 128
    (device).  [dev] selects the host or the device code; [wp] is the conversion
    of the cell coordinates (identity on the host, to 16 bits on the device). *)

(** ** C10 *)
Theorem C10_knn_exact : forall (N : Arith) (E : Exact N) dev ad wp refs gr P0 P ids offset k index m pad,
  0 < gr -> gr * gr * gr <= int_max ->
  (forall p, In p P0 -> inside N E p) -> xyz_sort N gr P0 = Ok (P, ids, offset) ->
  0 < k <= zlen P - 1 -> 0 <= index < zlen P -> refs index = znth P index ->
  (forall c, 0 <= c < gr -> wp c = c) -> no_neighbour N E dev pad ->
  one_to_one ad k -> row_is N ad m (repeat (0, pad) (Z.to_nat k)) ->
  exists m' row dist,
    run_in (heap_slots ad k) (knn_compute N ad (znth P) dev wp refs k gr gr ids offset index) m = Ok (tt, m') /\
    row_is N ad m' (combine row dist) /\ zlen row = k /\ zlen dist = k /\
    nearest (sqdist N E P index) (fun p => 0 <= p < zlen P /\ p <> index) row /\
    (forall j p x, znth row j = Some p -> znth dist j = Some x -> fin E x /\ val E x = sqdist N E P index p).
Proof. exact knn_full. Qed.
Print Assumptions C10_knn_exact.

(** the 10-point set at resolution 3, query 4, k = 4; second slot of a host
    buffer, then column 1 of 2 of a device buffer *)
Definition knn_ex (dev : bool) (ad : Z -> Z) (pad : xq) (n k : Z) : option (list Z * list Z) :=
  match xyz_sort arithQ 3 ex_pts with
  | Ok (P, ids, offset) =>
      match run_in (heap_slots ad k) (knn_compute arithQ ad (znth P) dev (fun c => c) (znth P) k 3 3 ids offset 4)
              (mkMem (repeat 0 (Z.to_nat n)) (repeat pad (Z.to_nat n)) [] [] [] [] []) with
      | Ok (_, m) => Some (m_hid m, ids)
      | Err _ => None
      end
  | Err _ => None
  end.
Example C10_knn_host_ex :
  match knn_ex false (ad_host 4) Inf 8 4 with Some (l, _) => firstn 4 l = [0; 0; 0; 0] /\ NoDup (skipn 4 l) | None => False end.
Proof. vm_compute. split; [reflexivity|]. repeat constructor; simpl; intuition discriminate. Qed.
Example C10_knn_device_ex :
  option_map fst (knn_ex false (ad_host 0) Inf 4 4) =
  option_map (fun r => map (fun j => nth (2 * j + 1) (fst r) 0) [0; 1; 2; 3]%nat)
    (knn_ex true (ad_strided 2 1) (fofZ arithQ 128) 8 4).
Proof. vm_compute. reflexivity. Qed.

(** ** C11: two runs on the same points with different grids; also for
    different layouts and for host against device code *)
Theorem C11_grid_independent : forall (N : Arith) (E : Exact N)
  P0 k gr1 P1 ids1 off1 dev1 ad1 wp1 i1 m1 pad1 gr2 P2 ids2 off2 dev2 ad2 wp2 i2 m2 pad2,
  (forall p, In p P0 -> inside N E p) -> 0 < k ->
  0 < gr1 -> gr1 * gr1 * gr1 <= int_max -> xyz_sort N gr1 P0 = Ok (P1, ids1, off1) ->
  0 < gr2 -> gr2 * gr2 * gr2 <= int_max -> xyz_sort N gr2 P0 = Ok (P2, ids2, off2) ->
  0 <= i1 < zlen P1 -> 0 <= i2 < zlen P2 -> znth P1 i1 = znth P2 i2 ->
  (forall c, 0 <= c < gr1 -> wp1 c = c) -> (forall c, 0 <= c < gr2 -> wp2 c = c) ->
  no_neighbour N E dev1 pad1 -> no_neighbour N E dev2 pad2 ->
  one_to_one ad1 k -> row_is N ad1 m1 (repeat (0, pad1) (Z.to_nat k)) ->
  one_to_one ad2 k -> row_is N ad2 m2 (repeat (0, pad2) (Z.to_nat k)) ->
  exists m1' m2' h1 h2,
    run_in (heap_slots ad1 k) (knn_compute N ad1 (znth P1) dev1 wp1 (znth P1) k gr1 gr1 ids1 off1 i1) m1 = Ok (tt, m1') /\
    run_in (heap_slots ad2 k) (knn_compute N ad2 (znth P2) dev2 wp2 (znth P2) k gr2 gr2 ids2 off2 i2) m2 = Ok (tt, m2') /\
    row_is N ad1 m1' h1 /\ row_is N ad2 m2' h2 /\ zlen h1 = k /\ zlen h2 = k /\
    forall j x1 x2, pq_at N h1 j = Some x1 -> pq_at N h2 j = Some x2 -> same_value N E dev1 dev2 x1 x2.
Proof. exact knn_grid_free. Qed.
Print Assumptions C11_grid_independent.

(** the point (500,500,500) is at different positions for different
    resolutions; the distances to its 5 nearest neighbours are the same *)
Definition knn_dists (gr : Z) : list (Z * list xq) :=
  match xyz_sort arithQ gr ex_pts with
  | Ok (P, ids, offset) =>
      flat_map (fun i =>
        match znth P i with
        | Some p => if xq_eq (fst (fst p)) (exq 500) then
            match run_in (heap_slots (ad_host 0) 5)
                    (knn_compute arithQ (ad_host 0) (znth P) false (fun c => c) (znth P) 5 gr gr ids offset i)
                    (mkMem (repeat 0 5) (repeat Inf 5) [] [] [] [] []) with
            | Ok (_, m) => [(i, m_hpq m)]
            | Err _ => []
            end else []
        | None => []
        end) (zrange 0 (zlen P))
  | Err _ => []
  end.
Example C11_ex : map fst (knn_dists 2) <> map fst (knn_dists 7) /\
  map snd (knn_dists 2) = map snd (knn_dists 7) /\ length (knn_dists 2) = 1%nat.
Proof. vm_compute. repeat split; congruence. Qed.

(** ** C12: fewer than k other points (the other half of C12, no self and no
    repetition when k <= n-1, is part of C10) *)
Theorem C12_padding : forall (N : Arith) (E : Exact N) dev ad wp refs gr P0 P ids offset k index m pad,
  0 < gr -> gr * gr * gr <= int_max ->
  (forall p, In p P0 -> inside N E p) -> xyz_sort N gr P0 = Ok (P, ids, offset) ->
  0 < k -> zlen P - 1 < k -> 0 <= index < zlen P -> refs index = znth P index ->
  (forall c, 0 <= c < gr -> wp c = c) -> no_neighbour N E dev pad ->
  one_to_one ad k -> row_is N ad m (repeat (0, pad) (Z.to_nat k)) ->
  exists m' row dist,
    run_in (heap_slots ad k) (knn_compute N ad (znth P) dev wp refs k gr gr ids offset index) m = Ok (tt, m') /\
    row_is N ad m' (combine row dist) /\ zlen row = k /\ zlen dist = k /\
    NoDup (firstn (Z.to_nat (zlen P - 1)) row) /\
    (forall p, In p (firstn (Z.to_nat (zlen P - 1)) row) <-> 0 <= p < zlen P /\ p <> index) /\
    (forall j, zlen P - 1 <= j < k -> znth row j = Some 0 /\ exists x, znth dist j = Some x /\ no_neighbour N E dev x).
Proof. exact knn_short. Qed.
Print Assumptions C12_padding.

(** k = 12 with 10 points *)
Example C12_ex :
  match knn_ex false (ad_host 0) Inf 12 12 with
  | Some (l, _) => skipn 9 l = [0; 0; 0] /\ NoDup (firstn 9 l) /\ ~ In 4 (firstn 9 l)
  | None => False
  end.
Proof.
  vm_compute. split; [reflexivity|]. split; [repeat constructor; simpl; intuition discriminate|intuition discriminate].
Qed.

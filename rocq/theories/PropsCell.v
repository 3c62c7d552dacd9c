(** C19, C20, C21: the work of one slot (k-NN search, then cell). *)
From Verif Require Import Base Arith Prog MUtils MHeap MXyz MKnn MBoundary MCell MDnn MArgs MTess SpecBnd SpecSlot PSlotHost PSlotFinal ArithQ PSortFinal.

(** Common reading: [cfg_ok c]: 1 <= k <= 65535, 6 <= p_maxsize <= 255, 8 <=
    t_maxsize <= 65535.  [sorted_grid]: points, ids and offsets come from
    xyzset::sort of points whose cell ids are in range.  [room]: the arrays are
    long enough for slot i; their contents are arbitrary except that the heap row
    holds indices of points. *)

(** ** C19: any arithmetic, any contents of the rows *)
Theorem C19_host : forall (N : Arith) c (g : grid N) i index m,
  cfg_ok c -> sorted_grid N c g -> 0 <= index < zlen (g_pts N g) ->
  room (c_k c) (c_pmax c) (c_tmax c) i (zlen (g_pts N g)) m ->
  (forall d, 0 <= d < c_k c -> exists v, znth (m_hid m) (c_k c * i + d) = Some v /\ 0 <= v < zlen (g_pts N g)) ->
  (forall b, znth (m_st m) index = Some b -> 0 <= b < 256) ->
  exists m', run_in (own_rows (c_k c) (c_pmax c) (c_tmax c) i index) (slot_prog N c g i index) m = Ok (tt, m') /\
    (forall a x, own_rows (c_k c) (c_pmax c) (c_tmax c) i index a x = false -> mrd m' a x = mrd m a x) /\
    (forall a, zlen (mget m' a) = zlen (mget m a)).
Proof. exact host_confined. Qed.
Print Assumptions C19_host.

(** device: columns of the strided arrays, also when only a part (sub) of the
    points is processed; the counters of boundary::compute are 8 bits wide, hence
    the further bounds of [dev_cfg_ok] *)
Theorem C19_device : forall (N : Arith) c (g : grid N) nd sub indices i index m,
  dev_cfg_ok c -> sorted_grid N c g -> 0 < nd ->
  0 <= i < sub -> sub <= zlen (g_pts N g) -> znth indices i = Some index -> 0 <= index < zlen (g_pts N g) ->
  dev_room (c_k c) (c_pmax c) (c_tmax c) sub i (local_base nd (c_pmax c) i) (zlen (g_pts N g)) m ->
  (forall d, 0 <= d < c_k c -> exists v, znth (m_hid m) (sub * d + i) = Some v /\ 0 <= v < zlen (g_pts N g)) ->
  (forall b, znth (m_st m) index = Some b -> 0 <= b < 256) ->
  exists m', run_in (own_columns sub (c_k c) (c_pmax c) (c_tmax c) i (local_base nd (c_pmax c) i) index) (item_prog N c g nd sub indices i) m = Ok (tt, m') /\
    (forall a x, own_columns sub (c_k c) (c_pmax c) (c_tmax c) i (local_base nd (c_pmax c) i) index a x = false -> mrd m' a x = mrd m a x) /\
    (forall a, zlen (mget m' a) = zlen (mget m a)).
Proof. exact dev_confined. Qed.
Print Assumptions C19_device.

(** the 10-point set; slot 1 of 2, dirty buffers *)
Definition ex_cfg (k pm tm : Z) : cfg := mkCfg k 3 pm tm 2 1 false 0 false.
Definition grid_of {N} (r : res (list (point N) * list Z * list Z)) : grid N :=
  match r with Ok (P, ids, offs) => mkGrid N P ids offs | Err _ => mkGrid N [] [] [] end.
Definition ex_grid : grid arithQ := grid_of (xyz_sort arithQ 3 ex_pts).
Definition ex_mem_pad (pad : xq) (slots k pm tm : Z) : mem xq :=
  mkMem (repeat 0 (Z.to_nat (slots * k))) (repeat pad (Z.to_nat (slots * k))) (repeat (fofZ arithQ 7) (Z.to_nat (slots * (4 * pm))))
    (repeat 9 (Z.to_nat (slots * (3 * tm)))) (repeat 1 (Z.to_nat (slots * pm))) (repeat k_undefined (Z.to_nat (slots * k))) (repeat 0 10).
Definition ex_mem := ex_mem_pad Inf.
Definition ex_slot (k pm tm index : Z) : option (list Z * list Z * list Z) :=
  match run_in (own_rows k pm tm 1 index) (slot_prog arithQ (ex_cfg k pm tm) ex_grid 1 index) (ex_mem 2 k pm tm) with
  | Ok (_, m) => Some (trow (m_hid m) k 1, trow (m_dknn m) k 1, m_st m)
  | Err _ => None
  end.
Example C19_host_ex :
  ex_slot 9 20 40 0 = Some ([4; 2; 5; 1; 8; 6; -32; -32; -32], [6; 7; 8; 9; 10; 11; 12; -32; -32], repeat 0 10).
Proof. vm_compute. reflexivity. Qed.
(** the same cell as work item 7 of 10 on the device, groups of 5 *)
Example C19_device_ex :
  match run_in (own_columns 10 9 20 40 7 (local_base 5 20 7) 0)
          (item_prog arithQ (ex_cfg 9 20 40) ex_grid 5 10 [9; 8; 7; 6; 5; 4; 3; 0; 1; 2] 7) (ex_mem_pad (fofZ arithQ 128) 10 9 20 40) with
  | Ok (_, m) => map (fun d => znth (m_hid m) (10 * d + 7)) (zrange 0 9) = map Some [4; 2; 5; 1; 8; 6; -32; -32; -32]
  | Err _ => False
  end.
Proof. vm_compute. reflexivity. Qed.
(** the hypotheses hold for it *)
Example ex_grid_sorted : forall k pm tm, sorted_grid arithQ (ex_cfg k pm tm) ex_grid.
Proof.
  intros k pm tm. split; [simpl; lia|]. exists ex_pts. split.
  - intros p Hp. simpl in Hp. repeat (destruct Hp as [<-|Hp]; [eexists; split; [vm_compute; reflexivity|simpl; lia]|]). contradiction.
  - vm_compute. reflexivity.
Qed.
Example C19_hypotheses_ex : cfg_ok (ex_cfg 9 20 40) /\ dev_cfg_ok (ex_cfg 9 20 40) /\
  room 9 20 40 1 10 (ex_mem 2 9 20 40) /\ dev_room 9 20 40 10 7 (local_base 5 20 7) 10 (ex_mem_pad (fofZ arithQ 128) 10 9 20 40).
Proof.
  assert (cfg_ok (ex_cfg 9 20 40)) by (unfold cfg_ok; simpl; lia).
  split; [assumption|]. split; [split; [assumption|]; simpl; lia|].
  split; vm_compute; repeat split; discriminate.
Qed.

(** ** C20, C21.  The state byte starts at 0 and the label row at the marker, as
    the driver sets them.  [m1] is the memory after the k-NN search, [m'] at the
    end; T are the triangles of the final cell.  Without an error flag the row is
    exactly the candidates whose label occurs in T, in order, then markers.
    Labels name the candidate's own bisector among the planes and are not shared,
    so a candidate that never got a plane (marker label) is never reported. *)
Theorem C20_row : forall (N : Arith) c (g : grid N) i index m,
  cfg_ok c -> sorted_grid N c g -> 0 <= index < zlen (g_pts N g) ->
  room (c_k c) (c_pmax c) (c_tmax c) i (zlen (g_pts N g)) m ->
  (forall d, 0 <= d < c_k c -> exists v, znth (m_hid m) (c_k c * i + d) = Some v /\ 0 <= v < zlen (g_pts N g)) ->
  trow (m_dknn m) (c_k c) i = repeat k_undefined (Z.to_nat (c_k c)) -> znth (m_st m) index = Some st_init ->
  exists m1 m' p b,
    run (knn_compute N (ad_host (c_k c * i)) (znth (g_pts N g)) false (fun x => x) (znth (g_pts N g)) (c_k c) (c_gr c) (c_gr c) (g_ids N g) (g_offs N g) index) m = Ok (tt, m1) /\
    run (slot_prog N c g i index) m = Ok (tt, m') /\ znth (g_pts N g) index = Some p /\ znth (m_st m') index = Some b /\
    let cand := trow (m_hid m1) (c_k c) i in
    let lab := trow (m_dknn m') (c_k c) i in
    let row := trow (m_hid m') (c_k c) i in
    (~ no_error b -> row = cand) /\
    (no_error b -> exists T,
      tris_at (m_T m') (3 * c_tmax c * i) T /\ Forall (tri_ok (c_pmax c)) T /\
      row = filled (c_k c) k_undefined (kept T cand lab) /\
      (forall d l, znth lab d = Some l -> l <> k_undefined -> 6 <= l < c_pmax c /\
        exists q qp, znth cand d = Some q /\ znth (g_pts N g) q = Some qp /\ plane_is (m_P m') (4 * c_pmax c * i) l (bisect N qp p)) /\
      (forall d d' l, znth lab d = Some l -> znth lab d' = Some l -> l <> k_undefined -> d = d')).
Proof. exact host_row. Qed.
Print Assumptions C20_row.

(** [C19_host_ex] above is a case: of 9 candidates 7 got a plane, 6 are left.
    The first half of the conclusion, [~ no_error b -> row = cand], is the exact
    behaviour behind C21: after an overflow all k candidates are reported. *)
Theorem C21_refuted : exists (c : cfg) (g : grid arithQ) i index (m m' : mem xq) b d q,
  cfg_ok c /\ sorted_grid arithQ c g /\ 0 <= index < zlen (g_pts arithQ g) /\
  run (slot_prog arithQ c g i index) m = Ok (tt, m') /\
  znth (m_st m') index = Some b /\ st_get b error_p_overflow = true /\
  (* candidate q was never tried against the cell but is reported *)
  znth (trow (m_dknn m') (c_k c) i) d = Some k_undefined /\
  znth (trow (m_hid m') (c_k c) i) d = Some q /\ q <> k_undefined.
Proof.
  exists (ex_cfg 9 7 40), ex_grid, 1, 4, (ex_mem 2 9 7 40).
  destruct (run (slot_prog arithQ (ex_cfg 9 7 40) ex_grid 1 4) (ex_mem 2 9 7 40)) as [[[] m']|e] eqn:E; [|vm_compute in E; discriminate].
  exists m', 16, 8, 5. split; [unfold cfg_ok; simpl; lia|]. split; [apply ex_grid_sorted|].
  split; [vm_compute; split; [discriminate|reflexivity]|]. split; [reflexivity|].
  vm_compute in E. injection E as <-. split; [vm_compute; reflexivity|]. split; [vm_compute; reflexivity|].
  split; [vm_compute; reflexivity|]. split; [vm_compute; reflexivity|discriminate].
Qed.
Print Assumptions C21_refuted.

(** the same for the triangle buffer: two candidates processed, nine reported *)
Example C21_triangles_ex :
  ex_slot 9 20 10 4 = Some ([7; 0; 1; 3; 9; 6; 2; 8; 5], [6; 7; -32; -32; -32; -32; -32; -32; -32], [0; 0; 0; 0; 32; 0; 0; 0; 0; 0]).
Proof. vm_compute. reflexivity. Qed.

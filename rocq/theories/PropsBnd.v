(** C16, C17, C18: boundary::compute. *)
From Verif Require Import Base Prog MUtils MBoundary SpecBnd PBndFinal.

(** The triangles R are stored from cell ro on, the cycle row of capacity pmax
    from cell dro on and is all 255.  [wc] is the identity (host) or the
    conversion to uint8_t with at most 255 triangles (device). *)
Theorem C16_boundary : forall (F : Type) wc dro pmax ro R (m : mem F) head m',
  pmax <= 255 -> 1 <= zlen R -> counter_ok wc (zlen R) -> Forall (tri_ok pmax) R ->
  NoDup (edges R) -> (exists u v, boundary_edge R u v) ->
  cycle_row dro m (repeat 255 (Z.to_nat pmax)) -> tri_region ro m R ->
  run (bnd_compute wc dro pmax ro (zlen R)) m = Ok ((Bsuccess, head), m') ->
  exists C rest R',
    zlen C = pmax /\ cycle_row dro m' C /\ one_cycle C head rest /\
    (forall u v, znth C u = Some v /\ v <> 255 <-> boundary_edge R u v) /\
    tri_region ro m' R' /\ Permutation R' R.
Proof. exact @bnd_correct. Qed.
Print Assumptions C16_boundary.

(** five triangles of the cube's triangulation, given in an order that forces a
    deferral; rows inside larger arrays *)
Definition ex_bnd_tris : list tri := [(2, 5, 0); (4, 0, 3); (5, 3, 0); (1, 5, 2); (4, 2, 0)].
Definition ex_bnd_mem (pmax : nat) : mem Z :=
  mkMem [] [] [] (9 :: 9 :: flat_map (fun '(a, b, c) => [a; b; c]) ex_bnd_tris ++ [9])
    (7 :: repeat 255 pmax ++ [7]) [] [].
Example C16_boundary_ex :
  match run_in (bnd_cells 1 7 2 5) (bnd_compute (fun x => x) 1 7 2 5) (ex_bnd_mem 7) with
  | Ok ((st, head), m) =>
      st = Bsuccess /\ m_dR m = [7; 255; 5; 1; 4; 2; 3; 255; 7] /\ head = 3 /\
      m_T m = [9; 9; 2; 5; 0; 4; 2; 0; 5; 3; 0; 1; 5; 2; 4; 0; 3; 9]
  | Err _ => False
  end /\
  Forall (tri_ok 7) ex_bnd_tris /\ NoDup (edges ex_bnd_tris) /\ boundary_edge ex_bnd_tris 5 3.
Proof.
  split; [vm_compute; repeat split|]. split; [repeat constructor; lia|]. split.
  - unfold ex_bnd_tris, edges. simpl. repeat constructor; simpl; intuition congruence.
  - unfold boundary_edge, edges, ex_bnd_tris. split; simpl; [do 6 right; left; reflexivity|]. intros K. repeat (destruct K as [K|K]; [discriminate|]). exact K.
Qed.

(** any list of triangles with three different labels each, in particular
    disconnected, closed or repeated ones *)
Theorem C17_terminates : forall (F : Type) wc dro pmax ro R (m : mem F),
  pmax <= 255 -> 1 <= zlen R -> counter_ok wc (zlen R) -> Forall (tri_ok pmax) R ->
  cycle_row dro m (repeat 255 (Z.to_nat pmax)) -> tri_region ro m R ->
  exists st head m' R',
    run_in (bnd_cells dro pmax ro (zlen R)) (bnd_compute wc dro pmax ro (zlen R)) m = Ok ((st, head), m') /\
    (st = Bsuccess \/ st = Bunreachable) /\ tri_region ro m' R' /\ Permutation R' R.
Proof. exact @bnd_terminates. Qed.
Print Assumptions C17_terminates.

(** a repeated triangle: unreachable, on the device *)
Example C17_terminates_ex :
  match run_in (bnd_cells 0 6 0 3) (bnd_compute w8 0 6 0 3)
    (mkMem (F := Z) [] [] [] [0; 1; 2; 3; 4; 5; 3; 4; 5] (repeat 255 6) [] []) with
  | Ok ((st, _), _) => st = Bunreachable
  | Err _ => False
  end.
Proof. vm_compute. reflexivity. Qed.

(** A triangle that names one plane twice (cci::compute never builds one) can
    make the walk read past the row: entry 255 of a row of 6. *)
Theorem C17_repeated_label_refuted :
  run_in (bnd_cells 0 6 0 3) (bnd_compute (fun x => x) 0 6 0 3)
    (mkMem (F := Z) [] [] [] [0; 1; 0; 0; 0; 2; 3; 4; 5] (repeat 255 300) [] []) = Err EEscape.
Proof. vm_compute. reflexivity. Qed.
Print Assumptions C17_repeated_label_refuted.

(** up to 255 the capacity has no influence: same status, head, cycle and
    triangle order *)
Theorem C18_small_capacities : forall (F : Type) wc dro1 ro1 dro2 ro2 pmax1 pmax2 R (m1 m2 : mem F),
  pmax1 <= pmax2 <= 255 -> 1 <= zlen R -> counter_ok wc (zlen R) -> Forall (tri_ok pmax1) R ->
  cycle_row dro1 m1 (repeat 255 (Z.to_nat pmax1)) -> tri_region ro1 m1 R ->
  cycle_row dro2 m2 (repeat 255 (Z.to_nat pmax2)) -> tri_region ro2 m2 R ->
  exists st head C' R' m1' m2',
    run_in (bnd_cells dro1 pmax1 ro1 (zlen R)) (bnd_compute wc dro1 pmax1 ro1 (zlen R)) m1 = Ok ((st, head), m1') /\
    run_in (bnd_cells dro2 pmax2 ro2 (zlen R)) (bnd_compute wc dro2 pmax2 ro2 (zlen R)) m2 = Ok ((st, head), m2') /\
    zlen C' = pmax1 /\ cycle_row dro1 m1' C' /\ cycle_row dro2 m2' (C' ++ repeat 255 (Z.to_nat (pmax2 - pmax1))) /\
    tri_region ro1 m1' R' /\ tri_region ro2 m2' R'.
Proof. exact @cap_final. Qed.
Print Assumptions C18_small_capacities.

Example C18_small_capacities_ex :
  match run (bnd_compute (fun x => x) 1 7 2 5) (ex_bnd_mem 7), run (bnd_compute (fun x => x) 1 20 2 5) (ex_bnd_mem 20) with
  | Ok (r, m), Ok (r', m') => r = (Bsuccess, 3) /\ r' = r /\ m_T m' = m_T m
  | _, _ => False
  end.
Proof. vm_compute. auto. Qed.

(** the code violates the property from 256 on: every cut that removes two or
    more triangles is reported unreachable *)
Theorem C18_capacity_256_refuted : forall (F : Type) dro ro pmax R (m : mem F),
  256 <= pmax -> 2 <= zlen R -> Forall (tri_ok 255) R ->
  cycle_row dro m (repeat 255 (Z.to_nat pmax)) -> tri_region ro m R ->
  exists head m', run (bnd_compute (fun x => x) dro pmax ro (zlen R)) m = Ok ((Bunreachable, head), m').
Proof. exact @wrap_final. Qed.
Print Assumptions C18_capacity_256_refuted.

(** the same five triangles: success with 255, unreachable with 256 *)
Example C18_capacity_256_refuted_ex :
  match run (bnd_compute (fun x => x) 1 255 2 5) (ex_bnd_mem 255), run (bnd_compute (fun x => x) 1 256 2 5) (ex_bnd_mem 256) with
  | Ok ((st, _), _), Ok ((st', _), _) => st = Bsuccess /\ st' = Bunreachable
  | _, _ => False
  end.
Proof. vm_compute. auto. Qed.

(** C07, C08, C09, and the swap part of C42. *)
From Verif Require Import Base Arith Prog MUtils MHeap Exact ArithQ Arith32 SpecHeap PHeap PHeapFinal POrder.
From Coq Require Import QArith.
Open Scope Z_scope.

(** The theorems hold for any arithmetic whose comparison is a strict weak
    order on the values in the heap.  That covers every float but NaN, and
    exact numbers with infinity. *)
Theorem C07_float_order : weak_order arith32 not_nan.
Proof. exact f32_weak_order. Qed.
Print Assumptions C07_float_order.
Theorem C07_exact_order : forall N (E : Exact N), weak_order N (fin_or_inf E).
Proof. exact exact_weak_order. Qed.
Print Assumptions C07_exact_order.

(** [ad] is the address of a heap slot: host [ad_host h0], device
    [ad_strided s i].  Only the k slots of the heap are touched. *)
Theorem C07_maxheapify : forall (N : Arith) (S : F N -> Prop) ad h m s i,
  weak_order N S -> Forall (fun x => S (snd x)) h -> one_to_one ad (zlen h) -> row_is N ad m h ->
  s <= zlen h -> 0 <= i < zlen h ->
  max_heap N s h (2 * i + 1) -> max_heap N s h (2 * i + 2) ->
  exists m' h', run_in (heap_slots ad (zlen h)) (maxheapify N ad s i) m = Ok (tt, m') /\
    row_is N ad m' h' /\ Permutation h' h /\ max_heap N s h' i /\
    (forall j, ~ below i j -> znth h' j = znth h j).
Proof. exact maxheapify_final. Qed.
Print Assumptions C07_maxheapify.

(** for arbitrary values (NaN included) it still terminates and only permutes *)
Theorem C07_maxheapify_any_values : forall (N : Arith) ad h m s i,
  one_to_one ad (zlen h) -> row_is N ad m h -> s <= zlen h -> 0 <= i < zlen h ->
  exists m' h', run_in (heap_slots ad (zlen h)) (maxheapify N ad s i) m = Ok (tt, m') /\
    row_is N ad m' h' /\ Permutation h' h.
Proof. exact maxheapify_safe. Qed.
Print Assumptions C07_maxheapify_any_values.

(** a row of five at offset 2 in arrays of eight: node 0 is out of place *)
Definition ex_mem : mem (F arithQ) :=
  mkMem [70; 71; 10; 11; 12; 13; 14; 77]
        (map (fun z => fofZ arithQ z) [0; 0; 1; 9; 5; 7; 3; 0]) [] [] [] [] [].
Example C07_maxheapify_ex :
  match run_in (heap_slots (ad_host 2) 5) (maxheapify arithQ (ad_host 2) 5 0) ex_mem with
  | Ok (_, m) => m_hid m = [70; 71; 11; 13; 12; 10; 14; 77] /\
                 m_hpq m = map (fun z => fofZ arithQ z) [0; 0; 9; 7; 5; 1; 3; 0]
  | Err _ => False
  end.
Proof. vm_compute. auto. Qed.

Theorem C08_sort : forall (N : Arith) (S : F N -> Prop) ad h m,
  weak_order N S -> Forall (fun x => S (snd x)) h -> one_to_one ad (zlen h) -> row_is N ad m h ->
  exists m' h', run_in (heap_slots ad (zlen h)) (heap_sort N ad (zlen h)) m = Ok (tt, m') /\
    row_is N ad m' h' /\ Permutation h' h /\ ascending N h'.
Proof. exact sort_final. Qed.
Print Assumptions C08_sort.

(** not heap ordered, with a duplicate and infinity *)
Example C08_sort_ex :
  match run_in (heap_slots (ad_strided 2 1) 4) (heap_sort arithQ (ad_strided 2 1) 4)
          (mkMem [0; 10; 0; 11; 0; 12; 0; 13]
             [fofZ arithQ 8; fofZ arithQ 3; fofZ arithQ 8; Inf; fofZ arithQ 8; fofZ arithQ 1; fofZ arithQ 8; fofZ arithQ 3]
             [] [] [] [] []) with
  | Ok (_, m) => m_hid m = [0; 12; 0; 10; 0; 13; 0; 11] /\
      m_hpq m = [fofZ arithQ 8; fofZ arithQ 1; fofZ arithQ 8; fofZ arithQ 3; fofZ arithQ 8; fofZ arithQ 3; fofZ arithQ 8; Inf]
  | Err _ => False
  end.
Proof. vm_compute. auto. Qed.

(** ** C09: any two layouts of the same heap, same result, no other cell
    touched.  No assumption on the values. *)
Theorem C09_layouts_agree : forall (N : Arith) o ad1 ad2 h (m1 m2 : mem (F N)),
  op_ok (zlen h) o -> one_to_one ad1 (zlen h) -> one_to_one ad2 (zlen h) ->
  row_is N ad1 m1 h -> row_is N ad2 m2 h ->
  exists h' m1' m2',
    run_in (heap_slots ad1 (zlen h)) (op_prog N ad1 (zlen h) o) m1 = Ok (tt, m1') /\ row_is N ad1 m1' h' /\
    run_in (heap_slots ad2 (zlen h)) (op_prog N ad2 (zlen h) o) m2 = Ok (tt, m2') /\ row_is N ad2 m2' h' /\
    Permutation h' h.
Proof. exact op_layouts. Qed.
Print Assumptions C09_layouts_agree.

(** both layouts qualify, and their slots are one row / one column *)
Theorem C09_host_layout : forall h0 k, one_to_one (ad_host h0) k /\
  forall a x, heap_slots (ad_host h0) k a x = true -> h0 <= x < h0 + k.
Proof. intros h0 k. split; [apply host_one_to_one|apply host_row]. Qed.
Print Assumptions C09_host_layout.
Theorem C09_device_layout : forall s i k, 0 <= i < s -> one_to_one (ad_strided s i) k /\
  forall a x, heap_slots (ad_strided s i) k a x = true -> x mod s = i.
Proof. intros s i k H. split; [apply strided_one_to_one; lia|intros a x; now apply strided_column]. Qed.
Print Assumptions C09_device_layout.

Example C09_ex : one_to_one (ad_strided 3 2) 4 /\ row_is arithQ (ad_strided 3 2)
  (mkMem [0; 0; 5; 0; 0; 6] (map (fun z => fofZ arithQ z) [0; 0; 1; 0; 0; 2]) [] [] [] [] [])
  [(5, fofZ arithQ 1); (6, fofZ arithQ 2)].
Proof.
  split; [apply strided_one_to_one; lia|]. intros j x H.
  assert (Hj : j = 0 \/ j = 1) by (pose proof (PBase.znth_some _ _ _ H); change (zlen _) with 2 in *; lia).
  destruct Hj as [-> | ->]; injection H as <-; split; reflexivity.
Qed.

(** ** C42: heap::swap (and utils::swap in it) exchanges *)
Theorem C42_swap : forall (N : Arith) ad h (m : mem (F N)) a b x y,
  one_to_one ad (zlen h) -> row_is N ad m h -> znth h a = Some x -> znth h b = Some y ->
  exists m', run_in (heap_slots ad (zlen h)) (heap_swap N ad a b) m = Ok (tt, m') /\
    row_is N ad m' (zupd (zupd h a y) b x).
Proof. exact swap_final. Qed.
Print Assumptions C42_swap.

(** Heaps: what "max-heap" and "sorted" mean, independent of the code. *)
From Verif Require Import Base Arith Prog MHeap.
From Coq Require Export Permutation.

(** flt is a strict weak order on the values satisfying S: true of all floats
    except NaN, and of exact numbers with infinity. *)
Record weak_order (N : Arith) (S : F N -> Prop) : Prop := mkWO {
  wo_asym : forall x y, S x -> S y -> flt N x y = true -> flt N y x = false;
  wo_trans : forall x y z, S x -> S y -> S z ->
    flt N y x = false -> flt N z y = false -> flt N z x = false
}.

Section S.
Variable N : Arith.
Notation F := (F N).
(** the heap as a list of (id, priority) *)
Notation heap := (list (Z * F)).

Definition pq_at (h : heap) (j : Z) : option F := option_map snd (znth h j).
(** j is not smaller than its child c (if both exist below s) *)
Definition above (s : Z) (h : heap) (j c : Z) : Prop :=
  forall x y, c < s -> pq_at h j = Some x -> pq_at h c = Some y -> flt N x y = false.
Definition ordered_at (s : Z) (h : heap) (j : Z) : Prop :=
  above s h j (2 * j + 1) /\ above s h j (2 * j + 2).

(** j lies in the subtree rooted at i *)
Inductive below (i : Z) : Z -> Prop :=
| below_root : below i i
| below_left j : below i j -> below i (2 * j + 1)
| below_right j : below i j -> below i (2 * j + 2).

(** the subtree at i is a max-heap (of the first s entries) *)
Definition max_heap (s : Z) (h : heap) (i : Z) : Prop := forall j, below i j -> ordered_at s h j.

(** ascending priorities *)
Definition ascending (h : heap) : Prop :=
  forall i j x y, 0 <= i < j -> pq_at h i = Some x -> pq_at h j = Some y -> flt N y x = false.
End S.

(** ** on the shared arrays *)
Section Arrays.
Variable N : Arith.
Notation F := (F N).
(** heap_id and heap_pq hold the pairs h at the addresses ad 0, ad 1, ... *)
Definition row_is (ad : Z -> Z) (m : mem F) (h : list (Z * F)) : Prop :=
  forall j x, znth h j = Some x ->
    mrd m AHeapId (ad j) = Some (fst x) /\ mrd m AHeapPq (ad j) = Some (snd x).
(** different entries have different addresses *)
Definition one_to_one (ad : Z -> Z) (k : Z) : Prop :=
  forall i j, 0 <= i < k -> 0 <= j < k -> ad i = ad j -> i = j.
(** the k slots of the heap, and nothing else *)
Definition heap_slots (ad : Z -> Z) (k : Z) : region := fun a x =>
  match a with
  | AHeapId | AHeapPq => existsb (fun j => ad j =? x) (zrange 0 k)
  | _ => false
  end.

(** every one of the three operations, at two layouts *)
Inductive heap_op := OSwap (a b : Z) | OHeapify (s i : Z) | OSort.
Definition op_prog (ad : Z -> Z) (k : Z) (o : heap_op) : prog F unit :=
  match o with
  | OSwap a b => heap_swap N ad a b
  | OHeapify s i => maxheapify N ad s i
  | OSort => heap_sort N ad k
  end.
Definition op_ok (k : Z) (o : heap_op) : Prop :=
  match o with
  | OSwap a b => 0 <= a < k /\ 0 <= b < k
  | OHeapify s i => s <= k /\ 0 <= i < k
  | OSort => True
  end.
End Arrays.

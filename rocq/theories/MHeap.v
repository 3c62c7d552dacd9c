(** Model of src/heap.ipp.  The three overload families differ only in how slot
    [j] of the heap is addressed:
      - host,          src/heap.ipp:11-66   : h0 + j
      - SYCL,          src/heap.ipp:76-138  : h0 + j
      - SYCL strided,  src/heap.ipp:148-232 : s * j + i
    so the model takes the address function [ad] as a parameter. *)
From Verif Require Import Base Arith Prog MUtils.
Local Open Scope prog_scope.

Definition ad_host (h0 : Z) : Z -> Z := fun j => h0 + j.
Definition ad_strided (s i : Z) : Z -> Z := fun j => s * j + i.

Section Heap.
Variable N : Arith.
Notation F := (F N).
Variable ad : Z -> Z.

(** src/heap.ipp:11-20, 76-90, 148-162 swap.  std::swap and the explicit
    temporary are the same sequence of accesses up to the order of reads. *)
Definition heap_swap (a b : Z) : prog F unit :=
  ia <- rd AHeapId (ad a) ;;
  ib <- rd AHeapId (ad b) ;;
  wr AHeapId (ad a) ib ;;;
  wr AHeapId (ad b) ia ;;;
  qa <- rd AHeapPq (ad a) ;;
  qb <- rd AHeapPq (ad b) ;;
  wr AHeapPq (ad a) qb ;;;
  wr AHeapPq (ad b) qa.

(** One comparison of src/heap.ipp:35-40: is child [c] (if < s) greater than
    the current candidate? *)
Definition heap_pick (s c largest : Z) : prog F Z :=
  if c <? s then
    x <- rd AHeapPq (ad c) ;;
    y <- rd AHeapPq (ad largest) ;;
    if flt N y x then Ret c else Ret largest
  else Ret largest.

(** src/heap.ipp:24-48, 94-120, 166-192 maxheapify; the loop index at least
    doubles in each round, so [s] rounds are enough. *)
Fixpoint maxheapify_loop (fuel : nat) (s i : Z) : prog F unit :=
  largest <- heap_pick s (2 * i + 1) i ;;
  largest <- heap_pick s (2 * i + 2) largest ;;
  if i =? largest then Ret tt
  else
    match fuel with
    | O => Fail EDiverge
    | S fuel => heap_swap i largest ;;; maxheapify_loop fuel s largest
    end.

Definition maxheapify (s i : Z) : prog F unit :=
  maxheapify_loop (Z.to_nat s) s i.

(** src/heap.ipp:52-66, 124-138, 218-232 sort *)
Definition heap_sort (k : Z) : prog F unit :=
  forM (zrange_down 0 (k / 2)) (fun i => maxheapify k i) ;;;
  forM (zrange_down 0 k) (fun i => heap_swap 0 i ;;; maxheapify i 0).

End Heap.

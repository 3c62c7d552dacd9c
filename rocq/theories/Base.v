(** Common vocabulary of the model: outcomes, indexed access to C++ vectors,
    integer ranges and the integer conversions of C++.
    Nothing here models a function of /repo; these are the modelling
    primitives every other file uses. *)
From Coq Require Export ZArith List Bool Lia.
Export ListNotations.
Open Scope Z_scope.

(** Abnormal outcomes.
    [EUB]      undefined behaviour (out-of-bounds access, signed overflow,
               integer division by zero, float-to-int cast out of range);
    [EThrow]   a C++ exception leaves the call;
    [EDiverge] the modelled loop does not terminate (fuel exhausted);
    [EEscape]  only used by the confined interpreter of [Prog.v]: the program
               touched memory outside the region it was confined to. *)
Inductive err := EUB | EThrow | EDiverge | EEscape.

Inductive res (A : Type) :=
| Ok (a : A)
| Err (e : err).
Arguments Ok {A} _.
Arguments Err {A} _.

Definition rbind {A B} (x : res A) (f : A -> res B) : res B :=
  match x with Ok a => f a | Err e => Err e end.

Declare Scope res_scope.
Delimit Scope res_scope with res.
Notation "x <-r e1 ;; e2" := (rbind e1 (fun x => e2))
  (at level 61, e1 at next level, right associativity) : res_scope.
Notation "' p <-r e1 ;; e2" := (rbind e1 (fun p => e2))
  (at level 61, p pattern, e1 at next level, right associativity) : res_scope.

(** [std::vector] access by an integer index; [None] = out of bounds. *)
Definition znth {A} (l : list A) (i : Z) : option A :=
  if 0 <=? i then nth_error l (Z.to_nat i) else None.

Fixpoint nupd {A} (l : list A) (n : nat) (v : A) : list A :=
  match l, n with
  | [], _ => []
  | _ :: t, O => v :: t
  | x :: t, S n => x :: nupd t n v
  end.

(** Write of a vector cell; unchanged when out of bounds (callers test). *)
Definition zupd {A} (l : list A) (i : Z) (v : A) : list A :=
  if 0 <=? i then nupd l (Z.to_nat i) v else l.

Definition zlen {A} (l : list A) : Z := Z.of_nat (length l).

(** Checked read / write as outcomes. *)
Definition rget {A} (l : list A) (i : Z) : res A :=
  match znth l i with Some v => Ok v | None => Err EUB end.
Definition rset {A} (l : list A) (i : Z) (v : A) : res (list A) :=
  match znth l i with Some _ => Ok (zupd l i v) | None => Err EUB end.

(** The integers a, a+1, ..., b-1: the values of [for (x = a; x < b; x++)]. *)
Definition zrange (a b : Z) : list Z :=
  map (fun n => a + Z.of_nat n) (seq 0 (Z.to_nat (b - a))).

(** b-1, ..., a : the values of [for (x = b-1; x >= a; x--)]. *)
Definition zrange_down (a b : Z) : list Z := rev (zrange a b).

(** C++ integer conversions. *)
Definition w8 (x : Z) : Z := x mod 256.             (* to uint8_t *)
Definition w16 (x : Z) : Z := x mod 65536.          (* to unsigned short *)
Definition w32 (x : Z) : Z := x mod 4294967296.     (* to unsigned int *)
Definition w64 (x : Z) : Z := x mod 18446744073709551616. (* to size_t *)

Definition int_min : Z := -2147483648.
Definition int_max : Z := 2147483647.
Definition in_int (x : Z) : bool := (int_min <=? x) && (x <=? int_max).

(** Result of signed [int] arithmetic: overflow is undefined behaviour. *)
Definition chk (x : Z) : res Z := if in_int x then Ok x else Err EUB.

Definition b2z (b : bool) : Z := if b then 1 else 0.

(** Generic fold over outcomes. *)
Fixpoint rfold {S X} (l : list X) (f : S -> X -> res S) (s : S) : res S :=
  match l with
  | [] => Ok s
  | x :: l => rbind (f s x) (rfold l f)
  end.

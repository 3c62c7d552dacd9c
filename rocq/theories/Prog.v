(** Programs over the flat working arrays of the per-cell kernels, and three
    interpreters: sequential, confined, and interleaved.

    A kernel of /repo ([heap::*], [knni::compute], [boundary::compute],
    [cci::compute]) is a [prog]: a tree of single reads and writes.  The arrays
    are those allocated in src/votess.ipp:406-415 (host) and 223-235 (device).
    Arrays that are only read by the kernels (xyzset, refset, id, offset) are
    plain Coq data, not part of this memory. *)
From Verif Require Import Base.

Inductive arr := AHeapId | AHeapPq | AP | AT | AdR | ADknn | ASt.

Definition arr_eqb (a b : arr) : bool :=
  match a, b with
  | AHeapId, AHeapId | AHeapPq, AHeapPq | AP, AP | AT, AT
  | AdR, AdR | ADknn, ADknn | ASt, ASt => true
  | _, _ => false
  end.

Section Prog.
Context {F : Type}.

(** heap_id, dknn : Ti ; heap_pq, P : Tf ; T, dR : uint8_t ; states: the byte
    of cc::state. *)
Definition ty (a : arr) : Type :=
  match a with
  | AHeapPq | AP => F
  | AHeapId | AT | AdR | ADknn | ASt => Z
  end.

Inductive prog (A : Type) : Type :=
| Ret (a : A)
| Fail (e : err)
| Rd (a : arr) (i : Z) (k : ty a -> prog A)
| Wr (a : arr) (i : Z) (v : ty a) (k : prog A).
Arguments Ret {A} _.
Arguments Fail {A} _.
Arguments Rd {A} _ _ _.
Arguments Wr {A} _ _ _ _.

Fixpoint bind {A B} (p : prog A) (f : A -> prog B) : prog B :=
  match p with
  | Ret a => f a
  | Fail e => Fail e
  | Rd a i k => Rd a i (fun v => bind (k v) f)
  | Wr a i v k => Wr a i v (bind k f)
  end.

Definition rd (a : arr) (i : Z) : prog (ty a) := Rd a i (fun v => Ret v).
Definition wr (a : arr) (i : Z) (v : ty a) : prog unit := Wr a i v (Ret tt).

(** [for x in l do f x] and the same with an accumulator. *)
Fixpoint forM {X} (l : list X) (f : X -> prog unit) : prog unit :=
  match l with
  | [] => Ret tt
  | x :: l => bind (f x) (fun _ => forM l f)
  end.

Fixpoint foldM {S X} (l : list X) (f : S -> X -> prog S) (s : S) : prog S :=
  match l with
  | [] => Ret s
  | x :: l => bind (f s x) (foldM l f)
  end.

(** Read of an array that is constant during the parallel phase. *)
Definition pure_opt {A} (o : option A) : prog A :=
  match o with Some a => Ret a | None => Fail EUB end.

(** ** Memory: one list per array. *)
Record mem := mkMem {
  m_hid : list Z; m_hpq : list F; m_P : list F; m_T : list Z;
  m_dR : list Z; m_dknn : list Z; m_st : list Z
}.

Definition mget (m : mem) (a : arr) : list (ty a) :=
  match a return list (ty a) with
  | AHeapId => m_hid m | AHeapPq => m_hpq m | AP => m_P m | AT => m_T m
  | AdR => m_dR m | ADknn => m_dknn m | ASt => m_st m
  end.

Definition mset (m : mem) (a : arr) : list (ty a) -> mem :=
  match a return list (ty a) -> mem with
  | AHeapId => fun l => mkMem l (m_hpq m) (m_P m) (m_T m) (m_dR m) (m_dknn m) (m_st m)
  | AHeapPq => fun l => mkMem (m_hid m) l (m_P m) (m_T m) (m_dR m) (m_dknn m) (m_st m)
  | AP => fun l => mkMem (m_hid m) (m_hpq m) l (m_T m) (m_dR m) (m_dknn m) (m_st m)
  | AT => fun l => mkMem (m_hid m) (m_hpq m) (m_P m) l (m_dR m) (m_dknn m) (m_st m)
  | AdR => fun l => mkMem (m_hid m) (m_hpq m) (m_P m) (m_T m) l (m_dknn m) (m_st m)
  | ADknn => fun l => mkMem (m_hid m) (m_hpq m) (m_P m) (m_T m) (m_dR m) l (m_st m)
  | ASt => fun l => mkMem (m_hid m) (m_hpq m) (m_P m) (m_T m) (m_dR m) (m_dknn m) l
  end.

Definition mrd (m : mem) (a : arr) (i : Z) : option (ty a) := znth (mget m a) i.
Definition mwr (m : mem) (a : arr) (i : Z) (v : ty a) : mem :=
  mset m a (zupd (mget m a) i v).

(** ** Confined interpreter.  [W a i = true] means cell [i] of array [a] may be
    touched.  Sequential execution is confinement to everything. *)
Definition region := arr -> Z -> bool.

Fixpoint run_in {A} (W : region) (p : prog A) (m : mem) : res (A * mem) :=
  match p with
  | Ret a => Ok (a, m)
  | Fail e => Err e
  | Rd a i k =>
      if W a i then
        match mrd m a i with
        | Some v => run_in W (k v) m
        | None => Err EUB
        end
      else Err EEscape
  | Wr a i v k =>
      if W a i then
        match mrd m a i with
        | Some _ => run_in W k (mwr m a i v)
        | None => Err EUB
        end
      else Err EEscape
  end.

Definition everywhere : region := fun _ _ => true.
Definition run {A} (p : prog A) (m : mem) : res (A * mem) := run_in everywhere p m.

(** ** Interleaved interpreter: threads share the memory; one scheduling
    decision executes one access of the chosen thread.  When the schedule is
    exhausted, the remaining work is done thread by thread, so every list of
    decisions denotes a complete execution and every complete interleaving is
    denoted by some list. *)
Definition step1 (p : prog unit) (m : mem) : res (prog unit * mem) :=
  match p with
  | Ret a => Ok (Ret a, m)
  | Fail e => Err e
  | Rd a i k =>
      match mrd m a i with Some v => Ok (k v, m) | None => Err EUB end
  | Wr a i v k =>
      match mrd m a i with Some _ => Ok (k, mwr m a i v) | None => Err EUB end
  end.

Fixpoint finish (ps : list (prog unit)) (m : mem) : res mem :=
  match ps with
  | [] => Ok m
  | p :: ps =>
      match run p m with
      | Ok (_, m) => finish ps m
      | Err e => Err e
      end
  end.

Fixpoint pool_run (sched : list nat) (ps : list (prog unit)) (m : mem) : res mem :=
  match sched with
  | [] => finish ps m
  | n :: sched =>
      match nth_error ps n with
      | None => pool_run sched ps m
      | Some p =>
          match step1 p m with
          | Ok (p', m') => pool_run sched (nupd ps n p') m'
          | Err e => Err e
          end
      end
  end.

End Prog.
Arguments Ret {F A} _.
Arguments Fail {F A} _.
Arguments Rd {F A} _ _ _.
Arguments Wr {F A} _ _ _ _.
Arguments mem F : clear implicits.
Arguments prog F A : clear implicits.

Declare Scope prog_scope.
Delimit Scope prog_scope with prog.
Notation "x <- e1 ;; e2" := (bind e1 (fun x => e2))
  (at level 61, e1 at next level, right associativity) : prog_scope.
Notation "' p <- e1 ;; e2" := (bind e1 (fun p => e2))
  (at level 61, p pattern, e1 at next level, right associativity) : prog_scope.
Notation "e1 ;;; e2" := (bind e1 (fun _ => e2))
  (at level 61, right associativity) : prog_scope.

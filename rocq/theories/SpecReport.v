(** What a call that is not silenced reports on standard output. *)
From Verif Require Import Base MUtils MDnn MArgs MTess SpecApi.
From Coq Require Import String.
Local Open Scope string_scope.
Local Open Scope Z_scope.

(** a line with a number *)
Definition says (label : string) (n : Z) : string := label ++ show_int n ++ nl.
(** n points in R runs of C points; the last run may be empty *)
Definition runs_of (C n R : Z) : Prop := (0 < C < n -> C * (R - 1) <= n < C * R) /\ (~ 0 < C < n -> R = 1).
(** first part, computed on the host: threads, points per run, runs *)
Definition host_front (T C R : Z) : string := says "nthread = " T ++ says "chunksize = " C ++ says "nruns = " R.
(** first part, computed on the device: its description, and a line per run *)
Definition device_front (info : string) (R : Z) (s : string) : Prop :=
  exists lines, s = info ++ String.concat "" lines /\ zlen lines = R /\
  forall r, 0 <= r < R -> znth lines r = Some ("[chunking] run : " ++ show_int r ++ "/" ++ show_int R ++ nl).
(** second part: numbers of cells by flag *)
Definition tally (states : list Z) (s : string) : Prop :=
  exists n0 n4 n5 n1 n2 n3 n6, s = says "[fail] sradius : " n0 ++ says "       p overflow: " n4 ++ says "       t overflow: " n5 ++ says "       inf boundary: " n1 ++
    says "       nvalid vertice: " n2 ++ says "       nvalid neighbor: " n3 ++ says "       nerrors : " n6 ++ nl /\
  counts states (fun b => Z.testbit b 0 = false) n0 /\ counts states (fun b => Z.testbit b 4 = true) n4 /\ counts states (fun b => Z.testbit b 5 = true) n5 /\
  counts states (fun b => Z.testbit b 1 = true) n1 /\ counts states (fun b => Z.testbit b 2 = true) n2 /\ counts states (fun b => Z.testbit b 3 = true) n3 /\ counts states (fun b => Z.testbit b 6 = true) n6.

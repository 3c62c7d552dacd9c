(** What it means for a program on the arrays to return, and for programs to run side
    by side. *)
From Verif Require Import Base Prog.

Section Run.
Context {F : Type}.
Notation mem := (mem F).
Notation prog := (prog F).
(** it returns, with a result and a memory that satisfy Q *)
Definition wp {A} (p : prog A) (Q : A -> mem -> Prop) (m : mem) : Prop :=
  exists a m', run p m = Ok (a, m') /\ Q a m'.
(** same contents of the cells of a region; no common cell *)
Definition agree (W : region) (m m' : mem) : Prop := forall a i, W a i = true -> mrd m a i = mrd m' a i.
Definition disjoint (W W' : region) : Prop := forall a i, W a i = true -> W' a i = true -> False.
(** each program in its own region *)
Record task := mkTask { t_p : prog unit; t_W : region; t_f : mem }.
Definition confined (m : mem) (t : task) : Prop := exists f, run_in (t_W t) (t_p t) m = Ok (tt, f) /\ agree (t_W t) f (t_f t).
(** different tasks have no common cell *)
Definition apart (ts : list task) : Prop := ForallOrdPairs (fun t t' => disjoint (t_W t) (t_W t')) ts.
Definition outside (ts : list task) a i : Prop := forall t, In t ts -> t_W t a i = false.
(** [m'] holds each task's result in its region and [m] elsewhere *)
Definition merged (m : mem) (ts : list task) (m' : mem) : Prop :=
  (forall t, In t ts -> agree (t_W t) m' (t_f t)) /\ (forall a i, outside ts a i -> mrd m' a i = mrd m a i).
(** a thread that runs tasks one after the other *)
Definition thread_of (ts : list task) : prog unit := forM ts t_p.
End Run.

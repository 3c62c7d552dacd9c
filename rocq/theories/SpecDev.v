(** Limits of the device path. *)
From Verif Require Import Base Arith MUtils MArgs MTess SpecParam.
Local Open Scope Z_scope.

(** 8-bit grid resolution and plane numbers, one chunk, whole work groups *)
Definition dev_ok (c : cfg) (n : Z) : Prop :=
  c_gr c <= 255 /\ (c_tmax c <= 254 \/ c_pmax c <= 130) /\ gpu_fits c n /\
  chunked (chunk_of c n) n = false /\ n mod (if 0 <? c_ndsize c then c_ndsize c else 1) = 0.

(** the flags that recompute reads from the states of the first run *)
Definition rec_flags : list Z := [security_radius_reached; error_p_overflow; error_t_overflow].
(** the memory that becomes the state of cell x does not have these bits set *)
Definition clean (N : Arith) (w : world N) (fs : list Z) (x : Z) : Prop :=
  forall f, In f fs -> st_get (w8 (jZ N (w_junk N w) x)) f = false.

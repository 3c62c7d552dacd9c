(** C86: fractional values of parameters. *)
From Verif Require Import Base MDnn MArgs MPy MFloatArg SpecFloatArg PFloatArg.
From Flocq Require Import Core.
From Coq Require Import String Reals Lra Lia.
Local Open Scope string_scope.
Local Open Scope Z_scope.

(** ** C86.  Full statement: a float or double x assigned to an integer parameter is read
    back as x without its fractional part.  What is stored is the text of x with six
    significant digits; reading it stops at the point or at the exponent.  So x rounded
    to six digits is truncated if it is written without exponent ... *)
Theorem C86_value_partial : forall a key x a', finite x -> plain (six (fvalR x)) -> args_set_float a key x = Ok a' -> get_int a' key = Ok (Ztrunc (six (fvalR x))).
Proof. exact plain_value. Qed.
Print Assumptions C86_value_partial.
(** ... which is x truncated below 100000, unless the next integer is nearer than 1/20 *)
Theorem C86_truncates_partial : forall a key x a' z, finite x -> 0 <= z < 100000 -> (IZR z <= Rabs (fvalR x) < IZR z + 19 / 20)%R -> (fvalR x = 0 \/ 1 / 10000 <= Rabs (fvalR x))%R ->
  args_set_float a key x = Ok a' -> get_int a' key = Ok (if Rle_bool 0 (fvalR x) then z else - z).
Proof. exact truncates. Qed.
Print Assumptions C86_truncates_partial.
(** Below 1/10000 and from 10^6 on the first digit comes back, whatever the size. *)
Theorem C86_exponent : forall a key x a', finite x -> ~ plain (six (fvalR x)) -> args_set_float a key x = Ok a' -> exists v, get_int a' key = Ok v /\ leading (six (fvalR x)) v.
Proof. exact exponent_value. Qed.
Print Assumptions C86_exponent.
Theorem C86_leading : forall r v v', leading r v -> leading r v' -> v = v'.
Proof. exact leading_unique. Qed.
Print Assumptions C86_leading.
(** NaN and the infinities are refused when the value is read *)
Theorem C86_no_number : forall a key x a', (forall neg m e, x <> FFin neg m e) -> args_set_float a key x = Ok a' -> get_int a' key = Err EThrow /\ get_bool a' key = Err EThrow.
Proof. exact no_value. Qed.
Print Assumptions C86_no_number.
(** a switch is off from 0 to 1, on from 1 to 2, otherwise an exception *)
Theorem C86_switch : forall a key x a', finite x -> args_set_float a key x = Ok a' ->
  (plain (six (fvalR x)) -> get_bool a' key = if Ztrunc (six (fvalR x)) =? 0 then Ok false else if Ztrunc (six (fvalR x)) =? 1 then Ok true else Err EThrow) /\
  (~ plain (six (fvalR x)) -> get_bool a' key = Ok true /\ leading (six (fvalR x)) 1 \/ get_bool a' key = Err EThrow /\ ~ leading (six (fvalR x)) 1).
Proof. intros a key x a' F H. split; intros P; [exact (bool_value a key x a' F P H)|exact (bool_exponent a key x a' F P H)]. Qed.
Print Assumptions C86_switch.
(** less than one thread means all *)
Theorem C86_threads : forall a x a' hwc, finite x -> plain (six (fvalR x)) -> (0 <= fvalR x)%R -> args_set_float a "cpu_nthreads" x = Ok a' ->
  get_nthreads hwc a' = Ok (if Ztrunc (six (fvalR x)) =? 0 then hwc else Ztrunc (six (fvalR x))).
Proof. exact threads_value. Qed.
Print Assumptions C86_threads.
(** from Python the value is rounded to single precision before *)
Theorem C86_python : forall a key x a', finite x -> (Rabs (fvalR x) <= bpow radix2 127)%R -> plain (six (single (fvalR x))) -> py_setitem_float a key x = Ok a' ->
  get_int a' key = Ok (Ztrunc (six (single (fvalR x)))).
Proof. exact python_value. Qed.
Print Assumptions C86_python.
(** for integral values this is the text of C34 *)
Theorem C86_integral : forall z, show_g (FFin (z <? 0) (Z.abs z) 0) = show_float_int z.
Proof. exact show_int_float. Qed.
Print Assumptions C86_integral.

(** 10995116 / 2^40 is the float 0.00001f: k becomes 1 (C++: vtargs["k"] = 1e-5f).  The
    float before 3 gives 3. *)
Theorem C86_refuted : exists x y a a', finite x /\ finite y /\ (0 < fvalR x < 1 / 50000)%R /\ (2 < fvalR y < 3)%R /\
  args_set_float args_init "k" x = Ok a /\ get_int a "k" = Ok 1 /\ args_set_float args_init "k" y = Ok a' /\ get_int a' "k" = Ok 3.
Proof.
  exists (FFin false 10995116 (-40)), (FFin false 12582911 (-22)). eexists. eexists. split; [simpl; lia|]. split; [simpl; lia|].
  split. { unfold fvalR. change (bpow radix2 (-40)) with (/ IZR 1099511627776)%R. lra. }
  split. { unfold fvalR. change (bpow radix2 (-22)) with (/ IZR 4194304)%R. lra. }
  split; [vm_compute; reflexivity|]. split; [vm_compute; reflexivity|]. split; [vm_compute; reflexivity|]. vm_compute. reflexivity.
Qed.
Print Assumptions C86_refuted.

(** 0.5, 2^-14, -0.75, 96450.6, 1249999.625, 781249.9921875, 2^-1074, -0, the double 0.1
    and its float *)
Example C86_texts : map show_g [FFin false 1 (-1); FFin false 1 (-14); FFin true 3 (-2); FFin false 12345675 (-7); FFin false 9999997 (-3); FFin false 99999999 (-7); FFin false 1 (-1074); FFin true 0 3; FInf true;
    FFin false 7205759403792794 (-56); to_float (FFin false 7205759403792794 (-56)); to_float (FFin false 1 128)] =
  ["0.5"; "6.10352e-05"; "-0.75"; "96450.6"; "1.25e+06"; "781250"; "4.94066e-324"; "-0"; "-inf"; "0.1"; "0.1"; "inf"].
Proof. vm_compute. reflexivity. Qed.
(** 64.5 means 64 *)
Example C86_case : finite (FFin false 129 (-1)) /\ (IZR 64 <= Rabs (fvalR (FFin false 129 (-1))) < IZR 64 + 19 / 20)%R /\ (1 / 10000 <= Rabs (fvalR (FFin false 129 (-1))))%R /\
  exists a, args_set_float args_init "k" (FFin false 129 (-1)) = Ok a /\ get_int a "k" = Ok 64.
Proof.
  assert (E : fvalR (FFin false 129 (-1)) = (129 / 2)%R) by reflexivity. rewrite E, Rabs_pos_eq by lra. split; [simpl; lia|]. split; [lra|]. split; [lra|]. eexists. split; [vm_compute; reflexivity|]. vm_compute. reflexivity.
Qed.
(** 2^-14 is written with an exponent: 6 *)
Example C86_exponent_case : finite (FFin false 1 (-14)) /\ ~ plain (six (fvalR (FFin false 1 (-14)))) /\ exists a, args_set_float args_init "k" (FFin false 1 (-14)) = Ok a /\ get_int a "k" = Ok 6.
Proof.
  split; [simpl; lia|]. split.
  - pose proof (digits_ok 1 16384 ltac:(lia) ltac:(lia)) as G. replace (digits6 1 16384) with (610352, -5) in G by (vm_compute; reflexivity). destruct G as (_ & G).
    assert (E : fvalR (FFin false 1 (-14)) = (IZR 1 / IZR 16384)%R). { unfold fvalR. change (bpow radix2 (-14)) with (/ IZR 16384)%R. lra. }
    rewrite E, G. change (bpow radix10 (-5 - 5)) with (/ IZR 10000000000)%R. intros [Q|Q]; [lra|]. rewrite Rabs_pos_eq in Q by lra. lra.
  - eexists. split; [vm_compute; reflexivity|]. vm_compute. reflexivity.
Qed.

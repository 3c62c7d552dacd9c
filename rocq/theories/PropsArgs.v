(** C32, C33, C34: the parameter table. *)
From Verif Require Import Base PBase MDnn MArgs PText PArgs.
From Coq Require Import String Ascii List.

Theorem C32_int_roundtrip : forall a key z a',
  int_min <= z <= int_max -> args_set a key (VInt z) = Ok a' -> get_int a' key = Ok z.
Proof. exact int_roundtrip. Qed.
Print Assumptions C32_int_roundtrip.

Theorem C32_bool_roundtrip : forall a key b a',
  args_set a key (VBool b) = Ok a' -> get_bool a' key = Ok b /\ get_int a' key = Ok (b2z b).
Proof. exact bool_roundtrip. Qed.
Print Assumptions C32_bool_roundtrip.

(** the read fails by an exception when the number does not fit *)
Theorem C32_out_of_range_throws : forall a key z a',
  args_set a key (VStr (show_int z)) = Ok a' ->
  (~ int_min <= z <= int_max -> get_int a' key = Err EThrow) /\
  (z <> 0 -> z <> 1 -> get_bool a' key = Err EThrow).
Proof. exact out_of_range. Qed.
Print Assumptions C32_out_of_range_throws.

(** a text whose first non-blank character is neither a digit nor a sign *)
Theorem C32_wrong_form_throws : forall a key c t blanks a',
  all_chars (fun c => is_space c = true) blanks ->
  is_space c = false -> digit_val c = None -> c <> "-"%char -> c <> "+"%char ->
  args_set a key (VStr (append blanks (String c t))) = Ok a' ->
  get_int a' key = Err EThrow /\ get_bool a' key = Err EThrow.
Proof. exact wrong_form. Qed.
Print Assumptions C32_wrong_form_throws.

Open Scope string_scope.
Example C32_ex :
  (exists a, args_set args_init "k" (VInt (-2147483648)) = Ok a /\ get_int a "k" = Ok (-2147483648)) /\
  (exists a, args_set args_init "use_recompute" (VBool true) = Ok a /\ get_bool a "use_recompute" = Ok true) /\
  (exists a, args_set args_init "k" (VStr (show_int 3000000000)) = Ok a /\ get_int a "k" = Err EThrow) /\
  (exists a, args_set args_init "k" (VStr "  many") = Ok a /\ get_int a "k" = Err EThrow).
Proof.
  repeat split; eexists; (split; [vm_compute; reflexivity|vm_compute; reflexivity]).
Qed.

(** ** C33 *)
Definition documented : list string :=
  ["k"; "cpu_nthreads"; "gpu_ndsize"; "chunksize"; "use_chunking"; "use_recompute";
   "knn_grid_resolution"; "cc_p_maxsize"; "cc_t_maxsize"; "dev_suppress_stdout"].

(** any sequence of assignments to documented keys succeeds, and each key then
    reads as the last value given to it, or as its initial value *)
Theorem C33_last_assignment_wins : forall ops,
  Forall (fun o => In (fst o) documented) ops ->
  exists a, run_assign args_init ops = Ok a /\
    forall key, args_find a key =
      match last_value key ops with Some v => Ok (to_str v) | None => args_find args_init key end.
Proof. exact last_wins. Qed.
Print Assumptions C33_last_assignment_wins.

Theorem C33_unknown_key_throws : forall ops a key v,
  Forall (fun o => In (fst o) documented) ops -> run_assign args_init ops = Ok a ->
  ~ In key documented -> args_find a key = Err EThrow /\ args_set a key v = Err EThrow.
Proof. exact unknown_key. Qed.
Print Assumptions C33_unknown_key_throws.

(** the defaults of include/arguments.hpp:16-60 *)
Theorem C33_defaults :
  get_int args_init "k" = Ok 64 /\ get_int args_init "cpu_nthreads" = Ok 0 /\
  get_int args_init "gpu_ndsize" = Ok 1 /\ get_int args_init "chunksize" = Ok 8196 /\
  get_bool args_init "use_chunking" = Ok false /\ get_bool args_init "use_recompute" = Ok false /\
  get_int args_init "knn_grid_resolution" = Ok 16 /\ get_int args_init "cc_p_maxsize" = Ok 32 /\
  get_int args_init "cc_t_maxsize" = Ok 32.
Proof. exact defaults. Qed.
Print Assumptions C33_defaults.
(** The only default README.md names is wrong (line 132: dev_suppress_stdout "Defaults to
    `false`").  Setting it to what the README calls the default changes the value read. *)
Theorem C33_documented_default_refuted : get_bool args_init "dev_suppress_stdout" = Ok true /\
  exists a, args_set args_init "dev_suppress_stdout" (VBool false) = Ok a /\ get_bool a "dev_suppress_stdout" = Ok false.
Proof. split; [vm_compute; reflexivity|]. eexists. split; [vm_compute; reflexivity|]. vm_compute. reflexivity. Qed.
Print Assumptions C33_documented_default_refuted.

Example C33_ex : exists a,
  run_assign args_init [("k", VInt 3); ("chunksize", VInt 10); ("k", VInt 7)] = Ok a /\
  get_int a "k" = Ok 7 /\ get_int a "chunksize" = Ok 10 /\ get_int a "cc_p_maxsize" = Ok 32 /\
  args_set a "K" (VInt 1) = Err EThrow.
Proof. eexists. split; [vm_compute; reflexivity|]. repeat split; vm_compute; reflexivity. Qed.

(** ** C34.  Full statement: for every integral value z that is an int, reading
    after assigning z as a double gives z.  True below 10^6, false for every
    value from 10^6 on, where the leading digit comes back: that of z rounded to
    six digits. *)
Theorem C34_float_roundtrip_partial : forall a key z a',
  Z.abs z < 1000000 -> args_set a key (VFloatInt z) = Ok a' -> get_int a' key = Ok z.
Proof. exact float_roundtrip. Qed.
Print Assumptions C34_float_roundtrip_partial.

Theorem C34_float_truncated : forall a key z a',
  1000000 <= Z.abs z -> args_set a key (VFloatInt z) = Ok a' ->
  exists v, get_int a' key = Ok v /\ 1 <= Z.abs v < 10 /\ Z.sgn v = Z.sgn z /\
    exists e, 6 <= e /\ 2 * (Z.abs v * 10 ^ e) - 10 ^ (e - 5) <= 2 * Z.abs z < 2 * ((Z.abs v + 1) * 10 ^ e).
Proof. exact float_truncated. Qed.
Print Assumptions C34_float_truncated.

Theorem C34_refuted : exists a', args_set args_init "chunksize" (VFloatInt 1000000) = Ok a' /\
  get_int a' "chunksize" = Ok 1.
Proof. exact float_witness. Qed.
Print Assumptions C34_refuted.

(** the texts; %g writes at least two digits of the exponent *)
Example C34_text : map show_float_int [999999; 1000000; 1234565; 1234575; -9999995; 25000000000; 123456000000000]%Z =
  ["999999"; "1e+06"; "1.23456e+06"; "1.23458e+06"; "-1e+07"; "2.5e+10"; "1.23456e+14"]%string /\
  rbind (args_set args_init "k" (VFloatInt (-9999995))) (fun a => get_int a "k") = Ok (-1).
Proof. split; vm_compute; reflexivity. Qed.
Example C34_ex : exists a', args_set args_init "k" (VFloatInt 999999) = Ok a' /\ get_int a' "k" = Ok 999999.
Proof. eexists. split; [vm_compute; reflexivity|]. vm_compute. reflexivity. Qed.

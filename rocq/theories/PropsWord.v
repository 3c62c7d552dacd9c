(** C96: text as the value of a parameter is read as a number with a fixed form. *)
From Verif Require Import Base MDnn MArgs MTess MMain PWord.
From Coq Require Import String.
Local Open Scope Z_scope.

(** At most one number is at the start of a text. *)
Theorem C96_one_number s z z' : number s z -> number s z' -> z = z'.
Proof. exact (number_unique s z z'). Qed.
Print Assumptions C96_one_number.

(** Read as an int, the parameter is exactly that number if it is an int; in all other cases the read throws. *)
Theorem C96_int a a' key s : args_set a key (VStr s) = Ok a' ->
  (forall z, get_int a' key = Ok z <-> number s z /\ int_min <= z <= int_max) /\
  ((forall z, number s z -> ~ int_min <= z <= int_max) -> get_int a' key = Err EThrow).
Proof. exact (word_int a a' key s). Qed.
Print Assumptions C96_int.

(** Read as a bool, only the numbers 0 and 1 are accepted. *)
Theorem C96_bool a a' key s : args_set a key (VStr s) = Ok a' ->
  (forall b, get_bool a' key = Ok b <-> number s (if b : bool then 1 else 0)) /\
  (~ number s 0 -> ~ number s 1 -> get_bool a' key = Err EThrow).
Proof. exact (word_bool a a' key s). Qed.
Print Assumptions C96_bool.

(** The number of threads: 0 is replaced by the hardware's, other numbers of
    magnitude below 2^32 are taken modulo 2^32, all other texts throw. *)
Theorem C96_threads a a' s hwc : args_set a "cpu_nthreads" (VStr s) = Ok a' ->
  (forall z, number s z -> - 4294967296 < z < 4294967296 -> get_nthreads hwc a' = Ok (if z =? 0 then hwc else z mod 4294967296)) /\
  ((forall z, number s z -> ~ - 4294967296 < z < 4294967296) -> get_nthreads hwc a' = Err EThrow).
Proof. exact (word_threads a a' s hwc). Qed.
Print Assumptions C96_threads.

(** The argument of an option of the command line: the number at its start, 0 if
    there is none, undefined behaviour if that number is no int. *)
Theorem C96_option os p o key s : parse_args os = Ok p -> with_number o key s ->
  (forall z, number s z -> int_min <= z <= int_max -> exists p', parse_args (os ++ [o]) = Ok p' /\ get_int (ps_args p') key = Ok z) /\
  ((forall z, ~ number s z) -> exists p', parse_args (os ++ [o]) = Ok p' /\ get_int (ps_args p') key = Ok 0) /\
  (forall z, number s z -> ~ int_min <= z <= int_max -> parse_args (os ++ [o]) = Err EUB).
Proof. exact (word_option os p o key s). Qed.
Print Assumptions C96_option.
Definition as_option (s : string) : res Z := rbind (parse_args [OInfile "pts"; OTmax s]) (fun p => get_int (ps_args p) "cc_t_maxsize").
Example C96_ex_option : map as_option ["64"; " -8x"; "x8"; ""; "2147483648"]%string = [Ok 64; Ok (-8); Ok 0; Ok 0; Err EUB].
Proof. vm_compute. reflexivity. Qed.

(** Leading zeros are decimal, hexadecimal stops at the x, a fraction at the dot. *)
Definition as_int (s : string) : res Z := rbind (args_set args_init "k" (VStr s)) (fun a => get_int a "k").
Example C96_ex_int : map as_int ["010"; "0x10"; " +5"; "-7 "; "12.9"; "1e3"; "- 5"; "+-5"; "five"; ""; "2147483648"; "-2147483648"]%string
  = [Ok 10; Ok 0; Ok 5; Ok (-7); Ok 12; Ok 1; Err EThrow; Err EThrow; Err EThrow; Err EThrow; Err EThrow; Ok (-2147483648)].
Proof. vm_compute. reflexivity. Qed.
Definition as_bool (s : string) : res bool := rbind (args_set args_init "use_recompute" (VStr s)) (fun a => get_bool a "use_recompute").
Example C96_ex_bool : map as_bool ["1"; "0"; "01"; "-0"; "-1"; "2"; "10"; "true"; "false"; "1true"]%string
  = [Ok true; Ok false; Ok true; Ok false; Err EThrow; Err EThrow; Err EThrow; Err EThrow; Err EThrow; Ok true].
Proof. vm_compute. reflexivity. Qed.
Definition as_threads (s : string) : res Z := rbind (args_set args_init "cpu_nthreads" (VStr s)) (get_nthreads 8).
Example C96_ex_threads : map as_threads ["0"; "3"; "-1"; "4294967295"; "4294967296"; "all"]%string
  = [Ok 8; Ok 3; Ok 4294967295; Ok 4294967295; Err EThrow; Err EThrow].
Proof. vm_compute. reflexivity. Qed.
Example C96_ex_number : number "  -012abc" (-12).
Proof.
  exists "  "%string, [0; 1; 2], "abc"%string. split; [repeat split; do 5 right; left; reflexivity|]. split; [split; [discriminate|repeat constructor; discriminate]|].
  split; [|right; right; split; reflexivity]. intros d Hd E. assert (C : d = 0 \/ d = 1 \/ d = 2 \/ d = 3 \/ d = 4 \/ d = 5 \/ d = 6 \/ d = 7 \/ d = 8 \/ d = 9) by lia.
  repeat (destruct C as [->|C]; [discriminate|]). subst d. discriminate.
Qed.

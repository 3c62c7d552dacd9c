(** Model of include/arguments.hpp: parameters are stored as strings and
    converted by string streams. *)
From Verif Require Import Base MDnn.
From Coq Require Import String Ascii.
Local Open Scope res_scope.

(** ** istream >> : the C++ standard library's numeric input, base 10.
    Leading white space is skipped, then an optional sign and a maximal run of
    digits is taken; what follows is ignored. *)
Definition is_space (c : ascii) : bool :=
  let n := nat_of_ascii c in
  ((n =? 32) || ((9 <=? n) && (n <=? 13)))%nat.

Definition digit_val (c : ascii) : option Z :=
  let n := Z.of_nat (nat_of_ascii c) in
  if (48 <=? n) && (n <=? 57) then Some (n - 48) else None.

Fixpoint skip_ws (s : string) : string :=
  match s with
  | String c t => if is_space c then skip_ws t else s
  | EmptyString => s
  end.

Fixpoint read_digits (s : string) (acc : Z) : Z :=
  match s with
  | String c t =>
      match digit_val c with
      | Some d => read_digits t (10 * acc + d)
      | None => acc
      end
  | EmptyString => acc
  end.

Definition starts_digit (s : string) : bool :=
  match s with
  | String c _ => match digit_val c with Some _ => true | None => false end
  | EmptyString => false
  end.

(** Sign and magnitude of the number at the start of [s]; None = no number. *)
Definition read_num (s : string) : option (bool * Z) :=
  let s := skip_ws s in
  let '(neg, s) :=
    match s with
    | String "-"%char t => (true, t)
    | String "+"%char t => (false, t)
    | _ => (false, s)
    end in
  if starts_digit s then Some (neg, read_digits s 0) else None.

(** include/arguments.hpp:87-96 from_str<int>: out of range sets failbit *)
Definition from_int (s : string) : res Z :=
  match read_num s with
  | Some (neg, v) =>
      let v := if neg : bool then - v else v in
      if in_int v then Ok v else Err EThrow
  | None => Err EThrow
  end.

(** from_str of an unsigned type of modulus [m] (size_t, unsigned int): a
    negative number is negated in the type, its magnitude must be in range *)
Definition from_unsigned (m : Z) (s : string) : res Z :=
  match read_num s with
  | Some (neg, v) =>
      if v <? m then Ok (if neg : bool then (- v) mod m else v) else Err EThrow
  | None => Err EThrow
  end.
Definition from_size_t := from_unsigned 18446744073709551616.
Definition from_uint := from_unsigned 4294967296.

(** from_str<bool> without boolalpha: reads a long; only 0 and 1 are valid *)
Definition from_bool (s : string) : res bool :=
  match read_num s with
  | Some (neg, v) =>
      if v =? 0 then Ok false
      else if (v =? 1) && negb neg then Ok true else Err EThrow
  | None => Err EThrow
  end.

(** ** to_str, include/arguments.hpp:80-85 *)

(** [oss << v] for a floating-point v with an integral value: %g with 6
    significant digits.  Below 10^6 it prints as an integer; above, the value
    is rounded (half to even) to 6 digits and printed in exponent form with
    trailing zeros removed. *)
Fixpoint num_digits (fuel : nat) (n : Z) : Z :=
  match fuel with
  | O => 1
  | S fuel => if n <? 10 then 1 else 1 + num_digits fuel (n / 10)
  end.

Fixpoint strip_zeros (fuel : nat) (n nd : Z) : Z * Z :=
  match fuel with
  | O => (n, nd)
  | S fuel => if (n mod 10 =? 0) && (1 <? nd) then strip_zeros fuel (n / 10) (nd - 1)
              else (n, nd)
  end.

Definition round_half_even (n p : Z) : Z :=
  let q := n / p in
  let r := n mod p in
  if 2 * r <? p then q
  else if p <? 2 * r then q + 1
  else if Z.even q then q else q + 1.

Definition show_exp (e : Z) : string :=
  if e <? 10 then append "e+0" (show_nat e) else append "e+" (show_nat e).

Definition show_sci (n : Z) : string :=
  let nd := num_digits (S (Z.to_nat (Z.log2 n))) n in
  let m := round_half_even n (10 ^ (nd - 6)) in
  let '(m, e) := if m =? 1000000 then (100000, nd) else (m, nd - 1) in
  let '(m, d) := strip_zeros 6 m 6 in
  let lead := m / 10 ^ (d - 1) in
  let rest := m mod 10 ^ (d - 1) in
  let frac :=
    if d =? 1 then EmptyString
    else
      (* the d-1 digits of rest, zero padded: drop the leading 1 *)
      match show_nat (10 ^ (d - 1) + rest) with
      | String _ t => String "." t
      | EmptyString => EmptyString
      end in
  append (show_nat lead) (append frac (show_exp e)).

Definition show_float_int (z : Z) : string :=
  let a := Z.abs z in
  let s := if a <? 1000000 then
             (if round_half_even a 1 =? 1000000 then show_sci a else show_nat a)
           else show_sci a in
  if z <? 0 then String "-" s else s.

(** Values assignable to a parameter: int, bool, string, and floating-point
    numbers with an integral value.  Other floating-point values are not
    modelled. *)
Inductive argval :=
| VInt (z : Z)
| VBool (b : bool)
| VStr (s : string)
| VFloatInt (z : Z).

Definition to_str (v : argval) : string :=
  match v with
  | VInt z => show_int z
  | VBool b => if b then "1" else "0"
  | VStr s => s
  | VFloatInt z => show_float_int z
  end.

(** ** include/arguments.hpp:118-166 class vtargs *)
Definition vtargs := list (string * string).

(** 122-140 init *)
Definition args_init : vtargs :=
  [("k", show_int 64); ("cpu_nthreads", show_int 0); ("gpu_ndsize", show_int 1);
   ("chunksize", show_int 8196); ("use_chunking", to_str (VBool false));
   ("use_recompute", to_str (VBool false)); ("knn_grid_resolution", show_int 16);
   ("cc_p_maxsize", show_int 32); ("cc_t_maxsize", show_int 32);
   ("dev_suppress_stdout", to_str (VBool true))]%string.

(** 148-166 operator[]: the reference is the position in the map *)
Fixpoint args_find (a : vtargs) (key : string) : res string :=
  match a with
  | [] => Err EThrow
  | (k, v) :: a => if String.eqb k key then Ok v else args_find a key
  end.

(** args[key] = v *)
Fixpoint args_set (a : vtargs) (key : string) (v : argval) : res vtargs :=
  match a with
  | [] => Err EThrow
  | (k, old) :: a =>
      if String.eqb k key then Ok ((k, to_str v) :: a)
      else a' <-r args_set a key v ;; Ok ((k, old) :: a')
  end.

Definition get_int (a : vtargs) (key : string) : res Z :=
  s <-r args_find a key ;; from_int s.
Definition get_bool (a : vtargs) (key : string) : res bool :=
  s <-r args_find a key ;; from_bool s.

(** src/votess.ipp:383-385, 507-509: get<size_t>() != 0 ? (unsigned int) :
    hardware_concurrency() *)
Definition get_nthreads (hwc : Z) (a : vtargs) : res Z :=
  s <-r args_find a "cpu_nthreads"%string ;;
  n <-r from_size_t s ;;
  if n =? 0 then Ok hwc else from_uint s.

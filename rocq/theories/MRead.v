(** [iss >> float] as src/main.cpp:207-212 uses it.  The C++ library is not part
    of /repo; this models what the standard prescribes in the "C" locale
    ([facet.num.get.virtuals]: the longest sequence of characters that can start a
    number is taken and converted as by strtof, rounding to nearest even; a
    sequence that is not a number, or a number that is too large, sets failbit). *)
From Verif Require Import Base MArgs Arith Arith32.
From Flocq Require Import Core IEEE754.BinarySingleNaN.
From Coq Require Import String Ascii.
Local Open Scope string_scope.
Local Open Scope Z_scope.

(** (-1)^neg * n / d, rounded to nearest even *)
Definition ratio32 (neg : bool) (n d : positive) : f32 :=
  SF2B _ (proj1 (Bdiv_correct_aux 24 128 eq_refl eq_refl mode_NE neg n 0 false d 0)).

(** (-1)^neg * m * 10^e, rounded *)
Definition decimal32 (neg : bool) (m e : Z) : f32 :=
  match m with
  | Zpos n => if 0 <=? e then ratio32 neg (Z.to_pos (m * 10 ^ e)) 1 else ratio32 neg n (Z.to_pos (10 ^ (- e)))
  | _ => B754_zero neg
  end.

(** value continuing [acc], number of digits, rest *)
Fixpoint scan (s : string) (acc : Z) : Z * Z * string :=
  match s with
  | String c t =>
      match digit_val c with
      | Some d => let '(v, n, r) := scan t (10 * acc + d) in (v, n + 1, r)
      | None => (acc, 0, s)
      end
  | EmptyString => (acc, 0, s)
  end.

Definition sign_of (s : string) : bool * string :=
  match s with
  | String "-"%char t => (true, t)
  | String "+"%char t => (false, t)
  | _ => (false, s)
  end.

(** the exponent part: None if there is an 'e' without digits *)
Definition expo (s : string) : option (Z * string) :=
  let exp t :=
    let '(neg, t) := sign_of t in
    let '(v, n, r) := scan t 0 in
    if n =? 0 then None else Some (if neg : bool then - v else v, r) in
  match s with
  | String "e"%char t => exp t
  | String "E"%char t => exp t
  | _ => Some (0, s)
  end.

Definition read_float (s : string) : option (f32 * string) :=
  let '(neg, s) := sign_of (skip_ws s) in
  let '(m, ni, s) := scan s 0 in
  let '(m, nf, s) := match s with String "."%char t => scan t m | _ => (m, 0, s) end in
  if ni + nf =? 0 then None
  else
    match expo s with
    | None => None
    | Some (e, r) =>
        let x := decimal32 neg m (e - nf) in
        if is_finite x then Some (x, r) else None
    end.

(** std::getline until the end of the file, src/main.cpp:205: what is between line
    ends; a line end at the very end does not start another line. *)
Fixpoint getlines (s : string) : list string :=
  match s with
  | EmptyString => []
  | String c t =>
      if Ascii.eqb c (ascii_of_nat 10) then EmptyString :: getlines t
      else match getlines t with
           | [] => [String c EmptyString]
           | l :: ls => String c l :: ls
           end
  end.

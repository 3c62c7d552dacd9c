(** The floating-point operations used by /repo, as a record.
    All model functions on coordinates are written once over this record. *)
From Verif Require Import Base.

Record Arith := mkArith {
  F : Type;                        (* the template parameter Tf *)
  fadd : F -> F -> F;              (* +  *)
  fsub : F -> F -> F;              (* -  *)
  fmul : F -> F -> F;              (* *  *)
  fdiv : F -> F -> F;              (* /  *)
  fneg : F -> F;                   (* unary - *)
  flt : F -> F -> bool;            (* <  ; [a > b] is [flt b a] *)
  fle : F -> F -> bool;            (* <= ; [a >= b] is [fle b a] *)
  feq : F -> F -> bool;            (* == *)
  fofZ : Z -> F;                   (* conversion of an int / a literal *)
  ffloor : F -> option Z;          (* static_cast<int>(std::floor(x));
                                      None: not a finite number *)
  ffmod : F -> F -> F;             (* std::fmod *)
  finf : F                         (* std::numeric_limits<Tf>::infinity() *)
}.

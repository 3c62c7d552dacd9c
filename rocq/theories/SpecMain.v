(** What the command line means, without reference to how it is processed. *)
From Verif Require Import Base Arith MUtils MXyz MArgs MTess MMain.
From Coq Require Import String.

(** the last -i wins; none: empty *)
Definition infile_of (os : list opt) : string :=
  fold_left (fun r o => match o with OInfile f => f | _ => r end) os EmptyString.

(** options with a number *)
Inductive num_opt := NK | NGrid | NThreads | NNdsize | NChunk | NPmax | NTmax.
Definition num_arg (o : opt) : option (num_opt * string) :=
  match o with
  | OK s => Some (NK, s) | OGrid s => Some (NGrid, s) | OThreads s => Some (NThreads, s)
  | ONdsize s => Some (NNdsize, s) | OChunk s => Some (NChunk, s) | OPmax s => Some (NPmax, s)
  | OTmax s => Some (NTmax, s) | _ => None
  end.
Definition num_opt_eqb (a b : num_opt) : bool :=
  match a, b with
  | NK, NK | NGrid, NGrid | NThreads, NThreads | NNdsize, NNdsize | NChunk, NChunk | NPmax, NPmax | NTmax, NTmax => true
  | _, _ => false
  end.
(** the numbers fit (atoi is undefined otherwise) *)
Definition numbers_ok (os : list opt) : Prop :=
  forall o x s, In o os -> num_arg o = Some (x, s) -> exists v, atoi s = Ok v.
(** value of the last option of a kind *)
Definition num_of (x : num_opt) (d : Z) (os : list opt) : Z :=
  fold_left (fun r o => match num_arg o with
    | Some (y, s) => if num_opt_eqb x y then match atoi s with Ok v => v | Err _ => r end else r
    | None => r end) os d.

Definition has_chunking (os : list opt) : bool := existsb (fun o => match o with OUseChunk => true | _ => false end) os.
Definition has_recompute (os : list opt) : bool := existsb (fun o => match o with OUseRec => true | _ => false end) os.

(** the parameters of the run for n points *)
Definition cli_cfg (hwc n : Z) (os : list opt) : cfg :=
  let k := num_of NK 64 os in
  let t := num_of NThreads 0 os in
  mkCfg (if k =? 0 then Z.min n 64 else k) (num_of NGrid 16 os) (num_of NPmax 32 os) (num_of NTmax 32 os)
    (if t =? 0 then hwc else t mod 4294967296) (num_of NNdsize 1 os)
    (has_chunking os) (num_of NChunk 8196 os) (has_recompute os).

(** the device asked for *)
Definition device_of (os : list opt) : device :=
  fold_left (fun r o => match o with ODevice d => if String.eqb d "cpu" then cpu else if String.eqb d "gpu" then gpu else r | _ => r end) os gpu.
Definition is_device (o : opt) : bool := match o with ODevice _ => true | _ => false end.
Definition without_device (os : list opt) : list opt := filter (fun o => negb (is_device o)) os.

Section Main.
Variable N : Arith.
Variable readf : string -> option (F N * string).
(** the line starts with three numbers *)
Definition three_numbers (line : string) (p : point N) : Prop :=
  exists x y z r1 r2 r3, readf line = Some (x, r1) /\ readf r1 = Some (y, r2) /\ readf r2 = Some (z, r3) /\ p = (x, y, z).
Definition usable (fs : string -> option (list string)) (os : list opt) (pts : list (point N)) : Prop :=
  infile_of os <> EmptyString /\ exists lines, fs (infile_of os) = Some lines /\ Forall2 three_numbers lines pts.
Definition unusable (fs : string -> option (list string)) (os : list opt) : Prop :=
  infile_of os = EmptyString \/ fs (infile_of os) = None \/
  exists lines line, fs (infile_of os) = Some lines /\ In line lines /\ forall p, ~ three_numbers line p.
End Main.

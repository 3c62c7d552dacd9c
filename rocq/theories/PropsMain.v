(** C36, C43: the command line program. *)
From Verif Require Import Base Arith MUtils MDnn MArgs MXyz MTess MMain SpecMain PMain ArithQ PropsCell PropsTess PropsGeom PropsRec PropsGpu.
From Coq Require Import String Ascii QArith.
Local Open Scope string_scope.
Local Open Scope Z_scope.

(** ** C43.  [numbers_ok]: the arguments of the numeric options fit into an int
    (atoi is undefined otherwise).  [readf] is [iss >> float], [fs] the file
    system. *)
Theorem C43_rejects : forall (N : Arith) readf (w : world N) fs os,
  numbers_ok os -> unusable N readf fs os -> main_run N readf w fs os = Ok (Exit N 1 None).
Proof. exact main_rejects. Qed.
Print Assumptions C43_rejects.

(** Otherwise the points of the file, in order, are tessellated on the CPU with
    the parameters of [cli_cfg] (k = 0 becomes min(n, 64)), the neighbours are
    printed, and the exit status is 0; if the tessellation fails, so does the
    program. *)
Theorem C43_runs : forall (N : Arith) readf (w : world N) fs os pts,
  numbers_ok os -> usable N readf fs os pts ->
  match tess_core N w (cli_cfg (w_hwc N w) (zlen pts) os) cpu pts with
  | Ok o => exists a txt, main_run N readf w fs os = Ok (Exit N 0 (Some (mkRun N cpu a pts txt))) /\ dnn_print (o_dnn N o) = Ok txt /\
      read_cfg (w_hwc N w) a = Ok (cli_cfg (w_hwc N w) (zlen pts) os)
  | Err e => main_run N readf w fs os = Err e
  end.
Proof. exact main_runs. Qed.
Print Assumptions C43_runs.

(** a reader of decimal integers, in sixteenths *)
Fixpoint drop_digits (s : string) : string :=
  match s with String c t => match digit_val c with Some _ => drop_digits t | None => s end | EmptyString => s end.
Definition readq (s : string) : option (F arithQ * string) :=
  let s := skip_ws s in if starts_digit s then Some (Fin (Qmake (read_digits s 0) 16), drop_digits s) else None.
Definition ex_fs (name : string) : option (list string) :=
  if String.eqb name "slant.txt" then Some ["2 8 8"; " 8  7 8 extra"; "14 6 8"]
  else if String.eqb name "blank.txt" then Some ["2 8 8"; ""] else if String.eqb name "empty.txt" then Some [] else None.
Definition ex_opts : list opt := [OPmax "9"; OTmax "14"; OGrid "1"; OK "x"; ODevice "gpu"; OInfile "blank.txt"; OInfile "slant.txt"; OUseChunk; OChunk "+2"; OThreads " 2"].

Definition main_view (r : res (mainres arithQ)) : option (Z * option (list (point arithQ) * string)) :=
  match r with Ok (Exit _ c None) => Some (c, None) | Ok (Exit _ c (Some t)) => Some (c, Some (r_in _ t, r_text _ t)) | Err _ => None end.
Example C43_ex :
  main_view (main_run arithQ readq (ex_world [] 4 true) ex_fs ex_opts) =
    Some (0, Some (ex_slant, "{" ++ nl ++ "  {1, }" ++ nl ++ "  {0, 2, }" ++ nl ++ "  {1, }" ++ nl ++ "}" ++ nl)) /\
  cli_cfg 4 3 ex_opts = mkCfg 3 1 9 14 2 1 true 2 false.
Proof. split; vm_compute; reflexivity. Qed.
Example C43_reject_ex : Forall (fun os => main_run arithQ readq (ex_world [] 4 true) ex_fs os = Ok (Exit arithQ 1 None))
  [[]; [OInfile "slant.txt"; OInfile ""]; [OInfile "missing"]; [OK "2"; OInfile "blank.txt"]].
Proof. repeat constructor. Qed.
Example C43_hypotheses_ex : numbers_ok ex_opts /\ usable arithQ readq ex_fs ex_opts ex_slant /\ unusable arithQ readq ex_fs [OInfile "blank.txt"] /\ unusable arithQ readq ex_fs [] /\ unusable arithQ readq ex_fs [OInfile "missing"].
Proof.
  split.
  { intros o x s Ho Hn. simpl in Ho. repeat (destruct Ho as [<-|Ho]; [try discriminate; injection Hn as <- <-; eexists; vm_compute; reflexivity|]). contradiction. }
  split.
  { split; [discriminate|]. exists ["2 8 8"; " 8  7 8 extra"; "14 6 8"]. split; [reflexivity|]. unfold ex_slant. repeat constructor; do 6 eexists; repeat split; vm_compute; reflexivity. }
  split; [|split; [now left|right; now left]].
  right; right. exists ["2 8 8"; ""], "". split; [reflexivity|]. split; [simpl; auto|]. intros p (x & y & z & r1 & r2 & r3 & H & _). discriminate.
Qed.

(** ** C36 is false: the device given with -x has no influence.  Adding, changing or
    removing -x, and the presence or behaviour of a device, change nothing. *)
Theorem C36_device_ignored : forall (N : Arith) readf (w w' : world N) fs os os',
  without_device os = without_device os' -> w_sched N w = w_sched N w' -> w_rsched N w = w_rsched N w' -> w_hwc N w = w_hwc N w' ->
  main_run N readf w fs os = main_run N readf w' fs os'.
Proof. exact main_device. Qed.
Print Assumptions C36_device_ignored.

(** The program asked to run on the device does not do what the library does on
    the device (here chunks of two points, see C38). *)
Definition text_of (r : res (outcome arithQ)) : option string := match r with Ok o => match dnn_print (o_dnn _ o) with Ok s => Some s | Err _ => None end | Err _ => None end.
Theorem C36_refuted : device_of ex_opts = gpu /\
  exists txt, main_view (main_run arithQ readq (ex_world [] 4 true) ex_fs ex_opts) = Some (0, Some (ex_slant, txt)) /\
    text_of (tess_core arithQ (ex_world [] 4 true) (cli_cfg 4 3 ex_opts) gpu ex_slant) <> Some txt /\
    text_of (tess_core arithQ (ex_world [] 4 true) (cli_cfg 4 3 ex_opts) cpu ex_slant) = Some txt.
Proof.
  split; [reflexivity|]. exists ("{" ++ nl ++ "  {1, }" ++ nl ++ "  {0, 2, }" ++ nl ++ "  {1, }" ++ nl ++ "}" ++ nl).
  split; [vm_compute; reflexivity|]. split; [|vm_compute; reflexivity].
  assert (E : text_of (tess_core arithQ (ex_world [] 4 true) (cli_cfg 4 3 ex_opts) gpu ex_slant) = Some ("{" ++ nl ++ "  {1, 2, 0, }" ++ nl ++ "  {0, 2, }" ++ nl ++ "  {1, }" ++ nl ++ "}" ++ nl)) by (vm_compute; reflexivity).
  rewrite E. vm_compute. discriminate.
Qed.
Print Assumptions C36_refuted.
Example C36_hypotheses_ex : without_device ex_opts = without_device (ODevice "cpu" :: ex_opts) /\ device_of (ex_opts ++ [ODevice "cpu"])%list = cpu.
Proof. split; reflexivity. Qed.

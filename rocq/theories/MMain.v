(** Model of src/main.cpp:60-230 (the active branch of the #if).
    The driver takes the sequence of (option, argument) events getopt_long
    reports; MGetopt.v models how they come from the words of the command line.
    What the program writes besides the neighbour lists is in MConsole.v. *)
From Verif Require Import Base Arith MDnn MArgs MTess MUtils.
From Coq Require Import String Ascii.
Local Open Scope res_scope.

(** Options reported by getopt_long, src/main.cpp:90-105 *)
Inductive opt :=
| OVersion | OHelp | OInfile (f : string) | ODevice (d : string)
| OK (s : string) | OGrid (s : string) | OThreads (s : string)
| ONdsize (s : string) | OChunk (s : string) | OUseChunk | OUseRec
| OPmax (s : string) | OTmax (s : string) | OUnknown.

(** std::atoi: like the stream reader but 0 when there is no number; a value
    out of range of int is undefined behaviour. *)
Definition atoi (s : string) : res Z :=
  match read_num s with
  | Some (neg, v) =>
      let v := if neg : bool then - v else v in
      if in_int v then Ok v else Err EUB
  | None => Ok 0
  end.

Record pstate := mkPS { ps_infile : string; ps_args : vtargs; ps_dev : device }.

(** src/main.cpp:76-88: initial values; the device defaults to gpu *)
Definition ps_init : pstate := mkPS EmptyString args_init gpu.

Definition set_atoi (p : pstate) (key s : string) : res pstate :=
  v <-r atoi s ;;
  a <-r args_set (ps_args p) key (VInt v) ;;
  Ok (mkPS (ps_infile p) a (ps_dev p)).

(** src/main.cpp:111-172 *)
Definition parse_opt (p : pstate) (o : opt) : res pstate :=
  match o with
  | OVersion | OHelp | OUnknown => Ok p
  | OInfile f => Ok (mkPS f (ps_args p) (ps_dev p))
  | ODevice d =>
      Ok (mkPS (ps_infile p) (ps_args p)
            (if String.eqb d "cpu" then cpu
             else if String.eqb d "gpu" then gpu else ps_dev p))
  | OK s => set_atoi p "k" s
  | OGrid s => set_atoi p "knn_grid_resolution" s
  | OThreads s => set_atoi p "cpu_nthreads" s
  | ONdsize s => set_atoi p "gpu_ndsize" s
  | OChunk s => set_atoi p "chunksize" s
  | OUseChunk =>
      a <-r args_set (ps_args p) "use_chunking" (VBool true) ;;
      Ok (mkPS (ps_infile p) a (ps_dev p))
  | OUseRec =>
      a <-r args_set (ps_args p) "use_recompute" (VBool true) ;;
      Ok (mkPS (ps_infile p) a (ps_dev p))
  | OPmax s => set_atoi p "cc_p_maxsize" s
  | OTmax s => set_atoi p "cc_t_maxsize" s
  end.

(** src/main.cpp:70-177 *)
Definition parse_args (os : list opt) : res pstate := rfold os parse_opt ps_init.

Section Main.
Variable N : Arith.
Notation point := (point N).
(** [iss >> float]: the number at the start of the rest of the line and what
    follows it; None = failbit.  Left abstract: theorems hold for every
    reader. *)
Variable readf : string -> option (F N * string).

(** src/main.cpp:206-212 *)
Definition read_point (line : string) : option point :=
  match readf line with
  | Some (x, r) =>
      match readf r with
      | Some (y, r) =>
          match readf r with Some (z, _) => Some (x, y, z) | None => None end
      | None => None
      end
  | None => None
  end.

(** src/main.cpp:204-216: stops at the first bad line *)
Fixpoint read_points (lines : list string) : option (list point) :=
  match lines with
  | [] => Some []
  | l :: lines =>
      match read_point l with
      | Some p =>
          match read_points lines with Some ps => Some (p :: ps) | None => None end
      | None => None
      end
  end.

(** What the process does: exit status, and if it tessellated, the device
    passed to tesellate, the arguments, the points and the text printed. *)
Record tessrun := mkRun {
  r_dev : device; r_args : vtargs; r_in : list point; r_text : string
}.
Inductive mainres := Exit (code : Z) (ran : option tessrun).

(** src/main.cpp:179-230.  [fs] is the file system: lines of a readable file. *)
Definition main_run (w : world N) (fs : string -> option (list string))
  (os : list opt) : res mainres :=
  p <-r parse_args os ;;
  if String.eqb (ps_infile p) EmptyString then Ok (Exit 1 None)
  else
    match fs (ps_infile p) with
    | None => Ok (Exit 1 None)
    | Some lines =>
        match read_points lines with
        | None => Ok (Exit 1 None)
        | Some pts =>
            k <-r get_int (ps_args p) "k" ;;
            a <-r (if k =? 0 then
                     args_set (ps_args p) "k" (VInt (if zlen pts <? 64 then zlen pts else 64))
                   else Ok (ps_args p)) ;;
            (* 225: called without the parsed device, so the default, cpu *)
            o <-r tesellate N w a cpu pts ;;
            txt <-r dnn_print (o_dnn N o) ;;
            Ok (Exit 0 (Some (mkRun cpu a pts txt)))
        end
    end.

End Main.

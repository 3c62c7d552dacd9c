(** What a call to tesellate and the command line program write to the two
    output streams: src/votess.ipp:23-35, 40-90, 239, 398-400, 654-679, 702-704,
    745-752 and src/main.cpp:22-54, 108-230.
    Not modelled: the text of print_device (a parameter, [info]), the diagnostics
    getopt_long itself writes, and what a run that does not come to its end has
    written so far. *)
From Verif Require Import Base Arith MUtils MDnn MXyz MArgs MTess MMain.
From Coq Require Import String Ascii.
Local Open Scope res_scope.
Local Open Scope string_scope.
Local Open Scope Z_scope.

(** std::cout and std::cerr *)
Record console := mkCon { con_out : string; con_err : string }.
Definition con_app (a b : console) : console :=
  mkCon (con_out a ++ con_out b) (con_err a ++ con_err b).
Definition silent : console := mkCon "" "".
Definition out (s : string) : console := mkCon s "".
Definition err (s : string) : console := mkCon "" s.

(** src/votess.ipp:23-35, 655-658: while the object lives, std::cout writes to a
    buffer that is dropped with it; std::cerr is not touched. *)
Definition suppressed (quiet : bool) (c : console) : console :=
  if quiet then err (con_err c) else c.

(** src/votess.ipp:398-400 *)
Definition cpu_banner (nthreads chunksize nruns : Z) : string :=
  "nthread = " ++ show_nat nthreads ++ nl ++
  "chunksize = " ++ show_int chunksize ++ nl ++
  "nruns = " ++ show_int nruns ++ nl.

(** src/votess.ipp:239, once per run *)
Definition run_line (nruns run : Z) : string :=
  "[chunking] run : " ++ show_int run ++ "/" ++ show_int nruns ++ nl.
Definition gpu_banner (info : string) (nruns : Z) : string :=
  info ++ String.concat "" (map (run_line nruns) (zrange 0 nruns)).

(** src/votess.ipp:745-752 *)
Definition summary (s : stats) : string :=
  "[fail] sradius : " ++ show_int (s_sradius s) ++ nl ++
  "       p overflow: " ++ show_int (s_pover s) ++ nl ++
  "       t overflow: " ++ show_int (s_tover s) ++ nl ++
  "       inf boundary: " ++ show_int (s_infb s) ++ nl ++
  "       nvalid vertice: " ++ show_int (s_vertices s) ++ nl ++
  "       nvalid neighbor: " ++ show_int (s_neighbor s) ++ nl ++
  "       nerrors : " ++ show_int (s_error s) ++ nl ++ nl.

Section Console.
Variable N : Arith.
Notation point := (point N).

(** src/votess.ipp:671-679 *)
Definition warnings (pts : list point) (ids offs : list Z) : string :=
  (if validate_xyzset N pts then "" else "oops1" ++ nl) ++
  (if validate_id ids then "" else "oops2" ++ nl) ++
  (if validate_offset offs then "" else "oops3" ++ nl).

Definition esc : string := String (ascii_of_nat 27) EmptyString.
(** src/votess.ipp:702-704 *)
Definition no_gpu : string :=
  esc ++ "[1m" ++ esc ++ "[93mWarning: No GPU device found. Running CPU as fallback" ++ esc ++ "[0m" ++ nl.

(** src/votess.ipp:689-718: what the switch on the device writes *)
Definition device_text (w : world N) (info : string) (c : cfg) (dev : device)
  (cs refsize : Z) : console :=
  let on_cpu := out (cpu_banner (c_nthreads c) cs (num_runs cs refsize)) in
  match dev with
  | cpu => on_cpu
  | gpu => if w_gpu N w then out (gpu_banner info (num_runs cs refsize))
           else con_app (err no_gpu) on_cpu
  end.

(** src/votess.ipp:646-756 with its output *)
Definition tesellate_io (w : world N) (info : string) (a : vtargs) (dev : device)
  (pts : list point) : res (outcome N * console) :=
  quiet <-r get_bool a "dev_suppress_stdout" ;;
  c <-r read_cfg (w_hwc N w) a ;;
  '(p, ids, offs) <-r xyz_sort N (c_gr c) pts ;;
  o <-r tess_core N w c dev pts ;;
  cs <-r eff_chunksize c (zlen pts) ;;
  Ok (o, suppressed quiet
        (con_app (err (warnings p ids offs))
           (con_app (device_text w info c dev cs (zlen pts))
              (out (summary (o_stats N o)))))).

(** src/main.cpp:36-54 *)
Definition help_lines : list string :=
  ["";
   "Options:";
   " -h, --help                   Show help";
   " -v, --version                Show version";
   " -i, --infile   <infile>      Specify input file. Required argument.";
   " -k, --k-init   <k_init>      Specify initial k for k-nearest neighbor search.";
   " -g, --gridres  <gridres>     Specify grid resolution for k-nearest neighbors.";
   " -t, --cpu-nthreads <n>       Specify the number of CPU threads to use.";
   " -d, --gpu-ndsize <n>         Specify GPU work size (recommended in multiples of 16).";
   " -c, --chunksize  <n>         Specify chunk size for processing.";
   " -u, --use-chunking           Enable chunking for processing.";
   " -r, --use-recompute          Enable CPU fallback to ensure valid Voronoi cells.";
   " -p, --p-maxsize <n>          Specify maximum P parameter size for convex cell algorithm.";
   " -m, --t-maxsize <n>          Specify maximum T parameter size for convex cell algorithm.";
   " -x, --use-device <cpu|gpu>   Specify the device to use (cpu or gpu).";
   ""].
Definition help_text : string := String.concat nl help_lines ++ nl.
(** src/main.cpp:22-27 *)
Definition usage_text (prog : string) : string := "Usage: " ++ prog ++ " -i <input>" ++ nl.

(** src/main.cpp:111-172: what an option writes (print_version is empty) *)
Definition opt_text (o : opt) : console :=
  match o with
  | OHelp => out help_text
  | ODevice d => if String.eqb d "cpu" || String.eqb d "gpu" then silent
                 else err ("Error: Unknown device type. Use 'cpu' or 'gpu'." ++ nl)
  | OUnknown => err ("Unknown option" ++ nl)
  | _ => silent
  end.
Definition opts_text (os : list opt) : console :=
  fold_left (fun c o => con_app c (opt_text o)) os silent.

Variable readf : string -> option (F N * string).

(** src/main.cpp:179-230: exit status and output.  The test for argc == 0 is
    left out: argv[0] does not exist then. *)
Definition main_io (w : world N) (info prog : string) (fs : string -> option (list string))
  (os : list opt) : res (Z * console) :=
  p <-r parse_args os ;;
  let t := opts_text os in
  if String.eqb (ps_infile p) EmptyString then
    Ok (1, con_app t (con_app (err ("Error: Input file must be specified." ++ nl)) (out (usage_text prog))))
  else
    match fs (ps_infile p) with
    | None => Ok (1, con_app t (err ("Error: Could not open file: " ++ ps_infile p ++ nl)))
    | Some lines =>
        match read_points N readf lines with
        | None => Ok (1, con_app t (err ("Error: Incorrect data format in file" ++ nl)))
        | Some pts =>
            k <-r get_int (ps_args p) "k" ;;
            a <-r (if k =? 0 then
                     args_set (ps_args p) "k" (VInt (if zlen pts <? 64 then zlen pts else 64))
                   else Ok (ps_args p)) ;;
            '(o, c) <-r tesellate_io w info a cpu pts ;;
            txt <-r dnn_print (o_dnn N o) ;;
            Ok (0, con_app t (con_app c (out txt)))
        end
    end.

End Console.

(** C31 and C65 once more: the exact text. *)
From Verif Require Import Base Arith Exact MUtils MDnn MArgs MXyz MTess MMain MConsole SpecGeom SpecDnn SpecApi SpecMain SpecCli SpecShown SpecReport PConsole PShown PReport
  ArithQ PropsCell PropsTess PropsGeom PropsRec PropsGpu PropsMain PropsCli.
From Coq Require Import String Ascii.
Local Open Scope string_scope.
Local Open Scope Z_scope.

(** ** C31.  What the file and the printed text show for every table, empty rows
    included: the rows up to the first empty one behind row 0, one by one, and all
    entries behind that row in one row. *)
Theorem C31_savetxt_shown : forall tmpnn d, getdnn tmpnn = Ok d -> dnn_savetxt d = Ok (lines_text show_int (shown (map visible tmpnn))).
Proof. exact savetxt_shown. Qed.
Print Assumptions C31_savetxt_shown.
Theorem C31_print_shown : forall tmpnn d, getdnn tmpnn = Ok d ->
  dnn_print d = Ok (match List.concat (map visible tmpnn) with [] => "{}" ++ newline | _ => braces_text show_int (shown (map visible tmpnn)) end).
Proof. exact print_shown. Qed.
Print Assumptions C31_print_shown.
(** the rows shown are the rows exactly if none behind row 0 is empty *)
Theorem C31_shown_iff : forall rows, rows <> [] -> (shown rows = rows <-> Forall (fun r => r <> []) (tl rows)).
Proof. exact shown_all. Qed.
Print Assumptions C31_shown_iff.
Example C31_shown_ex : exists d, getdnn [[7]; [5; 6]; []; [1; -32; 9]; [2; 3]; [4]] = Ok d /\ shown [[7]; [5; 6]; []; [1]; [2; 3]; [4]] = [[7]; [5; 6]; [1; 2; 3; 4]] /\
  dnn_savetxt d = Ok ("7 " ++ newline ++ "5 6 " ++ newline ++ "1 2 3 4 " ++ newline) /\
  dnn_print d = Ok ("{" ++ newline ++ "  {7, }" ++ newline ++ "  {5, 6, }" ++ newline ++ "  {1, 2, 3, 4, }" ++ newline ++ "}" ++ newline).
Proof. eexists. repeat split; vm_compute; reflexivity. Qed.
Example C31_empty_ex : exists d d', getdnn [] = Ok d /\ getdnn [[]; []] = Ok d' /\ dnn_print d = Ok ("{}" ++ newline) /\ dnn_print d' = Ok ("{}" ++ newline) /\ dnn_savetxt d = Ok newline.
Proof. do 2 eexists. repeat split; vm_compute; reflexivity. Qed.

(** ** C65.  A call that is not silenced reports threads, chunk size and runs (host) or
    the device and one line per run (device), then the numbers of cells by flag. *)
Theorem C65_report : forall (N : Arith) w info a dev pts o c g,
  tesellate_io N w info a dev pts = Ok (o, c) -> get_bool a "dev_suppress_stdout" = Ok false -> read_cfg (w_hwc N w) a = Ok g -> 0 <= c_nthreads g ->
  exists C R front sums, runs_of C (zlen pts) R /\ C = (if c_use_chunking g then c_chunksize g else zlen pts + 1) /\
    con_out c = front ++ sums /\ tally (o_states N o) sums /\
    (if match dev with gpu => w_gpu N w | cpu => false end then device_front info R front else front = host_front (c_nthreads g) C R).
Proof. exact report. Qed.
Print Assumptions C65_report.
(** Which message an unusable input gets. *)
Theorem C65_messages : forall (N : Arith) readf w info prog fs os, numbers_ok os -> (forall x, In x os -> tame x) ->
  (infile_of os = "" -> main_io N readf w info prog fs os = Ok (1, mkCon ("Usage: " ++ prog ++ " -i <input>" ++ nl) ("Error: Input file must be specified." ++ nl))) /\
  (infile_of os <> "" -> fs (infile_of os) = None -> main_io N readf w info prog fs os = Ok (1, mkCon "" ("Error: Could not open file: " ++ infile_of os ++ nl))) /\
  (infile_of os <> "" -> forall lines line, fs (infile_of os) = Some lines -> In line lines -> (forall p, ~ three_numbers N readf line p) ->
     main_io N readf w info prog fs os = Ok (1, mkCon "" ("Error: Incorrect data format in file" ++ nl))).
Proof. exact cli_messages. Qed.
Print Assumptions C65_messages.

(** two runs on the device, the second of one point; some flags come from what was in memory *)
Example C65_report_ex : read_cfg 4 (ex_args "1" "0") = Ok (mkCfg 2 1 9 14 2 1 true 2 false) /\
  io_view (tesellate_io arithQ (ex_world [] 4 true) "info" (ex_args "1" "0") gpu ex_slant) = Some ([[1; 2]; [0; 2]; [1]],
    "info" ++ "[chunking] run : 0/2" ++ nl ++ "[chunking] run : 1/2" ++ nl ++ "[fail] sradius : 2" ++ nl ++ "       p overflow: 0" ++ nl ++ "       t overflow: 0" ++ nl ++ "       inf boundary: 2" ++ nl ++
    "       nvalid vertice: 2" ++ nl ++ "       nvalid neighbor: 0" ++ nl ++ "       nerrors : 0" ++ nl ++ nl, "") /\
  runs_of 2 3 2.
Proof. split; [vm_compute; reflexivity|]. split; [vm_compute; reflexivity|]. split; lia. Qed.
Example C65_messages_ex : numbers_ok [OK "3"; OUseRec] /\ (forall x, In x [OK "3"; OUseRec] -> tame x) /\ infile_of [OK "3"; OUseRec] = "" /\ infile_of [OInfile "a"; OInfile "b.txt"] = "b.txt".
Proof.
  split; [|split; [|split; reflexivity]].
  - intros o x s [<-|[<-|[]]] H; [injection H as <- <-; exists 3; vm_compute; reflexivity|discriminate].
  - intros x [<-|[<-|[]]]; exact I.
Qed.

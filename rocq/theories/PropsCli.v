(** C64 - C67: the output streams and the words of the command line. *)
From Verif Require Import Base Arith Exact MUtils MDnn MArgs MXyz MTess MMain MConsole MGetopt SpecGeom SpecMain SpecCli PExact PGrid PFloat PMain PGetopt PConsole
  ArithQ Arith32 PropsCell PropsTess PropsGeom PropsRec PropsGpu PropsMain.
From Coq Require Import String Ascii QArith.
Local Open Scope string_scope.
Local Open Scope Z_scope.

(** ** C64.  A call that returns has written "oops1" exactly if a point is not
    strictly inside the cube; otherwise it has written nothing to standard error,
    except the notice that there is no device if one was asked for. *)
Theorem C64_warned : forall (N : Arith) (E : Exact N) w info a dev pts o c gr,
  tesellate_io N w info a dev pts = Ok (o, c) -> get_int a "knn_grid_resolution" = Ok gr -> 0 < gr -> Forall (finp N E) pts ->
  ((forall p, In p pts -> in_open_cube (valp N E p)) -> con_err c = fallback (w_gpu N w) dev) /\
  (~ (forall p, In p pts -> in_open_cube (valp N E p)) -> starts ("oops1" ++ nl) (con_err c)).
Proof. exact oops_exact. Qed.
Print Assumptions C64_warned.
(** The same in single precision, NaN and infinities included; [safe_res] as in C05. *)
Theorem C64_warned_float32 : forall w info a dev pts o c gr,
  tesellate_io arith32 w info a dev pts = Ok (o, c) -> get_int a "knn_grid_resolution" = Ok gr -> 0 < gr -> safe_res gr = true ->
  ((forall p, In p pts -> open01p p) -> con_err c = fallback (w_gpu arith32 w) dev) /\
  (~ (forall p, In p pts -> open01p p) -> starts ("oops1" ++ nl) (con_err c)).
Proof. exact oops_float32. Qed.
Print Assumptions C64_warned_float32.

Definition ex_args (gr quiet : string) : vtargs := [("dev_suppress_stdout", quiet); ("k", "2"); ("knn_grid_resolution", gr); ("cc_p_maxsize", "9"); ("cc_t_maxsize", "14");
  ("cpu_nthreads", "2"); ("gpu_ndsize", "1"); ("use_chunking", "1"); ("chunksize", "2"); ("use_recompute", "0")].
Definition io_view (r : res (outcome arithQ * console)) : option (list (list Z) * string * string) :=
  match r with Ok (o, c) => Some (o_rows _ o, con_out c, con_err c) | Err _ => None end.
Example C64_ex :
  io_view (tesellate_io arithQ (ex_world [] 4 false) "info" (ex_args "2" "1") cpu ex_slant) = Some ([[1; 2]; [0]; [0]], "", "") /\
  io_view (tesellate_io arithQ (ex_world [] 4 false) "info" (ex_args "2" "1") gpu ex_slant) = Some ([[1; 2]; [0]; [0]], "", no_device) /\
  io_view (tesellate_io arithQ (ex_world [] 4 false) "info" (ex_args "2" "1") cpu [ptq 16 3 3; ptq 2 3 4; ptq 5 6 9]) = Some ([[2; 1]; [2; 0]; [0; 1]], "", "oops1" ++ nl) /\
  io_view (tesellate_io arithQ (ex_world [] 4 false) "info" (ex_args "2" "1") cpu [ptq (-2) 3 3; ptq 2 3 4; ptq 5 6 9]) = Some ([[2; 1]; [2; 0]; [1; 0]], "", "oops1" ++ nl ++ "oops2" ++ nl) /\
  get_int (ex_args "2" "1") "knn_grid_resolution" = Ok 2.
Proof. repeat split; vm_compute; reflexivity. Qed.

(** "Points outside the cube are reported" is false for calls that do not return:
    the check (src/votess.ipp:671) comes after the sort, which has by then used the
    cell numbers of those points as indices (src/xyzset.ipp:60).  The corner (1,1,1)
    is enough. *)
Theorem C64_refuted : exists pts, validate_xyzset arithQ pts = false /\
  xyz_sort arithQ 2 pts = Err EUB /\ tesellate_io arithQ (ex_world [] 4 false) "info" (ex_args "2" "1") cpu pts = Err EUB.
Proof. exists [ptq 16 16 16; ptq 2 3 4; ptq 5 6 9]. repeat split; vm_compute; reflexivity. Qed.
Print Assumptions C64_refuted.

(** ** C65.  With the default parameters a library call writes nothing to standard
    output. *)
Theorem C65_quiet : forall (N : Arith) w info a dev pts o c,
  tesellate_io N w info a dev pts = Ok (o, c) -> get_bool a "dev_suppress_stdout" = Ok true -> con_out c = "".
Proof. exact quiet_out. Qed.
Print Assumptions C65_quiet.
(** What the program writes to standard output is the neighbour lists and nothing
    else, unless -h is given. *)
Theorem C65_stdout : forall (N : Arith) readf w info prog fs os pts o,
  numbers_ok os -> usable N readf fs os pts -> ~ In OHelp os -> tess_core N w (cli_cfg (w_hwc N w) (zlen pts) os) cpu pts = Ok o ->
  exists txt e, main_io N readf w info prog fs os = Ok (0, mkCon txt e) /\ dnn_print (o_dnn N o) = Ok txt.
Proof. exact cli_stdout. Qed.
Print Assumptions C65_stdout.
(** Standard error stays empty if all options are known and the points are inside
    the cube. *)
Theorem C65_silent : forall (N : Arith) (E : Exact N) readf w info prog fs os pts o,
  numbers_ok os -> usable N readf fs os pts -> (forall x, In x os -> tame x) -> 0 < num_of NGrid 16 os ->
  (forall p, In p pts -> inside N E p) -> tess_core N w (cli_cfg (w_hwc N w) (zlen pts) os) cpu pts = Ok o ->
  exists txt, main_io N readf w info prog fs os = Ok (0, mkCon txt "") /\ dnn_print (o_dnn N o) = Ok txt.
Proof. exact cli_silent. Qed.
Print Assumptions C65_silent.
(** Unusable input: status 1, an error message, and no neighbour lists. *)
Theorem C65_rejects : forall (N : Arith) readf w info prog fs os,
  numbers_ok os -> unusable N readf fs os -> ~ In OHelp os ->
  exists o e pre, main_io N readf w info prog fs os = Ok (1, mkCon o (pre ++ "Error: " ++ e)) /\ (o = "" \/ o = usage_text prog).
Proof. exact cli_rejects. Qed.
Print Assumptions C65_rejects.
(** The streams come from the run of C43. *)
Theorem C65_same_run : forall (N : Arith) readf w info prog fs os, match main_run N readf w fs os, main_io N readf w info prog fs os with
  | Ok (Exit _ c _), Ok (c', _) => c = c' | Err _, Err _ => True | _, _ => False end.
Proof. exact io_codes. Qed.
Print Assumptions C65_same_run.

Example C65_ex :
  main_io arithQ readq (ex_world [] 4 true) "info" "clvotess" ex_fs ex_opts = Ok (0, mkCon ("{" ++ nl ++ "  {1, }" ++ nl ++ "  {0, 2, }" ++ nl ++ "  {1, }" ++ nl ++ "}" ++ nl) "") /\
  main_io arithQ readq (ex_world [] 4 true) "info" "clvotess" ex_fs [OUnknown; OInfile "blank.txt"; ODevice "tpu"] =
    Ok (1, mkCon "" ("Unknown option" ++ nl ++ "Error: Unknown device type. Use 'cpu' or 'gpu'." ++ nl ++ "Error: Incorrect data format in file" ++ nl)) /\
  (forall x, In x ex_opts -> tame x) /\ ~ In OHelp ex_opts /\ 0 < num_of NGrid 16 ex_opts /\
  io_view (tesellate_io arithQ (ex_world [] 4 true) "info" (ex_args "1" "0") cpu ex_slant) = Some ([[1]; [0; 2]; [1]],
    "nthread = 2" ++ nl ++ "chunksize = 2" ++ nl ++ "nruns = 2" ++ nl ++ "[fail] sradius : 3" ++ nl ++ "       p overflow: 0" ++ nl ++ "       t overflow: 0" ++ nl ++ "       inf boundary: 0" ++ nl ++
    "       nvalid vertice: 0" ++ nl ++ "       nvalid neighbor: 0" ++ nl ++ "       nerrors : 0" ++ nl ++ nl, "").
Proof.
  split; [vm_compute; reflexivity|]. split; [vm_compute; reflexivity|].
  split; [intros x Hx; simpl in Hx; repeat (destruct Hx as [<-|Hx]; [simpl; auto|]); contradiction|].
  split; [intros Hx; simpl in Hx; repeat (destruct Hx as [Hx|Hx]; [discriminate|]); contradiction|].
  split; vm_compute; reflexivity.
Qed.

(** ** C66.  Every way of writing a list of accepted options (short or long, joined
    or separate, abbreviated, with other words in between, up to "--") is understood. *)
Theorem C66_spelled : forall os ws, command_line os ws -> getopt_long ws = os.
Proof. exact reported. Qed.
Print Assumptions C66_spelled.
Example C66_ex : let os := [OUseRec; OUseChunk; OK "-5"; OInfile "a=b"; OPmax "9"; OGrid "7"; OHelp] in
  let ws := ["-ruk"; "-5"; "slant.txt"; "--infile=a=b"; "-p9"; "--gri"; "7"; "-"; "--help"; "--"; "-k3"] in
  command_line os ws /\ getopt_long ws = os.
Proof.
  split; [|vm_compute; reflexivity].
  assert (AB : forall s n, prefix s n = true -> forallb (fun '(_, n', _) => implb (prefix s n') (String.eqb n' n)) accepted = true -> abbreviates s n).
  { intros s n P H. split; [exact P|]. intros c' n' a' Hi Hp. rewrite forallb_forall in H. specialize (H _ Hi). simpl in H. rewrite Hp in H. now apply String.eqb_eq. }
  apply (cl_cons [OUseRec; OUseChunk; OK "-5"] ["-ruk"; "-5"]).
  { apply (sp_separate [OUseRec; OUseChunk] "ru" "k"%char "k-init" OK "-5"); [|simpl; tauto]. eapply letters_cons; [simpl; tauto|]. eapply letters_cons; [simpl; tauto|]. constructor. }
  apply (cl_cons [] ["slant.txt"]); [now apply sp_other|].
  apply (cl_cons [OInfile "a=b"] ["--infile=a=b"]); [apply (sp_long_joined "i"%char "infile" OInfile "infile" "a=b"); [simpl; tauto|now apply AB]|].
  apply (cl_cons [OPmax "9"] ["-p9"]); [apply (sp_joined [] "" "p"%char "p-maxsize" OPmax "9"); [constructor|simpl; tauto|discriminate]|].
  apply (cl_cons [OGrid "7"] ["--gri"; "7"]); [apply (sp_long_separate "g"%char "grid-resolution" OGrid "gri" "7"); [simpl; tauto|now apply AB]|].
  apply (cl_cons [] ["-"]); [apply sp_dash|]. apply (cl_cons [OHelp] ["--help"]); [apply (sp_long "h"%char "help" OHelp "help"); [simpl; tauto|now apply AB]|]. constructor.
Qed.
(** every name is its own abbreviation *)
Example C66_names : Forall (fun '(_, n, _) => abbreviates n n) accepted.
Proof.
  assert (AB : forall n, prefix n n = true -> forallb (fun '(_, n', _) => implb (prefix n n') (String.eqb n' n)) accepted = true -> abbreviates n n).
  { intros n P H. split; [exact P|]. intros c' n' a' Hi Hp. rewrite forallb_forall in H. specialize (H _ Hi). simpl in H. rewrite Hp in H. now apply String.eqb_eq. }
  unfold accepted. repeat constructor; apply AB; reflexivity.
Qed.

(** Every other line: each mistake (an unknown letter, a name that is unknown or short
    for several, an argument that is missing or not expected) is reported, at its
    place and once; the other options keep their meaning.  This describes
    [getopt_long] completely. *)
Theorem C66_every_line : forall os ws, any_line os ws <-> getopt_long ws = os.
Proof. exact any_exact. Qed.
Print Assumptions C66_every_line.
Example C66_mistakes_ex :
  getopt_long ["-zuk"; "3"; "--use"; "--use-c"; "--use-r=1"; "--nothing=2"; "-k"] = [OUnknown; OUseChunk; OK "3"; OUnknown; OUseChunk; OUnknown; OUnknown; OUnknown] /\
  getopt_long ["--k-init"] = [OUnknown] /\ getopt_long ["-u-"] = [OUseChunk; OUnknown] /\
  any_line [OUnknown; OK "5"] ["--use"; "-k"; "5"] /\ no_name "use" /\ incomplete [OUnknown] "-k".
Proof.
  assert (NN : no_name "use").
  { split; [discriminate|]. split; [now apply bare_no_eq|]. intros c n a H [P U].
    pose proof (U "u"%char "use-chunking" (Alone OUseChunk) ltac:(simpl; tauto) eq_refl). pose proof (U "r"%char "use-recompute" (Alone OUseRec) ltac:(simpl; tauto) eq_refl). congruence. }
  do 3 (split; [vm_compute; reflexivity|]). split; [|split; [exact NN|]].
  - apply (al_cons [OUnknown] ["--use"]); [right; now apply (ms_name "use")|]. apply (al_cons [OK "5"] ["-k"; "5"]); [|constructor].
    left. apply (sp_separate [] "" "k"%char "k-init" OK "5"); [constructor|simpl; tauto].
  - apply (ic_letter [] "" "k"%char "k-init" OK); [constructor|simpl; tauto|]. split; [discriminate|reflexivity].
Qed.

(** "Every option of the help text is understood" is false: the help text (whose
    entries are [documented]) offers --gridres, the table has grid-resolution.  The
    option is reported as unknown and the resolution stays at its default. *)
Theorem C66_refuted : Forall2 (fun e l => starts (help_start e) l) documented (firstn 13 (skipn 2 help_lines)) /\
  In ("g"%char, "gridres", With OGrid) documented /\
  forall v, prefix "-" v = false -> getopt_long ["--gridres"; v] = [OUnknown] /\ getopt_long ["--gridres=" ++ v] = [OUnknown] /\
    forall hwc n, c_gr (cli_cfg hwc n (getopt_long ["--gridres"; v])) = 16.
Proof.
  split; [repeat constructor; eexists; reflexivity|]. split; [simpl; tauto|]. intros v Hv.
  pose proof (gridres_ignored v [] Hv) as A. pose proof (gridres_joined v []) as B. split; [exact A|]. split; [exact B|]. intros hwc n. rewrite A. reflexivity.
Qed.
Print Assumptions C66_refuted.
(** All other entries agree with the table. *)
Theorem C66_documented : forall c n a, In (c, n, a) documented -> In (c, n, a) accepted \/ (c, n) = ("g"%char, "gridres").
Proof. intros c n a H. unfold documented, accepted in *. simpl in H. repeat (destruct H as [H|H]; [injection H as <- <- <-; simpl; auto 20|]). contradiction. Qed.
Print Assumptions C66_documented.

(** ** C67 is false: asking only for help or the version ends with an error message
    and status 1, and no version is shown. *)
Theorem C67_refuted : forall (N : Arith) readf w info prog fs,
  main_io N readf w info prog fs [OHelp] = Ok (1, mkCon (help_text ++ usage_text prog) ("Error: Input file must be specified." ++ nl)) /\
  main_io N readf w info prog fs [OVersion] = Ok (1, mkCon (usage_text prog) ("Error: Input file must be specified." ++ nl)).
Proof. intros. split; reflexivity. Qed.
Print Assumptions C67_refuted.

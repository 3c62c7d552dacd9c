(** C84: the whole way in single precision, from assignments, from the text of a file or
    from Python to the true Voronoi neighbours. *)
From Verif Require Import Base Arith PBase Prog MUtils MXyz MTess MDnn MArgs MPy MMain MConsole MGetopt MRead SpecDnn SpecGeom SpecVor SpecRows SpecNear SpecHeap SpecAny SpecMain SpecCli SpecRead SpecCert
  Arith32 PFloat PFloatRows PRead PReadLine PReadRun PCert PRobustText PropsFloat PropsNear PropsApi PropsRead PropsFace.
From Flocq Require Import Core IEEE754.BinarySingleNaN.
From Coq Require Import String Ascii Reals Lra Lia Permutation.
Import SpecGeom.
Local Open Scope string_scope.
Local Open Scope Z_scope.

(** ** C84.  [full_cfg]: parameters that work in single precision, with room for n - 1
    neighbours, and k = n - 1 or recompute.  [face_rows]: row i lists the points whose
    cells share a face with cell i, each once, and nothing else.  Row i is that of the
    i-th point after a stable sort by grid cell ([cell32], floors of rounded quotients). *)
Theorem C84_core : forall c P0 (w : world arith32), full_cfg c (zlen P0) -> Forall open01p P0 -> all_robust (map real_pt P0) ->
  exists o, tess_core arith32 w c cpu P0 = Ok o /\ stable_sort_of (fun p => cell32 (c_gr c) (real_pt p)) P0 (o_pts arith32 o) /\ face_rows (map real_pt (o_pts arith32 o)) (o_rows arith32 o) /\
    Forall errorless (o_states arith32 o) /\ shows (o_dnn arith32 o) (o_rows arith32 o) /\
    dnn_savetxt (o_dnn arith32 o) = Ok (lines_text show_int (o_rows arith32 o)) /\ dnn_print (o_dnn arith32 o) = Ok (braces_text show_int (o_rows arith32 o)).
Proof. exact robust_core. Qed.
Print Assumptions C84_core.
(** from the assignments of a C++ caller *)
Theorem C84_api : forall (w : world arith32) ops P0, well_typed ops -> full_cfg (api_cfg (w_hwc arith32 w) ops) (zlen P0) -> Forall open01p P0 -> all_robust (map real_pt P0) ->
  let c := api_cfg (w_hwc arith32 w) ops in
  exists a o, run_assign args_init ops = Ok a /\ tesellate arith32 w a cpu P0 = Ok o /\ stable_sort_of (fun p => cell32 (c_gr c) (real_pt p)) P0 (o_pts arith32 o) /\ face_rows (map real_pt (o_pts arith32 o)) (o_rows arith32 o) /\
    Forall errorless (o_states arith32 o) /\ shows (o_dnn arith32 o) (o_rows arith32 o) /\ dnn_savetxt (o_dnn arith32 o) = Ok (lines_text show_int (o_rows arith32 o)).
Proof. exact robust_api. Qed.
Print Assumptions C84_api.
(** from Python; the caller's array is left as it is *)
Theorem C84_python : forall (D : Type) (conv : D -> F arith32) w pops ops dev xyz P0, Forall2 translates pops ops -> well_typed ops -> (dev = Some cpu \/ w_gpu arith32 w = false) ->
  as_given conv xyz P0 -> full_cfg (api_cfg (w_hwc arith32 w) ops) (zlen P0) -> Forall open01p P0 -> all_robust (map real_pt P0) ->
  exists a d rows P, py_assign args_init pops = Ok a /\ py_tesellate arith32 D conv w a dev xyz = Ok (xyz, d) /\ stable_sort_of (cell32 (c_gr (api_cfg (w_hwc arith32 w) ops))) (map real_pt P0) P /\ shows d rows /\ face_rows P rows.
Proof. exact robust_python. Qed.
Print Assumptions C84_python.
(** from the words of the command line and the text of a file to the text on standard
    output: the rows in braces, nothing else, status 0.  The positions are the floats
    nearest to the numbers in the file. *)
Theorem C84_text : forall w info prog files os ws nums lines, command_line os ws -> numbers_ok os -> (forall x, In x os -> tame x) ->
  infile_of os <> "" -> files (infile_of os) = Some (file_text lines) -> Forall one_line lines -> Forall2 three nums lines -> Forall reach3 nums ->
  full_cfg (cli_cfg (w_hwc arith32 w) (zlen nums) os) (zlen nums) -> all_robust (map nearest3 nums) ->
  exists P rows, stable_sort_of (cell32 (num_of NGrid 16 os)) (map nearest3 nums) P /\ face_rows P rows /\
    main_io arith32 read_float w info prog (fun f => option_map getlines (files f)) (getopt_long ws) = Ok (0, mkCon (braces_text show_int rows) "").
Proof. exact robust_text. Qed.
Print Assumptions C84_text.

(** The example of README.md:144-176 in single precision.  The literals are the floats
    nearest to the decimals; both integers of the quotient are floats, so the rounded
    quotient is that float.  The points pass the test of C83, so the call lists their
    true Voronoi neighbours. *)
Definition lit (a : Z) : f32 := fdiv arith32 (fofZ arith32 a) (fofZ arith32 10000000).
Definition rm (a b c : Z) : point arith32 := (lit a, lit b, lit c).
Definition readme32 : list (point arith32) :=
  [rm 6052230 1084840 909372; rm 5007920 4996410 4645760; rm 4379360 7863320 1603920; rm 6633540 1708940 8102840; rm 6148690 968678 2041470;
   rm 5569110 8953420 8022660; rm 3057480 1241460 5162490; rm 4068880 1578350 9196220; rm 944123 8619910 7986440; rm 5119580 5605370 3454790].
Definition readme26 : list zpt :=
  [(40615828, 7280238, 6102692); (33607584, 33530340, 31177168); (29389388, 52769848, 10763725); (44516932, 11468502, 54377240); (41263160, 6500688, 13700073);
   (37373664, 60085384, 53839160); (20518400, 8331297, 34644884); (27305792, 10592128, 61714788); (6335902, 57847236, 53596092); (34356920, 37617000, 23184704)].
Theorem C84_readme : full_cfg (api_cfg 4 readme_ops) (zlen readme32) /\ Forall open01p readme32 /\ all_robust (map real_pt readme32) /\
  forall w : world arith32, w_hwc arith32 w = 4 ->
  exists a o, run_assign args_init readme_ops = Ok a /\ tesellate arith32 w a cpu readme32 = Ok o /\ stable_sort_of (fun p => cell32 2 (real_pt p)) readme32 (o_pts arith32 o) /\
    face_rows (map real_pt (o_pts arith32 o)) (o_rows arith32 o) /\ shows (o_dnn arith32 o) (o_rows arith32 o).
Proof.
  assert (A1 : full_cfg (api_cfg 4 readme_ops) (zlen readme32)).
  { split; [|split; [reflexivity|split; [split; discriminate|right; discriminate]]].
    replace (api_cfg 4 readme_ops) with (mkCfg 9 2 32 32 4 1 false 8196 false) by reflexivity.
    split; [unfold cfg_ok; simpl; lia|]. split; [reflexivity|]. split; [discriminate|]. split; [vm_compute; reflexivity|]. split; [discriminate|]. split; [vm_compute; repeat split; discriminate|discriminate]. }
  assert (A2 : Forall open01p readme32) by (repeat (apply Forall_cons; [by10|]); apply Forall_nil).
  assert (A3 : all_robust (map real_pt readme32)).
  { replace (map real_pt readme32) with (map (upt 67108864) readme26).
    - intros i Hi. rewrite zlen_map in Hi. apply certs_robust; [lia|vm_compute; reflexivity|exact Hi].
    - unfold readme32, readme26. cbn [map upt].
      repeat (apply f_equal2; [symmetry; apply real26; vm_compute; reflexivity|]). reflexivity. }
  repeat (split; [assumption|]). intros w Hw. rewrite <- Hw in A1. destruct (robust_api w readme_ops readme32 (proj1 C55_hypotheses_ex) A1 A2 A3) as (a & o & R1 & R2 & R3 & R4 & _ & R5 & _).
  exists a, o. auto.
Qed.
Print Assumptions C84_readme.

(** the five points of C83_checked_case as the text of a file, k = 2 and recompute *)
Definition n16 (ds : list Z) : numeral := PropsRead.num NoSign [0] ds.
Definition ex_nums5 : list (numeral * numeral * numeral) :=
  [(n16 [1; 8; 7; 5], n16 [2; 5], n16 [5; 6; 2; 5]); (n16 [7; 5], n16 [3; 1; 2; 5], n16 [1; 8; 7; 5]); (n16 [4; 3; 7; 5], n16 [6; 8; 7; 5], n16 [3; 1; 2; 5]);
   (n16 [3; 1; 2; 5], n16 [8; 1; 2; 5], n16 [7; 5]); (n16 [8; 1; 2; 5], n16 [6; 2; 5], n16 [6; 8; 7; 5])].
Definition ex_lines5 : list string := ["0.1875 0.25 0.5625"; "0.75 0.3125 0.1875"; "0.4375 0.6875 0.3125"; "0.3125 0.8125 0.75"; "0.8125 0.625 0.6875"].
Definition ex_files5 (f : string) : option string := if String.eqb f "five" then Some (file_text ex_lines5) else None.
Definition ex_words5 : list string := ["-ifive"; "-k2"; "-g1"; "-t1"; "-r"].
Definition ex_options5 : list opt := [OInfile "five"; OK "2"; OGrid "1"; OThreads "1"; OUseRec].
Example C84_text_case : command_line ex_options5 ex_words5 /\ numbers_ok ex_options5 /\ (forall x, In x ex_options5 -> tame x) /\
  infile_of ex_options5 <> "" /\ ex_files5 (infile_of ex_options5) = Some (file_text ex_lines5) /\ Forall one_line ex_lines5 /\ Forall2 three ex_nums5 ex_lines5 /\ Forall reach3 ex_nums5 /\
  full_cfg (cli_cfg 4 5 ex_options5) 5 /\ map nearest3 ex_nums5 = map (upt 16) ex_z5 /\ all_robust (map nearest3 ex_nums5) /\
  main_io arith32 read_float (w32 []) "" "clvotess" (fun f => option_map getlines (ex_files5 f)) (getopt_long ex_words5) =
    Ok (0, mkCon (braces_text show_int [[2; 3; 1; 4]; [2; 4; 0]; [3; 1; 4; 0]; [2; 4; 0]; [2; 3; 1; 0]]) "").
Proof.
  split.
  { apply (cl_cons [OInfile "five"] ["-ifive"]); [apply (sp_joined [] "" "i"%char "infile" OInfile "five"); [constructor|simpl; tauto|discriminate]|].
    apply (cl_cons [OK "2"] ["-k2"]); [apply (sp_joined [] "" "k"%char "k-init" OK "2"); [constructor|simpl; tauto|discriminate]|].
    apply (cl_cons [OGrid "1"] ["-g1"]); [apply (sp_joined [] "" "g"%char "grid-resolution" OGrid "1"); [constructor|simpl; tauto|discriminate]|].
    apply (cl_cons [OThreads "1"] ["-t1"]); [apply (sp_joined [] "" "t"%char "cpu-nthreads" OThreads "1"); [constructor|simpl; tauto|discriminate]|].
    apply (cl_cons [OUseRec] ["-r"]); [apply (sp_letters [OUseRec] "r"); [apply (letters_cons "r"%char "use-recompute" OUseRec [] ""); [simpl; tauto|constructor]|discriminate]|]. constructor. }
  split. { intros o x s Ho Hx. simpl in Ho. repeat (destruct Ho as [<-|Ho]; [try discriminate; injection Hx as <- <-; eexists; vm_compute; reflexivity|]). contradiction. }
  split. { intros x Hx. simpl in Hx. repeat (destruct Hx as [<-|Hx]; [exact I|]). contradiction. }
  split; [discriminate|]. split; [reflexivity|]. split. { repeat (apply Forall_cons; [simpl; repeat split; discriminate|]). apply Forall_nil. }
  split. { unfold ex_nums5, ex_lines5. repeat (apply Forall2_cons; [match goal with |- three (?a, ?b, ?c) ?l => change l with ("" ++ write a ++ " " ++ write b ++ " " ++ write c ++ "") end; apply three_intro; try wf; simpl; unfold blank; auto; discriminate|]). constructor. }
  split.
  { unfold ex_nums5. repeat (apply Forall_cons; [cbn [reach3]; unfold in_reach; val; simpl; pose proof (bpow_lt radix2 (-149) (-24) ltac:(lia)) as B;
      replace (bpow radix2 (-24)) with (/ 16777216)%R in * by (simpl; lra); set (b := bpow radix2 (-149)) in *; clearbody b|]). all: try lra. apply Forall_nil. }
  split.
  { replace (cli_cfg 4 5 ex_options5) with (mkCfg 2 1 32 32 1 1 false 8196 true) by reflexivity. split; [|split; [reflexivity|split; [split; discriminate|now left]]].
    split; [unfold cfg_ok; simpl; lia|]. split; [reflexivity|]. split; [discriminate|]. split; [vm_compute; reflexivity|]. split; [discriminate|]. split; [vm_compute; repeat split; discriminate|discriminate]. }
  assert (NE : map nearest3 ex_nums5 = map (upt 16) ex_z5).
  { assert (Q : forall n a, value n = (IZR a / 16)%R -> 0 <= a <= 16 -> nearest (value n) = (IZR a / 16)%R).
    { intros n a -> Ha. replace (IZR a / 16)%R with (IZR (a * 1048576) / 16777216)%R by (rewrite mult_IZR; lra). apply nearest_exact. lia. }
    unfold ex_nums5, ex_z5. cbn [map nearest3 upt]. repeat (apply f_equal2; [apply f_equal2; [apply f_equal2|]; (apply Q; [val; simpl; lra|lia])|]). reflexivity. }
  split; [exact NE|]. split; [|vm_compute; reflexivity].
  rewrite NE. intros i Hi. rewrite zlen_map in Hi. apply certs_robust; [lia|vm_compute; reflexivity|exact Hi].
Qed.
(** the README points from Python, doubles taken as the floats nearest to them; without
    a device and without a GPU *)
Example C84_python_case : Forall2 translates [("k", PyInt 9); ("knn_grid_resolution", PyInt 2)] readme_ops /\ well_typed readme_ops /\ w_gpu arith32 (w32 []) = false /\ w_hwc arith32 (w32 []) = 4 /\
  as_given lit [(6052230, 1084840, 909372); (5007920, 4996410, 4645760)] (firstn 2 readme32).
Proof. split; [repeat (constructor; [split; reflexivity|]); constructor|]. split; [exact (proj1 C55_hypotheses_ex)|]. split; [reflexivity|]. split; [reflexivity|]. repeat constructor. Qed.

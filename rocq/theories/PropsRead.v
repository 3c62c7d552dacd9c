(** C68 - C70: numbers in a file, and the whole way from text to text. *)
From Verif Require Import Base Arith PBase MUtils MDnn MArgs MXyz MTess MMain MConsole MGetopt MRead Arith32 SpecMain SpecCli SpecRead SpecRows SpecAny
  PFloat PMain PGetopt PConsole PSlotHost PTessRun PRead PReadLine PRowsAny PDist32 PFloatRows PReadRun PropsFloat.
From Flocq Require Import Core IEEE754.BinarySingleNaN.
From Coq Require Import String Ascii Reals Lra Lia Permutation.
Local Open Scope string_scope.
Local Open Scope Z_scope.

(** ** C68.  A number in a line is read as the float nearest to it ([value] is what
    the digits mean); nothing or a blank must follow. *)
Theorem C68_nearest : forall w n rest, blanks w -> well_written n -> stops rest -> (Rabs (value n) <= bpow radix2 127)%R ->
  exists x, read_float (w ++ write n ++ rest) = Some (x, rest) /\ is_finite x = true /\ forall y : f32, (Rabs (B2R x - value n) <= Rabs (B2R y - value n))%R.
Proof. exact read_best. Qed.
Print Assumptions C68_nearest.
(** In general: rounded to nearest even, and rejected if that is 2^128 or more. *)
Theorem C68_rounded : forall w n rest, blanks w -> well_written n -> stops rest -> let r := round radix2 (FLT_exp (-149) 24) ZnearestE (value n) in
  ((Rabs r < bpow radix2 128)%R -> exists x, read_float (w ++ write n ++ rest) = Some (x, rest) /\ is_finite x = true /\ B2R x = r) /\
  ((bpow radix2 128 <= Rabs r)%R -> read_float (w ++ write n ++ rest) = None).
Proof. exact read_nearest. Qed.
Print Assumptions C68_rounded.
Ltac digs := repeat (apply Forall_cons; [unfold is_digit; lia|]); apply Forall_nil.
Ltac wf := split; [digs|]; split; [cbn [frac n_frac]; digs|]; split; [(left; discriminate) || (right; discriminate)|]; cbn [n_exp num]; first [exact I|split; [digs|discriminate]].
Ltac val := unfold value; repeat match goal with
  | |- context [number ?l] => let v := eval vm_compute in (number l) in change (number l) with v
  | |- context [powerRZ 10 (exponent ?a - ?b)] => let v := eval vm_compute in (exponent a - b) in change (exponent a - b) with v end.
Definition num (s : sign) (ip fp : list Z) : numeral := mkNum s ip (Some fp) None.
Definition read_view (o : option (f32 * string)) := match o with Some (x, r) => Some (B2SF x, r) | None => None end.
Example C68_ex : let n := mkNum Minus [1; 2] (Some [5]) (Some (true, Plus, [0; 1])) in
  blanks " " /\ well_written n /\ stops " x" /\ value n = (-125)%R /\ write n = "-12.5E+01" /\
  read_view (read_float " -12.5E+01 x") = Some (SpecFloat.S754_finite true 16384000 (-17), " x") /\
  map (fun s => read_view (read_float s)) ["0.1"; ".5"; "5."; "."; "1e"; "1e40"; "1.5.2"; ""; "-"; "nan"] =
    [Some (SpecFloat.S754_finite false 13421773 (-27), ""); Some (SpecFloat.S754_finite false 8388608 (-24), ""); Some (SpecFloat.S754_finite false 10485760 (-21), "");
     None; None; None; Some (SpecFloat.S754_finite false 12582912 (-23), ".2"); None; None; None].
Proof.
  split; [simpl; unfold blank; auto|]. split; [wf|].
  split; [simpl; unfold blank; auto|]. split; [val; simpl; lra|]. split; [reflexivity|]. split; vm_compute; reflexivity.
Qed.

(** "Coordinates strictly between 0 and 1 arrive strictly between 0 and 1" is false:
    0.99999999 is read as 1, and a file with such a point makes the program index out
    of bounds. *)
Definition near_one : numeral := num NoSign [0] [9; 9; 9; 9; 9; 9; 9; 9].
Theorem C68_refuted : well_written near_one /\ (0 < value near_one < 1)%R /\ (exists x, read_float (write near_one) = Some (x, "") /\ B2R x = 1%R) /\
  main_io arith32 read_float (w32 []) "" "clvotess" (fun _ => Some (getlines ("0.99999999 0.99999999 0.99999999" ++ nl ++ "0.5 0.5 0.5" ++ nl))) (getopt_long ["-i"; "points.txt"]) = Err EUB.
Proof.
  split; [wf|].
  split; [val; simpl; lra|]. split; [|vm_compute; reflexivity].
  assert (V : read_view (read_float (write near_one)) = Some (SpecFloat.S754_finite false 8388608 (-23), "")) by (vm_compute; reflexivity).
  destruct (read_float (write near_one)) as [[x r]|]; [|discriminate]. cbn [read_view] in V. injection V as V ->.
  exists x. split; [reflexivity|]. rewrite (sf_b2r x _ V). unfold SF2R, F2R. simpl. lra.
Qed.
Print Assumptions C68_refuted.
(** It is true from the smallest float up to the largest float below 1. *)
Theorem C68_open : forall w n rest, blanks w -> well_written n -> stops rest -> (bpow radix2 (-149) <= value n <= 1 - bpow radix2 (-24))%R ->
  exists x, read_float (w ++ write n ++ rest) = Some (x, rest) /\ open01 x /\ B2R x = nearest (value n).
Proof. exact read_open. Qed.
Print Assumptions C68_open.

(** ** C69.  Nine digits are enough: a decimal number that agrees with a positive
    float x to nine significant digits is read as x. *)
Theorem C69_nine_digits : forall w n rest (x : f32) k, blanks w -> well_written n -> stops rest -> is_finite x = true -> (0 < B2R x)%R ->
  (powerRZ 10 k <= B2R x)%R -> (Rabs (value n - B2R x) <= powerRZ 10 (k - 8) / 2)%R -> read_float (w ++ write n ++ rest) = Some (x, rest).
Proof. exact read_back9. Qed.
Print Assumptions C69_nine_digits.
(** 0.1f is 0.100000001490116... *)
Example C69_ex : let x := tenth 1 in let n := num Plus [] [1; 0; 0; 0; 0; 0; 0; 0; 1] in
  well_written n /\ is_finite x = true /\ (powerRZ 10 (-1) <= B2R x)%R /\ (Rabs (value n - B2R x) <= powerRZ 10 (-1 - 8) / 2)%R /\ write n = "+.100000001".
Proof.
  assert (B : B2R (tenth 1) = (13421773 / 134217728)%R). { rewrite (sf_b2r (tenth 1) (SpecFloat.S754_finite false 13421773 (-27))) by (vm_compute; reflexivity). unfold SF2R, F2R. simpl. lra. }
  cbv zeta. split; [wf|]. split; [vm_compute; reflexivity|]. rewrite B.
  split; [simpl; lra|]. split; [|reflexivity]. val. simpl. rewrite Rabs_left1; lra.
Qed.
(** ** C70.  From the words of the command line and the text of a file to the text on
    standard output: lines of three numbers with values from 2^-149 to 1 - 2^-24,
    known options, parameters that fit ([float_cfg] as in C62), k < n.  The program
    prints the rows of a run on the nearest floats and nothing else. *)
Theorem C70_text_to_text : forall w info prog files os ws nums lines, command_line os ws -> numbers_ok os -> (forall x, In x os -> tame x) ->
  infile_of os <> "" -> files (infile_of os) = Some (file_text lines) -> Forall one_line lines -> Forall2 three nums lines -> Forall reach3 nums ->
  let n := zlen nums in let c := cli_cfg (w_hwc arith32 w) n os in
  float_cfg c n -> c_recompute c = false -> c_k c < n ->
  exists pts o txt, Forall2 rounded nums pts /\ Permutation pts (o_pts arith32 o) /\ zlen (o_rows arith32 o) = n /\ shows (o_dnn arith32 o) (o_rows arith32 o) /\
    (forall i row, znth (o_rows arith32 o) i = Some row -> index_row n i (c_k c) row /\ by_distance arith32 (o_pts arith32 o) i row) /\
    dnn_print (o_dnn arith32 o) = Ok txt /\
    main_io arith32 read_float w info prog (fun f => option_map getlines (files f)) (getopt_long ws) = Ok (0, mkCon txt "").
Proof. exact from_text. Qed.
Print Assumptions C70_text_to_text.

(** a file of three lines *)
Definition ex_nums : list (numeral * numeral * numeral) :=
  [(num NoSign [0] [1], num NoSign [0] [3], num NoSign [0] [3]);
   (mkNum NoSign [5] None (Some (false, Minus, [1])), num Plus [] [7], num NoSign [0] [5; 0]);
   (num NoSign [0] [7], num NoSign [0] [9], num NoSign [0] [3])].
Definition ex_lines : list string := ["0.1 0.3 0.3"; " 5e-1  +.7 0.50 # middle"; "0.7 0.9 0.3"].
Definition ex_files (f : string) : option string := if String.eqb f "points.txt" then Some (file_text ex_lines) else None.
Definition ex_words : list string := ["-k2"; "--gri=1"; "points.txt"; "-i"; "points.txt"; "-p16"; "-t1"; "--t-maxsize"; "32"].
Definition ex_options : list opt := [OK "2"; OGrid "1"; OInfile "points.txt"; OPmax "16"; OThreads "1"; OTmax "32"].
Example C70_ex : command_line ex_options ex_words /\ numbers_ok ex_options /\ (forall x, In x ex_options -> tame x) /\
  ex_files (infile_of ex_options) = Some (file_text ex_lines) /\ Forall one_line ex_lines /\ Forall2 three ex_nums ex_lines /\ Forall reach3 ex_nums /\
  infile_of ex_options <> "" /\ float_cfg (cli_cfg 4 3 ex_options) 3 /\ c_recompute (cli_cfg 4 3 ex_options) = false /\ c_k (cli_cfg 4 3 ex_options) < 3 /\
  main_io arith32 read_float (w32 []) "" "clvotess" (fun f => option_map getlines (ex_files f)) (getopt_long ex_words) =
    Ok (0, mkCon ("{" ++ nl ++ "  {1, }" ++ nl ++ "  {2, 0, }" ++ nl ++ "  {1, 0, }" ++ nl ++ "}" ++ nl) "").
Proof.
  assert (AB : forall s n, prefix s n = true -> forallb (fun '(_, n', _) => implb (prefix s n') (String.eqb n' n)) accepted = true -> abbreviates s n).
  { intros s n P H. split; [exact P|]. intros c' n' a' Hi Hp. rewrite forallb_forall in H. specialize (H _ Hi). simpl in H. rewrite Hp in H. now apply String.eqb_eq. }
  split.
  { apply (cl_cons [OK "2"] ["-k2"]); [apply (sp_joined [] "" "k"%char "k-init" OK "2"); [constructor|simpl; tauto|discriminate]|].
    apply (cl_cons [OGrid "1"] ["--gri=1"]); [apply (sp_long_joined "g"%char "grid-resolution" OGrid "gri" "1"); [simpl; tauto|now apply AB]|].
    apply (cl_cons [] ["points.txt"]); [now apply sp_other|].
    apply (cl_cons [OInfile "points.txt"] ["-i"; "points.txt"]); [apply (sp_separate [] "" "i"%char "infile" OInfile "points.txt"); [constructor|simpl; tauto]|].
    apply (cl_cons [OPmax "16"] ["-p16"]); [apply (sp_joined [] "" "p"%char "p-maxsize" OPmax "16"); [constructor|simpl; tauto|discriminate]|].
    apply (cl_cons [OThreads "1"] ["-t1"]); [apply (sp_joined [] "" "t"%char "cpu-nthreads" OThreads "1"); [constructor|simpl; tauto|discriminate]|].
    apply (cl_cons [OTmax "32"] ["--t-maxsize"; "32"]); [apply (sp_long_separate "m"%char "t-maxsize" OTmax "t-maxsize" "32"); [simpl; tauto|now apply AB]|]. constructor. }
  split. { intros o x s Ho Hx. simpl in Ho. repeat (destruct Ho as [<-|Ho]; [try discriminate; injection Hx as <- <-; eexists; vm_compute; reflexivity|]). contradiction. }
  split. { intros x Hx. simpl in Hx. repeat (destruct Hx as [<-|Hx]; [exact I|]). contradiction. }
  split; [reflexivity|]. split. { repeat (apply Forall_cons; [simpl; repeat split; discriminate|]). apply Forall_nil. }
  split. { unfold ex_nums, ex_lines. constructor; [|constructor; [|constructor; [|constructor]]].
    - match goal with |- three (?a, ?b, ?c) ?l => change l with ("" ++ write a ++ " " ++ write b ++ " " ++ write c ++ "") end; apply three_intro; try wf; simpl; unfold blank; auto; discriminate.
    - match goal with |- three (?a, ?b, ?c) ?l => change l with (" " ++ write a ++ "  " ++ write b ++ " " ++ write c ++ " # middle") end; apply three_intro; try wf; simpl; unfold blank; auto; discriminate.
    - match goal with |- three (?a, ?b, ?c) ?l => change l with ("" ++ write a ++ " " ++ write b ++ " " ++ write c ++ "") end; apply three_intro; try wf; simpl; unfold blank; auto; discriminate. }
  split.
  { unfold ex_nums. repeat (apply Forall_cons; [cbn [reach3]; unfold in_reach; val; simpl; pose proof (bpow_lt radix2 (-149) (-24) ltac:(lia)) as B;
      replace (bpow radix2 (-24)) with (/ 16777216)%R in * by (simpl; lra); set (b := bpow radix2 (-149)) in *; clearbody b|]). all: try lra. apply Forall_nil. }
  split; [discriminate|]. split; [|split; [reflexivity|split; [reflexivity|vm_compute; reflexivity]]].
  split; [unfold cfg_ok; simpl; lia|]. split; [reflexivity|]. split; [discriminate|]. split; [vm_compute; reflexivity|]. split; [discriminate|]. split; [vm_compute; repeat split; discriminate|discriminate].
Qed.

(** From the words of the command line and the text of the file to the output. *)
From Verif Require Import Base Arith PBase MUtils MDnn MArgs MXyz MTess MMain MConsole MGetopt MRead Arith32 SpecMain SpecCli SpecRead SpecRows SpecAny
  PFloat PMain PGetopt PConsole PRead PReadLine PRowsAny PDist32 PFloatRows PSlotHost PTessRun.
From Flocq Require Import Core IEEE754.BinarySingleNaN.
From Coq Require Import String Ascii Reals Permutation.
From Verif Require Export SpecText SpecRead.
Local Open Scope string_scope.
Local Open Scope Z_scope.

Lemma cli_silent32 readf w info prog fs os pts o : numbers_ok os -> usable arith32 readf fs os pts -> (forall x, In x os -> tame x) ->
  0 < num_of NGrid 16 os -> safe_res (num_of NGrid 16 os) = true -> Forall open01p pts ->
  tess_core arith32 w (cli_cfg (w_hwc arith32 w) (zlen pts) os) cpu pts = Ok o ->
  exists txt, main_io arith32 readf w info prog fs os = Ok (0, mkCon txt "") /\ dnn_print (o_dnn arith32 o) = Ok txt.
Proof.
  intros Hn HU Ht Hg Hs Hin ET. destruct (io_runs arith32 readf w info prog fs os pts o Hn HU ET) as (a & c & txt & EI & EG & Eo & PR & R). exists txt. split; [|exact PR].
  destruct (oops_float32 _ _ _ _ _ _ _ _ EI EG Hg Hs) as [Q _]. rewrite Forall_forall in Hin. specialize (Q Hin).
  cbn [fallback] in Q. rewrite R, (opts_tame os Ht). unfold con_app, silent. cbn [con_out con_err out append]. rewrite Eo, Q. reflexivity.
Qed.

Lemma lines_usable fs os nums lines : infile_of os <> "" -> fs (infile_of os) = Some lines -> Forall2 three nums lines -> Forall reach3 nums ->
  exists pts, usable arith32 read_float fs os pts /\ Forall open01p pts /\ Forall2 rounded nums pts.
Proof.
  intros Hi Hf HT HV. assert (G : exists pts, Forall2 (three_numbers arith32 read_float) lines pts /\ Forall open01p pts /\ Forall2 rounded nums pts).
  { clear Hf. induction HT as [|[[a b] c] line nums lines T HT IH]; [exists []; repeat constructor|]. inversion HV as [|? ? V HV']; subst. cbn [reach3] in V. destruct V as (V1 & V2 & V3). destruct (IH HV') as (pts & A & B & C).
    destruct (read_three a b c line T) as (x & y & z & r1 & r2 & r3 & E1 & E2 & E3 & O & B1 & B2 & B3); [intros n [->|[->| ->]]; assumption|].
    exists ((x, y, z) :: pts). split; [|split; [constructor; assumption|constructor; [simpl; auto|assumption]]]. constructor; [|assumption]. exists x, y, z, r1, r2, r3. auto. }
  destruct G as (pts & A & B & C). exists pts. split; [|auto]. split; [assumption|]. eauto.
Qed.

Lemma getlines_text lines : Forall one_line lines -> getlines (file_text lines) = lines.
Proof. induction 1 as [|l lines H HL IH]; [reflexivity|]. cbn [file_text fold_right]. rewrite getlines_line by assumption. f_equal. exact IH. Qed.

Lemma from_text w info prog files os ws nums lines : command_line os ws -> numbers_ok os -> (forall x, In x os -> tame x) ->
  infile_of os <> "" -> files (infile_of os) = Some (file_text lines) -> Forall one_line lines -> Forall2 three nums lines -> Forall reach3 nums ->
  let n := zlen nums in let c := cli_cfg (w_hwc arith32 w) n os in
  float_cfg c n -> c_recompute c = false -> c_k c < n ->
  exists pts o txt, Forall2 rounded nums pts /\ Permutation pts (o_pts arith32 o) /\ zlen (o_rows arith32 o) = n /\ shows (o_dnn arith32 o) (o_rows arith32 o) /\
    (forall i row, znth (o_rows arith32 o) i = Some row -> index_row n i (c_k c) row /\ by_distance arith32 (o_pts arith32 o) i row) /\
    dnn_print (o_dnn arith32 o) = Ok txt /\
    main_io arith32 read_float w info prog (fun f => option_map getlines (files f)) (getopt_long ws) = Ok (0, mkCon txt "").
Proof.
  intros CL Hn Ht Hi Hf HL HT HV n c OK Rc Kn. rewrite (reported _ _ CL).
  destruct (lines_usable (fun f => option_map getlines (files f)) os nums lines Hi) as (pts & U & O & RD); [rewrite Hf; cbn [option_map]; now rewrite getlines_text|assumption|assumption|].
  assert (LN : zlen pts = n). { unfold n, zlen. f_equal. symmetry. clear - RD. induction RD; simpl; congruence. }
  assert (OK' : float_ok c pts) by (rewrite <- LN in OK; destruct OK as (Q1 & Q2 & Q3 & Q4 & Q5 & Q6 & Q7); repeat (split; [assumption|]); assumption). clear OK. rename OK' into OK. rewrite <- LN in *.
  destruct (float_rows w c pts OK Rc Kn) as (o & ET & PP & L & Sh & Q).
  unfold c in ET. rewrite <- LN in ET. destruct (cli_silent32 read_float w info prog _ os pts o Hn U Ht) as (txt & M & PR); [apply OK|apply OK|assumption|exact ET|].
  exists pts, o, txt. repeat (split; [assumption|]). assumption.
Qed.

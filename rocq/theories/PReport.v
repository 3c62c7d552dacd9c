(** C65: the report of a call that is not silenced. *)
From Verif Require Import Base Arith PBase MUtils MDnn MArgs MXyz MTess MMain MConsole SpecApi SpecMain SpecCli PArgs PMain PRanges PApi PConsole.
From Coq Require Import String Lia.
From Verif Require Export SpecReport.
Local Open Scope string_scope.
Local Open Scope res_scope.
Local Open Scope Z_scope.

Lemma runs_num C n : 0 <= n -> runs_of C n (num_runs C n).
Proof.
  intros Hn. unfold runs_of, num_runs, chunked. destruct (Z.ltb_spec 0 C), (Z.ltb_spec C n); simpl; split; intros Q; try lia.
  pose proof (Z.div_mod n C ltac:(lia)). pose proof (Z.mod_pos_bound n C ltac:(lia)). nia.
Qed.
Lemma device_front_ok info R : 0 <= R -> device_front info R (gpu_banner info R).
Proof.
  intros HR. exists (map (run_line R) (zrange 0 R)). split; [reflexivity|]. split; [rewrite zlen_map, zlen_zrange; lia|]. intros r Hr.
  rewrite znth_map, znth_zrange by lia. cbn [option_map]. unfold run_line. do 3 f_equal.
Qed.
Lemma report (N : Arith) w info a dev pts o c g : tesellate_io N w info a dev pts = Ok (o, c) -> get_bool a "dev_suppress_stdout" = Ok false -> read_cfg (w_hwc N w) a = Ok g ->
  0 <= c_nthreads g -> exists C R front sums, runs_of C (zlen pts) R /\ C = (if c_use_chunking g then c_chunksize g else zlen pts + 1) /\
    con_out c = front ++ sums /\ tally (o_states N o) sums /\
    (if match dev with gpu => w_gpu N w | cpu => false end then device_front info R front else front = host_front (c_nthreads g) C R).
Proof.
  intros H Q Eg HT. apply io_inv in H as (T & quiet & g' & p & ids & offs & cs & Eq & Eg' & _ & Ec & _ & E). rewrite Q in Eq. injection Eq as <-. rewrite Eg in Eg'. injection Eg' as <-.
  exists cs, (num_runs cs (zlen pts)), (con_out (device_text N w info g dev cs (zlen pts))), (summary (o_stats N o)). split; [apply runs_num, zlen_nonneg|]. split.
  { unfold eff_chunksize in Ec. destruct (c_use_chunking g); [now injection Ec as <-|]. unfold chk in Ec. destruct (Base.in_int _); [now injection Ec as <-|discriminate]. }
  split; [exact E|]. split.
  - apply tess_stats in T. cbv zeta in T. destruct T as (A0 & A4 & A5 & A1 & A2 & A3 & A6). do 7 eexists. split; [|repeat split; eassumption].
    unfold summary, says. rewrite !append_assoc. reflexivity.
  - assert (HF : con_out (out (cpu_banner (c_nthreads g) cs (num_runs cs (zlen pts)))) = host_front (c_nthreads g) cs (num_runs cs (zlen pts))).
    { cbn [con_out out]. unfold cpu_banner, host_front, says, show_int. replace (c_nthreads g <? 0) with false by lia. rewrite !append_assoc. reflexivity. }
    unfold device_text. destruct dev; [exact HF|]. destruct (w_gpu N w); [|exact HF]. apply device_front_ok. pose proof (num_runs_pos cs (zlen pts) (zlen_nonneg _)). lia.
Qed.

(** known options and an unusable input: the message says what is wrong *)
Lemma cli_messages (N : Arith) readf w info prog fs os : numbers_ok os -> (forall x, In x os -> tame x) ->
  (infile_of os = "" -> main_io N readf w info prog fs os = Ok (1, mkCon ("Usage: " ++ prog ++ " -i <input>" ++ nl) ("Error: Input file must be specified." ++ nl))) /\
  (infile_of os <> "" -> fs (infile_of os) = None -> main_io N readf w info prog fs os = Ok (1, mkCon "" ("Error: Could not open file: " ++ infile_of os ++ nl))) /\
  (infile_of os <> "" -> forall lines line, fs (infile_of os) = Some lines -> In line lines -> (forall p, ~ three_numbers N readf line p) ->
     main_io N readf w info prog fs os = Ok (1, mkCon "" ("Error: Incorrect data format in file" ++ nl))).
Proof.
  intros Hn Ht. destruct (parse_ok os Hn) as (p & E & P). unfold main_io. rewrite E. cbn [rbind]. rewrite (opts_tame os Ht). destruct P as (P1 & _). rewrite P1.
  split; [|split].
  - intros ->. reflexivity.
  - intros Hne Hf. apply String.eqb_neq in Hne. rewrite Hne, Hf. reflexivity.
  - intros Hne lines line Hf Hl Hb. apply String.eqb_neq in Hne. rewrite Hne, Hf, (read_points_bad N readf lines line Hl Hb). reflexivity.
Qed.

(** C97: a call without points. *)
From Verif Require Import Base Arith ArithQ MUtils MXyz MDnn MArgs MTess MMain SpecArgs SpecApi SpecMain PEmpty.
From Coq Require Import String Ascii.
Local Open Scope Z_scope.

(** Without points a call returns if and only if the resolution is usable and there is a
    thread, whatever k, the buffer sizes and the chunks are; the result is empty. *)
Theorem C97_returns (N : Arith) (w : world N) c :
  (exists o, tess_core N w c cpu [] = Ok o) <-> 0 <= c_gr c /\ c_gr c * c_gr c * c_gr c <= int_max /\ c_nthreads c <> 0.
Proof. split; [intros [o H]; exact (empty_needs N w c o H)|]. intros (H1 & H2 & H3). destruct (empty_call N w c H1 H2 H3) as (o & H & _). now exists o. Qed.
Print Assumptions C97_returns.
Theorem C97_result (N : Arith) (w : world N) c o : tess_core N w c cpu [] = Ok o ->
  o_pts N o = [] /\ o_rows N o = [] /\ o_states N o = [] /\ o_oops1 N o = false /\ o_oops2 N o = false /\ dnn_size (o_dnn N o) = 0 /\ o_stats N o = mkStats 0 0 0 0 0 0 0.
Proof. intros H. destruct (empty_needs N w c o H) as (H1 & H2 & H3). destruct (empty_call N w c H1 H2 H3) as (o' & H' & R). rewrite H in H'. injection H' as <-. exact R. Qed.
Print Assumptions C97_result.
(** From assignments: the printed text is {} and a line end, the file a line end. *)
Theorem C97_call (N : Arith) (w : world N) ops : well_typed ops ->
  0 <= c_gr (api_cfg (w_hwc N w) ops) -> c_gr (api_cfg (w_hwc N w) ops) * c_gr (api_cfg (w_hwc N w) ops) * c_gr (api_cfg (w_hwc N w) ops) <= int_max -> c_nthreads (api_cfg (w_hwc N w) ops) <> 0 ->
  exists a o, run_assign args_init ops = Ok a /\ tesellate N w a cpu [] = Ok o /\ o_rows N o = [] /\ dnn_size (o_dnn N o) = 0 /\
  dnn_print (o_dnn N o) = Ok ("{}" ++ String "010" "")%string /\ dnn_savetxt (o_dnn N o) = Ok (String "010" "")%string.
Proof. exact (empty_api N w ops). Qed.
Print Assumptions C97_call.
(** The program on a file without lines. *)
Theorem C97_file (N : Arith) readf (w : world N) fs os : numbers_ok os -> infile_of os <> EmptyString -> fs (infile_of os) = Some [] ->
  0 <= c_gr (cli_cfg (w_hwc N w) 0 os) -> c_gr (cli_cfg (w_hwc N w) 0 os) * c_gr (cli_cfg (w_hwc N w) 0 os) * c_gr (cli_cfg (w_hwc N w) 0 os) <= int_max -> c_nthreads (cli_cfg (w_hwc N w) 0 os) <> 0 ->
  exists a, main_run N readf w fs os = Ok (Exit N 0 (Some (mkRun N cpu a [] ("{}" ++ String "010" "")%string))).
Proof. exact (empty_file N readf w fs os). Qed.
Print Assumptions C97_file.

(** k = 0 and negative sizes do no harm here; resolutions -1 and 0, no thread *)
Definition ex_none (c : cfg) : res (list (list Z)) :=
  rbind (tess_core arithQ (mkWorld arithQ (fun _ => []) (fun _ => []) (fun _ => []) 4 false (mkJunk arithQ (fun _ => fofZ arithQ 0) (fun _ => 0))) c cpu []) (fun o => Ok (o_rows arithQ o)).
Example C97_ex : map ex_none [mkCfg 0 2 (-3) 0 2 1 true (-1) true; mkCfg 64 0 32 32 1 1 false 8196 false; mkCfg 64 (-1) 32 32 1 1 false 8196 false; mkCfg 64 2 32 32 0 1 false 8196 false]
  = [Ok []; Ok []; Err EUB; Err EUB].
Proof. vm_compute. reflexivity. Qed.
Example C97_ex_call : well_typed [("k", VInt 0); ("use_recompute", VBool true)]%string /\
  let c := api_cfg 4 [("k", VInt 0); ("use_recompute", VBool true)]%string in 0 <= c_gr c /\ c_gr c * c_gr c * c_gr c <= int_max /\ c_nthreads c <> 0.
Proof.
  split; [|split; [discriminate|split; [discriminate|discriminate]]].
  constructor; [left; split; [vm_compute; tauto|exists 0; repeat split; discriminate]|]. constructor; [right; split; [vm_compute; tauto|now exists true]|constructor].
Qed.

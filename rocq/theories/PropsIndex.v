(** C93, C94: result objects used directly. *)
From Verif Require Import Base MUtils MDnn MIndex SpecDnn SpecRows SpecIndex PIndex.
From Coq Require Import String List.
Local Open Scope Z_scope.

(** ** C93.  An object made from the entries of the rows and the n + 1 positions where they
    start shows these rows. *)
Theorem C93_made : forall rows offs, zlen rows <= int_max -> total rows <= int_max -> starts rows offs -> shows (dnn_make (concat rows) offs) rows.
Proof. exact made_shows. Qed.
Print Assumptions C93_made.
(** Assigning to an entry changes this entry only. *)
Theorem C93_assign : forall rows offs i j v r, zlen rows <= int_max -> total rows <= int_max -> starts rows offs -> znth rows i = Some r -> 0 <= j < zlen r ->
  exists d rows', idx_set (dnn_make (concat rows) offs) i j v = Ok d /\ replaced rows rows' i j v /\ shows d rows'.
Proof. exact made_set. Qed.
Print Assumptions C93_assign.
(** The results of a call are such objects. *)
Theorem C93_call : forall tmpnn d, let rows := map visible tmpnn in total rows <= int_max -> getdnn tmpnn = Ok d -> exists offs, starts rows offs /\ d = dnn_make (concat rows) offs.
Proof. exact call_made. Qed.
Print Assumptions C93_call.
(** There is one more row than size() says, an empty one.  Rows after that do not exist. *)
Theorem C93_past : forall rows offs, zlen rows <= int_max -> total rows <= int_max -> starts rows offs -> let d := dnn_make (concat rows) offs in
  idx_size d (zlen rows) = Ok 0 /\ forall i, zlen rows < i <= int_max -> idx_size d i = Err EUB /\ forall j, idx_get d i j = Err EUB.
Proof. intros rows offs Hn _ HO. exact (made_past rows offs Hn HO). Qed.
Print Assumptions C93_past.
(** A position of any sign counts from the start of the row through the entries of all rows. *)
Theorem C93_positions : forall rows offs, zlen rows <= int_max -> total rows <= int_max -> starts rows offs -> forall i j, 0 <= i < zlen rows -> - int_max <= j <= int_max ->
  idx_get (dnn_make (concat rows) offs) i j = match znth (concat rows) (start rows i + j) with Some x => Ok x | None => Err EUB end.
Proof. exact made_at. Qed.
Print Assumptions C93_positions.
(** ** C94.  In a Python sequence d[i][-1] is the last entry of row i.  Here it is the
    last entry of the row before, if that has one. *)
Theorem C93_negative : forall rows offs, zlen rows <= int_max -> total rows <= int_max -> starts rows offs -> forall i r x, znth rows i = Some (r ++ [x]) -> i + 1 < zlen rows ->
  idx_get (dnn_make (concat rows) offs) (i + 1) (-1) = Ok x.
Proof. exact made_before. Qed.
Print Assumptions C93_negative.
Theorem C94_negative_refuted : ~ (forall rows offs i r x, zlen rows <= int_max -> total rows <= int_max -> starts rows offs -> znth rows i = Some (r ++ [x]) ->
  idx_get (dnn_make (concat rows) offs) i (-1) = Ok x).
Proof.
  intros H. specialize (H [[1; 2]; [0]] [0; 2; 3] 1 [] 0). assert (S : starts [[1; 2]; [0]] [0; 2; 3]).
  { split; [reflexivity|]. intros i Hi. assert (C : i = 0 \/ i = 1 \/ i = 2) by (unfold zlen in Hi; simpl in Hi; Lia.lia). destruct C as [->|[->| ->]]; reflexivity. }
  specialize (H ltac:(discriminate) ltac:(discriminate) S eq_refl). vm_compute in H. discriminate.
Qed.
Print Assumptions C94_negative_refuted.
(** C94.  An object that was not filled should have no rows.  Its size() is the largest size_t. *)
Theorem C94_default_refuted : dnn_size dnn_default <> 0 /\ dnn_size dnn_default = 18446744073709551615 /\ (forall i, idx_size dnn_default i = Err EUB) /\ (forall i j, idx_get dnn_default i j = Err EUB) /\
  dnn_print dnn_default = Ok (append "{}" newline) /\ dnn_savetxt dnn_default = Ok newline.
Proof. split; [discriminate|exact default_obj]. Qed.
Print Assumptions C94_default_refuted.

(** rows of 2, 0 and 1 entries *)
Example C93_ex : let rows := [[1; 2]; []; [0]] in let d := dnn_make [1; 2; 0] [0; 2; 2; 3] in
  starts rows [0; 2; 2; 3] /\ concat rows = [1; 2; 0] /\ dnn_size d = 3 /\ idx_size d 1 = Ok 0 /\ idx_size d 3 = Ok 0 /\ idx_size d 4 = Err EUB /\ idx_size d (-1) = Err EUB /\
  idx_get d 0 1 = Ok 2 /\ idx_get d 0 2 = Ok 0 /\ idx_get d 2 (-1) = Ok 2 /\ idx_get d 0 (-1) = Err EUB /\ idx_set d 0 1 7 = Ok (dnn_make [1; 7; 0] [0; 2; 2; 3]).
Proof.
  cbv zeta. split; [|repeat split; reflexivity]. split; [reflexivity|]. intros i Hi. assert (C : i = 0 \/ i = 1 \/ i = 2 \/ i = 3) by (unfold zlen in Hi; simpl in Hi; Lia.lia). destruct C as [->|[->|[->| ->]]]; reflexivity.
Qed.

(** Facts about every clipping history, for any arithmetic: which planes and
    labels a cell has. *)
From Verif Require Import Base Arith PBase Prog PProg MUtils MBoundary MCell SpecBnd PHeap PBnd PCellSim PCellRun PCell PCellRow.
From Coq Require Import Permutation.

Section W.
Variable N : Arith.
Notation F := (F N).
Notation point := (point N).
Notation plane := (plane N).
Variables pmax tmax : Z.
Variable pts : Z -> option point.
Variable K : list Z.
Variable p : point.

(** After the candidates before j: labels belong to earlier candidates and name
    their bisector; every plane beyond the cube's six has exactly one label. *)
Definition linv (j : Z) (s : cst N) : Prop :=
  (forall d l, znth (cD N s) d = Some l -> l = k_undefined \/
     (d < j /\ 6 <= l /\ exists q qp, znth K d = Some q /\ pts q = Some qp /\ znth (cP N s) l = Some (bisect N qp p))) /\
  (forall l, 6 <= l < zlen (cP N s) -> exists d, znth (cD N s) d = Some l) /\
  (forall d d' l, znth (cD N s) d = Some l -> znth (cD N s) d' = Some l -> l <> k_undefined -> d = d') /\
  (exists Pj, cP N s = cubeP N ++ Pj).

Lemma linv_mono j j' s : j <= j' -> linv j s -> linv j' s.
Proof.
  intros H (A & B & C & D). split; [|auto]. intros d l Hd. destruct (A d l Hd) as [E|(E & R)]; [now left|]. right. split; [lia|assumption].
Qed.

Lemma linv0 k : linv 0 (cst0 N (repeat k_undefined (Z.to_nat k))).
Proof.
  split; [|split; [|split]].
  - intros d l H. left. apply znth_in in H. simpl in H. now apply repeat_spec in H.
  - intros l H. change (zlen (cP N (cst0 N (repeat k_undefined (Z.to_nat k))))) with 6 in H. lia.
  - intros d d' l H _ Nl. apply znth_in in H. simpl in H. apply repeat_spec in H. contradiction.
  - exists []. simpl. reflexivity.
Qed.

Lemma cube_len : zlen (cubeP N) = 6. Proof. reflexivity. Qed.

Lemma linv_step j q qp s o s' : 0 <= j < zlen (cD N s) -> znth K j = Some q -> pts q = Some qp -> linv j s -> nb_rel N pmax tmax p qp j s o s' ->
  linv (j + 1) s' /\ zlen (cD N s') = zlen (cD N s).
Proof.
  intros Hj Hq Hqp I R. destruct R as [Kp V Sp PV|Kp R V C h rest Sp PV NE Lp LC OC LR EI Lt|Kp R Sp|Kp R Sp|Kp R C h rest Sp];
    [| |split; [apply (linv_mono j); [lia|assumption]|reflexivity]..].
  - split; [|reflexivity]. apply (linv_mono j); [lia|]. destruct I as (A & B & D & E). split; [exact A|]. split; [exact B|]. split; [exact D|exact E].
  - split; [|simpl; now rewrite zlen_zupd]. destruct I as (A & B & D & (Pj & E)). pose proof (zlen_nonneg Pj) as NN.
    assert (L6 : 6 <= zlen (cP N s)) by (rewrite E, zlen_app, cube_len; lia).
    split; [|split; [|split]]; simpl.
    + intros d l H. destruct (Z.eq_dec d j) as [->|Nd].
      * rewrite znth_zupd_same in H by lia. injection H as <-. right. split; [lia|]. split; [lia|].
        exists q, qp. split; [assumption|]. split; [assumption|]. apply (znth_mid (cP N s) []).
      * rewrite znth_zupd_other in H by lia. destruct (A d l H) as [->|(Q1 & Q2 & q' & qp' & X1 & X2 & X3)]; [now left|].
        right. split; [lia|]. split; [assumption|]. exists q', qp'. split; [assumption|]. split; [assumption|].
        pose proof (znth_some _ _ _ X3). rewrite znth_app1 by lia. assumption.
    + intros l Hl. rewrite zlen_app, zlen_one in Hl. destruct (Z.eq_dec l (zlen (cP N s))) as [->|Nl].
      * exists j. apply znth_zupd_same. lia.
      * destruct (B l ltac:(lia)) as [d Hd]. exists d. rewrite znth_zupd_other; [assumption|].
        intros ->. destruct (A d l Hd) as [->|(Q & _)]; [unfold k_undefined in Hl; lia|lia].
    + assert (ST : forall d l, znth (cD N s) d = Some l -> l <> zlen (cP N s)).
      { intros d l Hd ->. destruct (A d _ Hd) as [Q|(_ & _ & q' & qp' & _ & _ & X)]; [unfold k_undefined in Q; lia|].
        apply znth_some in X. lia. }
      intros d d' l H H' Nl. destruct (Z.eq_dec d j) as [->|Nd]; destruct (Z.eq_dec d' j) as [->|Nd']; [reflexivity| | |].
      * rewrite znth_zupd_same in H by lia. rewrite znth_zupd_other in H' by lia. injection H as <-. exfalso. eapply ST; eauto.
      * rewrite znth_zupd_same in H' by lia. rewrite znth_zupd_other in H by lia. injection H' as <-. exfalso. eapply ST; eauto.
      * rewrite znth_zupd_other in H, H' by lia. eapply D; eauto.
    + exists (Pj ++ [bisect N qp p]). rewrite E, <- app_assoc. reflexivity.
Qed.

Lemma linv_walk k : forall n j s o s', Z.to_nat (k - j) = n -> 0 <= j <= k -> zlen (cD N s) = k -> linv j s -> walk N pmax tmax pts K p (zrange j k) s o s' -> linv k s'.
Proof.
  induction n as [|n IH]; intros j s o s' Hn Hj HD I W.
  - rewrite zrange_nil in W by lia. inversion W; subst. apply (linv_mono j); [lia|assumption].
  - rewrite zrange_cons in W by lia. inversion W as [|nb nbs q qp s0 s1 o0 s2 Hq Hqp R W'|nb nbs q qp s0 o0 s1 Hq Hqp R No]; subst.
    + destruct (linv_step j q qp s Cont s1 ltac:(lia) Hq Hqp I R) as [I1 L1]. apply (IH (j + 1) s1 o s'); auto; lia.
    + destruct (linv_step j q qp s o s' ltac:(lia) Hq Hqp I R) as [I1 L1]. apply (linv_mono (j + 1)); [lia|assumption].
Qed.
End W.

(** Programs confined to disjoint regions: any interleaving gives the same
    memory as running them one after another. *)
From Verif Require Import Base PBase Prog PProg.
From Verif Require Export SpecRun.

Section P.
Context {F : Type}.
Notation mem := (mem F).
Notation prog := (prog F).

Notation agree := (@agree F).

Lemma run_in_local {A} W (p : prog A) : forall m x m' m2, run_in W p m = Ok (x, m') -> agree W m m2 ->
  exists m2', run_in W p m2 = Ok (x, m2') /\ agree W m' m2'.
Proof.
  induction p as [a|e|a i k IH|a i v k IH]; intros m x m' m2 H Ag; simpl in *.
  - injection H as <- <-. eauto.
  - discriminate.
  - destruct (W a i) eqn:E; [|discriminate]. rewrite <- (Ag a i E). destruct (mrd m a i); [eauto|discriminate].
  - destruct (W a i) eqn:E; [|discriminate]. destruct (mrd m a i) eqn:E1; [|discriminate].
    assert (E2 : mrd m2 a i = Some t) by (rewrite <- (Ag a i E); exact E1). rewrite E2.
    apply (IH _ _ _ (mwr m2 a i v) H). intros b j Hb. destruct (arr_eq_dec a b) as [<-|Nb].
    + destruct (Z.eq_dec i j) as [<-|Nj].
      * rewrite (mrd_mwr_same m a i v t E1). symmetry. now apply (mrd_mwr_same m2 a i v t).
      * rewrite !mrd_mwr_other by auto. auto.
    + rewrite !mrd_mwr_other by auto. auto.
Qed.

Notation task := (@task F).
Notation confined := (@confined F).

Notation apart := (@apart F).
Notation outside := (@outside F).

Notation merged := (@merged F).

Lemma merged_unique m ts m1 m2 : merged m ts m1 -> merged m ts m2 -> m1 = m2.
Proof.
  intros [A1 B1] [A2 B2]. apply mem_ext. intros a i.
  destruct (existsb (fun t => t_W t a i) ts) eqn:E.
  - apply existsb_exists in E as (t & Ht & Hw). rewrite (A1 t Ht a i Hw), (A2 t Ht a i Hw). reflexivity.
  - assert (O : outside ts a i).
    { intros t Ht. destruct (t_W t a i) eqn:Q; [|reflexivity]. assert (existsb (fun t => t_W t a i) ts = true); [|congruence].
      apply existsb_exists. eauto. }
    rewrite (B1 a i O), (B2 a i O). reflexivity.
Qed.

Lemma confined_agree m m2 t : confined m t -> agree (t_W t) m m2 -> confined m2 t.
Proof.
  intros (f & R & A) Ag. destruct (run_in_local _ _ _ _ _ _ R Ag) as (f2 & R2 & A2). exists f2. split; [assumption|].
  intros a i Hi. rewrite <- (A2 a i Hi). auto.
Qed.

Definition union (ts : list task) : region := fun a i => existsb (fun t => t_W t a i) ts.
Lemma union_in ts t a i : In t ts -> t_W t a i = true -> union ts a i = true.
Proof. intros Ht Hw. apply existsb_exists. eauto. Qed.

(** one after another *)
Lemma seq_confined ts : forall m, apart ts -> (forall t, In t ts -> confined m t) ->
  exists m', run_in (union ts) (forM ts t_p) m = Ok (tt, m') /\ merged m ts m'.
Proof.
  induction ts as [|t ts IH]; intros m Ap Hc.
  - exists m. split; [reflexivity|]. split; [intros t []|auto].
  - inversion Ap as [|? ? D Ap']; subst. destruct (Hc t (or_introl eq_refl)) as (f & R & A).
    assert (FR := run_in_frame _ _ _ _ _ R). rewrite Forall_forall in D.
    destruct (IH f Ap') as (m' & R' & M).
    { intros t' Ht'. apply (confined_agree m); [apply Hc; now right|]. intros a i Hi. symmetry. apply FR.
      destruct (t_W t a i) eqn:E; [|reflexivity]. exfalso. eapply (D t' Ht'); eauto. }
    exists m'. split.
    + cbn [forM]. rewrite run_in_bind.
      rewrite (run_in_mono (t_W t) (union (t :: ts)) _ _ _ _ ltac:(intros a i Hi; apply (union_in _ t); [now left|assumption]) R).
      apply (run_in_mono (union ts)); [|exact R']. intros a i Hi. unfold union in *. simpl. rewrite Hi. apply orb_true_r.
    + destruct M as [M1 M2]. split.
      * intros t' [<-|Ht']; [|auto]. intros a i Hi. rewrite M2; [auto|].
        intros t' Ht'. destruct (t_W t' a i) eqn:E; [|reflexivity]. exfalso. eapply (D t' Ht'); eauto.
      * intros a i O. rewrite M2; [apply FR; apply O; now left|]. intros t' Ht'. apply O. now right.
Qed.

Lemma run_finish (ts : list task) : forall m m', run (forM ts t_p) m = Ok (tt, m') -> finish (map t_p ts) m = Ok m'.
Proof.
  induction ts as [|t ts IH]; intros m m' H; simpl in *; [now injection H as <-|].
  rewrite run_bind in H. destruct (run (t_p t) m) as [[[] m1]|e]; [auto|discriminate].
Qed.

(** interleaved *)
Lemma nupd_map {A B} (f : A -> B) l n x : map f (nupd l n x) = nupd (map f l) n (f x).
Proof. revert n. induction l as [|y l IH]; intros [|n]; simpl; auto. now rewrite IH. Qed.

Lemma apart_upd ts n t t' : apart ts -> nth_error ts n = Some t -> t_W t' = t_W t -> apart (nupd ts n t').
Proof.
  revert n. induction ts as [|x ts IH]; intros [|n] Ap E W; simpl in *; try discriminate.
  - injection E as ->. inversion Ap as [|? ? D Ap']; subst. constructor; [|assumption]. rewrite W. assumption.
  - inversion Ap as [|? ? D Ap']; subst. constructor; [|eapply IH; eauto].
    clear IH Ap Ap'. revert n E. induction ts as [|y ts IH]; intros [|n] E; simpl in *; try discriminate.
    + injection E as ->. inversion D as [|? ? D1 D2]; subst. constructor; [rewrite W; assumption|assumption].
    + inversion D as [|? ? D1 D2]; subst. constructor; [assumption|]. now apply IH.
Qed.
Lemma in_nupd {A} (l : list A) n x y : In y (nupd l n x) -> y = x \/ exists j, j <> n /\ nth_error l j = Some y.
Proof.
  revert n. induction l as [|z l IH]; intros [|n] H; simpl in *; try contradiction.
  - destruct H as [<-|H]; [now left|]. right. apply In_nth_error in H as [j Hj]. exists (S j). split; [lia|assumption].
  - destruct H as [<-|H]; [right; exists O; split; [lia|reflexivity]|].
    destruct (IH n H) as [->|(j & Nj & Hj)]; [now left|]. right. exists (S j). split; [lia|assumption].
Qed.
Lemma apart_nth ts : apart ts -> forall i j t t', nth_error ts i = Some t -> nth_error ts j = Some t' -> i <> j -> disjoint (t_W t) (t_W t').
Proof.
  induction 1 as [|x l D Ap IH]; intros i j t t' Hi Hj Nij; [destruct i; discriminate|].
  rewrite Forall_forall in D. destruct i as [|i], j as [|j]; simpl in *; try lia.
  - injection Hi as <-. apply D. eapply nth_error_In; eauto.
  - injection Hj as <-. intros a y H1 H2. apply (D t (nth_error_In _ _ Hi) a y H2 H1).
  - eapply IH; eauto.
Qed.

Lemma pool_confined sched : forall ts m, apart ts -> (forall t, In t ts -> confined m t) ->
  exists m', pool_run sched (map t_p ts) m = Ok m' /\ merged m ts m'.
Proof.
  induction sched as [|n sched IH]; intros ts m Ap Hc.
  - destruct (seq_confined ts m Ap Hc) as (m' & R & M). exists m'. split; [|assumption]. simpl. apply run_finish. eapply run_in_run; eauto.
  - simpl. rewrite nth_error_map. destruct (nth_error ts n) as [t|] eqn:En; [|simpl; auto]. simpl.
    destruct (Hc t (nth_error_In _ _ En)) as (f & R & A).
    (* one access of task t *)
    assert (ST : exists p' m1, step1 (t_p t) m = Ok (p', m1) /\ run_in (t_W t) p' m1 = Ok (tt, f) /\ (forall a i, t_W t a i = false -> mrd m1 a i = mrd m a i)).
    { destruct (t_p t) as [x|e|a i k|a i v k]; simpl in R |- *.
      - exists (Ret x), m. auto.
      - discriminate.
      - destruct (t_W t a i); [|discriminate]. destruct (mrd m a i) as [v|]; [|discriminate]. exists (k v), m. auto.
      - destruct (t_W t a i) eqn:W; [|discriminate]. destruct (mrd m a i) as [w|] eqn:Ew; [|discriminate]. exists k, (mwr m a i v). split; [reflexivity|].
        split; [assumption|]. intros b j Hb. apply mrd_mwr_other. destruct (arr_eq_dec a b) as [<-|]; [right; intros <-; congruence|now left]. }
    destruct ST as (p' & m1 & E1 & R1 & FR). rewrite E1.
    set (t' := mkTask p' (t_W t) (t_f t)).
    assert (Ap' : apart (nupd ts n t')) by (apply (apart_upd ts n t); auto).
    assert (EM : nupd (map t_p ts) n p' = map t_p (nupd ts n t')) by (rewrite nupd_map; reflexivity). rewrite EM.
    destruct (IH (nupd ts n t') m1 Ap') as (m' & Rn & M1 & M2).
    { intros u Hu. apply in_nupd in Hu as [->|(j & Nj & Hj)].
      - exists f. split; assumption.
      - apply (confined_agree m); [apply Hc; eapply nth_error_In; eauto|]. intros a i Hi. symmetry. apply FR.
        destruct (t_W t a i) eqn:E; [|reflexivity]. exfalso. eapply (apart_nth ts Ap j n u t Hj En Nj); eauto. }
    exists m'. split; [assumption|].
    assert (IN : forall u, In u ts -> exists u', In u' (nupd ts n t') /\ t_W u' = t_W u /\ t_f u' = t_f u).
    { intros u Hu. apply In_nth_error in Hu as [j Hj]. destruct (Nat.eq_dec j n) as [->|Nj].
      - assert (u = t) by congruence. subst u. exists t'. split; [|auto]. clear -En. revert n En. induction ts as [|y l IHl]; intros [|n] E; simpl in *; try discriminate; auto.
      - exists u. split; [|auto]. clear -Hj Nj. apply (nth_error_In _ j). revert n j Hj Nj.
        induction ts as [|y l IHl]; intros [|n] [|j] E Nj; simpl in *; try discriminate; try lia; auto. }
    split.
    + intros u Hu. destruct (IN u Hu) as (u' & Hu' & EW & EF). rewrite <- EW, <- EF. auto.
    + intros a i O. rewrite M2.
      * apply FR. apply O. eapply nth_error_In; eauto.
      * intros u Hu. apply in_nupd in Hu as [->|(j & Nj & Hj)]; [apply (O t); eapply nth_error_In; eauto|]. apply O. eapply nth_error_In; eauto.
Qed.

(** all schedules, and the sequential run, end in one memory *)
Lemma pool_det ts m : apart ts -> (forall t, In t ts -> confined m t) ->
  exists m', (forall sched, pool_run sched (map t_p ts) m = Ok m') /\ run (forM ts t_p) m = Ok (tt, m') /\ merged m ts m'.
Proof.
  intros Ap Hc. destruct (seq_confined ts m Ap Hc) as (m' & R & M). exists m'. split; [|split; [eapply run_in_run; eauto|assumption]].
  intros sched. destruct (pool_confined sched ts m Ap Hc) as (m2 & R2 & M2). rewrite R2. f_equal. eapply merged_unique; eauto.
Qed.
End P.

(** threads that each run a list of tasks *)
Section Q.
Context {F : Type}.
Notation mem := (mem F).
Notation task := (@task F).

Lemma apart_app (a b : list task) : apart (a ++ b) -> apart a /\ apart b /\ (forall t t', In t a -> In t' b -> disjoint (t_W t) (t_W t')).
Proof.
  induction a as [|x a IH]; simpl; intros H.
  - split; [constructor|]. split; [assumption|]. intros ? ? [].
  - inversion H as [|? ? D Ap]; subst. destruct (IH Ap) as (A1 & A2 & A3). rewrite Forall_forall in D. split; [|split; [assumption|]].
    + constructor; [|assumption]. apply Forall_forall. intros y Hy. apply D, in_or_app. now left.
    + intros t t' [<-|Ht] Ht'; [apply D, in_or_app; now right|auto].
Qed.

Lemma threads_tasks (m : mem) : forall tss, apart (concat tss) -> (forall t, In t (concat tss) -> confined m t) ->
  exists us, map t_p us = map thread_of tss /\ apart us /\ (forall u, In u us -> confined m u) /\
    Forall2 (fun ts u => (forall a i, t_W u a i = union ts a i) /\ (forall t, In t ts -> agree (t_W t) (t_f u) (t_f t))) tss us.
Proof.
  induction tss as [|ts tss IH]; simpl; intros Ap Hc.
  - exists []. split; [reflexivity|]. split; [constructor|]. split; [intros ? []|constructor].
  - destruct (apart_app _ _ Ap) as (A1 & A2 & A3).
    destruct (IH A2 ltac:(intros t Ht; apply Hc, in_or_app; now right)) as (us & E1 & E2 & E3 & E4).
    destruct (seq_confined ts m A1 ltac:(intros t Ht; apply Hc, in_or_app; now left)) as (f & R & M1 & M2).
    exists (mkTask (thread_of ts) (union ts) f :: us). simpl. split; [now rewrite E1|]. split; [|split].
    + constructor; [|assumption]. apply Forall_forall. intros u Hu a i H1 H2. simpl in H1.
      apply existsb_exists in H1 as (t & Ht & H1).
      assert (exists ts', In ts' tss /\ union ts' a i = true) as (ts' & Hts' & U).
      { clear -E4 Hu H2. induction E4 as [|x y l l' (EW & _) _ IH]; [destruct Hu|]. destruct Hu as [<-|Hu].
        - exists x. split; [now left|]. rewrite <- EW. assumption.
        - destruct (IH Hu) as (z & Hz & Uz). exists z. split; [now right|assumption]. }
      apply existsb_exists in U as (t' & Ht' & W'). apply (A3 t t' Ht ltac:(apply in_concat; eauto) a i H1 W').
    + intros u [<-|Hu]; [|auto]. exists f. simpl. split; [assumption|]. intros a i _. reflexivity.
    + constructor; [|assumption]. simpl. split; auto.
Qed.

Lemma forM_concat (tss : list (list task)) (m : mem) : run (forM (concat tss) t_p) m = run (forM tss thread_of) m.
Proof.
  revert m. induction tss as [|ts tss IH]; intros m; [reflexivity|]. simpl. rewrite run_bind.
  assert (A : forall (a b : list task) m0, run (forM (a ++ b) t_p) m0 = match run (forM a t_p) m0 with Ok (_, m1) => run (forM b t_p) m1 | Err e => Err e end).
  { induction a as [|x a IHa]; intros b m0; [reflexivity|]. simpl. rewrite !run_bind. destruct (run (t_p x) m0) as [[[] m1]|e]; [|reflexivity]. apply IHa. }
  rewrite A. change (forM ts t_p) with (thread_of ts). destruct (run (thread_of ts) m) as [[[] m1]|e]; [apply IH|reflexivity].
Qed.

Lemma threads_det tss (m : mem) : apart (concat tss) -> (forall t, In t (concat tss) -> confined m t) ->
  exists m', (forall sched, pool_run sched (map thread_of tss) m = Ok m') /\ run (forM (concat tss) t_p) m = Ok (tt, m') /\ merged m (concat tss) m'.
Proof.
  intros Ap Hc. destruct (threads_tasks m tss Ap Hc) as (us & E1 & E2 & E3 & E4).
  destruct (pool_det us m E2 E3) as (m' & R & _ & M1 & M2). exists m'. rewrite <- E1. split; [assumption|].
  assert (MG : merged m (concat tss) m').
  { split.
    - intros t Ht. apply in_concat in Ht as (ts & Hts & Ht).
      assert (exists u, In u us /\ (forall a i, t_W u a i = union ts a i) /\ (forall t, In t ts -> agree (t_W t) (t_f u) (t_f t))) as (u & Hu & W & Ag).
      { clear -E4 Hts. induction E4 as [|x y l l' HP _ IH]; [destruct Hts|]. destruct Hts as [->|Hts].
        - exists y. split; [now left|exact HP].
        - destruct (IH Hts) as (z & Hz & Uz). exists z. split; [now right|assumption]. }
      intros a i Hi. rewrite (M1 u Hu a i); [apply (Ag t Ht a i Hi)|]. rewrite W. now apply (union_in ts t).
    - intros a i O. apply M2. intros u Hu.
      assert (exists ts, In ts tss /\ t_W u a i = union ts a i) as (ts & Hts & W).
      { clear -E4 Hu. induction E4 as [|x y l l' (HP & _) _ IH]; [destruct Hu|]. destruct Hu as [<-|Hu].
        - exists x. split; [now left|apply HP].
        - destruct (IH Hu) as (z & Hz & Uz). exists z. split; [now right|assumption]. }
      rewrite W. unfold union. destruct (existsb (fun t => t_W t a i) ts) eqn:E; [|reflexivity].
      apply existsb_exists in E as (t & Ht & Wt). rewrite (O t) in Wt; [discriminate|]. apply in_concat. eauto. }
  split; [|assumption].
  destruct (seq_confined (concat tss) m Ap Hc) as (m2 & R2 & MG2). rewrite (merged_unique _ _ _ _ MG MG2). eapply run_in_run; eauto.
Qed.
End Q.

(** Programs: running a bind, weakest preconditions, relocation of a program
    from a small memory holding one slot's rows to the shared arrays. *)
From Verif Require Import Base PBase Prog.
From Verif Require Export SpecRun.
Local Open Scope prog_scope.

Section P.
Context {F : Type}.
Notation prog := (prog F).
Notation mem := (mem F).

Lemma mget_mset_same (m : mem) a l : mget (mset m a l) a = l.
Proof. destruct a; reflexivity. Qed.
Lemma mget_mset_other (m : mem) a b l : a <> b -> mget (mset m a l) b = mget m b.
Proof. destruct a, b; try reflexivity; congruence. Qed.
Lemma arr_eq_dec (a b : arr) : {a = b} + {a <> b}.
Proof. decide equality. Qed.
Lemma arr_eqb_eq a b : arr_eqb a b = true <-> a = b.
Proof. destruct a, b; split; (reflexivity || discriminate). Qed.

Lemma mrd_mwr_same (m : mem) a i v w : mrd m a i = Some w -> mrd (mwr m a i v) a i = Some v.
Proof.
  unfold mrd, mwr. intros H. rewrite mget_mset_same. apply znth_zupd_same. eapply znth_some; eauto.
Qed.
Lemma mrd_mwr_other (m : mem) a i v b j : (a <> b \/ i <> j) -> mrd (mwr m a i v) b j = mrd m b j.
Proof.
  unfold mrd, mwr. intros H. destruct (arr_eq_dec a b) as [<-|N].
  - rewrite mget_mset_same. apply znth_zupd_other. destruct H; congruence.
  - now rewrite mget_mset_other.
Qed.
Lemma mlen_mwr (m : mem) a i v b : zlen (mget (mwr m a i v) b) = zlen (mget m b).
Proof.
  unfold mwr. destruct (arr_eq_dec a b) as [<-|N].
  - rewrite mget_mset_same. apply zlen_zupd.
  - now rewrite mget_mset_other.
Qed.
Lemma mem_ext (m m' : mem) : (forall a i, mrd m a i = mrd m' a i) -> m = m'.
Proof.
  intros H. destruct m, m'. f_equal; apply znth_ext; intros i.
  - apply (H AHeapId i). - apply (H AHeapPq i). - apply (H AP i). - apply (H AT i).
  - apply (H AdR i). - apply (H ADknn i). - apply (H ASt i).
Qed.

(** ** running a bind *)
Lemma run_in_bind {A B} W (p : prog A) (f : A -> prog B) m :
  run_in W (bind p f) m =
  match run_in W p m with Ok (a, m') => run_in W (f a) m' | Err e => Err e end.
Proof.
  revert m. induction p as [a|e|a i k IH|a i v k IH]; intros m; simpl; auto.
  - destruct (W a i); [|reflexivity]. destruct (mrd m a i); auto.
  - destruct (W a i); [|reflexivity]. destruct (mrd m a i); auto.
Qed.

Lemma run_bind {A B} (p : prog A) (f : A -> prog B) m :
  run (bind p f) m = match run p m with Ok (a, m') => run (f a) m' | Err e => Err e end.
Proof. apply run_in_bind. Qed.

Lemma run_bind_ok {A B} (p : prog A) (f : A -> prog B) m a m' :
  run p m = Ok (a, m') -> run (bind p f) m = run (f a) m'.
Proof. intros H. now rewrite run_bind, H. Qed.

Lemma run_rd a i (m : mem) v : mrd m a i = Some v -> run (rd a i) m = Ok (v, m).
Proof. intros H. unfold run, rd. simpl. now rewrite H. Qed.
Lemma run_wr a i (v : ty a) (m : mem) w : mrd m a i = Some w -> run (wr a i v) m = Ok (tt, mwr m a i v).
Proof. intros H. unfold run, wr. simpl. now rewrite H. Qed.
Lemma run_Rd {A} a i (k : ty a -> prog A) (m : mem) v : mrd m a i = Some v -> run (Rd a i k) m = run (k v) m.
Proof. intros H. unfold run. simpl. now rewrite H. Qed.
Lemma run_Wr {A} a i v (k : prog A) (m : mem) w : mrd m a i = Some w -> run (Wr a i v k) m = run k (mwr m a i v).
Proof. intros H. unfold run. simpl. now rewrite H. Qed.
Lemma run_Ret {A} (a : A) (m : mem) : run (Ret a) m = Ok (a, m).
Proof. reflexivity. Qed.

Lemma wp_ret {A} (a : A) (Q : A -> mem -> Prop) m : Q a m -> wp (Ret a) Q m.
Proof. intros H. exists a, m. auto. Qed.
Lemma wp_bind {A B} (p : prog A) (f : A -> prog B) Q m :
  wp p (fun a m' => wp (f a) Q m') m -> wp (bind p f) Q m.
Proof.
  intros (a & m' & H & b & m'' & H' & HQ). exists b, m''. split; [|assumption].
  now rewrite (run_bind_ok _ _ _ _ _ H).
Qed.
Lemma wp_Rd {A} a i (k : ty a -> prog A) Q m v : mrd m a i = Some v -> wp (k v) Q m -> wp (Rd a i k) Q m.
Proof. intros H (b & m' & E & HQ). exists b, m'. rewrite (run_Rd _ _ _ _ _ H). auto. Qed.
Lemma wp_Wr {A} a i v (k : prog A) Q m w :
  mrd m a i = Some w -> wp k Q (mwr m a i v) -> wp (Wr a i v k) Q m.
Proof. intros H (b & m' & E & HQ). exists b, m'. rewrite (run_Wr _ _ _ _ _ _ H). auto. Qed.
Lemma wp_conseq {A} (p : prog A) (Q Q' : A -> mem -> Prop) m :
  wp p Q m -> (forall a m', Q a m' -> Q' a m') -> wp p Q' m.
Proof. intros (a & m' & E & HQ) H. exists a, m'. auto. Qed.
Lemma wp_forM {X} (f : X -> prog unit) (P : list X -> mem -> Prop) l m :
  P l m -> (forall x l' m, P (x :: l') m -> (exists l0, l = l0 ++ x :: l') -> wp (f x) (fun _ m' => P l' m') m) ->
  wp (forM l f) (fun _ m' => P [] m') m.
Proof.
  intros H0 HS. assert (G : forall l2 l1, l = l1 ++ l2 -> forall m, P l2 m -> wp (forM l2 f) (fun _ m' => P [] m') m).
  { induction l2 as [|x l2 IH]; intros l1 E m1 H1.
    - now apply wp_ret.
    - cbn [forM]. apply wp_bind. eapply wp_conseq; [apply HS; eauto|]. intros u m2 H2.
      apply (IH (l1 ++ [x])); [|assumption]. now rewrite <- app_assoc. }
  apply (G l []); auto.
Qed.

(** loops over a range of integers *)
Lemma wp_forM_zrange (f : Z -> prog unit) (P : Z -> mem -> Prop) a b m :
  a <= b -> P a m -> (forall i m, a <= i < b -> P i m -> wp (f i) (fun _ m' => P (i + 1) m') m) ->
  wp (forM (zrange a b) f) (fun _ m' => P b m') m.
Proof.
  intros Hab H0 HS. remember (Z.to_nat (b - a)) as n eqn:En. revert a m Hab H0 HS En.
  induction n as [|n IH]; intros a m Hab H0 HS En.
  - rewrite zrange_nil by lia. apply wp_ret. now replace b with a by lia.
  - rewrite zrange_cons by lia. cbn [forM]. apply wp_bind.
    eapply wp_conseq; [apply HS; [lia|assumption]|]. intros u m1 H1.
    apply IH; try lia; [assumption|]. intros i m2 Hi. apply HS. lia.
Qed.
Lemma wp_forM_zrange_down (f : Z -> prog unit) (P : Z -> mem -> Prop) a b m :
  a <= b -> P b m -> (forall i m, a <= i < b -> P (i + 1) m -> wp (f i) (fun _ m' => P i m') m) ->
  wp (forM (zrange_down a b) f) (fun _ m' => P a m') m.
Proof.
  intros Hab H0 HS. remember (Z.to_nat (b - a)) as n eqn:En. revert b m Hab H0 HS En.
  induction n as [|n IH]; intros b m Hab H0 HS En.
  - rewrite zrange_down_nil by lia. apply wp_ret. now replace a with b by lia.
  - replace b with (b - 1 + 1) by lia. rewrite zrange_down_cons by lia. cbn [forM]. apply wp_bind.
    eapply wp_conseq; [apply HS; [lia|now replace (b - 1 + 1) with b by lia]|]. intros u m1 H1.
    apply IH; try lia; [assumption|]. intros i m2 Hi. apply HS. lia.
Qed.
Lemma wp_foldM_zrange {S} (f : S -> Z -> prog S) (P : Z -> S -> mem -> Prop) a b s m :
  a <= b -> P a s m ->
  (forall i s m, a <= i < b -> P i s m -> wp (f s i) (fun s' m' => P (i + 1) s' m') m) ->
  wp (foldM (zrange a b) f s) (fun s' m' => P b s' m') m.
Proof.
  intros Hab H0 HS. remember (Z.to_nat (b - a)) as n eqn:En. revert a s m Hab H0 HS En.
  induction n as [|n IH]; intros a s m Hab H0 HS En.
  - rewrite zrange_nil by lia. apply wp_ret. now replace b with a by lia.
  - rewrite zrange_cons by lia. cbn [foldM]. apply wp_bind.
    eapply wp_conseq; [apply HS; [lia|assumption]|]. intros s1 m1 H1.
    apply IH; try lia; [assumption|]. intros i s2 m2 Hi. apply HS. lia.
Qed.

(** ** relocation *)
Definition reloc := arr -> Z -> Z.

(** [psim phi p p']: p' is p with every address moved by phi *)
Inductive psim {A} (phi : reloc) : prog A -> prog A -> Prop :=
| ps_ret a : psim phi (Ret a) (Ret a)
| ps_fail e : psim phi (Fail e) (Fail e)
| ps_rd a i i' k k' : i' = phi a i -> (forall v, psim phi (k v) (k' v)) -> psim phi (Rd a i k) (Rd a i' k')
| ps_wr a i i' v k k' : i' = phi a i -> psim phi k k' -> psim phi (Wr a i v k) (Wr a i' v k').

Lemma psim_bind {A B} phi (p p' : prog A) (f f' : A -> prog B) :
  psim phi p p' -> (forall a, psim phi (f a) (f' a)) -> psim phi (bind p f) (bind p' f').
Proof. intros H Hf. induction H; simpl; auto; constructor; auto. Qed.
Lemma psim_refl_pure {A} phi (o : option A) : psim phi (pure_opt o) (pure_opt o).
Proof. destruct o; constructor. Qed.
Lemma psim_rd phi a i i' : i' = phi a i -> psim phi (rd a i) (rd a i').
Proof. intros H. constructor; [assumption|]. intros. constructor. Qed.
Lemma psim_wr phi a i i' v : i' = phi a i -> psim phi (wr a i v) (wr a i' v).
Proof. intros H. constructor; [assumption|]. constructor. Qed.
Lemma psim_forM {X} phi (l : list X) f f' : (forall x, In x l -> psim phi (f x) (f' x)) ->
  psim phi (forM l f) (forM l f').
Proof.
  induction l as [|x l IH]; intros H; cbn [forM]; [constructor|].
  apply psim_bind; [apply H; now left|]. intros _. apply IH. intros y Hy. apply H. now right.
Qed.
Lemma psim_foldM {S X} phi (l : list X) (f f' : S -> X -> prog S) :
  (forall s x, In x l -> psim phi (f s x) (f' s x)) -> forall s, psim phi (foldM l f s) (foldM l f' s).
Proof.
  induction l as [|x l IH]; intros H s; cbn [foldM]; [constructor|].
  apply psim_bind; [apply H; now left|]. intros s'. apply IH. intros s2 y Hy. apply H. now right.
Qed.

(** the small memory [l] is what [m] holds at the relocated addresses *)
Definition view (phi : reloc) (l m : mem) : Prop :=
  forall a i, 0 <= i < zlen (mget l a) -> mrd m a (phi a i) = mrd l a i.
Definition inj_on (phi : reloc) (sz : arr -> Z) : Prop :=
  forall a i j, 0 <= i < sz a -> 0 <= j < sz a -> phi a i = phi a j -> i = j.
(** the addresses a slot with rows of these sizes may touch *)
Definition image (phi : reloc) (sz : arr -> Z) : region :=
  fun a x => existsb (fun i => phi a i =? x) (zrange 0 (sz a)).

Lemma image_true phi sz a x : image phi sz a x = true <-> exists i, 0 <= i < sz a /\ phi a i = x.
Proof.
  unfold image. rewrite existsb_exists. split; intros (i & H1 & H2).
  - apply in_zrange in H1. apply Z.eqb_eq in H2. eauto.
  - exists i. rewrite in_zrange. split; [assumption|now apply Z.eqb_eq].
Qed.

Definition msz (l : mem) (a : arr) : Z := zlen (mget l a).

(** What the small program does on the small memory, the relocated program does
    on the shared memory, touching only its own image. *)
Lemma psim_run {A} phi (p p' : prog A) : psim phi p p' ->
  forall l m sz, (forall a, msz l a = sz a) -> view phi l m -> inj_on phi sz ->
  forall x l', run p l = Ok (x, l') ->
  exists m', run_in (image phi sz) p' m = Ok (x, m') /\ view phi l' m' /\
    (forall a, msz l' a = sz a) /\
    (forall a i, image phi sz a i = false -> mrd m' a i = mrd m a i).
Proof.
  induction 1 as [a|e|a i i' k k' Hi Hk IH|a i i' v k k' Hi Hk IH]; intros l m sz Hsz Hv Hinj x l' Hr.
  - injection Hr as <- <-. exists m. repeat split; auto.
  - discriminate.
  - unfold run in Hr. simpl in Hr. destruct (mrd l a i) as [v|] eqn:E; [|discriminate].
    pose proof (znth_some _ _ _ E) as Hir. pose proof (Hv a i Hir) as Hm. rewrite E in Hm.
    destruct (IH v l m sz Hsz Hv Hinj x l' Hr) as (m' & R & V & S & Fr).
    exists m'. split; [|auto]. simpl. subst i'.
    replace (image phi sz a (phi a i)) with true.
    + now rewrite Hm.
    + symmetry. apply image_true. exists i. rewrite <- Hsz. unfold msz. auto.
  - unfold run in Hr. simpl in Hr. destruct (mrd l a i) as [w|] eqn:E; [|discriminate].
    pose proof (znth_some _ _ _ E) as Hir. pose proof (Hv a i Hir) as Hm. rewrite E in Hm.
    assert (Hv' : view phi (mwr l a i v) (mwr m a (phi a i) v)).
    { intros b j Hj. rewrite mlen_mwr in Hj. destruct (arr_eq_dec a b) as [<-|N].
      - destruct (Z.eq_dec i j) as [<-|Nj].
        + rewrite (mrd_mwr_same l a i v w E). eapply mrd_mwr_same; eauto.
        + rewrite !mrd_mwr_other; [now apply Hv|now right|].
          right. intros Eq. apply Nj. apply (Hinj a i j); rewrite <- ?Hsz; auto.
      - rewrite !mrd_mwr_other by auto. now apply Hv. }
    assert (Hsz' : forall b, msz (mwr l a i v) b = sz b) by (intros b; unfold msz; rewrite mlen_mwr; apply Hsz).
    destruct (IH _ _ sz Hsz' Hv' Hinj x l' Hr) as (m' & R & V & S & Fr).
    assert (Him : image phi sz a (phi a i) = true)
      by (apply image_true; exists i; rewrite <- Hsz; unfold msz; auto).
    exists m'. split; [simpl; subst i'; rewrite Him, Hm; exact R|]. split; [assumption|]. split; [assumption|].
    intros b j Hb. rewrite Fr by assumption. apply mrd_mwr_other.
    destruct (arr_eq_dec a b) as [<-|]; [|now left]. right. intros <-. congruence.
Qed.

(** ** the region only matters for acceptance *)
Lemma run_in_mono {A} (W W' : region) (p : prog A) m x m' :
  (forall a i, W a i = true -> W' a i = true) -> run_in W p m = Ok (x, m') -> run_in W' p m = Ok (x, m').
Proof.
  intros HW. revert m. induction p as [a|e|a i k IH|a i v k IH]; intros m H; simpl in *; auto.
  - destruct (W a i) eqn:E; [|discriminate]. rewrite (HW _ _ E). destruct (mrd m a i); [auto|discriminate].
  - destruct (W a i) eqn:E; [|discriminate]. rewrite (HW _ _ E). destruct (mrd m a i); [auto|discriminate].
Qed.
Lemma run_in_run {A} (W : region) (p : prog A) m x m' : run_in W p m = Ok (x, m') -> run p m = Ok (x, m').
Proof. apply run_in_mono. reflexivity. Qed.
Lemma run_in_frame {A} (W : region) (p : prog A) m x m' : run_in W p m = Ok (x, m') ->
  forall a i, W a i = false -> mrd m' a i = mrd m a i.
Proof.
  revert m. induction p as [a|e|a i k IH|a i v k IH]; intros m H b j Hb; simpl in *.
  - now injection H as _ <-.
  - discriminate.
  - destruct (W a i) eqn:E; [|discriminate]. destruct (mrd m a i); [eauto|discriminate].
  - destruct (W a i) eqn:E; [|discriminate]. destruct (mrd m a i); [|discriminate].
    rewrite (IH _ H b j Hb). apply mrd_mwr_other. destruct (arr_eq_dec a b) as [<-|]; [right|now left].
    intros <-. congruence.
Qed.
Lemma run_in_len {A} (W : region) (p : prog A) m x m' : run_in W p m = Ok (x, m') ->
  forall a, zlen (mget m' a) = zlen (mget m a).
Proof.
  revert m. induction p as [a|e|a i k IH|a i v k IH]; intros m H b; simpl in *.
  - now injection H as _ <-.
  - discriminate.
  - destruct (W a i); [|discriminate]. destruct (mrd m a i); [eauto|discriminate].
  - destruct (W a i); [|discriminate]. destruct (mrd m a i); [|discriminate].
    now rewrite (IH _ H b), mlen_mwr.
Qed.
End P.

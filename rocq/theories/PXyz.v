(** Proofs about xyzset::sort: the four counting passes, the offsets. *)
From Verif Require Import Base PBase SpecSort PSort Arith MUtils MXyz.
From Verif Require Export SpecPoints.
Local Open Scope res_scope.

(** ** Histograms and prefix sums *)
Lemma hist_ok {X} (f : X -> Z) (l : list X) (c : list Z) :
  (forall x, In x l -> 0 <= f x < zlen c) ->
  exists c', rfold l (fun c x => v <-r rget c (f x) ;; rset c (f x) (v + 1)) c = Ok c' /\
    zlen c' = zlen c /\
    forall d v, znth c d = Some v -> znth c' d = Some (v + cnt (fun x => f x =? d) l).
Proof.
  intros Hf.
  apply (rfold_inv _ (fun pre c' => zlen c' = zlen c /\
    forall d v, znth c d = Some v -> znth c' d = Some (v + cnt (fun x => f x =? d) pre))).
  - split; [reflexivity|]. intros d v H. rewrite cnt_nil, Z.add_0_r. exact H.
  - intros pre x post c' El (Hl & Hc). 
    assert (Hx : 0 <= f x < zlen c) by (apply Hf; rewrite El; apply in_app_iff; right; now left).
    destruct (znth_in_range c (f x) Hx) as [v Hv].
    specialize (Hc _ _ Hv) as Hv'. rewrite (rget_some _ _ _ Hv'). simpl.
    rewrite rset_some by lia. eexists. split; [reflexivity|]. split; [now rewrite zlen_zupd|].
    intros d w Hw. rewrite cnt_app, cnt_cons, cnt_nil, Z.add_0_r.
    destruct (f x =? d) eqn:E.
    + apply Z.eqb_eq in E. subst d. rewrite znth_zupd_same by lia.
      rewrite Hv in Hw. injection Hw as <-. f_equal. unfold b2z. lia.
    + rewrite znth_zupd_other by lia. rewrite (Hc _ _ Hw). f_equal. unfold b2z. lia.
Qed.

(** in-place inclusive prefix sums: [g d] becomes [G d] when G is the running sum *)
Lemma prefix_ok (c : list Z) (g G : Z -> Z) n :
  zlen c = n -> 1 <= n ->
  (forall d, 0 <= d < n -> znth c d = Some (g d)) ->
  G 0 = g 0 -> (forall d, 0 < d < n -> G d = G (d - 1) + g d) ->
  exists c', rfold (zrange 1 n) (fun c i =>
      a <-r rget c i ;; b <-r rget c (i - 1) ;; rset c i (a + b)) c = Ok c' /\
    zlen c' = n /\ forall d, 0 <= d < n -> znth c' d = Some (G d).
Proof.
  intros Hl Hn Hg H0 HS.
  destruct (rfold_zrange_inv (fun c i => a <-r rget c i ;; b <-r rget c (i - 1) ;; rset c i (a + b))
    (fun i c' => zlen c' = n /\ (forall d, 0 <= d < i -> znth c' d = Some (G d)) /\
       (forall d, i <= d < n -> znth c' d = Some (g d))) 1 n c) as (c' & E & L & P & _).
  - lia.
  - split; [assumption|]. split; intros d Hd.
    + replace d with 0 by lia. rewrite H0. apply Hg. lia.
    + apply Hg. lia.
  - intros i c' Hi (L & P1 & P2).
    rewrite (rget_some _ _ _ (P2 i ltac:(lia))). simpl.
    rewrite (rget_some _ _ _ (P1 (i - 1) ltac:(lia))). simpl.
    rewrite rset_some by lia. eexists. split; [reflexivity|]. split; [now rewrite zlen_zupd|].
    split; intros d Hd.
    + destruct (Z.eq_dec d i) as [->|].
      * rewrite znth_zupd_same by lia. f_equal. rewrite (HS i) by lia. lia.
      * rewrite znth_zupd_other by lia. apply P1. lia.
    + rewrite znth_zupd_other by lia. apply P2. lia.
  - exists c'. split; [exact E|]. split; [exact L|exact P].
Qed.

Lemma digit_range s x : 0 <= digit s x < 256.
Proof.
  unfold digit. change 255 with (Z.ones 8). rewrite Z.land_ones by lia.
  apply Z.mod_pos_bound. lia.
Qed.

Lemma digit_div s x : 0 <= s -> digit s x = (x / 2 ^ s) mod 256.
Proof.
  intros. unfold digit. change 255 with (Z.ones 8). rewrite Z.land_ones by lia.
  now rewrite Z.shiftr_div_pow2 by lia.
Qed.

(** key mod 2^(s+8) is the digit above key mod 2^s *)
Lemma mod_split s x : 0 <= s -> x mod 2 ^ (s + 8) = digit s x * 2 ^ s + x mod 2 ^ s.
Proof.
  intros. rewrite digit_div by assumption.
  assert (0 < 2 ^ s) by (apply Z.pow_pos_nonneg; lia).
  rewrite Z.pow_add_r by lia. change (2 ^ 8) with 256.
  rewrite Z.rem_mul_r by lia. lia.
Qed.

Lemma app_inv_len {A} (a b c d : list A) : a ++ b = c ++ d -> length a = length c -> a = c /\ b = d.
Proof.
  revert c. induction a; intros [|y c] H L; simpl in *; try discriminate; auto.
  injection H as -> H. injection L as L. destruct (IHa c H L). split; congruence.
Qed.

Section Sort.
Variable N : Arith.
Notation point := (point N).
Notation rec := (Z * MUtils.point N)%type.

Definition dig (shift : Z) (r : rec) : Z := digit shift (fst r).

Lemma radix_pass_ok shift (l t0 : list rec) : zlen t0 = zlen l ->
  exists t, radix_pass N (map fst l, map snd l, map fst t0, map snd t0) shift =
    Ok (map fst t, map snd t, map fst t, map snd t) /\ t = bucket (dig shift) 256 l.
Proof.
  intros Hlen. unfold radix_pass.
  assert (Hd : forall r : rec, 0 <= dig shift r < 256) by (intros; apply digit_range).
  (* histogram *)
  unfold count_digits.
  destruct (hist_ok (digit shift) (map fst l) (repeat 0 256)) as (c1 & E1 & L1 & P1).
  { intros x Hx. rewrite zlen_repeat. apply digit_range. }
  rewrite E1. cbn [rbind]. clear E1.
  assert (P1' : forall d, 0 <= d < 256 -> znth c1 d = Some (cnt (fun r : rec => dig shift r =? d) l)).
  { intros d Hd'. rewrite (P1 d 0) by (apply znth_repeat; lia). f_equal.
    rewrite Z.add_0_l. apply cnt_map. }
  rewrite zlen_repeat in L1. clear P1.
  (* prefix sums *)
  unfold prefix_sums.
  destruct (prefix_ok c1 (fun d => cnt (fun r : rec => dig shift r =? d) l)
     (fun d => cnt (fun r : rec => dig shift r <? d + 1) l) 256) as (c2 & E2 & L2 & P2); auto; try lia.
  { apply cnt_ext. intros x _. specialize (Hd x). lia. }
  { intros d Hd'. replace (d - 1 + 1) with d by lia. apply cnt_split. }
  rewrite E2. cbn [rbind]. clear E2 P1' L1 c1.
  (* placement *)
  set (base := fun d => cnt (fun r : rec => dig shift r <? d) l).
  set (before := fun i d => cnt (fun r : rec => dig shift r =? d) (firstn (Z.to_nat i) l)).
  destruct (rfold_zrange_down_inv (place_one N shift (map fst l) (map snd l))
    (fun i '(c, tid, tpt) => exists t : list rec, tid = map fst t /\ tpt = map snd t /\
       zlen t = zlen l /\ zlen c = 256 /\
       (forall d, 0 <= d < 256 -> znth c d = Some (base d + before i d)) /\
       (forall d r x, 0 <= d < 256 -> 
          nth_error (filter (fun r : rec => dig shift r =? d) (skipn (Z.to_nat i) l)) r = Some x ->
          znth t (base d + before i d + Z.of_nat r) = Some x))
    0 (zlen (map fst l)) (c2, map fst t0, map snd t0)) as (s' & E3 & P3).
  - apply zlen_nonneg.
  - exists t0. rewrite zlen_map. do 4 (split; [auto|]). split.
    + intros d Hd'. rewrite P2 by assumption. f_equal. unfold base, before.
      rewrite firstn_all2 by (unfold zlen; lia). apply cnt_split.
    + intros d r x _ Hx. rewrite skipn_all2 in Hx by (unfold zlen; lia).
      simpl in Hx. now destruct r.
  - intros i [[c tid] tpt] Hi (t & -> & -> & Lt & Lc & Pc & Pt). rewrite zlen_map in Hi.
    destruct (znth_in_range l i Hi) as [a Ha]. unfold place_one.
    rewrite (rget_some _ _ (fst a)) by (rewrite znth_map, Ha; reflexivity). cbn [rbind].
    rewrite (rget_some _ _ (snd a)) by (rewrite znth_map, Ha; reflexivity). cbn [rbind].
    fold (dig shift a). set (d := dig shift a). assert (Dd : 0 <= d < 256) by apply Hd.
    assert (Bd : before (i + 1) d = before i d + 1).
    { unfold before. rewrite (firstn_znth _ _ _ Ha), cnt_app, cnt_cons, cnt_nil.
      fold d. rewrite Z.eqb_refl. unfold b2z. lia. }
    assert (Bo : forall e, e <> d -> before (i + 1) e = before i e).
    { intros e He. unfold before. rewrite (firstn_znth _ _ _ Ha), cnt_app, cnt_cons, cnt_nil.
      fold d. destruct (d =? e) eqn:Q; [lia|]. unfold b2z. lia. }
    rewrite (rget_some _ _ _ (Pc d Dd)). cbn [rbind]. rewrite rset_some by lia. cbn [rbind].
    set (si := base d + before (i + 1) d - 1).
    assert (Hs : si = base d + before i d) by (unfold si; lia).
    assert (Split : forall e, cnt (fun r : rec => dig shift r =? e) l =
       before i e + cnt (fun r : rec => dig shift r =? e) (skipn (Z.to_nat i) l)).
    { intros e. unfold before. now rewrite <- cnt_app, firstn_skipn. }
    assert (Hsn : forall e, base e + before i e + cnt (fun r : rec => dig shift r =? e) (skipn (Z.to_nat i) l) = base (e + 1)).
    { intros e. unfold base. rewrite cnt_split, (Split e). lia. }
    assert (Bn : forall e, 0 <= before i e) by (intros; apply cnt_nonneg).
    assert (B0 : forall e, 0 <= base e) by (intros; apply cnt_nonneg).
    assert (Bm : forall e e', e <= e' -> base e <= base e').
    { intros e e' He. apply cnt_mono. intros. lia. }
    assert (Bmax : forall e, base e <= zlen l) by (intros; apply cnt_le).
    assert (Here : 0 < cnt (fun r : rec => dig shift r =? d) (skipn (Z.to_nat i) l)).
    { apply (cnt_pos _ _ a); [|unfold d; lia]. rewrite (skipn_znth _ _ _ Ha). now left. }
    assert (Sr : 0 <= si < zlen l).
    { pose proof (Hsn d). specialize (Bmax (d + 1)). specialize (B0 d). specialize (Bn d). lia. }
    rewrite rset_some by (rewrite zlen_map; lia). cbn [rbind].
    rewrite rset_some by (rewrite zlen_map; lia). cbn [rbind].
    eexists. split; [reflexivity|]. exists (zupd t si a).
    rewrite !map_zupd. do 2 (split; [reflexivity|]). rewrite !zlen_zupd. do 2 (split; [assumption|]).
    split.
    + intros e He. destruct (Z.eq_dec e d) as [->|Hed].
      * rewrite znth_zupd_same by lia. now rewrite Hs.
      * rewrite znth_zupd_other by congruence. rewrite Pc by assumption. now rewrite Bo.
    + intros e r x He Hx. 
      assert (Hr : Z.of_nat r < cnt (fun r : rec => dig shift r =? e) (skipn (Z.to_nat i) l)).
      { unfold cnt, zlen. apply Nat2Z.inj_lt. apply nth_error_Some. congruence. }
      rewrite (skipn_znth _ _ _ Ha) in Hx. simpl in Hx. fold d in Hx.
      destruct (d =? e) eqn:Q.
      * apply Z.eqb_eq in Q. subst e. destruct r as [|r]; simpl in Hx.
        -- injection Hx as <-. rewrite Hs. rewrite Z.add_0_r. apply znth_zupd_same. lia.
        -- rewrite znth_zupd_other by lia. rewrite <- (Pt d r x) by assumption. f_equal. lia.
      * rewrite znth_zupd_other.
        2:{ pose proof (Hsn e) as S1. pose proof (Hsn d) as S2.
            pose proof (Bn e). pose proof (Bn d).
            destruct (Z_lt_le_dec d e) as [L|L].
            - specialize (Bm (d + 1) e). lia.
            - specialize (Bm (e + 1) d). lia. }
        rewrite <- (Bo e) by lia. apply Pt; assumption.
  - rewrite E3. cbn [rbind]. destruct s' as [[c tid] tpt].
    destruct P3 as (t & -> & -> & Lt & _ & _ & Pt). exists t. split; [reflexivity|].
    assert (Bl : forall m, 0 <= m -> zlen (bucket (dig shift) m l) = base m).
    { intros m Hm. apply bucket_length; [assumption|]. intros x _. apply Hd. }
    apply concat_ext.
    + assert (zlen t = zlen (bucket (dig shift) 256 l)) as HL.
      { rewrite Bl by lia. unfold base. rewrite cnt_all; [assumption|]. intros x _. specialize (Hd x). lia. }
      unfold zlen in HL. apply Nat2Z.inj in HL. exact HL.
    + intros pre s post E r x Hx.
      assert (exists d, 0 <= d < 256 /\ s = filter (fun r : rec => dig shift r =? d) l /\
               concat pre = bucket (dig shift) d l) as (d & Hdd & -> & Ep).
      { assert (HA : (length pre < 256)%nat).
        { apply (f_equal (@length _)) in E. rewrite map_length, zrange_length, app_length in E. simpl in E. lia. }
        exists (Z.of_nat (length pre)). split; [lia|].
        rewrite (zrange_app 0 (Z.of_nat (length pre)) 256), map_app in E by lia.
        rewrite (zrange_cons (Z.of_nat (length pre))) in E by lia. simpl in E.
        apply app_inv_len in E. 2:{ rewrite map_length, zrange_length. lia. }
        destruct E as [E1 E2]. injection E2 as E2 _. split; [auto|]. unfold bucket. now rewrite E1. }
      assert (nth_error t (length (concat pre) + r) = znth t (base d + Z.of_nat r)) as ->.
      { rewrite <- Bl by lia. rewrite Ep. unfold znth, zlen. rewrite (proj2 (Z.leb_le _ _)) by lia.
        f_equal. lia. }
      specialize (Pt d r x Hdd). simpl in Pt. unfold before in Pt. simpl in Pt.
      rewrite cnt_nil, Z.add_0_r in Pt. now apply Pt.
Qed.

(** ** The four passes *)
Definition lowkey (s : Z) (r : rec) : Z := fst r mod 2 ^ s.

Lemma bucket_step s (l0 l : list rec) : 0 <= s ->
  stable_sort_of (lowkey s) l0 l ->
  stable_sort_of (lowkey (s + 8)) l0 (bucket (dig s) 256 l).
Proof.
  intros Hs (Hp & Hsrt & Hf).
  assert (H2 : 0 < 2 ^ s) by (apply Z.pow_pos_nonneg; lia).
  assert (Hd : forall r : rec, 0 <= dig s r < 256) by (intros; apply digit_range).
  assert (Hk : forall r, lowkey (s + 8) r = dig s r * 2 ^ s + lowkey s r)
    by (intros; apply mod_split; assumption).
  assert (Hl : forall r, 0 <= lowkey s r < 2 ^ s) by (intros; apply Z.mod_pos_bound; lia).
  split; [|split].
  - rewrite Hp. apply bucket_perm; [lia|]. intros x _. apply Hd.
  - apply (bucket_sorted (dig s) (lowkey s)); [assumption| |].
    + intros x y _ _ Hxy. rewrite !Hk. specialize (Hl x) as Hx. specialize (Hl y) as Hy. nia.
    + intros x y _ _ Hxy Hle. rewrite !Hk, Hxy. lia.
  - intros c. destruct (Z_le_gt_dec 0 c) as [L|L].
    2:{ rewrite !filter_none; [reflexivity| |]; intros x _; specialize (Hk x);
        specialize (Hl x); specialize (Hd x); nia. }
    destruct (Z_lt_ge_dec (c / 2 ^ s) 256) as [L'|L'].
    2:{ rewrite !filter_none; [reflexivity| |]; intros x _; specialize (Hk x);
        specialize (Hl x); specialize (Hd x);
        pose proof (Z.div_mod c (2 ^ s) ltac:(lia));
        pose proof (Z.mod_pos_bound c (2 ^ s) ltac:(lia)); nia. }
    assert (Hc : forall x : rec, (lowkey (s + 8) x =? c) = (dig s x =? c / 2 ^ s) && (lowkey s x =? c mod 2 ^ s)).
    { intros x. rewrite Hk. specialize (Hl x).
      pose proof (Z.div_mod c (2 ^ s) ltac:(lia)) as D.
      pose proof (Z.mod_pos_bound c (2 ^ s) ltac:(lia)) as M.
      destruct (dig s x =? c / 2 ^ s) eqn:E1; simpl.
      - apply Z.eqb_eq in E1. rewrite E1. lia.
      - apply Z.eqb_neq in E1. apply Z.eqb_neq. intros K. apply E1.
        rewrite <- K. rewrite Z.div_add_l by lia. rewrite Z.div_small by lia. lia. }
    rewrite (bucket_filter (dig s) 256 _ (c / 2 ^ s)).
    + rewrite !(filter_ext _ _ Hc). rewrite <- !filter_filter. now rewrite Hf.
    + split; [apply Z.div_pos; lia|assumption].
    + intros x _ Hx. rewrite Hc in Hx. lia.
Qed.

Lemma combine_fst_snd {A B} (l : list A) (l' : list B) : length l = length l' ->
  map fst (combine l l') = l /\ map snd (combine l l') = l'.
Proof.
  revert l'. induction l; intros [|b l'] H; simpl in *; try discriminate; auto.
  injection H as H. destruct (IHl l' H). split; congruence.
Qed.

Lemma radix_sort_ok (l : list rec) :
  exists t, radix_sort N (map fst l) (map snd l) = Ok (map fst t, map snd t) /\
    stable_sort_of (lowkey 32) l t.
Proof.
  unfold radix_sort. cbv zeta. pose (z := ((fofZ N 0, fofZ N 0, fofZ N 0) : MUtils.point N)).
  assert (S0 : stable_sort_of (lowkey 0) l l).
  { apply stable_sort_sorted. unfold sorted_by, lowkey. clear. induction l; constructor; auto.
    apply Forall_forall. intros x _. rewrite !Z.mod_1_r. lia. }
  set (t0 := combine (repeat 0 (length l)) (repeat z (length l))).
  assert (T0 : map fst t0 = repeat 0 (length l) /\ map snd t0 = repeat z (length l)).
  { apply combine_fst_snd. now rewrite !repeat_length. }
  assert (L0 : zlen t0 = zlen l).
  { unfold t0, zlen. rewrite combine_length, !repeat_length. lia. }
  rewrite map_length.
  assert (PL : forall (f : rec -> Z) (a : list rec), (forall r, 0 <= f r < 256) -> zlen (bucket f 256 a) = zlen a).
  { intros f a Hf. pose proof (bucket_perm f 256 a ltac:(lia) ltac:(auto)) as P.
    apply Permutation_length in P. unfold zlen. lia. }
  assert (Hd : forall s (r : rec), 0 <= dig s r < 256) by (intros; apply digit_range).
  cbn [rfold]. 
  destruct (radix_pass_ok 0 l t0 L0) as (t1 & R1 & E1). rewrite (proj1 T0), (proj2 T0) in R1.
  match goal with |- context [radix_pass N ?s 0] =>
    assert (K : radix_pass N s 0 = Ok (map fst t1, map snd t1, map fst t1, map snd t1)) by exact R1;
    rewrite K end. cbn [rbind].
  destruct (radix_pass_ok 8 t1 t1 eq_refl) as (t2 & -> & E2). cbn [rbind].
  destruct (radix_pass_ok 16 t2 t2 eq_refl) as (t3 & -> & E3). cbn [rbind].
  destruct (radix_pass_ok 24 t3 t3 eq_refl) as (t4 & -> & E4). cbn [rbind].
  exists t4. split; [reflexivity|].
  apply (bucket_step 0) in S0; [|lia]. rewrite <- E1 in S0.
  apply (bucket_step (0+8)) in S0; [|lia]. change (0+8) with 8 in S0. rewrite <- E2 in S0.
  apply (bucket_step (8+8)) in S0; [|lia]. change (8+8) with 16 in S0. rewrite <- E3 in S0.
  apply (bucket_step (16+8)) in S0; [|lia]. change (16+8) with 24 in S0. rewrite <- E4 in S0.
  exact S0.
Qed.

(** for keys that fit, the low 32 bits are the key *)
Lemma lowkey_stable (l t : list rec) : (forall r, In r l -> 0 <= fst r < 2 ^ 32) ->
  stable_sort_of (lowkey 32) l t -> stable_sort_of fst l t.
Proof.
  intros Hr (Hp & Hs & Hf).
  assert (Ht : forall r, In r t -> 0 <= fst r < 2 ^ 32).
  { intros r H. apply Hr. now apply (Permutation_in _ (Permutation_sym Hp)). }
  split; [assumption|]. split.
  - eapply ssorted_weaken; [exact Hs|]. simpl. unfold lowkey. intros x y Hx Hy.
    rewrite !Z.mod_small by auto. auto.
  - intros c. rewrite (filter_ext_in _ (fun x => lowkey 32 x =? c)).
    2:{ intros x Hx. unfold lowkey. now rewrite Z.mod_small by auto. }
    rewrite Hf. apply filter_ext_in. intros x Hx. unfold lowkey. now rewrite Z.mod_small by auto.
Qed.

(** ** rmap *)
Lemma rmap_ok {A B} (f : A -> res B) l l' : rmap f l = Ok l' ->
  length l' = length l /\ forall i x, nth_error l i = Some x -> exists y, nth_error l' i = Some y /\ f x = Ok y.
Proof.
  revert l'. induction l as [|a l IH]; intros l' H; simpl in H.
  - injection H as <-. split; [reflexivity|]. intros [|i] x; discriminate.
  - apply rbind_ok in H as (y & E1 & H). apply rbind_ok in H as (ys & E2 & H). injection H as <-.
    destruct (IH _ E2) as [L P]. split; [simpl; lia|]. intros [|i] x Hx; simpl in *.
    + injection Hx as <-. eauto.
    + auto.
Qed.
Lemma rmap_combine {A B} (f : A -> res B) l l' : rmap f l = Ok l' <->
  length l' = length l /\ Forall (fun p => f (snd p) = Ok (fst p)) (combine l' l).
Proof.
  revert l'. induction l as [|a l IH]; intros l'; simpl.
  - split.
    + intros H. injection H as <-. split; [reflexivity|constructor].
    + intros [L _]. destruct l'; [reflexivity|discriminate].
  - split.
    + intros H. apply rbind_ok in H as (y & E1 & H). apply rbind_ok in H as (ys & E2 & H). injection H as <-.
      apply IH in E2 as [L P]. split; [simpl; lia|]. constructor; auto.
    + intros [L P]. destruct l' as [|y ys]; [discriminate|]. simpl in *. inversion_clear P.
      simpl in H. rewrite H. cbn [rbind]. rewrite (proj2 (IH ys)) by (split; [lia|assumption]). reflexivity.
Qed.

(** ** Offsets *)
Lemma offsets_ok idmax (ids : list Z) : 0 <= idmax ->
  (forall i, In i ids -> 0 <= i < idmax) ->
  exists o, offsets idmax ids = Ok o /\ zlen o = idmax + 1 /\
    forall c, 0 <= c <= idmax -> znth o c = Some (cnt (fun i => i <? c) ids).
Proof.
  intros Hm Hi. unfold offsets. replace (idmax + 1 <? 0) with false by lia. cbn [rbind].
  destruct (hist_ok (fun i => i + 1) ids (repeat 0 (Z.to_nat (idmax + 1)))) as (o1 & -> & L1 & P1).
  { intros i H. apply Hi in H. rewrite zlen_repeat. lia. }
  rewrite zlen_repeat, Z2Nat.id in L1 by lia. cbn [rbind].
  assert (P1' : forall d, 0 <= d <= idmax -> znth o1 d = Some (cnt (fun i => i + 1 =? d) ids)).
  { intros d Hd. rewrite (P1 d 0) by (apply znth_repeat; lia). reflexivity. }
  destruct (rfold_zrange_inv (fun '(o, u) i => v <-r rget o i ;; o <-r rset o i (u + v) ;; Ok (o, u + v))
    (fun i '(o, u) => zlen o = idmax + 1 /\ u = cnt (fun x => x + 1 <? i) ids /\
       (forall d, 0 <= d < i -> znth o d = Some (cnt (fun x => x <? d) ids)) /\
       (forall d, i <= d <= idmax -> znth o d = znth o1 d)) 0 (zlen o1) (o1, 0)) as ([o2 u] & -> & L2 & _ & P2 & _).
  - apply zlen_nonneg.
  - split; [assumption|]. split.
    + symmetry. apply cnt_none. intros x Hx. apply Hi in Hx. lia.
    + split; [lia|auto].
  - intros i [o u] Hii (L & -> & Pa & Pb). rewrite L1 in Hii.
    assert (Hoi : znth o i = Some (cnt (fun x => x + 1 =? i) ids)) by (rewrite Pb by lia; apply P1'; lia).
    rewrite (rget_some _ _ _ Hoi). cbn [rbind]. rewrite rset_some by lia. cbn [rbind].
    eexists. split; [reflexivity|]. simpl. rewrite zlen_zupd. split; [assumption|].
    rewrite <- cnt_split. split; [reflexivity|]. split; intros d Hd.
    + destruct (Z.eq_dec d i) as [->|].
      * rewrite znth_zupd_same by lia. f_equal. apply cnt_ext. intros x _. lia.
      * rewrite znth_zupd_other by lia. apply Pa. lia.
    + rewrite znth_zupd_other by lia. apply Pb. lia.
  - cbn [rbind]. rewrite L1 in P2. rewrite rset_some by lia. eexists. split; [reflexivity|].
    rewrite zlen_zupd. split; [assumption|]. intros c Hc. destruct (Z.eq_dec c idmax) as [->|].
    + replace (zlen o2 - 1) with idmax by lia. rewrite znth_zupd_same by lia. f_equal.
      symmetry. apply cnt_all. intros x Hx. apply Hi in Hx. lia.
    + rewrite znth_zupd_other by lia. apply P2. lia.
Qed.

Lemma rfold_fail_in {S X} (f : S -> X -> res S) (Q : S -> Prop) (x : X) l s :
  In x l -> Q s -> (forall s y s', Q s -> f s y = Ok s' -> Q s') ->
  (forall s, Q s -> exists e, f s x = Err e) -> exists e, rfold l f s = Err e.
Proof.
  intros Hin. revert s. induction l as [|y l IH]; intros s HQ Hpres Hbad; [destruct Hin|].
  simpl. destruct (f s y) as [s'|e] eqn:E; simpl; [|eauto]. destruct Hin as [->|Hin].
  - destruct (Hbad s HQ). congruence.
  - apply IH; auto. eapply Hpres; eauto.
Qed.

(** ids that survive are at least -1 *)
Lemma offsets_inv idmax ids o : offsets idmax ids = Ok o -> forall i, In i ids -> -1 <= i < idmax.
Proof.
  unfold offsets. intros H i Hi. destruct (idmax + 1 <? 0) eqn:E; [discriminate|]. cbn [rbind] in H.
  destruct (Z_le_gt_dec (-1) i) as [L|L], (Z_lt_ge_dec i idmax) as [L'|L']; try lia;
  (destruct (rfold_fail_in (fun o id => v <-r rget o (id + 1) ;; rset o (id + 1) (v + 1))
     (fun o => zlen o = idmax + 1) i ids (repeat 0 (Z.to_nat (idmax + 1)))) as [e He];
   [assumption|rewrite zlen_repeat; lia| | |rewrite He in H; discriminate]);
  try (intros s y s' Hs Hf; apply rbind_ok in Hf as (v & _ & Hf); apply rset_ok in Hf as [_ ->]; now rewrite zlen_zupd);
  intros s Hs; unfold rget; rewrite (proj2 (znth_none s (i + 1))) by lia; simpl; eauto.
Qed.

Notation in_range_ids := (in_range_ids N).

Lemma rmap_total {A B} (f : A -> res B) l : (forall x, In x l -> exists y, f x = Ok y) -> exists l', rmap f l = Ok l'.
Proof.
  induction l as [|a l IH]; intros H; simpl; [eauto|].
  destruct (H a) as [y ->]; [now left|]. destruct IH as [ys ->]; [firstorder|]. simpl. eauto.
Qed.

Lemma xyz_sort_inv gr pts pts' ids o : xyz_sort N gr pts = Ok (pts', ids, o) ->
  exists l t : list rec, map snd l = pts /\ map fst t = ids /\ map snd t = pts' /\
    stable_sort_of (lowkey 32) l t /\
    (forall r, In r l -> cell_id N gr (grid_len N gr) (snd r) = Ok (fst r)) /\
    int_min <= gr * gr * gr <= int_max /\ int_min <= gr * gr <= int_max /\
    rmap (cell_id N gr (grid_len N gr)) pts = Ok (map fst l) /\
    offsets (gr * gr * gr) ids = Ok o.
Proof.
  unfold xyz_sort. intros H.
  apply rbind_ok in H as (g2 & E1 & H). apply chk_inv in E1 as [-> R1].
  apply rbind_ok in H as (g3 & E2 & H). apply chk_inv in E2 as [-> R2].
  apply rbind_ok in H as (ids0 & E3 & H). apply rbind_ok in H as ([ids1 pts1] & E4 & H).
  apply rbind_ok in H as (o' & E5 & H). injection H as <- <- <-.
  pose proof E3 as E3'.
  apply rmap_combine in E3 as [L P]. set (l := combine ids0 pts) in *.
  destruct (combine_fst_snd ids0 pts L) as [F1 F2]. fold l in F1, F2.
  destruct (radix_sort_ok l) as (t & Et & St). rewrite F1, F2, E4 in Et. injection Et as -> ->.
  exists l, t. rewrite F1. repeat (split; [first [assumption|reflexivity|lia|exact St]|]).
  split; [now apply Forall_forall|]. auto.
Qed.

Lemma perm_points gr pts pts' ids o : xyz_sort N gr pts = Ok (pts', ids, o) -> Permutation pts pts'.
Proof.
  intros H. apply xyz_sort_inv in H as (l & t & <- & _ & <- & (Hp & _) & _).
  now apply Permutation_map.
Qed.

Lemma xyz_sort_total gr pts : 0 <= gr -> gr * gr * gr <= int_max -> in_range_ids gr pts ->
  exists pts' ids o, xyz_sort N gr pts = Ok (pts', ids, o).
Proof.
  intros Hg Hm Hr. unfold xyz_sort.
  rewrite chk_ok by (unfold int_min, int_max in *; nia). cbn [rbind].
  rewrite chk_ok by (unfold int_min, int_max in *; nia). cbn [rbind].
  destruct (rmap_total (cell_id N gr (grid_len N gr)) pts) as [ids0 E3].
  { intros p Hp. destruct (Hr p Hp) as (c & -> & _). eauto. }
  rewrite E3. cbn [rbind]. apply rmap_combine in E3 as [L P].
  destruct (combine_fst_snd ids0 pts L) as [F1 F2].
  destruct (radix_sort_ok (combine ids0 pts)) as (t & Et & (Pt & _)). rewrite F1, F2 in Et. rewrite Et. cbn [rbind].
  destruct (offsets_ok (gr * gr * gr) (map fst t)) as (o & -> & _).
  - nia.
  - intros i Hi. apply in_map_iff in Hi as (r & <- & Hi).
    apply (Permutation_in _ (Permutation_sym Pt)) in Hi. rewrite Forall_forall in P.
    specialize (P _ Hi). assert (Hs : In (snd r) pts).
    { rewrite <- F2. now apply in_map. }
    destruct (Hr _ Hs) as (c & Hc & Rc). rewrite Hc in P. injection P as ->. exact Rc.
  - cbn [rbind]. eauto.
Qed.

(** everything about a sort whose ids are non-negative *)
Lemma xyz_sort_spec gr pts pts' ids o : xyz_sort N gr pts = Ok (pts', ids, o) ->
  (forall i, In i ids -> 0 <= i) ->
  exists l t : list rec, map snd l = pts /\ map fst t = ids /\ map snd t = pts' /\
    stable_sort_of fst l t /\
    (forall r, In r t -> cell_id N gr (grid_len N gr) (snd r) = Ok (fst r)) /\
    (forall r, In r l -> cell_id N gr (grid_len N gr) (snd r) = Ok (fst r)) /\
    (forall i, In i ids -> 0 <= i < gr * gr * gr) /\ int_min <= gr * gr <= int_max /\
    int_min <= gr * gr * gr <= int_max /\
    (0 <= gr * gr * gr -> zlen o = gr * gr * gr + 1 /\
      forall c, 0 <= c <= gr * gr * gr -> znth o c = Some (cnt (fun i => i <? c) ids)).
Proof.
  intros H Hn. apply xyz_sort_inv in H as (l & t & El & Et & Ep & St & Hl & R3 & R2 & _ & Eo).
  exists l, t. repeat (split; [assumption|]).
  pose proof (offsets_inv _ _ _ Eo) as Hi.
  assert (Hr : forall i, In i ids -> 0 <= i < gr * gr * gr).
  { intros i K. specialize (Hi i K). specialize (Hn i K). lia. }
  assert (Hin : forall r, In r t -> In r l).
  { intros r. destruct St as (Hp & _). apply (Permutation_in _ (Permutation_sym Hp)). }
  assert (Hin' : forall r, In r l -> In r t).
  { intros r. destruct St as (Hp & _). apply (Permutation_in _ Hp). }
  split.
  { apply lowkey_stable; [|assumption]. intros r Kr.
    assert (In (fst r) ids) by (rewrite <- Et; apply in_map; auto).
    specialize (Hr _ H). unfold int_max in R3. change (2 ^ 32) with 4294967296. lia. }
  split; [intros r Kr; auto|]. split; [assumption|]. split; [assumption|]. split; [assumption|]. split; [assumption|].
  intros Hg. destruct (offsets_ok (gr * gr * gr) ids Hg Hr) as (o' & Eo' & Lo & Po).
  rewrite Eo in Eo'. injection Eo' as <-. auto.
Qed.

Lemma sorted_cnt (ids : list Z) : StronglySorted Z.le ids ->
  forall p c, 0 <= p < zlen ids ->
    (cnt (fun i => i <? c) ids <= p <-> exists v, znth ids p = Some v /\ c <= v).
Proof.
  induction 1 as [|a l Hs IH Ha]; intros p c Hp; [change (zlen (@nil Z)) with 0 in Hp; lia|].
  rewrite cnt_cons. rewrite zlen_cons in Hp. rewrite Forall_forall in Ha.
  destruct (Z.eq_dec p 0) as [->|Hp0].
  - rewrite znth_0. pose proof (cnt_nonneg (fun i => i <? c) l). split.
    + intros K. exists a. split; [reflexivity|]. destruct (a <? c) eqn:E; simpl in K; lia.
    + intros (v & Ev & Hv). injection Ev as <-. replace (a <? c) with false by lia. simpl.
      rewrite cnt_none; [lia|]. intros x Hx. specialize (Ha x Hx). lia.
  - rewrite znth_cons by lia. rewrite <- (IH (p - 1) c) by lia. destruct (a <? c) eqn:E; simpl; [lia|].
    rewrite cnt_none; [lia|]. intros x Hx. specialize (Ha x Hx). lia.
Qed.

End Sort.

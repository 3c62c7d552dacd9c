(** Final forms for C13, C14, C42. *)
From Verif Require Import Base PBase Arith Exact MUtils SpecGeom PExact.
From Coq Require Import Permutation.
From Verif Require Export SpecPoints.

Lemma perm3_inv {A} (a b c x y z : A) : Permutation [a; b; c] [x; y; z] ->
  [x; y; z] = [a; b; c] \/ [x; y; z] = [a; c; b] \/ [x; y; z] = [b; a; c] \/
  [x; y; z] = [b; c; a] \/ [x; y; z] = [c; a; b] \/ [x; y; z] = [c; b; a].
Proof.
  intros P. destruct (in_split a [x; y; z]) as (l1 & l2 & E).
  { apply (Permutation_in _ P). now left. }
  rewrite E in P. apply Permutation_cons_app_inv in P.
  destruct l1 as [|u [|v [|w l1]]]; simpl in E; injection E as -> E; simpl in P;
    try (injection E as -> E); try (injection E as -> E); subst; simpl in P.
  - apply Permutation_length_2_inv in P as [P|P]; injection P as -> ->; auto.
  - apply Permutation_length_2_inv in P as [P|P]; injection P as -> ->; auto 10.
  - apply Permutation_length_2_inv in P as [P|P]; injection P as -> ->; auto 10.
  - destruct l1; discriminate.
Qed.

Section Final.
Variable N : Arith.
Variable E : Exact N.
Notation finp := (finp N E).
Notation valp := (valp N E).
Notation finh := (finh N E).
Notation valh := (valh N E).
Notation val := (val E).

Notation side := (side N).

Lemma side_val x h : finp x -> finh h -> fin E (side x h) /\ val (side x h) = ev (valh h) (valp x).
Proof.
  intros Fx Fh. pose proof (dot_exact N E x h Fx Fh) as H. destruct x as [[a b] c]. exact H.
Qed.

Lemma bisect_sides p q x : finp p -> finp q -> finp x ->
  (flt N (fofZ N 0) (side x (bisect N q p)) = true <-> (d2 (valp x) (valp q) < d2 (valp x) (valp p))%R) /\
  (feq N (side x (bisect N q p)) (fofZ N 0) = true <-> d2 (valp x) (valp q) = d2 (valp x) (valp p)) /\
  (flt N (side x (bisect N q p)) (fofZ N 0) = true <-> (d2 (valp x) (valp p) < d2 (valp x) (valp q))%R).
Proof.
  intros Fp Fq Fx. destruct (side_val x (bisect N q p) Fx (bisect_fin N E q p Fq Fp)) as [Fs Vs].
  rewrite bisect_ev in Vs by assumption.
  rewrite !(ex_lt _ E), (ex_eq _ E) by auto with fin. rewrite !val_ofZ, Vs. repeat split; intros; lra.
Qed.

Lemma bisect_zero p q : finp p -> finp q ->
  (valh (bisect N q p) = (0, 0, 0, 0)%R <-> valp p = valp q).
Proof.
  intros Fp Fq.
  pose proof (fun x => bisect_ev N E q p x Fq Fp) as Hev.
  destruct (bisect N q p) as [[[a b] c] e] eqn:Eb.
  assert (Ha : val a = (val (fst (fst q)) - val (fst (fst p)))%R /\
               val b = (val (snd (fst q)) - val (snd (fst p)))%R /\
               val c = (val (snd q) - val (snd p))%R).
  { destruct p as [[p0 p1] p2], q as [[q0 q1] q2]. destruct Fp as (?&?&?), Fq as (?&?&?).
    unfold bisect in Eb. injection Eb as <- <- <- _. simpl. now rewrite !val_sub by assumption. }
  destruct p as [[p0 p1] p2], q as [[q0 q1] q2]. simpl in *.
  destruct Ha as (Ha & Hb & Hc). split.
  - intros H. injection H as H0 H1 H2 H3. f_equal; [f_equal|]; lra.
  - intros H. injection H as H0 H1 H2. specialize (Hev (0, 0, 0)%R). simpl in Hev.
    f_equal; [f_equal; [f_equal|]|]; try lra.
    rewrite H0, H1, H2 in Hev. lra.
Qed.

Notation ipoint := (ipoint N).
Notation iw := (iw N).

Lemma intersect_point h1 h2 h3 : finh h1 -> finh h2 -> finh h3 ->
  finp (ipoint h1 h2 h3) /\ iw h1 h2 h3 = fofZ N 1 /\
  (det3 (valh h1) (valh h2) (valh h3) <> 0%R ->
     forall x, (ev (valh h1) x = 0 /\ ev (valh h2) x = 0 /\ ev (valh h3) x = 0)%R <->
               x = valp (ipoint h1 h2 h3)) /\
  (det3 (valh h1) (valh h2) (valh h3) = 0%R -> valp (ipoint h1 h2 h3) = (0, 0, 0)%R).
Proof.
  intros F1 F2 F3. destruct (intersect_exact N E h1 h2 h3 F1 F2 F3) as (x & y & z & Ei & Fi & Hn & Hz).
  unfold ipoint, iw. rewrite Ei. repeat (split; [assumption||reflexivity|]). split; [|assumption].
  intros D u. rewrite (Hn D). split.
  - intros (H1 & H2 & H3). now apply cramer_unique.
  - intros ->. now apply cramer_on.
Qed.

Lemma scaled_ev l h h' x : scaled l h h' -> ev h' x = (l * ev h x)%R.
Proof. destruct h as [[[a b] c] d]. simpl. intros ->. destruct x as [[x y] z]. simpl. ring. Qed.

Lemma det3_perm h1 h2 h3 g1 g2 g3 : Permutation [h1; h2; h3] [g1; g2; g3] ->
  det3 h1 h2 h3 <> 0%R -> det3 g1 g2 g3 <> 0%R.
Proof.
  intros P. apply perm3_inv in P.
  destruct h1 as [[[a1 b1] c1] e1], h2 as [[[a2 b2] c2] e2], h3 as [[[a3 b3] c3] e3].
  intros H K. apply H.
  destruct P as [P|[P|[P|[P|[P|P]]]]]; injection P as -> -> ->; simpl in *; lra.
Qed.

Lemma det3_scaled l1 l2 l3 h1 h2 h3 g1 g2 g3 :
  scaled l1 h1 g1 -> scaled l2 h2 g2 -> scaled l3 h3 g3 ->
  det3 g1 g2 g3 = (l1 * l2 * l3 * det3 h1 h2 h3)%R.
Proof.
  destruct h1 as [[[a1 b1] c1] e1], h2 as [[[a2 b2] c2] e2], h3 as [[[a3 b3] c3] e3].
  simpl. intros -> -> ->. simpl. ring.
Qed.

Lemma intersect_perm h1 h2 h3 g1 g2 g3 : finh h1 -> finh h2 -> finh h3 ->
  Permutation [h1; h2; h3] [g1; g2; g3] -> det3 (valh h1) (valh h2) (valh h3) <> 0%R ->
  valp (ipoint g1 g2 g3) = valp (ipoint h1 h2 h3).
Proof.
  intros F1 F2 F3 P D.
  assert (FF : forall h, In h [g1; g2; g3] -> finh h).
  { intros h Hh. apply (Permutation_in _ (Permutation_sym P)) in Hh. simpl in Hh.
    destruct Hh as [<-|[<-|[<-|[]]]]; assumption. }
  pose proof (Permutation_map valh P) as Pv. simpl in Pv.
  pose proof (det3_perm _ _ _ _ _ _ Pv D) as D'.
  destruct (intersect_point h1 h2 h3 F1 F2 F3) as (_ & _ & HA & _).
  destruct (intersect_point g1 g2 g3) as (_ & _ & HB & _); try (apply FF; simpl; auto; fail).
  apply (HA D). specialize (HB D' (valp (ipoint g1 g2 g3))).
  destruct HB as [_ HB]. specialize (HB eq_refl).
  assert (Q : forall h, In h [h1; h2; h3] -> ev (valh h) (valp (ipoint g1 g2 g3)) = 0%R).
  { intros h Hh. apply (Permutation_in _ P) in Hh. simpl in Hh.
    destruct Hh as [<-|[<-|[<-|[]]]]; tauto. }
  repeat split; apply Q; simpl; auto.
Qed.

Lemma intersect_scaled l1 l2 l3 h1 h2 h3 g1 g2 g3 :
  finh h1 -> finh h2 -> finh h3 -> finh g1 -> finh g2 -> finh g3 ->
  l1 <> 0%R -> l2 <> 0%R -> l3 <> 0%R ->
  scaled l1 (valh h1) (valh g1) -> scaled l2 (valh h2) (valh g2) -> scaled l3 (valh h3) (valh g3) ->
  det3 (valh h1) (valh h2) (valh h3) <> 0%R ->
  valp (ipoint g1 g2 g3) = valp (ipoint h1 h2 h3).
Proof.
  intros F1 F2 F3 G1 G2 G3 L1 L2 L3 S1 S2 S3 D.
  assert (D' : det3 (valh g1) (valh g2) (valh g3) <> 0%R).
  { rewrite (det3_scaled _ _ _ _ _ _ _ _ _ S1 S2 S3).
    repeat apply Rmult_integral_contrapositive_currified; assumption. }
  destruct (intersect_point h1 h2 h3 F1 F2 F3) as (_ & _ & HA & _).
  destruct (intersect_point g1 g2 g3 G1 G2 G3) as (_ & _ & HB & _).
  symmetry. apply (HB D').
  destruct (HA D (valp (ipoint h1 h2 h3))) as [_ K]. destruct (K eq_refl) as (K1 & K2 & K3).
  rewrite (scaled_ev _ _ _ _ S1), (scaled_ev _ _ _ _ S2), (scaled_ev _ _ _ _ S3), K1, K2, K3.
  repeat split; ring.
Qed.

End Final.

Lemma ibmax_ok a b : ibmax a b = Z.max a b.
Proof. unfold ibmax, b2z. destruct (a <? b) eqn:Q; simpl; lia. Qed.
Lemma ibmin_ok a b : ibmin a b = Z.min a b.
Proof. unfold ibmin, b2z. destruct (b <? a) eqn:Q; simpl; lia. Qed.

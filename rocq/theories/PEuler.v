(** A closed connected surface of T triangles has at most T/2 + 2 labels (Euler). *)
From Verif Require Import Base PBase SpecBnd PBnd PBndLoop PGeomCone PGeomPoly PTopo.

(** ** walks *)
Fixpoint steps (w : list Z) : list (Z * Z) := match w with a :: (b :: _) as t => (a, b) :: steps t | _ => [] end.
Definition swap (e : Z * Z) : Z * Z := (snd e, fst e).
Definition round (w : list Z) : list (Z * Z) := match w with [] => [] | a :: _ => steps w ++ [(last w 0, a)] end.

Lemma steps_app a w x : steps ((a :: w) ++ [x]) = steps (a :: w) ++ [(last (a :: w) 0, x)].
Proof. revert a. induction w as [|b w IH]; intros a; [reflexivity|]. change (steps ((a :: b :: w) ++ [x])) with ((a, b) :: steps ((b :: w) ++ [x])). rewrite IH. reflexivity. Qed.
Lemma steps_in w u v : In (u, v) (steps w) -> In u w /\ In v w.
Proof.
  induction w as [|a w IH]; [intros []|]. destruct w as [|b w]; [intros []|]. change (steps (a :: b :: w)) with ((a, b) :: steps (b :: w)).
  intros [[= <- <-]|H]; [simpl; auto|]. apply IH in H as [H1 H2]. split; now right.
Qed.
Lemma steps_len a w : length (steps (a :: w)) = length w.
Proof. revert a. induction w as [|b w IH]; intros a; [reflexivity|]. change (steps (a :: b :: w)) with ((a, b) :: steps (b :: w)). cbn [length]. now rewrite IH. Qed.
Lemma last_in a w : In (last (a :: w) 0) (a :: w).
Proof. revert a. induction w as [|b w IH]; intros a; [now left|]. right. apply IH. Qed.
Lemma round_len w : length (round w) = length w.
Proof. destruct w as [|a w]; [reflexivity|]. unfold round. rewrite app_length, steps_len. simpl. lia. Qed.

(** the steps by which labels are reached for the first time *)
Lemma first_visits a w : exists V, incl V (steps (a :: w)) /\ NoDup (V ++ map swap V) /\
  (forall u v, In (u, v) V -> In u (a :: w) /\ In v (a :: w)) /\
  forall L, NoDup L -> incl L (a :: w) -> (length L <= S (length V))%nat.
Proof.
  induction w as [|x w IH] using rev_ind.
  - exists []. split; [intros e []|]. split; [constructor|]. split; [intros u v []|]. intros L ND I. simpl. apply (NoDup_incl_length ND I).
  - destruct IH as (V & I & ND & IV & C). rewrite app_comm_cons, steps_app.
    destruct (in_dec Z.eq_dec x (a :: w)) as [Hx|Hx].
    + exists V. split; [intros e He; apply in_or_app; left; auto|]. split; [assumption|].
      split; [intros u v H; destruct (IV u v H); split; apply in_or_app; auto|].
      intros L NL IL. apply C; auto. intros z Hz. specialize (IL z Hz). apply in_app_or in IL as [H|[<-|[]]]; assumption.
    + set (l := last (a :: w) 0). assert (Hl : In l (a :: w)) by apply last_in.
      assert (NI : forall u v, In (u, v) (V ++ map swap V) -> u <> x /\ v <> x).
      { intros u v H. apply in_app_or in H as [H|H].
        - destruct (IV _ _ H). split; intros ->; contradiction.
        - apply in_map_iff in H as ([u' v'] & [= <- <-] & H). destruct (IV _ _ H). split; intros ->; contradiction. }
      exists ((l, x) :: V). split; [|split; [|split]].
      * intros e [<-|He]; apply in_or_app; [right; now left|left; auto].
      * simpl. constructor.
        -- intros H. apply in_app_or in H as [H|[H|H]].
           ++ destruct (NI l x); [apply in_or_app; now left|congruence].
           ++ injection H as H1 H2. subst x. contradiction.
           ++ destruct (NI l x); [apply in_or_app; now right|congruence].
        -- apply (Permutation_NoDup (l := (x, l) :: V ++ map swap V)); [apply Permutation_middle|]. constructor; [|assumption].
           intros H. destruct (NI _ _ H). congruence.
      * intros u v [[= <- <-]|H]; [split; apply in_or_app; [now left|right; now left]|]. destruct (IV u v H). split; apply in_or_app; auto.
      * intros L NL IL. destruct (in_dec Z.eq_dec x L) as [HL|HL].
        -- apply in_split in HL as (L1 & L2 & ->). apply NoDup_remove in NL as [N1 N2].
           assert (length (L1 ++ L2) <= S (length V))%nat.
           { apply C; auto. intros z Hz. assert (Hz' : In z (L1 ++ x :: L2)) by (apply in_app_or in Hz as [H|H]; apply in_or_app; [now left|right; now right]).
             specialize (IL z Hz'). apply in_app_or in IL as [H|[<-|[]]]; [assumption|contradiction]. }
           rewrite app_length in *. simpl. lia.
        -- assert (length L <= S (length V))%nat; [|simpl; lia]. apply C; auto. intros z Hz. specialize (IL z Hz). apply in_app_or in IL as [H|[<-|[]]]; [assumption|contradiction].
Qed.

(** a closed walk that uses every step in both directions once *)
Lemma round_trip w L : (forall u v, In (u, v) (round w) -> In (v, u) (round w)) -> NoDup L -> incl L w -> (2 * length L <= length w + 2)%nat.
Proof.
  intros Rev NL IL. destruct w as [|a w]; [destruct L as [|x L]; [simpl; lia|destruct (IL x (or_introl eq_refl))]|].
  destruct (first_visits a w) as (V & I & ND & _ & C). specialize (C L NL IL).
  assert (Q : (length (V ++ map swap V) <= length (round (a :: w)))%nat).
  { apply NoDup_incl_length; [assumption|]. intros e He. apply in_app_or in He as [H|H].
    - apply in_or_app. left. auto.
    - apply in_map_iff in H as ([u v] & <- & H). apply (Rev u v). apply in_or_app. left. auto. }
  rewrite app_length, map_length, round_len in Q. lia.
Qed.

(** turning a closed walk so that a given step is the last *)
Lemma round_turn w u v : In (u, v) (round w) -> exists w', Permutation (round w) (steps (v :: w') ++ [(u, v)]) /\ last (v :: w') 0 = u /\ length w = S (length w') /\ (forall x, In x w <-> In x (v :: w')).
Proof.
  destruct w as [|a w]; [intros []|]. unfold round. intros H. apply in_app_or in H as [H|[[= <- <-]|[]]].
  2: { exists w. repeat split; auto. }
  assert (S : forall a w, In (u, v) (steps (a :: w)) -> exists w1 w2, a :: w = w1 ++ u :: v :: w2).
  { clear. intros a w. revert a. induction w as [|b w IH]; intros a; [intros []|]. change (steps (a :: b :: w)) with ((a, b) :: steps (b :: w)).
    intros [[= <- <-]|H]; [exists [], w; reflexivity|]. destruct (IH b H) as (w1 & w2 & E). exists (a :: w1), w2. simpl. now f_equal. }
  destruct (S a w H) as (w1 & w2 & E). exists (w2 ++ w1 ++ [u]).
  assert (SA : forall x y w w', steps ((x :: w) ++ y :: w') = steps (x :: w) ++ (last (x :: w) 0, y) :: steps (y :: w')).
  { clear. intros x y w w'. revert x. induction w as [|b w IH]; intros x; [reflexivity|]. change (steps ((x :: b :: w) ++ y :: w')) with ((x, b) :: steps ((b :: w) ++ y :: w')). rewrite IH. reflexivity. }
  assert (LA : forall (x : Z) l l', last (l ++ x :: l') 0 = last (x :: l') 0).
  { clear. induction l as [|b l IH]; intros l'; [reflexivity|]. rewrite <- (IH l'). simpl app. destruct (l ++ x :: l') as [|c m] eqn:Q; [destruct l; discriminate|reflexivity]. }
  split; [|split; [|split]].
  - rewrite E. destruct w1 as [|b w1].
    + simpl in E. injection E as -> ->.
      change (Permutation ((u, v) :: (steps (v :: w2) ++ [(last (v :: w2) 0, u)])) (steps ((v :: w2) ++ [u]) ++ [(u, v)])). rewrite steps_app.
      apply Permutation_cons_append.
    + simpl in E. injection E as <- ->.
      rewrite SA. change (steps (u :: v :: w2)) with ((u, v) :: steps (v :: w2)). rewrite LA. change (last (u :: v :: w2) 0) with (last (v :: w2) 0).
      replace (v :: w2 ++ (a :: w1) ++ [u]) with ((v :: w2) ++ a :: (w1 ++ [u])) by reflexivity. rewrite SA. rewrite (app_comm_cons w1 [u] a), steps_app.
      set (A := steps (a :: w1)). set (B := steps (v :: w2)). set (x := (last (a :: w1) 0, u)). set (y := (last (v :: w2) 0, a)).
      assert (P : Permutation ((A ++ [x]) ++ (u, v) :: (B ++ [y])) ((B ++ [y]) ++ (A ++ [x]) ++ [(u, v)])).
      { eapply perm_trans; [apply Permutation_sym, Permutation_middle|]. eapply perm_trans; [apply perm_skip, Permutation_app_comm|]. rewrite (app_assoc (B ++ [y]) (A ++ [x]) [(u, v)]). apply Permutation_cons_append. }
      rewrite <- !app_assoc in *. simpl in *. rewrite <- !app_assoc in *. simpl in *. exact P.
  - change (v :: w2 ++ w1 ++ [u]) with ((v :: w2) ++ w1 ++ [u]). rewrite app_assoc, LA. reflexivity.
  - apply (f_equal (@length Z)) in E. simpl in E. rewrite app_length in *. simpl in *. rewrite app_length. simpl. lia.
  - intros z. rewrite E. simpl. rewrite !in_app_iff. simpl. tauto.
Qed.

(** ** the surface cut open along a tree of edges *)
Section Surface.
Variable ts : list tri.
Hypothesis ND : NoDup (edges ts).
Hypothesis Cl : forall u v, In (u, v) (edges ts) -> In (v, u) (edges ts).
Hypothesis Con : dconn ts.

Definition opened (D : list tri) (w : list Z) : Prop := length w = S (S (length D)) /\ (forall t l, In t D -> label l t -> In l w) /\
  exists G, (forall u v, In (u, v) G -> In (v, u) G) /\ Permutation (round w ++ G) (edges D).

Lemma opened1 t : opened [t] (let '(a, b, c) := t in [a; b; c]).
Proof.
  destruct t as [[a b] c]. split; [reflexivity|]. split.
  - intros t l [<-|[]] [->|[->| ->]]; simpl; auto.
  - exists []. split; [intros u v []|]. rewrite app_nil_r. reflexivity.
Qed.

Lemma opened_add D t w : NoDup (edges (t :: D)) -> opened D w -> (exists d, In d D /\ adj d t) -> exists w', opened (t :: D) w'.
Proof.
  intros N (LW & LB & G & RG & PG) (d & Id & u & v & E1 & E2).
  assert (I1 : In (u, v) (edges D)) by (apply in_edges; eauto).
  assert (X : ~ In (v, u) (edges D)).
  { simpl in N. intros H. eapply (NoDup_app_disj (tri_edges t) (edges D)); eauto. }
  assert (I2 : In (u, v) (round w)).
  { apply Permutation_sym in PG. pose proof (Permutation_in _ PG I1) as H. apply in_app_or in H as [H|H]; [assumption|]. exfalso. apply X. apply (Permutation_in _ (Permutation_sym PG)). apply in_or_app. right. now apply RG. }
  destruct (round_turn w u v I2) as (w' & PW & LA & LL & IW).
  assert (T : exists c, Permutation (tri_edges t) [(v, u); (u, c); (c, v)] /\ forall l, label l t <-> l = u \/ l = v \/ l = c).
  { destruct t as [[x y] z]. simpl in E2. destruct E2 as [[= -> ->]|[[= -> ->]|[[= -> ->]|[]]]].
    - exists z. split; [reflexivity|]. intros l. unfold label. tauto.
    - exists x. split; [|intros l; unfold label; tauto]. simpl. apply Permutation_sym. apply (Permutation_cons_append [(v, u); (u, x)] (x, v)) || (eapply perm_trans; [|apply Permutation_sym, (Permutation_cons_append [(v, u); (u, x)] (x, v))]; reflexivity).
    - exists y. split; [|intros l; unfold label; tauto]. simpl. apply (Permutation_sym (Permutation_cons_append [(u, y); (y, v)] (v, u))). }
  destruct T as (c & PT & LT). exists ((v :: w') ++ [c]). split; [|split].
  - rewrite app_length. simpl. lia.
  - intros t' l [<-|It] Hl.
    + apply LT in Hl as [->|[->| ->]]; apply in_or_app; [left; rewrite <- LA; apply last_in|left; now left|right; now left].
    + apply in_or_app. left. apply IW. eauto.
  - exists ((u, v) :: (v, u) :: G). split.
    + intros a b [[= <- <-]|[[= <- <-]|H]]; [right; now left|now left|right; right; auto].
    + change (edges (t :: D)) with (tri_edges t ++ edges D).
      assert (ER : round ((v :: w') ++ [c]) = steps (v :: w') ++ [(u, c); (c, v)]).
      { change (round ((v :: w') ++ [c])) with (steps ((v :: w') ++ [c]) ++ [(last ((v :: w') ++ [c]) 0, v)]). rewrite steps_app, LA, last_last, <- app_assoc. reflexivity. }
      rewrite ER. apply Permutation_sym. eapply perm_trans; [apply Permutation_app; [exact PT|apply Permutation_sym; exact PG]|].
      eapply perm_trans; [apply Permutation_app_head; apply Permutation_app_tail; exact PW|].
      set (A := steps (v :: w')). rewrite <- !app_assoc. simpl.
      apply Permutation_trans with ((u, c) :: (c, v) :: (v, u) :: A ++ (u, v) :: G).
      { eapply perm_trans; [apply perm_swap|]. apply perm_skip. apply perm_swap. }
      apply Permutation_sym. eapply perm_trans; [apply Permutation_sym, Permutation_middle|]. apply perm_skip.
      eapply perm_trans; [apply Permutation_sym, Permutation_middle|]. apply perm_skip.
      change ((v, u) :: A ++ (u, v) :: G) with (((v, u) :: A) ++ (u, v) :: G).
      eapply perm_trans; [|apply Permutation_middle]. eapply perm_trans; [apply Permutation_sym, Permutation_middle|]. apply perm_skip. simpl. apply Permutation_sym, Permutation_middle.
Qed.

Lemma opened_all : forall m D E w, length E = m -> D <> [] -> Permutation ts (D ++ E) -> opened D w -> exists w', opened ts w'.
Proof.
  induction m as [|m IH]; intros D E w LE ND0 P O.
  - destruct E; [|discriminate]. rewrite app_nil_r in P. exists w. destruct O as (A & B & G & RG & PG). split; [rewrite A, (Permutation_length P); reflexivity|]. split.
    + intros t l It. apply B. eapply Permutation_in; eauto.
    + exists G. split; [assumption|]. eapply perm_trans; [exact PG|]. unfold edges. apply Permutation_flat_map. now apply Permutation_sym.
  - destruct (find_adj D E) as [(d & e & Id & Ie & A)|NA].
    + apply in_split in Ie as (E1 & E2 & ->).
      assert (P' : Permutation ts ((e :: D) ++ (E1 ++ E2))).
      { eapply perm_trans; [exact P|]. simpl. rewrite app_assoc. eapply perm_trans; [apply Permutation_sym, Permutation_middle|]. now rewrite app_assoc. }
      destruct (opened_add D e w) as (w' & O'); eauto.
      { apply (Permutation_NoDup (l' := edges ((e :: D) ++ E1 ++ E2))) in ND; [|unfold edges; now apply Permutation_flat_map]. rewrite edges_app in ND. exact (nodup_app_l _ _ ND). }
      apply (IH (e :: D) (E1 ++ E2) w'); auto; [|discriminate]. rewrite app_length in *. simpl in LE. lia.
    + exfalso. destruct (nonempty_in D ND0) as [d Id]. destruct E as [|e E]; [discriminate|].
      assert (Id' : In d ts) by (eapply Permutation_in; [apply Permutation_sym; exact P|apply in_or_app; now left]).
      assert (Ie : In e ts) by (eapply Permutation_in; [apply Permutation_sym; exact P|apply in_or_app; right; now left]).
      assert (H : In e D).
      { apply (no_cross ts D (e :: E) d e); auto. intros x Hx. eapply Permutation_in; eauto. }
      assert (In e (D ++ E)) by (apply in_or_app; now left).
      assert (NDT : NoDup (edges (e :: D ++ E))). { eapply Permutation_NoDup; [|exact ND]. unfold edges. apply Permutation_flat_map. eapply perm_trans; [exact P|]. apply Permutation_sym, Permutation_middle. }
      destruct e as [[a b] c]. simpl in NDT. inversion NDT as [|? ? NI _]; subst. apply NI. right. right. apply in_edges. exists (a, b, c). split; [assumption|now left].
Qed.

Lemma euler L : NoDup L -> (forall l, In l L -> exists t, In t ts /\ label l t) -> (2 * length L <= length ts + 4)%nat.
Proof.
  intros NL HL. destruct ts as [|t r] eqn:ET.
  { destruct L as [|x L]; [simpl; lia|]. destruct (HL x (or_introl eq_refl)) as (t & [] & _). }
  rewrite <- ET in *. destruct (opened_all (length r) [t] r (let '(a, b, c) := t in [a; b; c]) eq_refl) as (w & LW & LB & G & RG & PG); [discriminate|rewrite ET; reflexivity|apply opened1|].
  assert (NP : NoDup (round w ++ G)) by (eapply Permutation_NoDup; [apply Permutation_sym; exact PG|assumption]).
  assert (2 * length L <= length w + 2)%nat; [|lia]. apply round_trip; auto.
  - intros u v H. assert (In (v, u) (round w ++ G)).
    { eapply Permutation_in; [apply Permutation_sym; exact PG|]. apply Cl. eapply Permutation_in; [exact PG|]. apply in_or_app. now left. }
    apply in_app_or in H0 as [H0|H0]; [assumption|]. exfalso. apply RG in H0. eapply (NoDup_app_disj (round w) G); eauto.
  - intros l Hl. destruct (HL l Hl) as (t' & It & Lt). eauto.
Qed.
End Surface.

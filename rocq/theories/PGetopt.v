(** getopt_long reports the options a command line spells. *)
From Verif Require Import Base Arith MMain MGetopt SpecCli.
From Coq Require Import String Ascii.
Local Open Scope string_scope.

Definition as_shape (a : asks) : shape := match a with Alone o => Flag o | With f => Takes f end.

Lemma letter_shape c n a : In (c, n, a) accepted -> short_shape c = Some (as_shape a) /\ c <> "-"%char.
Proof.
  unfold accepted. intros H. repeat (destruct H as [H|H]; [injection H as <- <- <-; split; [reflexivity|discriminate]|]). contradiction.
Qed.

Lemma prefix_refl s : prefix s s = true.
Proof. induction s as [|c s IH]; [reflexivity|]. simpl. destruct (ascii_dec c c); [assumption|congruence]. Qed.

Lemma long_table_in c n a : In (c, n, a) accepted -> In (n, c) long_table.
Proof. unfold accepted, long_table. intros H. repeat (destruct H as [H|H]; [injection H as <- <- <-; simpl; tauto|]). contradiction. Qed.
Lemma accepted_in n c : In (n, c) long_table -> exists a, In (c, n, a) accepted.
Proof. unfold accepted, long_table. intros H. repeat (destruct H as [H|H]; [injection H as <- <-; eexists; simpl; eauto 20|]). contradiction. Qed.
Lemma names_nodup : NoDup (map fst long_table).
Proof. cbv [long_table map fst]. repeat constructor; simpl; intuition discriminate. Qed.

Lemma filter_unique {A B} (f : A -> B) (p : A -> bool) l x : NoDup (map f l) -> In x l -> p x = true ->
  (forall y, In y l -> p y = true -> f y = f x) -> filter p l = [x].
Proof.
  induction l as [|a l IH]; intros ND Hx Px U; [contradiction|]. inversion ND as [|? ? Na ND']; subst. simpl.
  destruct Hx as [->|Hx].
  - rewrite Px. f_equal. assert (E : forall y, In y l -> p y = false).
    { intros y Hy. destruct (p y) eqn:Py; [|reflexivity]. exfalso. apply Na. rewrite <- (U y); [now apply in_map|now right|assumption]. }
    clear - E. induction l as [|b l IH]; [reflexivity|]. simpl. rewrite (E b) by now left. apply IH. intros; apply E; now right.
  - destruct (p a) eqn:Pa.
    + exfalso. apply Na. rewrite (U a); [now apply in_map|now left|assumption].
    + apply IH; auto. intros; apply U; auto. now right.
Qed.

Lemma abbrev_shape c n a s : In (c, n, a) accepted -> abbreviates s n -> long_shape s = Some (as_shape a).
Proof.
  intros H [P U]. unfold long_shape. pose proof (long_table_in _ _ _ H) as HL.
  assert (UQ : forall e, In e long_table -> prefix s (fst e) = true -> e = (n, c)).
  { intros [n' c'] He Pe. destruct (accepted_in _ _ He) as [a' Ha']. pose proof (U _ _ _ Ha' Pe) as ->. simpl in *.
    revert He HL. unfold long_table. clear. intros He HL. simpl in He, HL.
    repeat (destruct He as [He|He]; [injection He as <- <-; repeat (destruct HL as [HL|HL]; [congruence|]); contradiction|]). contradiction. }
  destruct (find (fun e => String.eqb (fst e) s) long_table) as [e|] eqn:F.
  - apply find_some in F as [F1 F2]. apply String.eqb_eq in F2. rewrite (UQ e F1) by (rewrite F2; apply prefix_refl). apply (letter_shape c n a H).
  - rewrite (filter_unique fst (fun e => prefix s (fst e)) long_table (n, c)); auto using names_nodup.
    + apply (letter_shape c n a H).
    + intros y Hy Py. now rewrite (UQ y Hy Py).
Qed.

Fixpoint no_eq (s : string) : Prop := match s with EmptyString => True | String c s => c <> "="%char /\ no_eq s end.
Lemma no_eq_prefix s : forall n, prefix s n = true -> no_eq n -> no_eq s.
Proof.
  induction s as [|c s IH]; intros [|d n] P Hn; simpl in *; auto; [discriminate|].
  destruct (ascii_dec c d) as [->|]; [|discriminate]. destruct Hn. split; eauto.
Qed.
Lemma name_no_eq c n a : In (c, n, a) accepted -> no_eq n.
Proof. unfold accepted. intros H. repeat (destruct H as [H|H]; [injection H as <- <- <-; simpl; repeat split; discriminate|]). contradiction. Qed.
Lemma split_none s : no_eq s -> split_eq s = (s, None).
Proof. induction s as [|c s IH]; [reflexivity|]. intros [Hc Hs]. simpl. destruct (Ascii.eqb_spec c "="); [contradiction|]. now rewrite IH. Qed.
Lemma split_some s v : no_eq s -> split_eq (s ++ "=" ++ v) = (s, Some v).
Proof. induction s as [|c s IH]; [reflexivity|]. intros [Hc Hs]. simpl. destruct (Ascii.eqb_spec c "="); [contradiction|]. simpl in IH. now rewrite IH. Qed.
Lemma abbrev_nonempty c n a s : In (c, n, a) accepted -> abbreviates s n -> s <> "".
Proof.
  intros H [P U] ->. assert (A : "help" = n) by (apply (U "h"%char "help" (Alone OHelp)); [simpl; tauto|reflexivity]).
  assert (B : "version" = n) by (apply (U "v"%char "version" (Alone OVersion)); [simpl; tauto|reflexivity]). congruence.
Qed.
Lemma word_long s : s <> "" -> word ("--" ++ s) = long_word s.
Proof. destruct s; [congruence|reflexivity]. Qed.
Lemma word_short c s : c <> "-"%char -> word (String "-" (String c s)) = let '(l, k) := cluster (String c s) in Opts l k.
Proof. intros H. destruct c as [[] [] [] [] [] [] [] []]; try reflexivity. exfalso. now apply H. Qed.

Lemma cluster_letters os s t : letters os s -> cluster (s ++ t) = let '(l, k) := cluster t in ((os ++ l)%list, k).
Proof.
  intros L. induction L as [|c n o os s H L IH]; [simpl; now destruct (cluster t)|].
  cbn [append cluster]. rewrite (proj1 (letter_shape _ _ _ H)). cbn [as_shape]. rewrite IH. now destruct (cluster t).
Qed.
Lemma word_letters os s t : letters os s -> s <> "" \/ (exists c t', t = String c t' /\ c <> "-"%char) ->
  word (String "-" (s ++ t)) = let '(l, k) := cluster (s ++ t) in Opts l k.
Proof.
  intros L H. destruct L as [|c n o os s HC L].
  - destruct H as [H|(c & t' & -> & Hc)]; [congruence|]. now apply word_short.
  - cbn [append]. apply word_short. apply (letter_shape _ _ _ HC).
Qed.

Lemma append_nil s : s ++ "" = s.
Proof. induction s as [|c s IH]; [reflexivity|]. simpl. now rewrite IH. Qed.

Lemma spelled os ws rest : spells os ws -> getopt None (ws ++ rest) = (os ++ getopt None rest)%list.
Proof.
  intros H. destruct H as [os s L Hs|os s c n f v L H|os s c n f v L H Hv|c n o s H A|c n f s v H A|c n f s v H A|w Hw|].
  - cbn [List.app getopt append]. pose proof (word_letters os s "" L (or_introl Hs)) as W. pose proof (cluster_letters os s "" L) as C.
    rewrite append_nil in W, C. rewrite W, C. cbn [cluster]. now rewrite app_nil_r.
  - destruct (letter_shape _ _ _ H) as [E Hc]. cbn [List.app getopt append].
    rewrite (word_letters os s (String c "") L (or_intror (ex_intro _ c (ex_intro _ "" (conj eq_refl Hc))))). rewrite (cluster_letters os s _ L).
    cbn [cluster]. rewrite E. cbn [as_shape getopt]. rewrite app_nil_r, <- app_assoc. reflexivity.
  - destruct (letter_shape _ _ _ H) as [E Hc]. cbn [List.app getopt append].
    rewrite (word_letters os s (String c v) L (or_intror (ex_intro _ c (ex_intro _ v (conj eq_refl Hc))))). rewrite (cluster_letters os s _ L).
    cbn [cluster]. rewrite E. cbn [as_shape]. destruct v as [|d v]; [congruence|]. cbn [getopt]. reflexivity.
  - cbn [List.app getopt]. rewrite word_long by (eapply abbrev_nonempty; eauto). unfold long_word.
    rewrite split_none by (eapply no_eq_prefix; [apply A|eapply name_no_eq; eauto]). rewrite (abbrev_shape _ _ _ _ H A). reflexivity.
  - cbn [List.app getopt]. rewrite word_long by (eapply abbrev_nonempty; eauto). unfold long_word.
    rewrite split_none by (eapply no_eq_prefix; [apply A|eapply name_no_eq; eauto]). rewrite (abbrev_shape _ _ _ _ H A). reflexivity.
  - cbn [List.app getopt]. rewrite word_long. 2:{ pose proof (abbrev_nonempty _ _ _ _ H A). destruct s; [congruence|discriminate]. }
    unfold long_word. rewrite split_some by (eapply no_eq_prefix; [apply A|eapply name_no_eq; eauto]). rewrite (abbrev_shape _ _ _ _ H A). reflexivity.
  - cbn [List.app getopt]. assert (E : word w = Skip); [|now rewrite E].
    destruct w as [|c w]; [reflexivity|]. cbn [prefix] in Hw. destruct (ascii_dec "-" c) as [<-|n]; [destruct w; discriminate|].
    destruct c as [[] [] [] [] [] [] [] []]; try reflexivity. exfalso. now apply n.
  - reflexivity.
Qed.

Lemma reported os ws : command_line os ws -> getopt_long ws = os.
Proof. unfold getopt_long. intros H. induction H as [|ws|os ws os' ws' S H IH]; [reflexivity|reflexivity|]. rewrite (spelled _ _ _ S). now rewrite IH. Qed.

Lemma gridres_ignored v rest : prefix "-" v = false -> getopt_long ("--gridres" :: v :: rest) = OUnknown :: getopt_long rest.
Proof. intros H. unfold getopt_long. cbn [getopt]. change (word "--gridres") with (Opts [OUnknown] None). cbn [List.app]. f_equal. apply (spelled [] [v] rest). now apply sp_other. Qed.
Lemma gridres_joined v rest : getopt_long (("--gridres=" ++ v) :: rest) = OUnknown :: getopt_long rest.
Proof. unfold getopt_long. cbn [getopt]. change (word ("--gridres=" ++ v)) with (long_word ("gridres=" ++ v)). unfold long_word. change ("gridres=" ++ v) with ("gridres" ++ "=" ++ v). rewrite split_some by (simpl; repeat split; discriminate). reflexivity. Qed.

(** ** every line *)
Lemma short_none c : (forall n a, ~ In (c, n, a) accepted) -> short_shape c = None.
Proof.
  intros H. unfold short_shape. destruct (find (fun e => Ascii.eqb (fst e) c) short_table) as [[d sh]|] eqn:F; [|reflexivity]. exfalso.
  apply find_some in F as [F1 F2]. simpl in F2. apply Ascii.eqb_eq in F2. subst d. unfold short_table in F1.
  repeat (destruct F1 as [F1|F1]; [injection F1 as <- <-; eapply H; unfold accepted; simpl; eauto 20|]). contradiction.
Qed.
Lemma letter_known c : (exists n a, In (c, n, a) accepted) \/ (forall n a, ~ In (c, n, a) accepted).
Proof.
  destruct (find (fun e => Ascii.eqb (fst (fst e)) c) accepted) as [[[d n] a]|] eqn:F.
  - left. apply find_some in F as [F1 F2]. simpl in F2. apply Ascii.eqb_eq in F2. subst d. eauto.
  - right. intros n a H. pose proof (find_none _ _ F _ H) as Q. simpl in Q. rewrite Ascii.eqb_refl in Q. discriminate.
Qed.
Lemma cluster_typed os s t : typed os s -> cluster (s ++ t) = let '(l, k) := cluster t in ((os ++ l)%list, k).
Proof.
  intros L. induction L as [|c n o os s H L IH|c os s H L IH]; [simpl; now destruct (cluster t)| |]; cbn [append cluster].
  - rewrite (proj1 (letter_shape _ _ _ H)). cbn [as_shape]. rewrite IH. now destruct (cluster t).
  - rewrite (short_none c H). rewrite IH. now destruct (cluster t).
Qed.
Lemma word_undashed s : undashed s -> word ("-" ++ s) = let '(l, k) := cluster s in Opts l k.
Proof.
  intros [H1 H2]. destruct s as [|c s]; [congruence|]. apply word_short. intros ->. simpl in H2. destruct s; discriminate.
Qed.
Lemma bare_no_eq s : bare s <-> no_eq s.
Proof.
  induction s as [|c s IH]; simpl.
  - split; [auto|]. intros _ [|? ?] s2; discriminate.
  - split.
    + intros B. split; [intros ->; now apply (B "" s)|]. apply IH. intros s1 s2 ->. now apply (B (String c s1) s2).
    + intros [H1 H2] [|d s1] s2; simpl; intros [= ? ?]; [congruence|]. subst. now apply (proj2 IH H2 s1 s2).
Qed.
Lemma long_none s : (forall c n a, In (c, n, a) accepted -> ~ abbreviates s n) -> long_shape s = None.
Proof.
  intros H. unfold long_shape. destruct (find (fun e => String.eqb (fst e) s) long_table) as [[n c]|] eqn:F.
  - exfalso. apply find_some in F as [F1 F2]. simpl in F2. apply String.eqb_eq in F2. subst n. destruct (accepted_in _ _ F1) as [a Ha]. apply (H _ _ _ Ha).
    clear -Ha. split; [apply prefix_refl|]. intros c' n' a' H' P. unfold accepted in Ha, H'.
    repeat (destruct Ha as [Ha|Ha]; [injection Ha as <- <- <-; repeat (destruct H' as [H'|H']; [injection H' as <- <- <-; first [reflexivity|discriminate]|]); contradiction|]). contradiction.
  - destruct (filter (fun e => prefix s (fst e)) long_table) as [|[n c] [|? ?]] eqn:G; [reflexivity| |reflexivity]. exfalso.
    assert (Hi : In (n, c) (filter (fun e => prefix s (fst e)) long_table)) by (rewrite G; now left). apply filter_In in Hi as [Hi Pi].
    destruct (accepted_in _ _ Hi) as [a Ha]. apply (H _ _ _ Ha). split; [exact Pi|]. intros c' n' a' H' P'.
    assert (In (n', c') (filter (fun e => prefix s (fst e)) long_table)) as Q by (apply filter_In; split; [eapply long_table_in; eauto|exact P']).
    rewrite G in Q. destruct Q as [Q|[]]. congruence.
Qed.
Lemma long_known s : (exists c n a, In (c, n, a) accepted /\ abbreviates s n) \/ (forall c n a, In (c, n, a) accepted -> ~ abbreviates s n).
Proof.
  destruct (find (fun '(_, n, _) => prefix s n && forallb (fun '(_, n', _) => implb (prefix s n') (String.eqb n' n)) accepted) accepted) as [[[c n] a]|] eqn:F.
  - left. apply find_some in F as [F1 F2]. apply andb_prop in F2 as [F2 F3]. exists c, n, a. split; [assumption|]. split; [assumption|].
    intros c' n' a' Hi Hp. rewrite forallb_forall in F3. specialize (F3 _ Hi). simpl in F3. rewrite Hp in F3. now apply String.eqb_eq.
  - right. intros c n a H [P U]. pose proof (find_none _ _ F _ H) as Q. cbv beta iota in Q. rewrite P in Q. cbn [andb] in Q.
    apply Bool.not_true_iff_false in Q. apply Q. apply forallb_forall. intros [[c' n'] a'] Hi. destruct (prefix s n') eqn:Pn; [|reflexivity]. cbn [implb].
    apply String.eqb_eq. eapply U; eauto.
Qed.

Lemma misspelled os ws rest : misspells os ws -> getopt None (ws ++ rest) = (os ++ getopt None rest)%list.
Proof.
  intros H. destruct H as [os s L U|os s c n f v L H U|os s c n f v L H U Hv|s (H1 & H2 & H3)|s v H2 H3|c n o s v H A]; cbn [List.app getopt].
  - rewrite (word_undashed s U). pose proof (cluster_typed os s "" L) as C. rewrite append_nil in C. rewrite C. cbn [cluster]. now rewrite app_nil_r.
  - rewrite (word_undashed _ U), (cluster_typed os s _ L). cbn [cluster]. rewrite (proj1 (letter_shape _ _ _ H)). cbn [as_shape getopt].
    rewrite app_nil_r, <- app_assoc. reflexivity.
  - rewrite (word_undashed _ U), (cluster_typed os s _ L). cbn [cluster]. rewrite (proj1 (letter_shape _ _ _ H)). cbn [as_shape].
    destruct v as [|d v]; [congruence|]. reflexivity.
  - rewrite word_long by assumption. unfold long_word. rewrite split_none by now apply bare_no_eq. now rewrite (long_none s H3).
  - rewrite word_long by (destruct s; discriminate). unfold long_word. rewrite split_some by now apply bare_no_eq. now rewrite (long_none s H3).
  - rewrite word_long. 2:{ pose proof (abbrev_nonempty _ _ _ _ H A). destruct s; [congruence|discriminate]. }
    unfold long_word. rewrite split_some by (eapply no_eq_prefix; [apply A|eapply name_no_eq; eauto]). rewrite (abbrev_shape _ _ _ _ H A). reflexivity.
Qed.
Lemma incomplete_last os w : incomplete os w -> getopt None [w] = os.
Proof.
  intros [os' s c n f L H U|c n f s H A]; cbn [getopt].
  - rewrite (word_undashed _ U), (cluster_typed os' s _ L). cbn [cluster]. rewrite (proj1 (letter_shape _ _ _ H)). cbn [as_shape getopt]. now rewrite app_nil_r.
  - rewrite word_long by (eapply abbrev_nonempty; eauto). unfold long_word.
    rewrite split_none by (eapply no_eq_prefix; [apply A|eapply name_no_eq; eauto]). rewrite (abbrev_shape _ _ _ _ H A). reflexivity.
Qed.
Lemma any_reported os ws : any_line os ws -> getopt_long ws = os.
Proof.
  unfold getopt_long. intros H. induction H as [|ws|os w H|os ws os' ws' [S|S] H IH]; [reflexivity|reflexivity|now apply incomplete_last| |].
  - rewrite (spelled _ _ _ S). now rewrite IH.
  - rewrite (misspelled _ _ _ S). now rewrite IH.
Qed.

Lemma string_assoc s t u : (s ++ t) ++ u = s ++ t ++ u.
Proof. induction s as [|c s IH]; [reflexivity|]. simpl. now rewrite IH. Qed.
(** a cluster, up to the first letter with an argument *)
Lemma cluster_cases w : exists os s, typed os s /\ (w = s \/ exists c n f v, In (c, n, With f) accepted /\ w = s ++ String c v).
Proof.
  induction w as [|c w (os & s & T & IH)]; [exists [], ""; split; [constructor|now left]|].
  destruct (letter_known c) as [(n & a & H)|H].
  - destruct a as [o|f].
    + exists (o :: os), (String c s). split; [econstructor; eauto|]. destruct IH as [->|(c' & n' & f & v & H' & ->)]; [now left|]. right. exists c', n', f, v. split; [assumption|reflexivity].
    + exists [], "". split; [constructor|]. right. exists c, n, f, w. split; [assumption|reflexivity].
  - exists (OUnknown :: os), (String c s). split; [now constructor|]. destruct IH as [->|(c' & n' & f & v & H' & ->)]; [now left|]. right. exists c', n', f, v. split; [assumption|reflexivity].
Qed.
Lemma split_eq_cases w : bare w \/ exists s v, bare s /\ w = s ++ "=" ++ v.
Proof.
  induction w as [|c w IH]; [left; now apply bare_no_eq|]. destruct (ascii_dec c "=") as [->|Hc].
  - right. exists "", w. split; [now apply bare_no_eq|reflexivity].
  - destruct IH as [B|(s & v & B & ->)].
    + left. apply bare_no_eq. split; [assumption|now apply bare_no_eq].
    + right. exists (String c s), v. split; [apply bare_no_eq; split; [assumption|now apply bare_no_eq]|reflexivity].
Qed.
Lemma word_cases w : w = "--" \/ (exists os, spells os [w] \/ misspells os [w]) \/
  (exists os, incomplete os w /\ forall v, exists os', spells os' [w; v] \/ misspells os' [w; v]).
Proof.
  destruct w as [|c w]; [right; left; exists []; left; now apply sp_other|]. destruct (ascii_dec c "-") as [->|Hc].
  2:{ right. left. exists []. left. apply sp_other. cbn [prefix]. destruct (ascii_dec "-" c); [congruence|reflexivity]. }
  destruct w as [|c w]; [right; left; exists []; left; exact sp_dash|]. destruct (ascii_dec c "-") as [->|Hc].
  - destruct w as [|c w]; [now left|]. right. remember (String c w) as s eqn:Es. assert (Hs : s <> "") by (subst s; discriminate). clear c w Es. change (String "-" (String "-" s)) with ("--" ++ s).
    destruct (split_eq_cases s) as [B|(s' & v & B & ->)].
    + destruct (long_known s) as [(c & n & [o|f] & H & A)|H].
      * left. exists [o]. left. eapply sp_long; eauto.
      * right. exists [OUnknown]. split; [eapply ic_long; eauto|]. intros v. exists [f v]. left. eapply sp_long_separate; eauto.
      * left. exists [OUnknown]. right. apply ms_name. split; auto.
    + left. destruct (long_known s') as [(c & n & [o|f] & H & A)|H].
      * exists [OUnknown]. right. eapply ms_unexpected; eauto.
      * exists [f v]. left. eapply sp_long_joined; eauto.
      * exists [OUnknown]. right. now apply ms_name_value.
  - assert (U : undashed (String c w)). { split; [discriminate|]. cbn [prefix]. destruct (ascii_dec "-" c); [congruence|reflexivity]. }
    right. change (String "-" (String c w)) with ("-" ++ String c w). destruct (cluster_cases (String c w)) as (os & s & T & [E|(d & n & f & v & H & E)]); rewrite E in *.
    + left. exists os. right. now apply ms_letters.
    + destruct v as [|e v].
      * right. exists (os ++ [OUnknown])%list. split; [eapply ic_letter; eauto|]. intros v. exists (os ++ [f v])%list. right. eapply ms_separate; eauto.
      * left. exists (os ++ [f (String e v)])%list. right. eapply ms_joined; eauto. discriminate.
Qed.
Lemma any_total ws : exists os, any_line os ws.
Proof.
  remember (List.length ws) as n eqn:En. assert (L : (List.length ws <= n)%nat) by lia. clear En. revert ws L.
  induction n as [|n IH]; intros [|w ws] L; simpl in L; try (exists []; constructor); [lia|].
  destruct (word_cases w) as [->|[(os & H)|(os & H & H')]].
  - exists []. constructor.
  - destruct (IH ws ltac:(lia)) as (os' & H'). exists (os ++ os')%list. now apply (al_cons os [w]).
  - destruct ws as [|v ws]; [exists os; now apply al_last|]. destruct (H' v) as (os' & S). simpl in L. destruct (IH ws ltac:(lia)) as (os2 & H2). exists (os' ++ os2)%list. now apply (al_cons os' [w; v]).
Qed.
Lemma any_exact os ws : any_line os ws <-> getopt_long ws = os.
Proof. split; [apply any_reported|]. intros <-. destruct (any_total ws) as (os & H). now rewrite (any_reported _ _ H). Qed.

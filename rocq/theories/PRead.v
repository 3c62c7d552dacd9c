(** Numbers are read as the nearest float. *)
From Verif Require Import Base MArgs MXyz MMain Arith Arith32 MRead SpecRead PFloat PGetopt PConsole.
From Flocq Require Import Core IEEE754.BinarySingleNaN.
From Coq Require Import String Ascii Reals Lra Lia.
From Verif Require Export SpecText.
Local Open Scope string_scope.
Local Open Scope Z_scope.

Notation fexp32 := (SpecFloat.fexp 24%Z 128%Z).

Lemma ratio_ok (neg : bool) n d : let v := (IZR (if neg then -1 else 1) * IZR (Zpos n) / IZR (Zpos d))%R in
  if Rlt_bool (Rabs (nearest v)) (bpow radix2 128) then B2R (ratio32 neg n d) = nearest v /\ is_finite (ratio32 neg n d) = true
  else is_finite (ratio32 neg n d) = false.
Proof.
  cbv zeta. unfold ratio32.
  match goal with |- context [SF2B _ ?P] => generalize P end.
  pose proof (Bdiv_correct_aux 24 128 eq_refl eq_refl mode_NE neg n 0 false d 0) as [V H]. cbv zeta in H, V.
  replace (F2R {| Fnum := SpecFloat.cond_Zopp neg (Zpos n); Fexp := 0 |} / F2R {| Fnum := SpecFloat.cond_Zopp false (Zpos d); Fexp := 0 |})%R
    with (IZR (if neg then -1 else 1) * IZR (Zpos n) / IZR (Zpos d))%R in H.
  2:{ unfold F2R. cbn [Fnum Fexp bpow SpecFloat.cond_Zopp]. rewrite !Rmult_1_r. f_equal. destruct neg; cbn [SpecFloat.cond_Zopp]; [change (Zneg n) with (-Zpos n); rewrite opp_IZR|]; lra. }
  intros P. rewrite is_finite_SF2B, B2R_SF2B. change (round_mode mode_NE) with ZnearestE in H. unfold nearest. destruct (Rlt_bool _ _).
  - destruct H as (H1 & H2 & _). auto.
  - rewrite H. reflexivity.
Qed.

Lemma decimal_ok (neg : bool) m e : 0 <= m -> let v := (IZR (if neg then -1 else 1) * IZR m * powerRZ 10 e)%R in
  if Rlt_bool (Rabs (nearest v)) (bpow radix2 128) then B2R (decimal32 neg m e) = nearest v /\ is_finite (decimal32 neg m e) = true
  else is_finite (decimal32 neg m e) = false.
Proof.
  intros Hm. cbv zeta. destruct m as [|n|n]; [|clear Hm|lia].
  - replace (IZR (if neg then -1 else 1) * 0 * powerRZ 10 e)%R with 0%R by ring. unfold nearest. rewrite round_0 by typeclasses eauto. rewrite Rabs_R0, Rlt_bool_true by apply bpow_gt_0. split; reflexivity.
  - unfold decimal32. destruct (Z.leb_spec 0 e) as [He|He].
    + pose proof (ratio_ok neg (Z.to_pos (Zpos n * 10 ^ e)) 1) as H. cbv zeta in H. rewrite Z2Pos.id in H by (apply Z.mul_pos_pos; [lia|apply Z.pow_pos_nonneg; lia]).
      replace (IZR (if neg then -1 else 1) * IZR (Zpos n) * powerRZ 10 e)%R with (IZR (if neg then -1 else 1) * IZR (Zpos n * 10 ^ e) / 1)%R; [exact H|].
      rewrite mult_IZR. unfold Rdiv. rewrite Rinv_1. rewrite <- (Z2Nat.id e He) at 1 2. rewrite <- pow_powerRZ, <- pow_IZR. rewrite !Rmult_1_r, Rmult_assoc. reflexivity.
    + pose proof (ratio_ok neg n (Z.to_pos (10 ^ - e))) as H. cbv zeta in H. rewrite Z2Pos.id in H by (apply Z.pow_pos_nonneg; lia).
      replace (IZR (if neg then -1 else 1) * IZR (Zpos n) * powerRZ 10 e)%R with (IZR (if neg then -1 else 1) * IZR (Zpos n) / IZR (10 ^ - e))%R; [exact H|].
      unfold Rdiv. f_equal. replace (powerRZ 10 e) with (powerRZ 10 (- - e)) by (f_equal; lia). rewrite powerRZ_neg' by lra. f_equal. rewrite <- (Z2Nat.id (- e)) by lia. rewrite <- pow_powerRZ, <- pow_IZR. reflexivity.
Qed.

(** ** the characters *)
Lemma digit_dec d : is_digit d -> digit_val (digit d) = Some d.
Proof. unfold is_digit. intros H. assert (C : d = 0 \/ d = 1 \/ d = 2 \/ d = 3 \/ d = 4 \/ d = 5 \/ d = 6 \/ d = 7 \/ d = 8 \/ d = 9) by lia.
  repeat (destruct C as [->|C]; [reflexivity|]). subst. reflexivity. Qed.
Definition no_digit (s : string) : Prop := match s with String c _ => digit_val c = None | EmptyString => True end.
Lemma scan_stop s acc : no_digit s -> scan s acc = (acc, 0, s).
Proof. destruct s as [|c s]; [reflexivity|]. simpl. now intros ->. Qed.
Lemma scan_digits l : forall acc rest, Forall is_digit l -> no_digit rest ->
  scan (digits l ++ rest) acc = (fold_left (fun a d => 10 * a + d) l acc, Z.of_nat (List.length l), rest).
Proof.
  induction l as [|d l IH]; intros acc rest H Hr; [now apply scan_stop|]. inversion H; subst. cbn [digits append scan fold_left List.length].
  rewrite digit_dec by assumption. rewrite IH by assumption. now rewrite Nat2Z.inj_succ.
Qed.
Lemma blank_space c : blank c -> is_space c = true.
Proof. intros [->|[->| ->]]; reflexivity. Qed.
Lemma blank_cases c (P : ascii -> Prop) : P " "%char -> P (ascii_of_nat 9) -> P (ascii_of_nat 13) -> blank c -> P c.
Proof. intros A B C [->|[->| ->]]; assumption. Qed.
Lemma stops_no_digit s : stops s -> no_digit s.
Proof. destruct s as [|c s]; [trivial|]. simpl. intros [->|[->| ->]]; reflexivity. Qed.
Lemma skip_blanks w s : blanks w -> skip_ws (w ++ s) = skip_ws s.
Proof. induction w as [|c w IH]; [reflexivity|]. intros [Hc Hw]. cbn [append skip_ws]. rewrite (blank_space c Hc). auto. Qed.

Lemma digit_char_facts d : is_digit d -> is_space (digit d) = false /\ digit d <> "-"%char /\ digit d <> "+"%char /\ digit d <> "."%char.
Proof. unfold is_digit. intros H. assert (C : d = 0 \/ d = 1 \/ d = 2 \/ d = 3 \/ d = 4 \/ d = 5 \/ d = 6 \/ d = 7 \/ d = 8 \/ d = 9) by lia.
  repeat (destruct C as [->|C]; [repeat split; discriminate || reflexivity|]). subst. repeat split; discriminate || reflexivity. Qed.
Lemma sign_other c s : c <> "-"%char -> c <> "+"%char -> sign_of (String c s) = (false, String c s).
Proof. intros A B. destruct c as [[] [] [] [] [] [] [] []]; try reflexivity; exfalso; [now apply B|now apply A]. Qed.
(** a sign in front of something that does not start with one *)
Definition plain (s : string) : Prop := exists c t, s = String c t /\ is_space c = false /\ c <> "-"%char /\ c <> "+"%char.
Lemma sign_written sg s : plain s -> sign_of (write_sign sg ++ s) = (match sg with Minus => true | _ => false end, s).
Proof. intros (c & t & -> & _ & A & B). destruct sg; cbn [write_sign append]; [now apply sign_other|reflexivity|reflexivity]. Qed.
Lemma plain_digits l s : Forall is_digit l -> l <> [] -> plain (digits l ++ s).
Proof. destruct l as [|d l]; [congruence|]. intros H _. inversion H; subst. destruct (digit_char_facts d) as (A & B & C & _); [assumption|]. exists (digit d), (digits l ++ s). auto. Qed.

Definition write_exp (e : option (bool * sign * list Z)) : string :=
  match e with None => "" | Some (up, s, e) => (if up : bool then "E" else "e") ++ write_sign s ++ digits e end.
Lemma expo_written e rest : match e with None => True | Some (_, _, e) => Forall is_digit e /\ e <> [] end -> stops rest ->
  expo (write_exp e ++ rest) = Some (match e with None => 0 | Some (_, s, e) => sgn s * number e end, rest).
Proof.
  intros H Hr. destruct e as [[[up s] e]|].
  - destruct H as [H1 H2]. assert (G : forall t, expo ((if up then "E" else "e") ++ t) = let '(neg, t) := sign_of t in
      let '(v, n, r) := scan t 0 in if n =? 0 then None else Some (if neg : bool then - v else v, r)) by (intros t; destruct up; reflexivity).
    cbn [write_exp]. rewrite append_assoc, G, append_assoc, sign_written by now apply plain_digits.
    rewrite scan_digits by (auto using stops_no_digit). destruct (Z.eqb_spec (Z.of_nat (List.length e)) 0) as [E|E]; [destruct e; [congruence|discriminate]|].
    do 2 f_equal. unfold number. destruct s; cbn [sgn]; lia.
  - cbn [write_exp append]. destruct rest as [|c rest]; [reflexivity|]. simpl in Hr. destruct Hr as [->|[->| ->]]; reflexivity.
Qed.
Lemma exp_no_digit e rest : stops rest -> no_digit (write_exp e ++ rest) /\ (forall t, write_exp e ++ rest <> String "."%char t).
Proof.
  intros Hr. destruct e as [[[up s] e]|]; [destruct up; split; [reflexivity|discriminate|reflexivity|discriminate]|]. cbn [write_exp append].
  split; [now apply stops_no_digit|]. destruct rest as [|c rest]; [discriminate|]. simpl in Hr. destruct Hr as [->|[->| ->]]; discriminate.
Qed.

Lemma read_written w n rest : blanks w -> well_written n -> stops rest ->
  read_float (w ++ write n ++ rest) =
    let x := decimal32 (match n_sign n with Minus => true | _ => false end) (number (n_int n ++ frac n)) (exponent n - Z.of_nat (List.length (frac n))) in
    if is_finite x then Some (x, rest) else None.
Proof.
  intros Hw (H1 & H2 & H3 & H4) Hr. destruct n as [sg ip fp ex]. unfold frac in *. cbn [n_sign n_int n_frac n_exp] in *. unfold read_float. rewrite (skip_blanks w _ Hw).
  set (f := match fp with Some f => f | None => [] end) in *.
  set (body := digits ip ++ (match fp with None => "" | Some f => "." ++ digits f end) ++ write_exp ex ++ rest).
  assert (EB : write (mkNum sg ip fp ex) ++ rest = write_sign sg ++ body).
  { unfold write, body. cbn [n_sign n_int n_frac n_exp]. fold (write_exp ex). now rewrite !append_assoc. }
  rewrite EB.
  assert (PB : plain body).
  { unfold body. destruct ip as [|d ip]; [|now apply plain_digits]. cbn [digits append]. destruct H3 as [H3|H3]; [congruence|]. subst f. destruct fp as [l|]; [|congruence].
    cbn [append]. do 2 eexists. repeat split; discriminate. }
  assert (SK : skip_ws (write_sign sg ++ body) = write_sign sg ++ body).
  { destruct PB as (c & t & EQ & A & _). rewrite EQ. destruct sg; cbn [write_sign append skip_ws]; [now rewrite A|reflexivity|reflexivity]. }
  rewrite SK, (sign_written sg body PB). unfold body.
  destruct (exp_no_digit ex rest Hr) as [ND NP].
  assert (L : Z.of_nat (List.length ip) + Z.of_nat (List.length f) <> 0) by (destruct H3 as [H3|H3]; [destruct ip|destruct f]; simpl in *; [congruence|lia|congruence|lia]).
  rewrite scan_digits; [|assumption|].
  2:{ destruct fp; [reflexivity|]. exact ND. }
  assert (E2 : (match (match fp with Some f0 => "." ++ digits f0 | None => "" end) ++ write_exp ex ++ rest with
      | String "."%char t => scan t (number ip) | _ => (number ip, 0, (match fp with Some f0 => "." ++ digits f0 | None => "" end) ++ write_exp ex ++ rest) end)
      = (number (ip ++ f), Z.of_nat (List.length f), write_exp ex ++ rest)).
  { subst f. destruct fp as [l|].
    - cbn [append]. rewrite scan_digits by assumption. unfold number. now rewrite fold_left_app.
    - cbn [append]. rewrite app_nil_r. cbn [List.length]. destruct (write_exp ex ++ rest) as [|c t]; [reflexivity|]. specialize (NP t).
      destruct c as [[] [] [] [] [] [] [] []]; try reflexivity. exfalso. now apply NP. }
  fold (number ip). rewrite E2. destruct (Z.eqb_spec (Z.of_nat (List.length ip) + Z.of_nat (List.length f)) 0) as [E0|_]; [contradiction|].
  rewrite expo_written by assumption. reflexivity.
Qed.

Lemma number_nonneg l : Forall is_digit l -> 0 <= number l.
Proof.
  unfold number. assert (G : forall a, 0 <= a -> Forall is_digit l -> 0 <= fold_left (fun a d => 10 * a + d) l a); [|intros; now apply G].
  induction l as [|d l IH]; intros a Ha H; [assumption|]. inversion H as [|? ? D ?]; subst. simpl. apply IH; [unfold is_digit in D; lia|assumption].
Qed.
Lemma value_decimal n : value n = (IZR (if (match n_sign n with Minus => true | _ => false end) then -1 else 1) * IZR (number (n_int n ++ frac n)) * powerRZ 10 (exponent n - Z.of_nat (List.length (frac n))))%R.
Proof. unfold value. destruct (n_sign n); reflexivity. Qed.

Lemma read_nearest w n rest : blanks w -> well_written n -> stops rest ->
  ((Rabs (nearest (value n)) < bpow radix2 128)%R -> exists x, read_float (w ++ write n ++ rest) = Some (x, rest) /\ is_finite x = true /\ B2R x = nearest (value n)) /\
  ((bpow radix2 128 <= Rabs (nearest (value n)))%R -> read_float (w ++ write n ++ rest) = None).
Proof.
  intros Hw Hn Hr. rewrite (read_written w n rest Hw Hn Hr). cbv zeta.
  pose proof (decimal_ok (match n_sign n with Minus => true | _ => false end) (number (n_int n ++ frac n)) (exponent n - Z.of_nat (List.length (frac n)))) as D. cbv zeta in D.
  rewrite <- value_decimal in D. specialize (D ltac:(apply number_nonneg, Forall_app; split; apply Hn)).
  destruct (Rlt_bool_spec (Rabs (nearest (value n))) (bpow radix2 128)) as [L|L].
  - destruct D as [D1 D2]. split; [|intros; lra]. intros _. rewrite D2. eauto.
  - split; [intros; lra|]. intros _. now rewrite D.
Qed.

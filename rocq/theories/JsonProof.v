(** Scanner lemmas and the shape of the grammar. *)
From Verif Require Import Base JsonSpec JsonFaultSpec JsonModel.
From Coq Require Import List NArith ZArith Bool Lia.
From Coq.Init Require Import Byte.
From Coq.Strings Require Import Byte.
Import ListNotations.

Ltac splits := repeat apply conj.

(** ------------------------------------------------------------------ bytes *)

Lemma beqb_neq a b : a <> b -> beqb a b = false.
Proof. destruct (beqb_spec a b); congruence. Qed.

Lemma is_digit_ok c : is_digit c = true <-> digit c.
Proof. unfold is_digit, digit. destruct c; vm_compute; split; intros H; try discriminate; try (split; discriminate); try reflexivity; destruct H; congruence. Qed.

Lemma is_pos_digit_ok c : is_pos_digit c = true <-> digit c /\ c <> x30.
Proof.
  unfold is_pos_digit, digit. destruct c; vm_compute; split; intros H; try discriminate; try reflexivity;
    try (split; [split|]; discriminate); destruct H as [[? ?] ?]; congruence.
Qed.

Lemma is_hex_ok c : (is_hex c = true /\ hex_value c = Some (hex_digit_value c)) \/ (is_hex c = false /\ hex_value c = None).
Proof. destruct c; vm_compute; auto. Qed.

(** ------------------------------------------------------------------ white space *)

Definition wsb (c : byte) : bool := beqb c x20 || beqb c x09 || beqb c x0a || beqb c x0d.

Lemma wsb_ok c : wsb c = true <-> white_char c.
Proof.
  unfold wsb, white_char. cbn [In].
  destruct (beqb_spec c x20), (beqb_spec c x09), (beqb_spec c x0a), (beqb_spec c x0d); cbn; subst; split; intros;
    try discriminate; auto 6; intuition congruence.
Qed.

Fixpoint drop_ws (s : bytes) : bytes :=
  match s with
  | c :: s' => if wsb c then drop_ws s' else s
  | [] => []
  end.

Lemma drop_ws_split s : exists w, white w /\ s = w ++ drop_ws s.
Proof.
  induction s as [|c s (w & Hw & Hs)]; cbn.
  - exists []. split; auto. constructor.
  - destruct (wsb c) eqn:E.
    + exists (c :: w). split; [constructor; auto; now apply wsb_ok|]. cbn. now rewrite <- Hs.
    + exists []. split; auto. constructor.
Qed.

Lemma drop_ws_white w s : white w -> drop_ws (w ++ s) = drop_ws s.
Proof. induction 1 as [|c w Hc Hw IH]; cbn; auto. apply wsb_ok in Hc. now rewrite Hc. Qed.

Lemma drop_ws_cons c s : wsb c = false -> drop_ws (c :: s) = c :: s.
Proof. cbn. now intros ->. Qed.

Lemma drop_ws_idem s : drop_ws (drop_ws s) = drop_ws s.
Proof. induction s as [|c s IH]; cbn; auto. destruct (wsb c) eqn:E; auto. cbn. now rewrite E. Qed.

Lemma drop_ws_length s : length (drop_ws s) <= length s.
Proof. induction s as [|c s IH]; cbn; auto. destruct (wsb c); cbn; lia. Qed.

(** ------------------------------------------------------------------ scanner steps *)

Lemma have_eq c s : c <> NUL ->
  have c s = match s with
             | h :: s' => if beqb h c then Ret (true, s') else Ret (false, s)
             | [] => Ret (false, s)
             end.
Proof.
  intros Hc. unfold have, read, advance. destruct s as [|h s]; cbn [nth_error length Nat.eqb bind Nat.leb skipn].
  - now rewrite beqb_neq by auto.
  - destruct (beqb h c); reflexivity.
Qed.

Lemma have_if_eq p s buf : p NUL = false ->
  have_if p s buf = match s with
                    | h :: s' => if p h then Ret (true, s', buf ++ [h]) else Ret (false, s, buf)
                    | [] => Ret (false, s, buf)
                    end.
Proof.
  intros Hc. unfold have_if, read, advance. destruct s as [|h s]; cbn [nth_error length Nat.eqb bind Nat.leb skipn].
  - now rewrite Hc.
  - destruct (p h); reflexivity.
Qed.

Lemma expect_eq c msg s : c <> NUL ->
  expect c msg s = match s with
               | h :: s' => if beqb h c then Ret s' else Throw (ParserError msg)
               | [] => Throw (ParserError msg)
               end.
Proof. intros Hc. unfold expect. rewrite have_eq by auto. destruct s as [|h s]; cbn; auto. destruct (beqb h c); auto. Qed.

Lemma skip_ws_loop_eq s : forall f, length s < f -> skip_ws_loop f s = Ret (drop_ws s).
Proof.
  induction s as [|c s IH]; intros f Hf; destruct f as [|f]; cbn [length] in Hf; try lia; cbn [skip_ws_loop].
  - reflexivity.
  - rewrite have_eq by discriminate. cbn [bind drop_ws]. unfold wsb.
    destruct (beqb c x20) eqn:E1; cbn [bind orb]; [apply IH; lia|].
    rewrite have_eq by discriminate. cbn [bind].
    destruct (beqb c x09) eqn:E2; cbn [bind orb]; [apply IH; lia|].
    rewrite have_eq by discriminate. cbn [bind].
    destruct (beqb c x0a) eqn:E3; cbn [bind orb]; [apply IH; lia|].
    rewrite have_eq by discriminate. cbn [bind].
    destruct (beqb c x0d) eqn:E4; cbn [bind orb]; [apply IH; lia|]. reflexivity.
Qed.

Lemma skip_ws_eq s : skip_ws s = Ret (drop_ws s).
Proof. unfold skip_ws. apply skip_ws_loop_eq. lia. Qed.

(** ------------------------------------------------------------------ numbers *)

Fixpoint span_digits (s : bytes) : bytes * bytes :=
  match s with
  | c :: s' => if is_digit c then let '(d, r) := span_digits s' in (c :: d, r) else ([], s)
  | [] => ([], [])
  end.

Lemma span_digits_ok s : let '(d, r) := span_digits s in s = d ++ r /\ Forall digit d /\ ~ starts_with_digit r.
Proof.
  induction s as [|c s IH]; cbn.
  - splits; auto. intros (c & s' & H & _). discriminate.
  - destruct (is_digit c) eqn:E.
    + destruct (span_digits s) as [d r]. destruct IH as (-> & H2 & H3). splits; auto. constructor; auto. now apply is_digit_ok.
    + splits; auto. intros (c' & s' & H & Hd). injection H as <- <-. apply is_digit_ok in Hd. congruence.
Qed.

Lemma span_digits_uniq d r : Forall digit d -> ~ starts_with_digit r -> span_digits (d ++ r) = (d, r).
Proof.
  induction 1 as [|c d Hc Hd IH]; cbn; intros Hr.
  - destruct r as [|c r]; auto. cbn. destruct (is_digit c) eqn:E; auto. exfalso. apply Hr. exists c, r. split; auto. now apply is_digit_ok.
  - apply is_digit_ok in Hc. rewrite Hc. now rewrite IH.
Qed.

Lemma digits_loop_eq s : forall f buf, length s < f ->
  digits_loop f s buf = Ret (snd (span_digits s), buf ++ fst (span_digits s)).
Proof.
  induction s as [|c s IH]; intros f buf Hf; destruct f as [|f]; cbn [length] in Hf; try lia; cbn [digits_loop];
    rewrite have_if_eq by reflexivity; cbn [bind span_digits].
  - cbn. now rewrite app_nil_r.
  - destruct (is_digit c); cbn [bind].
    + rewrite IH by lia. destruct (span_digits s) as [d r]. cbn. now rewrite <- app_assoc.
    + cbn. now rewrite app_nil_r.
Qed.

(** the literal text consumed by a number *)
Inductive nat_text : bytes -> bytes -> bytes -> Prop :=
| NT_zero r : nat_text (x30 :: r) [x30] r
| NT_pos d ds r : digit d -> d <> x30 -> Forall digit ds -> ~ starts_with_digit r -> nat_text (d :: ds ++ r) (d :: ds) r.

Lemma nat_text_gnat s t r : nat_text s t r -> gnat s (decimal t) r.
Proof. destruct 1; [apply (GN_zero r)|now constructor]. Qed.

Lemma gnat_nat_text s n r : gnat s n r -> exists t, nat_text s t r /\ n = decimal t.
Proof. destruct 1; eexists; (split; [constructor|]; auto). Qed.

Lemma nat_text_det s t r t' r' : nat_text s t r -> nat_text s t' r' -> t = t' /\ r = r'.
Proof.
  intros H1 H2. inversion H1 as [q|d ds q Hd Hz Hds Hq]; subst; inversion H2 as [q|d' ds' q' Hd' Hz' Hds' Hq']; subst; try congruence; auto.
  pose proof (span_digits_uniq ds r Hds Hq) as A. pose proof (span_digits_uniq ds' r' Hds' Hq') as B.
  match goal with E : _ ++ _ = _ ++ _ |- _ => rewrite E in B end. rewrite A in B. injection B as -> ->. auto.
Qed.

Lemma gnat_det s n r n' r' : gnat s n r -> gnat s n' r' -> n = n' /\ r = r'.
Proof.
  intros H1 H2. apply gnat_nat_text in H1 as (t & H1 & ->). apply gnat_nat_text in H2 as (t' & H2 & ->).
  destruct (nat_text_det _ _ _ _ _ H1 H2) as [-> ->]. auto.
Qed.

Lemma gnat_head s n r : gnat s n r -> exists c s', s = c :: s' /\ digit c.
Proof. destruct 1; eexists _, _; (split; [reflexivity|]); auto. split; discriminate. Qed.

Lemma gnat_len s n r : gnat s n r -> length r < length s.
Proof. destruct 1; cbn; auto. rewrite app_length. lia. Qed.

(** scanning an unsigned literal: parse_number's [have('0') || parse_int_part] *)
Definition scan_nat (s buf : bytes) : outcome (bool * bytes * bytes) :=
  '(zero, s, str) <- have_if (fun h => beqb h x30) s buf ;;
  (if zero then Ret (true, s, str) else parse_int_part s str).

Lemma scan_nat_ok s buf :
  (exists t r, nat_text s t r /\ scan_nat s buf = Ret (true, r, buf ++ t)) \/
  ((forall n r, ~ gnat s n r) /\ scan_nat s buf = Ret (false, s, buf)).
Proof.
  unfold scan_nat. rewrite have_if_eq by reflexivity.
  assert (Hz : forall s', ~ (exists c s'', s' = c :: s'' /\ digit c) -> forall n r, ~ gnat s' n r).
  { intros s' Hn n r H. apply Hn. eapply gnat_head; eauto. }
  destruct s as [|c s]; cbn [bind].
  - right. split; [apply Hz; intros (? & ? & H & _); discriminate|]. reflexivity.
  - destruct (beqb_spec c x30) as [->|Hc]; cbn [bind].
    + left. exists [x30], s. split; auto. constructor.
    + unfold parse_int_part. rewrite have_if_eq by reflexivity.
      destruct (is_pos_digit c) eqn:E; cbn [bind].
      * apply is_pos_digit_ok in E as [Hd _]. rewrite digits_loop_eq by lia.
        pose proof (span_digits_ok s) as HS. destruct (span_digits s) as [d r]. destruct HS as (-> & H2 & H3).
        cbn [fst snd bind]. left. exists (c :: d), r. split; [now constructor|]. now rewrite <- app_assoc.
      * right. split; auto. apply Hz. intros (c' & s'' & H & Hd). injection H as <- <-.
        assert (is_pos_digit c = true) by (apply is_pos_digit_ok; auto). congruence.
Qed.

(** boost's digit by digit construction is the decimal value modulo 2^256 *)
Lemma s256_digits_ok ds : s256_digits ds = (decimal ds mod 2^256)%N.
Proof.
  unfold s256_digits, decimal.
  assert (H : forall ds a, (a < 2^256)%N -> forall b, (a = b mod 2^256)%N ->
    (fold_left (fun n d => mag256 (mag256 (n * 10) + (bval d - 48))) ds a =
     fold_left (fun n d => 10 * n + digit_value d) ds b mod 2^256)%N).
  { clear ds. induction ds as [|d ds IH]; intros a Ha b Hb; cbn [fold_left]; auto.
    apply IH; unfold mag256, digit_value.
    - apply N.mod_lt. discriminate.
    - subst a. rewrite N.add_mod_idemp_l by discriminate.
      rewrite <- (N.add_mod_idemp_l (b mod 2^256 * 10)) by discriminate.
      rewrite N.mul_mod_idemp_l by discriminate. rewrite N.add_mod_idemp_l by discriminate.
      now rewrite (N.mul_comm b). }
  apply H; reflexivity.
Qed.

Lemma reduce256_of_N n : reduce256 (Z.of_N n) = Z.of_N (n mod 2^256).
Proof.
  unfold reduce256. rewrite N2Z.inj_mod. rewrite Z.abs_eq by lia.
  change (Z.of_N (2^256)) with (2^256)%Z.
  destruct n; cbn [Z.of_N Z.sgn]; [reflexivity|]. lia.
Qed.

Lemma reduce256_opp z : reduce256 (- z) = (- reduce256 z)%Z.
Proof. unfold reduce256. rewrite Z.sgn_opp, Z.abs_opp. lia. Qed.

Lemma nat_text_head s t r : nat_text s t r -> exists d ds, t = d :: ds /\ d <> x2d.
Proof.
  destruct 1; eexists _, _; (split; [reflexivity|]); [discriminate|]. intros ->. destruct H; vm_compute in *; congruence.
Qed.

Lemma s256_pos s t r : nat_text s t r -> s256_of_string t = reduce256 (Z.of_N (decimal t)).
Proof.
  intros H. destruct (nat_text_head _ _ _ H) as (d & ds & -> & Hd). unfold s256_of_string.
  rewrite beqb_neq by auto. now rewrite s256_digits_ok, reduce256_of_N.
Qed.

Lemma s256_neg t : s256_of_string (x2d :: t) = reduce256 (- Z.of_N (decimal t)).
Proof. unfold s256_of_string. rewrite beqb_refl. now rewrite s256_digits_ok, reduce256_opp, reduce256_of_N. Qed.

(** ------------------------------------------------------------------ strings *)

Lemma gchars_len s cs r : gchars s cs r -> length r < length s.
Proof. induction 1; cbn [length] in *; lia. Qed.

Lemma gchars_cslen s cs r : gchars s cs r -> length cs + length r < length s.
Proof. induction 1; cbn [length] in *; lia. Qed.

Lemma short_escapes_fun e c c' : In (e, c) short_escapes -> In (e, c') short_escapes -> c = c'.
Proof.
  unfold short_escapes. cbn [In]. intros H H'.
  repeat (destruct H as [H|H]; [injection H as <- <-; repeat (destruct H' as [H'|H']; [injection H' as ?; congruence|]); destruct H'|]).
  destruct H.
Qed.

Lemma short_escapes_u c : ~ In (x75, c) short_escapes.
Proof. unfold short_escapes. cbn [In]. intros H. repeat (destruct H as [H|H]; [injection H; discriminate|]). destruct H. Qed.

Lemma gchars_det s cs r : gchars s cs r -> forall cs' r', gchars s cs' r' -> cs = cs' /\ r = r'.
Proof.
  induction 1 as [r|e c s cs r He H IH|h1 h2 h3 h4 n1 n2 n3 n4 s cs r E1 E2 E3 E4 H IH|c s cs r Hc1 Hc2 H IH];
    intros cs' r' H'; inversion H' as [r2|e2 c2 s2 cs2 r2 He2 H2|g1 g2 g3 g4 m1 m2 m3 m4 s2 cs2 r2 F1 F2 F3 F4 H2|c2 s2 cs2 r2 Hc3 Hc4 H2];
    subst; try congruence; auto.
  - destruct (IH _ _ H2) as [-> ->]. rewrite (short_escapes_fun _ _ _ He He2). auto.
  - now apply short_escapes_u in He.
  - now apply short_escapes_u in He2.
  - destruct (IH _ _ H2) as [-> ->]. split; auto. congruence.
  - destruct (IH _ _ H2) as [-> ->]. auto.
Qed.

Definition esc_ok (s : bytes) (c : byte) (s' : bytes) : Prop :=
  (exists e, s = e :: s' /\ In (e, c) short_escapes) \/
  (exists h1 h2 h3 h4 n1 n2 n3 n4, s = x75 :: h1 :: h2 :: h3 :: h4 :: s' /\
    hex_value h1 = Some n1 /\ hex_value h2 = Some n2 /\ hex_value h3 = Some n3 /\ hex_value h4 = Some n4 /\
    c = byte_of_N (((n1 * 16 + n2) * 16 + n3) * 16 + n4)).

Lemma read_eq s i : read s i = match nth_error s i with Some c => Ret c | None => if Nat.eqb i (length s) then Ret NUL else UB OutOfBounds end.
Proof. reflexivity. Qed.

Lemma parse_codepoint_ok s :
  (exists c s', esc_ok (x75 :: s) c s' /\ parse_codepoint s = Ret (c, s')) \/
  ((forall c s', ~ esc_ok (x75 :: s) c s') /\ parse_codepoint s = Throw (ParserError bad_code)).
Proof.
  assert (Hno : (forall h1 h2 h3 h4 s' n1 n2 n3 n4, s = h1 :: h2 :: h3 :: h4 :: s' -> hex_value h1 = Some n1 ->
      hex_value h2 = Some n2 -> hex_value h3 = Some n3 -> hex_value h4 = Some n4 -> False) ->
      forall c s', ~ esc_ok (x75 :: s) c s').
  { intros H c s' [(e & He & Hin)|(h1 & h2 & h3 & h4 & n1 & n2 & n3 & n4 & Hs & E1 & E2 & E3 & E4 & _)].
    - injection He as <- ->. now apply short_escapes_u in Hin.
    - injection Hs as Hs. eauto. }
  unfold parse_codepoint. cbn [valid_code_loop].
  destruct s as [|h1 s1].
  { right. split; [|reflexivity]. apply Hno. discriminate. }
  change (read (h1 :: s1) 0) with (@Ret byte h1). cbn [bind].
  destruct (is_hex_ok h1) as [[-> V1]|[-> V1]].
  2:{ right. split; [|reflexivity]. apply Hno. intros. congruence. }
  destruct s1 as [|h2 s2].
  { right. split; [|reflexivity]. apply Hno. discriminate. }
  change (read (h1 :: h2 :: s2) 1) with (@Ret byte h2). cbn [bind].
  destruct (is_hex_ok h2) as [[-> V2]|[-> V2]].
  2:{ right. split; [|reflexivity]. apply Hno. intros. congruence. }
  destruct s2 as [|h3 s3].
  { right. split; [|reflexivity]. apply Hno. discriminate. }
  change (read (h1 :: h2 :: h3 :: s3) 2) with (@Ret byte h3). cbn [bind].
  destruct (is_hex_ok h3) as [[-> V3]|[-> V3]].
  2:{ right. split; [|reflexivity]. apply Hno. intros. congruence. }
  destruct s3 as [|h4 s4].
  { right. split; [|reflexivity]. apply Hno. discriminate. }
  change (read (h1 :: h2 :: h3 :: h4 :: s4) 3) with (@Ret byte h4). cbn [bind].
  destruct (is_hex_ok h4) as [[-> V4]|[-> V4]].
  2:{ right. split; [|reflexivity]. apply Hno. intros. congruence. }
  left. eexists _, s4. split; [|reflexivity].
  right. exists h1, h2, h3, h4. do 4 eexists. splits; eauto.
Qed.

Lemma four_hex_esc s : four_hex s -> exists c s', esc_ok (x75 :: s) c s'.
Proof.
  intros (h1 & h2 & h3 & h4 & r & -> & H). inversion H as [|? ? H1 Ha]; subst. inversion Ha as [|? ? H2 Hb]; subst. inversion Hb as [|? ? H3 Hc]; subst.
  inversion Hc as [|? ? H4 Hd]; subst. destruct (hex_value h1) as [n1|] eqn:E1; [|congruence]. destruct (hex_value h2) as [n2|] eqn:E2; [|congruence].
  destruct (hex_value h3) as [n3|] eqn:E3; [|congruence]. destruct (hex_value h4) as [n4|] eqn:E4; [|congruence].
  eexists _, r. right. exists h1, h2, h3, h4, n1, n2, n3, n4. splits; eauto.
Qed.

Lemma bad_chars_esc s c s' m : esc_ok s c s' -> bad_chars s' m -> bad_chars (x5c :: s) m.
Proof.
  intros [(e & -> & Hin)|(h1 & h2 & h3 & h4 & n1 & n2 & n3 & n4 & -> & E1 & E2 & E3 & E4 & ->)] H.
  - eapply BC_after_escape; eauto.
  - apply BC_after_code; auto. exists h1, h2, h3, h4, []. split; auto. repeat constructor; congruence.
Qed.

Lemma parse_escape_ok s :
  (exists c s', esc_ok s c s' /\ parse_escape s = Ret (c, s')) \/
  ((forall c s', ~ esc_ok s c s') /\ exists msg, bad_chars (x5c :: s) msg /\ parse_escape s = Throw (ParserError msg)).
Proof.
  unfold parse_escape.
  destruct s as [|h s].
  { right. split; [|eexists; split; [apply BC_escape; exact I|reflexivity]]. intros c s' [(e & He & _)|(h1 & h2 & h3 & h4 & n1 & n2 & n3 & n4 & Hs & _)]; discriminate. }
  repeat (rewrite have_eq by discriminate; cbn [bind];
    match goal with |- context [beqb h ?x] => let H := fresh "Hne" in destruct (beqb_spec h x) as [->|H]; cbn [bind] end;
    [first [destruct (parse_codepoint_ok s) as [Hc|[Hc1 Hc2]]; [left; exact Hc|right; split; [exact Hc1|eexists; split; [|exact Hc2]; apply BC_code; intros H4; apply four_hex_esc in H4 as (c & s' & H4); eapply Hc1; eauto]] | left; eexists _, s; split; [|reflexivity]; left; eexists; split; [reflexivity|cbn; auto 10]]|]).
  right. split; [|eexists; split; [apply BC_escape; cbn; intuition congruence|reflexivity]].
  intros c s' [(e & He & Hin)|(h1 & h2 & h3 & h4 & n1 & n2 & n3 & n4 & Hs & _)].
  - injection He as <- <-. cbn in Hin. repeat (destruct Hin as [Hin|Hin]; [injection Hin; congruence|]). destruct Hin.
  - congruence.
Qed.

Lemma gchars_esc s c s' cs r : esc_ok s c s' -> gchars s' cs r -> gchars (x5c :: s) (c :: cs) r.
Proof.
  intros [(e & -> & Hin)|(h1 & h2 & h3 & h4 & n1 & n2 & n3 & n4 & -> & E1 & E2 & E3 & E4 & ->)] H.
  - now apply GC_escape.
  - now apply GC_code.
Qed.

Lemma gchars_esc_inv s cs r : gchars (x5c :: s) cs r -> exists c s' cs', esc_ok s c s' /\ cs = c :: cs' /\ gchars s' cs' r.
Proof.
  inversion 1; subst; try congruence.
  - eexists _, _, _. splits; eauto. left. eauto.
  - eexists _, _, _. splits; eauto. right. do 8 eexists. splits; eauto.
Qed.

Lemma esc_ok_len s c s' : esc_ok s c s' -> length s' < length s.
Proof. intros [(e & -> & _)|(h1 & h2 & h3 & h4 & n1 & n2 & n3 & n4 & -> & _)]; cbn; lia. Qed.

Lemma esc_ok_det s c s' c' s'' : esc_ok s c s' -> esc_ok s c' s'' -> c = c' /\ s' = s''.
Proof.
  intros [(e & -> & Hin)|(h1 & h2 & h3 & h4 & n1 & n2 & n3 & n4 & -> & E1 & E2 & E3 & E4 & ->)]
    [(e' & Hs & Hin')|(g1 & g2 & g3 & g4 & m1 & m2 & m3 & m4 & Hs & F1 & F2 & F3 & F4 & ->)].
  - injection Hs as <- ->. split; auto. eapply short_escapes_fun; eauto.
  - injection Hs as -> ->. now apply short_escapes_u in Hin.
  - injection Hs as <- <-. now apply short_escapes_u in Hin'.
  - injection Hs as <- <- <- <- <-. split; auto. congruence.
Qed.

Lemma string_loop_ok f : forall s str, length s < f ->
  (exists cs r, gchars s cs r /\ string_loop f s str = Ret (r, str ++ cs)) \/
  ((forall cs r, ~ gchars s cs r) /\ exists msg, bad_chars s msg /\ string_loop f s str = Throw (ParserError msg)).
Proof.
  induction f as [|f IH]; intros s str Hf; [lia|]. cbn [string_loop].
  rewrite have_eq by discriminate. destruct s as [|h s]; cbn [bind].
  { right. split; [|eexists; split; [constructor|reflexivity]]. inversion 1. }
  destruct (beqb_spec h x22) as [->|Hq]; cbn [bind].
  { left. exists [], s. split; [constructor|]. now rewrite app_nil_r. }
  cbn [length Nat.eqb]. rewrite have_eq by discriminate. cbn [bind].
  destruct (beqb_spec h x5c) as [->|Hb]; cbn [bind].
  - destruct (parse_escape_ok s) as [(c & s' & He & ->)|(Hno & msg & Hbad & ->)]; cbn [bind].
    + pose proof (esc_ok_len _ _ _ He). cbn [length] in Hf.
      destruct (IH s' (str ++ [c])) as [(cs & r & Hg & ->)|(Hn & msg & Hbad & ->)]; [lia| |].
      * left. exists (c :: cs), r. split; [eapply gchars_esc; eauto|]. now rewrite <- app_assoc.
      * right. split; [|eauto using bad_chars_esc]. intros cs r Hg. apply gchars_esc_inv in Hg as (c' & s'' & cs' & He' & -> & Hg).
        destruct (esc_ok_det _ _ _ _ _ He He') as [<- <-]. eapply Hn; eauto.
    + right. split; eauto. intros cs r Hg. apply gchars_esc_inv in Hg as (c' & s'' & cs' & He' & -> & Hg). eapply Hno; eauto.
  - change (read (h :: s) 0) with (@Ret byte h). cbn [bind]. change (advance (h :: s) 1) with (Ret s). cbn [bind].
    cbn [length] in Hf.
    destruct (IH s (str ++ [h])) as [(cs & r & Hg & ->)|(Hn & msg & Hbad & ->)]; [lia| |].
    + left. exists (h :: cs), r. split; [now constructor|]. now rewrite <- app_assoc.
    + right. split; [|eauto using BC_after_plain]. intros cs r Hg. inversion Hg; subst; try congruence. eapply Hn; eauto.
Qed.

(** ------------------------------------------------------------------ literals *)

Lemma have_pat_loop_ok aend apat pat s0 : Forall (fun c => c <> NUL) pat -> forall p s, s0 = p ++ s ->
  have_pat_loop aend apat (length p) pat s0 =
  Ret ((forallb (fun i => apat + N.of_nat (length p + i) <? aend)%N (seq 0 (length pat)))
       && bytes_eqb pat (firstn (length pat) s)).
Proof.
  induction 1 as [|c pat Hc Hp IH]; intros p s Hs; cbn [have_pat_loop length seq forallb firstn bytes_eqb]; auto.
  rewrite Nat.add_0_r. rewrite N.ltb_antisym. destruct (aend <=? apat + N.of_nat (length p))%N eqn:El; cbn [negb andb]; auto.
  rewrite read_eq. subst s0. rewrite nth_error_app2 by lia. rewrite Nat.sub_diag.
  destruct s as [|h s]; cbn [nth_error firstn].
  - rewrite app_nil_r, Nat.eqb_refl. cbn [bind]. rewrite beqb_neq by auto. now rewrite andb_false_r.
  - cbn [bind bytes_eqb]. change (Byte.eqb c h) with (beqb c h). destruct (beqb_spec c h) as [->|Hn]; cbn [andb].
    2:{ now rewrite andb_false_r. }
    assert (Hl : S (length p) = length (p ++ [h])) by (rewrite app_length; cbn; lia).
    rewrite Hl. rewrite (IH (p ++ [h]) s) by (now rewrite <- app_assoc).
    do 2 f_equal. rewrite <- seq_shift.
    clear. generalize (seq 0 (length pat)). intros l. induction l as [|i l IHl]; cbn [map forallb]; auto.
    rewrite IHl. rewrite app_length. cbn [length]. now replace (length p + 1 + i) with (length p + S i) by lia.
Qed.

Lemma bytes_prefix pat : forall s, bytes_eqb pat (firstn (length pat) s) = true -> s = pat ++ skipn (length pat) s.
Proof.
  intros s H. destruct (bytes_eqb_spec pat (firstn (length pat) s)) as [E|]; [|discriminate].
  rewrite E at 1. now rewrite firstn_skipn.
Qed.

Definition addr_ok (aend apat : N) (n : nat) : bool := (apat + N.of_nat (n - 1) <? aend)%N.

Lemma addr_ok_all aend apat n : 0 < n ->
  forallb (fun i => apat + N.of_nat (0 + i) <? aend)%N (seq 0 n) = addr_ok aend apat n.
Proof.
  intros Hn. unfold addr_ok. destruct (N.ltb_spec (apat + N.of_nat (n - 1)) aend) as [H|H].
  - apply forallb_forall. intros i Hi. apply in_seq in Hi. apply N.ltb_lt. lia.
  - apply not_true_iff_false. intros Hf. rewrite forallb_forall in Hf. specialize (Hf (n - 1)).
    rewrite in_seq in Hf. rewrite N.ltb_lt in Hf. cbn [Nat.add] in Hf. lia.
Qed.

Lemma expect_pat_ok aend apat pat msg s : Forall (fun c => c <> NUL) pat -> 0 < length pat ->
  (exists r, addr_ok aend apat (length pat) = true /\ s = pat ++ r /\ expect_pat aend apat pat msg s = Ret r) \/
  ((addr_ok aend apat (length pat) = false \/ forall r, s <> pat ++ r) /\ expect_pat aend apat pat msg s = Throw (ParserError msg)).
Proof.
  intros Hp Hn. unfold expect_pat, have_pat.
  rewrite (have_pat_loop_ok _ _ _ s Hp [] s eq_refl). cbn [length bind]. rewrite addr_ok_all by auto.
  destruct (addr_ok aend apat (length pat)); cbn [andb]; [|right; split; auto].
  destruct (bytes_eqb pat (firstn (length pat) s)) eqn:E.
  - apply bytes_prefix in E. left. exists (skipn (length pat) s). splits; auto.
    unfold advance. rewrite E at 1. rewrite app_length.
    replace (Nat.leb (length pat) (length pat + length (skipn (length pat) s))) with true; [reflexivity|].
    symmetry. apply Nat.leb_le. lia.
  - right. split; [right|reflexivity]. intros r ->. rewrite firstn_app, Nat.sub_diag, firstn_all in E. cbn in E.
    rewrite app_nil_r in E. destruct (bytes_eqb_spec pat pat); congruence.
Qed.

(** ------------------------------------------------------------------ shape of the grammar *)

Section Shape.
  Variable lits : bool -> bool.
  Notation gval := (gval lits).
  Notation gelems := (gelems lits).
  Notation gmembers := (gmembers lits).

  Scheme gval_ind2 := Minimality for JsonSpec.gval Sort Prop
    with gelems_ind2 := Minimality for JsonSpec.gelems Sort Prop
    with gmembers_ind2 := Minimality for JsonSpec.gmembers Sort Prop.

  Lemma gkey_len s k r : gkey s k r -> length k + length r < length s.
  Proof. destruct 1. apply gchars_cslen in H0. rewrite !app_length in *. cbn [length] in *. lia. Qed.

  Lemma gval_len s a r : gval s a r -> length r < length s.
  Proof.
    revert s a r. apply (gval_ind2 lits (fun s a r => length r < length s) (fun s l r => length l + length r <= length s)
      (fun s l r => length l + length r <= length s));
      intros; repeat (rewrite app_length in * || cbn [length] in * ); try lia.
    - destruct b; cbn; lia.
    - apply gnat_len in H0. lia.
    - apply gnat_len in H0. lia.
    - apply gchars_len in H0. lia.
    - apply gkey_len in H. lia.
    - apply gkey_len in H. lia.
  Qed.

  Lemma gelems_len l : forall s r, gelems s l r -> length l + length r <= length s.
  Proof.
    induction l as [|a l IH]; intros s r H; inversion H; subst;
    repeat match goal with
           | X : JsonSpec.gval _ _ _ _ |- _ => apply gval_len in X
           | X : gkey _ _ _ |- _ => apply gkey_len in X
           | X : JsonSpec.gelems _ _ _ _ |- _ => apply IH in X
           | X : JsonSpec.gmembers _ _ _ _ |- _ => apply IH in X
           end; rewrite ?app_length in *; cbn [length] in *; lia.
  Qed.

  Lemma gmembers_len l : forall s r, gmembers s l r -> length l + length r <= length s.
  Proof.
    induction l as [|a l IH]; intros s r H; inversion H; subst;
    repeat match goal with
           | X : JsonSpec.gval _ _ _ _ |- _ => apply gval_len in X
           | X : gkey _ _ _ |- _ => apply gkey_len in X
           | X : JsonSpec.gelems _ _ _ _ |- _ => apply IH in X
           | X : JsonSpec.gmembers _ _ _ _ |- _ => apply IH in X
           end; rewrite ?app_length in *; cbn [length] in *; lia.
  Qed.

  (** a value text after its leading white space, by its first character *)
  Definition core (t : bytes) (a : ast) (r : bytes) : Prop :=
    match t with
    | [] => False
    | c :: s =>
        if beqb c x7b then (exists s', drop_ws s = x7d :: s' /\ a = AObj [] /\ r = s') \/ (exists ms, a = AObj ms /\ gmembers s ms r)
        else if beqb c x5b then (exists s', drop_ws s = x5d :: s' /\ a = AArr [] /\ r = s') \/ (exists l, a = AArr l /\ gelems s l r)
        else if beqb c x22 then exists cs, a = AStr cs /\ gchars s cs r
        else if beqb c x74 then lits true = true /\ s = [x72; x75; x65] ++ r /\ a = ABool true
        else if beqb c x66 then lits false = true /\ s = [x61; x6c; x73; x65] ++ r /\ a = ABool false
        else if beqb c x2d then exists n, a = AInt (- Z.of_N n) /\ gnat s n r
        else exists n, a = AInt (Z.of_N n) /\ gnat t n r
    end.

  Lemma digit_cases c : digit c -> wsb c = false /\ beqb c x7b = false /\ beqb c x5b = false /\ beqb c x22 = false /\
    beqb c x74 = false /\ beqb c x66 = false /\ beqb c x2d = false /\ beqb c x5d = false /\ beqb c x7d = false.
  Proof. intros H. apply is_digit_ok in H. destruct c; vm_compute in *; try discriminate; splits; reflexivity. Qed.

  Lemma gval_core s a r : gval s a r -> core (drop_ws s) a r.
  Proof.
    destruct 1 as [w b r Hw Hl|w s n r Hw Hn|w s n r Hw Hn|w s cs r Hw Hc|w w' r Hw Hw'|w s l r Hw Hl|w w' r Hw Hw'|w s ms r Hw Hm];
      rewrite drop_ws_white by auto.
    - destruct b; cbn; auto.
    - destruct (gnat_head _ _ _ Hn) as (c & s' & -> & Hd).
      destruct (digit_cases c Hd) as (E0 & E1 & E2 & E3 & E4 & E5 & E6 & _).
      rewrite drop_ws_cons by auto. unfold core. rewrite E1, E2, E3, E4, E5, E6. eauto.
    - cbn. eauto.
    - cbn. eauto.
    - cbn. left. exists r. rewrite drop_ws_white by auto. auto.
    - cbn. right. eauto.
    - cbn. left. exists r. rewrite drop_ws_white by auto. auto.
    - cbn. right. eauto.
  Qed.

  Lemma core_gval s a r : core (drop_ws s) a r -> gval s a r.
  Proof.
    destruct (drop_ws_split s) as (w & Hw & Hs). rewrite Hs at 2. clear Hs. generalize (drop_ws s). intros t. clear s.
    destruct t as [|c t]; cbn; [tauto|].
    destruct (beqb_spec c x7b) as [->|?].
    { intros [(s' & Hd & -> & ->)|(ms & -> & H)].
      - destruct (drop_ws_split t) as (w' & Hw' & Ht). rewrite Hd in Ht. rewrite Ht. now apply G_obj0.
      - now apply G_obj. }
    destruct (beqb_spec c x5b) as [->|?].
    { intros [(s' & Hd & -> & ->)|(ms & -> & H)].
      - destruct (drop_ws_split t) as (w' & Hw' & Ht). rewrite Hd in Ht. rewrite Ht. now apply G_arr0.
      - now apply G_arr. }
    destruct (beqb_spec c x22) as [->|?].
    { intros (cs & -> & H). now apply G_str. }
    destruct (beqb_spec c x74) as [->|?].
    { intros (Hl & -> & ->). apply (G_bool lits w true r); auto. }
    destruct (beqb_spec c x66) as [->|?].
    { intros (Hl & -> & ->). apply (G_bool lits w false r); auto. }
    destruct (beqb_spec c x2d) as [->|?].
    { intros (n' & -> & H). now apply G_neg. }
    intros (n' & -> & H). now apply G_nat.
  Qed.

  Definition after_elem (t : bytes) (l : list ast) (r : bytes) : Prop :=
    match t with
    | [] => False
    | c :: s => if beqb c x2c then gelems s l r else if beqb c x5d then l = [] /\ r = s else False
    end.

  Lemma gelems_shape s l r : gelems s l r <-> exists a s1 l', gval s a s1 /\ l = a :: l' /\ after_elem (drop_ws s1) l' r.
  Proof.
    split.
    - destruct 1 as [s a w r H Hw|s a w s' l r H Hw Hl]; eexists _, _, _; (split; [eauto|split; [reflexivity|]]);
        rewrite drop_ws_white by auto; cbn; auto.
    - intros (a & s1 & l' & H & -> & Ha). destruct (drop_ws_split s1) as (w & Hw & Hs).
      destruct (drop_ws s1) as [|c t]; cbn in Ha; [tauto|]. rewrite Hs in H.
      destruct (beqb_spec c x2c) as [->|?]; [eapply GE_cons; eauto|].
      destruct (beqb_spec c x5d) as [->|?]; [|tauto]. destruct Ha as [-> ->]. eapply GE_last; eauto.
  Qed.

  Definition after_member (t : bytes) (l : list (bytes * ast)) (r : bytes) : Prop :=
    match t with
    | [] => False
    | c :: s => if beqb c x2c then gmembers s l r else if beqb c x7d then l = [] /\ r = s else False
    end.

  Lemma gmembers_shape s l r : gmembers s l r <-> exists k s0 a s1 l', gkey s k s0 /\ gval s0 a s1 /\ l = (k, a) :: l' /\ after_member (drop_ws s1) l' r.
  Proof.
    split.
    - destruct 1 as [s k s0 a w r Hk H Hw|s k s0 a w s' l r Hk H Hw Hl]; eexists _, _, _, _, _; (split; [eauto|split; [eauto|split; [reflexivity|]]]);
        rewrite drop_ws_white by auto; cbn; auto.
    - intros (k & s0 & a & s1 & l' & Hk & H & -> & Ha). destruct (drop_ws_split s1) as (w & Hw & Hs).
      destruct (drop_ws s1) as [|c t]; cbn in Ha; [tauto|]. rewrite Hs in H.
      destruct (beqb_spec c x2c) as [->|?]; [eapply GM_cons; eauto|].
      destruct (beqb_spec c x7d) as [->|?]; [|tauto]. destruct Ha as [-> ->]. eapply GM_last; eauto.
  Qed.

  Lemma gkey_shape s k r : gkey s k r <-> exists s1 s2, drop_ws s = x22 :: s1 /\ gchars s1 k s2 /\ drop_ws s2 = x3a :: r.
  Proof.
    split.
    - destruct 1 as [w s k w' r Hw H Hw']. exists s, (w' ++ x3a :: r). rewrite !drop_ws_white by auto. auto.
    - intros (s1 & s2 & H1 & H2 & H3). destruct (drop_ws_split s) as (w & Hw & Hs). destruct (drop_ws_split s2) as (w' & Hw' & Hs').
      rewrite H1 in Hs. rewrite H3 in Hs'. rewrite Hs. rewrite Hs' in H2. econstructor; eauto.
  Qed.

  Lemma gkey_det s k r k' r' : gkey s k r -> gkey s k' r' -> k = k' /\ r = r'.
  Proof.
    rewrite !gkey_shape. intros (s1 & s2 & H1 & H2 & H3) (s1' & s2' & H1' & H2' & H3').
    rewrite H1 in H1'. injection H1' as <-. destruct (gchars_det _ _ _ H2 _ _ H2') as [<- <-]. rewrite H3 in H3'. injection H3' as ->. auto.
  Qed.

  Lemma core_close t s l r : drop_ws s = x5d :: t -> gelems s l r -> False.
  Proof.
    intros Hd H. apply gelems_shape in H as (a & s1 & l' & H & _). apply gval_core in H. rewrite Hd in H. cbn in H.
    destruct H as (n & _ & H). apply gnat_head in H as (c & s' & H & Hc). injection H as <- <-.
    apply digit_cases in Hc. destruct Hc as (_ & _ & _ & _ & _ & _ & _ & Hc & _). discriminate.
  Qed.

  Lemma core_close_obj t s l r : drop_ws s = x7d :: t -> gmembers s l r -> False.
  Proof.
    intros Hd H. apply gmembers_shape in H as (k & s0 & a & s1 & l' & H & _). apply gkey_shape in H as (s3 & s2 & H & _). congruence.
  Qed.

  Lemma gval_det_n n : (forall s a r a' r', length s < n -> gval s a r -> gval s a' r' -> a = a' /\ r = r') /\
    (forall s l r l' r', length s < n -> gelems s l r -> gelems s l' r' -> l = l' /\ r = r') /\
    (forall s l r l' r', length s < n -> gmembers s l r -> gmembers s l' r' -> l = l' /\ r = r').
  Proof.
    induction n as [|n (IHv & IHe & IHm)].
    { splits; intros; lia. }
    assert (Hv : forall s a r a' r', length s < S n -> gval s a r -> gval s a' r' -> a = a' /\ r = r').
    { intros s a r a' r' Hn H H'. apply gval_core in H. apply gval_core in H'.
      pose proof (drop_ws_length s) as Hl. destruct (drop_ws s) as [|c t]; cbn in H, H'; [tauto|]. cbn [length] in Hl.
      destruct (beqb c x7b).
      { destruct H as [(s1 & Hd & -> & ->)|(l & -> & H)]; destruct H' as [(s1' & Hd' & -> & ->)|(l' & -> & H')].
        - rewrite Hd in Hd'. injection Hd' as ->. auto.
        - exfalso. eapply core_close_obj; eauto.
        - exfalso. eapply core_close_obj; eauto.
        - edestruct (IHm t l r l' r'); eauto; [lia|]. split; congruence. }
      destruct (beqb c x5b).
      { destruct H as [(s1 & Hd & -> & ->)|(l & -> & H)]; destruct H' as [(s1' & Hd' & -> & ->)|(l' & -> & H')].
        - rewrite Hd in Hd'. injection Hd' as ->. auto.
        - exfalso. eapply core_close; eauto.
        - exfalso. eapply core_close; eauto.
        - edestruct (IHe t l r l' r'); eauto; [lia|]. split; congruence. }
      destruct (beqb c x22).
      { destruct H as (cs & -> & H), H' as (cs' & -> & H'). destruct (gchars_det _ _ _ H _ _ H'). split; congruence. }
      destruct (beqb c x74).
      { destruct H as (_ & -> & ->), H' as (_ & H' & ->). injection H' as ->. auto. }
      destruct (beqb c x66).
      { destruct H as (_ & -> & ->), H' as (_ & H' & ->). injection H' as ->. auto. }
      destruct (beqb c x2d); destruct H as (m & -> & H), H' as (m' & -> & H'); destruct (gnat_det _ _ _ _ _ H H'); split; congruence. }
    assert (He : forall s l r l' r', length s < S n -> gelems s l r -> gelems s l' r' -> l = l' /\ r = r').
    { intros s l r l' r' Hn H H'. apply gelems_shape in H as (a & s1 & l1 & Ha & -> & Hr). apply gelems_shape in H' as (a' & s1' & l1' & Ha' & -> & Hr').
      pose proof (gval_len _ _ _ Ha) as Hl. pose proof (drop_ws_length s1).
      destruct (Hv _ _ _ _ _ Hn Ha Ha') as [<- <-]. destruct (drop_ws s1) as [|c t]; cbn in Hr, Hr'; [tauto|]. cbn [length] in *.
      destruct (beqb c x2c); [|destruct (beqb c x5d); [|tauto]].
      - destruct (IHe t l1 r l1' r'); auto; [lia|]. split; congruence.
      - destruct Hr, Hr'. split; congruence. }
    splits; auto.
    intros s l r l' r' Hn H H'. apply gmembers_shape in H as (k & s0 & a & s1 & l1 & Hk & Ha & -> & Hr). apply gmembers_shape in H' as (k' & s0' & a' & s1' & l1' & Hk' & Ha' & -> & Hr').
    pose proof (gval_len _ _ _ Ha) as Hl. pose proof (gkey_len _ _ _ Hk) as Hl'. pose proof (drop_ws_length s1).
    destruct (gkey_det _ _ _ _ _ Hk Hk') as [<- <-].
    destruct (Hv s0 a s1 a' s1') as [<- <-]; auto; [lia|]. destruct (drop_ws s1) as [|c t]; cbn in Hr, Hr'; [tauto|]. cbn [length] in *.
    destruct (beqb c x2c); [|destruct (beqb c x7d); [|tauto]].
    - destruct (IHm t l1 r l1' r'); auto; [lia|]. split; congruence.
    - destruct Hr, Hr'. split; congruence.
  Qed.

  Lemma gval_det s a r a' r' : gval s a r -> gval s a' r' -> a = a' /\ r = r'.
  Proof. apply (proj1 (gval_det_n (S (length s)))). lia. Qed.
End Shape.

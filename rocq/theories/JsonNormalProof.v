(** Printed texts are in normal form, and texts in normal form are printed: lemmas behind JsonNormalProps.v. *)
From Verif Require Import Base HashSpec HashModel JsonSpec JsonModel JsonDenotes JsonProof JsonProof2 JsonProof3 JsonProof4 JsonProof5 JsonRfcSpec JsonProof6 JsonNormalSpec.
From Coq Require Import List NArith ZArith Bool Lia.
From Coq.Init Require Import Byte.
From Coq.Strings Require Import Byte.
Import ListNotations.

(** ** Numbers *)
Definition no_zero (l : bytes) : Prop := forall d l', l = d :: l' -> d <> x30.

Lemma no_zero_app l m : no_zero (l ++ m) -> no_zero l.
Proof. intros H d l' ->. apply (H d (l' ++ m)). reflexivity. Qed.
Lemma digit_positive d : digit d -> d <> x30 -> (0 < digit_value d)%N.
Proof. intros H Hd. pose proof (digit_pos d H Hd). unfold digit_value. lia. Qed.
Lemma decimal_positive l : l <> [] -> no_zero l -> Forall digit l -> (0 < decimal l)%N.
Proof.
  induction l as [|d l IH] using rev_ind; [congruence|]. intros _ Hz Hd. rewrite decimal_snoc. apply Forall_app in Hd as [Hd1 Hd2].
  destruct l as [|e l].
  - cbn [app] in Hz. assert (0 < digit_value d)%N; [|lia]. apply digit_positive; [now inversion Hd2|]. apply (Hz d []). reflexivity.
  - assert (0 < decimal (e :: l))%N; [|lia]. apply IH; [discriminate|eapply no_zero_app; exact Hz|exact Hd1].
Qed.
Lemma digit_value_inj d e : digit d -> digit e -> digit_value d = digit_value e -> d = e.
Proof.
  unfold digit, digit_value. intros H1 H2 E. assert (E2 : bval d = bval e) by lia. apply (f_equal byte_of_N) in E2. now rewrite !byte_of_N_bval in E2.
Qed.
Lemma digit_value_lt d : digit d -> (digit_value d < 10)%N.
Proof. unfold digit, digit_value. lia. Qed.
Lemma decimal_inj l : forall m, no_zero l -> no_zero m -> Forall digit l -> Forall digit m -> decimal l = decimal m -> l = m.
Proof.
  induction l as [|d l IH] using rev_ind; intros m Zl Zm Dl Dm E.
  - destruct m as [|e m]; [reflexivity|]. pose proof (decimal_positive (e :: m) ltac:(discriminate) Zm Dm) as H. rewrite <- E in H. cbn in H. lia.
  - destruct m as [|e m _] using rev_ind.
    + pose proof (decimal_positive (l ++ [d]) ltac:(destruct l; discriminate) Zl Dl) as H. rewrite E in H. cbn in H. lia.
    + rewrite !decimal_snoc in E. apply Forall_app in Dl as [Dl Dd]. apply Forall_app in Dm as [Dm De].
      assert (Hd : digit d) by now inversion Dd. assert (He : digit e) by now inversion De.
      pose proof (digit_value_lt d Hd). pose proof (digit_value_lt e He).
      assert (Ed : d = e) by (apply digit_value_inj; auto; lia). subst e.
      f_equal. apply IH; auto; [eapply no_zero_app; exact Zl|eapply no_zero_app; exact Zm|lia].
Qed.

Lemma dec_text_shape n : dec_text n = [x30] /\ n = 0%N \/ no_zero (dec_text n) /\ dec_text n <> [] /\ (0 < n)%N.
Proof.
  unfold dec_text. destruct (dec_loop_ok (S (N.size_nat n)) n [] (size_bound n) ltac:(lia)) as (d & ds & -> & Hd & Hdig & Hz). rewrite app_nil_r.
  destruct (beqb_spec d x30) as [->|Hne]; [left; destruct (Hz eq_refl) as [-> ->]; auto|]. right.
  assert (H : no_zero (d :: ds)) by (intros e l [= <- _]; exact Hne). split; [exact H|]. split; [discriminate|]. rewrite <- Hd. apply decimal_positive; auto. discriminate.
Qed.
Lemma dec_text_decimal n : decimal (dec_text n) = n.
Proof.
  unfold dec_text. destruct (dec_loop_ok (S (N.size_nat n)) n [] (size_bound n) ltac:(lia)) as (d & ds & -> & Hd & _). now rewrite app_nil_r.
Qed.
Lemma positive_no_zero ds : positive_digits ds -> no_zero ds /\ ds <> [].
Proof. intros ((d & ds' & -> & Hd) & _). split; [intros e l [= <- _]; exact Hd|discriminate]. Qed.
Lemma positive_text ds : positive_digits ds -> dec_text (decimal ds) = ds /\ (0 < decimal ds < 2^256)%N.
Proof.
  intros H. destruct (positive_no_zero ds H) as [Z Hne]. destruct H as (_ & Hd & Hb).
  pose proof (decimal_positive ds Hne Z Hd) as Hp. split; [|lia]. destruct (dec_text_shape (decimal ds)) as [[_ H0]|(Z2 & _ & _)]; [lia|].
  apply decimal_inj; auto; [apply dec_text_digits|apply dec_text_decimal].
Qed.
Lemma text_positive n : (0 < n < 2^256)%N -> positive_digits (dec_text n).
Proof.
  intros [H1 H2]. destruct (dec_text_shape n) as [[_ H0]|(Z & Hne & _)]; [lia|]. split; [|split; [apply dec_text_digits|now rewrite dec_text_decimal]].
  destruct (dec_text n) as [|d ds]; [congruence|]. exists d, ds. split; [reflexivity|]. apply (Z d ds eq_refl).
Qed.

(** ** Characters *)
Lemma hex_digit_capital n : (n < 16)%N -> capital_hex (hex_digit n).
Proof. intros H. unfold capital_hex, hex_digit. rewrite bval_byte_of_N. destruct (N.ltb_spec n 10); rewrite N.mod_small; lia. Qed.
Lemma print_char_normal c s : normal_chars s -> normal_chars (print_char c ++ s).
Proof.
  intros Hs. unfold print_char. destruct (beqb_spec c x22) as [->|H1]; [apply NC_mark; cbn; auto|].
  destruct (beqb_spec c x5c) as [->|H2]; [apply NC_mark; cbn; auto|]. cbn [orb].
  pose proof (bval_lt c) as Hc. destruct (_ && _) eqn:E.
  - assert (Hb : (bval c < 32)%N).
    { apply andb_true_iff in E as [E1 E2]. unfold schar in *. fold (bval c) in *. destruct (Z.ltb_spec (Z.of_N (bval c)) 128); lia. }
    cbn [app]. apply NC_control; auto.
    + assert (bval c / 16 < 2)%N by (apply N.div_lt_upper_bound; lia). assert (D : (bval c / 16 = 0 \/ bval c / 16 = 1)%N) by lia.
      destruct D as [-> | ->]; cbn; auto.
    + apply hex_digit_capital. apply N.mod_lt. lia.
  - cbn [app]. apply NC_plain; auto. apply andb_false_iff in E. unfold schar in E. fold (bval c) in E.
    destruct (Z.ltb_spec (Z.of_N (bval c)) 128); destruct E as [E|E]; try apply Z.leb_gt in E; try apply Z.ltb_ge in E; lia.
Qed.
Lemma print_chars_normal s : normal_chars (flat_map print_char s).
Proof. induction s as [|c s IH]; cbn [flat_map]; [constructor|]. now apply print_char_normal. Qed.

Lemma control_char : forall a b, In a [x30; x31] -> capital_hex b -> exists c, print_char c = [x5c; x75; x30; x30; a; b].
Proof.
  assert (Hb : forall b, capital_hex b -> exists n, (n < 16)%N /\ hex_digit n = b).
  { intros b [H|H].
    - exists (bval b - 48)%N. split; [lia|]. unfold hex_digit. destruct (N.ltb_spec (bval b - 48) 10); [|lia].
      replace (48 + (bval b - 48))%N with (bval b) by lia. apply byte_of_N_bval.
    - exists (bval b - 55)%N. split; [lia|]. unfold hex_digit. destruct (N.ltb_spec (bval b - 55) 10); [lia|].
      replace (55 + (bval b - 55))%N with (bval b) by lia. apply byte_of_N_bval. }
  intros a b Ha H. apply Hb in H as (n & Hn & <-).
  assert (Hm : exists m, (m < 2)%N /\ hex_digit m = a). { destruct Ha as [<-|[<-|[]]]; [exists 0%N|exists 1%N]; split; auto; reflexivity. }
  destruct Hm as (m & Hm & <-). exists (byte_of_N (16 * m + n)). assert (Hv : bval (byte_of_N (16 * m + n)) = (16 * m + n)%N) by (rewrite bval_byte_of_N; apply N.mod_small; lia).
  unfold print_char. destruct (beqb_spec (byte_of_N (16 * m + n)) x22) as [E|_]; [rewrite E in Hv; change (bval x22) with 34%N in Hv; lia|].
  destruct (beqb_spec (byte_of_N (16 * m + n)) x5c) as [E|_]; [rewrite E in Hv; change (bval x5c) with 92%N in Hv; lia|]. cbn [orb].
  assert (Hs : schar (byte_of_N (16 * m + n)) = Z.of_N (16 * m + n)).
  { unfold schar. fold (bval (byte_of_N (16 * m + n))). rewrite Hv. destruct (Z.ltb_spec (Z.of_N (16 * m + n)) 128); lia. }
  rewrite Hs, Hv. destruct (Z.leb_spec 0 (Z.of_N (16 * m + n))); [|lia]. destruct (Z.ltb_spec (Z.of_N (16 * m + n)) 32); [|lia]. cbn [andb].
  replace ((16 * m + n) / 16)%N with m by (apply N.div_unique with n; lia). replace ((16 * m + n) mod 16)%N with n by (apply N.mod_unique with m; lia). reflexivity.
Qed.
Lemma normal_chars_print s : normal_chars s -> exists cs, flat_map print_char cs = s.
Proof.
  induction 1 as [|c s H1 H2 H3 _ (cs & <-)|c s Hc _ (cs & <-)|a b s Ha Hb _ (cs & <-)].
  - exists []. reflexivity.
  - exists (c :: cs). cbn [flat_map]. unfold print_char at 1. rewrite !beqb_neq by auto. cbn [orb]. pose proof (bval_lt c).
    destruct (_ && _) eqn:E; [|reflexivity]. apply andb_true_iff in E as [E1 E2]. unfold schar in *. fold (bval c) in *.
    destruct (Z.ltb_spec (Z.of_N (bval c)) 128); lia.
  - exists (c :: cs). destruct Hc as [<-|[<-|[]]]; reflexivity.
  - destruct (control_char a b Ha Hb) as (c & E). exists (c :: cs). cbn [flat_map]. rewrite E. reflexivity.
Qed.

(** ** Values *)
Lemma commas_normal t ts : (forall u, In u (t :: ts) -> normal u) -> normal_elems (commas (t :: ts)).
Proof.
  revert t. induction ts as [|t' ts IH]; intros t H.
  - apply NE_one. apply H. now left.
  - change (commas (t :: t' :: ts)) with (t ++ x2c :: commas (t' :: ts)). apply NE_more; [apply H; now left|]. apply IH. intros u Hu. apply H. now right.
Qed.
Lemma print_normal v : simple v -> forall t, print v = Ret t -> normal t.
Proof.
  induction 1 as [z Hz|b|s|l Hl IH]; intros t Ht; cbn [print] in Ht.
  - injection Ht as <-. unfold int_text. assert (E : Z.of_N (2^256) = (2^256)%Z) by reflexivity. destruct (Z.ltb_spec z 0).
    + apply N_neg. apply text_positive. revert Hz E. generalize (2^256)%Z (2^256)%N. intros. lia.
    + destruct (Z.eq_dec z 0) as [->|]; [apply N_zero|]. apply N_pos. apply text_positive. revert Hz E. generalize (2^256)%Z (2^256)%N. intros. lia.
  - injection Ht as <-. destruct b; [apply (N_bool true)|apply (N_bool false)].
  - injection Ht as <-. apply N_str. apply print_chars_normal.
  - apply bind_ret in Ht as (ts & Hts & Ht). injection Ht as <-. apply sequence_map in Hts.
    destruct ts as [|t ts]; [apply N_arr0|]. apply N_arr. apply commas_normal.
    clear Hl. revert IH. induction Hts as [|v u l us Hv Hts IHts]; intros IH w [].
    + subst. eapply IH; [left; reflexivity|auto].
    + apply IHts; auto. intros x Hx. apply IH. now right.
Qed.
Lemma normal_print t : normal t -> exists v, simple v /\ print v = Ret t.
Proof.
  intros H. induction H using normal_mut with (P0 := fun s _ => exists v l ts, (forall x, In x (v :: l) -> simple x) /\ sequence (map print (v :: l)) = Ret ts /\ commas ts = s).
  - exists (JInt 0). split; [constructor; reflexivity|reflexivity].
  - destruct (positive_text ds p) as [E B]. exists (JInt (Z.of_N (decimal ds))). assert (E2 : Z.of_N (2^256) = (2^256)%Z) by reflexivity. split.
    + constructor. revert B E2. generalize (2^256)%Z (2^256)%N. intros. lia.
    + cbn [print]. unfold int_text. destruct (Z.ltb_spec (Z.of_N (decimal ds)) 0); [lia|]. now rewrite N2Z.id, E.
  - destruct (positive_text ds p) as [E B]. exists (JInt (- Z.of_N (decimal ds))). assert (E2 : Z.of_N (2^256) = (2^256)%Z) by reflexivity. split.
    + constructor. revert B E2. generalize (2^256)%Z (2^256)%N. intros. lia.
    + cbn [print]. unfold int_text. destruct (Z.ltb_spec (- Z.of_N (decimal ds)) 0); [|lia]. now rewrite Z.opp_involutive, N2Z.id, E.
  - exists (JBool b). split; [constructor|destruct b; reflexivity].
  - destruct (normal_chars_print s n) as (cs & <-). exists (JStr cs). split; [constructor|reflexivity].
  - exists (JArr []). split; [constructor; intros ? []|reflexivity].
  - destruct IHnormal as (v & l & ts & H1 & H2 & <-). exists (JArr (v :: l)). split; [now constructor|]. cbn [print]. rewrite H2. reflexivity.
  - destruct IHnormal as (v & H1 & H2). exists v, [], [s]. split; [intros x [<-|[]]; exact H1|]. split; [|reflexivity]. cbn [map sequence]. rewrite H2. reflexivity.
  - destruct IHnormal as (v & H1 & H2). destruct IHnormal0 as (v' & l' & ts & H3 & H4 & <-). exists v, (v' :: l'), (s :: ts).
    split; [intros x [<-|Hx]; auto|]. split.
    + cbn [map sequence] in *. rewrite H2. cbn [bind]. rewrite H4. reflexivity.
    + destruct ts as [|t ts]; [|reflexivity]. cbn [map sequence] in H4. exfalso. apply bind_ret in H4 as (? & _ & H4). apply bind_ret in H4 as (? & _ & H4). discriminate.
Qed.

Lemma object_not_normal t tx : print (JObj t) = Ret tx -> ~ normal tx.
Proof.
  intros H Hn. cbn [print] in H. apply bind_ret in H as (es & _ & H). apply bind_ret in H as (ts & _ & H). injection H as <-.
  inversion Hn as [|ds ((d & ds' & E & _) & Hd & _) E2| |b E|s Hs E| |]; try discriminate.
  - subst ds. injection E as <- <-. inversion Hd as [|? ? Hx _]. unfold digit in Hx. vm_compute in Hx. destruct Hx as [_ Hx]. congruence.
  - destruct b; discriminate.
Qed.

Lemma normal_back lay s : (N.of_nat (length s) < 2^28)%N -> good_layout lay -> normal s ->
  exists v, simple v /\ parse lay s = Ret (true, v) /\ print v = Ret s.
Proof.
  intros Hl HL Hn. destruct (normal_print s Hn) as (v & Hv & Hp). exists v. split; [exact Hv|]. split; [|exact Hp].
  destruct (simple_round_trip lay v Hv (or_introl HL)) as (t & Ht & _ & H). rewrite Hp in Ht. injection Ht as <-. auto.
Qed.

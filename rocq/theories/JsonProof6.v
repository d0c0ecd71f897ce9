(** Printed texts and the grammar of RFC 8259. *)
From Verif Require Import Base HashSpec HashModel HashProof HashProof2 HasherModel StringMapSpec StringMapModel StringMapProof
  JsonSpec JsonModel JsonDenotes JsonProof JsonProof2 JsonProof3 JsonProof4 JsonProof5 JsonRfcSpec.
From Coq Require Import List NArith ZArith Bool Lia.
From Coq.Init Require Import Byte.
From Coq.Strings Require Import Byte.
Import ListNotations.

Lemma hex_digit_rfc n : (n < 16)%N -> rfc_hex (hex_digit n).
Proof.
  intros H. unfold rfc_hex, hex_digit. rewrite bval_byte_of_N. destruct (N.ltb_spec n 10); rewrite N.mod_small; lia.
Qed.

Lemma print_char_rfc c s : rfc_chars s -> rfc_chars (print_char c ++ s).
Proof.
  intros Hs. unfold print_char. destruct (beqb_spec c x22) as [->|H1]; [apply RC_escape; cbn; auto|].
  destruct (beqb_spec c x5c) as [->|H2]; [apply RC_escape; cbn; auto|]. cbn [orb].
  pose proof (bval_lt c) as Hc. destruct (_ && _) eqn:E.
  - cbn [app]. apply RC_code; auto; try (unfold rfc_hex; change (bval x30) with 48%N; lia); apply hex_digit_rfc.
    + apply N.div_lt_upper_bound; lia.
    + apply N.mod_lt. lia.
  - cbn [app]. apply RC_unescaped; auto. apply andb_false_iff in E. unfold schar in E. fold (bval c) in E.
    destruct (Z.ltb_spec (Z.of_N (bval c)) 128); destruct E as [E|E]; try apply Z.leb_gt in E; try apply Z.ltb_ge in E; lia.
Qed.

Lemma print_chars_rfc s : rfc_chars (flat_map print_char s).
Proof. induction s as [|c s IH]; cbn [flat_map]; [constructor|]. now apply print_char_rfc. Qed.

Lemma digit_pos d : digit d -> d <> x30 -> (49 <= bval d <= 57)%N.
Proof.
  intros H Hd. unfold digit in H. assert (bval d <> 48%N); [|lia]. intros E. apply Hd.
  apply (f_equal byte_of_N) in E. rewrite byte_of_N_bval in E. exact E.
Qed.

Lemma dec_text_rfc n : rfc_int (dec_text n).
Proof.
  unfold dec_text. destruct (dec_loop_ok (S (N.size_nat n)) n [] (size_bound n) ltac:(lia)) as (d & ds & -> & Hd & Hdig & Hz).
  rewrite app_nil_r. inversion Hdig as [|x y H1 H2]; subst.
  destruct (beqb_spec d x30) as [->|Hne].
  - destruct (Hz eq_refl) as [_ ->]. constructor.
  - constructor; auto. now apply digit_pos.
Qed.

Lemma commas_rfc t ts : (forall u, In u (t :: ts) -> rfc_value u) -> rfc_elements (commas (t :: ts)).
Proof.
  revert t. induction ts as [|t' ts IH]; intros t H.
  - cbn [commas]. rewrite <- (app_nil_r t). apply (RE_one [] t []); [constructor|apply H; now left|constructor].
  - change (commas (t :: t' :: ts)) with (t ++ x2c :: commas (t' :: ts)).
    apply (RE_more [] t [] _); [constructor|apply H; now left|constructor|].
    apply IH. intros u Hu. apply H. now right.
Qed.

Lemma print_rfc v : simple v -> forall t, print v = Ret t -> rfc_value t.
Proof.
  induction 1 as [z Hz|b|s|l Hl IH]; intros t Ht; cbn [print] in Ht.
  - injection Ht as <-. unfold int_text. destruct (z <? 0)%Z; [apply RV_minus|apply RV_int]; apply dec_text_rfc.
  - injection Ht as <-. destruct b; constructor.
  - injection Ht as <-. apply RV_string. constructor. apply print_chars_rfc.
  - apply bind_ret in Ht as (ts & Hts & Ht). injection Ht as <-. apply sequence_map in Hts.
    destruct ts as [|t ts]; [apply (RV_array0 []); constructor|]. apply RV_array. apply commas_rfc.
    clear Hl. revert IH. induction Hts as [|v u l us Hv Hts IHts]; intros IH w [].
    + subst. eapply IH; [left; reflexivity|auto].
    + apply IHts; auto. intros x Hx. apply IH. now right.
Qed.

Lemma simple_rfc v : simple v -> exists t, print v = Ret t /\ rfc_value t.
Proof.
  intros H. destruct (print_simple_parse (mkL 1000 10 20) v) as (t & H1 & _); [split; reflexivity|auto|].
  exists t. split; auto. eapply print_rfc; eauto.
Qed.

Lemma quote_first w z l q : w ++ x22 :: z = l ++ x3a :: q -> ~ In x22 l -> ~ In x3a w -> False.
Proof.
  revert l. induction w as [|c w IH]; intros [|d l] E H1 H2; cbn [app] in E.
  - discriminate.
  - injection E as E _. apply H1. now left.
  - injection E as E _. apply H2. now left.
  - injection E as _ E. eapply IH; eauto; intros H; [apply H1|apply H2]; now right.
Qed.

Lemma ws_colon w : rfc_ws w -> ~ In x3a w.
Proof. intros H Hi. unfold rfc_ws in H. rewrite Forall_forall in H. apply H in Hi. cbn in Hi. intuition discriminate. Qed.

Lemma member_quote m : rfc_member m -> exists w z, m = w ++ x22 :: z /\ rfc_ws w.
Proof. intros [w k w1 w2 s w' H1 [s' _] _ _ _ _]. cbn [app]. eauto. Qed.

Lemma members_quote s : rfc_members s -> exists w z, s = w ++ x22 :: z /\ rfc_ws w.
Proof.
  intros H. inversion H as [m Hm|m l Hm _]; subst; apply member_quote in Hm as (w & z & -> & Hw).
  - eauto.
  - rewrite <- app_assoc. cbn [app]. eauto.
Qed.

Lemma object_not_rfc t tx : buildable (fun k => ~ In x22 k) (JObj t) -> (0 < nE t)%N -> print (JObj t) = Ret tx -> ~ rfc_value tx.
Proof.
  intros Hbd Hn Hp Hr. destruct (buildable_ok _ _ Hbd) as [Hw Ha].
  assert (Hq : forall e, In e (tents t) -> ~ In x22 (fst e)).
  { intros [k v] He. cbn [fst]. inversion Ha as [| | | | |t' H1 H2]; subst. unfold tents in He.
    destruct (tbl t) as [bs|] eqn:Eb; [|destruct He]. apply in_ents in He as (i & b & Hi & Hb). apply nth_error_In in Hi.
    eapply (H1 bs b k v); eauto. }
  inversion Hw as [| | | | |t' HC Hb Hk Hv]; subst.
  rewrite print_obj in Hp by auto. apply bind_ret in Hp as (ts & Hts & Hp). injection Hp as <-.
  rewrite (CInv_card _ HC) in Hn. destruct (tents t) as [|[k v] es]; [cbn in Hn; lia|].
  cbn [map sequence] in Hts. apply bind_ret in Hts as (t1 & Ht1 & Hts). apply bind_ret in Hts as (ts' & _ & Hts). injection Hts as <-.
  apply bind_ret in Ht1 as (p & _ & Ht1). cbn [fst snd] in Ht1. injection Ht1 as <-.
  assert (Hc : exists q, commas ((k ++ x3a :: p) :: ts') ++ [x0a; x7d] = k ++ x3a :: q).
  { cbn [commas]. destruct ts'; rewrite <- !app_assoc; cbn [app]; eauto. }
  destruct Hc as (q & Hc). rewrite Hc in Hr.
  assert (Hq' : ~ In x22 (x0a :: k)).
  { intros [H|H]; [discriminate|]. apply (Hq (k, v)); cbn; auto. }
  inversion Hr as [| | |s Hi|s Hi|s Hi|w Hws E|s Hs E|w Hws E|s Hs E]; subst.
  - inversion Hi as [|d ds Hd]; subst. change (bval x7b) with 123%N in Hd. lia.
  - inversion Hi.
  - assert (Hin : In x3a (w ++ [x7d])) by (rewrite E; right; apply in_or_app; right; now left).
    apply in_app_or in Hin as [Hin|[Hin|[]]]; [|discriminate]. revert Hin. now apply ws_colon.
  - apply members_quote in Hs as (w & z & -> & Hws). rewrite <- app_assoc in E. cbn [app] in E.
    eapply (quote_first w (z ++ [x7d]) (x0a :: k) q); auto. now apply ws_colon.
Qed.

(** The shape of the error grammar. *)
From Coq Require Import String.
From Verif Require Import Base JsonSpec JsonFaultSpec JsonModel JsonProof.
From Coq Require Import List NArith ZArith Bool Lia.
From Coq.Init Require Import Byte.
From Coq.Strings Require Import Byte.
Import ListNotations.

Lemma none_of_ws cs s : none_of (cs ++ whites) s -> drop_ws s = s.
Proof.
  destruct s as [|c s]; cbn; auto. intros H. destruct (wsb c) eqn:E; auto. apply wsb_ok in E. exfalso. apply H.
  apply in_or_app. right. exact E.
Qed.

Lemma none_of_drop cs s : none_of cs (drop_ws s) -> none_of (cs ++ whites) (drop_ws s).
Proof.
  intros H. destruct (drop_ws s) as [|c t] eqn:E; auto. cbn in *. intros Hi. apply in_app_or in Hi as [Hi|Hi]; auto.
  assert (Hw : wsb c = true) by now apply wsb_ok.
  pose proof (drop_ws_idem s) as Hd. rewrite E in Hd. cbn in Hd. rewrite Hw in Hd.
  pose proof (drop_ws_length t) as Hl. rewrite Hd in Hl. cbn in Hl. lia.
Qed.

Lemma digits_ok c : In c digits <-> digit c.
Proof.
  rewrite <- is_digit_ok. split.
  - cbn [In digits]. intros H. repeat (destruct H as [<-|H]; [reflexivity|]). destruct H.
  - destruct c; vm_compute; intros; try discriminate; tauto.
Qed.

(** empty containers *)
Lemma no_close x t : wsb x = false -> (forall w' r, white w' -> t <> w' ++ x :: r) <-> (forall r, drop_ws t <> x :: r).
Proof.
  intros Hx. split.
  - intros H r E. destruct (drop_ws_split t) as (w & Hw & Ht). rewrite E in Ht. eapply H; eauto.
  - intros H w r Hw ->. rewrite drop_ws_white in H by auto. rewrite drop_ws_cons in H by auto. eapply H; eauto.
Qed.

(** one more character *)
Lemma none_of_next c cs s : none_of (c :: cs ++ whites) (drop_ws s) <-> (forall r, drop_ws s <> c :: r) /\ none_of cs (drop_ws s).
Proof.
  split.
  - intros H. split.
    + intros r E. rewrite E in H. apply H. now left.
    + destruct (drop_ws s) as [|x t]; auto. intros Hi. apply H. right. apply in_or_app. now left.
  - intros [H1 H2]. apply (none_of_drop (c :: cs)). destruct (drop_ws s) as [|x t]; auto. intros [<-|Hi]; auto. eapply H1; eauto.
Qed.

Section Shape.
  Variable lits : bool -> bool.
  Notation gval := (gval lits).
  Notation bad_val := (bad_val lits).
  Notation bad_elems := (bad_elems lits).
  Notation bad_members := (bad_members lits).

  Definition core_bad (t : bytes) (m : string) : Prop :=
    match t with
    | [] => m = no_value
    | c :: s =>
        if beqb c x7b then (forall r, drop_ws s <> x7d :: r) /\ bad_members s m
        else if beqb c x5b then (forall r, drop_ws s <> x5d :: r) /\ bad_elems s m
        else if beqb c x22 then bad_chars s m
        else if beqb c x74 then (lits true = false \/ forall r, s <> [x72; x75; x65] ++ r) /\ m = no_true
        else if beqb c x66 then (lits false = false \/ forall r, s <> [x61; x6c; x73; x65] ++ r) /\ m = no_false
        else if beqb c x2d then ~ starts_with_digit s /\ m = no_digits
        else ~ digit c /\ m = no_value
    end.

  Lemma none_digits s : none_of digits s <-> ~ starts_with_digit s.
  Proof.
    split.
    - intros H (c & s' & -> & Hc). apply H. now apply digits_ok.
    - intros H. destruct s as [|c s]; cbn -[digits]; auto. intros Hi. apply H. exists c, s. split; auto. now apply digits_ok.
  Qed.

  Lemma bad_val_core s m : bad_val s m -> core_bad (drop_ws s) m.
  Proof.
    destruct 1 as [w s Hw Hs|w b s Hw Hs|w s Hw Hs|w s m Hw Hs|w s m Hw Hn Hs|w s m Hw Hn Hs]; rewrite drop_ws_white by auto.
    - rewrite app_assoc in Hs. rewrite (none_of_ws _ _ Hs). destruct s as [|c s]; [reflexivity|]. cbn -[digits whites] in Hs. cbn [core_bad].
      repeat (match goal with |- context [beqb c ?x] => destruct (beqb_spec c x) as [->|?]; [exfalso; apply Hs; tauto|] end).
      split; auto. intros Hd. apply Hs. do 6 right. apply in_or_app. left. now apply digits_ok.
    - destruct b; cbn; auto.
    - cbn -[digits]. split; auto. now apply none_digits.
    - exact Hs.
    - cbn. split; auto. now apply no_close.
    - cbn. split; auto. now apply no_close.
  Qed.

  Lemma core_bad_val s m : core_bad (drop_ws s) m -> bad_val s m.
  Proof.
    destruct (drop_ws_split s) as (w & Hw & Hs). intros H.
    destruct (drop_ws s) as [|c t] eqn:Ed; rewrite Hs.
    { cbn in H. subst m. now apply B_none. }
    assert (Hwc : wsb c = false).
    { pose proof (drop_ws_idem s) as Hi. rewrite Ed in Hi. cbn in Hi. destruct (wsb c) eqn:E; auto.
      pose proof (drop_ws_length t) as Hl. rewrite Hi in Hl. cbn in Hl. lia. }
    clear Hs Ed s. cbn [core_bad] in H.
    destruct (beqb_spec c x7b) as [->|N1]; [destruct H as [H1 H2]; apply B_object; auto; now apply no_close|].
    destruct (beqb_spec c x5b) as [->|N2]; [destruct H as [H1 H2]; apply B_array; auto; now apply no_close|].
    destruct (beqb_spec c x22) as [->|N3]; [now apply B_string|].
    destruct (beqb_spec c x74) as [->|N4]; [destruct H as [H ->]; exact (B_literal lits w true t Hw H)|].
    destruct (beqb_spec c x66) as [->|N5]; [destruct H as [H ->]; exact (B_literal lits w false t Hw H)|].
    destruct (beqb_spec c x2d) as [->|N6]; [destruct H as [H ->]; apply B_minus; auto; now apply none_digits|].
    destruct H as [H ->]. apply B_none; auto. cbn -[digits whites].
    intros Hi. repeat (destruct Hi as [Hi|Hi]; [congruence|]). apply in_app_or in Hi as [Hi|Hi].
    - apply H. now apply digits_ok.
    - assert (wsb c = true) by (now apply wsb_ok). congruence.
  Qed.

  Definition after_bad_elem (t : bytes) (m : string) : Prop :=
    match t with
    | [] => m = no_bracket
    | c :: s => if beqb c x2c then bad_elems s m else if beqb c x5d then False else m = no_bracket
    end.
  Definition after_bad_member (t : bytes) (m : string) : Prop :=
    match t with
    | [] => m = no_brace
    | c :: s => if beqb c x2c then bad_members s m else if beqb c x7d then False else m = no_brace
    end.

  Lemma bad_elems_shape s m : bad_elems s m <-> bad_val s m \/ exists a s1, gval s a s1 /\ after_bad_elem (drop_ws s1) m.
  Proof.
    split.
    - destruct 1 as [s m H|s a w r H Hw Hr|s a w s' m H Hw Hs]; auto; right; eexists _, _; (split; [eassumption|]); rewrite drop_ws_white by auto.
      + rewrite (none_of_ws [x2c; x5d] _ Hr). destruct r as [|c r]; [reflexivity|]. cbn -[whites] in *.
        destruct (beqb_spec c x2c) as [->|?]; [tauto|]. destruct (beqb_spec c x5d) as [->|?]; [tauto|]. reflexivity.
      + exact Hs.
    - intros [H|(a & s1 & H & Ha)]; [now apply BE_value|]. destruct (drop_ws_split s1) as (w & Hw & Hs). rewrite Hs in H.
      destruct (drop_ws s1) as [|c t] eqn:Ed; cbn in Ha.
      + subst m. eapply BE_after; eauto. exact I.
      + destruct (beqb_spec c x2c) as [->|?]; [eapply BE_next; eauto|]. destruct (beqb_spec c x5d) as [->|?]; [tauto|]. subst m.
        eapply BE_after; eauto. rewrite <- Ed. apply (none_of_drop [x2c; x5d]). rewrite Ed. cbn. intuition congruence.
  Qed.

  Lemma bad_members_shape s m : bad_members s m <->
    bad_key s m \/ exists k s0, gkey s k s0 /\ (bad_val s0 m \/ exists a s1, gval s0 a s1 /\ after_bad_member (drop_ws s1) m).
  Proof.
    split.
    - destruct 1 as [s m H|s k s0 m Hk H|s k s0 a w r Hk H Hw Hr|s k s0 a w s' m Hk H Hw Hs]; auto; right; exists k, s0; (split; [exact Hk|]); auto;
        right; eexists _, _; (split; [eassumption|]); rewrite drop_ws_white by auto.
      + rewrite (none_of_ws [x2c; x7d] _ Hr). destruct r as [|c r]; [reflexivity|]. cbn -[whites] in *.
        destruct (beqb_spec c x2c) as [->|?]; [tauto|]. destruct (beqb_spec c x7d) as [->|?]; [tauto|]. reflexivity.
      + exact Hs.
    - intros [H|(k & s0 & Hk & [H|(a & s1 & H & Ha)])]; [now apply BM_key|eapply BM_value; eauto|]. destruct (drop_ws_split s1) as (w & Hw & Hs). rewrite Hs in H.
      destruct (drop_ws s1) as [|c t] eqn:Ed; cbn in Ha.
      + subst m. eapply BM_after; eauto. exact I.
      + destruct (beqb_spec c x2c) as [->|?]; [eapply BM_next; eauto|]. destruct (beqb_spec c x7d) as [->|?]; [tauto|]. subst m.
        eapply BM_after; eauto. rewrite <- Ed. apply (none_of_drop [x2c; x7d]). rewrite Ed. cbn. intuition congruence.
  Qed.

  Lemma bad_key_shape s m : bad_key s m <->
    (m = no_key /\ forall t, drop_ws s <> x22 :: t) \/
    exists t, drop_ws s = x22 :: t /\ (bad_chars t m \/ exists k s2, gchars t k s2 /\ (forall r, drop_ws s2 <> x3a :: r) /\ m = no_colon).
  Proof.
    split.
    - destruct 1 as [w s Hw Hs|w s m Hw Hs|w s k w' r Hw Hs Hw' Hr]; rewrite drop_ws_white by auto.
      + left. split; [reflexivity|]. rewrite (none_of_ws [x22] _ Hs). intros t ->. apply Hs. now left.
      + right. exists s. split; auto.
      + right. exists s. split; auto. right. exists k, (w' ++ r). split; auto. rewrite drop_ws_white by auto. split; [|reflexivity].
        rewrite (none_of_ws [x3a] _ Hr). intros t ->. apply Hr. now left.
    - destruct (drop_ws_split s) as (w & Hw & Hs). intros [(-> & H)|(t & Hd & [H|(k & s2 & Hg & H & ->)])]; rewrite Hs.
      + apply BK_none; auto. apply (none_of_drop [x22]). destruct (drop_ws s) as [|c t]; [exact I|]. cbn. intros [<-|[]]. eapply H; eauto.
      + rewrite Hd. now apply BK_string.
      + rewrite Hd. destruct (drop_ws_split s2) as (w' & Hw' & Hs2). rewrite Hs2 in Hg. eapply BK_colon; eauto.
        apply (none_of_drop [x3a]). destruct (drop_ws s2) as [|c u]; [exact I|]. cbn. intros [<-|[]]. eapply H; eauto.
  Qed.

  Lemma bad_val_drop s m : bad_val (drop_ws s) m <-> bad_val s m.
  Proof.
    split; intros H; apply core_bad_val; apply bad_val_core in H; [rewrite drop_ws_idem in H|rewrite drop_ws_idem]; exact H.
  Qed.
  Lemma gval_drop s a r : gval (drop_ws s) a r <-> gval s a r.
  Proof.
    split; intros H; apply core_gval; apply gval_core in H; [rewrite drop_ws_idem in H|rewrite drop_ws_idem]; exact H.
  Qed.
  Lemma bad_elems_drop s m : bad_elems (drop_ws s) m -> bad_elems s m.
  Proof.
    rewrite !bad_elems_shape. intros [H|(a & s1 & H & Ha)]; [left; now apply bad_val_drop|right]. exists a, s1. split; auto. now apply gval_drop.
  Qed.
  Lemma bad_members_drop s m : bad_members (drop_ws s) m -> bad_members s m.
  Proof.
    rewrite !bad_members_shape, !bad_key_shape. rewrite drop_ws_idem. intros [H|(k & s0 & Hk & H)]; [now left|right]. exists k, s0. split; auto.
    apply gkey_shape. apply gkey_shape in Hk. rewrite drop_ws_idem in Hk. exact Hk.
  Qed.
End Shape.

Lemma no_gnat s : (forall n r, ~ gnat s n r) -> ~ starts_with_digit s.
Proof.
  intros H Hd. destruct (scan_nat_ok s []) as [(t & r & Ht & _)|(_ & Hs)].
  - eapply H. eapply nat_text_gnat; eauto.
  - destruct Hd as (c & s' & -> & Hc). unfold scan_nat in Hs. rewrite have_if_eq in Hs by reflexivity.
    destruct (beqb_spec c x30) as [->|Hn]; cbn [bind] in Hs; [discriminate|]. unfold parse_int_part in Hs. rewrite have_if_eq in Hs by reflexivity.
    assert (Hp : is_pos_digit c = true) by (apply is_pos_digit_ok; auto). rewrite Hp in Hs. cbn [bind] in Hs. rewrite digits_loop_eq in Hs by lia. discriminate.
Qed.


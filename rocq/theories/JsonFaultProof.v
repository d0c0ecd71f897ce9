(** Messages of the parser. *)
From Coq Require Import String.
From Verif Require Import Base JsonSpec JsonFaultSpec JsonModel JsonDenotes JsonProof JsonFaultShape JsonProof2 JsonProof3 JsonProof4 JsonProof5.
From Coq Require Import List NArith ZArith Bool Lia.
From Coq.Init Require Import Byte.
From Coq.Strings Require Import Byte.
Import ListNotations.

(** ------------------------------------------------------------------ a text has one fault, and then it has no value *)

Lemma four_hex_app a b c d s : four_hex (a :: b :: c :: d :: s) <-> four_hex [a; b; c; d].
Proof.
  split; intros (h1 & h2 & h3 & h4 & r & E & H); injection E as -> -> -> -> _; exists h1, h2, h3, h4; eexists; split; eauto.
Qed.

Lemma bad_chars_ok s m : bad_chars s m -> (forall cs r, ~ gchars s cs r) /\ forall m', bad_chars s m' -> m' = m.
Proof.
  induction 1 as [|s Hs|s Hs|e c s m Hin H [IH1 IH2]|h1 h2 h3 h4 s m Hx H [IH1 IH2]|c s m Hq Hb H [IH1 IH2]]; split.
  - intros cs r H. inversion H.
  - intros m' H. now inversion H.
  - intros cs r H. apply gchars_esc_inv in H as (c & s' & cs' & [(e & -> & Hin)|(h1 & h2 & h3 & h4 & n1 & n2 & n3 & n4 & -> & _)] & _); cbn -[short_escapes] in Hs.
    + apply Hs. right. change e with (fst (e, c)). now apply in_map.
    + apply Hs. now left.
  - intros m' H. inversion H as [|? ?|? ?|e c s' m2 Hin|h1 h2 h3 h4 s' m2 Hx|]; subst; auto; try congruence.
    + exfalso. apply Hs. now left.
    + exfalso. apply Hs. right. change e with (fst (e, c)). now apply in_map.
    + exfalso. apply Hs. now left.
  - intros cs r H. inversion H; subst; try congruence.
    + now apply short_escapes_u in H2.
    + apply Hs. exists h1, h2, h3, h4, s0. split; auto. repeat constructor; congruence.
  - intros m' H. inversion H as [|? Hn|? ?|e c s' m2 Hin|h1 h2 h3 h4 s' m2 Hx|]; subst; auto; try congruence.
    + exfalso. apply Hn. now left.
    + now apply short_escapes_u in Hin.
    + exfalso. apply Hs. now apply four_hex_app.
  - intros cs r H'. inversion H'; subst; try congruence.
    + eapply IH1; eauto.
    + now apply short_escapes_u in Hin.
  - intros m' H'. inversion H' as [|? Hn|? ?|e' c' s' m2 Hin'|h1 h2 h3 h4 s' m2 Hx|]; subst; auto; try congruence.
    + exfalso. apply Hn. right. change e with (fst (e, c)). now apply in_map.
    + now apply short_escapes_u in Hin.
    + now apply short_escapes_u in Hin.
  - intros cs r H'. inversion H'; subst; try congruence.
    + now apply short_escapes_u in H2.
    + eapply IH1; eauto.
  - intros m' H'. inversion H' as [|? Hn|? Hn|e' c' s' m2 Hin'|g1 g2 g3 g4 s' m2 Hx'|]; subst; auto; try congruence.
    + exfalso. apply Hn. now left.
    + exfalso. apply Hn. now apply four_hex_app.
    + now apply short_escapes_u in Hin'.
  - intros cs r H'. inversion H'; subst; try congruence. eapply IH1; eauto.
  - intros m' H'. inversion H'; subst; auto; congruence.
Qed.

Lemma bad_key_ok s m : bad_key s m -> (forall k r, ~ gkey s k r) /\ forall m', bad_key s m' -> m' = m.
Proof.
  intros H. apply bad_key_shape in H as [(-> & H)|(t & Hd & [H|(k & s2 & Hg & Hn & ->)])]; split.
  - intros k r Hk. apply gkey_shape in Hk as (s1 & s2 & E & _). eapply H; eauto.
  - intros m' H'. apply bad_key_shape in H' as [(-> & _)|(t & E & _)]; auto. exfalso. eapply H; eauto.
  - intros k r Hk. apply gkey_shape in Hk as (s1 & s2 & E & Hg & _). rewrite Hd in E. injection E as <-. eapply bad_chars_ok; eauto.
  - intros m' H'. apply bad_key_shape in H' as [(-> & E)|(t' & E & [H'|(k & s2 & Hg & _)])]; [exfalso; eapply E; eauto| |]; rewrite Hd in E; injection E as <-.
    + eapply bad_chars_ok; eauto.
    + exfalso. eapply bad_chars_ok; eauto.
  - intros k' r Hk. apply gkey_shape in Hk as (s1 & s2' & E & Hg' & E2). rewrite Hd in E. injection E as <-.
    destruct (gchars_det _ _ _ Hg _ _ Hg') as [<- <-]. eapply Hn; eauto.
  - intros m' H'. apply bad_key_shape in H' as [(-> & E)|(t' & E & [H'|(k' & s2' & _ & _ & ->)])]; auto; [exfalso; eapply E; eauto|].
    rewrite Hd in E; injection E as <-. exfalso. eapply bad_chars_ok; eauto.
Qed.

Section Faults.
  Variable L : bool -> bool.

  Lemma bad_ok n :
    (forall s m, length s < n -> bad_val L s m -> (forall a r, ~ gval L s a r) /\ forall m', bad_val L s m' -> m' = m) /\
    (forall s m, length s < n -> bad_elems L s m -> (forall l r, ~ gelems L s l r) /\ forall m', bad_elems L s m' -> m' = m) /\
    (forall s m, length s < n -> bad_members L s m -> (forall l r, ~ gmembers L s l r) /\ forall m', bad_members L s m' -> m' = m).
  Proof.
    induction n as [|n (IHv & IHe & IHm)]; [splits; intros; lia|].
    assert (Hv : forall s m, length s < S n -> bad_val L s m -> (forall a r, ~ gval L s a r) /\ forall m', bad_val L s m' -> m' = m).
    { intros s m Hn H. apply bad_val_core in H. pose proof (drop_ws_length s) as Hl.
      assert (G : (forall a r, ~ core L (drop_ws s) a r) /\ forall m', core_bad L (drop_ws s) m' -> m' = m).
      2:{ destruct G as [G1 G2]. split; [intros a r Hg; eapply G1; apply gval_core; eauto|intros m' Hb; apply G2; now apply bad_val_core]. }
      destruct (drop_ws s) as [|c t]; cbn [core core_bad] in *; [split; auto; intros; congruence|]. cbn [length] in Hl.
      destruct (beqb c x7b).
      { destruct H as [H1 H2]. apply IHm in H2 as [H2 H3]; [|lia]. split.
        - intros a r [(s' & E & _)|(ms & _ & Hg)]; [eapply H1; eauto|eapply H2; eauto].
        - intros m' [_ H']. auto. }
      destruct (beqb c x5b).
      { destruct H as [H1 H2]. apply IHe in H2 as [H2 H3]; [|lia]. split.
        - intros a r [(s' & E & _)|(ms & _ & Hg)]; [eapply H1; eauto|eapply H2; eauto].
        - intros m' [_ H']. auto. }
      destruct (beqb c x22).
      { apply bad_chars_ok in H as [H1 H2]. split; auto. intros a r (cs & _ & Hg). eapply H1; eauto. }
      destruct (beqb c x74).
      { destruct H as [H ->]. split; [|intros m' [_ ->]; auto]. intros a r (Hl' & -> & _). destruct H as [H|H]; [congruence|eapply H; eauto]. }
      destruct (beqb c x66).
      { destruct H as [H ->]. split; [|intros m' [_ ->]; auto]. intros a r (Hl' & -> & _). destruct H as [H|H]; [congruence|eapply H; eauto]. }
      destruct (beqb c x2d).
      { destruct H as [H ->]. split; [|intros m' [_ ->]; auto]. intros a r (k & _ & Hg). apply H. apply gnat_head in Hg. exact Hg. }
      destruct H as [H ->]. split; [|intros m' [_ ->]; auto]. intros a r (k & _ & Hg). apply gnat_head in Hg as (c' & s' & E & Hd). injection E as <- <-. auto. }
    splits; auto.
    - intros s m Hn H. apply bad_elems_shape in H as [H|(a & s1 & Hg & Ha)].
      + destruct (Hv _ _ Hn H) as [H1 H2]. split.
        * intros l r Hg. apply gelems_shape in Hg as (a & s1 & l' & Hg & _). eapply H1; eauto.
        * intros m' H'. apply bad_elems_shape in H' as [H'|(a & s1 & Hg & _)]; auto. exfalso. eapply H1; eauto.
      + pose proof (gval_len _ _ _ _ Hg) as Hl. pose proof (drop_ws_length s1) as Hd.
        assert (G : (forall l' r, ~ after_elem L (drop_ws s1) l' r) /\ forall m', after_bad_elem L (drop_ws s1) m' -> m' = m).
        { destruct (drop_ws s1) as [|c t]; cbn [after_elem after_bad_elem length] in *; [split; auto; intros; congruence|].
          destruct (beqb c x2c); [apply IHe; auto; lia|]. destruct (beqb c x5d); [tauto|]. split; auto. intros; congruence. }
        destruct G as [G1 G2]. split.
        * intros l r Hg'. apply gelems_shape in Hg' as (a' & s1' & l' & Hg' & _ & Ha'). destruct (gval_det _ _ _ _ _ _ Hg Hg') as [<- <-]. eapply G1; eauto.
        * intros m' H'. apply bad_elems_shape in H' as [H'|(a' & s1' & Hg' & Ha')].
          -- destruct (Hv _ _ Hn H') as [H1 _]. exfalso. eapply H1; eauto.
          -- destruct (gval_det _ _ _ _ _ _ Hg Hg') as [<- <-]. auto.
    - intros s m Hn H. apply bad_members_shape in H as [H|(k & s0 & Hk & H)].
      + destruct (bad_key_ok _ _ H) as [H1 H2]. split.
        * intros l r Hg. apply gmembers_shape in Hg as (k & s0 & a & s1 & l' & Hk & _). eapply H1; eauto.
        * intros m' H'. apply bad_members_shape in H' as [H'|(k & s0 & Hk & _)]; auto. exfalso. eapply H1; eauto.
      + pose proof (gkey_len _ _ _ Hk) as Hlk. assert (Hnk : forall m', ~ bad_key s m').
        { intros m' Hb. apply bad_key_ok in Hb as [Hb _]. eapply Hb; eauto. }
        destruct H as [H|(a & s1 & Hg & Ha)].
        * destruct (Hv s0 m ltac:(lia) H) as [H1 H2]. split.
          -- intros l r Hg. apply gmembers_shape in Hg as (k' & s0' & a & s1 & l' & Hk' & Hg & _). destruct (gkey_det _ _ _ _ _ Hk Hk') as [<- <-]. eapply H1; eauto.
          -- intros m' H'. apply bad_members_shape in H' as [H'|(k' & s0' & Hk' & H')]; [exfalso; eapply Hnk; eauto|]. destruct (gkey_det _ _ _ _ _ Hk Hk') as [<- <-].
             destruct H' as [H'|(a & s1 & Hg & _)]; auto. exfalso. eapply H1; eauto.
        * pose proof (gval_len _ _ _ _ Hg) as Hl. pose proof (drop_ws_length s1) as Hd.
          assert (G : (forall l' r, ~ after_member L (drop_ws s1) l' r) /\ forall m', after_bad_member L (drop_ws s1) m' -> m' = m).
          { destruct (drop_ws s1) as [|c t]; cbn [after_member after_bad_member length] in *; [split; auto; intros; congruence|].
            destruct (beqb c x2c); [apply IHm; auto; lia|]. destruct (beqb c x7d); [tauto|]. split; auto. intros; congruence. }
          destruct G as [G1 G2]. split.
          -- intros l r Hg'. apply gmembers_shape in Hg' as (k' & s0' & a' & s1' & l' & Hk' & Hg' & _ & Ha'). destruct (gkey_det _ _ _ _ _ Hk Hk') as [<- <-].
             destruct (gval_det _ _ _ _ _ _ Hg Hg') as [<- <-]. eapply G1; eauto.
          -- intros m' H'. apply bad_members_shape in H' as [H'|(k' & s0' & Hk' & H')]; [exfalso; eapply Hnk; eauto|]. destruct (gkey_det _ _ _ _ _ Hk Hk') as [<- <-].
             destruct H' as [H'|(a' & s1' & Hg' & Ha')].
             ++ destruct (Hv s0 m' ltac:(lia) H') as [H1 _]. exfalso. eapply H1; eauto.
             ++ destruct (gval_det _ _ _ _ _ _ Hg Hg') as [<- <-]. auto.
  Qed.

  Lemma bad_no_value s m : bad_val L s m -> forall a r, ~ gval L s a r.
  Proof. intros H. eapply bad_ok; [apply le_n|exact H]. Qed.
  Lemma bad_unique s m m' : bad_val L s m -> bad_val L s m' -> m = m'.
  Proof. intros H H'. symmetry. eapply (proj1 (bad_ok (S (length s)))); eauto. Qed.
End Faults.

(** ------------------------------------------------------------------ the parser *)

Lemma stderr_ok lay s : (N.of_nat (length s) < 2^28)%N ->
  (exists a r v, gval (layout_lits lay) s a r /\ parse lay s = Ret (true, v) /\ parse_stderr lay s = Ret EmptyString) \/
  (exists m, bad_val (layout_lits lay) s m /\ parse lay s = Ret (false, JUndef) /\ parse_stderr lay s = Ret m).
Proof.
  intros Hs. unfold parse, parse_stderr.
  destruct (parse_value_ok lay (S (length s)) ltac:(lia) s (mkC [] JUndef)) as [(a & r & v & c' & Hg & Hb & Hw & Hset & ->)|(Hno & msg & Hbad & ->)].
  - lia.
  - constructor.
  - left. eauto 6.
  - right. eauto.
Qed.

(** ------------------------------------------------------------------ going on with a text *)

Lemma gchars_app s cs r u : gchars s cs r -> gchars (s ++ u) cs (r ++ u).
Proof.
  induction 1; cbn [app]; [apply GC_end|eapply GC_escape; eauto|eapply GC_code; eauto|apply GC_plain; auto].
Qed.

Lemma gkey_app s k r u : gkey s k r -> gkey (s ++ u) k (r ++ u).
Proof.
  destruct 1 as [w s k w' r Hw Hg Hw']. rewrite <- app_assoc. apply (gchars_app _ _ _ u) in Hg. rewrite <- app_assoc in Hg. cbn [app] in *.
  econstructor; eauto.
Qed.

(** what may follow a value that ends where the text ends *)
Definition goes_on (r u : bytes) : Prop := r <> [] \/ ~ starts_with_digit u.

Lemma goes_on_cons c s w r u : r = w ++ c :: s -> goes_on r u.
Proof. intros ->. left. destruct w; discriminate. Qed.

Lemma gnat_app s n r u : gnat s n r -> goes_on r u -> gnat (s ++ u) n (r ++ u).
Proof.
  destruct 1 as [r|d ds r Hd Hz Hds Hr]; intros Hu; [constructor|]. cbn [app]. rewrite <- app_assoc. constructor; auto.
  destruct r as [|c r]; [destruct Hu as [Hu|Hu]; [congruence|exact Hu]|]. intros (c' & s' & E & Hc). injection E as <- <-. apply Hr. exists c, r. auto.
Qed.

Section Going.
  Variable L : bool -> bool.

  Lemma gval_app s a r : gval L s a r -> forall u, goes_on r u -> gval L (s ++ u) a (r ++ u).
  Proof.
    revert s a r. apply (gval_ind2 L (fun s a r => forall u, goes_on r u -> gval L (s ++ u) a (r ++ u))
      (fun s l r => forall u, gelems L (s ++ u) l (r ++ u)) (fun s l r => forall u, gmembers L (s ++ u) l (r ++ u))).
    - intros w b r Hw Hl u _. rewrite <- !app_assoc. now constructor.
    - intros w s n r Hw Hg u Hu. rewrite <- !app_assoc. constructor; auto. now apply gnat_app.
    - intros w s n r Hw Hg u Hu. rewrite <- !app_assoc. cbn [app]. constructor; auto. now apply gnat_app.
    - intros w s cs r Hw Hg u _. rewrite <- !app_assoc. cbn [app]. constructor; auto. now apply gchars_app.
    - intros w w' r Hw Hw' u _. rewrite <- !app_assoc. cbn [app]. rewrite <- app_assoc. cbn [app]. now constructor.
    - intros w s l r Hw _ IH u _. rewrite <- app_assoc. cbn [app]. constructor; auto.
    - intros w w' r Hw Hw' u _. rewrite <- !app_assoc. cbn [app]. rewrite <- app_assoc. cbn [app]. now constructor.
    - intros w s l r Hw _ IH u _. rewrite <- app_assoc. cbn [app]. constructor; auto.
    - intros s a w r _ IH Hw u. specialize (IH u (goes_on_cons _ _ _ _ _ eq_refl)). rewrite <- app_assoc in IH. econstructor; eauto.
    - intros s a w s' l r _ IH Hw _ IH' u. specialize (IH u (goes_on_cons _ _ _ _ _ eq_refl)). rewrite <- app_assoc in IH. econstructor; eauto.
    - intros s k s' a w r Hk _ IH Hw u. specialize (IH u (goes_on_cons _ _ _ _ _ eq_refl)). rewrite <- app_assoc in IH. econstructor; eauto. now apply gkey_app.
    - intros s k s' a w s'' l r Hk _ IH Hw _ IH' u. specialize (IH u (goes_on_cons _ _ _ _ _ eq_refl)). rewrite <- app_assoc in IH. econstructor; eauto. now apply gkey_app.
  Qed.

  Lemma none_of_app cs s u : s <> [] -> none_of cs s -> none_of cs (s ++ u).
  Proof. destruct s; auto. congruence. Qed.

  (** *** strings *)

  Lemma four_hex_dec s : four_hex s \/ ~ four_hex s /\ ((exists u, four_hex (s ++ u) /\ length (s ++ u) = 4) \/ forall u, ~ four_hex (s ++ u)).
  Proof.
    assert (D : forall c : byte, hex_value c <> None \/ hex_value c = None) by (intros c; destruct (hex_value c); [left; discriminate|right; reflexivity]).
    assert (Z : hex_value x30 <> None) by discriminate.
    assert (I1 : forall s', four_hex s' -> Forall (fun h => hex_value h <> None) (firstn 4 s')).
    { intros s' (h1 & h2 & h3 & h4 & r & -> & H). exact H. }
    assert (I2 : forall s', four_hex s' -> 4 <= length s').
    { intros s' (h1 & h2 & h3 & h4 & r & -> & H). cbn. lia. }
    assert (G : (exists u, four_hex (firstn 4 s ++ u) /\ length (firstn 4 s ++ u) = 4) \/ exists c, In c (firstn 4 s) /\ hex_value c = None).
    { destruct s as [|c1 [|c2 [|c3 [|c4 s]]]]; cbn [firstn];
        repeat match goal with c : byte |- _ => lazymatch goal with H : hex_value c <> None |- _ => fail | _ => destruct (D c); [|right; exists c; split; [cbn; tauto|assumption]] end end;
        left; [exists [x30;x30;x30;x30]|exists [x30;x30;x30]|exists [x30;x30]|exists [x30]|exists []];
        (split; [unfold four_hex; cbn [app]; do 5 eexists; (split; [reflexivity|repeat constructor; auto])|reflexivity]). }
    destruct G as [(u & Hu & Hlu)|(c & Hin & Hc)].
    - destruct (Nat.le_gt_cases 4 (length s)) as [Hl|Hl].
      + left. assert (length (firstn 4 s) = 4) by (rewrite firstn_length; lia). rewrite app_length in Hlu. destruct u; [|cbn [length] in Hlu; lia].
        rewrite app_nil_r in Hu. destruct Hu as (h1 & h2 & h3 & h4 & r & E & H'). exists h1, h2, h3, h4, (r ++ skipn 4 s). split; auto.
        rewrite <- (firstn_skipn 4 s) at 1. now rewrite E.
      + right. split; [intros H; apply I2 in H; lia|]. left. exists u. rewrite firstn_all2 in Hu, Hlu by lia. auto.
    - assert (Hn : forall u, ~ four_hex (s ++ u)).
      { intros u H. apply I1 in H. rewrite Forall_forall in H. apply (H c); auto. rewrite firstn_app. apply in_or_app. now left. }
      right. split; [|now right]. intros H. apply (Hn []). now rewrite app_nil_r.
  Qed.

  Lemma bad_chars_go s m : bad_chars s m ->
    (exists u cs, gchars (s ++ u) cs [] /\ length u <= 5) \/ forall u, bad_chars (s ++ u) m.
  Proof.
    induction 1 as [|s Hs|s Hs|e c s m Hin H IH|h1 h2 h3 h4 s m Hx H IH|c s m Hq Hb H IH].
    - left. exists [x22], []. split; [constructor|cbn; lia].
    - destruct s as [|c s].
      + left. exists [x22; x22], [x22]. split; [|cbn; lia]. apply (GC_escape x22 x22 [x22]); [now left|constructor].
      + right. intros u. apply BC_escape. exact Hs.
    - destruct (four_hex_dec s) as [Hf|(_ & [(u & Hu & Hlu)|Hn])]; [tauto| |].
      + left. destruct Hu as (h1 & h2 & h3 & h4 & r & E & Hh). assert (r = []) by (rewrite E in Hlu; destruct r; [auto|cbn in Hlu; lia]). subst r.
        inversion_clear Hh as [|? ? H1 Hh']. inversion_clear Hh' as [|? ? H2 Hh'']. inversion_clear Hh'' as [|? ? H3 Hh3]. inversion_clear Hh3 as [|? ? H4 _].
        destruct (hex_value h1) as [n1|] eqn:E1; [|congruence]. destruct (hex_value h2) as [n2|] eqn:E2; [|congruence].
        destruct (hex_value h3) as [n3|] eqn:E3; [|congruence]. destruct (hex_value h4) as [n4|] eqn:E4; [|congruence].
        exists (u ++ [x22]). eexists. split.
        * cbn [app]. rewrite app_assoc, E. cbn [app]. eapply GC_code; eauto. constructor.
        * rewrite app_length in *. cbn. lia.
      + right. intros u. apply BC_code. apply Hn.
    - destruct IH as [(u & cs & Hg & Hl)|IH]; [left; exists u; eexists; split; [|exact Hl]; cbn [app]; econstructor; eauto|right].
      intros u. cbn [app]. eapply BC_after_escape; eauto.
    - destruct IH as [(u & cs & Hg & Hl)|IH].
      + left. exists u. destruct Hx as (? & ? & ? & ? & r & E & Hh). injection E as <- <- <- <- _.
        inversion_clear Hh as [|? ? H1 Hh']. inversion_clear Hh' as [|? ? H2 Hh'']. inversion_clear Hh'' as [|? ? H3 Hh3]. inversion_clear Hh3 as [|? ? H4 _].
        destruct (hex_value h1) as [n1|] eqn:E1; [|congruence]. destruct (hex_value h2) as [n2|] eqn:E2; [|congruence].
        destruct (hex_value h3) as [n3|] eqn:E3; [|congruence]. destruct (hex_value h4) as [n4|] eqn:E4; [|congruence].
        eexists. split; [|exact Hl]. cbn [app]. eapply GC_code; eauto.
      + right. intros u. cbn [app]. apply BC_after_code; auto.
    - destruct IH as [(u & cs & Hg & Hl)|IH]; [left; exists u; eexists; split; [|exact Hl]; cbn [app]; apply GC_plain; eauto|right].
      intros u. cbn [app]. apply BC_after_plain; auto.
  Qed.

  Lemma bad_key_go s m : bad_key s m ->
    (exists u k, gkey (s ++ u) k [] /\ length u <= 6) \/ forall u, bad_key (s ++ u) m.
  Proof.
    destruct 1 as [w s Hw Hs|w s m Hw Hs|w s k w' r Hw Hs Hw' Hr].
    - destruct s as [|c s].
      + left. exists [x22; x22; x3a], []. split; [|cbn; lia]. rewrite app_nil_r. apply (GK w [x22; x3a] [] [] []); auto; constructor.
      + right. intros u. rewrite <- app_assoc. apply BK_none; auto.
    - apply bad_chars_go in Hs as [(u & cs & Hg & Hl)|Hs].
      + left. exists (u ++ [x3a]), cs. split; [|rewrite app_length; cbn; lia]. rewrite <- app_assoc. cbn [app].
        apply (gchars_app _ _ _ [x3a]) in Hg. rewrite <- app_assoc in Hg. apply (GK w _ cs [] []); auto. constructor.
      + right. intros u. rewrite <- app_assoc. cbn [app]. apply BK_string; auto.
    - destruct r as [|c r].
      + left. exists [x3a], k. split; [|cbn; lia]. rewrite <- app_assoc. cbn [app].
        apply (gchars_app _ _ _ [x3a]) in Hs. rewrite <- app_assoc in Hs. cbn [app] in Hs. eapply GK; eauto.
      + right. intros u. rewrite <- app_assoc. cbn [app]. apply (gchars_app _ _ _ u) in Hs. rewrite <- app_assoc in Hs. eapply BK_colon; eauto.
  Qed.

  (** *** values *)

  Lemma prefix_dec (p s : bytes) : (exists r, s = p ++ r) \/ (exists u, p = s ++ u /\ u <> []) \/ (forall u r, s ++ u <> p ++ r).
  Proof.
    revert s. induction p as [|c p IH]; intros s; [left; exists s; reflexivity|]. destruct s as [|d s]; [right; left; exists (c :: p); split; [reflexivity|discriminate]|].
    destruct (Byte.byte_eq_dec c d) as [<-|Hn].
    - destruct (IH s) as [(r & ->)|[(u & -> & Hu)|H]]; [left; exists r; reflexivity|right; left; exists u; auto|right; right].
      intros u r E. injection E as E. eapply H; eauto.
    - right. right. intros u r E. injection E as E _. congruence.
  Qed.

  (** the text begins no closing [c] and either ends in white space or never will *)
  Lemma close_dec (c : byte) s : (forall w r, white w -> s <> w ++ c :: r) ->
    white s \/ (forall u w r, white w -> ~ white_char c -> s ++ u <> w ++ c :: r).
  Proof.
    induction s as [|d s IH]; intros H; [left; constructor|].
    destruct (wsb d) eqn:Hd.
    - apply wsb_ok in Hd. destruct IH as [IH|IH].
      + intros w r Hw ->. apply (H (d :: w) r); [now constructor|reflexivity].
      + left. now constructor.
      + right. intros u w r Hw Hc E. destruct w as [|x w]; cbn [app] in E; [injection E as <- _; auto|]. injection E as -> E. inversion Hw. subst. eapply IH; eauto.
    - right. intros u w r Hw Hc E. destruct w as [|x w]; cbn [app] in E.
      + injection E as -> _. apply (H [] s); [constructor|reflexivity].
      + injection E as -> E. inversion Hw. subst. assert (wsb x = true) by now apply wsb_ok. congruence.
  Qed.

  Lemma no_digit c u : ~ digit c -> ~ starts_with_digit (c :: u).
  Proof. intros H (c' & s' & E & H'). injection E as <- <-. auto. Qed.

  Lemma go n :
    (forall s m, length s < n -> bad_val L s m ->
      (exists u a, gval L (s ++ u) a [] /\ length u <= length s + 7) \/ forall u, bad_val L (s ++ u) m) /\
    (forall s m, length s < n -> bad_elems L s m ->
      (exists u l, gelems L (s ++ u) l [] /\ length u <= length s + 8) \/ forall u, bad_elems L (s ++ u) m) /\
    (forall s m, length s < n -> bad_members L s m ->
      (exists u l, gmembers L (s ++ u) l [] /\ length u <= length s + 8) \/ forall u, bad_members L (s ++ u) m).
  Proof.
    induction n as [|n (IHv & IHe & IHm)]; [splits; intros; lia|].
    assert (N5 : ~ digit x5d) by (intros [_ H]; vm_compute in H; auto). assert (N7 : ~ digit x7d) by (intros [_ H]; vm_compute in H; auto).
    assert (Z : forall w, white w -> gval L (w ++ [x30]) (AInt 0) []) by (intros w Hw; apply (G_nat L w [x30] 0 []); auto; constructor).
    assert (Hv : forall s m, length s < S n -> bad_val L s m ->
      (exists u a, gval L (s ++ u) a [] /\ length u <= length s + 7) \/ forall u, bad_val L (s ++ u) m).
    { intros s m Hn H. destruct H as [w s Hw Hs|w b s Hw Hs|w s Hw Hs|w s m Hw Hs|w s m Hw Hc Hs|w s m Hw Hc Hs].
      - destruct s as [|c s].
        + left. exists [x30], (AInt 0). split; [|cbn; lia]. rewrite app_nil_r. auto.
        + right. intros u. rewrite <- app_assoc. apply B_none; auto.
      - destruct (L b) eqn:Hl.
        + destruct Hs as [Hs|Hs]; [congruence|]. destruct (prefix_dec (literal_rest b) s) as [(r & ->)|[(u & E & _)|H]]; [exfalso; eapply Hs; eauto| |].
          * left. exists u, (ABool b). split.
            -- rewrite <- app_assoc. cbn [app]. rewrite <- E. pose proof (G_bool L w b [] Hw Hl) as G. rewrite app_nil_r in G. destruct b; exact G.
            -- assert (length (literal_rest b) <= 4) by (destruct b; cbn; lia). rewrite E, app_length in H. lia.
          * right. intros u. rewrite <- app_assoc. cbn [app]. apply B_literal; auto.
        + right. intros u. rewrite <- app_assoc. cbn [app]. apply B_literal; auto.
      - destruct s as [|c s].
        + left. exists [x30], (AInt 0). split; [|cbn; lia]. rewrite <- app_assoc. cbn [app]. apply (G_neg L w [x30] 0 []); auto; constructor.
        + right. intros u. rewrite <- app_assoc. cbn [app]. apply B_minus; auto.
      - apply bad_chars_go in Hs as [(u & cs & Hg & Hl)|Hs].
        + left. exists u, (AStr cs). split; [|lia]. rewrite <- app_assoc. cbn [app]. now apply G_str.
        + right. intros u. rewrite <- app_assoc. cbn [app]. now apply B_string.
      - rewrite app_length in *. cbn [length] in *. destruct (close_dec _ _ Hc) as [Hw'|Hf].
        + left. exists [x5d], (AArr []). split; [|cbn; lia]. rewrite <- app_assoc. cbn [app]. now apply G_arr0.
        + apply IHe in Hs as [(u & l & Hg & Hl)|Hs]; [| |lia].
          * left. exists u, (AArr l). split; [|lia]. rewrite <- app_assoc. cbn [app]. now apply G_arr.
          * right. intros u. rewrite <- app_assoc. cbn [app]. apply B_array; auto. intros w' r Hw'. apply Hf; auto. unfold white_char. cbn. intuition discriminate.
      - rewrite app_length in *. cbn [length] in *. destruct (close_dec _ _ Hc) as [Hw'|Hf].
        + left. exists [x7d], (AObj []). split; [|cbn; lia]. rewrite <- app_assoc. cbn [app]. now apply G_obj0.
        + apply IHm in Hs as [(u & l & Hg & Hl)|Hs]; [| |lia].
          * left. exists u, (AObj l). split; [|lia]. rewrite <- app_assoc. cbn [app]. now apply G_obj.
          * right. intros u. rewrite <- app_assoc. cbn [app]. apply B_object; auto. intros w' r Hw'. apply Hf; auto. unfold white_char. cbn. intuition discriminate. }
    splits; auto.
    - intros s m Hn H. destruct H as [s m H|s a w r H Hw Hr|s a w s' m H Hw H'].
      + apply Hv in H as [(u & a & Hg & Hl)|H]; [|right; intros u; apply BE_value; auto|lia].
        left. exists (u ++ [x5d]), [a]. split; [|rewrite app_length; cbn; lia]. rewrite app_assoc.
        apply (GE_last L _ a [] []); [|constructor]. apply (gval_app _ _ _ Hg [x5d]). right. now apply no_digit.
      + destruct r as [|c r].
        * left. exists [x5d], [a]. split; [|cbn; lia]. apply (GE_last L _ a w []); auto. rewrite app_nil_r in H. apply (gval_app _ _ _ H [x5d]). right. now apply no_digit.
        * right. intros u. pose proof (gval_app _ _ _ H u (goes_on_cons _ _ _ _ _ eq_refl)) as H'. rewrite <- app_assoc in H'. eapply BE_after; eauto.
      + pose proof (gval_len _ _ _ _ H) as Hl. rewrite app_length in Hl. cbn [length] in Hl.
        assert (Hg : forall u, gval L (s ++ u) a (w ++ x2c :: s' ++ u)).
        { intros u. pose proof (gval_app _ _ _ H u (goes_on_cons _ _ _ _ _ eq_refl)) as H2. now rewrite <- app_assoc in H2. }
        apply IHe in H' as [(u & l & Hg' & Hl')|H']; [| |lia].
        * left. exists u, (a :: l). split; [|lia]. eapply GE_cons; eauto.
        * right. intros u. eapply BE_next; eauto.
    - intros s m Hn H. destruct H as [s m H|s k s0 m Hk H|s k s0 a w r Hk H Hw Hr|s k s0 a w s' m Hk H Hw H'].
      + apply bad_key_go in H as [(u & k & Hk & Hl)|H]; [|right; intros u; apply BM_key; auto].
        left. exists (u ++ [x30; x7d]), [(k, AInt 0)]. split; [|rewrite app_length; cbn; lia]. rewrite app_assoc.
        eapply (GM_last L _ k _ (AInt 0) [] []); [apply gkey_app; exact Hk| |constructor]. cbn [app].
        apply (gval_app [x30] (AInt 0) []  (Z [] (Forall_nil _)) [x7d]). right. now apply no_digit.
      + pose proof (gkey_len _ _ _ Hk) as Hlk. apply Hv in H as [(u & a & Hg & Hl)|H]; [| |lia].
        * left. exists (u ++ [x7d]), [(k, a)]. split; [|rewrite app_length; cbn; lia].
          eapply (GM_last L _ k _ a [] []); [apply gkey_app; exact Hk| |constructor]. rewrite app_assoc. apply (gval_app _ _ _ Hg [x7d]). right. now apply no_digit.
        * right. intros u. eapply BM_value; [apply gkey_app; exact Hk|]. auto.
      + destruct r as [|c r].
        * left. exists [x7d], [(k, a)]. split; [|cbn; lia]. eapply (GM_last L _ k _ a w []); auto; [apply gkey_app; exact Hk|]. rewrite app_nil_r in H. apply (gval_app _ _ _ H [x7d]). right. now apply no_digit.
        * right. intros u. pose proof (gval_app _ _ _ H u (goes_on_cons _ _ _ _ _ eq_refl)) as H'. rewrite <- app_assoc in H'. eapply BM_after; [apply gkey_app; exact Hk|exact H'|auto|exact Hr].
      + pose proof (gkey_len _ _ _ Hk) as Hlk. pose proof (gval_len _ _ _ _ H) as Hl. rewrite app_length in Hl. cbn [length] in Hl.
        assert (Hg : forall u, gval L (s0 ++ u) a (w ++ x2c :: s' ++ u)).
        { intros u. pose proof (gval_app _ _ _ H u (goes_on_cons _ _ _ _ _ eq_refl)) as H2. now rewrite <- app_assoc in H2. }
        apply IHm in H' as [(u & l & Hg' & Hl')|H']; [| |lia].
        * left. exists u, ((k, a) :: l). split; [|lia]. eapply GM_cons; [apply gkey_app; exact Hk|apply Hg|auto|auto].
        * right. intros u. eapply BM_next; [apply gkey_app; exact Hk|apply Hg|auto|auto].
  Qed.
End Going.

(** ------------------------------------------------------------------ the properties *)

Scheme bad_val_ind2 := Minimality for bad_val Sort Prop
  with bad_elems_ind2 := Minimality for bad_elems Sort Prop
  with bad_members_ind2 := Minimality for bad_members Sort Prop.


Lemma bad_lits L L' : (forall b, L b = L' b) -> forall n,
  (forall s m, length s < n -> bad_val L s m -> bad_val L' s m) /\
  (forall s m, length s < n -> bad_elems L s m -> bad_elems L' s m) /\
  (forall s m, length s < n -> bad_members L s m -> bad_members L' s m).
Proof.
  intros HL. assert (HG : forall s a r, gval L s a r -> gval L' s a r) by (intros s a r; apply gval_lits; intros b; now rewrite HL).
  induction n as [|n (IHv & IHe & IHm)]; [splits; intros; lia|].
  assert (Hv : forall s m, length s < S n -> bad_val L s m -> bad_val L' s m).
  { intros s m Hn H. destruct H as [w s Hw Hs|w b s Hw Hs|w s Hw Hs|w s m Hw Hs|w s m Hw Hc Hs|w s m Hw Hc Hs]; try (rewrite app_length in Hn; cbn [length] in Hn).
    - now apply B_none.
    - apply B_literal; auto. rewrite <- HL. exact Hs.
    - now apply B_minus.
    - now apply B_string.
    - apply B_array; auto. apply IHe; auto. lia.
    - apply B_object; auto. apply IHm; auto. lia. }
  splits; auto.
  - intros s m Hn H. destruct H as [s m H|s a w r H Hw Hr|s a w s' m H Hw H'].
    + apply BE_value; auto.
    + eapply BE_after; eauto.
    + pose proof (gval_len _ _ _ _ H) as Hl. rewrite app_length in Hl. cbn [length] in Hl. eapply BE_next; eauto. apply IHe; auto. lia.
  - intros s m Hn H. destruct H as [s m H|s k s0 m Hk H|s k s0 a w r Hk H Hw Hr|s k s0 a w s' m Hk H Hw H'].
    + now apply BM_key.
    + pose proof (gkey_len _ _ _ Hk). eapply BM_value; eauto. apply Hv; auto. lia.
    + eapply BM_after; eauto.
    + pose proof (gkey_len _ _ _ Hk). pose proof (gval_len _ _ _ _ H) as Hl. rewrite app_length in Hl. cbn [length] in Hl. eapply BM_next; eauto. apply IHm; auto. lia.
Qed.

Lemma bad_val_lits L L' s m : (forall b, L b = L' b) -> bad_val L s m -> bad_val L' s m.
Proof. intros H. apply (proj1 (bad_lits L L' H (S (length s)))). lia. Qed.

Lemma bad_nonempty L s m : bad_val L s m -> m <> EmptyString.
Proof.
  assert (C : forall s m, bad_chars s m -> m <> EmptyString) by (induction 1; auto; discriminate).
  assert (K : forall s m, bad_key s m -> m <> EmptyString) by (destruct 1; eauto; discriminate).
  revert s m. apply (bad_val_ind2 L (fun s m => m <> EmptyString) (fun s m => m <> EmptyString) (fun s m => m <> EmptyString)); intros; eauto; try discriminate.
  now destruct b.
Qed.

Lemma message_exactly lay s : (N.of_nat (length s) < 2^28)%N ->
  exists ok v msg, parse lay s = Ret (ok, v) /\ parse_stderr lay s = Ret msg /\
    (ok = true <-> msg = EmptyString) /\ (forall m, bad_val (readable lay) s m <-> ok = false /\ m = msg).
Proof.
  intros Hs. change (readable lay) with (layout_lits lay). destruct (stderr_ok lay s Hs) as [(a & r & v & Hg & Hp & He)|(m & Hb & Hp & He)].
  - exists true, v, EmptyString. splits; auto. intros m. split; [|intros [? _]; discriminate]. intros Hb. exfalso. eapply bad_no_value; eauto.
  - exists false, JUndef, m. splits; auto.
    + discriminate.
    + intros ->. now apply bad_nonempty in Hb.
    + intros m'. split; [intros Hb'; split; auto; eapply bad_unique; eauto|intros [_ ->]; auto].
Qed.

Lemma message_documented lay s : (N.of_nat (length s) < 2^28)%N -> good_layout lay ->
  exists ok v msg, parse lay s = Ret (ok, v) /\ parse_stderr lay s = Ret msg /\
    (ok = true <-> msg = EmptyString) /\ (forall m, bad_val documented s m <-> ok = false /\ m = msg).
Proof.
  intros Hs Hl. destruct (message_exactly lay s Hs) as (ok & v & msg & H1 & H2 & H3 & H4). exists ok, v, msg. splits; auto; try apply H3.
  pose proof (good_layout_lits lay Hl) as HL. intros m. rewrite <- H4. split; apply bad_val_lits; intros b; [symmetry|]; apply HL.
Qed.

Lemma fault_final lits s m : bad_val lits s m ->
  (exists u a, gval lits (s ++ u) a [] /\ length u <= length s + 7) \/ forall u, bad_val lits (s ++ u) m.
Proof. apply (proj1 (go lits (S (length s)))). lia. Qed.

Lemma message_final lay s m : (N.of_nat (length s) < 2^28)%N ->
  parse lay s = Ret (false, JUndef) -> parse_stderr lay s = Ret m ->
  (exists u a, length u <= length s + 7 /\ gval (readable lay) (s ++ u) a [] /\
     forall lay', (forall b, readable lay' b = readable lay b) -> (N.of_nat (length (s ++ u)) < 2^28)%N ->
       exists v, parse lay' (s ++ u) = Ret (true, v) /\ parse_stderr lay' (s ++ u) = Ret EmptyString) \/
  (forall u lay', (forall b, readable lay' b = readable lay b) -> (N.of_nat (length (s ++ u)) < 2^28)%N ->
     parse lay' (s ++ u) = Ret (false, JUndef) /\ parse_stderr lay' (s ++ u) = Ret m).
Proof.
  intros Hs Hp He. destruct (message_exactly lay s Hs) as (ok & v & msg & H1 & H2 & _ & H4).
  rewrite Hp in H1. rewrite He in H2. injection H1 as <- <-. injection H2 as <-.
  assert (Hb : bad_val (readable lay) s m) by now apply H4. apply fault_final in Hb as [(u & a & Hg & Hlu)|Hb].
  - left. exists u, a. splits; auto. intros lay' Hl' Hn.
    destruct (stderr_ok lay' (s ++ u) Hn) as [(a' & r & v' & Hg' & Hp' & He')|(m' & Hb' & _)]; [eauto|].
    exfalso. assert (Hd : bad_val (readable lay) (s ++ u) m'); [|eapply bad_no_value; eauto].
    eapply bad_val_lits; [|exact Hb']. exact Hl'.
  - right. intros u lay' Hl' Hn. destruct (message_exactly lay' (s ++ u) Hn) as (ok & v & msg & G1 & G2 & _ & G4).
    assert (Hb' : bad_val (readable lay') (s ++ u) m) by (apply (bad_val_lits (readable lay)); [intros b; symmetry; apply Hl'|apply Hb]).
    apply G4 in Hb' as [-> ->]. split; auto.
    destruct (stderr_ok lay' (s ++ u) Hn) as [(a' & r & v' & _ & Hp' & _)|(m' & _ & Hp' & _)]; congruence.
Qed.

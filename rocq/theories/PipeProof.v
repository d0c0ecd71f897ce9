(** Proofs for C107. *)
From Coq Require Import String.
From Verif Require Import Base JsonSpec JsonModel JsonProof JsonProof4 JsonDenotes EniModel EniProof EniGasProof CryptoSpec CryptoModel CryptoProof ScryptModel ScryptProof ScryptProof2 ScryptProof3
  CliSpec CliModel CliProof ConsensusModel ConsensusProof PipeSpec.
From Coq Require Import List NArith ZArith Bool Lia.
From Coq.Init Require Import Byte.
From Coq.Strings Require Import Byte.
Import ListNotations.
Import ScryptSpec.
Local Open Scope list_scope.

(** ------------------------------------------------------------------ digits *)

Lemma lower_digit c c' : lower_hex c -> lower_hex c' -> hex_digit c = hex_digit c' -> c = c'.
Proof.
  intros [H U] [H' U'] E. unfold upper_digit in U, U'. apply bval_inj.
  unfold hex_digit in *.
  repeat match goal with
  | E : context [if ?b then _ else _] |- _ => let D := fresh in destruct b eqn:D; rewrite ?andb_true_iff, ?andb_false_iff, ?N.leb_le, ?N.leb_gt in D
  end; try congruence; injection E as E; lia.
Qed.

Lemma hex_unique d d' s : hex_text d s -> hex_text d' s -> Forall lower_hex d -> Forall lower_hex d' -> d = d'.
Proof.
  intros H. revert d'. induction H as [|h1 h0 n1 n0 b h s H1 H0 Hb H IH]; intros d' H' F F'; [now inversion H'|].
  inversion H' as [|g1 g0 m1 m0 b' g s' G1 G0 Gb H2]; subst.
  inversion F as [|? ? F1 F2]; subst. inversion F2 as [|? ? F3 F4]; subst. inversion F' as [|? ? F1' F2']; subst. inversion F2' as [|? ? F3' F4']; subst.
  assert (B : forall c n, hex_digit c = Some n -> (n < 16)%N).
  { clear. intros c n E. unfold hex_digit in E.
    repeat match goal with
    | E : context [if ?b then _ else _] |- _ => let D := fresh in destruct b eqn:D; rewrite ?andb_true_iff, ?andb_false_iff, ?N.leb_le, ?N.leb_gt in D
    end; try discriminate E; injection E as E; lia. }
  pose proof (B _ _ H1). pose proof (B _ _ H0). pose proof (B _ _ G1). pose proof (B _ _ G0). assert (n1 = m1 /\ n0 = m0) as [<- <-] by lia.
  f_equal; [apply lower_digit; congruence|]. f_equal; [apply lower_digit; congruence|]. now apply IH.
Qed.

(** ------------------------------------------------------------------ the text between two stages *)

Lemma substituted_app t : (forall u, t = u ++ [x0a] -> False) -> substituted (t ++ [x0a]) = t.
Proof.
  assert (E : forall t, t <> [] -> (forall u, t = u ++ [x0a] -> False) -> substituted (t ++ [x0a]) = t).
  { clear. induction t as [|c t IH]; intros Hn H; [congruence|]. cbn [app substituted]. destruct t as [|c' t].
    - cbn. destruct (beqb_spec c x0a) as [->|]; [exfalso; now apply (H [])|reflexivity].
    - rewrite IH; [reflexivity|discriminate|]. intros u Hu. apply (H (c :: u)). cbn. now rewrite Hu. }
  intros H. destruct t as [|c t]; [reflexivity|]. apply E; [discriminate|exact H].
Qed.
Lemma strings_bracket l u : strings_text l = u ++ [x0a] -> False.
Proof.
  unfold strings_text. change (x5b :: ?x ++ [x5d]) with ((x5b :: x) ++ [x5d]). intros E. apply app_inj_tail in E as [_ E]. discriminate.
Qed.
Lemma strings_substituted l : substituted (strings_text l ++ [x0a]) = strings_text l.
Proof. apply substituted_app. intros u. apply strings_bracket. Qed.
Lemma strings_length (s : bytes) : (length (strings_text [s]) <= 6 * length s + 4)%nat.
Proof. unfold strings_text. cbn [map commas]. cbn [length]. rewrite ?app_length. cbn [length]. rewrite ?app_length. cbn [length]. pose proof (flat_le s). lia. Qed.

Lemma array_no_option lits t l r : gval lits (cstr t) (AArr l) r -> is_option t = false.
Proof.
  destruct t as [|c t]; [reflexivity|]. cbn [cstr is_option]. destruct c; try reflexivity. cbn. intros H. exfalso.
  assert (W : forall w (s u : bytes), white w -> x2d :: s = w ++ x5b :: u -> False).
  { intros w s0 u Hw E. destruct w as [|x w]; cbn [app] in E; injection E as E _; [discriminate|]. subst x. inversion Hw as [|? ? Hx _]; subst. unfold white_char in Hx. cbn in Hx. intuition discriminate. }
  inversion H; subst; match goal with E : _ ++ x5b :: _ = _ |- _ => eapply W; [|symmetry; exact E]; assumption end.
Qed.

(** ------------------------------------------------------------------ one stage *)

Section Pipe.
  Variables (sha : bytes -> bytes) (Hsha : forall m, length (sha m) = 32%nat) (a : N) (Ha : (a + 63 < 2^64)%N) (strict : bool) (tool : bytes).

  Definition fits (st : stage) (params s : bytes) : Prop :=
    (N.of_nat (length params) < 2^31)%N /\ (N.of_nat (length (cstr params)) < 2^28)%N /\ exists l r, gval (readable (st_lay st)) (cstr params) (AArr (AStr s :: l)) r.

  Lemma fits_strings st (s : bytes) : (N.of_nat (length s) < 2^25)%N -> fits st (strings_text [s]) s.
  Proof.
    intros H. pose proof (strings_length s). unfold fits. rewrite cstr_strings. change (2^25)%N with 33554432%N in H. change (2^28)%N with 268435456%N. change (2^31)%N with 2147483648%N.
    split; [lia|]. split; [lia|]. exists [], []. apply (strings_gval (readable (st_lay st)) [s]).
  Qed.

  Lemma run_stage st c params s : serves st c -> fits st params s ->
    let ld := one_library (st_lay st) (st_path st) (st_ops st) in let argv := [tool; st_path st; st_name st; params] in
    (forall t, c_run c (st_lay st) params = Ret (Some t) -> main_run strict ld argv = Ret (0%Z, t ++ [x0a])) /\
    (c_run c (st_lay st) params = Ret None -> main_run strict ld argv = Ret (5%Z, [])).
  Proof.
    intros (Hd & Hi & Hp & Hn & Lp & Ln) (L1 & L2 & l & r & G). pose proof (array_no_option _ _ _ _ G) as Hq. cbn zeta.
    destruct (cli_library strict (st_lay st) (st_path st) (st_ops st) [tool; st_path st; st_name st; params] (st_name st) c params) as (H1 & H2 & _); auto.
    - cbn [tl]. intros x Hx. cbn in Hx. destruct Hx as [<-|[<-|[<-|[]]]]; assumption.
    - cbn [tl]. replace [st_path st; st_name st; params] with (non_options [st_path st; st_name st; params]) at 2 by (unfold non_options; cbn [filter]; now rewrite Hp, Hn, Hq).
      apply P_without. intros Hx. cbn in Hx. assert (is_option double_dash = true) by reflexivity. destruct Hx as [E|[E|[E|[]]]]; congruence.
  Qed.

  Lemma reverse_stage st params s l : serves st reverse_op -> fits st params s ->
    script strict tool (st :: l) params = script strict tool l (strings_text [rev s]).
  Proof.
    intros Hc Hf. destruct (run_stage st _ params s Hc Hf) as [H1 _]. destruct Hf as (_ & L & k & r & G). destruct (reverse_run _ _ _ _ _ L G) as [_ E].
    cbn [script]. rewrite (H1 _ E). cbn [bind]. change (0 =? 0)%Z with true. cbv iota. now rewrite strings_substituted.
  Qed.
  Lemma hashed_unique h hd d : header_bytes h hd -> hashed sha h d -> d = str2hex (result_of sha hd).
  Proof.
    intros H (Hac & hd' & H' & Ht & Hl). assert (hd' = hd) as ->.
    { destruct H as (s & E & _ & ->). destruct H' as (s' & E' & _ & ->). now rewrite (hex_text_det _ _ _ E' E). }
    destruct (str2hex_text (result_of sha hd)) as [E1 E2]. eapply hex_unique; eauto.
  Qed.
  Lemma scrypt_stage st params h l : serves st (scrypt_op sha a) -> fits st params h ->
    (forall d, hashed sha h d -> script strict tool (st :: l) params = script strict tool l (strings_text [d]) /\ length d = 64%nat) /\
    (~ accepted h -> script strict tool (st :: l) params = Ret (5%Z, [])).
  Proof.
    intros Hc Hf. destruct (run_stage st _ params h Hc Hf) as [H1 H2]. destruct Hf as (_ & L & k & r & G). split.
    - intros d Hd. pose proof Hd as (Hac & hd & Hh & Ht & _). destruct (scrypt_call sha Hsha a Ha _ _ _ _ _ hd L G Hac Hh) as [_ E].
      rewrite <- (hashed_unique h hd d Hh Hd) in E. split; [|rewrite (hex_text_even _ _ Ht); change (scrypt sha hd hd 1024 1 1 32) with (result_of sha hd); now rewrite result_length].
      cbn [script]. rewrite (H1 _ E). cbn [bind]. change (0 =? 0)%Z with true. cbv iota. now rewrite strings_substituted.
    - intros Hn. destruct (scrypt_valid sha Hsha a Ha _ _ _ _ _ L G) as [_ E]. destruct (E Hn) as [_ E']. cbn [script]. rewrite (H2 E'). reflexivity.
  Qed.

  Lemma small_hash (d : bytes) : length d = 64%nat -> (N.of_nat (length d) < 2^25)%N.
  Proof. intros ->. reflexivity. Qed.
  Lemma small_rev (s : bytes) : (N.of_nat (length s) < 2^25)%N -> (N.of_nat (length (rev s)) < 2^25)%N.
  Proof. now rewrite rev_length. Qed.

  Lemma chain_text l : forall s s', chain sha a l s s' -> (N.of_nat (length s) < 2^25)%N -> script strict tool l (strings_text [s]) = Ret (0%Z, strings_text [s']).
  Proof.
    intros s s' H. induction H as [s|st l s s' Hc H IH|st l h d s' Hc Hh H IH]; intros L; [reflexivity| |].
    - rewrite (reverse_stage st _ s l Hc (fits_strings st s L)). apply IH. now apply small_rev.
    - destruct (scrypt_stage st _ h l Hc (fits_strings st h L)) as [E _]. destruct (E d Hh) as [-> L']. apply IH. now apply small_hash.
  Qed.
  Lemma blocked_text l : forall s, blocked sha a l s -> (N.of_nat (length s) < 2^25)%N -> script strict tool l (strings_text [s]) = Ret (5%Z, []).
  Proof.
    intros s H. induction H as [st l h Hc Hn|st l s Hc H IH|st l h d Hc Hh H IH]; intros L.
    - destruct (scrypt_stage st _ h l Hc (fits_strings st h L)) as [_ E]. now apply E.
    - rewrite (reverse_stage st _ s l Hc (fits_strings st s L)). apply IH. now apply small_rev.
    - destruct (scrypt_stage st _ h l Hc (fits_strings st h L)) as [E _]. destruct (E d Hh) as [-> L']. apply IH. now apply small_hash.
  Qed.

  Lemma pipeline st l params s k r : (N.of_nat (length params) < 2^31)%N -> (N.of_nat (length (cstr params)) < 2^28)%N -> (N.of_nat (length s) < 2^25)%N ->
    gval (readable (st_lay st)) (cstr params) (AArr (AStr s :: k)) r ->
    (forall s', chain sha a (st :: l) s s' -> exists t, script strict tool (st :: l) params = Ret (0%Z, t) /\ gval documented t (AArr [AStr s']) []) /\
    (blocked sha a (st :: l) s -> script strict tool (st :: l) params = Ret (5%Z, [])).
  Proof.
    intros L1 L2 L3 G. assert (F : fits st params s) by (split; [exact L1|]; split; [exact L2|]; eauto). split.
    - intros s' H. exists (strings_text [s']). split; [|apply (strings_gval documented [s'])]. inversion H as [|? ? ? ? Hc H'|? ? ? d ? Hc Hh H']; subst.
      + rewrite (reverse_stage st _ s l Hc F). apply chain_text; auto. now apply small_rev.
      + destruct (scrypt_stage st _ s l Hc F) as [E _]. destruct (E d Hh) as [-> L']. apply chain_text; auto. now apply small_hash.
    - intros H. inversion H as [? ? ? Hc Hn|? ? ? Hc H'|? ? ? d Hc Hh H']; subst.
      + destruct (scrypt_stage st _ s l Hc F) as [_ E]. now apply E.
      + rewrite (reverse_stage st _ s l Hc F). apply blocked_text; auto. now apply small_rev.
      + destruct (scrypt_stage st _ s l Hc F) as [E _]. destruct (E d Hh) as [-> L']. apply blocked_text; auto. now apply small_hash.
  Qed.
End Pipe.

Lemma accepted_dec h : accepted h \/ ~ accepted h.
Proof.
  destruct (Compare_dec.le_dec (length h) 160) as [Hl|Hl]; [|right; intros [H _]; lia].
  destruct (forallb (fun c => match hex_digit c with Some _ => true | None => false end) h) eqn:F.
  - left. split; auto. rewrite forallb_forall in F. apply Forall_forall. intros c Hc E. specialize (F c Hc). rewrite E in F. discriminate.
  - right. intros [_ F']. apply Bool.not_true_iff_false in F. apply F. apply forallb_forall. intros c Hc. rewrite Forall_forall in F'. specialize (F' c Hc).
    destruct (hex_digit c); [reflexivity|now elim F'].
Qed.

Lemma chain_total sha a l : served sha a l -> forall s, (exists s', chain sha a l s s') \/ blocked sha a l s.
Proof.
  induction 1 as [|st l Hc _ IH]; intros s; [left; exists s; constructor|]. destruct Hc as [Hc|Hc].
  - destruct (IH (rev s)) as [(s' & H)|H]; [left; exists s'; now apply C_reverse|right; now apply B_reverse].
  - destruct (accepted_dec s) as [Hac|Hac]; [|right; now apply B_here].
    destruct (header_bytes_exists s Hac) as (hd & Hh & _). assert (hashed sha s (str2hex (result_of sha hd))) as Hd by (split; [exact Hac|]; exists hd; split; [exact Hh|]; apply str2hex_text).
    destruct (IH (str2hex (result_of sha hd))) as [(s' & H)|H]; [left; exists s'; eapply C_scrypt; eauto|right; eapply B_scrypt; eauto].
Qed.

(** reversing an even number of times is the identity, and scrypt after scrypt never stops *)
Lemma chain_reverse sha a l s : Forall (fun st => serves st reverse_op) l -> chain sha a l s (if Nat.even (length l) then s else rev s).
Proof.
  intros H. revert s. induction H as [|st l Hc _ IH]; intros s; [constructor|]. apply C_reverse; [exact Hc|]. specialize (IH (rev s)). rewrite rev_involutive in IH.
  cbn [length]. rewrite PeanoNat.Nat.even_succ, <- PeanoNat.Nat.negb_even. now destruct (Nat.even (length l)).
Qed.

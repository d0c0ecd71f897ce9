(** The scrypt operation. *)
From Verif Require Import Base JsonSpec JsonModel JsonDenotes JsonProof2 JsonProof3 EniModel EniProof CryptoSpec CryptoModel CryptoProof ScryptModel ScryptProof ScryptProof2.
From Coq Require Import List NArith ZArith Bool Lia Arith.
From Coq.Init Require Import Byte.
From Coq.Strings Require Import Byte.
Import ListNotations.
Import ScryptSpec.

(** ** Reading the header *)

Lemma all_hex_eq h : all_hex h = true <-> Forall (fun c => hex_digit c <> None) h.
Proof.
  unfold all_hex. rewrite forallb_forall, Forall_forall.
  assert (H : forall c, existsb (beqb c) hex_set = true <-> hex_digit c <> None).
  { intros c. destruct c; split; intros H; try reflexivity; try discriminate; exfalso; apply H; reflexivity. }
  split; intros Ha c Hc; apply H; auto.
Qed.

Lemma digit_value c n : hex_digit c = Some n ->
  (if schar (tolower c) <? 97 then schar (tolower c) - 48 else schar (tolower c) - 97 + 10)%Z = Z.of_N n.
Proof.
  assert (H : match hex_digit c with None => True | Some n => (if schar (tolower c) <? 97 then schar (tolower c) - 48 else schar (tolower c) - 97 + 10)%Z = Z.of_N n end)
    by (destruct c; vm_compute; constructor).
  intros E. rewrite E in H. exact H.
Qed.

Lemma unhex_byte_eq a b n1 n0 : hex_digit a = Some n1 -> hex_digit b = Some n0 -> bval (unhex_byte a b) = (16 * n1 + n0)%N.
Proof.
  intros Ha Hb. unfold unhex_byte. rewrite (digit_value a n1 Ha), (digit_value b n0 Hb). apply hex_digit_lt in Ha, Hb.
  rewrite bval_byte_of_N. rewrite (Z.mod_small (Z.of_N n1)) by lia. rewrite (Z.mod_small (Z.of_N n1 * 16)) by lia. rewrite Z.mod_small by lia. rewrite N.mod_small; lia.
Qed.

Lemma unhex_eq h s : hex_text h s -> unhex h = s.
Proof.
  induction 1 as [|h1 h0 n1 n0 b h s H1 H0 Hb Ht IH]; cbn [unhex]; auto. rewrite IH. f_equal. apply bval_inj. rewrite (unhex_byte_eq h1 h0 n1 n0); auto.
Qed.

Lemma skipn_repeat {A} (x : A) n : forall m, skipn n (repeat x m) = repeat x (m - n).
Proof. induction n as [|n IH]; intros [|m]; cbn [skipn repeat Nat.sub]; auto. Qed.

Lemma make_even_spec h : Nat.even (length (make_even h)) = true /\ make_even (make_even h) = make_even h /\
  (length (make_even h) = 2 * ((length h + 1) / 2))%nat /\ make_even h = (if Nat.even (length h) then h else x30 :: h).
Proof.
  unfold make_even. pose proof (Nat.div_mod (length h) 2 ltac:(lia)) as D. pose proof (Nat.mod_upper_bound (length h) 2 ltac:(lia)) as B.
  assert (Ev : forall n, Nat.even n = Nat.eqb (n mod 2) 0).
  { intros n. destruct (Nat.eqb_spec (n mod 2) 0) as [E|E].
    - apply Nat.even_spec. exists (n / 2)%nat. pose proof (Nat.div_mod n 2 ltac:(lia)). lia.
    - apply not_true_is_false. intros H. apply Nat.even_spec in H as [k ->]. apply E. rewrite Nat.mul_comm. now apply Nat.mod_mul. }
  rewrite !Ev. destruct (Nat.eqb_spec (length h mod 2) 0) as [E|E].
  - rewrite ?Ev, ?E. cbn [Nat.eqb]. split; [reflexivity|]. split; [reflexivity|]. split; [|reflexivity].
    replace (length h + 1)%nat with (1 + length h / 2 * 2)%nat by lia. rewrite Nat.div_add by lia. change (1 / 2)%nat with 0%nat. lia.
  - assert (E1 : (length h mod 2 = 1)%nat) by lia.
    assert (E2 : (length (x30 :: h) = ((length h + 1) / 2) * 2)%nat).
    { cbn [length]. replace (length h + 1)%nat with (0 + (length h / 2 + 1) * 2)%nat by lia. rewrite Nat.div_add by lia. change (0 / 2)%nat with 0%nat. lia. }
    rewrite E2 at 1. rewrite Nat.mod_mul by lia. split; [reflexivity|]. split; [|split; [lia|reflexivity]].
    rewrite E2. rewrite Nat.mod_mul by lia. reflexivity.
Qed.

Lemma header_bytes_exists h : accepted h -> exists hd, header_bytes h hd /\ length hd = 80%nat /\ header (make_even h) = Ret hd.
Proof.
  intros [Hl Hd]. destruct (make_even_spec h) as (He & _ & Hlen & Heq).
  destruct (hex_text_exists (make_even h) He) as [s Hs].
  { unfold make_even. destruct (Nat.eqb (length h mod 2) 0); auto. constructor; [discriminate|auto]. }
  pose proof (hex_text_even _ _ Hs) as Hls.
  assert (Hb : ((length h + 1) / 2 <= 80)%nat). { assert ((length h + 1) / 2 < 81)%nat by (apply Nat.div_lt_upper_bound; lia). lia. }
  exists (s ++ repeat x00 (80 - length s)). split; [|split].
  - exists s. rewrite <- Heq. split; auto. split; [lia|reflexivity].
  - rewrite app_length, repeat_length. lia.
  - unfold header. rewrite (unhex_eq _ s Hs). unfold write_at. rewrite repeat_length. destruct (Nat.leb_spec (0 + length s) 80); [|lia].
    cbn [firstn app Nat.add]. rewrite skipn_repeat. reflexivity.
Qed.

Lemma header_bytes_det h hd hd' : header_bytes h hd -> header_bytes h hd' -> hd = hd'.
Proof. intros (s & H & _ & ->) (s' & H' & _ & ->). now rewrite (hex_text_det _ _ _ H H'). Qed.

(** ** The protocol *)

Lemma first_string (c : opclass) lay s h l r : (N.of_nat (length s) < 2^28)%N -> gval (readable lay) s (AArr (AStr h :: l)) r ->
  exists vs, construct c lay s = Ret (mkE false false (JArr (JStr h :: vs)) (JArr []) (oinit c) []).
Proof.
  intros Hs Hg. destruct (construct_val c lay s _ r Hs Hg) as (v & Hb & Hc & _). apply build_arr_str in Hb as [vs ->]. eauto.
Qed.

Definition result_of (sha : bytes -> bytes) (hd : bytes) : bytes := scrypt sha hd hd 1024 1 1 32.

Section Op.
  Variable sha : bytes -> bytes.
  Hypothesis Hsha : forall m, length (sha m) = 32%nat.
  Variable a : N.
  Hypothesis Ha : (a + 63 < 2^64)%N.
  Notation op := (scrypt_op sha a).

  Lemma op_parse s h vs : oparse op s (JStr h :: vs) = (h, Ret (if Nat.ltb 160 (length h) then false else all_hex h)).
  Proof. cbn [oparse scrypt_op]. rewrite str_arg0. reflexivity. Qed.

  Lemma accepted_dec h : (if Nat.ltb 160 (length h) then false else all_hex h) = true <-> accepted h.
  Proof.
    unfold accepted. rewrite <- all_hex_eq. destruct (Nat.ltb_spec 160 (length h)); split; try (intros; split; auto); try tauto; try discriminate. intros [H1 _]. lia.
  Qed.

  Lemma op_run s h l hd : accepted h -> make_even s = make_even h -> header_bytes h hd ->
    orun op s l = (make_even h, l ++ [JStr (str2hex (result_of sha hd))], Ret true).
  Proof.
    intros Hac Hs Hd. destruct (header_bytes_exists h Hac) as (hd' & Hd' & Hl & He). rewrite (header_bytes_det _ _ _ Hd' Hd) in *. clear hd' Hd'.
    cbn [orun scrypt_op]. rewrite Hs, He. cbn [bind]. rewrite (scrypt_eq sha Hsha a hd Ha) by lia. rewrite (firstn_all2 hd) by lia. reflexivity.
  Qed.

  Definition gas_of (h : bytes) : N := (10 * N.of_nat ((length h + 1) / 2))%N.

  Lemma op_gas h s : accepted h -> s = h \/ s = make_even h -> ogas op s = Ret (gas_of h).
  Proof.
    intros [Hl _] Hs. cbn [ogas scrypt_op]. unfold gas_of.
    assert (E : ((N.of_nat (length s) + 1) / 2 = N.of_nat ((length h + 1) / 2))%N).
    { assert (E : ((length s + 1) / 2 = (length h + 1) / 2)%nat).
      { destruct Hs as [->| ->]; auto. destruct (make_even_spec h) as (_ & _ & E & _). rewrite E. replace (2 * ((length h + 1) / 2) + 1)%nat with (1 + (length h + 1) / 2 * 2)%nat by lia.
        rewrite Nat.div_add by lia. reflexivity. }
      rewrite <- E, Nat2N.inj_div, Nat2N.inj_add. reflexivity. }
    rewrite E. assert ((length h + 1) / 2 < 81)%nat by (apply Nat.div_lt_upper_bound; lia). unfold u64. rewrite N.mod_small by lia. f_equal. lia.
  Qed.

  (** states of an object made for an accepted header after [k] runs *)
  Definition reached (h hd : bytes) (vs : list jvalue) (k : nat) (st : ebase op) : Prop :=
    e_ret st = JArr (map JStr (repeat (str2hex (result_of sha hd)) k)) /\
    ((e_parsed st = false /\ e_args st = JArr (JStr h :: vs)) \/
     (e_parsed st = true /\ e_success st = true /\ (e_op st = h \/ e_op st = make_even h))).

  Lemma reached_check h hd vs k st : accepted h -> reached h hd vs k st ->
    exists st', check st = (st', Ret true) /\ e_ret st' = e_ret st /\ e_parsed st' = true /\ e_success st' = true /\
                (e_op st' = h \/ e_op st' = make_even h).
  Proof.
    intros Hac [Hr [[Hp Hg]|(Hp & Hs & Ho)]]; unfold check; rewrite Hp.
    - rewrite Hg. cbn [as_array]. rewrite op_parse. rewrite (proj2 (accepted_dec h) Hac). eexists. split; [reflexivity|]. cbn. auto 10.
    - rewrite Hs. exists st. auto 10.
  Qed.

  Lemma repeat_snoc {A} (x : A) k : repeat x k ++ [x] = repeat x (S k).
  Proof. induction k as [|k IH]; cbn [repeat app]; auto. now rewrite IH. Qed.

  Definition answer_ok (h hd : bytes) (k : nat) (o : ecall) (r : eanswer) : Prop :=
    match o with
    | GetGas => r = GasIs (gas_of h)
    | Start => r = ResultIs (Some (strings_text (repeat (str2hex (result_of sha hd)) (S k))))
    end.

  Lemma reached_step h hd vs k st o : accepted h -> header_bytes h hd -> reached h hd vs k st ->
    exists st' r, estep st o = Ret (st', r) /\ reached h hd vs (match o with GetGas => k | Start => S k end) st' /\ answer_ok h hd k o r.
  Proof.
    intros Hac Hd HR. destruct (reached_check h hd vs k st Hac HR) as (st1 & Ec & Er & Hp & Hs & Ho). destruct HR as [Hr _]. rewrite Hr in Er. destruct o; unfold estep.
    - unfold get_gas. rewrite Ec. rewrite (op_gas h (e_op st1) Hac Ho). cbn [ecatch bind]. do 2 eexists. split; [reflexivity|]. split; [|reflexivity].
      split; [exact Er|]. right. cbn. auto.
    - unfold start. rewrite Ec, Er. cbn [as_array].
      assert (Hme : make_even (e_op st1) = make_even h) by (destruct Ho as [->| ->]; [reflexivity|apply make_even_spec]).
      rewrite (op_run (e_op st1) h _ hd Hac Hme Hd). cbn [bind e_ret].
      change [JStr (str2hex (result_of sha hd))] with (map JStr [str2hex (result_of sha hd)]). rewrite <- map_app, repeat_snoc, print_strings. cbn [bind ecatch].
      rewrite cstr_strings. do 2 eexists. split; [reflexivity|]. split; [|reflexivity]. split; [reflexivity|]. right. cbn. auto.
  Qed.

  (** the answers to a history: the [k]-th start returns [k] copies *)
  Fixpoint answers_from (h hd : bytes) (k : nat) (hist : list ecall) : list eanswer :=
    match hist with
    | [] => []
    | GetGas :: t => GasIs (gas_of h) :: answers_from h hd k t
    | Start :: t => ResultIs (Some (strings_text (repeat (str2hex (result_of sha hd)) (S k)))) :: answers_from h hd (S k) t
    end.

  Lemma reached_run h hd vs : accepted h -> header_bytes h hd -> forall hist k st, reached h hd vs k st ->
    exists st', erun st hist = Ret (st', answers_from h hd k hist).
  Proof.
    intros Hac Hd. induction hist as [|o hist IH]; intros k st HR; cbn [erun answers_from]; eauto.
    destruct (reached_step h hd vs k st o Hac Hd HR) as (st1 & r & E & HR1 & Hr). rewrite E. cbn [bind]. destruct o; cbn [answer_ok] in Hr; subst r.
    - destruct (IH _ _ HR1) as [st2 E2]. rewrite E2. cbn [bind]. eauto.
    - destruct (IH _ _ HR1) as [st2 E2]. rewrite E2. cbn [bind]. eauto.
  Qed.

  Lemma scrypt_history lay s h l r hist hd : (N.of_nat (length s) < 2^28)%N -> gval (readable lay) s (AArr (AStr h :: l)) r -> accepted h -> header_bytes h hd ->
    exists st st', construct op lay s = Ret st /\ erun st hist = Ret (st', answers_from h hd 0 hist).
  Proof.
    intros Hs Hg Hac Hd. destruct (first_string op lay s h l r Hs Hg) as [vs Hc]. rewrite Hc. eexists.
    destruct (reached_run h hd vs Hac Hd hist 0 (mkE false false (JArr (JStr h :: vs)) (JArr []) (oinit op) [])) as [st' E].
    - split; [reflexivity|]. left. auto.
    - exists st'. split; [reflexivity|exact E].
  Qed.

  Lemma scrypt_call lay buf h l r hd : (N.of_nat (length (cstr buf)) < 2^28)%N -> gval (readable lay) (cstr buf) (AArr (AStr h :: l)) r -> accepted h -> header_bytes h hd ->
    c_gas op lay buf = Ret (gas_of h) /\ c_run op lay buf = Ret (Some (strings_text [str2hex (result_of sha hd)])).
  Proof.
    intros Hs Hg Hac Hd. destruct (first_string op lay _ h l r Hs Hg) as [vs Hc]. unfold c_gas, c_run. rewrite Hc. cbn [bind].
    set (st := mkE _ _ _ _ _ _). assert (HR : reached h hd vs 0 st) by (split; [reflexivity|]; left; auto).
    destruct (reached_step h hd vs 0 st GetGas Hac Hd HR) as (st1 & r1 & E1 & _ & A1). destruct (reached_step h hd vs 0 st Start Hac Hd HR) as (st2 & r2 & E2 & _ & A2).
    cbn [answer_ok] in A1, A2. subst r1 r2. unfold estep in E1, E2. split.
    - destruct (get_gas st) as [s' [g| | | |]]; cbn [ecatch bind snd] in E1 |- *; congruence.
    - destruct (start st) as [s' [g| | | |]]; cbn [ecatch bind snd] in E2 |- *; try congruence. injection E2 as _ E2. now rewrite E2.
  Qed.

  Lemma scrypt_refused lay buf h l r : (N.of_nat (length (cstr buf)) < 2^28)%N -> gval (readable lay) (cstr buf) (AArr (AStr h :: l)) r -> ~ accepted h ->
    c_gas op lay buf = Ret 1500%N /\ c_run op lay buf = Ret None.
  Proof.
    intros Hs Hg Hac. destruct (first_string op lay _ h l r Hs Hg) as [vs Hc]. unfold c_gas, c_run. rewrite Hc. cbn [bind]. unfold get_gas, start, check. cbn [e_parsed e_args as_array e_op].
    rewrite op_parse. destruct (if Nat.ltb 160 (length h) then false else all_hex h) eqn:E; [exfalso; apply Hac; now apply accepted_dec|]. split; reflexivity.
  Qed.
End Op.

Lemma scrypt_bad_args sha a lay buf l r : (N.of_nat (length (cstr buf)) < 2^28)%N -> gval (readable lay) (cstr buf) (AArr l) r -> Forall short_keys l ->
  (l = [] -> c_gas (scrypt_op sha a) lay buf = Throw OutOfRangeVector /\ c_run (scrypt_op sha a) lay buf = Throw OutOfRangeVector) /\
  (forall x l', l = x :: l' -> (forall s, x <> AStr s) -> c_gas (scrypt_op sha a) lay buf = UB TypeConfusion /\ c_run (scrypt_op sha a) lay buf = UB TypeConfusion).
Proof.
  intros Hs Hg Hk. destruct (protocol (scrypt_op sha a) lay buf l r Hs Hg Hk) as (vs & Hf & -> & ->). split.
  - intros ->. inversion Hf; subst. split; reflexivity.
  - intros x l' -> Hx. inversion Hf as [|v ? vs' ? Hd _]; subst. cbn [oparse scrypt_op]. unfold str_arg. rewrite arg_head. cbn [bind]. rewrite (not_string v x Hd Hx). split; reflexivity.
Qed.

(** ** The result *)

Lemma result_length sha (Hsha : forall m, length (sha m) = 32%nat) hd : length (result_of sha hd) = 32%nat.
Proof. unfold result_of, scrypt. now apply pbkdf2_length. Qed.

Lemma scrypt_valid sha (Hsha : forall m, length (sha m) = 32%nat) a (Ha : (a + 63 < 2^64)%N) lay buf h l r :
  (N.of_nat (length (cstr buf)) < 2^28)%N -> gval (readable lay) (cstr buf) (AArr (AStr h :: l)) r ->
  (accepted h -> exists t d, c_run (scrypt_op sha a) lay buf = Ret (Some t) /\ gval documented t (AArr [AStr d]) [] /\ length d = 64%nat /\ Forall lower_hex d) /\
  (~ accepted h -> c_gas (scrypt_op sha a) lay buf = Ret 1500%N /\ c_run (scrypt_op sha a) lay buf = Ret None).
Proof.
  intros Hs Hg. split.
  - intros Hac. destruct (header_bytes_exists h Hac) as (hd & Hd & _). destruct (scrypt_call sha Hsha a Ha lay buf h l r hd Hs Hg Hac Hd) as [_ E].
    exists (strings_text [str2hex (result_of sha hd)]), (str2hex (result_of sha hd)). split; [exact E|]. split; [apply (strings_gval documented [_])|].
    destruct (str2hex_text (result_of sha hd)) as [H1 H2]. split; auto. rewrite (hex_text_even _ _ H1), result_length by auto. reflexivity.
  - intros Hac. eapply scrypt_refused; eauto.
Qed.

Lemma scrypt_hash sha (Hsha : forall m, length (sha m) = 32%nat) a (Ha : (a + 63 < 2^64)%N) lay buf h l r hd :
  (N.of_nat (length (cstr buf)) < 2^28)%N -> gval (readable lay) (cstr buf) (AArr (AStr h :: l)) r -> accepted h -> header_bytes h hd ->
  exists t d, c_run (scrypt_op sha a) lay buf = Ret (Some t) /\ gval documented t (AArr [AStr d]) [] /\ hex_text d (scrypt sha hd hd 1024 1 1 32) /\ Forall lower_hex d.
Proof.
  intros Hs Hg Hac Hd. destruct (scrypt_call sha Hsha a Ha lay buf h l r hd Hs Hg Hac Hd) as [_ E].
  exists (strings_text [str2hex (result_of sha hd)]), (str2hex (result_of sha hd)). split; [exact E|]. split; [apply (strings_gval documented [_])|].
  apply str2hex_text.
Qed.

Lemma scrypt_gas sha (Hsha : forall m, length (sha m) = 32%nat) a (Ha : (a + 63 < 2^64)%N) lay text h l r hist :
  (N.of_nat (length text) < 2^28)%N -> gval (readable lay) text (AArr (AStr h :: l)) r -> accepted h ->
  exists st st' answers, construct (scrypt_op sha a) lay text = Ret st /\ erun st hist = Ret (st', answers) /\
    Forall2 (fun o r => match o with GetGas => r = GasIs (10 * N.of_nat ((length h + 1) / 2))%N | Start => exists t, r = ResultIs (Some t) end) hist answers.
Proof.
  intros Hs Hg Hac. destruct (header_bytes_exists h Hac) as (hd & Hd & _). destruct (scrypt_history sha Hsha a Ha lay text h l r hist hd Hs Hg Hac Hd) as (st & st' & Hc & He).
  exists st, st', (answers_from sha h hd 0 hist). split; auto. split; auto. clear.
  assert (H : forall k, Forall2 (fun o r => match o with GetGas => r = GasIs (gas_of h) | Start => exists t, r = ResultIs (Some t) end) hist (answers_from sha h hd k hist)); [|exact (H 0%nat)].
  induction hist as [|[|] hist IH]; intros k; cbn [answers_from]; constructor; eauto.
Qed.

(** ** Canonicalisation *)

Lemma same_digits_text h h' s : same_digits h h' -> hex_text h s -> hex_text h' s.
Proof.
  intros H Ht. revert h' H. induction Ht as [|h1 h0 n1 n0 b h s H1 H0 Hb Ht IH]; intros h' H.
  - inversion H; subst. constructor.
  - inversion H as [|? c1 ? ? E1 H']; subst. inversion H' as [|? c0 ? ? E0 H'']; subst. econstructor; eauto; congruence.
Qed.
Lemma same_digits_length h h' : same_digits h h' -> length h = length h'.
Proof. induction 1; cbn [length]; auto. Qed.
Lemma same_digits_accepted h h' : same_digits h h' -> accepted h -> accepted h'.
Proof.
  intros H [Hl Hd]. split; [now rewrite <- (same_digits_length _ _ H)|]. clear Hl. induction H; inversion Hd; subst; constructor; auto. congruence.
Qed.
Lemma same_digits_header h h' hd : same_digits h h' -> header_bytes h hd -> header_bytes h' hd.
Proof.
  intros H (s & Hs & Hl & E). exists s. split; auto. rewrite <- (same_digits_length _ _ H). destruct (Nat.even (length h)).
  - eapply same_digits_text; eauto.
  - eapply same_digits_text; [|exact Hs]. constructor; auto.
Qed.

Lemma scrypt_case sha (Hsha : forall m, length (sha m) = 32%nat) a (Ha : (a + 63 < 2^64)%N) lay lay' buf buf' h h' l l' r r' :
  (N.of_nat (length (cstr buf)) < 2^28)%N -> gval (readable lay) (cstr buf) (AArr (AStr h :: l)) r ->
  (N.of_nat (length (cstr buf')) < 2^28)%N -> gval (readable lay') (cstr buf') (AArr (AStr h' :: l')) r' ->
  accepted h -> same_digits h h' -> c_run (scrypt_op sha a) lay buf = c_run (scrypt_op sha a) lay' buf'.
Proof.
  intros Hs Hg Hs' Hg' Hac Hd. destruct (header_bytes_exists h Hac) as (hd & Hh & _).
  destruct (scrypt_call sha Hsha a Ha lay buf h l r hd Hs Hg Hac Hh) as [_ ->].
  destruct (scrypt_call sha Hsha a Ha lay' buf' h' l' r' hd Hs' Hg' (same_digits_accepted _ _ Hd Hac) (same_digits_header _ _ _ Hd Hh)) as [_ ->]. reflexivity.
Qed.

Lemma hex_text_zeros n : hex_text (repeat x30 (2 * n)) (repeat x00 n).
Proof.
  induction n as [|n IH]; [constructor|]. replace (2 * S n)%nat with (S (S (2 * n))) by lia. cbn [repeat]. apply (HT_cons x30 x30 0 0 x00); auto.
Qed.
Lemma hex_text_app h s h' s' : hex_text h s -> hex_text h' s' -> hex_text (h ++ h') (s ++ s').
Proof. induction 1; cbn [app]; auto. intros H'. econstructor; eauto. Qed.

Lemma header_zeros h hd : accepted h -> Nat.even (length h) = true -> header_bytes h hd ->
  accepted (h ++ repeat x30 (160 - length h)) /\ header_bytes (h ++ repeat x30 (160 - length h)) hd.
Proof.
  intros [Hl Hd] He (s & Hs & Hls & ->). rewrite He in Hs. pose proof (hex_text_even _ _ Hs) as E. split.
  - split; [rewrite app_length, repeat_length; lia|]. apply Forall_app. split; auto. apply Forall_forall. intros c Hc. apply repeat_spec in Hc. subst. discriminate.
  - exists (s ++ repeat x00 (80 - length s)). assert (L : length (h ++ repeat x30 (160 - length h)) = 160%nat) by (rewrite app_length, repeat_length; lia).
    rewrite L. change (Nat.even 160) with true. split; [|split].
    + apply hex_text_app; auto. replace (160 - length h)%nat with (2 * (80 - length s))%nat by lia. apply hex_text_zeros.
    + rewrite app_length, repeat_length. lia.
    + rewrite app_length, repeat_length. replace (80 - (length s + (80 - length s)))%nat with 0%nat by lia. cbn [repeat]. now rewrite app_nil_r.
Qed.

Lemma scrypt_zeros sha (Hsha : forall m, length (sha m) = 32%nat) a (Ha : (a + 63 < 2^64)%N) lay lay' buf buf' h l l' r r' :
  (N.of_nat (length (cstr buf)) < 2^28)%N -> gval (readable lay) (cstr buf) (AArr (AStr h :: l)) r ->
  (N.of_nat (length (cstr buf')) < 2^28)%N -> gval (readable lay') (cstr buf') (AArr (AStr (h ++ repeat x30 (160 - length h)) :: l')) r' ->
  accepted h -> Nat.even (length h) = true -> c_run (scrypt_op sha a) lay buf = c_run (scrypt_op sha a) lay' buf'.
Proof.
  intros Hs Hg Hs' Hg' Hac He. destruct (header_bytes_exists h Hac) as (hd & Hh & _). destruct (header_zeros h hd Hac He Hh) as [Ha' Hh'].
  destruct (scrypt_call sha Hsha a Ha lay buf h l r hd Hs Hg Hac Hh) as [_ ->].
  destruct (scrypt_call sha Hsha a Ha lay' buf' _ l' r' hd Hs' Hg' Ha' Hh') as [_ ->]. reflexivity.
Qed.

(** *** A hash that lets its input through: the result shows the header *)
Definition first32 (m : bytes) : bytes := firstn 32 (m ++ repeat x00 32).
Lemma first32_length m : length (first32 m) = 32%nat.
Proof. unfold first32. rewrite firstn_length, app_length, repeat_length. lia. Qed.

Lemma first32_hmac k text : (64 < length k)%nat -> hmac first32 k text = xor_bytes (firstn 32 k) (repeat x5c 32).
Proof.
  intros H. unfold hmac. unfold hmac_key. destruct (Nat.ltb_spec 64 (length k)); [|lia]. rewrite first32_length.
  assert (E : first32 k = firstn 32 k) by (unfold first32; rewrite firstn_app; replace (32 - length k)%nat with 0%nat by lia; now rewrite firstn_O, app_nil_r).
  assert (L : length (first32 k) = 32%nat) by apply first32_length. rewrite E in *. set (z := firstn 32 k) in *. clearbody z. unfold first32 at 1.
  generalize (first32 (xor_bytes (z ++ repeat x00 (64 - 32)) (repeat x36 64) ++ text)). intros y. clear -L. do 32 (destruct z as [|? z]; [discriminate|]). destruct z; [|discriminate]. reflexivity.
Qed.

Lemma first32_result hd : length hd = 80%nat -> result_of first32 hd = xor_bytes (firstn 32 hd) (repeat x5c 32).
Proof.
  intros H. unfold result_of, scrypt. generalize (flat_map (fun x => romix 1 x 1024) (chunks (128 * 1) 1 (pbkdf2 first32 hd hd 1 (1 * 128 * 1)))). intros b.
  unfold pbkdf2. change ((32 + 31) / 32)%nat with 1%nat. cbn [seq flat_map]. rewrite app_nil_r. change (1 - 1)%nat with 0%nat. cbn [pbkdf2_F pbkdf2_U].
  rewrite first32_hmac by lia. apply firstn_all2. rewrite xor_bytes_length, firstn_length, repeat_length. lia.
Qed.

Lemma scrypt_odd lay buf lay' buf' l l' r r' a : (a + 63 < 2^64)%N ->
  (N.of_nat (length (cstr buf)) < 2^28)%N -> gval (readable lay) (cstr buf) (AArr (AStr [x31] :: l)) r ->
  (N.of_nat (length (cstr buf')) < 2^28)%N -> gval (readable lay') (cstr buf') (AArr (AStr (x31 :: repeat x30 159) :: l')) r' ->
  c_run (scrypt_op first32 a) lay buf <> c_run (scrypt_op first32 a) lay' buf'.
Proof.
  intros Ha Hs Hg Hs' Hg'.
  assert (A1 : accepted [x31]) by (split; [cbn; lia|constructor; [discriminate|constructor]]).
  assert (A2 : accepted (x31 :: repeat x30 159)).
  { split; [cbn [length]; rewrite repeat_length; lia|]. constructor; [discriminate|]. apply Forall_forall. intros c Hc. apply repeat_spec in Hc. subst. discriminate. }
  assert (B1 : header_bytes [x31] (x01 :: repeat x00 79)) by (exists [x01]; split; [apply (HT_cons x30 x31 0 1); try reflexivity; constructor|split; [cbn; lia|reflexivity]]).
  assert (B2 : header_bytes (x31 :: repeat x30 159) (x10 :: repeat x00 79)).
  { exists (x10 :: repeat x00 79). assert (L : length (x31 :: repeat x30 159) = 160%nat) by reflexivity. rewrite L. change (Nat.even 160) with true. split; [|split].
    - change (x31 :: repeat x30 159) with (x31 :: x30 :: repeat x30 (2 * 79)). apply (HT_cons x31 x30 1 0); try reflexivity. apply hex_text_zeros.
    - cbn [length]. rewrite repeat_length. lia.
    - cbn [length]. rewrite repeat_length. change (80 - 80)%nat with 0%nat. cbn [repeat]. now rewrite app_nil_r. }
  destruct (scrypt_call first32 first32_length a Ha lay buf _ l r _ Hs Hg A1 B1) as [_ ->].
  destruct (scrypt_call first32 first32_length a Ha lay' buf' _ l' r' _ Hs' Hg' A2 B2) as [_ ->].
  rewrite !first32_result by reflexivity. intros E. assert (E' : strings_text [str2hex (xor_bytes (firstn 32 (x01 :: repeat x00 79)) (repeat x5c 32))] = strings_text [str2hex (xor_bytes (firstn 32 (x10 :: repeat x00 79)) (repeat x5c 32))]) by congruence.
  revert E'. vm_compute. discriminate.
Qed.

(** Lemmas about the hexadecimal codecs and the RSA operations. *)
From Verif Require Import Base JsonSpec JsonModel JsonDenotes JsonProof2 JsonProof3 EniModel EniProof CryptoSpec CryptoModel.
From Coq Require Import List NArith ZArith Bool Lia Arith.
From Coq.Init Require Import Byte.
From Coq.Strings Require Import Byte.
Import ListNotations.

(** ** Hexadecimal *)

Lemma hex_digit_lt c n : hex_digit c = Some n -> (n < 16)%N.
Proof. unfold hex_digit. intros H. destruct ((48 <=? bval c) && (bval c <=? 57))%N eqn:E1; [|destruct ((97 <=? bval c) && (bval c <=? 102))%N eqn:E2; [|destruct ((65 <=? bval c) && (bval c <=? 70))%N eqn:E3]]; try discriminate; injection H as <-.
  all: repeat match goal with H : (_ && _)%bool = true |- _ => apply andb_true_iff in H as [H ?] end.
  all: rewrite ?N.leb_le in *; lia.
Qed.

Lemma schar_low c : (bval c < 128)%N -> schar c = Z.of_N (bval c).
Proof. unfold schar, bval. intros H. destruct (Z.ltb_spec (Z.of_N (to_N c)) 128); lia. Qed.

Lemma h2d_lower c n : hex_digit c = Some n -> ~ upper_digit c -> h2d c = Z.of_N n.
Proof.
  unfold hex_digit, upper_digit, h2d. intros H Hu.
  destruct ((48 <=? bval c) && (bval c <=? 57))%N eqn:E1.
  - injection H as <-. apply andb_true_iff in E1 as [A B]. apply N.leb_le in A. apply N.leb_le in B. rewrite schar_low by lia.
    destruct (Z.ltb_spec (Z.of_N (bval c)) 97); lia.
  - destruct ((97 <=? bval c) && (bval c <=? 102))%N eqn:E2.
    + injection H as <-. apply andb_true_iff in E2 as [A B]. apply N.leb_le in A. apply N.leb_le in B. rewrite schar_low by lia.
      destruct (Z.ltb_spec (Z.of_N (bval c)) 97); lia.
    + destruct ((65 <=? bval c) && (bval c <=? 70))%N eqn:E3; try discriminate.
      apply andb_true_iff in E3 as [A B]. apply N.leb_le in A. apply N.leb_le in B. lia.
Qed.

Lemma h2d_upper c n : hex_digit c = Some n -> upper_digit c -> h2d c = (Z.of_N n + 7)%Z.
Proof.
  unfold hex_digit, upper_digit, h2d. intros H Hu.
  destruct (N.leb_spec 48 (bval c)), (N.leb_spec (bval c) 57), (N.leb_spec 97 (bval c)), (N.leb_spec (bval c) 102), (N.leb_spec 65 (bval c)), (N.leb_spec (bval c) 70);
    cbn [andb] in H; try lia; injection H as <-. rewrite schar_low by lia. destruct (Z.ltb_spec (Z.of_N (bval c)) 97); lia.
Qed.

Lemma bval_hex2digit h1 h0 : Z.of_N (bval (hex2digit h1 h0)) = ((h2d h1 * 16 + h2d h0) mod 256)%Z.
Proof.
  unfold hex2digit. pose proof (Z.mod_pos_bound (h2d h1 * 16 + h2d h0) 256 ltac:(lia)) as H.
  rewrite bval_byte_of_N by lia. lia.
Qed.

Lemma upper_dec c : upper_digit c \/ ~ upper_digit c.
Proof. unfold upper_digit. lia. Qed.

Lemma decode_pair h1 h0 n1 n0 b : hex_digit h1 = Some n1 -> hex_digit h0 = Some n0 -> bval b = (16 * n1 + n0)%N ->
  (hex2digit h1 h0 = b <-> ~ upper_digit h1 /\ ~ upper_digit h0).
Proof.
  intros H1 H0 Hb. pose proof (hex_digit_lt _ _ H1). pose proof (hex_digit_lt _ _ H0).
  pose proof (bval_hex2digit h1 h0) as Hv. split.
  - intros E. rewrite E, Hb in Hv.
    destruct (upper_dec h1) as [U1|U1], (upper_dec h0) as [U0|U0]; auto; exfalso;
    rewrite ?(h2d_upper _ _ H1), ?(h2d_upper _ _ H0), ?(h2d_lower _ _ H1), ?(h2d_lower _ _ H0) in Hv by auto.
    + destruct (Z_lt_dec ((Z.of_N n1 + 7) * 16 + (Z.of_N n0 + 7)) 256).
      * rewrite Z.mod_small in Hv; lia.
      * pose proof (Z.div_mod ((Z.of_N n1 + 7) * 16 + (Z.of_N n0 + 7)) 256 ltac:(lia)). rewrite <- Hv in H3. lia.
    + pose proof (Z.div_mod ((Z.of_N n1 + 7) * 16 + Z.of_N n0) 256 ltac:(lia)) as H3. rewrite <- Hv in H3. lia.
    + pose proof (Z.div_mod (Z.of_N n1 * 16 + (Z.of_N n0 + 7)) 256 ltac:(lia)) as H3. rewrite <- Hv in H3. lia.
  - intros [U1 U0]. apply bval_inj. rewrite (h2d_lower _ _ H1), (h2d_lower _ _ H0), Z.mod_small in Hv by (auto; lia). lia.
Qed.

Lemma decode_loop h s : hex_text h s -> (hex2str_loop h = s <-> forall c, In c h -> ~ upper_digit c).
Proof.
  induction 1 as [|h1 h0 n1 n0 b h s H1 H0 Hb Ht IH]; cbn [hex2str_loop].
  - split; intros; auto.
  - pose proof (decode_pair _ _ _ _ _ H1 H0 Hb) as Hp. split.
    + intros E. injection E as E1 E2. apply Hp in E1 as [U1 U0].
      intros c [<-|[<-|Hc]]; auto. apply IH; auto.
    + intros Hu. f_equal.
      * apply Hp. split; apply Hu; cbn; auto.
      * apply IH. intros c Hc. apply Hu. cbn. auto.
Qed.

Lemma hex_text_even h s : hex_text h s -> (length h = 2 * length s)%nat.
Proof. induction 1; cbn [length]; lia. Qed.

Lemma hex2str_even h : hex2str h = (if Nat.even (length h) then Some (hex2str_loop h) else None).
Proof.
  unfold hex2str. destruct (Nat.even (length h)) eqn:E.
  - apply Nat.even_spec in E as (k & ->). replace (2 * k)%nat with (k * 2)%nat by lia. rewrite Nat.mod_mul by lia. reflexivity.
  - assert (O : Nat.odd (length h) = true) by (unfold Nat.odd; rewrite E; reflexivity). apply Nat.odd_spec in O as (k & ->).
    replace (2 * k + 1)%nat with (1 + k * 2)%nat by lia. rewrite Nat.mod_add by lia. reflexivity.
Qed.

Lemma hex2str_text h s : hex_text h s -> (hex2str h = Some s <-> forall c, In c h -> ~ upper_digit c).
Proof.
  intros H. rewrite hex2str_even, (hex_text_even h s H), Nat.even_mul. cbn [Nat.even orb].
  rewrite <- (decode_loop h s H). split; intros E; [now injection E|now f_equal].
Qed.

Lemma hex2str_accepts h : (exists s, hex2str h = Some s /\ length h = 2 * length s)%nat <-> Nat.even (length h) = true.
Proof.
  rewrite hex2str_even. destruct (Nat.even (length h)) eqn:E.
  - split; auto. intros _. eexists. split; [reflexivity|]. apply Nat.even_spec in E as (k & E). revert h E. induction k as [|k IH]; intros h E.
    + destruct h; [reflexivity|discriminate].
    + destruct h as [|a [|b h]]; cbn [length] in E; try lia. cbn [hex2str_loop length]. rewrite (IH h) by lia. lia.
  - split; [intros (s & H & _); discriminate|discriminate].
Qed.

Lemma hex_char_digit b : hex_digit (hex_char (bval b / 16)) = Some (bval b / 16)%N /\ hex_digit (hex_char (bval b mod 16)) = Some (bval b mod 16)%N /\
  ~ upper_digit (hex_char (bval b / 16)) /\ ~ upper_digit (hex_char (bval b mod 16)).
Proof.
  assert (H : forall n, (n < 16)%N -> hex_digit (hex_char n) = Some n /\ ~ upper_digit (hex_char n)).
  { intros n Hn. assert (E : In n (map N.of_nat (seq 0 16))). { apply in_map_iff. exists (N.to_nat n). split; [lia|]. apply in_seq. lia. }
    cbn in E. unfold upper_digit. repeat (destruct E as [<-|E]; [split; [reflexivity|vm_compute; intros [A B]; congruence]|]). destruct E. }
  pose proof (bval_lt b). assert (bval b / 16 < 16)%N by (apply N.div_lt_upper_bound; lia).
  assert (bval b mod 16 < 16)%N by (apply N.mod_lt; lia).
  destruct (H _ H1), (H _ H2). auto.
Qed.

Lemma str2hex_text s : hex_text (str2hex s) s /\ Forall lower_hex (str2hex s).
Proof.
  induction s as [|b s [IH1 IH2]]; cbn [str2hex flat_map]; [split; constructor|].
  destruct (hex_char_digit b) as (D1 & D0 & U1 & U0). cbn [hex_out app]. split.
  - eapply HT_cons; eauto. pose proof (N.div_mod (bval b) 16 ltac:(lia)). exact H.
  - constructor; [split; [rewrite D1; discriminate|auto]|]. constructor; [split; [rewrite D0; discriminate|auto]|]. exact IH2.
Qed.

Lemma hex_lossless s : hex2str (str2hex s) = Some s.
Proof.
  destruct (str2hex_text s) as [H1 H2]. apply (hex2str_text _ _ H1). intros c Hc. rewrite Forall_forall in H2. apply (H2 c Hc).
Qed.

(** every text of digits is a text of some bytes *)
Lemma hex_text_exists h : Nat.even (length h) = true -> Forall (fun c => hex_digit c <> None) h -> exists s, hex_text h s.
Proof.
  intros He. apply Nat.even_spec in He as (k & E). revert h E. induction k as [|k IH]; intros h E Hf.
  - destruct h; [|discriminate]. exists []. constructor.
  - destruct h as [|a [|b h]]; cbn [length] in E; try lia. inversion Hf as [|? ? Ha Hf1]; subst. inversion Hf1 as [|? ? Hb Hf2]; subst.
    destruct (IH h ltac:(lia) Hf2) as (s & Hs). destruct (hex_digit a) as [na|] eqn:Ea; [|congruence]. destruct (hex_digit b) as [nb|] eqn:Eb; [|congruence].
    exists (byte_of_N (16 * na + nb) :: s). apply (HT_cons a b na nb); auto. apply hex_digit_lt in Ea. apply hex_digit_lt in Eb.
    rewrite bval_byte_of_N; lia.
Qed.

Lemma hex_text_det h s s' : hex_text h s -> hex_text h s' -> s = s'.
Proof.
  intros H. revert s'. induction H as [|h1 h0 n1 n0 b h s H1 H0 Hb Ht IH]; intros s' H'; inversion H'; subst; auto.
  f_equal; auto. apply bval_inj. congruence.
Qed.

(** ** RSA *)

Section RSA.
  Variable o : openssl.

  Lemma padded_length size m : length (padded size m) = size.
  Proof. unfold padded. rewrite firstn_length, app_length, repeat_length. lia. Qed.

  Lemma padded_long size m : (size <= length m)%nat -> padded size m = firstn size m.
  Proof. intros H. unfold padded. replace (size - length m)%nat with 0%nat by lia. cbn [repeat]. now rewrite app_nil_r. Qed.

  Lemma padded_short size m : (length m < size)%nat -> padded size m = m ++ repeat NUL (size - length m).
  Proof. intros H. unfold padded. rewrite firstn_all2; auto. rewrite app_length, repeat_length. lia. Qed.

  Lemma existsb_nul c : existsb (fun b => beqb b NUL) c = true <-> In NUL c.
  Proof.
    rewrite existsb_exists. split.
    - intros (b & Hb & E). destruct (beqb_spec b NUL); congruence.
    - intros H. exists NUL. split; auto.
  Qed.

  Lemma cstr_app_nul m r : ~ In NUL m -> cstr (m ++ NUL :: r) = m.
  Proof.
    induction m as [|c m IH]; cbn [app cstr]; intros H; [reflexivity|].
    destruct (beqb_spec c NUL) as [->|]; [exfalso; apply H; now left|]. f_equal. apply IH. intros Hi. apply H. now right.
  Qed.

  Lemma cstr_no_nul s : ~ In NUL (cstr s).
  Proof.
    induction s as [|c s IH]; cbn [cstr]; auto. destruct (beqb_spec c NUL); cbn [In]; [tauto|]. intros [H|H]; auto.
  Qed.

  Lemma cstr_length s : (length (cstr s) <= length s)%nat.
  Proof. induction s as [|c s IH]; cbn [cstr]; auto. destruct (beqb c NUL); cbn [length]; lia. Qed.

  Lemma cstr_in_length s : In NUL s -> (length (cstr s) < length s)%nat.
  Proof.
    induction s as [|c s IH]; cbn [cstr]; [intros []|]. destruct (beqb_spec c NUL); cbn [length]; [lia|]. intros [H|H]; [congruence|].
    specialize (IH H). lia.
  Qed.

  (** what reading the block back as a C string gives *)
  Lemma read_block size m : read_out size (Some (padded size m)) =
    if (Nat.ltb (length m) size || existsb (fun b => beqb b NUL) (firstn size m))%bool then Ret (Some (cstr (padded size m))) else UB OutOfBounds.
  Proof.
    unfold read_out. rewrite padded_length, Nat.leb_refl. unfold string_of_buffer. rewrite padded_length, Nat.ltb_irrefl.
    destruct (Nat.ltb_spec (length m) size) as [H|H]; cbn [orb].
    - assert (E : existsb (fun b => beqb b NUL) (padded size m) = true).
      { apply existsb_nul. rewrite padded_short by auto. apply in_or_app. right. destruct (size - length m)%nat eqn:E; [lia|]. now left. }
      rewrite E. reflexivity.
    - rewrite padded_long by auto. destruct (existsb (fun b => beqb b NUL) (firstn size m)); reflexivity.
  Qed.

  Lemma read_block_exact size m : read_out size (Some (padded size m)) = Ret (Some m) <-> (~ In NUL m /\ (length m < size)%nat).
  Proof.
    rewrite read_block. destruct (Nat.ltb_spec (length m) size) as [H|H]; cbn [orb].
    - split.
      + intros E. injection E as E. split; auto. rewrite <- E. apply cstr_no_nul.
      + intros [Hn _]. rewrite padded_short by auto. destruct (size - length m)%nat eqn:Ed; [lia|]. cbn [repeat]. now rewrite cstr_app_nul.
    - split; [|lia]. destruct (existsb (fun b => beqb b NUL) (firstn size m)) eqn:E; [|discriminate]. intros E2. injection E2 as E2. exfalso.
      apply existsb_nul in E. rewrite padded_long in E2 by auto. apply cstr_in_length in E. rewrite E2, firstn_length in E. lia.
  Qed.

  Lemma read_block_full size m : ~ In NUL m -> (size <= length m)%nat -> read_out size (Some (padded size m)) = UB OutOfBounds.
  Proof.
    intros Hn Hl. rewrite read_block. destruct (Nat.ltb_spec (length m) size); [lia|]. cbn [orb].
    destruct (existsb (fun b => beqb b NUL) (firstn size m)) eqn:E; auto. apply existsb_nul in E. exfalso. apply Hn.
    rewrite <- (firstn_skipn size m). apply in_or_app. now left.
  Qed.

  (** *** The operations *)

  Lemma arg_second a b l : arg_at (a :: b :: l) 1 = Ret b.
  Proof.
    unfold arg_at, value_idx. change (1 mod 18446744073709551616)%Z with 1%Z. cbn [length].
    destruct (N.leb_spec (N.of_nat (S (S (length l)))) (Z.to_N 1)); [lia|reflexivity].
  Qed.

  Lemma str_arg0 s l : str_arg (JStr s :: l) 0 = Ret s.
  Proof. unfold str_arg. rewrite arg_head. reflexivity. Qed.
  Lemma str_arg1 a s l : str_arg (a :: JStr s :: l) 1 = Ret s.
  Proof. unfold str_arg. rewrite arg_second. reflexivity. Qed.

  Lemma two_strings vs p m l : Forall2 denotes vs (AStr p :: AStr m :: l) -> exists vs', vs = JStr p :: JStr m :: vs'.
  Proof.
    intros H. inversion H as [|? ? ? ? H1 H2]; subst. inversion H2 as [|? ? ? ? H3 H4]; subst. inversion H1; subst. inversion H3; subst. eauto.
  Qed.

  Lemma encrypt_gas lay buf pem m l r pub : (N.of_nat (length (cstr buf)) < 2^28)%N ->
    gval (readable lay) (cstr buf) (AArr (AStr pem :: AStr m :: l)) r -> Forall short_keys l ->
    read_pub o (cstr pem) = Some pub -> (N.of_nat (rsa_size o pub) < 2^27)%N ->
    c_gas (encrypt_op o) lay buf = Ret (10 * N.of_nat (rsa_size o pub))%N.
  Proof.
    intros Hs Hg Hk Hp Hz. destruct (protocol (encrypt_op o) lay buf _ r Hs Hg) as (vs & Hf & -> & _). { constructor; [exact I|]. constructor; [exact I|auto]. }
    destruct (two_strings vs _ _ _ Hf) as (vs' & ->). cbn [oparse encrypt_op oinit ogas]. rewrite str_arg0. cbn [fail]. unfold create_pubkey. rewrite Hp, str_arg1. cbn [fail bind rsa_gas r_key].
    f_equal. unfold u64. change (2^27)%N with 134217728%N in Hz. rewrite N.mod_small; lia.
  Qed.

  Lemma decrypt_gas lay buf pem h l r priv : (N.of_nat (length (cstr buf)) < 2^28)%N ->
    gval (readable lay) (cstr buf) (AArr (AStr pem :: AStr h :: l)) r -> Forall short_keys l ->
    read_priv o (cstr pem) = Some priv -> (N.of_nat (rsa_size o priv) < 2^27)%N ->
    c_gas (decrypt_op o) lay buf = Ret (if Nat.even (length h) then 10 * N.of_nat (rsa_size o priv) else 1500)%N.
  Proof.
    intros Hs Hg Hk Hp Hz. destruct (protocol (decrypt_op o) lay buf _ r Hs Hg) as (vs & Hf & -> & _). { constructor; [exact I|]. constructor; [exact I|auto]. }
    destruct (two_strings vs _ _ _ Hf) as (vs' & ->). cbn [oparse decrypt_op oinit ogas]. rewrite str_arg0. cbn [fail]. unfold create_privkey. rewrite Hp, str_arg1. cbn [fail].
    rewrite hex2str_even. destruct (Nat.even (length h)); cbn [bind rsa_gas r_key]; auto.
    f_equal. unfold u64. change (2^27)%N with 134217728%N in Hz. rewrite N.mod_small; lia.
  Qed.

  Lemma encrypt_run lay buf pem m l r pub c : (N.of_nat (length (cstr buf)) < 2^28)%N ->
    gval (readable lay) (cstr buf) (AArr (AStr pem :: AStr m :: l)) r -> Forall short_keys l ->
    read_pub o (cstr pem) = Some pub -> pub_encrypt o pub m = Ret (Some c) ->
    c_run (encrypt_op o) lay buf = Ret (Some (strings_text [str2hex c])).
  Proof.
    intros Hs Hg Hk Hp He. destruct (protocol (encrypt_op o) lay buf _ r Hs Hg) as (vs & Hf & _ & ->). { constructor; [exact I|]. constructor; [exact I|auto]. }
    destruct (two_strings vs _ _ _ Hf) as (vs' & ->). cbn [oparse encrypt_op oinit orun]. rewrite str_arg0. cbn [fail]. unfold create_pubkey. rewrite Hp, str_arg1. cbn [fail bind r_key r_msg].
    rewrite He. cbn [bind app]. change (JArr [JStr (str2hex c)]) with (JArr (map JStr [str2hex c])). rewrite print_strings. cbn [bind]. now rewrite cstr_strings.
  Qed.

  Lemma decrypt_run lay buf pem h l r priv c : (N.of_nat (length (cstr buf)) < 2^28)%N ->
    gval (readable lay) (cstr buf) (AArr (AStr pem :: AStr h :: l)) r -> Forall short_keys l ->
    read_priv o (cstr pem) = Some priv -> hex2str h = Some c ->
    c_run (decrypt_op o) lay buf = (x <- priv_decrypt o priv c ;; match x with Some m => Ret (Some (strings_text [m])) | None => Ret None end).
  Proof.
    intros Hs Hg Hk Hp He. destruct (protocol (decrypt_op o) lay buf _ r Hs Hg) as (vs & Hf & _ & ->). { constructor; [exact I|]. constructor; [exact I|auto]. }
    destruct (two_strings vs _ _ _ Hf) as (vs' & ->). cbn [oparse decrypt_op oinit orun]. rewrite str_arg0. cbn [fail]. unfold create_privkey. rewrite Hp, str_arg1. cbn [fail].
    rewrite He. cbn [bind r_key r_msg]. destruct (priv_decrypt o priv c) as [[m|]| | | |]; cbn [bind app]; auto.
    change (JArr [JStr m]) with (JArr (map JStr [m])). rewrite print_strings. cbn [bind]. now rewrite cstr_strings.
  Qed.
End RSA.

(** ** Statements used by CryptoProps.v *)

Lemma hex_decode h : (Nat.odd (length h) = true -> hex2str h = None) /\
  (Nat.even (length h) = true -> Forall lower_hex h -> exists s, hex2str h = Some s /\ hex_text h s).
Proof.
  split.
  - intros H. rewrite hex2str_even. unfold Nat.odd in H. now destruct (Nat.even (length h)).
  - intros He Hl. destruct (hex_text_exists h He) as (s & Hs). { eapply Forall_impl; [|exact Hl]. now intros c []. }
    exists s. split; auto. apply (hex2str_text h s Hs). intros c Hc. rewrite Forall_forall in Hl. apply (Hl c Hc).
Qed.

Lemma hex_decode_wrong : (forall h, Nat.even (length h) = true -> exists s, hex2str h = Some s) /\
  (forall h s, hex_text h s -> (hex2str h = Some s <-> ~ exists c, In c h /\ upper_digit c)).
Proof.
  split.
  - intros h H. apply hex2str_accepts in H as (s & H & _). eauto.
  - intros h s H. rewrite (hex2str_text h s H). split; [intros Ha (c & Hc & Hu); eapply Ha; eauto|eauto].
Qed.

Lemma round_trip size (enc dec : bytes -> option bytes) m c size' :
  size' = size -> ~ In NUL m -> (length m < size)%nat ->
  (forall m c, length m = size -> enc m = Some c -> length c = size /\ dec c = Some m) ->
  copy_out size (enc (padded size m)) = Ret (Some c) -> read_out size' (dec c) = Ret (Some m).
Proof.
  intros -> Hn Hl Hi He. destruct (enc (padded size m)) as [c'|] eqn:E; cbn [copy_out] in He; [|discriminate].
  destruct (Hi _ _ (padded_length size m) E) as [H1 H2]. rewrite H1, Nat.leb_refl in He. injection He as <-. rewrite H2.
  now apply read_block_exact.
Qed.

Lemma round_trip_fails (o : openssl) (pub priv : key o) m c : rsa_size o priv = rsa_size o pub ->
  (forall m c, length m = rsa_size o pub -> raw_pub_encrypt o pub m = Some c -> length c = rsa_size o pub /\ raw_priv_decrypt o priv c = Some m) ->
  pub_encrypt o pub m = Ret (Some c) ->
  (In NUL m \/ (rsa_size o pub <= length m)%nat -> priv_decrypt o priv c <> Ret (Some m)) /\
  (~ In NUL m -> (rsa_size o pub <= length m)%nat -> priv_decrypt o priv c = UB OutOfBounds).
Proof.
  intros Hs Hi He. unfold pub_encrypt in He. destruct (raw_pub_encrypt o pub (padded (rsa_size o pub) m)) as [c'|] eqn:E; cbn [copy_out] in He; [|discriminate].
  destruct (Hi _ _ (padded_length _ m) E) as [H1 H2]. rewrite H1, Nat.leb_refl in He. injection He as <-.
  unfold priv_decrypt. rewrite H2, Hs. split.
  - intros Hb Hr. apply read_block_exact in Hr as [Hn Hl]. destruct Hb; [auto|lia].
  - intros Hn Hl. now apply read_block_full.
Qed.

Lemma operations_round_trip (o : openssl) lay lay' buf pem m l r pub c :
  (N.of_nat (length (cstr buf)) < 2^28)%N ->
  gval (readable lay) (cstr buf) (AArr (AStr pem :: AStr m :: l)) r -> Forall short_keys l ->
  read_pub o (cstr pem) = Some pub -> pub_encrypt o pub m = Ret (Some c) ->
  exists t h, c_run (encrypt_op o) lay buf = Ret (Some t) /\ gval documented t (AArr [AStr h]) [] /\ hex_text h c /\
    forall buf' pem' l' r' priv, (N.of_nat (length (cstr buf')) < 2^28)%N ->
      gval (readable lay') (cstr buf') (AArr (AStr pem' :: AStr h :: l')) r' -> Forall short_keys l' ->
      read_priv o (cstr pem') = Some priv -> rsa_size o priv = rsa_size o pub ->
      (forall m c, length m = rsa_size o pub -> raw_pub_encrypt o pub m = Some c -> length c = rsa_size o pub /\ raw_priv_decrypt o priv c = Some m) ->
      ~ In NUL m -> (length m < rsa_size o pub)%nat ->
      exists t', c_run (decrypt_op o) lay' buf' = Ret (Some t') /\ gval documented t' (AArr [AStr m]) [].
Proof.
  intros Hs Hg Hk Hp He. exists (strings_text [str2hex c]), (str2hex c). split; [eapply encrypt_run; eauto|].
  split; [apply (strings_gval documented [str2hex c])|]. split; [apply str2hex_text|].
  intros buf' pem' l' r' priv Hs' Hg' Hk' Hp' Hz Hi Hn Hl. exists (strings_text [m]). split; [|apply (strings_gval documented [m])].
  rewrite (decrypt_run o lay' buf' pem' (str2hex c) l' r' priv c) by (auto using hex_lossless).
  assert (E : priv_decrypt o priv c = Ret (Some m)) by (eapply round_trip; eauto). rewrite E. reflexivity.
Qed.

Lemma encrypt_no_key (o : openssl) lay buf pem m l r : (N.of_nat (length (cstr buf)) < 2^28)%N ->
  gval (readable lay) (cstr buf) (AArr (AStr pem :: AStr m :: l)) r -> Forall short_keys l ->
  read_pub o (cstr pem) = None -> c_gas (encrypt_op o) lay buf = Ret 1500%N /\ c_run (encrypt_op o) lay buf = Ret None.
Proof.
  intros Hs Hg Hk Hp. destruct (protocol (encrypt_op o) lay buf _ r Hs Hg) as (vs & Hf & -> & ->). { constructor; [exact I|]. constructor; [exact I|auto]. }
  destruct (two_strings vs _ _ _ Hf) as (vs' & ->). cbn [oparse encrypt_op oinit]. rewrite str_arg0. cbn [fail]. unfold create_pubkey. rewrite Hp. split; reflexivity.
Qed.

Lemma decrypt_no_key (o : openssl) lay buf pem m l r : (N.of_nat (length (cstr buf)) < 2^28)%N ->
  gval (readable lay) (cstr buf) (AArr (AStr pem :: AStr m :: l)) r -> Forall short_keys l ->
  read_priv o (cstr pem) = None -> c_gas (decrypt_op o) lay buf = Ret 1500%N /\ c_run (decrypt_op o) lay buf = Ret None.
Proof.
  intros Hs Hg Hk Hp. destruct (protocol (decrypt_op o) lay buf _ r Hs Hg) as (vs & Hf & -> & ->). { constructor; [exact I|]. constructor; [exact I|auto]. }
  destruct (two_strings vs _ _ _ Hf) as (vs' & ->). cbn [oparse decrypt_op oinit]. rewrite str_arg0. cbn [fail]. unfold create_privkey. rewrite Hp. split; reflexivity.
Qed.

Lemma not_string v a : denotes v a -> (forall s, a <> AStr s) -> to_string v = UB TypeConfusion.
Proof. intros H Ha. inversion H; subst; try reflexivity. exfalso. eapply Ha. reflexivity. Qed.

Lemma rsa_bad_args (o : openssl) lay buf pem l r : (N.of_nat (length (cstr buf)) < 2^28)%N ->
  gval (readable lay) (cstr buf) (AArr (AStr pem :: l)) r -> Forall short_keys l ->
  (read_pub o (cstr pem) <> None ->
     (l = [] -> c_run (encrypt_op o) lay buf = Throw OutOfRangeVector) /\
     (forall a l', l = a :: l' -> (forall s, a <> AStr s) -> c_run (encrypt_op o) lay buf = UB TypeConfusion)) /\
  (read_priv o (cstr pem) <> None ->
     (l = [] -> c_run (decrypt_op o) lay buf = Throw OutOfRangeVector) /\
     (forall a l', l = a :: l' -> (forall s, a <> AStr s) -> c_run (decrypt_op o) lay buf = UB TypeConfusion)).
Proof.
  intros Hs Hg Hk. assert (Hk' : Forall short_keys (AStr pem :: l)) by (constructor; [exact I|auto]).
  assert (Hone : forall vs, Forall2 denotes vs (AStr pem :: l) -> exists vs', vs = JStr pem :: vs' /\ Forall2 denotes vs' l).
  { intros vs H. inversion H as [|? ? ? ? H1 H2]; subst. inversion H1; subst. eauto. }
  split; intros Hp.
  - destruct (protocol (encrypt_op o) lay buf _ r Hs Hg Hk') as (vs & Hf & _ & ->). apply Hone in Hf as (vs' & -> & Hf).
    cbn [oparse encrypt_op oinit]. rewrite str_arg0. cbn [fail]. unfold create_pubkey. destruct (read_pub o (cstr pem)) as [k|]; [|congruence]. split.
    + intros ->. inversion Hf; subst. reflexivity.
    + intros a l' -> Ha. inversion Hf as [|v ? vs2 ? Hd _]; subst. unfold str_arg. rewrite arg_second. cbn [bind]. rewrite (not_string v a Hd Ha). reflexivity.
  - destruct (protocol (decrypt_op o) lay buf _ r Hs Hg Hk') as (vs & Hf & _ & ->). apply Hone in Hf as (vs' & -> & Hf).
    cbn [oparse decrypt_op oinit]. rewrite str_arg0. cbn [fail]. unfold create_privkey. destruct (read_priv o (cstr pem)) as [k|]; [|congruence]. split.
    + intros ->. inversion Hf; subst. reflexivity.
    + intros a l' -> Ha. inversion Hf as [|v ? vs2 ? Hd _]; subst. unfold str_arg. rewrite arg_second. cbn [bind]. rewrite (not_string v a Hd Ha). reflexivity.
Qed.

(** ** Equal ciphertexts *)

Lemma nth_repeat_nul (i n : nat) : nth i (repeat NUL n) NUL = NUL.
Proof. revert i. induction n; intros [|i]; cbn; auto. Qed.

Lemma nth_firstn_lt {A} (l : list A) d : forall n i, (i < n)%nat -> nth i (firstn n l) d = nth i l d.
Proof. induction l as [|x l IH]; intros [|n] [|i] H; cbn; auto; try lia. apply IH. lia. Qed.

Lemma padded_nth size m i : (i < size)%nat -> nth i (padded size m) NUL = nth i m NUL.
Proof.
  intros Hi. unfold padded. rewrite nth_firstn_lt by assumption. destruct (Nat.lt_ge_cases i (length m)) as [H|H].
  - now apply app_nth1.
  - rewrite app_nth2, nth_repeat_nul by assumption. symmetry. now apply nth_overflow.
Qed.

Lemma padded_eq size m m' : padded size m = padded size m' <-> (forall i, (i < size)%nat -> nth i m NUL = nth i m' NUL).
Proof.
  split.
  - intros H i Hi. rewrite <- (padded_nth size m i Hi), <- (padded_nth size m' i Hi). now rewrite H.
  - intros H. apply (nth_ext _ _ NUL NUL); rewrite !padded_length; auto. intros i Hi. rewrite !padded_nth by assumption. auto.
Qed.

Lemma same_cipher size (enc dec : bytes -> option bytes) m m' c c' :
  (forall m c, length m = size -> enc m = Some c -> length c = size /\ dec c = Some m) ->
  copy_out size (enc (padded size m)) = Ret (Some c) -> copy_out size (enc (padded size m')) = Ret (Some c') ->
  length c = size /\ (c = c' <-> forall i, (i < size)%nat -> nth i m NUL = nth i m' NUL).
Proof.
  intros Hi H H'. rewrite <- padded_eq.
  assert (Hc : forall m c, copy_out size (enc (padded size m)) = Ret (Some c) -> enc (padded size m) = Some c).
  { intros m0 c0. destruct (enc (padded size m0)); cbn [copy_out]; [|discriminate]. destruct (Nat.leb _ _); congruence. }
  apply Hc in H, H'. destruct (Hi _ _ (padded_length size m) H) as [Hl Hd]. destruct (Hi _ _ (padded_length size m') H') as [_ Hd'].
  split; [auto|]. split; intros E; [subst c'|rewrite E in H]; congruence.
Qed.

Lemma nth_no_nul m m' (size : nat) : ~ In NUL m -> ~ In NUL m' -> (length m <= size)%nat -> (length m' <= size)%nat ->
  (forall i, (i < size)%nat -> nth i m NUL = nth i m' NUL) -> m = m'.
Proof.
  revert m' size. induction m as [|x m IH]; intros [|y m'] size Hn Hn' Hl Hl' H; auto.
  - destruct size as [|size]; [cbn in Hl'; lia|]. specialize (H 0%nat). cbn in H. destruct Hn'. left. symmetry. apply H. lia.
  - destruct size as [|size]; [cbn in Hl; lia|]. specialize (H 0%nat). cbn in H. destruct Hn. left. apply H. lia.
  - destruct size as [|size]; [cbn in Hl; lia|]. cbn in Hl, Hl'. f_equal. { apply (H 0%nat). lia. }
    apply (IH m' size); [intros K; apply Hn; now right|intros K; apply Hn'; now right|lia|lia|]. intros i Hi. apply (H (S i)). lia.
Qed.

Lemma padded_more size m x : ((size <= length m)%nat \/ (forall b, In b x -> b = NUL)) -> padded size (m ++ x) = padded size m.
Proof.
  intros H. apply padded_eq. intros i Hi. destruct (Nat.lt_ge_cases i (length m)) as [Hm|Hm]; [now apply app_nth1|].
  destruct H as [H|H]; [lia|]. rewrite app_nth2, (nth_overflow m) by assumption.
  destruct (nth_in_or_default (i - length m) x NUL) as [K|K]; auto.
Qed.

Lemma str2hex_inj a b : str2hex a = str2hex b -> a = b.
Proof. intros H. pose proof (hex_lossless a) as K. rewrite H, hex_lossless in K. congruence. Qed.

Lemma print_hex h : Forall lower_hex h -> flat_map print_char h = h.
Proof.
  induction 1 as [|c h [Hc _] _ IH]; auto. cbn [flat_map]. rewrite IH.
  assert (E : print_char c = [c]) by (destruct c; try (exfalso; apply Hc; reflexivity); reflexivity). now rewrite E.
Qed.

Lemma hex_result_length c : length (strings_text [str2hex c]) = (2 * length c + 4)%nat.
Proof.
  destruct (str2hex_text c) as [Hh Hl]. unfold strings_text. cbn [map commas]. rewrite (print_hex _ Hl).
  apply hex_text_even in Hh. cbn [length app]. rewrite !app_length. cbn [length app] in *. lia.
Qed.

Lemma same_result (o : openssl) (pub priv : key o) lay lay' buf buf' pem pem' m m' l l' r r' c c' :
  (N.of_nat (length (cstr buf)) < 2^28)%N -> (N.of_nat (length (cstr buf')) < 2^28)%N ->
  gval (readable lay) (cstr buf) (AArr (AStr pem :: AStr m :: l)) r -> Forall short_keys l ->
  gval (readable lay') (cstr buf') (AArr (AStr pem' :: AStr m' :: l')) r' -> Forall short_keys l' ->
  read_pub o (cstr pem) = Some pub -> read_pub o (cstr pem') = Some pub ->
  (forall m c, length m = rsa_size o pub -> raw_pub_encrypt o pub m = Some c -> length c = rsa_size o pub /\ raw_priv_decrypt o priv c = Some m) ->
  pub_encrypt o pub m = Ret (Some c) -> pub_encrypt o pub m' = Ret (Some c') ->
  exists t t', c_run (encrypt_op o) lay buf = Ret (Some t) /\ c_run (encrypt_op o) lay' buf' = Ret (Some t') /\
    length t = (2 * rsa_size o pub + 4)%nat /\
    (t = t' <-> forall i, (i < rsa_size o pub)%nat -> nth i m NUL = nth i m' NUL).
Proof.
  intros Hs Hs' Hg Hk Hg' Hk' Hp Hp' Hi He He'. exists (strings_text [str2hex c]), (strings_text [str2hex c']).
  split; [eapply encrypt_run; eauto|]. split; [eapply encrypt_run; eauto|].
  destruct (same_cipher _ _ _ _ _ _ _ Hi He He') as [Hl Hc]. rewrite hex_result_length, Hl. split; auto.
  rewrite <- Hc. split; [intros H; apply strings_inj in H; injection H; apply str2hex_inj|now intros ->].
Qed.

Lemma more_ciphers (o : openssl) (k : key o) m x :
  (rsa_size o k <= length m)%nat \/ (forall b, In b x -> b = NUL) ->
  pub_encrypt o k (m ++ x) = pub_encrypt o k m /\ priv_encrypt o k (m ++ x) = priv_encrypt o k m.
Proof. intros H. unfold pub_encrypt, priv_encrypt. now rewrite padded_more. Qed.

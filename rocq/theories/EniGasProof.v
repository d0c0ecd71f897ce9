(** Gas and the size of answers and texts: lemmas behind EniGasProps.v. *)
From Verif Require Import Base JsonSpec JsonModel JsonDenotes JsonProof JsonProof2 JsonProof3 JsonProof4 JsonProof5 EniModel EniProof EniGasSpec.
From Verif Require Import CryptoSpec CryptoModel CryptoProof ScryptModel ScryptProof ScryptProof2 ScryptProof3 JsonExModel.
From Coq Require Import List NArith ZArith Bool Lia Arith.
From Coq.Init Require Import Byte.
Import ListNotations.

(** the gas and the answer of one text come from one parse of its arguments *)
Lemma both_calls (c : opclass) lay buf g t : c_gas c lay buf = Ret g -> c_run c lay buf = Ret (Some t) ->
  exists args s s' l t', oparse c (oinit c) args = (s, Ret true) /\ ogas c s = Ret g /\ orun c s [] = (s', l, Ret true) /\ print (JArr l) = Ret t' /\ t = cstr t'.
Proof.
  unfold c_gas, c_run. destruct (construct c lay (cstr buf)) as [st| | | |] eqn:Ec; try discriminate. cbn [bind]. unfold construct in Ec.
  apply bind_ret in Ec as ([ok root] & _ & Ec). destruct ok; [|discriminate]. injection Ec as <-.
  unfold get_gas, start, check. cbn [e_parsed e_args e_op e_ret e_log e_success]. destruct (as_array (jcopy root)) as [args| | | |]; try discriminate.
  destruct (oparse c (oinit c) args) as [s r] eqn:Ep. destruct r as [[]| | | |]; try discriminate.
  cbn [snd log e_op e_ret e_parsed e_success e_args e_log]. change (as_array new_array) with (Ret (@nil jvalue)). cbn iota beta.
  intros Hg Hr. destruct (orun c s []) as [[s' l] r'] eqn:Eo. cbn [snd e_ret] in Hr. destruct r' as [[]| | | |]; try discriminate. cbn [bind] in Hr.
  apply bind_ret in Hr as (t' & Ht & [= <-]). exists args, s, s', l, t'. auto.
Qed.

Lemma flat_le s : (length s <= length (flat_map print_char s) <= 6 * length s)%nat.
Proof.
  induction s as [|c s IH]; cbn [flat_map length]; [lia|]. rewrite app_length.
  destruct (print_char_cases c) as [(-> & _)|[(-> & _)|(-> & _)]]; cbn [length]; lia.
Qed.
Lemma text_le s : (length s + 4 <= length (strings_text [s]) <= 6 * length s + 4)%nat.
Proof. unfold strings_text. cbn [map commas app length]. repeat (rewrite ?app_length; cbn [length app]). pose proof (flat_le s). lia. Qed.

Lemma u64_small n : (n < 2^64)%N -> u64 n = n.
Proof. intros H. unfold u64. now apply N.mod_small. Qed.

(** classes that answer with one string *)
Lemma paid_by (c : opclass) :
  (forall args s s' l, oparse c (oinit c) args = (s, Ret true) -> orun c s [] = (s', l, Ret true) ->
     exists str, l = [JStr str] /\ forall g, ogas c s = Ret g -> (N.of_nat (length (strings_text [str])) < 2^60)%N ->
       (N.of_nat (length (strings_text [str])) <= g + 68)%N) ->
  answer_paid c.
Proof.
  intros H lay buf g t Hg Hr Ht. destruct (both_calls c lay buf g t Hg Hr) as (args & s & s' & l & t' & H1 & H2 & H3 & H4 & ->).
  destruct (H args s s' l H1 H3) as (str & -> & Hp). change [JStr str] with (map JStr [str]) in H4. rewrite print_strings in H4. injection H4 as <-.
  rewrite cstr_strings in *. now apply Hp.
Qed.

Lemma ten_each str g : g = u64 (N.of_nat (length str) * 10) -> (N.of_nat (length (strings_text [str])) < 2^60)%N -> (N.of_nat (length (strings_text [str])) <= g + 68)%N.
Proof.
  intros -> Hl. pose proof (text_le str) as H. change (2^60)%N with 1152921504606846976%N in Hl. rewrite u64_small by (change (2^64)%N with 18446744073709551616%N; lia). lia.
Qed.

Lemma reverse_paid : answer_paid reverse_op.
Proof.
  apply paid_by. intros args s s' l Hp Hr. cbn [orun reverse_op] in Hr. injection Hr as _ <-. exists (rev s). split; [reflexivity|].
  intros g Hg. cbn [ogas reverse_op] in Hg. injection Hg as <-. apply ten_each. now rewrite rev_length.
Qed.
Lemma json_paid jsmn to_int inner : answer_paid (json_op jsmn to_int inner).
Proof.
  apply paid_by. intros args s s' l Hp Hr. cbn [orun json_op] in Hr. injection Hr as _ <-. exists s. split; [reflexivity|].
  intros g Hg. cbn [ogas json_op] in Hg. injection Hg as <-. now apply ten_each.
Qed.
Lemma scrypt_paid sha (Hsha : forall m, length (sha m) = 32%nat) a (Ha : (a + 63 < 2^64)%N) : answer_paid (scrypt_op sha a).
Proof.
  apply paid_by. intros args s s' l Hp Hr. cbn [oparse scrypt_op] in Hp. unfold fail in Hp. destruct (str_arg args 0) as [h| | | |]; try discriminate.
  injection Hp as <- Hp. apply (accepted_dec sha Hsha a Ha) in Hp. destruct (header_bytes_exists h Hp) as (hd & Hd & _).
  rewrite (op_run sha Hsha a Ha h h [] hd Hp eq_refl Hd) in Hr. injection Hr as _ <-. exists (str2hex (result_of sha hd)). split; [reflexivity|].
  intros g _ _. rewrite hex_result_length, result_length by auto. lia.
Qed.

Lemma encrypt_paid (o : openssl) : (forall k, N.of_nat (rsa_size o k) < 2^31)%N -> answer_paid (encrypt_op o).
Proof.
  intros Hk. apply paid_by. intros args s s' l Hp Hr. cbn [orun encrypt_op] in Hr. destruct (r_key o s) as [k|] eqn:Ek; [|discriminate].
  destruct (pub_encrypt o k (r_msg o s)) as [[c|]| | | |] eqn:Ee; try discriminate. injection Hr as _ <-. exists (str2hex c). split; [reflexivity|].
  intros g Hg _. cbn [ogas encrypt_op] in Hg. unfold rsa_gas in Hg. rewrite Ek in Hg. injection Hg as <-. specialize (Hk k). change (2^31)%N with 2147483648%N in Hk.
  unfold pub_encrypt, copy_out in Ee. destruct (raw_pub_encrypt o k (padded (rsa_size o k) (r_msg o s))) as [c'|]; [|discriminate].
  destruct (Nat.leb_spec (length c') (rsa_size o k)); [|discriminate]. injection Ee as <-.
  rewrite u64_small by (change (2^64)%N with 18446744073709551616%N; lia). rewrite hex_result_length. lia.
Qed.
Lemma cstr_le s : (length (cstr s) <= length s)%nat.
Proof. induction s as [|c s IH]; [cbn; lia|]. cbn. destruct (beqb c NUL); cbn [length]; lia. Qed.
Lemma decrypt_paid (o : openssl) : (forall k, N.of_nat (rsa_size o k) < 2^31)%N -> answer_paid (decrypt_op o).
Proof.
  intros Hk. apply paid_by. intros args s s' l Hp Hr. cbn [orun decrypt_op] in Hr. destruct (r_key o s) as [k|] eqn:Ek; [|discriminate].
  destruct (priv_decrypt o k (r_msg o s)) as [[m|]| | | |] eqn:Ee; try discriminate. injection Hr as _ <-. exists m. split; [reflexivity|].
  intros g Hg _. cbn [ogas decrypt_op] in Hg. unfold rsa_gas in Hg. rewrite Ek in Hg. injection Hg as <-. specialize (Hk k). change (2^31)%N with 2147483648%N in Hk.
  unfold priv_decrypt, read_out in Ee. destruct (raw_priv_decrypt o k (r_msg o s)) as [c'|]; [|discriminate].
  destruct (Nat.leb_spec (length c') (rsa_size o k)); [|discriminate]. apply bind_ret in Ee as (m' & Em & [= ->]).
  unfold string_of_buffer in Em. destruct (existsb _ c'); [|destruct (Nat.ltb _ _); discriminate]. injection Em as <-.
  rewrite u64_small by (change (2^64)%N with 18446744073709551616%N; lia). pose proof (text_le (cstr c')). pose proof (cstr_le c'). unfold bytes in *. lia.
Qed.

(** ** Texts that cost nothing *)
Definition padding (n : nat) : bytes := [x5b; x22; x22; x2c; x22] ++ repeat x61 n ++ [x22; x5d].

Lemma padding_length n : length (padding n) = (n + 7)%nat.
Proof. unfold padding. rewrite !app_length, repeat_length. cbn [length]. lia. Qed.
Lemma padding_cstr n : cstr (padding n) = padding n.
Proof.
  apply cstr_nonul. unfold padding. intros H. apply in_app_or in H as [H|H].
  - repeat (destruct H as [H|H]; [discriminate|]). destruct H.
  - apply in_app_or in H as [H|H]; [apply repeat_spec in H; discriminate|]. repeat (destruct H as [H|H]; [discriminate|]). destruct H.
Qed.
Lemma padding_gval L n : gval L (padding n) (AArr [AStr []; AStr (repeat x61 n)]) [].
Proof.
  assert (Hc : forall r, gchars (repeat x61 n ++ x22 :: r) (repeat x61 n) r).
  { intros r. induction n as [|n IH]; cbn [repeat app]; [constructor|]. constructor; [discriminate|discriminate|exact IH]. }
  apply (G_arr L [] (x22 :: x22 :: x2c :: x22 :: repeat x61 n ++ [x22; x5d])); [constructor|].
  apply (GE_cons L _ (AStr []) [] (x22 :: repeat x61 n ++ [x22; x5d])); [|constructor|].
  - apply (G_str L [] _ []); [constructor|]. constructor.
  - apply (GE_last L _ (AStr (repeat x61 n)) []); [|constructor]. apply (G_str L [] (repeat x61 n ++ [x22; x5d])); [constructor|]. apply Hc.
Qed.

Lemma reverse_free lay n : (N.of_nat n < 2^28 - 7)%N ->
  c_gas reverse_op lay (padding n) = Ret 0%N /\ c_run reverse_op lay (padding n) = Ret (Some [x5b; x22; x22; x5d]).
Proof.
  intros Hn. change (2^28 - 7)%N with 268435449%N in Hn.
  assert (Hl : (N.of_nat (length (cstr (padding n))) < 2^28)%N) by (rewrite padding_cstr, padding_length; change (2^28)%N with 268435456%N; lia).
  assert (Hg : gval (readable lay) (cstr (padding n)) (AArr (AStr [] :: [AStr (repeat x61 n)])) []) by (rewrite padding_cstr; apply padding_gval).
  exact (reverse_run lay (padding n) [] _ [] Hl Hg).
Qed.

Lemma scrypt_free sha (Hsha : forall m, length (sha m) = 32%nat) a (Ha : (a + 63 < 2^64)%N) lay n : (N.of_nat n < 2^28 - 7)%N ->
  c_gas (scrypt_op sha a) lay (padding n) = Ret 0%N /\
  c_run (scrypt_op sha a) lay (padding n) = Ret (Some (strings_text [str2hex (ScryptSpec.scrypt sha (repeat x00 80) (repeat x00 80) 1024 1 1 32)])).
Proof.
  intros Hn. change (2^28 - 7)%N with 268435449%N in Hn.
  assert (Hl : (N.of_nat (length (cstr (padding n))) < 2^28)%N) by (rewrite padding_cstr, padding_length; change (2^28)%N with 268435456%N; lia).
  assert (Hg : gval (readable lay) (cstr (padding n)) (AArr (AStr [] :: [AStr (repeat x61 n)])) []) by (rewrite padding_cstr; apply padding_gval).
  assert (Hac : ScryptSpec.accepted []) by (split; [cbn; lia|constructor]).
  assert (Hd : ScryptSpec.header_bytes [] (repeat x00 80)). { exists []. split; [constructor|]. split; [cbn; lia|reflexivity]. }
  exact (scrypt_call sha Hsha a Ha lay (padding n) [] _ [] (repeat x00 80) Hl Hg Hac Hd).
Qed.

Lemma free_text n : (n < 2^28 - 7)%N ->
  exists buf, N.of_nat (length buf) = (n + 7)%N /\ gval documented buf (AArr [AStr []; AStr (repeat x61 (N.to_nat n))]) [] /\
    forall lay,
      c_gas reverse_op lay buf = Ret 0%N /\ c_run reverse_op lay buf = Ret (Some [x5b; x22; x22; x5d]) /\
      forall sha a, (forall m, length (sha m) = 32%nat) -> (a + 63 < 2^64)%N ->
        c_gas (scrypt_op sha a) lay buf = Ret 0%N /\
        exists t d, c_run (scrypt_op sha a) lay buf = Ret (Some t) /\ gval documented t (AArr [AStr d]) [] /\
          hex_text d (ScryptSpec.scrypt sha (repeat x00 80) (repeat x00 80) 1024 1 1 32).
Proof.
  intros Hn. exists (padding (N.to_nat n)). split; [rewrite padding_length; lia|]. split; [apply padding_gval|]. intros lay.
  assert (Hn2 : (N.of_nat (N.to_nat n) < 2^28 - 7)%N) by (rewrite N2Nat.id; exact Hn).
  destruct (reverse_free lay (N.to_nat n) Hn2) as [H1 H2]. split; [exact H1|]. split; [exact H2|]. intros sha a Hsha Ha.
  destruct (scrypt_free sha Hsha a Ha lay (N.to_nat n) Hn2) as [H3 H4]. split; [exact H3|].
  eexists _, _. split; [exact H4|]. split; [apply (strings_gval documented [_])|]. apply str2hex_text.
Qed.

(** Proofs for C106: the gas the documentation promises against the gas the tool prints. *)
From Coq Require Import String.
From Verif Require Import Base JsonSpec JsonModel JsonProof4 JsonProof JsonDenotes EniModel EniProof CryptoSpec CryptoModel CryptoProof CryptoProps ScryptModel ScryptProof ScryptProof2 ScryptProof3
  CliSpec CliModel CliProof JsonOrderProof ConsensusModel ConsensusProof ToolsProof.
From Coq Require Import List NArith ZArith Bool Lia.
From Coq.Init Require Import Byte.
From Coq.Strings Require Import Byte.
Import ListNotations.
Import ScryptSpec.
Local Open Scope list_scope.

Lemma number_once d a b : gval documented d (AInt a) [] -> gval documented d (AInt b) [] -> a = b.
Proof. intros H1 H2. destruct (gval_det _ _ _ _ _ _ H1 H2) as [E _]. now injection E. Qed.

Lemma gas_printed lay path ops argv name c params g : (forall a, In a (tl argv) -> (N.of_nat (length a) < 2^31)%N) ->
  NoDup (map fst ops) -> In (name, c) ops -> positionals (tl argv) [path; name; params] ->
  c_gas c lay params = Ret g -> (g < 2^64)%N ->
  exists d, main_gas false (one_library lay path ops) argv = Ret (0%Z, d ++ [x0a]) /\ gval documented d (AInt (Z.of_N g)) [].
Proof.
  intros Ha Hd Hi Hp Hg Hl. destruct (cli_library false lay path ops argv name c params Ha Hd Hi Hp) as (_ & _ & H).
  exists (dec_text g). split; [auto|apply dec_gval].
Qed.

Lemma doc_reverse lay path ops argv params s l r : (forall a, In a (tl argv) -> (N.of_nat (length a) < 2^31)%N) ->
  NoDup (map fst ops) -> In (list_byte_of_string "reverse", reverse_op) ops ->
  positionals (tl argv) [path; list_byte_of_string "reverse"; params] ->
  (N.of_nat (length (cstr params)) < 2^28)%N -> gval (readable lay) (cstr params) (AArr (AStr s :: l)) r ->
  exists d, main_gas false (one_library lay path ops) argv = Ret (0%Z, d ++ [x0a]) /\
    gval documented d (AInt (10 * Z.of_nat (length s))) [] /\ (gval documented d (AInt (Z.of_nat (length s))) [] <-> s = []).
Proof.
  intros Ha Hd Hi Hp Hs Hg. destruct (tool_reverse false lay path ops argv params s l r Ha Hd Hi Hp Hs Hg) as (_ & d & E & Hn).
  exists d. split; [exact E|]. split; [exact Hn|]. split.
  - intros H. pose proof (number_once _ _ _ Hn H). apply length_zero_iff_nil. lia.
  - intros ->. exact Hn.
Qed.

Lemma doc_scrypt sha (Hsha : forall m, length (sha m) = 32%nat) a (Ha : (a + 63 < 2^64)%N) lay path ops argv name params h l r :
  (forall a, In a (tl argv) -> (N.of_nat (length a) < 2^31)%N) ->
  NoDup (map fst ops) -> In (name, scrypt_op sha a) ops -> positionals (tl argv) [path; name; params] ->
  (N.of_nat (length (cstr params)) < 2^28)%N -> gval (readable lay) (cstr params) (AArr (AStr h :: l)) r ->
  exists d g, main_gas false (one_library lay path ops) argv = Ret (0%Z, d ++ [x0a]) /\ gval documented d (AInt g) [] /\
    (accepted h -> g = (10 * Z.of_nat ((length h + 1) / 2))%Z /\ (g = Z.of_nat (length h) <-> h = [])) /\
    (~ accepted h -> g = 1500%Z).
Proof.
  intros Hsh Hd Hi Hp Hs Hg.
  assert (Hdec : accepted h \/ ~ accepted h).
  { destruct (Compare_dec.le_dec (length h) 160) as [Hl|Hl]; [|right; intros [H _]; lia].
    destruct (forallb (fun c => match hex_digit c with Some _ => true | None => false end) h) eqn:F.
    - left. split; auto. rewrite forallb_forall in F. apply Forall_forall. intros c Hc E. specialize (F c Hc). rewrite E in F. discriminate.
    - right. intros [_ F']. apply Bool.not_true_iff_false in F. apply F. apply forallb_forall. intros c Hc. rewrite Forall_forall in F'. specialize (F' c Hc).
      destruct (hex_digit c); [reflexivity|now elim F']. }
  destruct Hdec as [Hac|Hac].
  - destruct (header_bytes_exists h Hac) as (hd & Hh & _). destruct (scrypt_call sha Hsha a Ha lay params h l r hd Hs Hg Hac Hh) as [Eg _].
    assert (Hl : (length h <= 160)%nat) by apply Hac.
    assert (Hq : ((length h + 1) / 2 <= 161)%nat) by (apply PeanoNat.Nat.div_le_upper_bound; lia).
    assert (Hq2 : (length h <= 2 * ((length h + 1) / 2))%nat).
    { pose proof (PeanoNat.Nat.div_mod_eq (length h + 1) 2). pose proof (PeanoNat.Nat.mod_upper_bound (length h + 1) 2). lia. }
    unfold gas_of in Eg.
    destruct (gas_printed lay path ops argv name _ params _ Hsh Hd Hi Hp Eg) as (d & E & Hn); [change (2^64)%N with 18446744073709551616%N; lia|].
    exists d, (10 * Z.of_nat ((length h + 1) / 2))%Z. split; [exact E|]. split; [|split; [|contradiction]].
    + replace (10 * Z.of_nat ((length h + 1) / 2))%Z with (Z.of_N (10 * N.of_nat ((length h + 1) / 2))) by lia. exact Hn.
    + intros _. split; auto. split; [intros H|intros ->; reflexivity]. apply length_zero_iff_nil. lia.
  - destruct (scrypt_valid sha Hsha a Ha lay params h l r Hs Hg) as [_ H]. destruct (H Hac) as [Eg _].
    destruct (gas_printed lay path ops argv name _ params _ Hsh Hd Hi Hp Eg eq_refl) as (d & E & Hn).
    exists d, 1500%Z. split; [exact E|]. split; [exact Hn|]. split; [contradiction|auto].
Qed.

Lemma doc_rsa (o : openssl) lay path ops argv enc dec params pem m l r name :
  (forall a, In a (tl argv) -> (N.of_nat (length a) < 2^31)%N) ->
  NoDup (map fst ops) -> In (enc, encrypt_op o) ops -> In (dec, decrypt_op o) ops -> positionals (tl argv) [path; name; params] ->
  (N.of_nat (length (cstr params)) < 2^28)%N -> gval (readable lay) (cstr params) (AArr (AStr pem :: AStr m :: l)) r -> Forall short_keys l ->
  (forall k, N.of_nat (rsa_size o k) < 2^27)%N ->
  (name = enc -> exists d g, main_gas false (one_library lay path ops) argv = Ret (0%Z, d ++ [x0a]) /\ gval documented d (AInt g) [] /\
     match read_pub o (cstr pem) with Some pub => g = (10 * Z.of_nat (rsa_size o pub))%Z | None => g = 1500%Z end) /\
  (name = dec -> Nat.even (length m) = true -> exists d g, main_gas false (one_library lay path ops) argv = Ret (0%Z, d ++ [x0a]) /\ gval documented d (AInt g) [] /\
     match read_priv o (cstr pem) with Some priv => g = (10 * Z.of_nat (rsa_size o priv))%Z | None => g = 1500%Z end).
Proof.
  intros Hsh Hd Hie Hid Hp Hs Hg Hk Hb. destruct (C36_gas o lay params pem m l r Hs Hg Hk) as (H1 & H2 & H3 & H4).
  assert (B : forall k, (10 * N.of_nat (rsa_size o k) < 2^64)%N).
  { intros k. specialize (Hb k). change (2^27)%N with 134217728%N in Hb. change (2^64)%N with 18446744073709551616%N. lia. }
  split.
  - intros ->. destruct (read_pub o (cstr pem)) as [pub|] eqn:Ek.
    + destruct (gas_printed lay path ops argv _ _ params _ Hsh Hd Hie Hp (H1 pub eq_refl (Hb pub)) (B pub)) as (d & E & Hn). exists d, (10 * Z.of_nat (rsa_size o pub))%Z. split; [exact E|]. split; [|reflexivity].
      replace (10 * Z.of_nat (rsa_size o pub))%Z with (Z.of_N (10 * N.of_nat (rsa_size o pub))) by lia. exact Hn.
    + destruct (gas_printed lay path ops argv _ _ params _ Hsh Hd Hie Hp (proj1 (H3 eq_refl)) eq_refl) as (d & E & Hn). exists d, 1500%Z. auto.
  - intros -> Hev. destruct (read_priv o (cstr pem)) as [priv|] eqn:Ek.
    + pose proof (H2 priv eq_refl (Hb priv)) as G. rewrite Hev in G.
      destruct (gas_printed lay path ops argv _ _ params _ Hsh Hd Hid Hp G (B priv)) as (d & E & Hn). exists d, (10 * Z.of_nat (rsa_size o priv))%Z. split; [exact E|]. split; [|reflexivity].
      replace (10 * Z.of_nat (rsa_size o priv))%Z with (Z.of_N (10 * N.of_nat (rsa_size o priv))) by lia. exact Hn.
    + destruct (gas_printed lay path ops argv _ _ params _ Hsh Hd Hid Hp (proj1 (H4 eq_refl)) eq_refl) as (d & E & Hn). exists d, 1500%Z. auto.
Qed.

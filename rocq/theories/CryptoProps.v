(** Properties C33-C36, C88 and the RSA part of C55: the eni_crypto package.

    OpenSSL is an arbitrary [openssl]; where the claim needs keys that belong together this is stated as
    [inverse_blocks]. *)
From Coq Require Import String.
From Verif Require Import Base JsonSpec JsonModel JsonDenotes EniModel EniProof CryptoSpec CryptoModel CryptoProof.
From Coq Require Import List NArith ZArith Bool Lia.
From Coq.Init Require Import Byte.
From Coq.Strings Require Import Byte.
Import ListNotations.
Local Open Scope list_scope.

Definition T (s : string) : bytes := list_byte_of_string s.
Definition q : bytes := [x22].
Definition low : layout := mkL 1000 10 20.

(** ** C33: hexadecimal encoding is lossless *)
Theorem C33_hex_lossless :
  forall x, hex2str (str2hex x) = Some x /\ hex_text (str2hex x) x /\ Forall lower_hex (str2hex x) /\
            length (str2hex x) = (2 * length x)%nat.
Proof.
  intros x. destruct (str2hex_text x) as [H1 H2]. split; [apply hex_lossless|]. split; [auto|]. split; [auto|].
  now apply hex_text_even.
Qed.
Print Assumptions C33_hex_lossless.

Example C33_example : str2hex [x00; x7f; xff; x0a] = T "007fff0a" /\ hex2str (T "007fff0a") = Some [x00; x7f; xff; x0a].
Proof. split; vm_compute; reflexivity. Qed.

(** ** C34: hex2str accepts exactly hexadecimal text *)

(** Odd lengths are refused; lower-case texts are decoded correctly.  Missing: upper-case digits and the
    refusal of other characters, both false. *)
Theorem C34_hex_decode_partial :
  forall h,
    (Nat.odd (length h) = true -> hex2str h = None) /\
    (Nat.even (length h) = true -> Forall lower_hex h -> exists s, hex2str h = Some s /\ hex_text h s).
Proof. exact hex_decode. Qed.
Print Assumptions C34_hex_decode_partial.

(** Every even-length text is accepted whatever its characters; a hexadecimal text is decoded to the
    bytes it spells if and only if it has no upper-case digit. *)
Theorem C34_hex_decode_refuted :
  (forall h, Nat.even (length h) = true -> exists s, hex2str h = Some s) /\
  (forall h s, hex_text h s -> (hex2str h = Some s <-> ~ exists c, In c h /\ upper_digit c)).
Proof. exact hex_decode_wrong. Qed.
Print Assumptions C34_hex_decode_refuted.

Example C34_example :
  hex2str (T "4A") = Some [x51] /\ hex_text (T "4A") [x4a] /\ hex2str (T "zz") = Some [x53] /\ hex2str (T "4a6B6") = None.
Proof.
  split; [vm_compute; reflexivity|]. split; [|split; vm_compute; reflexivity].
  apply (HT_cons x34 x41 4 10); [reflexivity..|constructor].
Qed.

(** ** C35: RSA round trip *)

(** [dec] undoes [enc] on blocks of [n] bytes *)
Definition inverse_blocks (n : nat) (enc dec : bytes -> option bytes) : Prop :=
  forall m c, length m = n -> enc m = Some c -> length c = n /\ dec c = Some m.

(** Messages without NUL, shorter than the modulus: encrypting with the public key and decrypting with the
    private one, and the other way round.  Missing: all other messages, for which it is false. *)
Theorem C35_round_trip_partial :
  forall (o : openssl) (pub priv : key o) m c,
    rsa_size o priv = rsa_size o pub -> ~ In NUL m -> (length m < rsa_size o pub)%nat ->
    (inverse_blocks (rsa_size o pub) (raw_pub_encrypt o pub) (raw_priv_decrypt o priv) ->
     pub_encrypt o pub m = Ret (Some c) -> priv_decrypt o priv c = Ret (Some m)) /\
    (inverse_blocks (rsa_size o pub) (raw_priv_encrypt o priv) (raw_pub_decrypt o pub) ->
     priv_encrypt o priv m = Ret (Some c) -> pub_decrypt o pub c = Ret (Some m)).
Proof.
  intros o pub priv m c Hs Hn Hl. split; intros Hi He.
  - exact (round_trip _ _ _ m c _ Hs Hn Hl Hi He).
  - unfold priv_encrypt in He. rewrite Hs in He. exact (round_trip _ _ _ m c _ eq_refl Hn Hl Hi He).
Qed.
Print Assumptions C35_round_trip_partial.

(** No other message comes back: one with a NUL or as long as the modulus does not, and without a NUL the
    decryption reads past its buffer. *)
Theorem C35_round_trip_refuted :
  forall (o : openssl) (pub priv : key o) m c,
    rsa_size o priv = rsa_size o pub ->
    inverse_blocks (rsa_size o pub) (raw_pub_encrypt o pub) (raw_priv_decrypt o priv) ->
    pub_encrypt o pub m = Ret (Some c) ->
    (In NUL m \/ (rsa_size o pub <= length m)%nat -> priv_decrypt o priv c <> Ret (Some m)) /\
    (~ In NUL m -> (rsa_size o pub <= length m)%nat -> priv_decrypt o priv c = UB OutOfBounds).
Proof. exact round_trip_fails. Qed.
Print Assumptions C35_round_trip_refuted.

(** Through the C interface: the encryption's result text, its hexadecimal string passed on with the
    private key, gives the message. *)
Theorem C35_operations_partial :
  forall (o : openssl) lay lay' buf pem m l r pub c,
    (N.of_nat (length (cstr buf)) < 2^28)%N ->
    gval (readable lay) (cstr buf) (AArr (AStr pem :: AStr m :: l)) r -> Forall short_keys l ->
    read_pub o (cstr pem) = Some pub -> pub_encrypt o pub m = Ret (Some c) ->
    exists t h,
      c_run (encrypt_op o) lay buf = Ret (Some t) /\
      gval documented t (AArr [AStr h]) [] /\ hex_text h c /\
      forall buf' pem' l' r' priv,
        (N.of_nat (length (cstr buf')) < 2^28)%N ->
        gval (readable lay') (cstr buf') (AArr (AStr pem' :: AStr h :: l')) r' -> Forall short_keys l' ->
        read_priv o (cstr pem') = Some priv -> rsa_size o priv = rsa_size o pub ->
        inverse_blocks (rsa_size o pub) (raw_pub_encrypt o pub) (raw_priv_decrypt o priv) ->
        ~ In NUL m -> (length m < rsa_size o pub)%nat ->
        exists t', c_run (decrypt_op o) lay' buf' = Ret (Some t') /\ gval documented t' (AArr [AStr m]) [].
Proof. exact operations_round_trip. Qed.
Print Assumptions C35_operations_partial.

(** A key pair: textbook RSA with modulus 61 * 53 and exponents 17 and 2753, two-byte blocks. *)
Fixpoint powmod (x : N) (e : positive) (n : N) : N :=
  match e with
  | xH => (x mod n)%N
  | xO e' => let y := powmod x e' n in ((y * y) mod n)%N
  | xI e' => let y := powmod x e' n in ((y * y mod n) * x mod n)%N
  end.
Definition raw3233 (e : positive) (m : bytes) : option bytes :=
  let x := fold_left (fun a b => 256 * a + bval b)%N m 0%N in
  if (x <? 3233)%N then let y := powmod x e 3233 in Some [byte_of_N (y / 256); byte_of_N (y mod 256)] else None.
Definition textbook : openssl :=
  mkSSL unit (fun _ => 2%nat)
    (fun pem => if bytes_eqb pem (T "PUB") then Some tt else None)
    (fun pem => if bytes_eqb pem (T "PRIV") then Some tt else None)
    (fun _ => raw3233 17) (fun _ => raw3233 17) (fun _ => raw3233 2753) (fun _ => raw3233 2753).

Lemma powmod_lt x e : (powmod x e 3233 < 3233)%N.
Proof. destruct e; cbn [powmod]; apply N.mod_lt; discriminate. Qed.

Lemma powmod_inverse : forallb (fun x => N.eqb (powmod (powmod x 17 3233) 2753 3233) x) (map N.of_nat (seq 0 3233)) = true.
Proof. vm_compute. reflexivity. Qed.

Opaque powmod.
Lemma textbook_inverse : inverse_blocks 2 (raw3233 17) (raw3233 2753).
Proof.
  intros m c Hm He. destruct m as [|a [|b [|]]]; try discriminate. unfold raw3233 in He |- *. cbn [fold_left] in He.
  remember (256 * (256 * 0 + bval a) + bval b)%N as x eqn:Ex. destruct (N.ltb_spec x 3233) as [Hx|]; [|discriminate].
  assert (E : powmod (powmod x 17 3233) 2753 3233 = x).
  { pose proof powmod_inverse as H. rewrite forallb_forall in H. apply N.eqb_eq. apply H. apply in_map_iff. exists (N.to_nat x). split; [lia|apply in_seq; lia]. }
  cbv zeta in He. pose proof (powmod_lt x 17) as Hy. generalize dependent (powmod x 17 3233). intros y He E Hy.
  assert (Hc : c = [byte_of_N (y / 256); byte_of_N (y mod 256)]) by congruence. subst c. split; [reflexivity|]. cbn [fold_left].
  assert (Hd : (y / 256 < 256)%N) by (apply N.div_lt_upper_bound; lia). assert (Hm' : (y mod 256 < 256)%N) by (apply N.mod_lt; lia).
  rewrite !bval_byte_of_N, (N.mod_small (y / 256) 256), (N.mod_small (y mod 256) 256) by assumption.
  replace (256 * (256 * 0 + y / 256) + y mod 256)%N with y by (pose proof (N.div_mod y 256 ltac:(lia)); lia).
  destruct (N.ltb_spec y 3233); [|lia]. cbv zeta. rewrite E. f_equal. pose proof (bval_lt a). pose proof (bval_lt b).
  assert (Ha : (x / 256 = bval a)%N) by (symmetry; apply (N.div_unique x 256 (bval a) (bval b)); lia).
  assert (Hb : (x mod 256 = bval b)%N) by (symmetry; apply (N.mod_unique x 256 (bval a) (bval b)); lia).
  now rewrite Ha, Hb, !byte_of_N_bval.
Qed.

Example C35_example :
  c_run (encrypt_op textbook) low (T "[" ++ q ++ T "PUB" ++ q ++ T "," ++ q ++ [x5c] ++ T "n" ++ q ++ T "]") = Ret (Some (T "[" ++ q ++ T "01f9" ++ q ++ T "]")) /\
  c_run (decrypt_op textbook) low (T "[" ++ q ++ T "PRIV" ++ q ++ T "," ++ q ++ T "01f9" ++ q ++ T "]") = Ret (Some (T "[" ++ q ++ [x5c] ++ T "u000A" ++ q ++ T "]")).
Proof. vm_compute. split; reflexivity. Qed.

(** ** C36: RSA gas *)

(** Ten per byte of the modulus, whatever the message.  The decryption refuses texts of odd length. *)
Theorem C36_gas :
  forall (o : openssl) lay buf pem m l r,
    (N.of_nat (length (cstr buf)) < 2^28)%N ->
    gval (readable lay) (cstr buf) (AArr (AStr pem :: AStr m :: l)) r -> Forall short_keys l ->
    (forall pub, read_pub o (cstr pem) = Some pub -> (N.of_nat (rsa_size o pub) < 2^27)%N ->
       c_gas (encrypt_op o) lay buf = Ret (10 * N.of_nat (rsa_size o pub))%N) /\
    (forall priv, read_priv o (cstr pem) = Some priv -> (N.of_nat (rsa_size o priv) < 2^27)%N ->
       c_gas (decrypt_op o) lay buf = Ret (if Nat.even (length m) then 10 * N.of_nat (rsa_size o priv) else 1500)%N) /\
    (read_pub o (cstr pem) = None -> c_gas (encrypt_op o) lay buf = Ret 1500%N /\ c_run (encrypt_op o) lay buf = Ret None) /\
    (read_priv o (cstr pem) = None -> c_gas (decrypt_op o) lay buf = Ret 1500%N /\ c_run (decrypt_op o) lay buf = Ret None).
Proof.
  intros o lay buf pem m l r Hs Hg Hk. split; [|split; [|split]].
  - intros pub. exact (encrypt_gas o lay buf pem m l r pub Hs Hg Hk).
  - intros priv. exact (decrypt_gas o lay buf pem m l r priv Hs Hg Hk).
  - exact (encrypt_no_key o lay buf pem m l r Hs Hg Hk).
  - exact (decrypt_no_key o lay buf pem m l r Hs Hg Hk).
Qed.
Print Assumptions C36_gas.

Example C36_example :
  c_gas (encrypt_op textbook) low (T "[" ++ q ++ T "PUB" ++ q ++ T "," ++ q ++ T "a long message" ++ q ++ T "]") = Ret 20%N /\
  c_gas (encrypt_op textbook) low (T "[" ++ q ++ T "PRIV" ++ q ++ T "," ++ q ++ q ++ T "]") = Ret 1500%N.
Proof. split; vm_compute; reflexivity. Qed.

(** ** C55: missing and wrongly typed arguments — refuted for the RSA operations *)

(** With a readable key and no second argument an exception leaves the C functions; a second argument
    that is not a string is used as one. *)
Theorem C55_rsa_refuted :
  forall (o : openssl) lay buf pem l r,
    (N.of_nat (length (cstr buf)) < 2^28)%N ->
    gval (readable lay) (cstr buf) (AArr (AStr pem :: l)) r -> Forall short_keys l ->
    (read_pub o (cstr pem) <> None ->
       (l = [] -> c_run (encrypt_op o) lay buf = Throw OutOfRangeVector) /\
       (forall a l', l = a :: l' -> (forall s, a <> AStr s) -> c_run (encrypt_op o) lay buf = UB TypeConfusion)) /\
    (read_priv o (cstr pem) <> None ->
       (l = [] -> c_run (decrypt_op o) lay buf = Throw OutOfRangeVector) /\
       (forall a l', l = a :: l' -> (forall s, a <> AStr s) -> c_run (decrypt_op o) lay buf = UB TypeConfusion)).
Proof. exact rsa_bad_args. Qed.
Print Assumptions C55_rsa_refuted.

Example C55_rsa_example :
  c_run (encrypt_op textbook) low (T "[" ++ q ++ T "PUB" ++ q ++ T "]") = Throw OutOfRangeVector /\
  c_run (decrypt_op textbook) low (T "[" ++ q ++ T "PRIV" ++ q ++ T ",[]]") = UB TypeConfusion.
Proof. split; vm_compute; reflexivity. Qed.

(** ** C88: different messages, different ciphertexts *)

(** With keys that belong together, messages without NUL and not longer than the modulus.  Missing: all
    other messages, for which it is false. *)
Theorem C88_different_partial :
  forall (o : openssl) (pub priv : key o) m m' c c',
    rsa_size o priv = rsa_size o pub ->
    ~ In NUL m -> ~ In NUL m' -> (length m <= rsa_size o pub)%nat -> (length m' <= rsa_size o pub)%nat -> m <> m' ->
    (inverse_blocks (rsa_size o pub) (raw_pub_encrypt o pub) (raw_priv_decrypt o priv) ->
     pub_encrypt o pub m = Ret (Some c) -> pub_encrypt o pub m' = Ret (Some c') -> c <> c') /\
    (inverse_blocks (rsa_size o pub) (raw_priv_encrypt o priv) (raw_pub_decrypt o pub) ->
     priv_encrypt o priv m = Ret (Some c) -> priv_encrypt o priv m' = Ret (Some c') -> c <> c').
Proof.
  intros o pub priv m m' c c' Hs Hn Hn' Hl Hl' Hd. split; intros Hi He He' E; apply Hd.
  - apply (nth_no_nul m m' (rsa_size o pub) Hn Hn' Hl Hl'). exact (proj1 (proj2 (same_cipher _ _ _ _ _ _ _ Hi He He')) E).
  - unfold priv_encrypt in He, He'. rewrite Hs in He, He'.
    apply (nth_no_nul m m' (rsa_size o pub) Hn Hn' Hl Hl'). exact (proj1 (proj2 (same_cipher _ _ _ _ _ _ _ Hi He He')) E).
Qed.
Print Assumptions C88_different_partial.

(** A message that fills the modulus may be continued by anything, and every message by NULs, without a
    change of the ciphertext; this holds for every OpenSSL. *)
Theorem C88_different_refuted :
  forall (o : openssl) (k : key o) m x,
    (rsa_size o k <= length m)%nat \/ (forall b, In b x -> b = NUL) ->
    pub_encrypt o k (m ++ x) = pub_encrypt o k m /\ priv_encrypt o k (m ++ x) = priv_encrypt o k m.
Proof. exact more_ciphers. Qed.
Print Assumptions C88_different_refuted.

(** Exactly when two calls through the C interface give the same text: the messages, each continued by
    NULs, agree on as many bytes as the modulus has.  The text has the same length for all messages. *)
Theorem C88_same_result :
  forall (o : openssl) (pub priv : key o) lay lay' buf buf' pem pem' m m' l l' r r' c c',
    (N.of_nat (length (cstr buf)) < 2^28)%N -> (N.of_nat (length (cstr buf')) < 2^28)%N ->
    gval (readable lay) (cstr buf) (AArr (AStr pem :: AStr m :: l)) r -> Forall short_keys l ->
    gval (readable lay') (cstr buf') (AArr (AStr pem' :: AStr m' :: l')) r' -> Forall short_keys l' ->
    read_pub o (cstr pem) = Some pub -> read_pub o (cstr pem') = Some pub ->
    inverse_blocks (rsa_size o pub) (raw_pub_encrypt o pub) (raw_priv_decrypt o priv) ->
    pub_encrypt o pub m = Ret (Some c) -> pub_encrypt o pub m' = Ret (Some c') ->
    exists t t',
      c_run (encrypt_op o) lay buf = Ret (Some t) /\ c_run (encrypt_op o) lay' buf' = Ret (Some t') /\
      length t = (2 * rsa_size o pub + 4)%nat /\
      (t = t' <-> forall i, (i < rsa_size o pub)%nat -> nth i m NUL = nth i m' NUL).
Proof. exact same_result. Qed.
Print Assumptions C88_same_result.

Example C88_example :
  inverse_blocks 2 (raw3233 17) (raw3233 2753) /\
  pub_encrypt textbook tt [x0a; x42] = Ret (Some [x0b; x67]) /\ pub_encrypt textbook tt [x0a] = Ret (Some [x01; xf9]) /\
  pub_encrypt textbook tt ([x0a; x42] ++ [x43]) = Ret (Some [x0b; x67]) /\
  c_run (encrypt_op textbook) low (T "[" ++ q ++ T "PUB" ++ q ++ T "," ++ q ++ [x5c] ++ T "nBC" ++ q ++ T "]") = Ret (Some (T "[" ++ q ++ T "0b67" ++ q ++ T "]")).
Proof. split; [exact textbook_inverse|]. split; [|split; [|split]]; vm_compute; reflexivity. Qed.


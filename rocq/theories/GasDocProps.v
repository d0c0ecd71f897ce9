(** Property C106: the gas the documentation promises.

    docs/guides/implement-eni-operations.rst:89-107 uses the length of the string as the gas of the reverse operation and 0
    when an error occurs; docs/tools/eni_cli.rst:36-60 and docs/testing-prebuilt-eni-operations.rst:18-60 show the gas the
    tool eni_gas prints: 12 for [Hello World!], 2 for the scrypt header [00], and for an RSA key of 256 bytes 12
    to encrypt a text of 12 bytes and 256 to decrypt.  The code charges ten times the work, and 1500 on an error.
    [main_gas] answers the exit code and the standard output. *)
From Coq Require Import String.
From Verif Require Import Base JsonSpec JsonModel JsonDenotes EniModel EniProps CryptoSpec CryptoModel CryptoProps ScryptModel ScryptSpec Sha256
  CliSpec CliModel ConsensusModel GasDocProof.
From Coq Require Import List NArith ZArith Bool Lia.
From Coq.Init Require Import Byte.
From Coq.Strings Require Import Byte.
Import ListNotations.
Import ScryptSpec.
Local Open Scope list_scope.

Definition T (s : string) : bytes := list_byte_of_string s.
Definition q : bytes := [x22].

(** Reverse: the number printed is ten times the documented one, so the two agree for the empty string only. *)
Theorem C106_reverse_refuted :
  forall lay path ops argv params s l r, (forall a, In a (tl argv) -> (N.of_nat (length a) < 2^31)%N) ->
    NoDup (map fst ops) -> In (T "reverse", reverse_op) ops -> positionals (tl argv) [path; T "reverse"; params] ->
    (N.of_nat (length (cstr params)) < 2^28)%N -> gval (readable lay) (cstr params) (AArr (AStr s :: l)) r ->
    exists d, main_gas false (one_library lay path ops) argv = Ret (0%Z, d ++ [x0a]) /\
      gval documented d (AInt (10 * Z.of_nat (length s))) [] /\
      (gval documented d (AInt (Z.of_nat (length s))) [] <-> s = []).
Proof. exact doc_reverse. Qed.
Print Assumptions C106_reverse_refuted.

(** Scrypt: never the number of digits, but for the empty header; a rejected header costs 1500, not 0. *)
Theorem C106_scrypt_refuted :
  forall sha, (forall m, length (sha m) = 32%nat) ->
  forall a, (a + 63 < 2^64)%N ->
  forall lay path ops argv name params h l r, (forall a, In a (tl argv) -> (N.of_nat (length a) < 2^31)%N) ->
    NoDup (map fst ops) -> In (name, scrypt_op sha a) ops -> positionals (tl argv) [path; name; params] ->
    (N.of_nat (length (cstr params)) < 2^28)%N -> gval (readable lay) (cstr params) (AArr (AStr h :: l)) r ->
    exists d g, main_gas false (one_library lay path ops) argv = Ret (0%Z, d ++ [x0a]) /\ gval documented d (AInt g) [] /\
      (accepted h -> g = (10 * Z.of_nat ((length h + 1) / 2))%Z /\ (g = Z.of_nat (length h) <-> h = [])) /\
      (~ accepted h -> g = 1500%Z).
Proof. exact doc_scrypt. Qed.
Print Assumptions C106_scrypt_refuted.

(** RSA: ten times the bytes of the key both ways; 1500 for a key that cannot be read. *)
Theorem C106_rsa_refuted :
  forall (o : openssl) lay path ops argv enc dec params pem m l r name, (forall a, In a (tl argv) -> (N.of_nat (length a) < 2^31)%N) ->
    NoDup (map fst ops) -> In (enc, encrypt_op o) ops -> In (dec, decrypt_op o) ops -> positionals (tl argv) [path; name; params] ->
    (N.of_nat (length (cstr params)) < 2^28)%N -> gval (readable lay) (cstr params) (AArr (AStr pem :: AStr m :: l)) r -> Forall short_keys l ->
    (forall k, N.of_nat (rsa_size o k) < 2^27)%N ->
    (name = enc -> exists d g, main_gas false (one_library lay path ops) argv = Ret (0%Z, d ++ [x0a]) /\ gval documented d (AInt g) [] /\
       match read_pub o (cstr pem) with Some pub => g = (10 * Z.of_nat (rsa_size o pub))%Z | None => g = 1500%Z end) /\
    (name = dec -> Nat.even (length m) = true ->
     exists d g, main_gas false (one_library lay path ops) argv = Ret (0%Z, d ++ [x0a]) /\ gval documented d (AInt g) [] /\
       match read_priv o (cstr pem) with Some priv => g = (10 * Z.of_nat (rsa_size o priv))%Z | None => g = 1500%Z end).
Proof. exact doc_rsa. Qed.
Print Assumptions C106_rsa_refuted.

(** the documented command lines: 120 where the documentation shows 12, and 10 where it shows 2 *)
Definition everything : loader :=
  one_library low (T "lib.so") [(T "reverse", reverse_op); (T "scrypt", scrypt_op sha256 1000); (T "rsa_encrypt", encrypt_op textbook); (T "rsa_decrypt", decrypt_op textbook)].
Example C106_example :
  main_gas false everything [T "eni_gas"; T "lib.so"; T "reverse"; T "[" ++ q ++ T "Hello World!" ++ q ++ T "]"] = Ret (0%Z, T "120" ++ [x0a]) /\
  main_gas false everything [T "eni_gas"; T "lib.so"; T "scrypt"; T "[" ++ q ++ T "00" ++ q ++ T "]"] = Ret (0%Z, T "10" ++ [x0a]) /\
  main_gas false everything [T "eni_gas"; T "lib.so"; T "scrypt"; T "[" ++ q ++ T "0x" ++ q ++ T "]"] = Ret (0%Z, T "1500" ++ [x0a]) /\
  main_gas false everything [T "eni_gas"; T "lib.so"; T "rsa_encrypt"; T "[" ++ q ++ T "PUB" ++ q ++ T "," ++ q ++ T "m" ++ q ++ T "]"] = Ret (0%Z, T "20" ++ [x0a]).
Proof. vm_compute. repeat split; reflexivity. Qed.

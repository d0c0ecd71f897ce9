(** Property C91: what the gas of a call pays for. *)
From Coq Require Import String.
From Verif Require Import Base JsonSpec JsonModel JsonDenotes EniModel EniGasSpec CryptoSpec CryptoModel ScryptModel JsonExModel EniGasProof.
From Coq Require Import List NArith ZArith Bool.
From Coq.Init Require Import Byte.
From Coq.Strings Require Import Byte.
Import ListNotations.
Local Open Scope list_scope.

Definition T (s : string) : bytes := list_byte_of_string s.
Definition q : bytes := [x22].

(** All operations of the repository: the gas pays for the answer.  Missing: that it pays for the text given, see the
    refutation. *)
Theorem C91_answer_partial :
  answer_paid reverse_op /\
  (forall sha a, (forall m, length (sha m) = 32%nat) -> (a + 63 < 2^64)%N -> answer_paid (scrypt_op sha a)) /\
  (forall o : openssl, (forall k, N.of_nat (rsa_size o k) < 2^31)%N -> answer_paid (encrypt_op o) /\ answer_paid (decrypt_op o)) /\
  (forall jsmn to_int inner, answer_paid (json_op jsmn to_int inner)).
Proof.
  split; [exact reverse_paid|]. split; [|split].
  - intros sha a Hsha Ha. exact (scrypt_paid sha Hsha a Ha).
  - intros o Hk. exact (conj (encrypt_paid o Hk) (decrypt_paid o Hk)).
  - exact json_paid.
Qed.
Print Assumptions C91_answer_partial.

(** For every length there is a text, read to its end, for which reverse and scrypt ask no gas and which they answer:
    scrypt with the hash of 80 zero bytes, after all of its work. *)
Theorem C91_text_refuted :
  forall n, (n < 2^28 - 7)%N ->
  exists buf, N.of_nat (length buf) = (n + 7)%N /\ gval documented buf (AArr [AStr []; AStr (repeat x61 (N.to_nat n))]) [] /\
    forall lay,
      c_gas reverse_op lay buf = Ret 0%N /\ c_run reverse_op lay buf = Ret (Some (T "[" ++ q ++ q ++ T "]")) /\
      forall sha a, (forall m, length (sha m) = 32%nat) -> (a + 63 < 2^64)%N ->
        c_gas (scrypt_op sha a) lay buf = Ret 0%N /\
        exists t d, c_run (scrypt_op sha a) lay buf = Ret (Some t) /\ gval documented t (AArr [AStr d]) [] /\
          hex_text d (ScryptSpec.scrypt sha (repeat x00 80) (repeat x00 80) 1024 1 1 32).
Proof. exact free_text. Qed.
Print Assumptions C91_text_refuted.

(** the bound is tight up to the constant: six characters of answer for ten of gas *)
Example C91_example :
  let lay := mkL 1000 10 20 in
  let buf := T "[" ++ q ++ [x01; x01] ++ q ++ T ",[1,2,3]]" in
  c_gas reverse_op lay buf = Ret 20%N /\
  c_run reverse_op lay buf = Ret (Some (T "[" ++ q ++ [x5c] ++ T "u0001" ++ [x5c] ++ T "u0001" ++ q ++ T "]")).
Proof. split; vm_compute; reflexivity. Qed.

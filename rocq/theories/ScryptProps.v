(** Properties C37-C42 and the scrypt part of C55: the eni_scrypt package.

    [sha] is an arbitrary hash with 32 bytes of output; [a] is the address of the scratchpad on the stack.
    Argument texts are shorter than 2^28 bytes. *)
From Coq Require Import String.
From Verif Require Import Base JsonSpec JsonModel JsonDenotes EniModel EniProof CryptoSpec CryptoModel ScryptModel ScryptProof ScryptProof2 ScryptProof3 Sha256.
From Coq Require Import List NArith ZArith Bool Lia.
From Coq.Init Require Import Byte.
From Coq.Strings Require Import Byte.
Import ListNotations.
Import ScryptSpec.
Local Open Scope list_scope.

Definition T (s : string) : bytes := list_byte_of_string s.
Definition q : bytes := [x22].
Definition low : layout := mkL 1000 10 20.

(** the bytes a hexadecimal text spells, for the examples *)
Definition X (s : string) : bytes := match hex2str (T s) with Some b => b | None => [] end.

(** ** C42: byte order *)
Theorem C42_byte_order :
  (forall x, (x < 2^32)%N ->
     le32enc x = le_octets 4 x /\ be32enc x = be_octets 4 x /\
     (exists a b c d, le32enc x = [a; b; c; d] /\ le32dec a b c d = x) /\
     (exists a b c d, be32enc x = [a; b; c; d] /\ be32dec a b c d = x)) /\
  (forall a b c d,
     le32dec a b c d = le_integer [a; b; c; d] /\ be32dec a b c d = be_integer [a; b; c; d] /\
     le32enc (le32dec a b c d) = [a; b; c; d] /\ be32enc (be32dec a b c d) = [a; b; c; d]).
Proof.
  destruct byte_order as [H1 H2]. split.
  - intros x Hx. destruct (H1 x Hx) as [Hl Hb]. split; [apply le32enc_eq|]. split; [apply be32enc_eq|]. split.
    + do 4 eexists. split; [reflexivity|exact Hl].
    + do 4 eexists. split; [reflexivity|exact Hb].
  - intros a b c d. split; [apply le32dec_eq|]. split; [apply be32dec_eq|]. apply H2.
Qed.
Print Assumptions C42_byte_order.

Example C42_example : le32enc 0x01020380 = [x80; x03; x02; x01] /\ be32enc 0x01020380 = [x01; x02; x03; x80] /\ be32dec xff x00 x00 x01 = 0xff000001%N.
Proof. repeat split; vm_compute; reflexivity. Qed.

(** ** C41: HMAC and PBKDF2 *)

(** A message fed in any number of pieces. *)
Theorem C41_hmac :
  forall sha, (forall m, length (sha m) = 32%nat) ->
  forall key pieces, (c <- hmac_init sha key ;; Ret (hmac_final sha (fold_left hmac_update pieces c))) = Ret (hmac sha key (concat pieces)).
Proof. exact hmac_pieces. Qed.
Print Assumptions C41_hmac.

(** The first [dk] bytes of the buffer are written, the others are kept.  The bound on [dk] is RFC 8018's,
    the buffer is large enough. *)
Theorem C41_pbkdf2 :
  forall sha, (forall m, length (sha m) = 32%nat) ->
  forall p s c buf dk,
    (1 <= c < 2^64 - 1)%N -> (N.of_nat dk <= 32 * (2^32 - 1))%N -> (dk <= length buf)%nat ->
    PBKDF2_SHA256 sha p s c buf (N.of_nat dk) = Ret (pbkdf2 sha p s (N.to_nat c) dk ++ skipn dk buf).
Proof. intros sha Hsha p s c buf dk [_ Hc] Hd Hb. exact (pbkdf2_eq sha Hsha p s c buf dk Hc Hd Hb). Qed.
Print Assumptions C41_pbkdf2.

(** SHA-256, HMAC (RFC 4231, cases 2 and 6) and PBKDF2 (RFC 7914, section 11) vectors *)
Example C41_example :
  (forall m, length (sha256 m) = 32%nat) /\
  sha256 (T "abc") = X "ba7816bf8f01cfea414140de5dae2223b00361a396177a9cb410ff61f20015ad" /\
  hmac sha256 (T "Jefe") (T "what do ya want for nothing?") = X "5bdcc146bf60754e6a042426089575c75a003f089d2739839dec58b964ec3843" /\
  hmac sha256 (repeat xaa 131) (T "Test Using Larger Than Block-Size Key - Hash Key First") = X "60e431591ee0b67f0d8a26aacbf5b77f8e0bc6213728c5140546040f0ee37f54" /\
  PBKDF2_SHA256 sha256 (T "passwd") (T "salt") 1 (repeat xff 66) 64 =
    Ret (X "55ac046e56e3089fec1691c22544b605f94185216dde0465e68b9d57c20dacbc49ca9cccf179b645991664b39d77ef317c71b845b1e30bd509112041d3a19783" ++ [xff; xff]).
Proof.
  split; [exact sha256_length|]. split; [vm_compute; reflexivity|]. split; [vm_compute; reflexivity|]. split; vm_compute; reflexivity.
Qed.

(** ** C40: scrypt *)

(** All memory accesses of the model are checked, so the result says that they are in bounds; the
    scratchpad pointer is 64-byte aligned and inside the array. *)
Theorem C40_rfc7914 :
  forall sha, (forall m, length (sha m) = 32%nat) ->
  forall a header, (a + 63 < 2^64)%N -> length header = 80%nat ->
    scrypt_1024_1_1_256 sha a header = Ret (scrypt sha header header 1024 1 1 32) /\
    (a <= aligned a <= a + 63)%N /\ (aligned a mod 64 = 0)%N.
Proof.
  intros sha Hsha a header Ha Hl. split; [|exact (aligned_bounds a Ha)].
  rewrite (scrypt_eq sha Hsha a header Ha) by lia. now rewrite (firstn_all2 header) by lia.
Qed.
Print Assumptions C40_rfc7914.

(** The core and scryptBlockMix on the vectors of RFC 7914, sections 8 and 9 *)
Example C40_example :
  salsa20_8 (X "7e879a214f3ec9867ca940e641718f26baee555b8c61c1b50df846116dcd3b1dee24f319df9b3d8514121e4b5ac5aa3276021d2909c74829edebc68db8b8c25e") =
    X "a41f859c6608cc993b81cacb020cef05044b2181a2fd337dfd7b1c6396682f29b4393168e3c9e6bcfe6bc5b7a06d96bae424cc102c91745c24ad673dc7618f81" /\
  block_mix 1 (X "f7ce0b653d2d72a4108cf5abe912ffdd777616dbbb27a70e8204f3ae2d0f6fad89f68f4811d1e87bcc3bd7400a9ffd29094f0184639574f39ae5a1315217bcd7894991447213bb226c25b54da86370fbcd984380374666bb8ffcb5bf40c254b067d27c51ce4ad5fed829c90b505a571b7f4d1cad6a523cda770e67bceaaf7e89") =
    X "a41f859c6608cc993b81cacb020cef05044b2181a2fd337dfd7b1c6396682f29b4393168e3c9e6bcfe6bc5b7a06d96bae424cc102c91745c24ad673dc7618f8120edc975323881a80540f64c162dcd3c21077cfe5f8d5fe2b1a4168f953678b77d3b3d803b60e4ab920996e59b4d53b65d2a225877d5edf5842cb9f14eefe425".
Proof. split; vm_compute; reflexivity. Qed.

(** ** C37: argument validation *)

(** Arrays starting with a string.  Missing: arrays that are empty or start with something else. *)
Theorem C37_validation_partial :
  forall sha, (forall m, length (sha m) = 32%nat) ->
  forall a, (a + 63 < 2^64)%N ->
  forall lay buf h l r,
    (N.of_nat (length (cstr buf)) < 2^28)%N -> gval (readable lay) (cstr buf) (AArr (AStr h :: l)) r ->
    (accepted h -> exists t d, c_run (scrypt_op sha a) lay buf = Ret (Some t) /\ gval documented t (AArr [AStr d]) [] /\ length d = 64%nat /\ Forall lower_hex d) /\
    (~ accepted h -> c_gas (scrypt_op sha a) lay buf = Ret 1500%N /\ c_run (scrypt_op sha a) lay buf = Ret None).
Proof. intros sha Hsha a Ha lay buf h l r. exact (scrypt_valid sha Hsha a Ha lay buf h l r). Qed.
Print Assumptions C37_validation_partial.

(** The others are neither rejected nor handled. *)
Theorem C37_validation_refuted :
  forall sha a lay buf l r,
    (N.of_nat (length (cstr buf)) < 2^28)%N -> gval (readable lay) (cstr buf) (AArr l) r -> Forall short_keys l ->
    (forall h l', l <> AStr h :: l') ->
    c_run (scrypt_op sha a) lay buf = Throw OutOfRangeVector \/ c_run (scrypt_op sha a) lay buf = UB TypeConfusion.
Proof.
  intros sha a lay buf l r Hs Hg Hk Hl. destruct (scrypt_bad_args sha a lay buf l r Hs Hg Hk) as [H1 H2]. destruct l as [|x l].
  - left. now apply H1.
  - right. apply (H2 x l); auto. intros s ->. eapply Hl. reflexivity.
Qed.
Print Assumptions C37_validation_refuted.

(** The result is scrypt of the 80 bytes the header stands for. *)
Theorem C37_result :
  forall sha, (forall m, length (sha m) = 32%nat) ->
  forall a, (a + 63 < 2^64)%N ->
  forall lay buf h l r hd,
    (N.of_nat (length (cstr buf)) < 2^28)%N -> gval (readable lay) (cstr buf) (AArr (AStr h :: l)) r ->
    accepted h -> header_bytes h hd ->
    exists t d, c_run (scrypt_op sha a) lay buf = Ret (Some t) /\ gval documented t (AArr [AStr d]) [] /\
                hex_text d (scrypt sha hd hd 1024 1 1 32) /\ Forall lower_hex d.
Proof. intros sha Hsha a Ha. exact (scrypt_hash sha Hsha a Ha). Qed.
Print Assumptions C37_result.

(** Every accepted header stands for 80 bytes. *)
Theorem C37_header :
  forall h, accepted h -> exists hd, header_bytes h hd /\ length hd = 80%nat /\ forall hd', header_bytes h hd' -> hd' = hd.
Proof.
  intros h Hac. destruct (header_bytes_exists h Hac) as (hd & H1 & H2 & _). exists hd. split; auto. split; auto.
  intros hd' H. exact (header_bytes_det _ _ _ H H1).
Qed.
Print Assumptions C37_header.

Example C37_example :
  accepted (T "01fF") /\ ~ accepted (T "0x12") /\ ~ accepted (repeat x30 161) /\ header_bytes (T "1fF") (x01 :: xff :: repeat x00 78) /\
  c_run (scrypt_op sha256 1000) low (T "[" ++ q ++ T "0x12" ++ q ++ T "]") = Ret None.
Proof.
  split; [split; [cbn; lia|repeat constructor; discriminate]|]. split; [intros [_ H]; inversion H as [|? ? _ H2]; subst; inversion H2 as [|? ? E _]; subst; apply E; reflexivity|].
  split; [intros [H _]; rewrite repeat_length in H; lia|]. split; [|vm_compute; reflexivity].
  exists [x01; xff]. split; [|split; [cbn; lia|reflexivity]]. apply (HT_cons x30 x31 0 1); try reflexivity. apply (HT_cons x66 x46 15 15); try reflexivity. constructor.
Qed.

(** ** C38: canonicalisation *)

(** Letter case never matters; zero digits can be appended to headers of even length.  Missing: headers of
    odd length. *)
Theorem C38_canonical_partial :
  forall sha, (forall m, length (sha m) = 32%nat) ->
  forall a, (a + 63 < 2^64)%N ->
  forall lay lay' buf buf' h h' l l' r r',
    (N.of_nat (length (cstr buf)) < 2^28)%N -> gval (readable lay) (cstr buf) (AArr (AStr h :: l)) r ->
    (N.of_nat (length (cstr buf')) < 2^28)%N -> gval (readable lay') (cstr buf') (AArr (AStr h' :: l')) r' ->
    accepted h ->
    same_digits h h' \/ (Nat.even (length h) = true /\ h' = h ++ repeat x30 (160 - length h)) ->
    c_run (scrypt_op sha a) lay buf = c_run (scrypt_op sha a) lay' buf'.
Proof.
  intros sha Hsha a Ha lay lay' buf buf' h h' l l' r r' Hs Hg Hs' Hg' Hac [Hd|[He ->]].
  - exact (scrypt_case sha Hsha a Ha lay lay' buf buf' h h' l l' r r' Hs Hg Hs' Hg' Hac Hd).
  - exact (scrypt_zeros sha Hsha a Ha lay lay' buf buf' h l l' r r' Hs Hg Hs' Hg' Hac He).
Qed.
Print Assumptions C38_canonical_partial.

(** The header 1 stands for 01 00 .. 00, extended to 160 digits for 10 00 .. 00; there is a hash for which
    the results differ in all contexts. *)
Theorem C38_canonical_refuted :
  exists sha, (forall m, length (sha m) = 32%nat) /\
  forall a lay lay' buf buf' l l' r r', (a + 63 < 2^64)%N ->
    (N.of_nat (length (cstr buf)) < 2^28)%N -> gval (readable lay) (cstr buf) (AArr (AStr (T "1") :: l)) r ->
    (N.of_nat (length (cstr buf')) < 2^28)%N -> gval (readable lay') (cstr buf') (AArr (AStr (T "1" ++ repeat x30 159) :: l')) r' ->
    c_run (scrypt_op sha a) lay buf <> c_run (scrypt_op sha a) lay' buf'.
Proof.
  exists first32. split; [exact first32_length|]. intros a lay lay' buf buf' l l' r r' Ha Hs Hg Hs' Hg'.
  exact (scrypt_odd lay buf lay' buf' l l' r r' a Ha Hs Hg Hs' Hg').
Qed.
Print Assumptions C38_canonical_refuted.

Example C38_example : same_digits (T "aBcDef") (T "AbCdEf") /\ accepted (T "aBcDef") /\ Nat.even (length (T "aBcDef")) = true.
Proof. split; [repeat constructor|]. split; [split; [cbn; lia|repeat constructor; discriminate]|reflexivity]. Qed.

(** ** C39: gas *)

(** Every gas query in every history of calls on one object answers ten times the number of header bytes,
    rounded up. *)
Theorem C39_gas :
  forall sha, (forall m, length (sha m) = 32%nat) ->
  forall a, (a + 63 < 2^64)%N ->
  forall lay text h l r hist,
    (N.of_nat (length text) < 2^28)%N -> gval (readable lay) text (AArr (AStr h :: l)) r -> accepted h ->
    exists st st' answers,
      construct (scrypt_op sha a) lay text = Ret st /\ erun st hist = Ret (st', answers) /\
      Forall2 (fun o r => match o with
                          | GetGas => r = GasIs (10 * N.of_nat ((length h + 1) / 2))%N
                          | Start => exists t, r = ResultIs (Some t)
                          end) hist answers.
Proof. intros sha Hsha a Ha. exact (scrypt_gas sha Hsha a Ha). Qed.
Print Assumptions C39_gas.

Example C39_example :
  c_gas (scrypt_op sha256 1000) low (T "[" ++ q ++ T "123" ++ q ++ T "]") = Ret 20%N /\
  c_gas (scrypt_op sha256 1000) low (T "[" ++ q ++ repeat x30 160 ++ q ++ T "]") = Ret 800%N /\
  c_gas (scrypt_op sha256 1000) low (T "[" ++ q ++ q ++ T "]") = Ret 0%N.
Proof. repeat split; vm_compute; reflexivity. Qed.

(** ** C55: missing and wrongly typed arguments — refuted for scrypt *)
Theorem C55_scrypt_refuted :
  forall sha a lay buf l r,
    (N.of_nat (length (cstr buf)) < 2^28)%N -> gval (readable lay) (cstr buf) (AArr l) r -> Forall short_keys l ->
    (l = [] -> c_gas (scrypt_op sha a) lay buf = Throw OutOfRangeVector /\ c_run (scrypt_op sha a) lay buf = Throw OutOfRangeVector) /\
    (forall x l', l = x :: l' -> (forall s, x <> AStr s) ->
       c_gas (scrypt_op sha a) lay buf = UB TypeConfusion /\ c_run (scrypt_op sha a) lay buf = UB TypeConfusion).
Proof. exact scrypt_bad_args. Qed.
Print Assumptions C55_scrypt_refuted.

Example C55_scrypt_example :
  c_run (scrypt_op sha256 1000) low (T "[]") = Throw OutOfRangeVector /\ c_gas (scrypt_op sha256 1000) low (T "[12]") = UB TypeConfusion.
Proof. split; vm_compute; reflexivity. Qed.

(** The test vector of the repository, tools/eni_scrypt/test: printed as [true]; not a proof. *)
Eval vm_compute in (match c_run (scrypt_op sha256 1000) low (T "[" ++ q ++ repeat x30 160 ++ q ++ T "]") with
                    | Ret (Some t) => bytes_eqb t (T "[" ++ q ++ T "161d0876f3b93b1048cda1bdeaa7332ee210f7131b42013cb43913a6553a4b69" ++ q ++ T "]")
                    | _ => false
                    end).

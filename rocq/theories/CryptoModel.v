(** Model of tools/eni_crypto/eni_crypto.cpp.

    OpenSSL is a parameter.  Key objects are values: RSA_free and the leaked buffers are not modelled.
    RSA_size is assumed to fit an int, also after the multiplication by ten. *)
From Verif Require Import Base JsonModel EniModel.
From Coq Require Import List NArith ZArith Bool.
From Coq.Init Require Import Byte.
From Coq.Strings Require Import Byte.
Import ListNotations.

(** eni_crypto.cpp:22 h2d, in int arithmetic on a signed char *)
Definition h2d (h : byte) : Z := if (schar h <? 97)%Z then (schar h - 48)%Z else (schar h - 97 + 10)%Z.
(** eni_crypto.cpp:20-24 hex2digit; conversion to unsigned char *)
Definition hex2digit (h1 h0 : byte) : byte := byte_of_N (Z.to_N ((h2d h1 * 16 + h2d h0) mod 256)%Z).

(** std::hex with setw(2) and setfill 0, for 0 .. 255; eni_crypto.cpp:31-32 *)
Definition hex_char (n : N) : byte := byte_of_N (if (n <? 10)%N then 48 + n else 87 + n)%N.
(** eni_crypto.cpp:31-32 *)
Definition hex_out (b : byte) : bytes := [hex_char (bval b / 16); hex_char (bval b mod 16)].

(** eni_crypto.cpp:26-35 str2hex *)
Definition str2hex (s : bytes) : bytes := flat_map hex_out s.

(** eni_crypto.cpp:43-44 the loop; it stops at the end, which an even length reaches exactly *)
Fixpoint hex2str_loop (h : bytes) : bytes :=
  match h with
  | h1 :: h0 :: h' => hex2digit h1 h0 :: hex2str_loop h'
  | _ => []
  end.
(** eni_crypto.cpp:37-46 hex2str; [None] for false *)
Definition hex2str (h : bytes) : option bytes :=
  if Nat.eqb (length h mod 2) 0 then Some (hex2str_loop h) else None.

(** OpenSSL, as far as it is used.  The raw operations are those with RSA_NO_PADDING; [None] is -1.
    eni_crypto.cpp:53, 62, 74, 79, 91, 108, 120 *)
Record openssl : Type := mkSSL {
  key : Type;
  rsa_size : key -> nat;                          (* RSA_size *)
  read_pub : bytes -> option key;                 (* PEM_read_bio_RSA_PUBKEY on a memory BIO *)
  read_priv : bytes -> option key;                (* PEM_read_bio_RSAPrivateKey *)
  raw_pub_encrypt : key -> bytes -> option bytes;
  raw_pub_decrypt : key -> bytes -> option bytes;
  raw_priv_encrypt : key -> bytes -> option bytes;
  raw_priv_decrypt : key -> bytes -> option bytes
}.

Section Crypto.
  Variable o : openssl.

  (** eni_crypto.cpp:48-64 create_pubkey, create_privkey: length -1 makes the BIO take strlen *)
  Definition create_pubkey (pem : bytes) : option (key o) := read_pub o (cstr pem).
  (** eni_crypto.cpp:57-64 *)
  Definition create_privkey (pem : bytes) : option (key o) := read_priv o (cstr pem).

  (** eni_crypto.cpp:76-78, 105-107 padding with NULs; OpenSSL reads the first [size] bytes *)
  Definition padded (size : nat) (m : bytes) : bytes := firstn size (m ++ repeat NUL (size - length m)).

  (** eni_crypto.cpp:72-86 pub_encrypt and 101-115 priv_encrypt; the result is [len] bytes of a buffer of
      RSA_size bytes.  [None] for false. *)
  Definition copy_out (size : nat) (r : option bytes) : outcome (option bytes) :=
    match r with
    | None => Ret None
    | Some c => if Nat.leb (length c) size then Ret (Some c) else UB OutOfBounds
    end.
  (** eni_crypto.cpp:72-86 *)
  Definition pub_encrypt (k : key o) (m : bytes) : outcome (option bytes) :=
    copy_out (rsa_size o k) (raw_pub_encrypt o k (padded (rsa_size o k) m)).
  (** eni_crypto.cpp:101-115 *)
  Definition priv_encrypt (k : key o) (m : bytes) : outcome (option bytes) :=
    copy_out (rsa_size o k) (raw_priv_encrypt o k (padded (rsa_size o k) m)).

  (** std::string(const char* ) on a buffer of [size] bytes whose first bytes are [c] and whose other bytes
      were never written *)
  Definition string_of_buffer (size : nat) (c : bytes) : outcome bytes :=
    if existsb (fun b => beqb b NUL) c then Ret (cstr c)
    else if Nat.ltb (length c) size then UB Uninitialised else UB OutOfBounds.
  (** eni_crypto.cpp:88-99 pub_decrypt and 117-128 priv_decrypt *)
  Definition read_out (size : nat) (r : option bytes) : outcome (option bytes) :=
    match r with
    | None => Ret None
    | Some c => if Nat.leb (length c) size then s <- string_of_buffer size c ;; Ret (Some s) else UB OutOfBounds
    end.
  (** eni_crypto.cpp:88-99 *)
  Definition pub_decrypt (k : key o) (c : bytes) : outcome (option bytes) :=
    read_out (rsa_size o k) (raw_pub_decrypt o k c).
  (** eni_crypto.cpp:117-128 *)
  Definition priv_decrypt (k : key o) (c : bytes) : outcome (option bytes) :=
    read_out (rsa_size o k) (raw_priv_decrypt o k c).

  (** eni_crypto.h:60-61, 83-84 the data members *)
  Record rsast : Type := mkRS { r_key : option (key o); r_msg : bytes }.

  (** the i-th argument as a string, eni_crypto.cpp:135, 138, 164, 167 *)
  Definition str_arg (args : list jvalue) (i : Z) : outcome bytes := v <- arg_at args i ;; to_string v.

  (** plumbing: an exception or undefined behaviour ends the function, the members stay as they are *)
  Definition fail {A B} (s : A) (r : outcome B) {C} (k : B -> A * outcome C) : A * outcome C :=
    match r with
    | Ret x => k x
    | Throw e => (s, Throw e)
    | UB u => (s, UB u)
    | Diverge => (s, Diverge)
    | Exit n => (s, Exit n)
    end.

  (** eni_crypto.cpp:142-146, 172-176 gas; RSA_size of a null pointer crashes *)
  Definition rsa_gas (s : rsast) : outcome N :=
    match r_key s with
    | Some k => Ret (u64 (N.of_nat (rsa_size o k) * 10))
    | None => UB NullDeref
    end.

  (** eni_crypto.cpp:133-157 RSAEncrypt *)
  Definition encrypt_op : opclass :=
    mkOp rsast (mkRS None [])
      (fun s args =>
         fail s (str_arg args 0) (fun pem =>
         match create_pubkey pem with
         | None => (mkRS None (r_msg s), Ret false)
         | Some k => fail (mkRS (Some k) (r_msg s)) (str_arg args 1) (fun m => (mkRS (Some k) m, Ret true))
         end))
      rsa_gas
      (fun s l =>
         match r_key s with
         | None => (s, l, UB NullDeref)
         | Some k =>
             match pub_encrypt k (r_msg s) with
             | Ret (Some c) => (s, l ++ [JStr (str2hex c)], Ret true)
             | Ret None => (s, l, Ret false)
             | Throw e => (s, l, Throw e)
             | UB u => (s, l, UB u)
             | Diverge => (s, l, Diverge)
             | Exit n => (s, l, Exit n)
             end
         end).

  (** eni_crypto.cpp:162-185 RSADecrypt *)
  Definition decrypt_op : opclass :=
    mkOp rsast (mkRS None [])
      (fun s args =>
         fail s (str_arg args 0) (fun pem =>
         match create_privkey pem with
         | None => (mkRS None (r_msg s), Ret false)
         | Some k => fail (mkRS (Some k) (r_msg s)) (str_arg args 1) (fun h =>
             match hex2str h with
             | None => (mkRS (Some k) (r_msg s), Ret false)
             | Some c => (mkRS (Some k) c, Ret true)
             end)
         end))
      rsa_gas
      (fun s l =>
         match r_key s with
         | None => (s, l, UB NullDeref)
         | Some k =>
             match priv_decrypt k (r_msg s) with
             | Ret (Some m) => (s, l ++ [JStr m], Ret true)
             | Ret None => (s, l, Ret false)
             | Throw e => (s, l, Throw e)
             | UB u => (s, l, UB u)
             | Diverge => (s, l, Diverge)
             | Exit n => (s, l, Exit n)
             end
         end).
End Crypto.

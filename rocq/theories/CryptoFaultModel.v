(** Model of tools/eni_crypto/eni_crypto.cpp when memory runs out.  It is CryptoHeapModel.v with requests that may be
    refused: BIO_new_mem_buf gives a null pointer, PEM_read_bio_RSA_PUBKEY and PEM_read_bio_RSAPrivateKey give a null
    pointer, new[] throws std::bad_alloc, RSA_public_encrypt and RSA_private_decrypt give -1.  The requests are counted.
    The json::Value and std::string objects of a call are taken to get their memory. *)
From Verif Require Import Base JsonModel EniModel CryptoModel CryptoHeapModel.
From Coq Require Import List NArith ZArith Bool.
Import ListNotations.

Section Fault.
  Variable o : openssl.
  (** whether the [n]-th request gets its memory; not code *)
  Variable gets : nat -> bool.

  (** eni_crypto.cpp:48-55 create_pubkey *)
  Definition f_create_pubkey (L : ledger o) (n : nat) (pem : bytes) : ledger o * nat * rsaptr :=
    if gets n then
      match (if gets (S n) then read_pub o (cstr pem) else None) with
      | Some k => (mkLd o (l_keys o L ++ [Some k]) (S (l_bios o L)) (l_bufs o L), S (S n), Some (length (l_keys o L)))
      | None => (mkLd o (l_keys o L) (S (l_bios o L)) (l_bufs o L), S (S n), None)
      end
    else (L, S n, None).
  (** eni_crypto.cpp:57-64 create_privkey *)
  Definition f_create_privkey (L : ledger o) (n : nat) (pem : bytes) : ledger o * nat * rsaptr :=
    if gets n then
      match (if gets (S n) then read_priv o (cstr pem) else None) with
      | Some k => (mkLd o (l_keys o L ++ [Some k]) (S (l_bios o L)) (l_bufs o L), S (S n), Some (length (l_keys o L)))
      | None => (mkLd o (l_keys o L) (S (l_bios o L)) (l_bufs o L), S (S n), None)
      end
    else (L, S n, None).

  (** eni_crypto.cpp:72-86 pub_encrypt *)
  Definition f_pub_encrypt (L : ledger o) (n : nat) (p : rsaptr) (m : bytes) : ledger o * nat * outcome (option bytes) :=
    match deref o L p with
    | Ret k =>
        if gets n then (new_buf o L, S (S n), if gets (S n) then pub_encrypt o k m else Ret None)
        else (L, S n, Throw StdBadAlloc)
    | Throw e => (L, n, Throw e) | UB u => (L, n, UB u) | Diverge => (L, n, Diverge) | Exit x => (L, n, Exit x)
    end.
  (** eni_crypto.cpp:117-128 priv_decrypt *)
  Definition f_priv_decrypt (L : ledger o) (n : nat) (p : rsaptr) (m : bytes) : ledger o * nat * outcome (option bytes) :=
    match deref o L p with
    | Ret k =>
        if gets n then (new_buf o L, S (S n), if gets (S n) then priv_decrypt o k m else Ret None)
        else (L, S n, Throw StdBadAlloc)
    | Throw e => (L, n, Throw e) | UB u => (L, n, UB u) | Diverge => (L, n, Diverge) | Exit x => (L, n, Exit x)
    end.

  (** eni_crypto.h:60-61, 83-84 the data members, the ledger and the number of requests made *)
  Record frsa : Type := mkFR { fr_key : rsaptr; fr_msg : bytes; fr_led : ledger o; fr_n : nat }.

  (** eni_crypto.cpp:142-146, 172-176 gas *)
  Definition f_rsa_gas (s : frsa) : outcome N :=
    k <- deref o (fr_led s) (fr_key s) ;; Ret (u64 (N.of_nat (rsa_size o k) * 10)).

  (** eni_crypto.cpp:133-157 RSAEncrypt, made when the ledger is [L] and [n] requests were made *)
  Definition f_encrypt_op (L : ledger o) (n : nat) : opclass :=
    mkOp frsa (mkFR None [] L n)
      (fun s args =>
         fail s (str_arg args 0) (fun pem =>
         let '(L, n, p) := f_create_pubkey (fr_led s) (fr_n s) pem in
         let s := mkFR p (fr_msg s) L n in
         match p with
         | None => (s, Ret false)
         | Some _ => fail s (str_arg args 1) (fun m => (mkFR p m L n, Ret true))
         end))
      f_rsa_gas
      (fun s l =>
         let '(L, n, r) := f_pub_encrypt (fr_led s) (fr_n s) (fr_key s) (fr_msg s) in
         let s := mkFR (fr_key s) (fr_msg s) L n in
         match r with
         | Ret (Some c) => (s, l ++ [JStr (str2hex c)], Ret true)
         | Ret None => (s, l, Ret false)
         | Throw e => (s, l, Throw e)
         | UB u => (s, l, UB u)
         | Diverge => (s, l, Diverge)
         | Exit x => (s, l, Exit x)
         end).

  (** eni_crypto.cpp:162-185 RSADecrypt *)
  Definition f_decrypt_op (L : ledger o) (n : nat) : opclass :=
    mkOp frsa (mkFR None [] L n)
      (fun s args =>
         fail s (str_arg args 0) (fun pem =>
         let '(L, n, p) := f_create_privkey (fr_led s) (fr_n s) pem in
         let s := mkFR p (fr_msg s) L n in
         match p with
         | None => (s, Ret false)
         | Some _ => fail s (str_arg args 1) (fun h =>
             match hex2str h with
             | None => (s, Ret false)
             | Some c => (mkFR p c L n, Ret true)
             end)
         end))
      f_rsa_gas
      (fun s l =>
         let '(L, n, r) := f_priv_decrypt (fr_led s) (fr_n s) (fr_key s) (fr_msg s) in
         let s := mkFR (fr_key s) (fr_msg s) L n in
         match r with
         | Ret (Some m) => (s, l ++ [JStr m], Ret true)
         | Ret None => (s, l, Ret false)
         | Throw e => (s, l, Throw e)
         | UB u => (s, l, UB u)
         | Diverge => (s, l, Diverge)
         | Exit x => (s, l, Exit x)
         end).

  (** eni_crypto.h:50, 73 the destructors *)
  Definition f_drop (s : frsa) : outcome (ledger o) := '(L, _) <- h_destroy o (fr_led s) (fr_key s) ;; Ret L.

  (** eni_crypto.cpp:133-157 or 162-185 *)
  Definition f_op (w : which) (L : ledger o) (n : nat) : opclass := match w with Encrypt => f_encrypt_op L n | Decrypt => f_decrypt_op L n end.
  (** plumbing: the state of either class *)
  Definition f_state (w : which) (L : ledger o) (n : nat) : ost (f_op w L n) -> frsa := match w with Encrypt => fun s => s | Decrypt => fun s => s end.

  (** CryptoHeapModel.h_object; not code of the library *)
  Definition f_object (w : which) (lay : layout) (text : bytes) (calls : list ecall) (L : ledger o) (n : nat) : outcome (ledger o * nat * list eanswer) :=
    st <- construct (f_op w L n) lay text ;;
    '(st, answers) <- erun st calls ;;
    let s := f_state w L n (e_op st) in
    L' <- f_drop s ;;
    Ret (L', fr_n s, answers).

  (** CryptoHeapModel.h_call: eni.h:17-33, eni_crypto.cpp:190-191 *)
  Definition f_call (w : which) (call : ecall) (lay : layout) (buf : bytes) (L : ledger o) (n : nat) : outcome (ledger o * nat * eanswer) :=
    st <- construct (f_op w L n) lay (cstr buf) ;;
    '(st, a) <- estep st call ;;
    let s := f_state w L n (e_op st) in
    match a with
    | Threw _ => Ret (fr_led s, fr_n s, a)
    | _ => L' <- f_drop s ;; Ret (L', fr_n s, a)
    end.

  (** not code: the calls in order *)
  Fixpoint f_calls (L : ledger o) (n : nat) (l : list rcall) : outcome (ledger o * nat * list eanswer) :=
    match l with
    | [] => Ret (L, n, [])
    | c :: l' =>
        '(L, n, a) <- f_call (c_which c) (c_fun c) (c_lay c) (c_buf c) L n ;;
        '(L, n, as_) <- f_calls L n l' ;;
        Ret (L, n, a :: as_)
    end.
End Fault.

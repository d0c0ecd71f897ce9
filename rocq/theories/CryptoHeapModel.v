(** Model of the objects that tools/eni_crypto/eni_crypto.cpp obtains from OpenSSL and from new[]: BIOs, RSA keys and
    buffers.  The values computed are those of CryptoModel.v.  BIO_new_mem_buf and new[] are taken to succeed. *)
From Verif Require Import Base JsonModel EniModel CryptoModel.
From Coq Require Import List NArith ZArith Bool.
Import ListNotations.

Section Crypto.
  Variable o : openssl.

  (** Every RSA object made so far, [None] once RSA_free has been called on it; the number of BIOs and of buffers from
      new[] that exist.  Nothing in the code frees a BIO or deletes a buffer.
      eni_crypto.cpp:50, 53, 59, 62, 75, 91, 104, 120 *)
  Record ledger : Type := mkLd { l_keys : list (option (key o)); l_bios : nat; l_bufs : nat }.
  (** not code: nothing obtained yet *)
  Definition ledger0 : ledger := mkLd [] 0 0.

  (** an RSA pointer; [None] is null; eni_crypto.h:60, 83 *)
  Definition rsaptr : Type := option nat.
  (** eni_crypto.cpp:68, 74, 90, 103, 119, 144, 174 uses of the pointer *)
  Definition deref (L : ledger) (p : rsaptr) : outcome (key o) :=
    match p with
    | None => UB NullDeref
    | Some i => match nth_error (l_keys L) i with
                | Some (Some k) => Ret k
                | Some None => UB DeadObject
                | None => UB OutOfBounds
                end
    end.

  (** eni_crypto.cpp:48-55 create_pubkey: a BIO, then an RSA object or a null pointer *)
  Definition h_create_pubkey (L : ledger) (pem : bytes) : ledger * rsaptr :=
    match read_pub o (cstr pem) with
    | Some k => (mkLd (l_keys L ++ [Some k]) (S (l_bios L)) (l_bufs L), Some (length (l_keys L)))
    | None => (mkLd (l_keys L) (S (l_bios L)) (l_bufs L), None)
    end.
  (** eni_crypto.cpp:57-64 create_privkey *)
  Definition h_create_privkey (L : ledger) (pem : bytes) : ledger * rsaptr :=
    match read_priv o (cstr pem) with
    | Some k => (mkLd (l_keys L ++ [Some k]) (S (l_bios L)) (l_bufs L), Some (length (l_keys L)))
    | None => (mkLd (l_keys L) (S (l_bios L)) (l_bufs L), None)
    end.
  (** eni_crypto.cpp:66-70 destroy; RSA_free of a null pointer does nothing *)
  Definition h_destroy (L : ledger) (p : rsaptr) : outcome (ledger * rsaptr) :=
    match p with
    | None => Ret (L, None)
    | Some i =>
        _ <- deref L p ;;
        Ret (mkLd (firstn i (l_keys L) ++ None :: skipn (S i) (l_keys L)) (l_bios L) (l_bufs L), None)
    end.
  (** new unsigned char[size] *)
  Definition new_buf (L : ledger) : ledger := mkLd (l_keys L) (l_bios L) (S (l_bufs L)).
  (** eni_crypto.cpp:72-86 pub_encrypt *)
  Definition h_pub_encrypt (L : ledger) (p : rsaptr) (m : bytes) : ledger * outcome (option bytes) :=
    match deref L p with
    | Ret k => (new_buf L, pub_encrypt o k m)
    | Throw e => (L, Throw e) | UB u => (L, UB u) | Diverge => (L, Diverge) | Exit n => (L, Exit n)
    end.
  (** eni_crypto.cpp:117-128 priv_decrypt *)
  Definition h_priv_decrypt (L : ledger) (p : rsaptr) (m : bytes) : ledger * outcome (option bytes) :=
    match deref L p with
    | Ret k => (new_buf L, priv_decrypt o k m)
    | Throw e => (L, Throw e) | UB u => (L, UB u) | Diverge => (L, Diverge) | Exit n => (L, Exit n)
    end.

  (** eni_crypto.h:60-61, 83-84 the data members, and the ledger *)
  Record hrsa : Type := mkHR { hr_key : rsaptr; hr_msg : bytes; hr_led : ledger }.

  (** eni_crypto.cpp:142-146, 172-176 gas *)
  Definition h_rsa_gas (s : hrsa) : outcome N :=
    k <- deref (hr_led s) (hr_key s) ;; Ret (u64 (N.of_nat (rsa_size o k) * 10)).

  (** eni_crypto.cpp:133-157 RSAEncrypt, made when the ledger is [L] *)
  Definition h_encrypt_op (L : ledger) : opclass :=
    mkOp hrsa (mkHR None [] L)
      (fun s args =>
         fail s (str_arg args 0) (fun pem =>
         let (L, p) := h_create_pubkey (hr_led s) pem in
         let s := mkHR p (hr_msg s) L in
         match p with
         | None => (s, Ret false)
         | Some _ => fail s (str_arg args 1) (fun m => (mkHR p m L, Ret true))
         end))
      h_rsa_gas
      (fun s l =>
         let (L, r) := h_pub_encrypt (hr_led s) (hr_key s) (hr_msg s) in
         let s := mkHR (hr_key s) (hr_msg s) L in
         match r with
         | Ret (Some c) => (s, l ++ [JStr (str2hex c)], Ret true)
         | Ret None => (s, l, Ret false)
         | Throw e => (s, l, Throw e)
         | UB u => (s, l, UB u)
         | Diverge => (s, l, Diverge)
         | Exit n => (s, l, Exit n)
         end).

  (** eni_crypto.cpp:162-185 RSADecrypt *)
  Definition h_decrypt_op (L : ledger) : opclass :=
    mkOp hrsa (mkHR None [] L)
      (fun s args =>
         fail s (str_arg args 0) (fun pem =>
         let (L, p) := h_create_privkey (hr_led s) pem in
         let s := mkHR p (hr_msg s) L in
         match p with
         | None => (s, Ret false)
         | Some _ => fail s (str_arg args 1) (fun h =>
             match hex2str h with
             | None => (s, Ret false)
             | Some c => (mkHR p c L, Ret true)
             end)
         end))
      h_rsa_gas
      (fun s l =>
         let (L, r) := h_priv_decrypt (hr_led s) (hr_key s) (hr_msg s) in
         let s := mkHR (hr_key s) (hr_msg s) L in
         match r with
         | Ret (Some m) => (s, l ++ [JStr m], Ret true)
         | Ret None => (s, l, Ret false)
         | Throw e => (s, l, Throw e)
         | UB u => (s, l, UB u)
         | Diverge => (s, l, Diverge)
         | Exit n => (s, l, Exit n)
         end).

  (** eni_crypto.h:50, 73 the destructors *)
  Definition h_drop (s : hrsa) : outcome ledger := '(L, _) <- h_destroy (hr_led s) (hr_key s) ;; Ret L.

  (** ** Programs *)
  (** one of the two operations, eni_crypto.cpp:190-191 *)
  Inductive which : Type := Encrypt | Decrypt.
  (** eni_crypto.cpp:133-157 or 162-185 *)
  Definition h_op (w : which) (L : ledger) : opclass := match w with Encrypt => h_encrypt_op L | Decrypt => h_decrypt_op L end.
  (** plumbing: the state of either class *)
  Definition h_state (w : which) (L : ledger) : ost (h_op w L) -> hrsa := match w with Encrypt => fun s => s | Decrypt => fun s => s end.

  (** a C++ program: an object of the class, any calls of getGas() and start() with exceptions caught, the destructor;
      not code of the library *)
  Definition h_object (w : which) (lay : layout) (text : bytes) (calls : list ecall) (L : ledger) : outcome (ledger * list eanswer) :=
    st <- construct (h_op w L) lay text ;;
    '(st, answers) <- erun st calls ;;
    L' <- h_drop (h_state w L (e_op st)) ;;
    Ret (L', answers).

  (** eni.h:17-33, eni_crypto.cpp:190-191 the C functions; when an exception leaves one of them, delete functor is not
      reached and the object is lost together with what it refers to; the caller is taken to catch the exception *)
  Definition h_call (w : which) (call : ecall) (lay : layout) (buf : bytes) (L : ledger) : outcome (ledger * eanswer) :=
    st <- construct (h_op w L) lay (cstr buf) ;;
    '(st, a) <- estep st call ;;
    let s := h_state w L (e_op st) in
    match a with
    | Threw _ => Ret (hr_led s, a)
    | _ => L' <- h_drop s ;; Ret (L', a)
    end.

  (** a program calling the C functions; each argument text may lie elsewhere; not code of the library *)
  Record rcall : Type := mkRC { c_which : which; c_fun : ecall; c_lay : layout; c_buf : bytes }.
  (** not code: the calls in order *)
  Fixpoint h_calls (L : ledger) (l : list rcall) : outcome (ledger * list eanswer) :=
    match l with
    | [] => Ret (L, [])
    | c :: l' =>
        '(L, a) <- h_call (c_which c) (c_fun c) (c_lay c) (c_buf c) L ;;
        '(L, as_) <- h_calls L l' ;;
        Ret (L, a :: as_)
    end.
End Crypto.

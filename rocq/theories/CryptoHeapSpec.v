(** What calls of the RSA operations leave allocated, read off their arguments. *)
From Verif Require Import Base JsonModel JsonSpec JsonDenotes EniModel CryptoModel CryptoHeapModel.
From Coq Require Import List NArith ZArith Bool.
Import ListNotations.

(** BIOs, buffers and keys *)
Record leaving : Type := mkLeft { lost_bios : nat; lost_bufs : nat; lost_keys : nat }.

Section Leaving.
  Variable o : openssl.

  (** keys that exist *)
  Definition alive (L : ledger o) : nat := length (filter (fun k => match k with Some _ => true | None => false end) (l_keys o L)).
  (** [L'] has this much more than [L] *)
  Definition more (L L' : ledger o) (x : leaving) : Prop :=
    l_bios o L' = l_bios o L + lost_bios x /\ l_bufs o L' = l_bufs o L + lost_bufs x /\ alive L' = alive L + lost_keys x.

  (** whether the text is that of a key of the right kind *)
  Definition is_key (w : which) (pem : bytes) : bool :=
    match w with
    | Encrypt => match read_pub o (cstr pem) with Some _ => true | None => false end
    | Decrypt => match read_priv o (cstr pem) with Some _ => true | None => false end
    end.
  (** whether the message is taken: the one to decrypt is hexadecimal text of even length *)
  Definition takes (w : which) (m : bytes) : bool := match w with Encrypt => true | Decrypt => Nat.even (length m) end.

  Definition starts (calls : list ecall) : nat := length (filter (fun c => match c with Start => true | GetGas => false end) calls).
  (** the arguments are a key, and the message is missing *)
  Definition lacking (w : which) (args : list ast) : bool :=
    match args with [AStr pem] => is_key w pem | _ => false end.

  (** An object that is made, called [length calls] times and destroyed.  Usually the arguments are looked at once; if the
      message is missing they are looked at in every call, and the keys made before the last one are lost. *)
  Definition object_leaves (w : which) (args : list ast) (calls : list ecall) : leaving :=
    let n := length calls in
    match args with
    | AStr pem :: rest =>
        if is_key w pem then
          match rest with
          | [] => mkLeft n 0 (pred n)
          | AStr m :: _ => mkLeft (Nat.min n 1) (if takes w m then starts calls else 0) 0
          | _ => mkLeft 0 0 0
          end
        else mkLeft (Nat.min n 1) 0 0
    | _ => mkLeft 0 0 0
    end.

  (** A call of a C function: as an object called once, but the object is lost if an exception leaves the function. *)
  Definition call_leaves (w : which) (f : ecall) (args : list ast) : leaving :=
    let x := object_leaves w args [f] in
    if lacking w args then mkLeft (lost_bios x) (lost_bufs x) 1 else x.

  Definition plus (x y : leaving) : leaving := mkLeft (lost_bios x + lost_bios y) (lost_bufs x + lost_bufs y) (lost_keys x + lost_keys y).
  Definition sum : list leaving -> leaving := fold_right plus (mkLeft 0 0 0).

  (** ** The answers, by CryptoModel.v *)
  Definition v_op (w : which) : opclass := match w with Encrypt => encrypt_op o | Decrypt => decrypt_op o end.
  Definition v_object (w : which) (lay : layout) (text : bytes) (calls : list ecall) : outcome (list eanswer) :=
    st <- construct (v_op w) lay text ;; '(_, answers) <- erun st calls ;; Ret answers.
  (** one call of a C function alone *)
  Definition v_call (c : rcall) : outcome eanswer :=
    match c_fun c with
    | GetGas => ecatch GasIs (c_gas (v_op (c_which c)) (c_lay c) (c_buf c))
    | Start => ecatch ResultIs (c_run (v_op (c_which c)) (c_lay c) (c_buf c))
    end.
  (** a call of a C function whose argument text is one of an array; [a] is what CryptoModel.v answers *)
  Definition proper (x : rcall * list ast * eanswer) : Prop :=
    let '(c, args, a) := x in
    (N.of_nat (length (cstr (c_buf c))) < 2^28)%N /\ (exists r, gval (readable (c_lay c)) (cstr (c_buf c)) (AArr args) r) /\ Forall short_keys args /\ v_call c = Ret a.

End Leaving.

(** Model of tools/eni_scrypt/scrypt.cpp, scrypt.h and eni_scrypt.cpp (generic code, without SSE2).

    SHA-256 is OpenSSL's and a parameter: a context is the string fed so far, SHA256_Final gives its
    hash.  Words are numbers below 2^32. *)
From Verif Require Import Base JsonModel EniModel CryptoModel.
From Coq Require Import List NArith ZArith Bool Arith.
From Coq.Init Require Import Byte.
From Coq.Strings Require Import Byte.
Import ListNotations.

(** uint32_t addition, the bytes of a word; scrypt.cpp:212-252 *)
Definition add32 (a b : N) : N := u32 (a + b).
(** conversion of x & 0xff to uint8_t; scrypt.cpp:56-59, scrypt.h:40-43 *)
Definition low_byte (x : N) : byte := byte_of_N (N.land x 255).
(** scrypt.cpp:49-50, 187, scrypt.h:33-34 << on uint32_t *)
Definition shl (x k : N) : N := u32 (N.shiftl x k).

(** scrypt.cpp:46-51 be32dec, p[0] .. p[3] *)
Definition be32dec (p0 p1 p2 p3 : byte) : N :=
  add32 (add32 (add32 (bval p3) (shl (bval p2) 8)) (shl (bval p1) 16)) (shl (bval p0) 24).
(** scrypt.cpp:53-60 be32enc *)
Definition be32enc (x : N) : bytes :=
  [low_byte (N.shiftr x 24); low_byte (N.shiftr x 16); low_byte (N.shiftr x 8); low_byte x].
(** scrypt.h:30-35 le32dec *)
Definition le32dec (p0 p1 p2 p3 : byte) : N :=
  add32 (add32 (add32 (bval p0) (shl (bval p1) 8)) (shl (bval p2) 16)) (shl (bval p3) 24).
(** scrypt.h:37-44 le32enc *)
Definition le32enc (x : N) : bytes :=
  [low_byte x; low_byte (N.shiftr x 8); low_byte (N.shiftr x 16); low_byte (N.shiftr x 24)].

(** byte ^= byte; scrypt.cpp:89, 96, 173 *)
Definition bxor (a b : byte) : byte := byte_of_N (N.lxor (bval a) (bval b)).

(** scrypt.cpp:88-89, 95-96 pad[i] ^= K[i] for i < Klen *)
Fixpoint xor_into (pad k : bytes) : outcome bytes :=
  match k, pad with
  | [], _ => Ret pad
  | y :: k', x :: pad' => r <- xor_into pad' k' ;; Ret (bxor x y :: r)
  | _ :: _, [] => UB OutOfBounds
  end.

(** memcpy of [src] to [buf] at offset [off]; scrypt.cpp:180 *)
Definition write_at (buf : bytes) (off : nat) (src : bytes) : outcome bytes :=
  if Nat.leb (off + length src) (length buf) then Ret (firstn off buf ++ src ++ skipn (off + length src) buf)
  else UB OutOfBounds.

Section Scrypt.
  Variable sha : bytes -> bytes.

  (** scrypt.cpp:62-65 *)
  Record hctx : Type := mkH { ictx : bytes; octx : bytes }.

  (** scrypt.cpp:67-101 HMAC_SHA256_Init; khash is a copy *)
  Definition hmac_init (k : bytes) : outcome hctx :=
    let k := if Nat.ltb 64 (length k) then firstn 32 (sha k) else k in
    ip <- xor_into (repeat x36 64) k ;;
    op <- xor_into (repeat x5c 64) k ;;
    Ret (mkH ip op).
  (** scrypt.cpp:103-109 HMAC_SHA256_Update *)
  Definition hmac_update (c : hctx) (inp : bytes) : hctx := mkH (ictx c ++ inp) (octx c).
  (** scrypt.cpp:111-128 HMAC_SHA256_Final *)
  Definition hmac_final (c : hctx) : bytes := sha (octx c ++ firstn 32 (sha (ictx c))).

  (** scrypt.cpp:172-173 T[k] ^= U[k] for k < 32 *)
  Fixpoint xor_all (t u : bytes) : bytes :=
    match t, u with
    | x :: t', y :: u' => bxor x y :: xor_all t' u'
    | _, _ => []
    end.
  (** scrypt.cpp:165-174 the iterations 2 .. c; [n] of them are left *)
  Fixpoint pbkdf2_inner (passwd : bytes) (n : nat) (t u : bytes) : outcome bytes :=
    match n with
    | O => Ret t
    | S n' =>
        c <- hmac_init passwd ;;
        let u := hmac_final (hmac_update c u) in
        pbkdf2_inner passwd n' (xor_all t u) u
    end.

  (** scrypt.cpp:153-181 the blocks; size_t arithmetic on i * 32, [fuel] bounds the number of rounds *)
  Fixpoint pbkdf2_blocks (fuel : nat) (ps : hctx) (passwd : bytes) (c : N) (dkLen : N) (i : N) (buf : bytes) : outcome bytes :=
    match fuel with
    | O => Diverge
    | S fuel' =>
        if (u64 (i * 32) <? dkLen)%N then
          let ivec := be32enc (u32 (i + 1)) in
          let u := hmac_final (hmac_update ps ivec) in
          t <- (if (c <? 18446744073709551615)%N then pbkdf2_inner passwd (N.to_nat (c - 1)) u u else Diverge) ;;
          let clen := sub64 dkLen (u64 (i * 32)) in
          let clen := if (32 <? clen)%N then 32%N else clen in
          buf <- write_at buf (N.to_nat (u64 (i * 32))) (firstn (N.to_nat clen) t) ;;
          pbkdf2_blocks fuel' ps passwd c dkLen (u64 (i + 1)) buf
        else Ret buf
    end.
  (** scrypt.cpp:135-185 PBKDF2_SHA256; [buf] is the output buffer's content *)
  Definition PBKDF2_SHA256 (passwd salt : bytes) (c : N) (buf : bytes) (dkLen : N) : outcome bytes :=
    ps <- hmac_init passwd ;;
    let ps := hmac_update ps salt in
    pbkdf2_blocks (S (N.to_nat (dkLen / 32 + 1))) ps passwd c dkLen 0 buf.
End Scrypt.

(** scrypt.cpp:187 ROTL, and x ^= ROTL(a + b, k) *)
Definition ROTL (a b : N) : N := N.lor (shl a b) (N.shiftr a (32 - b)).
(** scrypt.cpp:212-235 *)
Definition xrot (x a b k : N) : N := N.lxor x (ROTL (add32 a b) k).

(** scrypt.cpp:211-235 one round of the loop in xor_salsa8; the variables x00 .. x15 are w00 .. w15 here *)
Definition salsa_round (x : list N) : list N :=
  match x with
  | [w00; w01; w02; w03; w04; w05; w06; w07; w08; w09; w10; w11; w12; w13; w14; w15] =>
      let w04 := xrot w04 w00 w12 7 in  let w09 := xrot w09 w05 w01 7 in
      let w14 := xrot w14 w10 w06 7 in  let w03 := xrot w03 w15 w11 7 in

      let w08 := xrot w08 w04 w00 9 in  let w13 := xrot w13 w09 w05 9 in
      let w02 := xrot w02 w14 w10 9 in  let w07 := xrot w07 w03 w15 9 in

      let w12 := xrot w12 w08 w04 13 in  let w01 := xrot w01 w13 w09 13 in
      let w06 := xrot w06 w02 w14 13 in  let w11 := xrot w11 w07 w03 13 in

      let w00 := xrot w00 w12 w08 18 in  let w05 := xrot w05 w01 w13 18 in
      let w10 := xrot w10 w06 w02 18 in  let w15 := xrot w15 w11 w07 18 in

      let w01 := xrot w01 w00 w03 7 in  let w06 := xrot w06 w05 w04 7 in
      let w11 := xrot w11 w10 w09 7 in  let w12 := xrot w12 w15 w14 7 in

      let w02 := xrot w02 w01 w00 9 in  let w07 := xrot w07 w06 w05 9 in
      let w08 := xrot w08 w11 w10 9 in  let w13 := xrot w13 w12 w15 9 in

      let w03 := xrot w03 w02 w01 13 in  let w04 := xrot w04 w07 w06 13 in
      let w09 := xrot w09 w08 w11 13 in  let w14 := xrot w14 w13 w12 13 in

      let w00 := xrot w00 w03 w02 18 in  let w05 := xrot w05 w04 w07 18 in
      let w10 := xrot w10 w09 w08 18 in  let w15 := xrot w15 w14 w13 18 in
      [w00; w01; w02; w03; w04; w05; w06; w07; w08; w09; w10; w11; w12; w13; w14; w15]
  | _ => x
  end.

(** not code: both lists side by side, for scrypt.cpp:194-209, 237-252 *)
Fixpoint map2 {A B C} (f : A -> B -> C) (a : list A) (b : list B) : list C :=
  match a, b with
  | x :: a', y :: b' => f x y :: map2 f a' b'
  | _, _ => []
  end.

(** scrypt.cpp:189-253 xor_salsa8 on arrays of 16 words: the loop runs for i = 0, 2, 4, 6 *)
Definition xor_salsa8 (b bx : list N) : outcome (list N) :=
  if (Nat.eqb (length b) 16 && Nat.eqb (length bx) 16)%bool then
    let b := map2 N.lxor b bx in
    let x := salsa_round (salsa_round (salsa_round (salsa_round b))) in
    Ret (map2 add32 b x)
  else UB OutOfBounds.

(** scrypt.cpp:271-272, 278-279 on the two halves of X *)
Definition mix (x : list N) : outcome (list N) :=
  let lo := firstn 16 x in
  let hi := skipn 16 x in
  lo <- xor_salsa8 lo hi ;;
  hi <- xor_salsa8 hi lo ;;
  Ret (lo ++ hi).

(** scrypt.cpp:266-267 X[k] = le32dec(&B[4 * k]) for as many words as there are *)
Fixpoint decode_words (b : bytes) : list N :=
  match b with
  | p0 :: p1 :: p2 :: p3 :: b' => le32dec p0 p1 p2 p3 :: decode_words b'
  | _ => []
  end.
(** scrypt.cpp:282-283 *)
Definition encode_words (x : list N) : bytes := flat_map le32enc x.

(** The scratchpad as words from the aligned address on; [None] is memory not written yet.
    memcpy(&V[i], X, 128); scrypt.cpp:270 *)
Definition vwrite (v : list (option N)) (i : nat) (x : list N) : outcome (list (option N)) :=
  if Nat.leb (i + length x) (length v) then Ret (firstn i v ++ map Some x ++ skipn (i + length x) v) else UB OutOfBounds.
(** X[k] ^= V[j + k] for all words of X; scrypt.cpp:276-277 *)
Fixpoint vxor (x : list N) (v : list (option N)) : outcome (list N) :=
  match x, v with
  | [], _ => Ret []
  | a :: x', Some b :: v' => r <- vxor x' v' ;; Ret (N.lxor a b :: r)
  | _ :: _, None :: _ => UB Uninitialised
  | _ :: _, [] => UB OutOfBounds
  end.

(** scrypt.cpp:269-273 from round [i], [n] rounds to go *)
Fixpoint fill_loop (n i : nat) (v : list (option N)) (x : list N) : outcome (list (option N) * list N) :=
  match n with
  | O => Ret (v, x)
  | S n' =>
      v <- vwrite v (i * 32) x ;;
      x <- mix x ;;
      fill_loop n' (S i) v x
  end.
(** scrypt.cpp:274-280 *)
Fixpoint mix_loop (n : nat) (v : list (option N)) (x : list N) : outcome (list N) :=
  match n with
  | O => Ret x
  | S n' =>
      match nth_error x 16 with
      | None => UB OutOfBounds
      | Some w =>
          let j := N.to_nat (32 * N.land w 1023) in
          x <- vxor x (skipn j v) ;;
          x <- mix x ;;
          mix_loop n' v x
      end
  end.

(** scrypt.h:6 SCRYPT_SCRATCHPAD_SIZE, scrypt.cpp:262: the words that fit behind the aligned address,
    for a scratchpad at address [a] (uintptr_t, 64 bits) *)
Definition aligned (a : N) : N := N.land (u64 (a + 63)) (18446744073709551615 - 63).
(** scrypt.h:6, scrypt.cpp:262, 326 *)
Definition scratch_words (a : N) : nat := N.to_nat ((a + (131072 + 63) - aligned a) / 4).

(** scrypt.cpp:255-286 scrypt_1024_1_1_256_sp_generic with 324-328: 80 bytes of input, 32 bytes of output.
    B and the output buffer have arbitrary content before, here zeros. *)
Definition scrypt_1024_1_1_256 (sha : bytes -> bytes) (a : N) (input : bytes) : outcome bytes :=
  let v := repeat None (scratch_words a) in
  if Nat.ltb (length input) 80 then UB OutOfBounds else
  let inp := firstn 80 input in
  b <- PBKDF2_SHA256 sha inp inp 1 (repeat x00 128) 128 ;;
  let x := decode_words b in
  '(v, x) <- fill_loop 1024 0 v x ;;
  x <- mix_loop 1024 v x ;;
  let b := encode_words x in
  PBKDF2_SHA256 sha inp b 1 (repeat x00 32) 32.

(** C tolower on ASCII; the C locale; eni_scrypt.cpp:45 *)
Definition tolower (c : byte) : byte :=
  if ((65 <=? bval c) && (bval c <=? 90))%N then byte_of_N (bval c + 32) else c.

(** eni_scrypt.cpp:20 find_first_not_of("0123456789abcdefABCDEF") finds nothing *)
Definition hex_set : bytes :=
  [x30; x31; x32; x33; x34; x35; x36; x37; x38; x39; x61; x62; x63; x64; x65; x66; x41; x42; x43; x44; x45; x46].
(** eni_scrypt.cpp:20 *)
Definition all_hex (s : bytes) : bool := forallb (fun c => existsb (beqb c) hex_set) s.

(** eni_scrypt.cpp:45-48 input[i], a char that was zero; arithmetic in int, stored modulo 256 *)
Definition unhex_byte (a b : byte) : byte :=
  let c1 := tolower a in
  let c2 := tolower b in
  let d (c : byte) := (if schar c <? 97 then schar c - 48 else schar c - 97 + 10)%Z in
  let hi := (d c1 mod 256)%Z in                                          (* input[i] += ... *)
  let hi := ((hi * 16) mod 256)%Z in                                     (* input[i] <<= 4 *)
  byte_of_N (Z.to_N ((hi + d c2) mod 256)%Z).
(** eni_scrypt.cpp:43-49 the loop over an even-length string *)
Fixpoint unhex (s : bytes) : bytes :=
  match s with
  | a :: b :: s' => unhex_byte a b :: unhex s'
  | _ => []
  end.
(** eni_scrypt.cpp:36-49: the bytes are written at the front of 80 zeroed ones *)
Definition header (s : bytes) : outcome bytes := write_at (repeat x00 80) 0 (unhex s).
(** eni_scrypt.cpp:40-42 *)
Definition make_even (s : bytes) : bytes := if Nat.eqb (length s mod 2) 0 then s else x30 :: s.

(** eni_scrypt.cpp:13-61 the operation; [a] is the address of the scratchpad on the stack *)
Definition scrypt_op (sha : bytes -> bytes) (a : N) : opclass :=
  mkOp bytes []
    (fun s args =>                                                     (* 13-24 parse *)
       fail s (str_arg args 0) (fun t =>
         (t, Ret (if Nat.ltb 160 (length t) then false else all_hex t))))
    (fun s => Ret (u64 ((N.of_nat (length s) + 1) / 2 * 10)))           (* 26-29 gas *)
    (fun s l =>                                                        (* 31-61 run *)
       let s := make_even s in
       match inp <- header s ;; scrypt_1024_1_1_256 sha a inp with
       | Ret h => (s, l ++ [JStr (str2hex h)], Ret true)
       | Throw e => (s, l, Throw e)
       | UB u => (s, l, UB u)
       | Diverge => (s, l, Diverge)
       | Exit n => (s, l, Exit n)
       end).

(** RFC 2104 (HMAC), RFC 8018 (PBKDF2) and RFC 7914 (scrypt), over an arbitrary hash function.
    Nothing here refers to the code. *)
From Verif Require Import Base CryptoSpec.
From Coq Require Import List NArith Bool Arith.
From Coq.Init Require Import Byte.
From Coq.Strings Require Import Byte.
Import ListNotations.

(** ** Octet strings *)

Definition xorb1 (a b : byte) : byte := byte_of_N (N.lxor (bval a) (bval b)).
Fixpoint xor_bytes (a b : bytes) : bytes :=
  match a, b with
  | x :: a', y :: b' => xorb1 x y :: xor_bytes a' b'
  | _, _ => []
  end.
(** the integer an octet string denotes, least significant octet first *)
Fixpoint le_integer (b : bytes) : N :=
  match b with
  | [] => 0%N
  | x :: b' => (bval x + 256 * le_integer b')%N
  end.
(** [n] octets, least significant first; most significant first *)
Fixpoint le_octets (n : nat) (x : N) : bytes :=
  match n with
  | O => []
  | S n' => byte_of_N x :: le_octets n' (x / 256)%N
  end.
Definition be_octets (n : nat) (x : N) : bytes := rev (le_octets n x).
Definition be_integer (b : bytes) : N := le_integer (rev b).

Fixpoint iter {A} (n : nat) (f : A -> A) (x : A) : A :=
  match n with
  | O => x
  | S n' => iter n' f (f x)
  end.

(** [chunks n k l]: the first [k] pieces of [n] elements *)
Fixpoint chunks {A} (n k : nat) (l : list A) : list (list A) :=
  match k with
  | O => []
  | S k' => firstn n l :: chunks n k' (skipn n l)
  end.

Section Hash.
  (** a hash function with 64-octet input blocks and 32-octet output *)
  Variable H : bytes -> bytes.

  (** ** RFC 2104: HMAC, B = 64, L = 32 *)
  Definition hmac_key (k : bytes) : bytes :=
    let k := if Nat.ltb 64 (length k) then H k else k in k ++ repeat x00 (64 - length k).
  Definition hmac (k text : bytes) : bytes :=
    H (xor_bytes (hmac_key k) (repeat x5c 64) ++ H (xor_bytes (hmac_key k) (repeat x36 64) ++ text)).

  (** ** RFC 8018, section 5.2: PBKDF2 with HMAC *)

  (** U_1 = PRF (P, S || INT (i)), U_j = PRF (P, U_{j-1}) *)
  Fixpoint pbkdf2_U (p s : bytes) (i : N) (j : nat) : bytes :=
    match j with
    | O => hmac p (s ++ be_octets 4 i)
    | S j' => hmac p (pbkdf2_U p s i j')
    end.
  (** F (P, S, c, i) = U_1 xor ... xor U_c; here [c] counts from zero: [pbkdf2_F p s c i] has c + 1 terms *)
  Fixpoint pbkdf2_F (p s : bytes) (c : nat) (i : N) : bytes :=
    match c with
    | O => pbkdf2_U p s i 0
    | S c' => xor_bytes (pbkdf2_F p s c' i) (pbkdf2_U p s i c)
    end.
  (** T_1 || ... || T_l <0..dkLen-1> with l = ceil (dkLen / 32) *)
  Definition pbkdf2 (p s : bytes) (c : nat) (dkLen : nat) : bytes :=
    firstn dkLen (flat_map (fun i => pbkdf2_F p s (c - 1) (N.of_nat i)) (seq 1 ((dkLen + 31) / 32))).
End Hash.

(** ** RFC 7914, section 3: Salsa20/8 core *)

Definition add_mod (a b : N) : N := ((a + b) mod 2^32)%N.
Definition rotate (a k : N) : N := ((a * 2^k) mod 2^32 + a / 2^(32 - k))%N.

Definition quarterround (y : N * N * N * N) : N * N * N * N :=
  let '(y0, y1, y2, y3) := y in
  let z1 := N.lxor y1 (rotate (add_mod y0 y3) 7) in
  let z2 := N.lxor y2 (rotate (add_mod z1 y0) 9) in
  let z3 := N.lxor y3 (rotate (add_mod z2 z1) 13) in
  let z0 := N.lxor y0 (rotate (add_mod z3 z2) 18) in
  (z0, z1, z2, z3).

(** a 4x4 matrix of words, row by row *)
Definition columnround (y : list N) : list N :=
  match y with
  | [y0; y1; y2; y3; y4; y5; y6; y7; y8; y9; y10; y11; y12; y13; y14; y15] =>
      let '(z0, z4, z8, z12) := quarterround (y0, y4, y8, y12) in
      let '(z5, z9, z13, z1) := quarterround (y5, y9, y13, y1) in
      let '(z10, z14, z2, z6) := quarterround (y10, y14, y2, y6) in
      let '(z15, z3, z7, z11) := quarterround (y15, y3, y7, y11) in
      [z0; z1; z2; z3; z4; z5; z6; z7; z8; z9; z10; z11; z12; z13; z14; z15]
  | _ => y
  end.
Definition rowround (y : list N) : list N :=
  match y with
  | [y0; y1; y2; y3; y4; y5; y6; y7; y8; y9; y10; y11; y12; y13; y14; y15] =>
      let '(z0, z1, z2, z3) := quarterround (y0, y1, y2, y3) in
      let '(z5, z6, z7, z4) := quarterround (y5, y6, y7, y4) in
      let '(z10, z11, z8, z9) := quarterround (y10, y11, y8, y9) in
      let '(z15, z12, z13, z14) := quarterround (y15, y12, y13, y14) in
      [z0; z1; z2; z3; z4; z5; z6; z7; z8; z9; z10; z11; z12; z13; z14; z15]
  | _ => y
  end.
Definition doubleround (y : list N) : list N := rowround (columnround y).

Definition salsa20_8_words (x : list N) : list N :=
  map (fun p => add_mod (fst p) (snd p)) (combine (iter 4 doubleround x) x).
Definition salsa20_8 (b : bytes) : bytes :=
  flat_map (le_octets 4) (salsa20_8_words (map le_integer (chunks 4 16 b))).

(** ** RFC 7914, section 4: scryptBlockMix, on 2 * r blocks of 64 octets *)

(** X = B[2 * r - 1]; T = X xor B[i], X = Salsa (T), Y[i] = X *)
Fixpoint block_mix_loop (salsa : bytes -> bytes) (x : bytes) (b : list bytes) : list bytes :=
  match b with
  | [] => []
  | bi :: b' => let y := salsa (xor_bytes x bi) in y :: block_mix_loop salsa y b'
  end.
(** the elements at even, odd positions *)
Fixpoint evens {A} (l : list A) : list A :=
  match l with
  | x :: _ :: l' => x :: evens l'
  | [x] => [x]
  | [] => []
  end.
Definition odds {A} (l : list A) : list A := evens (tl l).
Definition block_mix (r : nat) (b : bytes) : bytes :=
  let blocks := chunks 64 (2 * r) b in
  let y := block_mix_loop salsa20_8 (last blocks []) blocks in
  concat (evens y ++ odds y).

(** ** RFC 7914, section 5: scryptROMix *)

(** Integerify (B[0] ... B[2 * r - 1]) is B[2 * r - 1] as a little-endian integer *)
Definition integerify (r : nat) (x : bytes) : N := le_integer (last (chunks 64 (2 * r) x) []).
(** V[j] is BlockMix applied j times *)
Definition romix_V (r : nat) (b : bytes) (j : nat) : bytes := iter j (block_mix r) b.
Definition romix_step (r n : nat) (b : bytes) (x : bytes) : bytes :=
  let j := N.to_nat (integerify r x mod N.of_nat n)%N in
  block_mix r (xor_bytes x (romix_V r b j)).
Definition romix (r : nat) (b : bytes) (n : nat) : bytes :=
  iter n (romix_step r n b) (romix_V r b n).

(** ** RFC 7914, section 6: scrypt *)
Definition scrypt (H : bytes -> bytes) (p s : bytes) (n r par dkLen : nat) : bytes :=
  let b := pbkdf2 H p s 1 (par * 128 * r) in
  let b' := flat_map (fun x => romix r x n) (chunks (128 * r) par b) in
  pbkdf2 H p b' 1 dkLen.

(** ** Headers in hexadecimal *)

(** at most 160 digits *)
Definition accepted (h : bytes) : Prop := (length h <= 160)%nat /\ Forall (fun c => hex_digit c <> None) h.
(** the 80 bytes a header stands for: a text of odd length gets a leading zero, missing bytes are zero *)
Definition header_bytes (h hd : bytes) : Prop :=
  exists s, hex_text (if Nat.even (length h) then h else x30 :: h) s /\ (length s <= 80)%nat /\ hd = s ++ repeat x00 (80 - length s).
(** equal up to the letter case *)
Definition same_digits (h h' : bytes) : Prop := Forall2 (fun c c' => hex_digit c = hex_digit c') h h'.

(** What the string hashes compute, in closed form. *)
From Verif Require Import Base.
From Coq Require Import List NArith ZArith Bool.
From Coq.Init Require Import Byte.
Import ListNotations.
Local Open Scope Z_scope.

(** c_0*b^(n-1) + c_1*b^(n-2) + ... + c_(n-1), characters read as signed numbers *)
Fixpoint poly (b : Z) (s : bytes) : Z :=
  match s with
  | [] => 0
  | c :: s' => schar c * b ^ Z.of_nat (length s') + poly b s'
  end.

(** a_i * a_(i+1) * ... (m factors) where a_j = 63689 * 378551^j *)
Fixpoint rs_prod (i : Z) (m : nat) : Z :=
  match m with O => 1 | S m' => 63689 * 378551 ^ i * rs_prod (i + 1) m' end.
Fixpoint rs_sum (i : Z) (s : bytes) : Z :=
  match s with
  | [] => 0
  | c :: s' => schar c * rs_prod (i + 1) (length s') + rs_sum (i + 1) s'
  end.

Local Open Scope N_scope.

(** a character as a 32-bit two's complement number *)
Definition ext32 (c : byte) : N := Z.to_N (schar c mod 4294967296).

(** c_0<<(k*(n-1)) xor ... xor c_(n-1), on 32 bits *)
Fixpoint xor_shift (k : N) (s : bytes) : N :=
  match s with
  | [] => 0
  | c :: s' => N.lxor (N.shiftl (ext32 c) (k * N.of_nat (length s')) mod 2^32) (xor_shift k s')
  end.

(** rotation of a 32-bit number by [n mod 32] bits to the left *)
Definition rotl32 (x n : N) : N :=
  let r := n mod 32 in N.lor (N.shiftl x r mod 2^32) (N.shiftr x (32 - r)).
Fixpoint xor_rot (k : N) (s : bytes) : N :=
  match s with
  | [] => 0
  | c :: s' => N.lxor (rotl32 (ext32 c) (k * N.of_nat (length s'))) (xor_rot k s')
  end.

(** the characteristic of a string: which letters (ignoring case), '_' and digits occur, and how many dots *)
Definition letter (c : byte) (i : N) : bool := (bval c =? 65 + i) || (bval c =? 97 + i).
Definition digit (c : byte) : bool := (48 <=? bval c) && (bval c <=? 57).
Definition mentions (s : bytes) (bit : N) : bool :=
  if bit <? 26 then existsb (fun c => letter c bit) s
  else if bit =? 26 then existsb (fun c => bval c =? 95) s
  else if bit =? 27 then existsb digit s
  else false.
Definition dots (s : bytes) : N := N.of_nat (length (filter (fun c => bval c =? 46) s)).

(** [t] occurs in [s] *)
Definition occurs (t s : bytes) : Prop := exists a b, s = (a ++ t ++ b)%list.

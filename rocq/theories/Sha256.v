(** SHA-256 after FIPS 180-4, for the examples of ScryptProps.v; the theorems hold for any hash with 32 bytes. *)
From Verif Require Import Base ScryptSpec.
From Coq Require Import List NArith Arith.
From Coq.Init Require Import Byte.
From Coq.Strings Require Import Byte.
Import ListNotations.
Import ScryptSpec.

Definition K : list N :=
  [0x428a2f98; 0x71374491; 0xb5c0fbcf; 0xe9b5dba5; 0x3956c25b; 0x59f111f1; 0x923f82a4; 0xab1c5ed5;
   0xd807aa98; 0x12835b01; 0x243185be; 0x550c7dc3; 0x72be5d74; 0x80deb1fe; 0x9bdc06a7; 0xc19bf174;
   0xe49b69c1; 0xefbe4786; 0x0fc19dc6; 0x240ca1cc; 0x2de92c6f; 0x4a7484aa; 0x5cb0a9dc; 0x76f988da;
   0x983e5152; 0xa831c66d; 0xb00327c8; 0xbf597fc7; 0xc6e00bf3; 0xd5a79147; 0x06ca6351; 0x14292967;
   0x27b70a85; 0x2e1b2138; 0x4d2c6dfc; 0x53380d13; 0x650a7354; 0x766a0abb; 0x81c2c92e; 0x92722c85;
   0xa2bfe8a1; 0xa81a664b; 0xc24b8b70; 0xc76c51a3; 0xd192e819; 0xd6990624; 0xf40e3585; 0x106aa070;
   0x19a4c116; 0x1e376c08; 0x2748774c; 0x34b0bcb5; 0x391c0cb3; 0x4ed8aa4a; 0x5b9cca4f; 0x682e6ff3;
   0x748f82ee; 0x78a5636f; 0x84c87814; 0x8cc70208; 0x90befffa; 0xa4506ceb; 0xbef9a3f7; 0xc67178f2]%N.
Definition rotr (x k : N) := rotate x (32 - k).
Definition not32 (x : N) := N.lxor x 0xffffffff.
Definition Ch x y z := N.lxor (N.land x y) (N.land (not32 x) z).
Definition Maj x y z := N.lxor (N.lxor (N.land x y) (N.land x z)) (N.land y z).
Definition S0 x := N.lxor (N.lxor (rotr x 2) (rotr x 13)) (rotr x 22).
Definition S1 x := N.lxor (N.lxor (rotr x 6) (rotr x 11)) (rotr x 25).
Definition s0 x := N.lxor (N.lxor (rotr x 7) (rotr x 18)) (N.shiftr x 3).
Definition s1 x := N.lxor (N.lxor (rotr x 17) (rotr x 19)) (N.shiftr x 10).
(** the message schedule, a window of 16 words *)
Fixpoint sched (n : nat) (w : list N) : list N :=
  match n with
  | O => w
  | S n' => match w with
     | w0 :: w' => w0 :: sched n' (w' ++ [add_mod (add_mod (s1 (nth 14 w 0%N)) (nth 9 w 0%N)) (add_mod (s0 (nth 1 w 0%N)) w0)])
     | [] => []
     end
  end.
Definition round (v : list N) (kw : N * N) : list N :=
  match v with
  | [a;b;c;d;e;f;g;h] =>
    let t1 := add_mod (add_mod (add_mod h (S1 e)) (add_mod (Ch e f g) (fst kw))) (snd kw) in
    let t2 := add_mod (S0 a) (Maj a b c) in
    [add_mod t1 t2; a; b; c; add_mod d t1; e; f; g]
  | _ => v
  end.
Definition compress (h : list N) (block : bytes) : list N :=
  let w := sched 48 (map be_integer (chunks 4 16 block)) in
  map (fun p => add_mod (fst p) (snd p)) (combine h (fold_left round (combine K w) h)).
Definition H0 : list N := [0x6a09e667;0xbb67ae85;0x3c6ef372;0xa54ff53a;0x510e527f;0x9b05688c;0x1f83d9ab;0x5be0cd19]%N.
Definition pad (m : bytes) : bytes :=
  m ++ x80 :: repeat x00 ((119 - length m mod 64) mod 64) ++ be_octets 8 (8 * N.of_nat (length m))%N.
Definition sha256 (m : bytes) : bytes :=
  let p := pad m in flat_map (be_octets 4) (fold_left compress (chunks 64 (length p / 64) p) H0).

Lemma be_octets_length n x : length (be_octets n x) = n.
Proof. unfold be_octets. rewrite rev_length. revert x. induction n as [|n IH]; intros x; cbn [le_octets length]; auto. Qed.

Lemma round_length v kw : length (round v kw) = length v.
Proof. unfold round. do 8 (destruct v as [|? v]; [reflexivity|]). destruct v; reflexivity. Qed.

Lemma rounds_length l : forall v, length (fold_left round l v) = length v.
Proof. induction l as [|kw l IH]; intros v; cbn [fold_left]; auto. now rewrite IH, round_length. Qed.

Lemma compress_length h block : length (compress h block) = length h.
Proof. unfold compress. rewrite map_length, combine_length, rounds_length. apply Nat.min_id. Qed.

Lemma sha256_length m : length (sha256 m) = 32.
Proof.
  unfold sha256. generalize (chunks 64 (length (pad m) / 64) (pad m)). intros l.
  assert (H : length (fold_left compress l H0) = 8).
  { generalize (eq_refl : length H0 = 8). generalize H0. induction l as [|b l IH]; intros h Hh; cbn [fold_left]; auto. apply IH. now rewrite compress_length. }
  revert H. generalize (fold_left compress l H0). intros w Hw. do 8 (destruct w as [|? w]; [discriminate|]). destruct w; [|discriminate].
  cbn [flat_map]. rewrite !app_length, !be_octets_length. reflexivity.
Qed.

(** Salsa20/8, scryptBlockMix, scryptROMix and scrypt. *)
From Verif Require Import Base ScryptSpec ScryptModel ScryptProof.
From Coq Require Import List NArith ZArith Bool Lia Arith.
From Coq.Init Require Import Byte.
From Coq.Strings Require Import Byte.
Import ListNotations.
Import ScryptSpec.

(** ** The core on words *)

Lemma lor_add a b : N.land a b = 0%N -> N.lor a b = (a + b)%N.
Proof. intros H. rewrite N.add_nocarry_lxor by exact H. symmetry. now apply N.lxor_lor. Qed.

Lemma small_bits a k n : (a < 2^k)%N -> (k <= n)%N -> N.testbit a n = false.
Proof. intros H Hn. rewrite <- (N.mod_small a (2^k)) by exact H. now apply N.mod_pow2_bits_high. Qed.

Lemma ROTL_eq a k : (a < 2^32)%N -> (0 < k < 32)%N -> ROTL a k = rotate a k.
Proof.
  intros Ha Hk. unfold ROTL, rotate, shl, u32. change 4294967296%N with (2^32)%N. rewrite N.shiftl_mul_pow2, N.shiftr_div_pow2.
  apply lor_add. apply N.bits_inj. intros n. rewrite N.land_spec, N.bits_0.
  destruct (N.lt_ge_cases n k) as [H|H].
  - rewrite N.mod_pow2_bits_low by lia. rewrite N.mul_pow2_bits_low by exact H. reflexivity.
  - rewrite N.div_pow2_bits. rewrite (small_bits a 32) by (auto; lia). apply andb_false_r.
Qed.

Lemma xrot_eq x a b k : (0 < k < 32)%N -> xrot x a b k = N.lxor x (rotate (add_mod a b) k).
Proof. intros H. unfold xrot. rewrite ROTL_eq; auto. unfold add32, u32. apply N.mod_lt. discriminate. Qed.

Definition qr (y : N * N * N * N) : N * N * N * N :=
  let '(y0, y1, y2, y3) := y in
  let z1 := xrot y1 y0 y3 7 in
  let z2 := xrot y2 z1 y0 9 in
  let z3 := xrot y3 z2 z1 13 in
  let z0 := xrot y0 z3 z2 18 in
  (z0, z1, z2, z3).
Lemma qr_eq y : quarterround y = qr y.
Proof. destruct y as [[[a b] c] d]. unfold quarterround, qr. rewrite !xrot_eq by lia. reflexivity. Qed.

Lemma columnround_eq y0 y1 y2 y3 y4 y5 y6 y7 y8 y9 y10 y11 y12 y13 y14 y15 :
  columnround [y0; y1; y2; y3; y4; y5; y6; y7; y8; y9; y10; y11; y12; y13; y14; y15] =
  (let '(z0, z4, z8, z12) := qr (y0, y4, y8, y12) in
   let '(z5, z9, z13, z1) := qr (y5, y9, y13, y1) in
   let '(z10, z14, z2, z6) := qr (y10, y14, y2, y6) in
   let '(z15, z3, z7, z11) := qr (y15, y3, y7, y11) in
   [z0; z1; z2; z3; z4; z5; z6; z7; z8; z9; z10; z11; z12; z13; z14; z15]).
Proof. unfold columnround. rewrite !qr_eq. reflexivity. Qed.
Lemma rowround_eq y0 y1 y2 y3 y4 y5 y6 y7 y8 y9 y10 y11 y12 y13 y14 y15 :
  rowround [y0; y1; y2; y3; y4; y5; y6; y7; y8; y9; y10; y11; y12; y13; y14; y15] =
  (let '(z0, z1, z2, z3) := qr (y0, y1, y2, y3) in
   let '(z5, z6, z7, z4) := qr (y5, y6, y7, y4) in
   let '(z10, z11, z8, z9) := qr (y10, y11, y8, y9) in
   let '(z15, z12, z13, z14) := qr (y15, y12, y13, y14) in
   [z0; z1; z2; z3; z4; z5; z6; z7; z8; z9; z10; z11; z12; z13; z14; z15]).
Proof. unfold rowround. rewrite !qr_eq. reflexivity. Qed.

Lemma list16 {A} (l : list A) : length l = 16%nat ->
  exists a b c d e f g h i j k m n o p q, l = [a; b; c; d; e; f; g; h; i; j; k; m; n; o; p; q].
Proof.
  intros H. do 16 (destruct l as [|? l]; [discriminate|]). destruct l; [|discriminate]. repeat eexists.
Qed.

Opaque xrot.
Lemma salsa_round_eq x : length x = 16%nat -> salsa_round x = doubleround x /\ length (salsa_round x) = 16%nat.
Proof.
  intros H. destruct (list16 x H) as (a & b & c & d & e & f & g & h & i & j & k & m & n & o & p & q & ->).
  split; [|reflexivity]. unfold doubleround. rewrite columnround_eq. cbv beta iota zeta delta [qr]. rewrite rowround_eq. cbv beta iota zeta delta [qr].
  reflexivity.
Qed.
Transparent xrot.

Opaque salsa_round doubleround.
Lemma salsa_rounds x : length x = 16%nat ->
  salsa_round (salsa_round (salsa_round (salsa_round x))) = iter 4 doubleround x /\ length (iter 4 doubleround x) = 16%nat.
Proof.
  intros H. cbn [iter]. destruct (salsa_round_eq x H) as [E1 H1]. rewrite <- E1. destruct (salsa_round_eq _ H1) as [E2 H2]. rewrite <- E2.
  destruct (salsa_round_eq _ H2) as [E3 H3]. rewrite <- E3. destruct (salsa_round_eq _ H3) as [E4 H4]. rewrite <- E4. split; [reflexivity|exact H4].
Qed.

Lemma map2_add t : forall x, map2 add32 t x = map (fun p => add_mod (fst p) (snd p)) (combine x t).
Proof.
  induction t as [|a t IH]; intros [|b x]; cbn [map2 combine map fst snd]; auto. rewrite IH. f_equal. unfold add32, u32, add_mod. now rewrite N.add_comm.
Qed.
Lemma map2_length {A B C} (f : A -> B -> C) a : forall b, length (map2 f a b) = Nat.min (length a) (length b).
Proof. induction a as [|x a IH]; intros [|y b]; cbn [map2 length]; auto. now rewrite IH. Qed.

Definition word (x : N) : Prop := (x < 2^32)%N.

Lemma xor_salsa8_eq b bx : length b = 16%nat -> length bx = 16%nat ->
  xor_salsa8 b bx = Ret (salsa20_8_words (map2 N.lxor b bx)) /\
  length (salsa20_8_words (map2 N.lxor b bx)) = 16%nat /\ Forall word (salsa20_8_words (map2 N.lxor b bx)).
Proof.
  intros Hb Hx. unfold xor_salsa8. rewrite Hb, Hx. cbn [Nat.eqb andb].
  assert (Ht : length (map2 N.lxor b bx) = 16%nat) by (rewrite map2_length, Hb, Hx; reflexivity).
  destruct (salsa_rounds _ Ht) as [E Hl]. rewrite E, map2_add. unfold salsa20_8_words. split; [reflexivity|]. split.
  - rewrite map_length, combine_length, Hl, Ht. reflexivity.
  - apply Forall_forall. intros y Hy. apply in_map_iff in Hy. destruct Hy as (p & <- & _). unfold add_mod, word. apply N.mod_lt. discriminate.
Qed.

(** ** Words and octets *)

Lemma bval_xorb1 x y : bval (xorb1 x y) = N.lxor (bval x) (bval y).
Proof.
  unfold xorb1. rewrite bval_byte_of_N. change 256%N with (2^8)%N. apply N.bits_inj. intros n. destruct (N.lt_ge_cases n 8) as [H|H].
  - now rewrite N.mod_pow2_bits_low.
  - rewrite N.mod_pow2_bits_high, N.lxor_spec by exact H. rewrite !(small_bits _ 8 n) by (auto; apply bval_lt). reflexivity.
Qed.

Lemma low_add x a : (x < 256)%N -> (x + 256 * a)%N = N.lxor x (N.shiftl a 8).
Proof.
  intros H. rewrite N.shiftl_mul_pow2. change (2^8)%N with 256%N. rewrite (N.mul_comm a). apply N.add_nocarry_lxor.
  apply N.bits_inj. intros n. rewrite N.land_spec, N.bits_0. rewrite N.mul_comm. destruct (N.lt_ge_cases n 8) as [Hn|Hn].
  - change 256%N with (2^8)%N. rewrite N.mul_pow2_bits_low by exact Hn. apply andb_false_r.
  - rewrite (small_bits x 8) by auto. reflexivity.
Qed.

Lemma le_integer_xor a : forall b, length a = length b -> le_integer (xor_bytes a b) = N.lxor (le_integer a) (le_integer b).
Proof.
  induction a as [|x a IH]; intros [|y b] H; try discriminate; [reflexivity|]. cbn [xor_bytes le_integer]. rewrite IH by (injection H; auto).
  rewrite bval_xorb1. pose proof (bval_lt x). pose proof (bval_lt y). rewrite !low_add; auto.
  - rewrite N.shiftl_lxor. rewrite !N.lxor_assoc. f_equal. rewrite <- !N.lxor_assoc. f_equal. apply N.lxor_comm.
  - rewrite <- bval_xorb1. apply bval_lt.
Qed.

Lemma four {A} n (b : list A) : length b = (4 * S n)%nat -> exists p q r s b', b = p :: q :: r :: s :: b' /\ length b' = (4 * n)%nat.
Proof.
  intros H. destruct b as [|p [|q [|r [|s b]]]]; cbn in H; try lia. exists p, q, r, s, b. split; auto. lia.
Qed.

Lemma decode_chunks n : forall b, length b = (4 * n)%nat -> decode_words b = map le_integer (chunks 4 n b).
Proof.
  induction n as [|n IH]; intros b H.
  - destruct b; [reflexivity|discriminate].
  - destruct (four n b H) as (p & q & r & s & b' & -> & H'). cbn [decode_words chunks firstn skipn map]. rewrite le32dec_eq. f_equal. now apply IH.
Qed.
Lemma decode_length n : forall b, length b = (4 * n)%nat -> length (decode_words b) = n.
Proof.
  induction n as [|n IH]; intros b H.
  - destruct b; [reflexivity|discriminate].
  - destruct (four n b H) as (p & q & r & s & b' & -> & H'). cbn [decode_words length]. f_equal. now apply IH.
Qed.
Lemma decode_app n : forall a b, length a = (4 * n)%nat -> decode_words (a ++ b) = decode_words a ++ decode_words b.
Proof.
  induction n as [|n IH]; intros a b H.
  - destruct a; [reflexivity|discriminate].
  - destruct (four n a H) as (p & q & r & s & b' & -> & H'). cbn [decode_words app]. f_equal. now apply IH.
Qed.
Lemma decode_xor n : forall a b, length a = (4 * n)%nat -> length b = (4 * n)%nat ->
  decode_words (xor_bytes a b) = map2 N.lxor (decode_words a) (decode_words b).
Proof.
  induction n as [|n IH]; intros a b Ha Hb.
  - destruct a; [reflexivity|discriminate].
  - destruct (four n a Ha) as (p & q & r & s & a' & -> & Ha'). destruct (four n b Hb) as (p' & q' & r' & s' & b' & -> & Hb').
    cbn [xor_bytes decode_words map2]. rewrite !le32dec_eq, IH by auto. f_equal. exact (le_integer_xor [p; q; r; s] [p'; q'; r'; s'] eq_refl).
Qed.
Lemma encode_eq x : encode_words x = flat_map (le_octets 4) x.
Proof. unfold encode_words. induction x as [|w x IH]; cbn [flat_map]; auto. now rewrite le32enc_eq, IH. Qed.
Lemma encode_length x : length (encode_words x) = (4 * length x)%nat.
Proof. unfold encode_words. induction x as [|w x IH]; cbn [flat_map length]; auto. rewrite app_length, IH, le32enc_eq, le_octets_length. lia. Qed.
Lemma decode_encode x : Forall word x -> decode_words (encode_words x) = x.
Proof.
  induction 1 as [|w x Hw Hx IH]; auto. unfold encode_words in *. cbn [flat_map]. rewrite le32enc_eq. cbn [le_octets app decode_words]. rewrite IH, le32dec_eq. f_equal.
  exact (le_integer_octets 4 w Hw).
Qed.
Lemma encode_decode n : forall b, length b = (4 * n)%nat -> encode_words (decode_words b) = b.
Proof.
  induction n as [|n IH]; intros b H.
  - destruct b; [reflexivity|discriminate].
  - destruct (four n b H) as (p & q & r & s & b' & -> & H'). unfold encode_words in *. cbn [decode_words flat_map]. rewrite le32enc_eq, le32dec_eq, IH by auto.
    pose proof (le_octets_integer [p; q; r; s]) as E. cbn [length] in E. rewrite E. reflexivity.
Qed.

Lemma salsa20_8_eq b : length b = 64%nat -> salsa20_8 b = encode_words (salsa20_8_words (decode_words b)).
Proof. intros H. unfold salsa20_8. rewrite encode_eq, (decode_chunks 16) by exact H. reflexivity. Qed.

(** one xor_salsa8 call on octets *)
Lemma xor_salsa8_octets a b : length a = 64%nat -> length b = 64%nat ->
  xor_salsa8 (decode_words a) (decode_words b) = Ret (decode_words (salsa20_8 (xor_bytes a b))) /\ length (salsa20_8 (xor_bytes a b)) = 64%nat.
Proof.
  intros Ha Hb. destruct (xor_salsa8_eq (decode_words a) (decode_words b) (decode_length 16 a Ha) (decode_length 16 b Hb)) as (E & Hl & Hw).
  rewrite <- (decode_xor 16) in * by auto. rewrite salsa20_8_eq by (rewrite xor_bytes_length, Ha, Hb; reflexivity). split.
  - rewrite decode_encode by exact Hw. exact E.
  - rewrite encode_length, Hl. reflexivity.
Qed.

(** ** scryptBlockMix *)

Lemma split128 (b : bytes) : length b = 128%nat -> exists b0 b1, b = b0 ++ b1 /\ length b0 = 64%nat /\ length b1 = 64%nat.
Proof.
  intros H. exists (firstn 64 b), (skipn 64 b). rewrite firstn_skipn, firstn_length, skipn_length, H. auto.
Qed.
Lemma chunks2 (b0 b1 : bytes) : length b0 = 64%nat -> length b1 = 64%nat -> chunks 64 (2 * 1) (b0 ++ b1) = [b0; b1].
Proof.
  intros H0 H1. change (2 * 1)%nat with 2%nat. cbn [chunks]. rewrite firstn_app, skipn_app, H0, Nat.sub_diag. rewrite (firstn_all2 b0) by lia. rewrite (skipn_all2 b0) by lia.
  cbn [app]. rewrite (firstn_O b1), app_nil_r. rewrite skipn_O. rewrite (firstn_all2 b1) by lia. reflexivity.
Qed.

Lemma mix_eq b : length b = 128%nat -> mix (decode_words b) = Ret (decode_words (block_mix 1 b)) /\ length (block_mix 1 b) = 128%nat.
Proof.
  intros H. destruct (split128 b H) as (b0 & b1 & -> & H0 & H1). unfold block_mix. rewrite chunks2 by auto. cbn [last block_mix_loop evens odds tl app concat].
  unfold mix. rewrite (decode_app 16) by exact H0. pose proof (decode_length 16 b0 H0) as L0. rewrite firstn_app, skipn_app, L0, Nat.sub_diag.
  rewrite (firstn_all2 (decode_words b0)) by lia. rewrite (skipn_all2 (decode_words b0)) by lia. rewrite firstn_O, skipn_O, app_nil_r. cbn [app].
  destruct (xor_salsa8_octets b0 b1 H0 H1) as [E0 S0]. rewrite (xor_bytes_comm b1 b0). set (y0 := salsa20_8 (xor_bytes b0 b1)) in *. rewrite E0. cbn [bind].
  destruct (xor_salsa8_octets b1 y0 H1 S0) as [E1 S1]. rewrite (xor_bytes_comm y0 b1). set (y1 := salsa20_8 (xor_bytes b1 y0)) in *. rewrite E1. cbn [bind].
  rewrite app_nil_r, (decode_app 16) by exact S0. split; [reflexivity|]. rewrite app_length, S0, S1. reflexivity.
Qed.

(** ** scryptROMix *)

Lemma iter_S {A} (f : A -> A) n : forall x, iter (S n) f x = f (iter n f x).
Proof. induction n as [|n IH]; intros x; auto. change (iter (S (S n)) f x) with (iter (S n) f (f x)). rewrite IH. reflexivity. Qed.

Lemma iter_next {A} (f : A -> A) n x : iter (S n) f x = iter n f (f x).
Proof. reflexivity. Qed.
Lemma iter_zero {A} (f : A -> A) x : iter 0 f x = x.
Proof. reflexivity. Qed.

Opaque block_mix.

Section Mix.
  Variable B : bytes.
  Hypothesis HB : length B = 128%nat.
  Let V (j : nat) : bytes := romix_V 1 B j.
  Definition table (n : nat) : list N := flat_map (fun j => decode_words (romix_V 1 B j)) (seq 0 n).

  Lemma V_length j : length (V j) = 128%nat.
  Proof.
    unfold V, romix_V. induction j as [|j IH]; [exact HB|]. rewrite iter_S. now apply mix_eq.
  Qed.
  Lemma table_length n : length (table n) = (32 * n)%nat.
  Proof.
    unfold table. assert (forall l, length (flat_map (fun j => decode_words (romix_V 1 B j)) l) = (32 * length l)%nat).
    { induction l as [|j l IH]; cbn [flat_map length]; auto. rewrite app_length, IH, (decode_length 32) by apply V_length. lia. }
    now rewrite H, seq_length.
  Qed.
  Lemma table_S n : table (S n) = table n ++ decode_words (V n).
  Proof. unfold table. rewrite seq_S, flat_map_app. cbn [flat_map Nat.add]. now rewrite app_nil_r. Qed.

  Lemma fill_eq n : forall i v rest, v = map Some (table i) ++ rest -> (32 * n <= length rest)%nat ->
    exists v', fill_loop n i v (decode_words (V i)) = Ret (map Some (table (i + n)) ++ v', decode_words (V (i + n))).
  Proof.
    induction n as [|n IH]; intros i v rest -> Hr; cbn [fill_loop].
    - rewrite Nat.add_0_r. eauto.
    - unfold vwrite. rewrite app_length, map_length, table_length, (decode_length 32) by apply V_length.
      destruct (Nat.leb_spec (i * 32 + 32) (32 * i + length rest)); [|lia]. cbn [bind].
      assert (L : length (map Some (table i)) = (i * 32)%nat) by (rewrite map_length, table_length; lia).
      rewrite firstn_app, L, Nat.sub_diag, firstn_O, app_nil_r, firstn_all2 by lia.
      rewrite skipn_app, L. rewrite (skipn_all2 (map Some (table i))) by lia. cbn [app]. rewrite app_assoc, <- map_app, <- table_S.
      destruct (mix_eq (V i) (V_length i)) as [E _]. rewrite E. cbn [bind]. replace (block_mix 1 (V i)) with (V (S i)) by (unfold V, romix_V; now rewrite iter_S).
      replace (i + S n)%nat with (S i + n)%nat by lia. eapply IH; [reflexivity|]. rewrite skipn_length. lia.
  Qed.

  Lemma vxor_eq x : forall y rest, length x = length y -> vxor x (map Some y ++ rest) = Ret (map2 N.lxor x y).
  Proof.
    induction x as [|a x IH]; intros [|b y] rest H; try discriminate; [destruct rest; reflexivity|]. cbn [map app vxor map2]. rewrite IH by (injection H; auto). reflexivity.
  Qed.

  Lemma table_at n j : (j < n)%nat -> exists rest, skipn (32 * j) (table n) = decode_words (V j) ++ rest.
  Proof.
    intros H. unfold table. replace n with (j + S (n - S j))%nat by lia. rewrite seq_app, flat_map_app. fold (table j). cbn [seq flat_map Nat.add].
    rewrite skipn_app, table_length, Nat.sub_diag, skipn_O. rewrite skipn_all2 by (rewrite table_length; lia). cbn [app]. eauto.
  Qed.

  Lemma le_integer_app a : forall b, le_integer (a ++ b) = (le_integer a + 256 ^ N.of_nat (length a) * le_integer b)%N.
  Proof.
    induction a as [|x a IH]; intros b; cbn [app le_integer length].
    - change (256 ^ N.of_nat 0)%N with 1%N. lia.
    - rewrite IH, Nat2N.inj_succ, N.pow_succ_r by lia. lia.
  Qed.

  Lemma index_eq x : length x = 128%nat ->
    exists w, nth_error (decode_words x) 16 = Some w /\ N.land w 1023 = (integerify 1 x mod 1024)%N.
  Proof.
    intros H. destruct (split128 x H) as (b0 & b1 & -> & H0 & H1). rewrite (decode_app 16) by exact H0. rewrite nth_error_app2 by (rewrite (decode_length 16) by exact H0; lia).
    rewrite (decode_length 16) by exact H0. change (16 - 16)%nat with 0%nat. unfold integerify. rewrite chunks2 by auto. cbn [last].
    destruct (four 15 b1 H1) as (p & q & r & s & b' & -> & _). cbn [decode_words nth_error]. eexists. split; [reflexivity|].
    change 1023%N with (N.ones 10). rewrite N.land_ones. change (2^10)%N with 1024%N. rewrite le32dec_eq. change (p :: q :: r :: s :: b') with ([p; q; r; s] ++ b'). rewrite le_integer_app.
    cbn [length]. change (256 ^ N.of_nat 4)%N with (4194304 * 1024)%N. replace (4194304 * 1024 * le_integer b')%N with ((4194304 * le_integer b') * 1024)%N by lia.
    now rewrite N.mod_add.
  Qed.

  Lemma step_eq x : romix_step 1 1024 B x = block_mix 1 (xor_bytes x (V (N.to_nat (integerify 1 x mod 1024)))).
  Proof. unfold romix_step. change (N.of_nat 1024) with 1024%N. reflexivity. Qed.

  Lemma mix_loop_eq tab (Htab : forall j, (j < 1024)%nat -> exists rest, skipn (32 * j) tab = map Some (decode_words (V j)) ++ rest)
    (m : nat -> bytes -> bytes) (Hm : forall n x, m (S n) x = m n (romix_step 1 1024 B x)) (Hm0 : forall x, m O x = x) n :
    forall x, length x = 128%nat ->
    mix_loop n tab (decode_words x) = Ret (decode_words (m n x)) /\ length (m n x) = 128%nat.
  Proof.
    induction n as [|n IH]; intros x Hx; cbn [mix_loop]; [rewrite Hm0; auto|]. rewrite Hm.
    destruct (index_eq x Hx) as (w & Ew & Ej). rewrite Ew, Ej, step_eq.
    assert (Hj : (N.to_nat (integerify 1 x mod 1024) < 1024)%nat) by (pose proof (N.mod_lt (integerify 1 x) 1024 ltac:(lia)); lia).
    replace (N.to_nat (32 * (integerify 1 x mod 1024))) with (32 * N.to_nat (integerify 1 x mod 1024))%nat by lia.
    generalize dependent (N.to_nat (integerify 1 x mod 1024)). intros j Hj.
    destruct (Htab j Hj) as (t & Et). rewrite Et.
    rewrite vxor_eq by (rewrite !(decode_length 32); auto; apply V_length). cbn [bind]. rewrite <- (decode_xor 32); [|exact Hx|apply V_length].
    assert (Hl : length (xor_bytes x (V j)) = 128%nat) by (rewrite xor_bytes_length, Hx, V_length; reflexivity).
    destruct (mix_eq _ Hl) as [E HL]. rewrite E. cbn [bind]. apply IH. exact HL.
  Qed.

  Lemma table_ok n rest j : (j < n)%nat -> exists rest', skipn (32 * j) (map Some (table n) ++ rest) = map Some (decode_words (V j)) ++ rest'.
  Proof.
    intros Hj. rewrite skipn_app. rewrite map_length, table_length. replace (32 * j - 32 * n)%nat with 0%nat by lia. rewrite skipn_O.
    destruct (table_at n j Hj) as (t & Et). rewrite skipn_map, Et, map_app, <- app_assoc. eauto.
  Qed.

  Lemma romix_eq v : (1024 * 32 <= length v)%nat ->
    exists v' x, fill_loop 1024 0 v (decode_words B) = Ret (v', x) /\ mix_loop 1024 v' x = Ret (decode_words (romix 1 B 1024)) /\ length (romix 1 B 1024) = 128%nat.
  Proof.
    intros Hv. destruct (fill_eq 1024 0 v v eq_refl ltac:(lia)) as [v' E]. change (V 0) with B in E. change (0 + 1024)%nat with 1024%nat in E. do 2 eexists. split; [exact E|].
    unfold romix. apply (mix_loop_eq _ (fun j Hj => table_ok 1024 v' j Hj) (fun n x => iter n (romix_step 1 1024 B) x)).
    - intros n x. apply iter_next.
    - intros x. apply iter_zero.
    - apply V_length.
  Qed.
End Mix.

(** ** The scratchpad *)

Lemma aligned_eq a : (a + 63 < 2^64)%N -> aligned a = (64 * ((a + 63) / 64))%N.
Proof.
  intros H. change (2^64)%N with 18446744073709551616%N in H. unfold aligned, u64. rewrite N.mod_small by exact H.
  set (y := (a + 63)%N) in *. apply N.bits_inj. intros n. rewrite N.land_spec, N.mul_comm. change 64%N with (2^6)%N.
  destruct (N.lt_ge_cases n 6) as [Hn|Hn].
  - rewrite N.mul_pow2_bits_low by exact Hn. replace (N.testbit (18446744073709551615 - 63) n) with false; [apply andb_false_r|].
    assert (n = 0 \/ n = 1 \/ n = 2 \/ n = 3 \/ n = 4 \/ n = 5)%N by lia. repeat (destruct H0 as [->|H0]; [reflexivity|]). now subst.
  - rewrite N.mul_pow2_bits_high, N.div_pow2_bits by exact Hn. replace (n - 6 + 6)%N with n by lia.
    destruct (N.lt_ge_cases n 64) as [H64|H64].
    + replace (18446744073709551615 - 63)%N with (N.ones 58 * 2^6)%N by reflexivity. rewrite N.mul_pow2_bits_high by exact Hn. rewrite N.ones_spec_low by lia. apply andb_true_r.
    + rewrite (small_bits y 64) by auto. reflexivity.
Qed.

Lemma aligned_bounds a : (a + 63 < 2^64)%N -> (a <= aligned a <= a + 63)%N /\ (aligned a mod 64 = 0)%N.
Proof.
  intros H. rewrite aligned_eq by exact H. pose proof (N.div_mod (a + 63) 64 ltac:(lia)). pose proof (N.mod_lt (a + 63) 64 ltac:(lia)). clear H.
  remember ((a + 63) / 64)%N as d. remember ((a + 63) mod 64)%N as m. clear Heqd Heqm. split; [lia|].
  rewrite N.mul_comm. now apply N.mod_mul.
Qed.

Lemma scratch_enough a : (a + 63 < 2^64)%N -> (1024 * 32 <= scratch_words a)%nat.
Proof.
  intros H. destruct (aligned_bounds a H) as [Hb _]. unfold scratch_words.
  assert (32768 <= (a + (131072 + 63) - aligned a) / 4)%N by (apply N.div_le_lower_bound; lia). lia.
Qed.

(** ** scrypt *)

Lemma scrypt_eq sha (Hsha : forall m, length (sha m) = 32%nat) a inp : (a + 63 < 2^64)%N -> (80 <= length inp)%nat ->
  scrypt_1024_1_1_256 sha a inp = Ret (scrypt sha (firstn 80 inp) (firstn 80 inp) 1024 1 1 32).
Proof.
  intros Ha Hi. unfold scrypt_1024_1_1_256. destruct (Nat.ltb_spec (length inp) 80); [lia|]. set (p := firstn 80 inp).
  change 128%N with (N.of_nat 128). rewrite (pbkdf2_eq sha Hsha p p 1 _ 128) by (rewrite ?repeat_length; lia). cbn [bind]. rewrite (skipn_all2 (repeat x00 128)) by (rewrite repeat_length; lia). rewrite app_nil_r.
  unfold scrypt. change (1 * 128 * 1)%nat with 128%nat. change (128 * 1)%nat with 128%nat. change (N.to_nat 1) with 1%nat. cbn [chunks flat_map]. rewrite app_nil_r.
  set (B := pbkdf2 sha p p 1 128). assert (HB : length B = 128%nat) by (apply pbkdf2_length; exact Hsha). rewrite (firstn_all2 B) by lia.
  destruct (romix_eq B HB (repeat None (scratch_words a))) as (v & x & E1 & E & L); [rewrite repeat_length; now apply scratch_enough|].
  clearbody B. rewrite E1. cbn [bind]. rewrite E. cbn [bind].
  rewrite (encode_decode 32) by exact L. change 32%N with (N.of_nat 32). rewrite (pbkdf2_eq sha Hsha p _ 1 _ 32) by (rewrite ?repeat_length; lia).
  rewrite (skipn_all2 (repeat x00 32)) by (rewrite repeat_length; lia). rewrite app_nil_r. reflexivity.
Qed.

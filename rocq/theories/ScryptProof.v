(** Byte order, HMAC and PBKDF2. *)
From Verif Require Import Base ScryptSpec ScryptModel.
From Coq Require Import List NArith ZArith Bool Lia Arith.
From Coq.Init Require Import Byte.
From Coq.Strings Require Import Byte.
Import ListNotations.

(** ** Bytes *)

Lemma byte_of_N_mod n : byte_of_N (n mod 256) = byte_of_N n.
Proof. unfold byte_of_N. now rewrite N.mod_mod by lia. Qed.

Lemma low_byte_eq x : low_byte x = byte_of_N x.
Proof. unfold low_byte. change 255%N with (N.ones 8). rewrite N.land_ones. apply byte_of_N_mod. Qed.

Lemma shiftr_256 x k : N.shiftr x (8 * k) = (x / 256 ^ k)%N.
Proof. rewrite N.shiftr_div_pow2, N.pow_mul_r. reflexivity. Qed.

Lemma le32enc_eq x : le32enc x = le_octets 4 x.
Proof.
  unfold le32enc. rewrite !low_byte_eq. change 8%N with (8 * 1)%N at 1. change 16%N with (8 * 2)%N. change 24%N with (8 * 3)%N. rewrite !shiftr_256.
  cbn [le_octets]. rewrite !N.div_div by lia. reflexivity.
Qed.

Lemma be32enc_eq x : be32enc x = be_octets 4 x.
Proof. unfold be_octets. rewrite <- le32enc_eq. reflexivity. Qed.

Lemma le_integer_lt b : (le_integer b < 256 ^ N.of_nat (length b))%N.
Proof.
  induction b as [|x b IH]; cbn [le_integer length]; [reflexivity|]. rewrite Nat2N.inj_succ, N.pow_succ_r by lia. pose proof (bval_lt x). lia.
Qed.

Lemma le32dec_eq p0 p1 p2 p3 : le32dec p0 p1 p2 p3 = le_integer [p0; p1; p2; p3].
Proof.
  unfold le32dec, add32, shl, u32. rewrite !N.shiftl_mul_pow2. cbn [le_integer].
  pose proof (bval_lt p0). pose proof (bval_lt p1). pose proof (bval_lt p2). pose proof (bval_lt p3).
  change (2 ^ 8)%N with 256%N. change (2 ^ 16)%N with 65536%N. change (2 ^ 24)%N with 16777216%N.
  change 4294967296%N with (2^32)%N. change (2^32)%N with 4294967296%N.
  rewrite (N.mod_small (bval p1 * 256)), (N.mod_small (bval p2 * 65536)), (N.mod_small (bval p3 * 16777216)) by lia.
  rewrite (N.mod_small (bval p0 + bval p1 * 256)) by lia. rewrite (N.mod_small (bval p0 + bval p1 * 256 + _)) by lia. rewrite N.mod_small by lia. lia.
Qed.

Lemma be32dec_eq p0 p1 p2 p3 : be32dec p0 p1 p2 p3 = be_integer [p0; p1; p2; p3].
Proof. unfold be_integer. cbn [rev app]. rewrite <- le32dec_eq. reflexivity. Qed.

Lemma le_octets_length n x : length (le_octets n x) = n.
Proof. revert x. induction n as [|n IH]; intros x; cbn [le_octets length]; auto. Qed.

Lemma le_integer_octets n : forall x, (x < 256 ^ N.of_nat n)%N -> le_integer (le_octets n x) = x.
Proof.
  induction n as [|n IH]; intros x Hx; cbn [le_octets le_integer]; [lia|].
  rewrite bval_byte_of_N. rewrite IH.
  - pose proof (N.div_mod x 256 ltac:(lia)). lia.
  - rewrite Nat2N.inj_succ, N.pow_succ_r in Hx by lia. apply N.div_lt_upper_bound; lia.
Qed.

Lemma le_octets_integer b : le_octets (length b) (le_integer b) = b.
Proof.
  induction b as [|x b IH]; cbn [le_octets le_integer length]; auto. pose proof (bval_lt x). f_equal.
  - apply bval_inj. rewrite bval_byte_of_N, N.mul_comm, N.mod_add, N.mod_small; lia.
  - rewrite N.mul_comm, N.div_add, N.div_small by lia. exact IH.
Qed.

Lemma byte_order :
  (forall x, (x < 2^32)%N -> (match le32enc x with [a; b; c; d] => le32dec a b c d | _ => 0%N end) = x /\ (match be32enc x with [a; b; c; d] => be32dec a b c d | _ => 0%N end) = x) /\
  (forall a b c d, le32enc (le32dec a b c d) = [a; b; c; d] /\ be32enc (be32dec a b c d) = [a; b; c; d]).
Proof.
  split.
  - intros x Hx. assert (E : le_integer (le_octets 4 x) = x) by (apply le_integer_octets; exact Hx). split.
    + rewrite le32enc_eq. cbn [le_octets]. rewrite le32dec_eq. exact E.
    + rewrite be32enc_eq. unfold be_octets. cbn [le_octets rev app]. rewrite be32dec_eq. unfold be_integer. cbn [rev app]. exact E.
  - intros a b c d. split.
    + rewrite le32enc_eq, le32dec_eq. apply (le_octets_integer [a; b; c; d]).
    + rewrite be32enc_eq, be32dec_eq. unfold be_octets, be_integer. cbn [rev app]. pose proof (le_octets_integer [d; c; b; a]) as E. cbn [length] in E. rewrite E. reflexivity.
Qed.

(** ** HMAC *)

Lemma bxor_eq a b : bxor a b = xorb1 a b.
Proof. reflexivity. Qed.
Lemma xorb1_comm a b : xorb1 a b = xorb1 b a.
Proof. unfold xorb1. now rewrite N.lxor_comm. Qed.
Lemma xorb1_0_r a : xorb1 a x00 = a.
Proof. unfold xorb1. change (bval x00) with 0%N. rewrite N.lxor_0_r. apply byte_of_N_bval. Qed.
Lemma xor_bytes_comm a : forall b, xor_bytes a b = xor_bytes b a.
Proof. induction a as [|x a IH]; intros [|y b]; cbn [xor_bytes]; auto. now rewrite xorb1_comm, IH. Qed.
Lemma xor_bytes_length a : forall b, length (xor_bytes a b) = Nat.min (length a) (length b).
Proof. induction a as [|x a IH]; intros [|y b]; cbn [xor_bytes length]; auto. now rewrite IH. Qed.

Lemma xor_into_eq pad : forall k, (length k <= length pad)%nat ->
  xor_into pad k = Ret (xor_bytes (k ++ repeat x00 (length pad - length k)) pad).
Proof.
  induction pad as [|x pad IH]; intros [|y k] H; cbn [length] in H; try lia.
  - reflexivity.
  - cbn [xor_into length Nat.sub app]. cbn [repeat xor_bytes]. specialize (IH [] ltac:(cbn; lia)).
    assert (E : xor_into pad [] = Ret pad) by (destruct pad; reflexivity). rewrite E in IH. injection IH as IH. cbn [app length] in IH. rewrite Nat.sub_0_r in IH.
    rewrite <- IH. f_equal. f_equal. rewrite xorb1_comm. symmetry. apply xorb1_0_r.
  - cbn [xor_into length Nat.sub app xor_bytes]. rewrite IH by lia. cbn [bind]. now rewrite bxor_eq, xorb1_comm.
Qed.

Section Hash.
  Variable sha : bytes -> bytes.
  Hypothesis sha_length : forall m, length (sha m) = 32%nat.

  Lemma firstn_sha m : firstn 32 (sha m) = sha m.
  Proof. apply firstn_all2. rewrite sha_length. lia. Qed.

  Lemma hmac_init_eq k : hmac_init sha k =
    Ret (mkH (xor_bytes (hmac_key sha k) (repeat x36 64)) (xor_bytes (hmac_key sha k) (repeat x5c 64))).
  Proof.
    unfold hmac_init, hmac_key. rewrite firstn_sha. set (k' := if Nat.ltb 64 (length k) then sha k else k).
    assert (Hk : (length k' <= 64)%nat). { unfold k'. destruct (Nat.ltb_spec 64 (length k)); [rewrite sha_length; lia|lia]. }
    rewrite !xor_into_eq by (rewrite repeat_length; exact Hk). cbn [bind]. rewrite !repeat_length. reflexivity.
  Qed.

  Lemma hmac_eq k m : (c <- hmac_init sha k ;; Ret (hmac_final sha (hmac_update c m))) = Ret (hmac sha k m).
  Proof. rewrite hmac_init_eq. cbn [bind]. unfold hmac_final, hmac_update. cbn [ictx octx]. now rewrite firstn_sha. Qed.

  Lemma hmac_eq' k ps m : hmac_init sha k = Ret ps -> hmac_final sha (hmac_update ps m) = hmac sha k m.
  Proof. intros H. pose proof (hmac_eq k m) as E. rewrite H in E. cbn [bind] in E. congruence. Qed.

  Lemma hmac_pieces k l : (c <- hmac_init sha k ;; Ret (hmac_final sha (fold_left hmac_update l c))) = Ret (hmac sha k (concat l)).
  Proof.
    assert (H : forall l c, fold_left hmac_update l c = hmac_update c (concat l)).
    { clear l. induction l as [|x l IH]; intros c; cbn [fold_left concat].
      - destruct c as [i o]. unfold hmac_update. cbn [ictx octx]. now rewrite app_nil_r.
      - rewrite IH. unfold hmac_update. cbn [ictx octx]. now rewrite app_assoc. }
    rewrite <- hmac_eq. destruct (hmac_init sha k); cbn [bind]; auto. now rewrite H.
  Qed.

  Lemma hmac_length k m : length (hmac sha k m) = 32%nat.
  Proof. apply sha_length. Qed.

  (** ** PBKDF2 *)

  Lemma xor_all_eq t : forall u, xor_all t u = xor_bytes t u.
  Proof. reflexivity. Qed.

  Lemma pbkdf2_inner_eq p s i n : forall k, pbkdf2_inner sha p n (pbkdf2_F sha p s k i) (pbkdf2_U sha p s i k) = Ret (pbkdf2_F sha p s (n + k) i).
  Proof.
    induction n as [|n IH]; intros k; cbn [pbkdf2_inner Nat.add]; auto.
    pose proof (hmac_eq p (pbkdf2_U sha p s i k)) as H. destruct (hmac_init sha p) as [ps| | | |]; try discriminate. cbn [bind] in H |- *. injection H as H. rewrite H.
    rewrite xor_all_eq. change (hmac sha p (pbkdf2_U sha p s i k)) with (pbkdf2_U sha p s i (S k)).
    change (xor_bytes (pbkdf2_F sha p s k i) (pbkdf2_U sha p s i (S k))) with (pbkdf2_F sha p s (S k) i). rewrite IH. now replace (n + S k)%nat with (S (n + k)) by lia.
  Qed.

  Lemma pbkdf2_F_length p s c i : length (pbkdf2_F sha p s c i) = 32%nat.
  Proof.
    induction c as [|c IH]; cbn [pbkdf2_F]; [apply hmac_length|]. rewrite xor_bytes_length, IH. cbn [pbkdf2_U]. now rewrite hmac_length.
  Qed.

  Lemma pbkdf2_blocks_eq p s c (Hc : (c < 18446744073709551615)%N) ps : hmac_init sha p = Ret ps ->
    forall n fuel i dk P rest,
      (n < fuel)%nat -> length P = (32 * i)%nat -> n = ((dk - 32 * i + 31) / 32)%nat -> (32 * i <= dk + 31)%nat ->
      (N.of_nat dk <= 32 * (2^32 - 1))%N -> (dk <= length P + length rest)%nat ->
      pbkdf2_blocks sha fuel (hmac_update ps s) p c (N.of_nat dk) (N.of_nat i) (P ++ rest) =
      Ret (P ++ firstn (dk - 32 * i) (flat_map (fun i => pbkdf2_F sha p s (N.to_nat c - 1) (N.of_nat i)) (seq (S i) n)) ++ skipn (dk - 32 * i) rest).
  Proof.
    intros Hps. change (32 * (2^32 - 1))%N with 137438953440%N. induction n as [|n IH]; intros fuel i dk P rest Hf HP Hn Hi Hd Hb; (destruct fuel as [|fuel]; [lia|]); cbn [pbkdf2_blocks].
    - assert (H0 : (dk - 32 * i = 0)%nat). { destruct (dk - 32 * i)%nat eqn:E; auto. exfalso. assert (1 <= (S n + 31) / 32)%nat by (apply Nat.div_le_lower_bound; lia). lia. }
      unfold u64. rewrite N.mod_small by lia. destruct (N.ltb_spec (N.of_nat i * 32) (N.of_nat dk)); [lia|]. rewrite H0. cbn [firstn skipn app]. reflexivity.
    - assert (Hlt : (32 * i < dk)%nat). { destruct (Nat.le_gt_cases dk (32 * i)) as [H|H]; auto. exfalso. replace (dk - 32 * i)%nat with 0%nat in Hn by lia. cbn in Hn. discriminate. }
      assert (Hnext : n = ((dk - 32 * S i + 31) / 32)%nat).
      { destruct (Nat.le_gt_cases (32 * S i) dk) as [H|H].
        - replace (dk - 32 * i + 31)%nat with ((dk - 32 * S i + 31) + 1 * 32)%nat in Hn by lia. rewrite Nat.div_add in Hn by lia. lia.
        - replace (dk - 32 * S i)%nat with 0%nat by lia. cbn. assert ((dk - 32 * i + 31) / 32 < 2)%nat by (apply Nat.div_lt_upper_bound; lia). lia. }
      unfold u64. rewrite !(N.mod_small (N.of_nat i * 32)) by lia. destruct (N.ltb_spec (N.of_nat i * 32) (N.of_nat dk)); [|lia].
      assert (Ht : hmac_final sha (hmac_update (hmac_update ps s) (be32enc (u32 (N.of_nat i + 1)))) = pbkdf2_F sha p s 0 (N.of_nat (S i))).
      { cbn [pbkdf2_F pbkdf2_U]. rewrite <- (hmac_eq' p ps _ Hps). unfold u32. rewrite N.mod_small by lia. replace (N.of_nat i + 1)%N with (N.of_nat (S i)) by lia. rewrite be32enc_eq.
        unfold hmac_update. cbn [ictx octx]. now rewrite app_assoc. }
      rewrite Ht. destruct (N.ltb_spec c 18446744073709551615); [|lia].
      change (pbkdf2_F sha p s 0 (N.of_nat (S i))) with (pbkdf2_U sha p s (N.of_nat (S i)) 0) at 2. rewrite pbkdf2_inner_eq. cbn [bind]. rewrite Nat.add_0_r.
      replace (N.to_nat (c - 1)) with (N.to_nat c - 1)%nat by lia.
      set (F := pbkdf2_F sha p s (N.to_nat c - 1) (N.of_nat (S i))). assert (HF : length F = 32%nat) by apply pbkdf2_F_length.
      set (clen := if (32 <? _)%N then 32%N else _).
      assert (Hcl : N.to_nat clen = Nat.min 32 (dk - 32 * i)).
      { unfold clen, sub64, u64. rewrite (N.mod_small (N.of_nat i * 32)) by lia.
        replace (N.of_nat dk + 18446744073709551616 - N.of_nat i * 32)%N with ((N.of_nat dk - N.of_nat i * 32) + 1 * 18446744073709551616)%N by lia.
        rewrite N.mod_add, N.mod_small by lia. destruct (N.ltb_spec 32 (N.of_nat dk - N.of_nat i * 32)); lia. }
      rewrite Hcl. replace (N.to_nat (N.of_nat i * 32)) with (length P) by lia.
      assert (Hlen : length (firstn (Nat.min 32 (dk - 32 * i)) F) = Nat.min 32 (dk - 32 * i)) by (rewrite firstn_length; lia).
      unfold write_at. rewrite Hlen, app_length.
      destruct (Nat.leb_spec (length P + Nat.min 32 (dk - 32 * i)) (length P + length rest)); [|lia]. cbn [bind].
      replace (firstn (length P) (P ++ rest)) with P by (rewrite firstn_app, Nat.sub_diag, firstn_all; cbn; now rewrite app_nil_r).
      rewrite skipn_app, (skipn_all2 P) by lia. cbn [app]. replace (length P + Nat.min 32 (dk - 32 * i) - length P)%nat with (Nat.min 32 (dk - 32 * i)) by lia.
      rewrite (N.mod_small (N.of_nat i + 1)) by lia. replace (N.of_nat i + 1)%N with (N.of_nat (S i)) by lia.
      destruct (Nat.le_gt_cases (32 * S i) dk) as [Hful|Hpar].
      + replace (Nat.min 32 (dk - 32 * i)) with 32%nat in * by lia. rewrite (firstn_all2 F) by lia. rewrite app_assoc.
        rewrite IH; auto; try lia.
        * cbn [seq flat_map]. fold F. rewrite <- !app_assoc. f_equal. f_equal.
          rewrite firstn_app, HF. rewrite (firstn_all2 F) by lia. rewrite <- app_assoc. f_equal. replace (dk - 32 * i - 32)%nat with (dk - 32 * S i)%nat by lia. f_equal.
          rewrite <- (firstn_skipn 32 rest) at 2. rewrite skipn_app, firstn_length. rewrite (skipn_all2 (firstn 32 rest)) by (rewrite firstn_length; lia). cbn [app]. f_equal. lia.
        * rewrite app_length. lia.
        * rewrite app_length, skipn_length. lia.
      + assert (Hn0 : n = 0%nat) by (rewrite Hnext; replace (dk - 32 * S i)%nat with 0%nat by lia; reflexivity). subst n.
        replace (Nat.min 32 (dk - 32 * i)) with (dk - 32 * i)%nat in * by lia. rewrite app_assoc.
        destruct fuel as [|fuel]; [lia|]. cbn [pbkdf2_blocks]. unfold u64. rewrite !(N.mod_small (N.of_nat (S i) * 32)) by lia.
        destruct (N.ltb_spec (N.of_nat (S i) * 32) (N.of_nat dk)); [lia|]. cbn [seq flat_map]. fold F. rewrite Hn0. cbn [seq flat_map]. rewrite app_nil_r, <- app_assoc. reflexivity.
  Qed.

  Lemma pbkdf2_eq p s c buf dk : (c < 2^64 - 1)%N -> (N.of_nat dk <= 32 * (2^32 - 1))%N -> (dk <= length buf)%nat ->
    PBKDF2_SHA256 sha p s c buf (N.of_nat dk) = Ret (pbkdf2 sha p s (N.to_nat c) dk ++ skipn dk buf).
  Proof.
    intros Hc Hd Hb. unfold PBKDF2_SHA256. destruct (hmac_init sha p) as [ps| | | |] eqn:E; try (rewrite hmac_init_eq in E; discriminate). cbn [bind].
    assert (Hdiv : N.to_nat (N.of_nat dk / 32 + 1) = (dk / 32 + 1)%nat) by (rewrite N2Nat.inj_add, N2Nat.inj_div, Nat2N.id; reflexivity).
    rewrite Hdiv. change (2^64 - 1)%N with 18446744073709551615%N in Hc.
    pose proof (pbkdf2_blocks_eq p s c Hc ps E ((dk + 31) / 32) (S (dk / 32 + 1)) 0 dk [] buf) as H. cbn [app length Nat.mul] in H. rewrite !Nat.sub_0_r in H.
    change (N.of_nat 0) with 0%N in H. rewrite H; auto; try lia.
    assert ((dk + 31) / 32 <= (dk + 1 * 32) / 32)%nat by (apply Nat.div_le_mono; lia). rewrite Nat.div_add in H0 by lia. lia.
  Qed.

  Lemma flat_map_F_length p s c l : length (flat_map (fun i => pbkdf2_F sha p s c (N.of_nat i)) l) = (32 * length l)%nat.
  Proof. induction l as [|i l IH]; cbn [flat_map length]; auto. rewrite app_length, pbkdf2_F_length, IH. lia. Qed.

  Lemma pbkdf2_length p s c dk : length (pbkdf2 sha p s c dk) = dk.
  Proof.
    unfold pbkdf2. rewrite firstn_length, flat_map_F_length, seq_length. pose proof (Nat.div_mod (dk + 31) 32 ltac:(lia)). pose proof (Nat.mod_upper_bound (dk + 31) 32 ltac:(lia)). lia.
  Qed.
End Hash.

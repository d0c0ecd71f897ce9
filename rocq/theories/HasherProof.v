(** Proofs about the string hashes. *)
From Verif Require Import Base HasherModel HasherSpec.
From Coq Require Import List NArith ZArith Lia Bool.
From Coq.Init Require Import Byte.
Import ListNotations.

(** ** Polynomial hashes *)
Section Poly.
  Local Open Scope Z_scope.
  Notation M := 4294967296.

  Lemma u32_Z n : Z.of_N (u32 n) = Z.of_N n mod M.
  Proof. unfold u32. rewrite N2Z.inj_mod. reflexivity. Qed.

  Lemma ch32_Z c : Z.of_N (ch32 c) = schar c mod M.
  Proof. unfold ch32. rewrite Z2N.id; auto. apply Z.mod_pos_bound. lia. Qed.

  Lemma sub32_Z a b : Z.of_N (sub32 a b) = (Z.of_N a - Z.of_N b) mod M.
  Proof.
    unfold sub32. rewrite u32_Z.
    assert ((u32 b < 4294967296)%N) by (apply N.mod_lt; lia).
    rewrite N2Z.inj_sub by lia. rewrite N2Z.inj_add, u32_Z. change (Z.of_N 4294967296) with M.
    replace (Z.of_N a + M - Z.of_N b mod M) with (Z.of_N a - Z.of_N b mod M + 1 * M) by lia.
    rewrite Z.mod_add by lia. rewrite Zminus_mod_idemp_r. reflexivity.
  Qed.

  Lemma shl32_Z a n : Z.of_N (shl32 a n) = (Z.of_N a * 2 ^ Z.of_N n) mod M.
  Proof. unfold shl32. rewrite u32_Z, N.shiftl_mul_pow2, N2Z.inj_mul, N2Z.inj_pow. reflexivity. Qed.

  Lemma poly_fold (step : N -> byte -> N) b :
    (forall h c, Z.of_N (step h c) = (Z.of_N h * b + schar c) mod M) ->
    forall s h, Z.of_N h = Z.of_N h mod M ->
    Z.of_N (fold_left step s h) = (Z.of_N h * b ^ Z.of_nat (length s) + poly b s) mod M.
  Proof.
    intros Hs. induction s as [|c s IH]; intros h Hh.
    - cbn. rewrite Z.mul_1_r, Z.add_0_r. auto.
    - cbn [fold_left]. rewrite IH by (rewrite Hs; rewrite Z.mod_mod; lia).
      rewrite Hs. rewrite <- Zplus_mod_idemp_l, Zmult_mod_idemp_l, Zplus_mod_idemp_l.
      cbn [poly length]. rewrite Nat2Z.inj_succ, Z.pow_succ_r by lia. f_equal. ring.
  Qed.

  Ltac modsolve :=
    rewrite ?u32_Z, ?sub32_Z, ?N2Z.inj_add, ?N2Z.inj_mul, ?shl32_Z, ?ch32_Z, ?u32_Z, ?N2Z.inj_add, ?N2Z.inj_mul, ?shl32_Z, ?ch32_Z, ?u32_Z, ?N2Z.inj_add, ?N2Z.inj_mul, ?shl32_Z, ?ch32_Z;
    repeat (rewrite ?Zplus_mod_idemp_l, ?Zplus_mod_idemp_r, ?Zminus_mod_idemp_l, ?Zminus_mod_idemp_r, ?Zmult_mod_idemp_l, ?Zmult_mod_idemp_r).

  Lemma sdbm_step_Z h c : Z.of_N (sdbm_step h c) = (Z.of_N h * 65599 + schar c) mod M.
  Proof.
    unfold sdbm_step. modsolve. rewrite <- Zminus_mod_idemp_l.
    repeat rewrite ?Zplus_mod_idemp_l, ?Zplus_mod_idemp_r.
    replace (schar c mod M + (Z.of_N h * 2 ^ Z.of_N 6) mod M + Z.of_N h * 2 ^ Z.of_N 16)
      with (schar c mod M + ((Z.of_N h * 2 ^ Z.of_N 6) mod M + Z.of_N h * 2 ^ Z.of_N 16)) by ring.
    rewrite Zplus_mod_idemp_l.
    replace (schar c + ((Z.of_N h * 2 ^ Z.of_N 6) mod M + Z.of_N h * 2 ^ Z.of_N 16))
      with ((Z.of_N h * 2 ^ Z.of_N 6) mod M + (schar c + Z.of_N h * 2 ^ Z.of_N 16)) by ring.
    rewrite Zplus_mod_idemp_l, Zminus_mod_idemp_l. f_equal. change (2 ^ Z.of_N 6) with 64. change (2 ^ Z.of_N 16) with 65536. ring.
  Qed.

  Lemma bkdr_step_Z h c : Z.of_N (bkdr_step h c) = (Z.of_N h * 131 + schar c) mod M.
  Proof. unfold bkdr_step. modsolve. reflexivity. Qed.

  Lemma djb_step_Z h c : Z.of_N (djb_step h c) = (Z.of_N h * 33 + schar c) mod M.
  Proof.
    unfold djb_step. modsolve.
    replace ((Z.of_N h * 2 ^ Z.of_N 5) mod M + Z.of_N h + schar c)
      with ((Z.of_N h * 2 ^ Z.of_N 5) mod M + (Z.of_N h + schar c)) by ring.
    rewrite Zplus_mod_idemp_l. f_equal. change (2 ^ Z.of_N 5) with 32. ring.
  Qed.

  Lemma hash_SDBM_Z s : Z.of_N (hash_SDBM s) = poly 65599 s mod M.
  Proof. unfold hash_SDBM. rewrite (poly_fold _ 65599 sdbm_step_Z) by reflexivity. reflexivity. Qed.
  Lemma hash_BKDR_Z s : Z.of_N (hash_BKDR s) = poly 131 s mod M.
  Proof. unfold hash_BKDR. rewrite (poly_fold _ 131 bkdr_step_Z) by reflexivity. reflexivity. Qed.
  Lemma hash_DJB_Z s : Z.of_N (hash_DJB s) = (5381 * 33 ^ Z.of_nat (length s) + poly 33 s) mod M.
  Proof. unfold hash_DJB. rewrite (poly_fold _ 33 djb_step_Z) by reflexivity. reflexivity. Qed.

  Lemma rs_fold s : forall i a h, 0 <= i -> Z.of_N a = (63689 * 378551 ^ i) mod M -> Z.of_N h = Z.of_N h mod M ->
    Z.of_N (snd (fold_left rs_step s (a, h))) = (Z.of_N h * rs_prod i (length s) + rs_sum i s) mod M.
  Proof.
    induction s as [|c s IH]; intros i a h Hi Ha Hh.
    - cbn. rewrite Z.mul_1_r, Z.add_0_r. auto.
    - cbn [fold_left rs_step]. rewrite (IH (i + 1)); [|lia| |].
      + rewrite u32_Z, N2Z.inj_add, u32_Z, Zplus_mod_idemp_l, N2Z.inj_mul, ch32_Z, Ha. cbn [rs_prod rs_sum length].
        set (A := 63689 * 378551 ^ i). set (P := rs_prod (i + 1) (length s)).
        set (X := Z.of_N h * (A mod M) + schar c mod M).
        rewrite (Z.mod_eq X M) by lia.
        match goal with |- ?l mod _ = ?r mod _ =>
          replace l with (r + (- (X / M) * P - Z.of_N h * (A / M) * P - schar c / M * P) * M) end.
        * apply Z.mod_add. lia.
        * set (q := X / M). unfold X. rewrite (Z.mod_eq A M), (Z.mod_eq (schar c) M) by lia. ring.
      + modsolve. rewrite Ha, Zmult_mod_idemp_l. f_equal. rewrite Z.pow_add_r by lia. change (Z.of_N 378551) with 378551. ring.
      + rewrite u32_Z, Z.mod_mod; lia.
  Qed.

  Lemma hash_RS_Z s : Z.of_N (hash_RS s) = rs_sum 0 s mod M.
  Proof. unfold hash_RS. rewrite (rs_fold s 0); auto; lia. Qed.
End Poly.

(** ** Bit hashes *)
Section Bits.
  Local Open Scope N_scope.

  Lemma tb_u32 x i : N.testbit (u32 x) i = (i <? 32) && N.testbit x i.
  Proof.
    unfold u32. change 4294967296 with (2^32). destruct (N.ltb_spec i 32).
    - rewrite N.mod_pow2_bits_low; auto.
    - rewrite N.mod_pow2_bits_high; auto.
  Qed.

  Lemma tb_mod x i : N.testbit (x mod 2^32) i = (i <? 32) && N.testbit x i.
  Proof. apply tb_u32. Qed.

  Lemma tb_shl a n m : N.testbit (N.shiftl a n) m = (n <=? m) && N.testbit a (m - n).
  Proof.
    destruct (N.leb_spec n m).
    - rewrite N.shiftl_spec_high'; auto.
    - rewrite N.shiftl_spec_low; auto.
  Qed.

  Lemma tb_big x i : x < 2^32 -> 32 <= i -> N.testbit x i = false.
  Proof.
    intros Hx Hi. rewrite <- (N.mod_small x (2^32)) by auto. apply N.mod_pow2_bits_high. auto.
  Qed.

  Lemma lt32_bits x : (forall i, 32 <= i -> N.testbit x i = false) -> x < 2^32.
  Proof.
    intros H. assert (E : x = x mod 2^32).
    { apply N.bits_inj. intros i. rewrite tb_mod. destruct (N.ltb_spec i 32); auto. }
    rewrite E. apply N.mod_lt. discriminate.
  Qed.

  Lemma ch32_lt c : ch32 c < 2^32.
  Proof.
    unfold ch32. change (2^32) with (Z.to_N 4294967296). apply Z2N.inj_lt; try lia.
    - apply Z.mod_pos_bound. lia.
    - apply Z.mod_pos_bound. lia.
  Qed.

  Lemma lxor_lt a b : a < 2^32 -> b < 2^32 -> N.lxor a b < 2^32.
  Proof.
    intros Ha Hb. apply lt32_bits. intros i Hi. rewrite N.lxor_spec, !tb_big; auto.
  Qed.
  Lemma u32_lt a : u32 a < 2^32.
  Proof. apply N.mod_lt. discriminate. Qed.
  Lemma shiftr_lt a n : a < 2^32 -> N.shiftr a n < 2^32.
  Proof.
    intros Ha. apply lt32_bits. intros i Hi. rewrite N.shiftr_spec'. apply tb_big; auto. lia.
  Qed.
  Lemma land_lt a b : a < 2^32 -> N.land a b < 2^32.
  Proof. intros Ha. apply lt32_bits. intros i Hi. rewrite N.land_spec, tb_big; auto. Qed.
  Lemma lor_lt a b : a < 2^32 -> b < 2^32 -> N.lor a b < 2^32.
  Proof. intros Ha Hb. apply lt32_bits. intros i Hi. rewrite N.lor_spec, !tb_big; auto. Qed.

  (** BP *)
  Lemma bp_fold s : forall h, h < 2^32 ->
    fold_left bp_step s h = N.lxor (N.shiftl h (7 * N.of_nat (length s)) mod 2^32) (xor_shift 7 s).
  Proof.
    induction s as [|c s IH]; intros h Hh.
    - cbn [fold_left length xor_shift]. rewrite N.lxor_0_r. change (7 * N.of_nat 0) with 0.
      rewrite N.shiftl_0_r, N.mod_small; auto.
    - cbn [fold_left xor_shift length]. rewrite IH.
      + rewrite <- N.lxor_assoc. f_equal. unfold bp_step, ext32, ch32. apply N.bits_inj. intros i.
        rewrite N.lxor_spec, !tb_mod, !tb_shl, N.lxor_spec. unfold shl32. rewrite tb_u32, tb_shl.
        set (n := N.of_nat (length s)). replace (N.of_nat (S (length s))) with (n + 1) by lia.
        destruct (N.ltb_spec i 32); cbn [andb]; auto.
        destruct (N.leb_spec (7 * n) i); destruct (N.leb_spec (7 * (n + 1)) i); cbn [andb];
          try lia; destruct (N.ltb_spec (i - 7 * n) 32); try lia; cbn [andb]; auto.
        * destruct (N.leb_spec 7 (i - 7 * n)); [|lia]. cbn [andb].
          replace (i - 7 * n - 7) with (i - 7 * (n + 1)) by lia. auto.
        * destruct (N.leb_spec 7 (i - 7 * n)); [lia|]. cbn [andb]. auto.
      + apply lxor_lt; [apply u32_lt|apply ch32_lt].
  Qed.

  Lemma hash_BP_eq s : hash_BP s = xor_shift 7 s.
  Proof.
    unfold hash_BP. rewrite bp_fold by reflexivity. rewrite N.shiftl_0_l. change (0 mod 2^32) with 0. apply N.lxor_0_l.
  Qed.

  (** rotations *)
  Lemma tb_rot x n i : x < 2^32 ->
    N.testbit (rotl32 x n) i = (i <? 32) && N.testbit x ((i + 32 - n mod 32) mod 32).
  Proof.
    intros Hx. unfold rotl32. rewrite N.lor_spec, tb_mod, tb_shl, N.shiftr_spec'.
    assert (Hr : n mod 32 < 32) by (apply N.mod_lt; discriminate). set (r := n mod 32) in *.
    destruct (N.ltb_spec i 32) as [Hi|Hi]; cbn [andb].
    - destruct (N.leb_spec r i); cbn [andb].
      + assert (E : (i + 32 - r) mod 32 = i - r).
        { replace (i + 32 - r) with (i - r + 1 * 32) by lia. rewrite N.mod_add by discriminate. apply N.mod_small. lia. }
        rewrite E. destruct (N.eq_dec r 0) as [->|].
        * rewrite N.sub_0_r. rewrite N.sub_0_r. rewrite (tb_big x (i + 32)) by (auto; lia). rewrite orb_false_r. auto.
        * rewrite (tb_big x (i + (32 - r))) by (auto; lia). rewrite orb_false_r. auto.
      + rewrite N.mod_small by lia. replace (i + 32 - r) with (i + (32 - r)) by lia. auto.
    - rewrite tb_big by (auto; lia). auto.
  Qed.

  Lemma rot_lt x n : x < 2^32 -> rotl32 x n < 2^32.
  Proof.
    intros Hx. apply lt32_bits. intros i Hi. rewrite tb_rot; auto. destruct (N.ltb_spec i 32); auto. lia.
  Qed.

  Lemma rot_lxor x y n : x < 2^32 -> y < 2^32 -> rotl32 (N.lxor x y) n = N.lxor (rotl32 x n) (rotl32 y n).
  Proof.
    intros Hx Hy. apply N.bits_inj. intros i. rewrite N.lxor_spec, !tb_rot, N.lxor_spec; auto using lxor_lt.
    destruct (i <? 32); auto.
  Qed.

  Lemma rot_rot x a b : x < 2^32 -> rotl32 (rotl32 x a) b = rotl32 x (a + b).
  Proof.
    intros Hx. apply N.bits_inj. intros i. rewrite !tb_rot; auto using rot_lt.
    destruct (N.ltb_spec i 32) as [Hi|]; cbn [andb]; auto.
    assert (Ha : a mod 32 < 32) by (apply N.mod_lt; discriminate).
    assert (Hb : b mod 32 < 32) by (apply N.mod_lt; discriminate).
    assert (Hlt : (i + 32 - b mod 32) mod 32 < 32) by (apply N.mod_lt; discriminate).
    destruct (N.ltb_spec ((i + 32 - b mod 32) mod 32) 32); [|lia]. cbn [andb]. f_equal.
    rewrite (N.add_mod a b) by discriminate.
    set (a' := a mod 32) in *. set (b' := b mod 32) in *.
    assert (E1 : (i + 32 - b') mod 32 = if i <? b' then i + 32 - b' else i - b').
    { destruct (N.ltb_spec i b'); [apply N.mod_small; lia|].
      replace (i + 32 - b') with (i - b' + 1 * 32) by lia. rewrite N.mod_add by discriminate. apply N.mod_small; lia. }
    assert (E2 : (a' + b') mod 32 = if a' + b' <? 32 then a' + b' else a' + b' - 32).
    { destruct (N.ltb_spec (a' + b') 32); [apply N.mod_small; lia|].
      replace (a' + b') with (a' + b' - 32 + 1 * 32) at 1 by lia. rewrite N.mod_add by discriminate. apply N.mod_small; lia. }
    assert (E3 : forall j r, j < 32 -> r < 32 -> (j + 32 - r) mod 32 = if j <? r then j + 32 - r else j - r).
    { intros j r Hj Hr. destruct (N.ltb_spec j r); [apply N.mod_small; lia|].
      replace (j + 32 - r) with (j - r + 1 * 32) by lia. rewrite N.mod_add by discriminate. apply N.mod_small; lia. }
    rewrite E1, E2. rewrite E3; [|destruct (N.ltb_spec i b'); lia|auto].
    rewrite E3; [|auto|destruct (N.ltb_spec (a' + b') 32); lia].
    destruct (N.ltb_spec i b'); destruct (N.ltb_spec (a' + b') 32);
      repeat match goal with |- context [?x <? ?y] => destruct (N.ltb_spec x y) end; lia.
  Qed.

  Lemma dek_step_rot h c : h < 2^32 -> dek_step h c = N.lxor (rotl32 h 5) (ext32 c).
  Proof.
    intros Hh. unfold dek_step. f_equal. apply N.bits_inj. intros i.
    unfold rotl32. change (5 mod 32) with 5. unfold shl32. change (u32 (N.shiftl h 5)) with (N.shiftl h 5 mod 2^32).
    change (32 - 5) with 27. rewrite N.lxor_spec, N.lor_spec, tb_mod, tb_shl, N.shiftr_spec'.
    destruct (N.ltb_spec i 32); cbn [andb]; [|rewrite tb_big by (auto; lia); auto].
    destruct (N.leb_spec 5 i); cbn [andb]; [|destruct (N.testbit h (i + 27)); auto].
    rewrite (tb_big h (i + 27)) by (auto; lia). rewrite orb_false_r, xorb_false_r. auto.
  Qed.

  Lemma dek_fold s : forall h, h < 2^32 ->
    fold_left dek_step s h = N.lxor (rotl32 h (5 * N.of_nat (length s))) (xor_rot 5 s).
  Proof.
    induction s as [|c s IH]; intros h Hh.
    - cbn [fold_left length xor_rot]. rewrite N.lxor_0_r. change (5 * N.of_nat 0) with 0. apply N.bits_inj. intros i.
      rewrite tb_rot; auto. change (0 mod 32) with 0. rewrite N.sub_0_r.
      destruct (N.ltb_spec i 32); cbn [andb]; [|rewrite tb_big; auto].
      replace (i + 32) with (i + 1 * 32) by lia. rewrite N.mod_add, N.mod_small by (auto; discriminate). auto.
    - cbn [fold_left xor_rot length]. rewrite dek_step_rot; auto. rewrite IH.
      + rewrite <- N.lxor_assoc. f_equal. rewrite rot_lxor, rot_rot; auto using rot_lt, ch32_lt.
        do 2 f_equal. lia.
      + apply lxor_lt; auto using rot_lt. apply (ch32_lt c).
  Qed.

  (** ELF and PJW *)
  Lemma tb_top i : N.testbit 4026531840 i = (28 <=? i) && (i <? 32).
  Proof.
    change 4026531840 with (N.shiftl 15 28). rewrite tb_shl. destruct (N.leb_spec 28 i); cbn [andb]; auto.
    destruct (N.ltb_spec i 32).
    - assert (i = 28 \/ i = 29 \/ i = 30 \/ i = 31) as [->|[->|[->| ->]]] by lia; reflexivity.
    - change 15 with (N.ones 4). apply N.ones_spec_high. lia.
  Qed.

  Lemma tb_ones i : N.testbit 4294967295 i = (i <? 32).
  Proof.
    change 4294967295 with (N.ones 32). destruct (N.ltb_spec i 32).
    - apply N.ones_spec_low; auto.
    - apply N.ones_spec_high; auto.
  Qed.

  Lemma elf_step_eq h c : elf_step h c = pjw_step h c.
  Proof.
    unfold elf_step, pjw_step. set (x := u32 (shl32 h 4 + ch32 c)).
    assert (Hx : x < 2^32) by apply u32_lt.
    destruct (N.eqb_spec (N.land x 4026531840) 0) as [E|E].
    - rewrite E. change (not32 0) with 4294967295. apply N.bits_inj. intros i.
      rewrite N.land_spec, tb_ones. destruct (N.ltb_spec i 32); [apply andb_true_r|].
      rewrite tb_big; auto.
    - apply N.bits_inj. intros i. unfold not32. rewrite !N.land_spec, !N.lxor_spec, !N.land_spec, !N.shiftr_spec', !N.land_spec, !tb_ones, !tb_top.
      assert (Hbig : 28 <= i -> (i + 24 <? 32) = false) by (intros; apply N.ltb_ge; lia).
      destruct (N.leb_spec 28 i) as [L|L]; [rewrite Hbig by auto|];
        destruct (i <? 32); destruct (N.testbit x i); rewrite ?andb_false_r; cbn [andb xorb]; auto.
  Qed.

  Lemma pjw_step_lt h c : pjw_step h c < 2^28.
  Proof.
    unfold pjw_step. set (x := u32 (shl32 h 4 + ch32 c)). assert (Hx : x < 2^32) by apply u32_lt.
    assert (Hgen : forall y, (forall i, 28 <= i -> N.testbit y i = false) -> y < 2^28).
    { intros y H. assert (E : y = y mod 2^28).
      { apply N.bits_inj. intros i. destruct (N.ltb_spec i 28).
        - rewrite N.mod_pow2_bits_low; auto.
        - rewrite N.mod_pow2_bits_high; auto. }
      rewrite E. apply N.mod_lt. discriminate. }
    destruct (N.eqb_spec (N.land x 4026531840) 0) as [E|E]; apply Hgen; intros i Hi.
    - destruct (N.ltb_spec i 32) as [L|L]; [|apply tb_big; auto].
      assert (HH : N.testbit (N.land x 4026531840) i = false) by (rewrite E; apply N.bits_0).
      rewrite N.land_spec, tb_top in HH. destruct (N.leb_spec 28 i); [|lia]. destruct (N.ltb_spec i 32); [|lia].
      cbn in HH. rewrite andb_true_r in HH. auto.
    - unfold not32. rewrite N.land_spec, !N.lxor_spec, tb_ones, tb_top, N.shiftr_spec', N.land_spec, tb_top.
      destruct (N.leb_spec 28 i); [|lia]. destruct (N.ltb_spec i 32); cbn [andb xorb]; rewrite ?andb_false_r; auto.
  Qed.

  Lemma hash_ELF_PJW s : hash_ELF s = hash_PJW s.
  Proof.
    unfold hash_ELF, hash_PJW. generalize 0. induction s as [|c s IH]; intros h; cbn; auto.
    rewrite elf_step_eq. apply IH.
  Qed.

  Lemma hash_PJW_lt s : hash_PJW s < 2^28.
  Proof.
    unfold hash_PJW. destruct s as [|c s] using rev_ind; [reflexivity|].
    rewrite fold_left_app. cbn. apply pjw_step_lt.
  Qed.

  (** every hash fits 32 bits *)
  Lemma fold_lt (step : N -> byte -> N) s : (forall h c, h < 2^32 -> step h c < 2^32) ->
    forall h, h < 2^32 -> fold_left step s h < 2^32.
  Proof. intros Hs. induction s; cbn; auto. Qed.

  Lemma hash_JS_lt s : hash_JS s < 2^32.
  Proof. apply fold_lt; [|reflexivity]. intros h c Hh. apply lxor_lt; auto. apply u32_lt. Qed.
  Lemma hash_FNV_lt s : hash_FNV s < 2^32.
  Proof. apply fold_lt; [|reflexivity]. intros h c Hh. apply lxor_lt; [apply u32_lt|apply ch32_lt]. Qed.
  Lemma hash_AP_lt s : hash_AP s < 2^32.
  Proof.
    unfold hash_AP. assert (H : forall st, snd st < 2^32 -> snd (fold_left ap_step s st) < 2^32).
    { induction s as [|c s IH]; cbn; auto. intros [o h] Hh. apply IH. cbn in *.
      apply lxor_lt; auto. destruct o.
      - unfold not32. apply lxor_lt; [apply u32_lt|reflexivity].
      - apply lxor_lt; apply u32_lt. }
    apply H. reflexivity.
  Qed.
End Bits.

(** ** ES *)
Section ES.
  Local Open Scope N_scope.

  Lemma tb_pow n i : N.testbit (N.shiftl 1 n) i = (i =? n).
  Proof.
    rewrite tb_shl. destruct (N.eqb_spec i n) as [->|Hd].
    - rewrite N.leb_refl, N.sub_diag. reflexivity.
    - destruct (N.leb_spec n i); cbn [andb]; auto.
      destruct (i - n) as [|p] eqn:E; [lia|]. destruct p; reflexivity.
  Qed.

  Lemma es_bit_spec c i : i < 28 -> bval c <> 46 -> N.testbit (es_bit c) i = mentions [c] i.
  Proof.
    intros Hi Hd. unfold es_bit, mentions, letter, digit. cbn [existsb]. rewrite !orb_false_r.
    pose proof (bval_lt c) as Hc. set (n := bval c) in *.
    destruct (N.leb_spec 48 n), (N.leb_spec n 57); cbn [andb];
    destruct (N.eqb_spec n 95); cbn [andb];
    destruct (N.leb_spec 65 n), (N.leb_spec n 90); cbn [andb]; try lia;
    destruct (N.leb_spec 97 n), (N.leb_spec n 122); cbn [andb]; try lia;
    rewrite ?tb_pow, ?N.bits_0;
    destruct (N.ltb_spec i 26);
    repeat match goal with |- context [?x =? ?y] => destruct (N.eqb_spec x y) end; cbn [orb]; try lia; auto.
  Qed.

  Lemma mentions_cons c s i : mentions (c :: s) i = mentions [c] i || mentions s i.
  Proof.
    unfold mentions. cbn [existsb]. destruct (i <? 26); [|destruct (i =? 26); [|destruct (i =? 27)]]; rewrite ?orb_false_r; auto.
  Qed.

  Lemma mentions_dot c i : bval c = 46 -> mentions [c] i = false.
  Proof.
    intros H. unfold mentions, letter, digit. cbn [existsb]. rewrite H, !orb_false_r.
    destruct (N.ltb_spec i 26); [|destruct (i =? 26); [|destruct (i =? 27)]; auto].
    destruct (N.eqb_spec 46 (65 + i)); [lia|]. destruct (N.eqb_spec 46 (97 + i)); [lia|]. auto.
  Qed.

  Lemma es_fold s : forall d r, 
    let st := fold_left es_step s (d, r) in
    u32 (fst st) = u32 (d + dots s) /\
    (forall i, i < 28 -> N.testbit (snd st) i = N.testbit r i || mentions s i) /\
    (forall i, 28 <= i -> N.testbit r i = false -> N.testbit (snd st) i = false).
  Proof.
    induction s as [|c s IH]; intros d r; cbn [fold_left].
    - cbn. split; [|split]; auto.
      + unfold dots. cbn. rewrite N.add_0_r. auto.
      + intros i Hi. unfold mentions. cbn. destruct (i <? 26), (i =? 26), (i =? 27); rewrite orb_false_r; auto.
    - assert (Es : es_step (d, r) c = if bval c =? 46 then (u32 (d + 1), r) else (d, N.lor r (es_bit c))) by reflexivity.
      rewrite Es. clear Es. destruct (N.eqb_spec (bval c) 46) as [E|E].
      + destruct (IH (u32 (d + 1)) r) as (H1 & H2 & H3). cbn zeta. split; [|split]; auto.
        * rewrite H1. unfold dots. cbn [filter]. apply N.eqb_eq in E. rewrite E. cbn [length].
          unfold u32. rewrite N.add_mod_idemp_l by discriminate. f_equal. lia.
        * intros i Hi. rewrite H2; auto. rewrite (mentions_cons c), (mentions_dot c) by auto. auto.
      + destruct (IH d (N.lor r (es_bit c))) as (H1 & H2 & H3). cbn zeta. split; [|split]; auto.
        * rewrite H1. unfold dots. cbn [filter]. apply N.eqb_neq in E. rewrite E. auto.
        * intros i Hi. rewrite H2; auto. rewrite N.lor_spec, (mentions_cons c), es_bit_spec by auto. rewrite orb_assoc. auto.
        * intros i Hi Hr. apply H3; auto. rewrite N.lor_spec, Hr. cbn.
          unfold es_bit. repeat match goal with |- context [if ?b then _ else _] => destruct b eqn:? end; rewrite ?tb_pow, ?N.bits_0; auto;
          repeat match goal with H : _ && _ = true |- _ => apply andb_prop in H as [? ?] end;
          repeat match goal with H : (_ <=? _) = true |- _ => apply N.leb_le in H end;
          apply N.eqb_neq; lia.
  Qed.

  Lemma es_tb s i : N.testbit (hash_ES s) i =
    if i <? 28 then mentions s i else (i <? 32) && N.testbit (dots s) (i - 28).
  Proof.
    unfold hash_ES. destruct (es_fold s 0 0) as (H1 & H2 & H3). cbn zeta in *.
    destruct (fold_left es_step s (0, 0)) as [d r]. cbn [fst snd] in *.
    rewrite N.lor_spec. unfold shl32. rewrite tb_u32, tb_shl.
    destruct (N.ltb_spec i 28).
    - rewrite H2 by auto. rewrite N.bits_0. destruct (N.leb_spec 28 i); [lia|]. cbn. rewrite andb_false_r, orb_false_r. auto.
    - rewrite H3 by (auto; apply N.bits_0). cbn [orb]. destruct (N.leb_spec 28 i); [|lia]. cbn [andb].
      destruct (N.ltb_spec i 32); cbn [andb]; auto.
      assert (E : N.testbit (u32 d) (i - 28) = N.testbit (u32 (0 + dots s)) (i - 28)) by (rewrite H1; auto).
      rewrite !tb_u32 in E. destruct (N.ltb_spec (i - 28) 32); [|lia]. cbn in E. auto.
  Qed.

  Lemma es_top s : N.shiftr (hash_ES s) 28 = dots s mod 16.
  Proof.
    apply N.bits_inj. intros i. rewrite N.shiftr_spec', es_tb. change 16 with (2^4).
    destruct (N.ltb_spec (i + 28) 28); [lia|]. destruct (N.ltb_spec (i + 28) 32); cbn [andb].
    - rewrite N.mod_pow2_bits_low by lia. f_equal. lia.
    - rewrite N.mod_pow2_bits_high by lia. auto.
  Qed.

  Lemma may_include_spec t s :
    may_include (hash_ES t) (hash_ES s) = true <->
    (forall bit, bit < 28 -> mentions t bit = true -> mentions s bit = true) /\ dots t mod 16 <= dots s mod 16.
  Proof.
    unfold may_include. rewrite !es_top.
    assert (Hb : forall x i, N.testbit (shl32 (hash_ES x) 4) i = (4 <=? i) && (i <? 32) && mentions x (i - 4)).
    { intros x i. unfold shl32. rewrite tb_u32, tb_shl, es_tb. destruct (N.leb_spec 4 i); destruct (N.ltb_spec i 32); cbn [andb]; auto.
      destruct (N.ltb_spec (i - 4) 28); auto; lia. }
    set (res := N.land _ _).
    assert (Hr : forall i, N.testbit res i = (4 <=? i) && (i <? 32) && (mentions t (i - 4) && negb (mentions s (i - 4)))).
    { intros i. unfold res. rewrite N.land_spec, N.lxor_spec, !Hb.
      destruct (4 <=? i), (i <? 32), (mentions t (i - 4)), (mentions s (i - 4)); auto. }
    destruct (N.eqb_spec res 0) as [E|E]; cbn [negb].
    - assert (Hall : forall bit, bit < 28 -> mentions t bit = true -> mentions s bit = true).
      { intros bit Hbit Ht. specialize (Hr (bit + 4)). rewrite E, N.bits_0 in Hr.
        replace (bit + 4 - 4) with bit in Hr by lia. rewrite Ht in Hr.
        destruct (N.leb_spec 4 (bit + 4)); [|lia]. destruct (N.ltb_spec (bit + 4) 32); [|lia].
        destruct (mentions s bit); auto. }
      destruct (N.ltb_spec (dots s mod 16) (dots t mod 16)); split; try discriminate; auto. lia.
    - split; [discriminate|]. intros [Hall _]. exfalso. apply E. apply N.bits_inj. intros i. rewrite Hr, N.bits_0.
      destruct (N.leb_spec 4 i); destruct (N.ltb_spec i 32); cbn [andb]; auto.
      destruct (mentions t (i - 4)) eqn:Et; cbn [andb]; auto. rewrite Hall; auto. lia.
  Qed.

  Lemma mentions_app a b i : mentions (a ++ b) i = mentions a i || mentions b i.
  Proof.
    unfold mentions. rewrite !existsb_app. destruct (i <? 26); auto. destruct (i =? 26); auto. destruct (i =? 27); auto.
  Qed.

  Lemma dots_app a b : dots (a ++ b) = dots a + dots b.
  Proof. unfold dots. rewrite filter_app, app_length. lia. Qed.

  Lemma may_include_occurs t s : occurs t s -> dots s < 16 -> may_include (hash_ES t) (hash_ES s) = true.
  Proof.
    intros (a & b & ->) Hd. apply may_include_spec. rewrite !dots_app in *. split.
    - intros bit Hb Ht. rewrite !mentions_app, Ht. rewrite orb_true_r. auto.
    - rewrite !N.mod_small by lia. lia.
  Qed.
End ES.

Section More.
  Local Open Scope N_scope.

  Lemma u32_add_l a b : u32 (u32 a + b) = u32 (a + b).
  Proof. unfold u32. apply N.add_mod_idemp_l. discriminate. Qed.

  Lemma not32_sub x : x < 2^32 -> not32 x = 2^32 - 1 - x.
  Proof.
    intros Hx. unfold not32. change 4294967295 with (N.ones 32). change (2^32 - 1) with (N.ones 32).
    change (N.lxor x (N.ones 32)) with (N.lnot x 32). rewrite N.lnot_sub_low; auto.
    destruct (N.eq_dec x 0) as [->|Hd]; [reflexivity|]. apply N.log2_lt_pow2; auto. lia.
  Qed.

  Lemma ap_parity s : forall b h, fst (fold_left ap_step s (b, h)) = xorb b (Nat.odd (length s)).
  Proof.
    induction s as [|c s IH]; intros b h.
    - cbn. destruct b; reflexivity.
    - cbn [fold_left ap_step length]. rewrite IH. rewrite Nat.odd_succ, <- Nat.negb_odd. destruct b, (Nat.odd (length s)); reflexivity.
  Qed.

  Lemma recurrences (s : bytes) (c : byte) :
    (let h := hash_JS s in
     hash_JS (s ++ [c]) = N.lxor h ((N.shiftl h 5 + ext32 c + N.shiftr h 2) mod 2^32)) /\
    hash_FNV (s ++ [c]) = N.lxor ((hash_FNV s * 2166136261) mod 2^32) (ext32 c) /\
    (let h := hash_AP s in
     hash_AP (s ++ [c]) =
       N.lxor h (if Nat.even (length s)
                 then N.lxor (N.shiftl h 7 mod 2^32) ((ext32 c * N.shiftr h 3) mod 2^32)
                 else 2^32 - 1 - (N.shiftl h 11 + N.lxor (ext32 c) (N.shiftr h 5)) mod 2^32)) /\
    hash_JS [] = 1315423911 /\ hash_FNV [] = 0 /\ hash_AP [] = 2863311530.
  Proof.
    split; [|split; [|split]]; [| | |auto].
    - cbn zeta. unfold hash_JS. rewrite fold_left_app. cbn [fold_left]. unfold js_step at 1. f_equal.
      unfold shl32. rewrite u32_add_l. rewrite <- (N.add_assoc (u32 _)), u32_add_l, N.add_assoc. reflexivity.
    - unfold hash_FNV. rewrite fold_left_app. reflexivity.
    - cbn zeta. unfold hash_AP. rewrite fold_left_app. cbn [fold_left].
      pose proof (ap_parity s false 2863311530) as HP. destruct (fold_left ap_step s (false, 2863311530)) as [o h].
      cbn [fst snd ap_step] in *. rewrite <- Nat.negb_odd, HP. rewrite xorb_false_l. f_equal.
      destruct (Nat.odd (length s)); cbn [negb]; auto.
      rewrite not32_sub by apply u32_lt. f_equal. unfold shl32. rewrite u32_add_l. reflexivity.
  Qed.

  Lemma of_Z_lt n x : Z.of_N n = (x mod 4294967296)%Z -> n < 2^32.
  Proof.
    intros H. pose proof (Z.mod_pos_bound x 4294967296). change (2^32) with 4294967296. lia.
  Qed.

  Lemma all_32_bit (s : bytes) :
    hash_RS s < 2^32 /\ hash_JS s < 2^32 /\ hash_PJW s < 2^32 /\ hash_ELF s < 2^32 /\ hash_BKDR s < 2^32 /\
    hash_SDBM s < 2^32 /\ hash_DJB s < 2^32 /\ hash_DEK s < 2^32 /\ hash_BP s < 2^32 /\ hash_FNV s < 2^32 /\
    hash_AP s < 2^32 /\ hash_ES s < 2^32.
  Proof.
    assert (HP : hash_PJW s < 2^32) by (pose proof (hash_PJW_lt s); change (2^28) with 268435456 in *; change (2^32) with 4294967296; lia).
    repeat apply conj; auto using hash_JS_lt, hash_FNV_lt, hash_AP_lt.
    - eapply of_Z_lt, hash_RS_Z.
    - rewrite hash_ELF_PJW. auto.
    - eapply of_Z_lt, hash_BKDR_Z.
    - eapply of_Z_lt, hash_SDBM_Z.
    - eapply of_Z_lt, hash_DJB_Z.
    - apply fold_lt; [|apply u32_lt]. intros h c Hh. unfold dek_step.
      apply lxor_lt; [apply lxor_lt; [apply u32_lt|apply shiftr_lt; auto]|apply ch32_lt].
    - apply fold_lt; [|reflexivity]. intros h c Hh. apply lxor_lt; [apply u32_lt|apply ch32_lt].
    - apply lt32_bits. intros i Hi. rewrite es_tb. destruct (N.ltb_spec i 28); [lia|]. destruct (N.ltb_spec i 32); [lia|]. reflexivity.
  Qed.
End More.

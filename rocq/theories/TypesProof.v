(** The sign-magnitude arithmetic computes the exact result and cuts it; comparison with Solidity. *)
From Verif Require Import Base JsonModel JsonSpec JsonDenotes JsonProof2 JsonProof4 JsonProof5 TypesModel TypesSpec.
From Coq Require Import List NArith ZArith Bool Lia.
Import ListNotations.
Local Open Scope Z_scope.

Ltac splits := repeat match goal with |- _ /\ _ => split end.

Lemma width_bits t : width t = bits t.
Proof. destruct t; reflexivity. Qed.
Lemma int_signed t : is_int t = is_signed t.
Proof. destruct t; reflexivity. Qed.

Section Arith.
  Variable t : itype.
  Notation M := (2 ^ Z.of_N (bits t)).

  Lemma M_pos : 0 < M.
  Proof. apply Z.pow_pos_nonneg; lia. Qed.
  Lemma M_N : Z.of_N (2 ^ bits t) = M.
  Proof. rewrite N2Z.inj_pow. reflexivity. Qed.

  (** what becomes of an exact result *)
  Definition cut (z : Z) : Z := if is_signed t then Z.rem z M else z mod M.
  Definition canon (a : cppint) : Prop := (mag a < 2 ^ bits t)%N /\ (neg a = true -> mag a <> 0%N /\ is_signed t = true).

  Lemma normal_canon s m : (is_signed t = false -> s = false) -> canon (normal t s m).
  Proof.
    intros Hs. unfold canon, normal. cbn. split; [apply N.mod_lt; apply N.pow_nonzero; discriminate|].
    destruct s; cbn; [|discriminate]. destruct (N.eqb_spec (m mod 2 ^ bits t) 0); cbn; [discriminate|]. intros _. split; [assumption|]. destruct (is_signed t); [reflexivity|now specialize (Hs eq_refl)].
  Qed.
  Lemma to_normal s m : to_Z (normal t s m) = if s then - (Z.of_N m mod M) else Z.of_N m mod M.
  Proof.
    unfold to_Z, normal. cbn. rewrite <- M_N, <- N2Z.inj_mod. destruct s; cbn; auto. destruct (N.eqb_spec (m mod 2 ^ bits t) 0) as [->|]; reflexivity.
  Qed.
  Lemma rem_neg x : 0 <= x -> Z.rem (- x) M = - (x mod M).
  Proof. intros H. pose proof M_pos. rewrite Z.rem_opp_l by lia. now rewrite Z.rem_mod_nonneg by lia. Qed.
  Lemma cut_pos x : 0 <= x -> cut x = x mod M.
  Proof. intros H. pose proof M_pos. unfold cut. destruct (is_signed t); auto. now rewrite Z.rem_mod_nonneg by lia. Qed.
  Lemma normal_cut s m : (is_signed t = false -> s = false) -> to_Z (normal t s m) = cut (if s then - Z.of_N m else Z.of_N m).
  Proof.
    intros Hs. rewrite to_normal. destruct s; [|rewrite cut_pos by lia; reflexivity].
    unfold cut. destruct (is_signed t); [|discriminate (Hs eq_refl)]. rewrite rem_neg by lia. reflexivity.
  Qed.

  Lemma diff_ok x y : (x < 2 ^ bits t)%N -> (y < 2 ^ bits t)%N -> canon (mag_diff t x y) /\ to_Z (mag_diff t x y) = cut (Z.of_N x - Z.of_N y).
  Proof.
    intros Hx Hy. pose proof M_pos. pose proof M_N as HM. unfold mag_diff. destruct (N.ltb_spec x y) as [Hlt|Hge].
    - unfold negate. destruct (is_signed t) eqn:Es.
      + split; [apply normal_canon; congruence|]. cbn [normal neg andb negb]. rewrite normal_cut by congruence. unfold cut. rewrite Es. cbn [mag normal].
        rewrite N.mod_small by lia. f_equal. lia.
      + split; [apply normal_canon; congruence|]. rewrite normal_cut by auto. unfold cut. rewrite Es. cbn [mag normal]. rewrite (N.mod_small (y - x)) by lia.
        rewrite N2Z.inj_sub, HM by lia. rewrite N2Z.inj_sub by lia. rewrite <- (Z_mod_plus_full (Z.of_N x - Z.of_N y) 1 M). f_equal. lia.
    - split; [apply normal_canon; auto|]. rewrite normal_cut by auto. f_equal. lia.
  Qed.

  Lemma pos_or (a : cppint) : canon a -> (neg a = false /\ to_Z a = Z.of_N (mag a)) \/ (neg a = true /\ is_signed t = true /\ to_Z a = - Z.of_N (mag a)).
  Proof. intros (H1 & H2). unfold to_Z. destruct (neg a); [right|left]; auto. destruct H2; auto. Qed.

  Lemma add_ok a b : canon a -> canon b -> canon (add t a b) /\ to_Z (add t a b) = cut (to_Z a + to_Z b).
  Proof.
    intros Ha Hb. pose proof (proj1 Ha). pose proof (proj1 Hb). unfold add.
    destruct (pos_or a Ha) as [(-> & ->)|(-> & Es & ->)], (pos_or b Hb) as [(-> & ->)|(-> & Es' & ->)].
    - split; [apply normal_canon; auto|]. rewrite normal_cut by auto. f_equal. lia.
    - rewrite Z.add_opp_r. apply diff_ok; auto.
    - replace (- Z.of_N (mag a) + Z.of_N (mag b)) with (Z.of_N (mag b) - Z.of_N (mag a)) by lia. apply diff_ok; auto.
    - split; [apply normal_canon; congruence|]. rewrite normal_cut by congruence. f_equal. lia.
  Qed.
  Lemma sub_ok a b : canon a -> canon b -> canon (sub t a b) /\ to_Z (sub t a b) = cut (to_Z a - to_Z b).
  Proof.
    intros Ha Hb. pose proof (proj1 Ha). pose proof (proj1 Hb). unfold sub.
    destruct (pos_or a Ha) as [(-> & ->)|(-> & Es & ->)], (pos_or b Hb) as [(-> & ->)|(-> & Es' & ->)].
    - apply diff_ok; auto.
    - split; [apply normal_canon; auto|]. rewrite normal_cut by auto. f_equal. lia.
    - split; [apply normal_canon; congruence|]. rewrite normal_cut by congruence. f_equal. lia.
    - replace (- Z.of_N (mag a) - - Z.of_N (mag b)) with (Z.of_N (mag b) - Z.of_N (mag a)) by lia. apply diff_ok; auto.
  Qed.
  Ltac signs := match goal with |- canon (normal t ?s _) /\ _ => let H := fresh in assert (H : is_signed t = false -> s = false) by (cbn; congruence); split; [now apply normal_canon|rewrite normal_cut by exact H; cbn [xorb]; f_equal] end.
  Lemma mul_ok a b : canon a -> canon b -> canon (mul t a b) /\ to_Z (mul t a b) = cut (to_Z a * to_Z b).
  Proof.
    intros Ha Hb. unfold mul.
    destruct (pos_or a Ha) as [(-> & ->)|(-> & Es & ->)], (pos_or b Hb) as [(-> & ->)|(-> & Es' & ->)]; signs; lia.
  Qed.
  Lemma zero_mag a : canon a -> (to_Z a =? 0) = (mag a =? 0)%N.
  Proof. intros Ha. destruct (pos_or a Ha) as [(_ & ->)|(_ & _ & ->)]; destruct (N.eqb_spec (mag a) 0); apply Z.eqb_eq || apply Z.eqb_neq; lia. Qed.
  Lemma div_ok a b : canon a -> canon b -> match div t a b, exact_div Z.quot (to_Z a) (to_Z b) with
    | Some c, Some z => canon c /\ to_Z c = cut z | None, None => True | _, _ => False end.
  Proof.
    intros Ha Hb. unfold div, exact_div. rewrite zero_mag by auto. destruct (N.eqb_spec (mag b) 0) as [|Hz]; auto.
    destruct (pos_or a Ha) as [(-> & ->)|(-> & Es & ->)], (pos_or b Hb) as [(-> & ->)|(-> & Es' & ->)]; signs;
      rewrite ?Z.quot_opp_opp, ?Z.quot_opp_l, ?Z.quot_opp_r, Z.quot_div_nonneg, N2Z.inj_div by lia; reflexivity.
  Qed.
  Lemma rem_ok a b : canon a -> canon b -> match rem t a b, exact_div Z.rem (to_Z a) (to_Z b) with
    | Some c, Some z => canon c /\ to_Z c = cut z | None, None => True | _, _ => False end.
  Proof.
    intros Ha Hb. unfold rem, exact_div. rewrite zero_mag by auto. destruct (N.eqb_spec (mag b) 0) as [|Hz]; auto.
    destruct (pos_or a Ha) as [(-> & ->)|(-> & Es & ->)], (pos_or b Hb) as [(_ & ->)|(_ & Es' & ->)]; signs;
      rewrite ?Z.rem_opp_opp, ?Z.rem_opp_l, ?Z.rem_opp_r, Z.rem_mod_nonneg, N2Z.inj_mod by lia; reflexivity.
  Qed.

  Lemma cut_holds z : holds t z -> cut z = z.
  Proof. unfold holds, cut. rewrite ?width_bits, ?int_signed. destruct t; cbn [is_signed bits]; intros H; try (apply Z.mod_small; exact H). apply Z.rem_small_iff; [discriminate|]. change (2 ^ Z.of_N 256) with (2^256). lia. Qed.
  Lemma of_Z_ok z : holds t z -> canon (of_Z t z) /\ to_Z (of_Z t z) = z.
  Proof.
    intros H. assert (Hs : is_signed t = false -> (z <? 0) = false). { intros Es. unfold holds in H. rewrite int_signed, Es, width_bits in H. apply Z.ltb_ge. lia. }
    unfold of_Z. split; [now apply normal_canon|]. rewrite normal_cut by exact Hs. transitivity (cut z); [|now apply cut_holds]. f_equal. rewrite Zabs2N.id_abs. destruct (Z.ltb_spec z 0); lia.
  Qed.

  (** the whole arithmetic: exact results, each cut *)
  Lemma compute_ok e : numerals (holds t) e -> match compute t e with Some a => canon a | None => True end /\ value (compute t e) = evaluate cut e.
  Proof.
    induction e as [z|a IHa b IHb|a IHa b IHb|a IHa b IHb|a IHa b IHb|a IHa b IHb]; cbn [numerals compute evaluate];
      [intros H; destruct (of_Z_ok z H) as (H1 & H2); split; auto; cbn; now rewrite H2|intros (Ha & Hb); destruct (IHa Ha) as (Ca & Ea), (IHb Hb) as (Cb & Eb); rewrite <- Ea, <- Eb; clear IHa IHb Ea Eb ..];
      (destruct (compute t a) as [x|]; [|split; [exact I|reflexivity]]); (destruct (compute t b) as [y|]; [|split; [exact I|reflexivity]]);
      cbn [both value option_map exact_op].
    - destruct (add_ok x y Ca Cb) as (H1 & ->). auto.
    - destruct (sub_ok x y Ca Cb) as (H1 & ->). auto.
    - destruct (mul_ok x y Ca Cb) as (H1 & ->). auto.
    - pose proof (div_ok x y Ca Cb) as H. destruct (div t x y), (exact_div Z.quot (to_Z x) (to_Z y)); try contradiction; auto. destruct H as (H1 & H2). cbn [value option_map]. rewrite H2. auto.
    - pose proof (rem_ok x y Ca Cb) as H. destruct (rem t x y), (exact_div Z.rem (to_Z x) (to_Z y)); try contradiction; auto. destruct H as (H1 & H2). cbn [value option_map]. rewrite H2. auto.
  Qed.

  Lemma canon_holds a : canon a -> holds t (to_Z a).
  Proof.
    intros Ha. pose proof M_N as HM. unfold holds. rewrite ?width_bits, ?int_signed. destruct (pos_or a Ha) as [(_ & ->)|(_ & Es & ->)].
    - destruct Ha as (Ha & _). destruct t; cbn [is_signed bits] in *; try (change (2 ^ Z.of_N 64) with (Z.of_N (2^64)) || change (2 ^ Z.of_N 128) with (Z.of_N (2^128)) || change (2 ^ Z.of_N 160) with (Z.of_N (2^160)) || change (2 ^ Z.of_N 256) with (Z.of_N (2^256)) || change (2^256) with (Z.of_N (2^256))); lia.
    - rewrite Es. destruct Ha as (Ha & _). destruct t; try discriminate. cbn [bits] in Ha. change (2^256) with (Z.of_N (2^256)). lia.
  Qed.
End Arith.

Lemma in_holds t z : in_type t z -> holds t z.
Proof. unfold in_type, holds. rewrite ?width_bits, ?int_signed. destruct t; cbn [is_signed]; auto. change (2^255) with 57896044618658097711785492504343953926634992332820282019728792003956564819968. change (2^256) with 115792089237316195423570985008687907853269984665640564039457584007913129639936. lia. Qed.

Lemma numerals_mono (P Q : Z -> Prop) e : (forall z, P z -> Q z) -> numerals P e -> numerals Q e.
Proof. intros H. induction e; cbn; intuition. Qed.

(** unsigned types *)
Lemma unsigned_agree t e : t <> S256 -> numerals (in_type t) e -> value (compute t e) = solidity t e.
Proof.
  intros Hne Hn. assert (Hs : is_signed t = false) by (destruct t; congruence || reflexivity). destruct (compute_ok t e (numerals_mono _ _ e (in_holds t) Hn)) as (_ & ->). unfold solidity.
  assert (H : forall z, cut t z = wrap t z) by (intros z; unfold wrap; rewrite int_signed, width_bits; unfold cut; now rewrite Hs).
  clear Hn Hne. induction e as [z|a IHa b IHb|a IHa b IHb|a IHa b IHb|a IHa b IHb|a IHa b IHb]; cbn [evaluate]; auto;
    rewrite IHa, IHb; (destruct (both _ _ _); [now rewrite H|reflexivity]).
Qed.

(** s256 *)
Lemma wrap_in t z : in_type t z -> wrap t z = z.
Proof. unfold in_type, wrap. rewrite ?width_bits, ?int_signed. destruct t; cbn [is_signed]; intros H; try (apply Z.mod_small; exact H). rewrite Z.mod_small; [lia|]. change (2^255) with 57896044618658097711785492504343953926634992332820282019728792003956564819968 in *. change (2^256) with 115792089237316195423570985008687907853269984665640564039457584007913129639936. lia. Qed.

Lemma in_range t e : all_results (in_type t) e -> value (compute t e) = exact e /\ solidity t e = exact e.
Proof.
  assert (HG : all_results (in_type t) e -> evaluate (cut t) e = exact e /\ solidity t e = exact e /\ numerals (holds t) e /\ forall z, exact e = Some z -> in_type t z).
  { unfold solidity.
    induction e as [z|a IHa b IHb|a IHa b IHb|a IHa b IHb|a IHa b IHb|a IHa b IHb];
      [intros H; cbn in *; splits; auto; [now apply in_holds|intros z' E; injection E as <-; exact H]|
       intros H; cbn [all_results] in H; destruct H as (Ha & Hb & Hz); destruct (IHa Ha) as (A1 & A2 & A3 & _); destruct (IHb Hb) as (B1 & B2 & B3 & _); clear IHa IHb;
       unfold exact in *; cbn [evaluate numerals] in *; rewrite A1, A2, B1, B2;
       (match goal with |- match ?x with _ => _ end = _ /\ _ => destruct x as [w|] end; [|splits; auto; intros; discriminate]); specialize (Hz w eq_refl); rewrite (cut_holds t w (in_holds t w Hz)), (wrap_in t w Hz); splits; auto; intros z' E; injection E as <-; exact Hz ..]. }
  intros H. destruct (HG H) as (H1 & H2 & H3 & _). destruct (compute_ok t e H3) as (_ & ->). auto.
Qed.

(** one operation: the two agree exactly when the cut result is a number of int256 *)
Lemma one_op z : cut S256 z = wrap S256 z <-> - 2^255 <= Z.rem z (2^256) < 2^255.
Proof.
  unfold cut, wrap. cbn [is_signed bits is_int width]. change (2 ^ Z.of_N 256) with (2^256).
  pose proof (Z.quot_rem' z (2^256)) as Hz. set (r := Z.rem z (2^256)) in *. set (k := Z.quot z (2^256)) in *.
  assert (Hw : (z + 2^255) mod 2^256 = (r + 2^255) mod 2^256). { rewrite Hz. rewrite <- (Z_mod_plus_full (r + 2^255) k (2^256)). f_equal. lia. }
  rewrite Hw. change (2^255) with 57896044618658097711785492504343953926634992332820282019728792003956564819968. change (2^256) with 115792089237316195423570985008687907853269984665640564039457584007913129639936.
  split; intros H.
  - pose proof (Z.mod_pos_bound (r + 57896044618658097711785492504343953926634992332820282019728792003956564819968) 115792089237316195423570985008687907853269984665640564039457584007913129639936 ltac:(reflexivity)). lia.
  - rewrite Z.mod_small by lia. lia.
Qed.

(** ** Texts *)
Lemma decimal_from ds : forall n, (n * 10 ^ N.of_nat (length ds) <= fold_left (fun n d => 10 * n + digit_value d) ds n)%N.
Proof.
  induction ds as [|d ds IH]; intros n; cbn [length fold_left]; [change (10 ^ N.of_nat 0)%N with 1%N; lia|].
  eapply N.le_trans; [|apply IH]. rewrite Nat2N.inj_succ, N.pow_succ_r'. assert (0 < 10 ^ N.of_nat (length ds))%N by (apply N.neq_0_lt_0, N.pow_nonzero; discriminate). nia.
Qed.
Lemma dec_text_length n k : (n < 10 ^ N.of_nat k)%N -> (0 < k)%nat -> (length (dec_text n) <= k)%nat.
Proof.
  intros Hn Hk. unfold dec_text. destruct (dec_loop_ok (S (N.size_nat n)) n [] (size_bound n) ltac:(lia)) as (d & ds & -> & Hd & Hdig & Hz). rewrite app_nil_r. cbn [length].
  destruct (beqb_spec d Byte.x30) as [->|Hne]; [destruct (Hz eq_refl) as (_ & ->); cbn; lia|].
  assert (Hv : (1 <= digit_value d)%N).
  { inversion Hdig as [|? ? H1 _]; subst. unfold digit, digit_value in *. destruct (N.eq_dec (bval d) 48) as [E|]; [|lia]. exfalso. apply Hne. rewrite <- (byte_of_N_bval d), E. reflexivity. }
  destruct (Nat.le_gt_cases (S (length ds)) k) as [|Hgt]; [assumption|exfalso].
  pose proof (decimal_from ds (digit_value d)) as Hl. assert (Ed : decimal (d :: ds) = fold_left (fun n d => 10 * n + digit_value d)%N ds (digit_value d)) by (unfold decimal; cbn [fold_left]; f_equal; lia).
  rewrite <- Ed, Hd in Hl. assert (10 ^ N.of_nat k <= 10 ^ N.of_nat (length ds))%N by (apply N.pow_le_mono_r; lia). nia.
Qed.

Lemma text_length z : Z.abs z < 2^256 -> (length (int_text z) <= 79)%nat.
Proof.
  intros H. assert (Hb : (Z.to_N (Z.abs z) < 10 ^ N.of_nat 78)%N).
  { change (10 ^ N.of_nat 78)%N with 1000000000000000000000000000000000000000000000000000000000000000000000000000000%N. change (2^256) with 115792089237316195423570985008687907853269984665640564039457584007913129639936 in H. lia. }
  unfold int_text. destruct (Z.ltb_spec z 0); cbn [length]; [apply le_n_S|apply Nat.le_trans with 78%nat; [|lia]]; (apply dec_text_length; [|lia]); [replace (- z) with (Z.abs z) by lia|replace z with (Z.abs z) by lia]; exact Hb.
Qed.

Lemma holds_256 t z : holds t z -> Z.abs z < 2^256.
Proof.
  unfold holds. rewrite ?width_bits, ?int_signed. destruct t; cbn [is_signed bits]; intros H; try exact H;
  (match type of H with context [2 ^ Z.of_N ?k] => assert (2 ^ Z.of_N k <= 2^256) by (apply Z.pow_le_mono_r; [lia|cbn; lia]) end); lia.
Qed.

Lemma text_ok t z : holds t z -> to_Z (of_Z t z) = z /\ gval documented (to_text (of_Z t z)) (AInt z) [] /\ (length (to_text (of_Z t z)) <= 79)%nat /\
  forall lay, parse lay (to_text (of_Z t z)) = Ret (true, JInt z).
Proof.
  intros H. destruct (of_Z_ok t z H) as (_ & E). apply holds_256 in H. unfold to_text. rewrite E. split; [reflexivity|].
  assert (Hg : forall lits, gval lits (int_text z) (AInt z) []). { intros lits. pose proof (int_text_gval lits z []) as Hg. rewrite app_nil_r in Hg. apply Hg. intros (d & s & Hs & _). discriminate. }
  split; [apply Hg|]. split; [now apply text_length|]. intros lay. apply (parse_exact lay _ (AInt z) []); [|apply Hg|cbn [build]; now rewrite reduce256_small].
  pose proof (text_length z H). change (2^28)%N with 268435456%N. lia.
Qed.

Lemma bool_ok b : gval documented (bool_to_text b) (ABool b) [] /\ forall lay, readable lay b = true -> parse lay (bool_to_text b) = Ret (true, JBool b).
Proof.
  assert (Hg : forall lits : bool -> bool, lits b = true -> gval lits (bool_to_text b) (ABool b) []).
  { intros lits Hl. pose proof (G_bool lits [] b [] (Forall_nil _) Hl) as H. rewrite app_nil_r in H. destruct b; exact H. }
  split; [now apply Hg|]. intros lay Hl. apply (parse_exact lay _ (ABool b) []); [destruct b; reflexivity|now apply Hg|reflexivity].
Qed.

Lemma one_operation e x y : In e [EAdd (Num x) (Num y); ESub (Num x) (Num y); EMul (Num x) (Num y); EDiv (Num x) (Num y)] -> in_type S256 x -> in_type S256 y ->
  forall z, exact e = Some z -> (value (compute S256 e) = solidity S256 e <-> - 2^255 <= Z.rem z (2^256) < 2^255).
Proof.
  intros He Hx Hy z Hz. apply in_holds in Hx, Hy. rewrite <- one_op.
  assert (Hn : numerals (holds S256) e) by (destruct He as [<-|[<-|[<-|[<-|[]]]]]; cbn; auto).
  destruct (compute_ok S256 e Hn) as (_ & ->). unfold solidity.
  destruct He as [<-|[<-|[<-|[<-|[]]]]]; unfold exact in Hz; cbn [evaluate both exact_op] in *.
  1-3: injection Hz as <-; split; intros H; [injection H as H; exact H|now rewrite H].
  destruct (exact_div Z.quot x y) as [w|]; [|discriminate]. injection Hz as ->. split; intros H; [injection H as H; exact H|now rewrite H].
Qed.

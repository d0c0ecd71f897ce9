(** Entries stay inside their blocks. *)
From Verif Require Import Base StringMapModel EntryModel.
From Coq Require Import List Arith NArith Bool Lia.
From Coq.Init Require Import Byte.
Import ListNotations.
Local Open Scope N_scope.

Lemma bwrite_ok b i xs : i + N.of_nat (length xs) <= N.of_nat (length b) ->
  exists b', bwrite b i xs = Ret b' /\ length b' = length b /\ (forall j, (j < length xs)%nat -> nth_error b' (N.to_nat i + j) = option_map Some (nth_error xs j)) /\
    forall j, (j < N.to_nat i)%nat -> nth_error b' j = nth_error b j.
Proof.
  intros H. unfold bwrite. destruct (N.ltb_spec (N.of_nat (length b)) (i + N.of_nat (length xs))); [lia|]. eexists. split; [reflexivity|].
  assert (Hf : length (firstn (N.to_nat i) b) = N.to_nat i) by (rewrite firstn_length; lia). split; [|split].
  - rewrite !app_length, Hf, map_length, skipn_length. lia.
  - intros j Hj. rewrite nth_error_app2, Hf by lia. replace (N.to_nat i + j - N.to_nat i)%nat with j by lia. rewrite nth_error_app1 by (rewrite map_length; lia). apply nth_error_map.
  - intros j Hj. rewrite nth_error_app1 by lia. clear H H0 Hf. revert j Hj. generalize (N.to_nat i). intros n. revert n. induction b as [|x b IH]; intros [|n] [|j] Hj; cbn; auto; try lia. apply IH. lia.
Qed.

Lemma bread_ok b xs : forall i, (forall j, (j < length xs)%nat -> nth_error b (N.to_nat i + j) = option_map Some (nth_error xs j)) -> bread b i (length xs) = Ret xs.
Proof.
  induction xs as [|x xs IH]; intros i H; cbn [length bread]; auto. pose proof (H 0%nat ltac:(cbn; lia)) as H0. rewrite Nat.add_0_r in H0. rewrite H0. cbn [nth_error option_map].
  rewrite IH; [reflexivity|]. intros j Hj. specialize (H (S j) ltac:(cbn; lia)). cbn [nth_error] in H. rewrite <- H. f_equal. lia.
Qed.

Section Entry.
  Variables size_of off : N.
  Hypothesis flexible : off <= size_of.

  Lemma stored_length k : length (stored_key k) = N.to_nat (u16 (N.of_nat (length k))).
  Proof. unfold stored_key. rewrite firstn_length. assert (u16 (N.of_nat (length k)) <= N.of_nat (length k)) by (apply N.mod_le; discriminate). lia. Qed.

  Lemma new_ok k : size_of + N.of_nat (length k) + 1 < 2^64 ->
    exists e, entry_new size_of off k = Ret e /\ entry_key off e = Ret (stored_key k) /\
      nth_error (e_mem e) (N.to_nat off + length k) = Some (Some NUL) /\ forall j, (j < N.to_nat off)%nat -> nth_error (e_mem e) j = Some None.
  Proof.
    intros Hs. unfold entry_new, entry_alloc, malloc, u64.
    rewrite (N.mod_small (size_of + _)) by lia. rewrite N.mod_small by exact Hs.
    set (b := repeat None (N.to_nat (size_of + N.of_nat (length k) + 1))). assert (Hb : length b = N.to_nat (size_of + N.of_nat (length k) + 1)) by (unfold b; now rewrite repeat_length).
    unfold entry_construct. destruct (bwrite_ok b off k) as (b1 & E1 & L1 & R1 & K1); [lia|]. rewrite E1. cbn [bind].
    destruct (bwrite_ok b1 (off + N.of_nat (length k)) [NUL]) as (b2 & E2 & L2 & R2 & K2); [cbn [length]; lia|]. rewrite E2. cbn [bind]. eexists. split; [reflexivity|]. cbn [e_mem e_len].
    split; [|split].
    - unfold entry_key. cbn [e_mem e_len]. rewrite <- stored_length. apply bread_ok. intros j Hj. rewrite stored_length in Hj.
      assert (Hu : u16 (N.of_nat (length k)) <= N.of_nat (length k)) by (apply N.mod_le; discriminate).
      rewrite K2 by lia. rewrite R1 by lia. f_equal. unfold stored_key. revert Hj. generalize (N.to_nat (u16 (N.of_nat (length k)))). clear. intros n. revert n j. induction k as [|x k IH]; intros [|n] [|j] Hj; cbn; auto; try lia. apply IH. lia.
    - specialize (R2 0%nat ltac:(cbn; lia)). cbn in R2. rewrite <- R2. f_equal. lia.
    - intros j Hj. rewrite K2, K1 by lia. assert (Hj' : (j < length b)%nat) by lia. destruct (nth_error b j) eqn:En; [|apply nth_error_None in En; lia]. apply nth_error_In, repeat_spec in En. now subst.
  Qed.

  Lemma stored_twice k : stored_key (stored_key k) = stored_key k.
  Proof. unfold stored_key at 1. rewrite stored_length, N2Nat.id. unfold u16 at 1. rewrite N.mod_small by (apply N.mod_lt; discriminate). unfold stored_key. rewrite firstn_firstn, Nat.min_id. reflexivity. Qed.

  Lemma copy_ok k e : size_of + N.of_nat (length k) + 1 < 2^64 -> entry_new size_of off k = Ret e ->
    exists e', entry_copy size_of off e = Ret e' /\ entry_key off e' = Ret (stored_key k).
  Proof.
    intros Hs He. destruct (new_ok k Hs) as (e0 & E0 & K0 & _). rewrite He in E0. injection E0 as <-. unfold entry_copy. rewrite K0. cbn [bind].
    destruct (new_ok (stored_key k)) as (e1 & E1 & K1 & _). { rewrite stored_length. assert (u16 (N.of_nat (length k)) <= N.of_nat (length k)) by (apply N.mod_le; discriminate). lia. }
    exists e1. split; [exact E1|]. now rewrite K1, stored_twice.
  Qed.
End Entry.

Lemma entry_ok size_of off k : off <= size_of -> size_of + N.of_nat (length k) + 1 < 2^64 ->
  exists e, entry_new size_of off k = Ret e /\ entry_key off e = Ret (firstn (N.to_nat (N.of_nat (length k) mod 65536)) k) /\
    nth_error (e_mem e) (N.to_nat off + length k) = Some (Some NUL) /\ (forall j, (j < N.to_nat off)%nat -> nth_error (e_mem e) j = Some None) /\
    exists e', entry_copy size_of off e = Ret e' /\ entry_key off e' = entry_key off e.
Proof.
  intros Hf Hs. destruct (new_ok size_of off Hf k Hs) as (e & E & K & Z & B). exists e. split; [exact E|]. split; [exact K|]. split; [exact Z|]. split; [exact B|].
  destruct (copy_ok size_of off Hf k e Hs E) as (e' & E' & K'). exists e'. split; [exact E'|]. now rewrite K, K'.
Qed.

Lemma key_whole (k : bytes) : N.of_nat (length k) < 65536 -> firstn (N.to_nat (N.of_nat (length k) mod 65536)) k = k.
Proof. intros H. rewrite N.mod_small by exact H. rewrite Nat2N.id. apply firstn_all. Qed.

(** the allocator *)
Lemma request_ok size_of n : 0 < size_of -> (n <= max_size size_of -> request size_of n = n * size_of) /\ (max_size size_of < n -> request size_of n < n * size_of).
Proof.
  intros Hs. unfold max_size, request, u64. split; intros H.
  - apply N.mod_small. assert (n * size_of <= 18446744073709551615). { eapply N.le_trans; [apply N.mul_le_mono_r; exact H|]. rewrite N.mul_comm. apply N.mul_div_le. lia. } change (2^64) with 18446744073709551616. lia.
  - assert (18446744073709551615 < n * size_of). { apply N.nle_gt. intros Hle. apply (N.div_le_lower_bound _ size_of) in Hle || (assert (n <= 18446744073709551615 / size_of) by (apply N.div_le_lower_bound; lia)); lia. }
    eapply N.lt_le_trans; [apply N.mod_lt; discriminate|]. change (2^64) with 18446744073709551616. lia.
Qed.

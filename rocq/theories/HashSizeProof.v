(** How many buckets a hash table has: lemmas behind HashSizeProps.v. *)
From Verif Require Import Base HashSpec HashModel HashSizeSpec HashAllocSpec HashIterSpec HashProof HashProof2 HashProof3 HashProof5 HashIterProof HashCostModel HashCostProof.
From Coq Require Import List NArith ZArith Lia Bool Arith.
From Coq Require Import ZifyBool ZifyNat ZifyN.
Import ListNotations.
Local Open Scope N_scope.

Lemma next_is n : n < 2^31 -> compute_bucket_size n = next_size n.
Proof.
  intros H. change (2^31) with 2147483648 in H. unfold compute_bucket_size, next_size, bucket_sizes.
  destruct (find _ _); [reflexivity|]. unfold u32. apply N.mod_small. lia.
Qed.

Section Size.
  Context {K V : Type}.
  Variable keqb : K -> K -> bool.
  Variable hash : K -> N.
  Variable dflt : V.
  Hypothesis keqb_ok : forall a b, reflect (a = b) (keqb a b).
  Notation table := (table (K * V)%type).

  (** the buckets a table has, or gets when it is first written to *)
  Definition base (n : N) : N := if n =? 0 then 17 else n.

  Lemma started_base (t : table) : CInv t -> nB (started t) = base (nB t).
  Proof.
    unfold CInv, started, isInit, base. destruct (tbl t) as [bs|].
    - intros [[HB HE HT Hbig Hpos] Hem]. destruct (N.eqb_spec (nB t) 0); [lia|reflexivity].
    - intros (-> & _). reflexivity.
  Qed.

  Lemma step_size t (m : fmap K V) o m' a t' : models hash t m -> nE t < 2^28 -> load_inv t -> plain o -> not_clear o ->
    spec_step keqb dflt m o = Some (m', a) -> step keqb hash dflt t o = Ret (t', a) ->
    (nE t' <= nE t /\ nB t' = nB t) \/
    (nE t' = nE t + 1 /\ nB t' = if 3 * base (nB t) <? 4 * nE t' then compute_bucket_size (base (nB t)) else base (nB t)).
  Proof.
    intros HM Hsm HL HP HN HS HT. pose proof HM as (HH & _ & _). pose proof (proj1 HH) as HC.
    assert (INS : forall k mk touch ex e, insert fst keqb hash t k mk touch = Ret (t', ex, e) ->
      (nE t' <= nE t /\ nB t' = nB t) \/
      (nE t' = nE t + 1 /\ nB t' = if 3 * base (nB t) <? 4 * nE t' then compute_bucket_size (base (nB t)) else base (nB t))).
    { intros k mk touch ex e Hi. destruct (insert_fields keqb hash keqb_ok t k mk touch t' ex e HC Hsm Hi) as (c & _ & HF). destruct ex.
      - destruct HF as (_ & F1 & F2 & _). left. split; [lia|exact F1].
      - right. destruct HF as (E & T & -> & _ & HG). rewrite <- (started_base t HC). rewrite <- (started_nE t HC).
        destruct HG as [(F1 & F2 & F3 & _)|[(F1 & _ & F2 & F3 & _)|(F1 & _ & F2 & F3 & _)]]; rewrite F2, F3; split; auto;
          destruct (N.ltb_spec (3 * nB (started t)) (4 * (nE (started t) + 1))); auto; lia. }
    destruct o as [k|k v|k|k| | | | |s]; cbn [step] in HT; try contradiction.
    - apply bind_ret in HT as ([[x ex] e] & Hi & [= -> _]). eapply INS; exact Hi.
    - apply bind_ret in HT as ([[x ex] e] & Hi & [= -> _]). eapply INS; exact Hi.
    - apply bind_ret in HT as ([x ex] & Hi & [= -> _]). destruct (erase_fields keqb hash keqb_ok t k t' ex HC Hsm HL Hi) as (_ & F1 & F2 & _). left. auto.
    - apply bind_ret in HT as (x & Hi & [= -> _]). left. split; [lia|reflexivity].
    - injection HT as -> _. left. split; [lia|reflexivity].
    - injection HT as -> _. left. split; [lia|reflexivity].
    - apply bind_ret in HT as (x & Hi & [= -> _]). unfold rehash in Hi.
      assert (HI : nB t < 2^29 /\ nE t + nT t <= nB t).
      { unfold CInv in HC. destruct (tbl t) as [bs|]; [|destruct HC as (-> & -> & ->); split; reflexivity || lia].
        destruct HC as [[HB HE HT Hbig Hpos] Hem]. pose proof (count_total bs). split; [exact Hbig|lia]. }
      destruct HI as [HI1 HI2]. rewrite may_rehash_idle in Hi; [|exact HI1|exact HI2|apply HL]. injection Hi as ->. left. split; [lia|reflexivity].
  Qed.

  Lemma needed_more b p n c : needed b p n -> 4 * c <= 3 * n -> needed b (N.max p c) n.
  Proof. intros (i & -> & H1 & H2) Hc. exists i. split; [reflexivity|]. split; [lia|]. intros j Hj. specialize (H2 j Hj). lia. Qed.

  Lemma nth_mono b i : forall j, (j <= i)%nat -> nth_size b j <= nth_size b i.
  Proof.
    induction i as [|i IH]; intros j Hj; [replace j with 0%nat by lia; lia|].
    destruct (Nat.eq_dec j (S i)) as [->|]; [lia|]. specialize (IH j ltac:(lia)). cbn [nth_size].
    enough (nth_size b i < next_size (nth_size b i)) by lia. unfold next_size. destruct (find _ _) as [s|] eqn:F; [|lia]. apply find_some in F. lia.
  Qed.

  Lemma needed_next b p n c : needed b p n -> p <= c -> 3 * n < 4 * c -> 4 * c <= 3 * next_size n -> needed b c (next_size n).
  Proof.
    intros (i & -> & H1 & H2) Hp Hc Hn. exists (S i). split; [reflexivity|]. split; [exact Hn|].
    intros j Hj. pose proof (nth_mono b i j ltac:(lia)). lia.
  Qed.

  Lemma run_size b l : forall t (m m' : fmap K V) as_ p, models hash t m -> load_inv t -> nE t + N.of_nat (length l) <= 2^28 ->
    Forall plain l -> Forall not_clear l -> spec_run keqb dflt m l = Some (m', as_) -> needed b p (base (nB t)) -> card m <= p ->
    exists t', run keqb hash dflt t l = Ret (t', as_) /\ models hash t' m' /\ needed b (N.max p (peak keqb dflt m l)) (base (nB t')) /\
      (nB t <> 0 -> nB t' <> 0) /\ (card m < peak keqb dflt m l -> nB t' <> 0) /\ (peak keqb dflt m l = 0 -> nB t' = nB t).
  Proof.
    induction l as [|o l IH]; intros t m m' as_ p HM HL Hl HP HNC HS HD Hp.
    { cbn [spec_run] in HS. injection HS as <- <-. exists t. cbn [run peak]. split; [reflexivity|]. split; [exact HM|].
      split; [replace (N.max p (card m)) with p by lia; exact HD|]. split; [auto|]. split; [lia|reflexivity]. }
    inversion HP as [|? ? HPo HPl]; subst. inversion HNC as [|? ? HNo HNl]; subst. cbn [length] in Hl. change (2^28) with 268435456 in Hl.
    cbn [spec_run] in HS. destruct (spec_step keqb dflt m o) as [[m1 a]|] eqn:E1; [|discriminate].
    destruct (spec_run keqb dflt m1 l) as [[m2 as2]|] eqn:E2; [|discriminate]. injection HS as <- <-.
    assert (Hn1 : nE t < 2^28) by (change (2^28) with 268435456; lia).
    destruct (step_ok keqb hash keqb_ok dflt t m o m1 a HM Hn1 E1) as (t1 & HT & HM1 & HnE).
    pose proof (step_load keqb hash dflt keqb_ok t m o m1 a t1 HM Hn1 HL HPo E1 HT) as HL1.
    pose proof (models_card hash t m HM) as C0. pose proof (models_card hash t1 m1 HM1) as C1.
    assert (HB : base (nB t) < 2^31).
    { pose proof HM as ((HC & _) & _ & _). unfold CInv in HC. unfold base. change (2^31) with 2147483648. destruct (N.eqb_spec (nB t) 0); [lia|].
      destruct (tbl t) as [bs|]; [|destruct HC as (-> & _); lia]. destruct HC as [[HB HE HT' Hbig Hpos] Hem]. change (2^29) with 536870912 in Hbig. lia. }
    assert (HX : needed b (N.max p (card m1)) (base (nB t1)) /\ (nB t <> 0 -> nB t1 <> 0) /\ (card m < card m1 -> nB t1 <> 0) /\ (card m1 = 0 -> nB t1 = nB t)).
    { destruct HL1 as [[L1 _] _].
      destruct (step_size t m o m1 a t1 HM Hn1 HL HPo HNo E1 HT) as [[F1 F2]|[F1 F2]].
      - rewrite F2. split; [|repeat split; auto; lia]. apply needed_more; [exact HD|]. destruct HD as (i & H1 & H2 & _). lia.
      - assert (N0 : nB t1 <> 0) by lia.
        split; [|repeat split; auto; lia].
        assert (EB : base (nB t1) = nB t1) by (unfold base; destruct (N.eqb_spec (nB t1) 0); [contradiction|reflexivity]). rewrite EB.
        destruct (N.ltb_spec (3 * base (nB t)) (4 * nE t1)) as [L|L].
        + rewrite F2 in L1 |- *. rewrite next_is in L1 |- * by exact HB.
          pose proof HD as (i & H1 & H2 & _). replace (N.max p (card m1)) with (card m1) by lia. eapply needed_next; [exact HD| | |]; lia.
        + rewrite F2. apply needed_more; [exact HD|]. lia. }
    destruct HX as (X1 & X2 & X3 & X4).
    destruct (IH t1 m1 m2 as2 (N.max p (card m1)) HM1 HL1 ltac:(change (2^28) with 268435456; lia) HPl HNl E2 X1 ltac:(lia)) as (t2 & R1 & R2 & R3 & R4 & R5 & R6).
    assert (PK : card m1 <= peak keqb dflt m1 l).
    { destruct l as [|o' l']; cbn [peak]; [lia|]. destruct (spec_step keqb dflt m1 o') as [[? ?]|]; lia. }
    exists t2. cbn [run peak]. rewrite HT, E1. cbn [bind]. rewrite R1. cbn [bind]. split; [reflexivity|]. split; [exact R2|].
    split; [replace (N.max p (N.max (card m) (peak keqb dflt m1 l))) with (N.max (N.max p (card m1)) (peak keqb dflt m1 l)) by lia; exact R3|].
    split; [auto|]. split.
    - intros H. destruct (N.lt_ge_cases (card m1) (peak keqb dflt m1 l)); [auto|]. apply R4, X3. lia.
    - intros H. rewrite R6 by lia. apply X4. lia.
  Qed.

  Lemma length_nB (t : table) m : models hash t m -> N.of_nat (length (buckets t)) = nB t.
  Proof.
    intros ((HC & _) & _ & _). unfold CInv in HC. unfold buckets. destruct (tbl t) as [bs|]; [|destruct HC as (-> & _); reflexivity].
    destruct HC as [[HB HE HT Hbig Hpos] Hem]. lia.
  Qed.

  Lemma size_reached size l m as_ : size < 2^28 -> N.of_nat (length l) <= 2^28 -> Forall plain l -> Forall not_clear l ->
    spec_run keqb dflt [] l = Some (m, as_) ->
    exists t, run keqb hash dflt (new_table size) l = Ret (t, as_) /\
      let n := N.of_nat (length (buckets t)) in
      let p := peak keqb dflt [] l in
      if (size =? 0) && (p =? 0) then n = 0 else needed (first_size size) p n.
  Proof.
    intros Hs Hl HP HN HS. destruct (models_new (V := V) hash size Hs) as [HM HE].
    assert (Eu : u32 size = size) by (unfold u32; apply N.mod_small; change (2^28) with 268435456 in Hs; lia).
    assert (H0 : base (nB (new_table (E := K * V) size)) = first_size size /\ (size = 0 <-> nB (new_table (E := K * V) size) = 0)).
    { unfold new_table, first_size. rewrite Eu. destruct (N.eqb_spec size 0) as [->|E0]; [split; [reflexivity|split; reflexivity]|].
      unfold init. destruct (N.eqb_spec size 0); [contradiction|]. cbn [nB].
      assert (size < 2^31) by (change (2^28) with 268435456 in Hs; change (2^31) with 2147483648; lia). rewrite next_is by assumption.
      assert (size < next_size size) by (unfold next_size; destruct (find _ _) as [s|] eqn:F; [apply find_some in F|]; lia).
      unfold base. destruct (N.eqb_spec (next_size size) 0); [lia|]. split; [reflexivity|]. lia. }
    destruct H0 as [H0 H1].
    destruct (run_size (first_size size) l (new_table size) [] m as_ 0 HM (new_load fst hash size Hs) ltac:(rewrite HE; lia) HP HN HS) as (t & R1 & R2 & R3 & R4 & R5 & R6).
    { rewrite H0. exists 0%nat. split; [reflexivity|]. split; [lia|]. intros j Hj. lia. }
    { cbn. lia. }
    exists t. split; [exact R1|]. cbv zeta. rewrite (length_nB t m R2). cbn [card length] in R5. rewrite N.max_0_l in R3.
    change (card []) with 0 in R5. destruct (N.eqb_spec size 0) as [E|E], (N.eqb_spec (peak keqb dflt [] l) 0) as [F|F]; cbn [andb].
    - rewrite R6 by exact F. now apply H1.
    - assert (nB t <> 0) by (apply R5; lia). unfold base in R3. destruct (N.eqb_spec (nB t) 0); [contradiction|exact R3].
    - assert (nB t <> 0) by tauto. unfold base in R3. destruct (N.eqb_spec (nB t) 0); [contradiction|exact R3].
    - assert (nB t <> 0) by tauto. unfold base in R3. destruct (N.eqb_spec (nB t) 0); [contradiction|exact R3].
  Qed.

  Lemma needed_unique b p n n' : needed b p n -> needed b p n' -> n = n'.
  Proof.
    intros (i & -> & H1 & H2) (j & -> & H3 & H4). destruct (Nat.lt_trichotomy i j) as [H|[->|H]]; [|reflexivity|].
    - specialize (H4 i H). lia.
    - specialize (H2 j H). lia.
  Qed.

  Lemma size_cleared size l m as_ : size < 2^28 -> N.of_nat (length l) <= 2^28 -> spec_run keqb dflt [] l = Some (m, as_) -> m <> [] ->
    run keqb hash dflt (new_table size) (l ++ [OpClear]) = Ret (new_table 0, as_ ++ [ADone]).
  Proof.
    intros Hs Hl HS Hm. destruct (models_new (V := V) hash size Hs) as [HM HE].
    destruct (run_ok keqb hash keqb_ok dflt l (new_table size) [] m as_ HM ltac:(rewrite HE; lia) HS) as (t & HR & HM2).
    pose proof (models_card hash t m HM2) as C.
    enough (A : forall l t0 as0, run keqb hash dflt t0 l = Ret (t, as0) -> run keqb hash dflt t0 (l ++ [OpClear]) = Ret (new_table 0, as0 ++ [ADone])) by (apply A; exact HR).
    clear - C Hm. induction l as [|o l IH]; intros t0 as0 H; cbn [run app] in *.
    - injection H as -> <-. cbn [step bind]. unfold clear. destruct (N.eqb_spec (nE t) 0) as [E|E]; [|reflexivity].
      destruct m; [contradiction|]. rewrite C in E. unfold card in E. cbn [length] in E. lia.
    - apply bind_ret in H as ([t1 a] & -> & H). apply bind_ret in H as ([t2 as2] & H & [= -> <-]). cbn [bind]. rewrite (IH _ _ H). reflexivity.
  Qed.
End Size.

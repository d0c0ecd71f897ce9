(** The hash table when memory can run out, with calls of rehash(n): lemmas behind HashAllocProps.v. *)
From Verif Require Import Base HashSpec HashModel HashAllocSpec HashAllocModel HashProof HashProof2 HashProof3 HashProof5 HashIterProof HashAllocProof.
From Coq Require Import List NArith ZArith Lia Bool Permutation Arith.
From Coq Require Import ZifyBool ZifyNat ZifyN.
Import ListNotations.
Local Open Scope N_scope.

Section AllocAny.
  Context {K V : Type}.
  Variable keqb : K -> K -> bool.
  Variable hash : K -> N.
  Variable dflt : V.
  Hypothesis keqb_ok : forall a b, reflect (a = b) (keqb a b).
  Variable alloc : nat -> bool.
  Notation entry := (K * V)%type.
  Notation bucket := (bucket entry).
  Notation table := (table entry).

  (** a table without a bucket array and without entries *)
  Definition bare (t : table) : Prop := tbl t = None /\ nE t = 0 /\ nT t = 0 /\ nB t < 2^29.

  Lemma no_full (bs : list bucket) : existsb full bs = false -> ents bs = [].
  Proof.
    induction bs as [|b bs IH]; cbn [existsb]; [reflexivity|]. intros H. apply orb_false_iff in H as [H1 H2].
    unfold full in H1. unfold ents in *. cbn [flat_map]. destruct (bslot b); try discriminate; cbn; auto.
  Qed.

  Lemma a_do_any c (t t' : table) bs n : tbl t = Some bs -> nE t = N.of_nat (length (ents bs)) -> 0 < n -> (ents bs = [] -> n < 2^29) ->
    do_rehash t n = Ret t' ->
    (exists c', (c <= c' <= S c)%nat /\ a_do_rehash alloc c t n = Ret (t', c')) \/
    (alloc c = false /\ (a_do_rehash alloc c t n = UB NullDeref \/
       (ents bs = [] /\ exists tb, bare tb /\ a_do_rehash alloc c t n = Ret (tb, S c)))).
  Proof.
    intros Hbs HE Hn Hb HD. unfold a_do_rehash. rewrite Hbs. destruct (alloc c) eqn:Ea.
    { left. rewrite HD. cbn. exists (S c). split; [lia|reflexivity]. }
    right. split; [reflexivity|]. change (existsb _ bs) with (existsb full bs). destruct (existsb full bs) eqn:Ef.
    - left. destruct (N.eqb_spec n 0); [lia|auto].
    - right. apply no_full in Ef. split; [exact Ef|]. exists (mkT None n (nE t) 0). split; [|reflexivity].
      unfold bare. cbn [tbl nE nT nB]. rewrite HE, Ef. splits; auto.
  Qed.

  Lemma a_may_any c (t t' : table) bs : tbl t = Some bs -> nE t = N.of_nat (length (ents bs)) -> 0 < nB t < 2^29 ->
    may_rehash t = Ret t' ->
    (exists c', (c <= c' <= S c)%nat /\ a_may_rehash alloc c t = Ret (t', c')) \/
    (alloc c = false /\ (a_may_rehash alloc c t = UB NullDeref \/
       (ents bs = [] /\ exists tb, bare tb /\ a_may_rehash alloc c t = Ret (tb, S c)))).
  Proof.
    intros Hbs HE HB HR. unfold may_rehash in HR. unfold a_may_rehash. change (2^29) with 536870912 in *.
    destruct (u32 (nB t * 3) <? u32 (nE t * 4)) eqn:E1.
    - pose proof (compute_bucket_size_bounds (nB t)) as HC. change (2^31) with 2147483648 in HC.
      eapply a_do_any; eauto; [lia|]. intros E. rewrite HE, E in E1. cbn [length N.of_nat] in E1.
      change (u32 (0 * 4)) with 0 in E1. lia.
    - destruct (u32 (sub32 (nB t) (nE t + nT t) * 8) <? nB t).
      + eapply a_do_any; eauto; try lia.
      + injection HR as <-. left. exists c. split; [lia|reflexivity].
  Qed.

  Lemma bare_rep ta : bare ta -> rep (null_table (E := entry)) ta.
  Proof. intros (H1 & H2 & H3 & H4). right. splits; auto. Qed.

  Lemma models_null : models hash (null_table (E := entry)) [].
  Proof. exact (proj1 (models_new (V := V) hash 0 ltac:(reflexivity))). Qed.

  Definition linked (c : nat) (t ta : table) : Prop := rep t ta /\ (ta = t \/ exists i, (i < c)%nat /\ alloc i = false).

  Lemma do_rehash_nE (t t' : table) n : do_rehash t n = Ret t' -> nE t' = nE t.
  Proof. unfold do_rehash. intros H. apply bind_ret in H as (x & _ & [= <-]). reflexivity. Qed.
  Lemma may_rehash_nE (t t' : table) : may_rehash t = Ret t' -> nE t' = nE t.
  Proof.
    unfold may_rehash. destruct (_ <? _); [apply do_rehash_nE|]. destruct (_ <? _); [apply do_rehash_nE|]. intros [= <-]. reflexivity.
  Qed.

  Lemma a_erase_any c t k t' ex : CInv t ->
    erase fst keqb hash t k = Ret (t', ex) ->
    (exists c', (c <= c' <= S c)%nat /\ a_erase keqb hash alloc c t k = Ret (t', ex, c')) \/
    (alloc c = false /\ (a_erase keqb hash alloc c t k = UB NullDeref \/
       (nE t' = 0 /\ exists tb, bare tb /\ a_erase keqb hash alloc c t k = Ret (tb, ex, S c)))).
  Proof.
    intros HC HI. unfold a_erase, erase in *.
    destruct (find_key_cases fst keqb hash keqb_ok t k HC) as [(bs & i & b & e & Hbs & Hfk & Hb & Hf & Hk)|[Hfk _]];
      rewrite Hfk in *; cbn [bind] in *; [|injection HI as <- <-; left; exists c; split; [lia|reflexivity]].
    rewrite Hbs in *. rewrite (set_slot_upd _ _ _ _ Hb) in *.
    apply bind_ret in HI as (t2 & HR & [= <- <-]).
    unfold CInv in HC. rewrite Hbs in HC. destruct HC as [[HB HE HT Hbig Hpos] Hem].
    change (2^29) with 536870912 in Hbig.
    pose proof (ents_upd _ _ _ (mkB (bhash b) Tomb) Hb) as P1. rewrite Hf in P1. cbn in P1.
    apply Permutation_length in P1. cbn [length] in P1.
    pose proof (count_total bs) as Hct.
    assert (EE : sub32 (nE t) 1 = N.of_nat (length (ents (upd bs i (mkB (bhash b) Tomb))))).
    { unfold sub32, u32. rewrite (N.mod_small 1) by lia.
      replace (nE t + 4294967296 - 1) with (N.of_nat (length (ents (upd bs i (mkB (bhash b) Tomb)))) + 1 * 4294967296) by lia.
      rewrite N.mod_add by lia. apply N.mod_small. lia. }
    destruct (a_may_any c (mkT (Some (upd bs i (mkB (bhash b) Tomb))) (nB t) (sub32 (nE t) 1) (u32 (nT t + 1))) t2 (upd bs i (mkB (bhash b) Tomb)))
      as [(c' & Hc' & ->)|(Ha & [->|(E0 & tb & Htb & ->)])]; cbn [tbl nE nB]; auto.
    - change (2^29) with 536870912. lia.
    - left. cbn. eauto.
    - right. split; [exact Ha|]. right. split.
      + rewrite (may_rehash_nE _ _ HR). cbn [nE]. rewrite EE, E0. reflexivity.
      + cbn. eauto.
  Qed.

  Lemma bare_size ta : bare ta -> nB ta = 0 -> ta = null_table.
  Proof. destruct ta. intros (H1 & H2 & H3 & _) H4. cbn in *. subst. reflexivity. Qed.

  Lemma a_step_any c t ta (m : fmap K V) o m' a : linked c t ta -> models hash t m -> nE t < 2^28 ->
    spec_step keqb dflt m o = Some (m', a) ->
    (exists ta' c' t', a_step keqb hash dflt alloc c ta o = Ret (ta', a, c') /\ (c <= c' <= c + 3)%nat /\ linked c' t' ta' /\ models hash t' m' /\ nE t' <= nE t + 1) \/
    ((exists i, (i < c + 3)%nat /\ alloc i = false) /\ a_step keqb hash dflt alloc c ta o = UB NullDeref).
  Proof.
    intros [HR HF] HM Hn HS.
    destruct (step_ok keqb hash keqb_ok dflt t m o m' a HM Hn HS) as (t' & HT & HM' & HnE).
    pose proof HM as (HH & _ & _). pose proof (proj1 HH) as HC.
    assert (KEEP : forall c', linked c' t' t') by (split; left; reflexivity).
    assert (EMPTY : nE t' = 0 -> m' = []).
    { intros E. rewrite (models_card hash t' m' HM') in E. destruct m'; [reflexivity|discriminate E]. }
    assert (BARE : forall tb, alloc c = false -> nE t' = 0 -> bare tb ->
              (c <= S c <= c + 3)%nat /\ linked (S c) null_table tb /\ models hash (null_table (E := entry)) m' /\ nE (null_table (E := entry)) <= nE t + 1).
    { intros tb Hi E0 Hb. split; [lia|]. split; [split; [apply bare_rep; exact Hb|right; exists c; split; [lia|exact Hi]]|]. split; [rewrite (EMPTY E0); apply models_null|]. cbn [nE null_table]. apply N.le_0_l. }
    assert (INS : forall k mk touch (g : bool -> entry -> answer V),
      '(t1, ex, e) <- insert fst keqb hash t k mk touch ;; Ret (t1, g ex e) = Ret (t', a) ->
      (exists ta' c' t1, ('(t1, ex, e, c1) <- a_insert keqb hash alloc c ta k mk touch ;; Ret (t1, g ex e, c1)) = Ret (ta', a, c') /\
          (c <= c' <= c + 3)%nat /\ linked c' t1 ta' /\ models hash t1 m' /\ nE t1 <= nE t + 1) \/
      ((exists i, (i < c + 3)%nat /\ alloc i = false) /\ ('(t1, ex, e, c1) <- a_insert keqb hash alloc c ta k mk touch ;; Ret (t1, g ex e, c1)) = UB NullDeref)).
    { intros k mk touch g HX. apply bind_ret in HX as ([[x ex] e] & Hi & [= <- <-]).
      pose proof (a_insert_rep keqb hash keqb_ok alloc c t ta k mk touch x ex e HR HC Hn Hi) as HI.
      destruct ex.
      - left. rewrite HI. cbn [bind]. exists x, c, x. splits; auto; lia.
      - destruct HI as [(c' & H1 & H2 & ->)|(i & H1 & H2 & H3 & ->)]; [left|right]; cbn [bind].
        + exists x, c', x. splits; auto; lia.
        + split; [exists i; split; [lia|auto]|reflexivity]. }
    destruct o as [k|k v|k|k| | | | |n]; cbn [a_step step] in *.
    - apply (INS k (k, dflt) (fun e => e) (fun ex e => AInserted ex (snd e))). exact HT.
    - apply (INS k (k, v) (fun e => (fst e, v)) (fun ex e => ASet ex)). exact HT.
    - apply bind_ret in HT as ([x ex] & Hi & [= <- <-]). destruct HR as [->|HR].
      + destruct (a_erase_any c t k x ex HC Hi) as [(c' & Hc' & ->)|(Ha & [->|(E0 & tb & Hb & ->)])].
        * left. cbn. exists x, c', x. splits; auto; lia.
        * right. split; [exists c; split; [lia|exact Ha]|reflexivity].
        * left. cbn. exists tb, (S c), null_table. split; [reflexivity|]. apply BARE; eauto.
      + destruct HR as (-> & H1 & H2 & H3 & H4). cbn in Hi. injection Hi as <- <-. left. unfold a_erase, find_key. rewrite H1. cbn.
        exists ta, c, null_table. split; [reflexivity|]. split; [lia|]. split; [split; [right; splits; auto|exact HF]|]. split; [exact HM'|]. apply N.le_0_l.
    - apply bind_ret in HT as (x & Hi & [= <- <-]). left. exists ta, c, t. split.
      + destruct HR as [->|(-> & H1 & _)]; [rewrite Hi; reflexivity|]. cbn in Hi. injection Hi as <-. unfold find_entry, find_key. rewrite H1. reflexivity.
      + split; [lia|]. split; [split; assumption|]. split; [exact HM'|]. lia.
    - injection HT as <- <-. left. exists ta, c, t. split; [destruct HR as [->|(-> & _ & -> & _)]; reflexivity|]. split; [lia|]. split; [split; assumption|]. split; [exact HM'|]. lia.
    - injection HT as <- <-. left. exists ta, c, t. split; [destruct HR as [->|(-> & _ & -> & _)]; reflexivity|]. split; [lia|]. split; [split; assumption|]. split; [exact HM'|]. lia.
    - injection HT as <- <-. left. destruct HR as [->|(-> & H1 & H2 & H3 & H4)].
      + exists (clear t), c, (clear t). splits; auto; lia.
      + exists (clear ta), c, null_table. split; [reflexivity|]. unfold clear in *. rewrite H2. cbn [N.eqb].
        split; [lia|]. split; [split; [right; splits; auto|exact HF]|]. split; [exact HM'|]. apply N.le_0_l.
    - apply bind_ret in HT as (x & Hi & [= <- <-]). unfold rehash in Hi. destruct HR as [->|(-> & H1 & H2 & H3 & H4)].
      + destruct (tbl t) as [bs|] eqn:Hbs.
        * unfold CInv in HC. rewrite Hbs in HC. destruct HC as [[HB HE HT' Hbig Hpos] Hem].
          destruct (a_may_any c t x bs Hbs HE ltac:(change (2^29) with 536870912 in *; lia) Hi) as [(c' & Hc' & ->)|(Ha & [->|(E0 & tb & Hb & ->)])].
          -- left. cbn. exists x, c', x. splits; auto; lia.
          -- right. split; [exists c; split; [lia|exact Ha]|reflexivity].
          -- left. cbn. exists tb, (S c), null_table. split; [reflexivity|]. apply BARE; eauto.
             rewrite (may_rehash_nE _ _ Hi), HE, E0. reflexivity.
        * unfold CInv in HC. rewrite Hbs in HC. destruct HC as (C1 & C2 & C3). left.
          rewrite a_may_idle; [|rewrite C1; reflexivity|rewrite C1, C2, C3; reflexivity|unfold load_ok; lia].
          cbn. exists t, c, t. rewrite may_rehash_idle in Hi; [|rewrite C1; reflexivity|lia|unfold load_ok; lia]. injection Hi as <-. splits; auto; lia.
      + left. rewrite a_may_idle; [|auto|lia|unfold load_ok; lia]. cbn. cbn in Hi. injection Hi as <-. exists ta, c, null_table.
        split; [reflexivity|]. split; [lia|]. split; [split; [right; splits; auto|exact HF]|]. split; [exact HM'|]. apply N.le_0_l.
    - cbn [spec_step] in HS. destruct (card m <? n) eqn:En; cbn [andb] in HS; [|discriminate]. destruct (n <? 2^28) eqn:En2; [|discriminate].
      injection HS as <- <-. apply N.ltb_lt in En, En2.
      assert (Hu : u32 n = n) by (unfold u32; apply N.mod_small; change (2^28) with 268435456 in *; lia).
      apply bind_ret in HT as (x & Hi & [= <-]). unfold rehash_to in Hi. rewrite Hu in *.
      destruct (tbl t) as [bs|] eqn:Hbs.
      + destruct HR as [->|(-> & _)]; [|discriminate Hbs].
        unfold CInv in HC. rewrite Hbs in HC. destruct HC as [[HB HE HT' Hbig Hpos] Hem].
        destruct (a_do_any c t x bs n Hbs HE ltac:(lia) ltac:(change (2^29) with 536870912; change (2^28) with 268435456 in *; lia) Hi) as [(c' & Hc' & ->)|(Ha & [->|(E0 & tb & Hb & ->)])].
        * left. cbn. exists x, c', x. splits; auto; lia.
        * right. split; [exists c; split; [lia|exact Ha]|reflexivity].
        * left. cbn. exists tb, (S c), null_table. split; [reflexivity|]. apply BARE; eauto.
          rewrite (do_rehash_nE _ _ _ Hi), HE, E0. reflexivity.
      + assert (Hta : bare ta).
        { destruct HR as [->|(_ & HR)]; [|exact HR]. unfold CInv in HC. rewrite Hbs in HC. destruct HC as (C1 & C2 & C3).
          unfold bare. splits; auto. rewrite C1. reflexivity. }
        unfold CInv in HC. rewrite Hbs in HC. destruct HC as (C1 & C2 & C3).
        pose proof Hta as (B1 & B2 & B3 & B4). unfold a_do_rehash. rewrite B1. destruct (N.eqb_spec (nB ta) 0) as [Hz|Hz].
        * assert (E : x = mkT (Some (repeat empty_bucket (N.to_nat n))) n 0 0).
          { unfold do_rehash in Hi. rewrite Hbs in Hi. cbn in Hi. injection Hi as <-. rewrite C2. reflexivity. }
          left. destruct (alloc c) eqn:Ha; cbn [bind]; rewrite B2.
          -- rewrite <- E. exists x, (S c), x. splits; auto; lia.
          -- exists (mkT None n 0 0), (S c), null_table. split; [reflexivity|]. apply BARE; eauto.
             ++ rewrite E. reflexivity.
             ++ unfold bare. cbn. splits; auto. eapply N.lt_trans; [exact En2|reflexivity].
        * right. split; [|reflexivity]. destruct HF as [->|(i & Hi1 & Hi2)]; [congruence|]. exists i. split; [lia|exact Hi2].
  Qed.

  Lemma a_run_any l : forall c t ta (m m' : fmap K V) answers, linked c t ta -> models hash t m -> nE t + N.of_nat (length l) <= 2^28 ->
    spec_run keqb dflt m l = Some (m', answers) ->
    (exists ta' c', a_run keqb hash dflt alloc c ta l = Ret (ta', answers, c')) \/
    ((exists i, (i < c + 3 * length l)%nat /\ alloc i = false) /\ a_run keqb hash dflt alloc c ta l = UB NullDeref).
  Proof.
    induction l as [|o l IH]; intros c t ta m m' answers HL HM Hn HS.
    { cbn in *. injection HS as <- <-. left. eauto. }
    cbn [spec_run] in HS. cbn [length] in Hn. change (2^28) with 268435456 in Hn.
    destruct (spec_step keqb dflt m o) as [[m1 a]|] eqn:E1; [|discriminate].
    destruct (spec_run keqb dflt m1 l) as [[m2 as_]|] eqn:E2; [|discriminate]. injection HS as <- <-.
    cbn [a_run]. destruct (a_step_any c t ta m o m1 a HL HM ltac:(change (2^28) with 268435456; lia) E1) as [(ta1 & c1 & t1 & -> & Hc1 & HL1 & HM1 & HE1)|((i & Hi1 & Hi2) & ->)].
    2:{ right. split; [exists i; split; [cbn [length]; lia|exact Hi2]|reflexivity]. }
    cbn [bind]. destruct (IH c1 t1 ta1 m1 m2 as_ HL1 HM1 ltac:(change (2^28) with 268435456; lia) E2) as [(ta2 & c2 & ->)|((i & Hi1 & Hi2) & ->)].
    - left. cbn. eauto.
    - right. split; [exists i; split; [cbn [length]; lia|exact Hi2]|reflexivity].
  Qed.

  Lemma never_wrong size l m answers : size < 2^28 -> N.of_nat (length l) <= 2^28 ->
    spec_run keqb dflt [] l = Some (m, answers) ->
    a_history keqb hash dflt alloc size l = Ret answers \/
    ((exists i, (i <= 3 * length l)%nat /\ alloc i = false) /\ a_history keqb hash dflt alloc size l = UB NullDeref).
  Proof.
    intros Hs Hl HS. unfold a_history. destruct (a_new_rep (V := V) hash alloc size Hs) as (t & HM & _ & HE & HR & HC0 & HA).
    assert (HL : linked (snd (a_new (K := K) (V := V) alloc 0 size)) t (fst (a_new alloc 0 size))).
    { split; [exact HR|]. destruct HR as [HR|HR]; [left; exact HR|]. destruct HR as (-> & H1 & H2 & H3 & H4).
      unfold a_new in *. destruct (u32 size =? 0) eqn:E0; [left; reflexivity|]. unfold a_init in *.
      destruct (alloc 0%nat) eqn:Ea; [discriminate H1|]. right. exists 0%nat. split; [cbn [snd]; lia|exact Ea]. }
    destruct (a_new alloc 0 size) as [t0 c0]. cbn [fst snd] in *.
    destruct (a_run_any l c0 t t0 [] m answers HL HM ltac:(lia) HS) as [(ta & c & ->)|((i & Hi1 & Hi2) & ->)]; [left; reflexivity|right].
    split; [exists i; split; [lia|exact Hi2]|reflexivity].
  Qed.
End AllocAny.

(** The hash table when memory can run out: lemmas behind HashAllocProps.v. *)
From Verif Require Import Base HashSpec HashModel HashAllocSpec HashAllocModel HashProof HashProof2 HashProof3 HashProof5 HashIterProof.
From Coq Require Import List NArith ZArith Lia Bool Permutation Arith.
From Coq Require Import ZifyBool ZifyNat ZifyN.
Import ListNotations.
Local Open Scope N_scope.

Section AllocProof.
  Context {K V : Type}.
  Variable keqb : K -> K -> bool.
  Variable hash : K -> N.
  Variable dflt : V.
  Hypothesis keqb_ok : forall a b, reflect (a = b) (keqb a b).
  Variable alloc : nat -> bool.
  Notation entry := (K * V)%type.
  Notation bucket := (bucket entry).
  Notation table := (table entry).

  (** [ta] is [t], or what a failed constructor left where [t] is an unused table *)
  Definition rep (t ta : table) : Prop :=
    ta = t \/ (t = null_table /\ tbl ta = None /\ nE ta = 0 /\ nT ta = 0 /\ nB ta < 2^29).

  Definition full (b : bucket) : bool := match bslot b with Full _ => true | _ => false end.

  Lemma full_in (bs : list bucket) i b e : nth_error bs i = Some b -> bslot b = Full e -> existsb full bs = true.
  Proof. intros Hn Hb. apply existsb_exists. exists b. split; [eapply nth_error_In; eauto|]. unfold full. rewrite Hb. auto. Qed.

  Lemma a_may_full c (t t' : table) bs : 0 < nB t < 2^31 -> tbl t = Some bs -> existsb full bs = true -> may_rehash t = Ret t' ->
    a_may_rehash alloc c t = Ret (t', c)
    \/ (alloc c = true /\ a_may_rehash alloc c t = Ret (t', S c))
    \/ (alloc c = false /\ a_may_rehash alloc c t = UB NullDeref).
  Proof.
    intros HB Hbs Hf HR. unfold may_rehash in HR. unfold a_may_rehash.
    assert (G : forall n, 0 < n -> do_rehash t n = Ret t' ->
      (alloc c = true /\ a_do_rehash alloc c t n = Ret (t', S c)) \/ (alloc c = false /\ a_do_rehash alloc c t n = UB NullDeref)).
    { intros n Hn HD. unfold a_do_rehash. rewrite Hbs. destruct (alloc c); [left|right]; split; auto.
      - rewrite HD. reflexivity.
      - change (existsb _ bs) with (existsb full bs). rewrite Hf. destruct (N.eqb_spec n 0); [lia|auto]. }
    destruct (u32 (nB t * 3) <? u32 (nE t * 4)).
    - right. apply G; auto. pose proof (compute_bucket_size_bounds (nB t)). lia.
    - destruct (u32 (sub32 (nB t) (nE t + nT t) * 8) <? nB t); [right; apply G; auto; lia|].
      injection HR as <-. auto.
  Qed.

  Lemma a_may_idle c (t : table) : nB t < 2^29 -> nE t + nT t <= nB t -> load_ok t -> a_may_rehash alloc c t = Ret (t, c).
  Proof.
    intros Hb Hs [L1 L2]. change (2^29) with 536870912 in Hb. unfold a_may_rehash.
    assert (E3 : u32 (nB t * 3) = nB t * 3) by (unfold u32; rewrite N.mod_small; lia).
    assert (E4 : u32 (nE t * 4) = nE t * 4) by (unfold u32; rewrite N.mod_small; lia).
    assert (Esub : sub32 (nB t) (nE t + nT t) = nB t - (nE t + nT t)).
    { unfold sub32, u32. rewrite (N.mod_small (nE t + nT t)) by lia.
      replace (nB t + 4294967296 - (nE t + nT t)) with (nB t - (nE t + nT t) + 1 * 4294967296) by lia.
      rewrite N.mod_add by lia. apply N.mod_small. lia. }
    rewrite Esub, E3, E4.
    assert (E8 : u32 ((nB t - (nE t + nT t)) * 8) = (nB t - (nE t + nT t)) * 8).
    { unfold u32. rewrite N.mod_small; lia. }
    rewrite E8.
    destruct (N.ltb_spec (nB t * 3) (nE t * 4)); [lia|].
    destruct (N.ltb_spec ((nB t - (nE t + nT t)) * 8) (nB t)); [lia|]. reflexivity.
  Qed.

  (** lookupBucketFor allocates the bucket array of an unused table *)
  Lemma a_lookup_rep c t ta k : rep t ta -> CInv t ->
    a_lookup keqb hash alloc c ta k =
      if isInit t then '(t1, i) <- lookup_bucket_for fst keqb hash t k ;; Ret (t1, i, c)
      else if alloc c then '(t1, i) <- lookup_bucket_for fst keqb hash t k ;; Ret (t1, i, S c)
      else UB NullDeref.
  Proof.
    intros HR HC. unfold a_lookup.
    assert (HI : isInit ta = isInit t).
    { destruct HR as [->|(-> & H & _)]; auto. unfold isInit. rewrite H. reflexivity. }
    rewrite HI. destruct (isInit t) eqn:E.
    - destruct HR as [->|(-> & _)]; [|discriminate]. unfold isInit in E. destruct (tbl t); [reflexivity|discriminate].
    - unfold a_init. destruct (alloc c); [|reflexivity].
      cbn [init tbl]. unfold lookup_bucket_for. rewrite E. reflexivity.
  Qed.

  Definition outcomes {X} (c : nat) (good : nat -> outcome X) (r : outcome X) : Prop :=
    (exists c', (c < c' <= c + 3)%nat /\ granted alloc c c' /\ r = good c')
    \/ (exists i, (c <= i < c + 3)%nat /\ granted alloc c i /\ alloc i = false /\ r = UB NullDeref).

  Lemma granted_S c c' : granted alloc c c' -> alloc c' = true -> granted alloc c (S c').
  Proof. intros H H1 i Hi. destruct (Nat.eq_dec i c') as [->|]; auto. apply H. lia. Qed.
  Lemma granted_nil c : granted alloc c c.
  Proof. intros i Hi. lia. Qed.

  Lemma a_insert_rep c t ta k mk touch t' ex e : rep t ta -> CInv t -> nE t < 2^28 ->
    insert fst keqb hash t k mk touch = Ret (t', ex, e) ->
    if ex then a_insert keqb hash alloc c ta k mk touch = Ret (t', true, e, c)
    else outcomes c (fun c' => Ret (t', false, e, c')) (a_insert keqb hash alloc c ta k mk touch).
  Proof.
    intros HR HC Hn HI. unfold a_insert. rewrite (a_lookup_rep c t ta k HR HC).
    unfold insert in HI.
    assert (HCs : CInv (started t)) by (eapply started_C; eauto).
    destruct (lookup_cases fst keqb hash keqb_ok t k HC) as (bs & Hbs & HL).
    unfold CInv in HCs. rewrite Hbs in HCs. destruct HCs as [[HB HE HT Hbig Hpos] Hem].
    change (2^29) with 536870912 in Hbig.
    destruct HL as [(i & b & e0 & Hlk & Hb & Hf & Hk)|(i & b & Hb & Hsl & Hlk & _)]; rewrite Hlk in *; cbn [bind] in HI.
    - rewrite Hbs, Hb, Hf in HI. injection HI as <- <- <-.
      assert (E : isInit t = true).
      { unfold isInit. destruct (tbl t) eqn:E; auto. unfold started, isInit in Hbs. rewrite E in Hbs. unfold init in Hbs.
        match type of Hbs with tbl (mkT ?x _ _ _) = _ => change (x = Some bs) in Hbs end. injection Hbs as <-. apply nth_error_In in Hb. cbn [In] in Hb. repeat (destruct Hb as [<-|Hb]; [discriminate Hf|]). destruct Hb. }
      rewrite E. cbn [bind]. rewrite Hbs, Hb, Hf. reflexivity.
    - cbn [tbl] in HI. rewrite (nth_error_upd_eq _ _ _ _ Hb) in HI. cbn [bslot] in HI.
      set (bs1 := upd bs i (mkB (u32 (hash k)) (bslot b))) in *.
      set (nt := match bslot b with Tomb => sub32 (nT (started t)) 1 | _ => nT (started t) end).
      assert (HM : exists t2, may_rehash (mkT (Some (set_slot bs1 i (Full mk))) (nB (started t)) (u32 (nE (started t) + 1)) nt) = Ret t2
                  /\ t' = t2 /\ ex = false /\ e = mk).
      { unfold nt. destruct Hsl as [Hsl|Hsl]; rewrite Hsl in *; cbn [tbl nB nE nT] in HI;
          apply bind_ret in HI as (t2 & H2 & [= <- <- <-]); eauto. }
      destruct HM as (t2 & HM & -> & -> & ->). clear HI.
      assert (Hb1 : nth_error bs1 i = Some (mkB (u32 (hash k)) (bslot b))) by (unfold bs1; eapply nth_error_upd_eq; eauto).
      assert (Hfull : existsb full (set_slot bs1 i (Full mk)) = true).
      { rewrite (set_slot_upd _ _ _ _ Hb1). eapply full_in; [eapply nth_error_upd_eq; eauto|reflexivity]. }
      assert (G : forall c0, (c <= c0 <= c + 1)%nat -> granted alloc c c0 ->
         outcomes c (fun c' => Ret (t2, false, mk, c'))
          (if alloc c0 then '(t3, c1) <- a_may_rehash alloc (S c0) (mkT (Some (set_slot bs1 i (Full mk))) (nB (started t)) (u32 (nE (started t) + 1)) nt) ;; Ret (t3, false, mk, c1)
           else UB NullDeref)).
      { intros c0 Hc0 Hg. destruct (alloc c0) eqn:Ea.
        - pose proof (granted_S _ _ Hg Ea) as Hg1.
          destruct (a_may_full (S c0) (mkT (Some (set_slot bs1 i (Full mk))) (nB (started t)) (u32 (nE (started t) + 1)) nt) t2
                     (set_slot bs1 i (Full mk))) as [->|[[Ea1 ->]|[Ea1 ->]]]; auto.
          + cbn [nB]. change (2^31) with 2147483648. lia.
          + left. exists (S c0). split; [lia|]. auto.
          + left. exists (S (S c0)). split; [lia|]. split; auto. apply granted_S; auto.
          + right. exists (S c0). split; [lia|]. auto.
        - right. exists c0. split; [lia|]. auto. }
      assert (G' : forall c0, (c <= c0 <= c + 1)%nat -> granted alloc c c0 ->
         outcomes c (fun c' => Ret (t2, false, mk, c'))
          ('(t1, i1, c1) <- ('(t1, i1) <- Ret (mkT (Some bs1) (nB (started t)) (nE (started t)) (nT (started t)), i);; Ret (t1, i1, c0));;
           match tbl t1 with
           | Some bs0 => match nth_error bs0 i1 with
             | Some b0 => match bslot b0 with
                | Full e1 => Ret (mkT (Some (set_slot bs0 i1 (Full (touch e1)))) (nB t1) (nE t1) (nT t1), true, touch e1, c1)
                | s => if alloc c1 then '(t3, c3) <- a_may_rehash alloc (S c1)
                      (mkT (Some (set_slot bs0 i1 (Full mk))) (nB t1) (u32 (nE t1 + 1)) (match s with Tomb => sub32 (nT t1) 1 | _ => nT t1 end)) ;; Ret (t3, false, mk, c3)
                      else UB NullDeref
                end
             | None => UB OutOfBounds end
           | None => UB NullDeref end)).
      { intros c0 Hc0 Hg. cbn [bind tbl nB nE nT]. rewrite Hb1. cbn [bslot]. pose proof (G c0 Hc0 Hg) as G0. unfold nt in G0.
        destruct Hsl as [Hsl|Hsl]; rewrite Hsl in *; exact G0. }
      destruct (isInit t).
      + apply G'; [lia|apply granted_nil].
      + destruct (alloc c) eqn:Ea.
        * apply G'; [lia|]. apply granted_S; auto. apply granted_nil.
        * right. exists c. split; [lia|]. split; [apply granted_nil|]. auto.
  Qed.

  (** erase never asks for memory *)
  Lemma a_erase_rep c t ta k t' ex : rep t ta -> CInv t -> load_ok t ->
    erase fst keqb hash t k = Ret (t', ex) ->
    exists ta', a_erase keqb hash alloc c ta k = Ret (ta', ex, c) /\ rep t' ta'.
  Proof.
    intros HR HC HL. unfold a_erase, erase.
    destruct HR as [->|(-> & HN & HR)].
    2:{ cbn. intros [= <- <-]. unfold find_key. rewrite HN. cbn. exists ta. split; auto. right. auto. }
    destruct (find_key_cases fst keqb hash keqb_ok t k HC) as [(bs & i & b & e & Hbs & -> & Hb & Hf & Hk)|[-> _]];
      cbn [bind]; [|intros [= <- <-]; exists t; split; [auto|left; auto]].
    rewrite Hbs. rewrite (set_slot_upd _ _ _ _ Hb).
    unfold CInv in HC. rewrite Hbs in HC. destruct HC as [[HB HE HT Hbig Hpos] Hem].
    change (2^29) with 536870912 in Hbig. destruct HL as [L1 L2].
    pose proof (count_total bs) as Hct.
    assert (Hin : (0 < length (ents bs))%nat).
    { assert (H : In e (ents bs)) by (apply in_ents; eauto). destruct (ents bs); [destruct H|cbn; lia]. }
    assert (EE : sub32 (nE t) 1 = nE t - 1).
    { unfold sub32, u32. rewrite (N.mod_small 1) by lia.
      replace (nE t + 4294967296 - 1) with (nE t - 1 + 1 * 4294967296) by lia.
      rewrite N.mod_add by lia. apply N.mod_small. lia. }
    assert (ET : u32 (nT t + 1) = nT t + 1) by (unfold u32; rewrite N.mod_small; lia).
    rewrite EE, ET.
    rewrite may_rehash_idle; cbn [nB nE nT]; [|change (2^29) with 536870912; lia|lia|unfold load_ok; cbn [nB nE nT]; lia].
    rewrite a_may_idle; cbn [nB nE nT]; [|change (2^29) with 536870912; lia|lia|unfold load_ok; cbn [nB nE nT]; lia].
    cbn [bind]. intros [= <- <-]. eexists. split; [reflexivity|left; auto].
  Qed.

  Lemma inserted_has t (m : fmap K V) k mk touch t' ex e : models hash t m -> nE t < 2^28 ->
    insert fst keqb hash t k mk touch = Ret (t', ex, e) -> ex = has keqb m k.
  Proof.
    intros HM Hn HI. pose proof HM as (HH & _ & _). unfold has.
    destruct (insert_ok fst keqb hash keqb_ok t k mk touch (proj1 HH) Hn) as (t2 & ex2 & e2 & HI2 & _ & _ & _ & HC).
    rewrite HI in HI2. injection HI2 as <- <- <-.
    destruct HC as [(-> & _ & l1 & [k0 v0] & l2 & Ht & Hk & _)|(-> & _ & _ & _ & HX)].
    - cbn in Hk. subst k0. rewrite (models_in keqb hash keqb_ok t m k v0 HM); auto. rewrite Ht. apply in_or_app. cbn. auto.
    - rewrite (models_notin keqb hash keqb_ok t m k HM); auto. apply HX. auto.
  Qed.

  Lemma a_step_rep c t ta (m : fmap K V) o m' a t' : rep t ta -> models hash t m -> load_inv t -> nE t < 2^28 -> plain o ->
    spec_step keqb dflt m o = Some (m', a) -> step keqb hash dflt t o = Ret (t', a) ->
    if adds keqb m o then outcomes c (fun c' => Ret (t', a, c')) (a_step keqb hash dflt alloc c ta o)
    else exists ta', a_step keqb hash dflt alloc c ta o = Ret (ta', a, c) /\ rep t' ta'.
  Proof.
    intros HR HM HL Hn HP HS HT. pose proof HM as (HH & _ & _). pose proof (proj1 HH) as HC.
    assert (INS : forall k mk touch (g : bool -> entry -> answer V),
      '(t1, ex, e) <- insert fst keqb hash t k mk touch ;; Ret (t1, g ex e) = Ret (t', a) ->
      if negb (has keqb m k) then outcomes c (fun c' => Ret (t', a, c'))
           ('(t1, ex, e, c1) <- a_insert keqb hash alloc c ta k mk touch ;; Ret (t1, g ex e, c1))
      else exists ta', ('(t1, ex, e, c1) <- a_insert keqb hash alloc c ta k mk touch ;; Ret (t1, g ex e, c1)) = Ret (ta', a, c) /\ rep t' ta').
    { intros k mk touch g HX. apply bind_ret in HX as ([[x ex] e] & Hi & [= <- <-]).
      pose proof (inserted_has t m k mk touch x ex e HM Hn Hi) as Hex.
      pose proof (a_insert_rep c t ta k mk touch x ex e HR HC Hn Hi) as HI. rewrite <- Hex.
      destruct ex; cbn [negb].
      - rewrite HI. cbn [bind]. eexists. split; [reflexivity|left; auto].
      - destruct HI as [(c' & H1 & H2 & ->)|(i & H1 & H2 & H3 & ->)]; [left; exists c'|right; exists i]; auto. }
    destruct o as [k|k v|k|k| | | | |n]; cbn [adds a_step step] in *.
    - apply (INS k (k, dflt) (fun e => e) (fun ex e => AInserted ex (snd e))). exact HT.
    - apply (INS k (k, v) (fun e => (fst e, v)) (fun ex e => ASet ex)). exact HT.
    - apply bind_ret in HT as ([x ex] & Hi & [= <- <-]).
      destruct (a_erase_rep c t ta k x ex HR HC (proj1 HL) Hi) as (ta' & -> & HR'). cbn [bind]. eauto.
    - apply bind_ret in HT as (x & Hi & [= <- <-]). exists ta. split; auto.
      destruct HR as [->|(-> & HN & _)]; [rewrite Hi; reflexivity|].
      cbn in Hi. injection Hi as <-. unfold find_entry, find_key. rewrite HN. reflexivity.
    - injection HT as <- <-. exists ta. split; auto. destruct HR as [->|(-> & _ & -> & _)]; reflexivity.
    - injection HT as <- <-. exists ta. split; auto. destruct HR as [->|(-> & _ & -> & _)]; reflexivity.
    - injection HT as <- <-. exists (clear ta). split; auto. destruct HR as [->|(-> & H1 & H2 & H3 & H4)]; [left; auto|].
      right. unfold clear. rewrite H2. cbn. auto.
    - apply bind_ret in HT as (x & Hi & [= <- <-]). unfold rehash in Hi.
      destruct HR as [->|(-> & H1 & H2 & H3 & H4)].
      + unfold CInv in HC. assert (nB t < 2^29 /\ nE t + nT t <= nB t) as [B1 B2].
        { destruct (tbl t) as [bs|]; [|change (2^29) with 536870912; lia].
          destruct HC as [[HB HE HT Hbig Hpos] Hem]. pose proof (count_total bs). split; [auto|lia]. }
        rewrite may_rehash_idle in Hi; [|auto|lia|apply HL]. injection Hi as <-.
        rewrite a_may_idle; [|auto|lia|apply HL]. cbn. exists t. split; [auto|left; auto].
      + cbn in Hi. injection Hi as <-. rewrite a_may_idle; [|auto|lia|unfold load_ok; lia]. cbn. exists ta. split; auto. right. auto.
    - destruct HP.
  Qed.

  Lemma granted_app c c1 c2 : granted alloc c c1 -> granted alloc c1 c2 -> granted alloc c c2.
  Proof. intros H1 H2 i Hi. destruct (Nat.lt_ge_cases i c1); [apply H1|apply H2]; lia. Qed.

  Lemma a_run_rep l : forall c t ta (m : fmap K V), rep t ta -> models hash t m -> load_inv t -> nE t + N.of_nat (length l) <= 2^28 -> Forall plain l ->
    (exists ta' m' as_ c', a_run keqb hash dflt alloc c ta l = Ret (ta', as_, c') /\ spec_run keqb dflt m l = Some (m', as_) /\
       granted alloc c c' /\ (c + additions keqb dflt m l <= c' <= c + 3 * additions keqb dflt m l)%nat /\
       exists t', rep t' ta' /\ models hash t' m' /\ load_inv t' /\ nE t' <= nE t + N.of_nat (length l))
    \/ (exists l1 o l2 m1 as1 ta1 c1 i, l = l1 ++ o :: l2 /\ spec_run keqb dflt m l1 = Some (m1, as1) /\
       a_run keqb hash dflt alloc c ta l1 = Ret (ta1, as1, c1) /\ granted alloc c i /\ adds keqb m1 o = true /\
       (c1 <= i < c1 + 3)%nat /\ alloc i = false /\ a_step keqb hash dflt alloc c1 ta1 o = UB NullDeref /\
       (c + additions keqb dflt m l1 <= c1 <= c + 3 * additions keqb dflt m l1)%nat).
  Proof.
    induction l as [|o l IH]; intros c t ta m HR HM HL Hn HP.
    { left. exists ta, m, [], c. cbn. pose proof (granted_nil c). splits; auto; try lia. exists t. splits; auto. lia. }
    inversion HP as [|? ? HPo HPl]; subst. cbn [length] in Hn.
    destruct (spec_step_total keqb dflt m o HPo) as (m1 & a & HS).
    assert (Hn1 : nE t < 2^28) by lia.
    destruct (step_ok keqb hash keqb_ok dflt t m o m1 a HM Hn1 HS) as (t1 & HT & HM1 & HnE).
    pose proof (step_load keqb hash dflt keqb_ok t m o m1 a t1 HM Hn1 HL HPo HS HT) as HL1.
    assert (STEP : (exists ta1 c1, a_step keqb hash dflt alloc c ta o = Ret (ta1, a, c1) /\ rep t1 ta1 /\ granted alloc c c1 /\
                      (c + (if adds keqb m o then 1 else 0) <= c1 <= c + (if adds keqb m o then 3 else 0))%nat)
                   \/ (exists i, adds keqb m o = true /\ (c <= i < c + 3)%nat /\ granted alloc c i /\ alloc i = false /\
                         a_step keqb hash dflt alloc c ta o = UB NullDeref)).
    { pose proof (a_step_rep c t ta m o m1 a t1 HR HM HL Hn1 HPo HS HT) as HA.
      destruct (adds keqb m o).
      - destruct HA as [(c1 & H1 & H2 & H3)|(i & H1 & H2 & H3 & H4)].
        + left. exists t1, c1. splits; auto; [left; auto|lia|lia].
        + right. exists i. auto.
      - destruct HA as (ta1 & H1 & H2). left. exists ta1, c. pose proof (granted_nil c). splits; auto; lia. }
    destruct STEP as [(ta1 & c1 & HA & HR1 & HG & HC1)|(i & H1 & H2 & H3 & H4 & H5)].
    2:{ right. exists [], o, l, m, [], ta, c, i. cbn. splits; auto; lia. }
    destruct (IH c1 t1 ta1 m1 HR1 HM1 HL1 ltac:(lia) HPl)
      as [(ta' & m' & as_ & c' & B1 & B2 & B3 & B4 & t' & B5 & B6 & B7 & B8)|(l1 & o1 & l2 & m2 & as1 & ta2 & c2 & i & B1 & B2 & B3 & B4 & B5 & B6 & B7 & B8 & B9)].
    - left. exists ta', m', (a :: as_), c'. cbn [a_run spec_run additions]. rewrite HA, HS. cbn [bind]. rewrite B1, B2. cbn [bind].
      splits; try reflexivity; try (eapply granted_app; eauto; fail); try (destruct (adds keqb m o); lia).
      exists t'. splits; auto. cbn [length]. lia.
    - right. exists (o :: l1), o1, l2, m2, (a :: as1), ta2, c2, i. cbn [a_run spec_run additions app]. rewrite HA, HS. cbn [bind]. rewrite B2, B3. cbn [bind].
      splits; auto; try (subst l; reflexivity); try (eapply granted_app; eauto; fail); destruct (adds keqb m o); lia.
  Qed.

  Lemma a_new_rep size : size < 2^28 -> exists t, models hash t [] /\ load_inv t /\ nE t = 0 /\
    rep t (fst (a_new alloc 0 size)) /\ (snd (a_new (K := K) (V := V) alloc 0 size) <= 1)%nat /\
    (alloc 0%nat = true -> fst (a_new alloc 0 size) = new_table (E := entry) size).
  Proof.
    intros Hs. destruct (models_new (V := V) hash size Hs) as [HM HE].
    pose proof (new_load (K := K) (E := entry) fst hash size Hs) as HL.
    assert (Hs' : u32 size < 2^28) by (unfold u32; rewrite N.mod_small; change (2^28) with 268435456 in *; lia).
    unfold a_new, new_table in *. destruct (u32 size =? 0) eqn:E0.
    { exists null_table. cbn [fst snd]. splits; auto. left. auto. }
    unfold a_init. destruct (alloc 0%nat).
    { exists (init (u32 size)). cbn [fst snd]. splits; auto. left. auto. }
    destruct (models_new (V := V) hash 0 ltac:(reflexivity)) as [HM0 HE0].
    pose proof (new_load (K := K) (E := entry) fst hash 0 ltac:(reflexivity)) as HL0.
    exists null_table. cbn [fst snd]. splits; auto; [|discriminate].
    right. cbn. splits; auto. rewrite E0.
    pose proof (compute_bucket_size_bounds (u32 size)) as HB. change (2^31) with 2147483648 in HB.
    change (2^28) with 268435456 in *. change (2^29) with 536870912. lia.
  Qed.

  Lemma out_of_memory size l : size < 2^28 -> N.of_nat (length l) <= 2^28 -> Forall plain l ->
    let '(t0, c0) := a_new alloc 0 size in
    (exists t m answers c, a_run keqb hash dflt alloc c0 t0 l = Ret (t, answers, c) /\ spec_run keqb dflt [] l = Some (m, answers) /\
       granted alloc c0 c /\ (c0 + additions keqb dflt [] l <= c <= c0 + 3 * additions keqb dflt [] l)%nat)
    \/ (exists l1 o l2 m1 as1 t1 c1 i, l = l1 ++ o :: l2 /\ spec_run keqb dflt [] l1 = Some (m1, as1) /\
       a_run keqb hash dflt alloc c0 t0 l1 = Ret (t1, as1, c1) /\ adds keqb m1 o = true /\
       (c1 <= i < c1 + 3)%nat /\ granted alloc c0 i /\ alloc i = false /\ a_step keqb hash dflt alloc c1 t1 o = UB NullDeref).
  Proof.
    intros Hs Hl HP. destruct (a_new_rep size Hs) as (t & HM & HL & HE & HR & _).
    destruct (a_new alloc 0 size) as [t0 c0]. cbn [fst snd] in *.
    destruct (a_run_rep l c0 t t0 [] HR HM HL ltac:(lia) HP)
      as [(ta' & m' & as_ & c' & B1 & B2 & B3 & B4 & _)|(l1 & o1 & l2 & m2 & as1 & ta2 & c2 & i & B1 & B2 & B3 & B4 & B5 & B6 & B7 & B8 & B9)].
    - left. exists ta', m', as_, c'. auto.
    - right. exists l1, o1, l2, m2, as1, ta2, c2, i. splits; auto; lia.
  Qed.

  Lemma next_fails size l t answers c m o : size < 2^28 -> N.of_nat (length l) < 2^28 -> Forall plain l -> plain o ->
    (let '(t0, c0) := a_new alloc 0 size in a_run keqb hash dflt alloc c0 t0 l) = Ret (t, answers, c) ->
    spec_run keqb dflt [] l = Some (m, answers) ->
    (adds keqb m o = true -> alloc c = false -> a_step keqb hash dflt alloc c t o = UB NullDeref) /\
    (adds keqb m o = false -> forall m' a, spec_step keqb dflt m o = Some (m', a) ->
       exists t', a_step keqb hash dflt alloc c t o = Ret (t', a, c)).
  Proof.
    intros Hs Hl HP Hpo HR0 HS. destruct (a_new_rep size Hs) as (t1 & HM & HL & HE & HR & _).
    destruct (a_new alloc 0 size) as [t0 c0]. cbn [fst snd] in *.
    destruct (a_run_rep l c0 t1 t0 [] HR HM HL ltac:(lia) HP)
      as [(ta' & m' & as_ & c' & B1 & B2 & B3 & B4 & t' & B5 & B6 & B7 & B8)|(l1 & o1 & l2 & m2 & as1 & ta2 & c2 & i & B1 & B2 & B3 & B4 & B5 & B6 & B7 & B8 & B9)].
    - rewrite HR0 in B1. injection B1 as <- <- <-. rewrite HS in B2. injection B2 as <-.
      destruct (spec_step_total keqb dflt m o Hpo) as (m1 & a & HS1).
      assert (Hn1 : nE t' < 2^28) by lia.
      destruct (step_ok keqb hash keqb_ok dflt t' m o m1 a B6 Hn1 HS1) as (t2 & HT & HM1 & HnE).
      pose proof (a_step_rep c t' t m o m1 a t2 B5 B6 B7 Hn1 Hpo HS1 HT) as HA.
      split; intros Ha; rewrite Ha in HA.
      + intros Hc. destruct HA as [(c1 & H1 & H2 & H3)|(i & H1 & H2 & H3 & H4)]; auto.
        rewrite (H2 c) in Hc by lia. discriminate.
      + intros m2 a2 HS2. rewrite HS1 in HS2. injection HS2 as <- <-. destruct HA as (ta2 & H1 & _). eauto.
    - exfalso. subst l.
      assert (HB : forall la lb c t, a_run keqb hash dflt alloc c t (la ++ lb) =
                '(t', x, c') <- a_run keqb hash dflt alloc c t la ;; '(t'', y, c'') <- a_run keqb hash dflt alloc c' t' lb ;; Ret (t'', x ++ y, c'')).
      { clear. induction la as [|o la IH]; intros lb c t; cbn [app a_run bind].
        - destruct (a_run keqb hash dflt alloc c t lb) as [[[? ?] ?]| | | |]; reflexivity.
        - destruct (a_step keqb hash dflt alloc c t o) as [[[? ?] ?]| | | |]; cbn [bind]; auto.
          rewrite IH. destruct (a_run keqb hash dflt alloc n t0 la) as [[[? ?] ?]| | | |]; cbn [bind]; auto.
          destruct (a_run keqb hash dflt alloc n0 t1 lb) as [[[? ?] ?]| | | |]; reflexivity. }
      rewrite HB, B3 in HR0. cbn [bind a_run] in HR0. rewrite B8 in HR0. discriminate.
  Qed.
End AllocProof.

(** Loops over a hash table that add entries: lemmas behind HashLoopProps.v. *)
From Verif Require Import Base HashSpec HashModel HashIterSpec HashIterModel HashLoopSpec HashProof HashProof2 HashProof3 HashProof5 HashIterProof.
From Coq Require Import List NArith ZArith Lia Bool Permutation Arith.
From Coq Require Import ZifyBool ZifyNat ZifyN.
Import ListNotations.
Local Open Scope N_scope.

Section Adds.
  Context {K V : Type}.
  Variable keqb : K -> K -> bool.
  Variable hash : K -> N.
  Variable dflt : V.
  Hypothesis keqb_ok : forall a b, reflect (a = b) (keqb a b).
  Notation entry := (K * V)%type.
  Notation bucket := (bucket entry).
  Notation table := (table entry).

  (** every key of [bs] is at its place in [bs'] *)
  Definition grows (bs bs' : list bucket) : Prop :=
    length bs' = length bs /\
    forall j b e, nth_error bs j = Some b -> bslot b = Full e ->
      exists b' e', nth_error bs' j = Some b' /\ bslot b' = Full e' /\ fst e' = fst e.
  Lemma grows_refl bs : grows bs bs.
  Proof. split; auto. intros. eauto. Qed.
  Lemma grows_trans a b c : grows a b -> grows b c -> grows a c.
  Proof.
    intros [L1 H1] [L2 H2]. split; [congruence|]. intros j x e Hb He.
    destruct (H1 _ _ _ Hb He) as (b1 & e1 & Hb1 & He1 & <-). eauto.
  Qed.
  Lemma grows_upd bs i b x : nth_error bs i = Some b ->
    (forall e, bslot b = Full e -> exists e', bslot x = Full e' /\ fst e' = fst e) -> grows bs (upd bs i x).
  Proof.
    intros Hb HX. split; [apply upd_length|]. intros j b' e Hj He. rewrite nth_error_upd.
    destruct (Nat.eqb_spec i j) as [<-|Hn]; [|eauto].
    assert (Hi : (i < length bs)%nat) by (apply nth_error_Some; congruence). rewrite (proj2 (Nat.ltb_lt _ _) Hi).
    rewrite Hb in Hj. injection Hj as <-. destruct (HX _ He) as (e' & ? & ?). eauto.
  Qed.

  Lemma may_rehash_nT (t t' : table) : nT t = 0 -> may_rehash t = Ret t' -> nT t' = 0.
  Proof.
    intros H. unfold may_rehash. destruct (_ <? _); [|destruct (_ <? _)].
    - unfold do_rehash. intros HR. apply bind_ret in HR as (x & _ & [= <-]). reflexivity.
    - unfold do_rehash. intros HR. apply bind_ret in HR as (x & _ & [= <-]). reflexivity.
    - now intros [= <-].
  Qed.

  Lemma insert_grows (t : table) m k mk touch bs t' ex e : models hash t m -> nE t < 2^28 -> nT t = 0 -> tbl t = Some bs ->
    (forall e, fst (touch e) = fst e) ->
    insert fst keqb hash t k mk touch = Ret (t', ex, e) ->
    nT t' = 0 /\ (4 * nE t' <= 3 * nB t -> nB t' = nB t /\ exists bs', tbl t' = Some bs' /\ grows bs bs').
  Proof.
    intros HM Hn H0 Hbs HT HR. pose proof HM as (HI & _ & _).
    destruct (insert_ok fst keqb hash keqb_ok t k mk touch (proj1 HI) Hn) as (t2 & ex2 & e2 & HR2 & HC2 & _ & _ & HnE).
    rewrite HR in HR2. injection HR2 as <- <- <-. change (2^28) with 268435456 in Hn.
    unfold insert in HR.
    destruct (lookup_cases fst keqb hash keqb_ok t k (proj1 HI)) as (bs0 & Hbs0 & HH).
    assert (Hst : started t = t) by (unfold started, isInit; rewrite Hbs; auto).
    rewrite Hst in *. rewrite Hbs in Hbs0. injection Hbs0 as <-.
    destruct HH as [(i & b & e0 & HL & Hb & Hf & Hk)|(i & b & Hb & Hsl & HL & _ & _)]; rewrite HL in HR; cbn [bind] in HR.
    - rewrite Hbs, Hb, Hf in HR. injection HR as <- <- <-. cbn [nT nE nB tbl]. split; auto. intros _. split; auto. eexists. split; [reflexivity|].
      rewrite (set_slot_upd _ _ _ _ Hb). eapply grows_upd; eauto. cbn. intros e' He'. rewrite Hf in He'. injection He' as <-. eauto.
    - pose proof HI as [HC _]. unfold CInv in HC. rewrite Hbs in HC. destruct HC as [[HB HE HT0 Hbig Hpos] Hem].
      assert (Hi : (i < length bs)%nat) by (apply nth_error_Some; congruence).
      assert (Hempty : bslot b = Empty).
      { destruct Hsl as [Hsl|Hsl]; auto. exfalso. assert (Htm : (0 < tombs bs)%nat); [|lia].
        unfold tombs. apply nth_error_In in Hb. assert (HIn : In b (filter is_tomb bs)) by (apply filter_In; split; auto; unfold is_tomb; now rewrite Hsl).
        destruct (filter is_tomb bs); [destruct HIn|cbn; lia]. }
      rewrite Hempty in HR. cbn [tbl] in HR. rewrite nth_error_upd, Nat.eqb_refl, (proj2 (Nat.ltb_lt _ _) Hi) in HR. cbn [bslot nB nE nT] in HR.
      apply bind_ret in HR as (x & HR & [= <- <- <-]). pose proof HR as HR0.
      apply may_rehash_nT in HR0; [|exact H0]. split; [exact HR0|]. intros Hroom.
      assert (HnE' : nE x = nE t + 1).
      { destruct HnE as [(HX & _)|(_ & HX & _)]; [discriminate|exact HX]. }
      rewrite HnE' in Hroom.
      assert (EE : u32 (nE t + 1) = nE t + 1) by (unfold u32; rewrite N.mod_small; lia). rewrite EE in HR. change (2^29) with 536870912 in Hbig.
      rewrite may_rehash_idle in HR; cbn [nB nE nT]; [|change (2^29) with 536870912; lia|lia|unfold load_ok; cbn [nB nE nT]; lia].
      injection HR as <-. cbn [nB tbl]. split; auto. eexists. split; [reflexivity|].
      assert (Hb1 : nth_error (upd bs i (mkB (u32 (hash k)) Empty)) i = Some (mkB (u32 (hash k)) Empty)).
      { rewrite nth_error_upd, Nat.eqb_refl, (proj2 (Nat.ltb_lt _ _) Hi). reflexivity. }
      eapply grows_trans; [eapply (grows_upd bs i b); [exact Hb|rewrite Hempty; discriminate]|].
      rewrite (set_slot_upd _ _ _ _ Hb1). eapply grows_upd; [exact Hb1|]. cbn. discriminate.
  Qed.

  Lemma adds_plain (o : op K V) : adds o -> plain o.
  Proof. destruct o; cbn; tauto. Qed.

  (** without erasing there are no tombstones, whatever the table does *)
  Lemma step_nT (t : table) m o t' a : models hash t m -> nE t < 2^28 -> nT t = 0 -> adds o -> step keqb hash dflt t o = Ret (t', a) -> nT t' = 0.
  Proof.
    intros HM Hn H0 HA HR. pose proof HM as (HI & _ & _).
    assert (Hins : forall k mk touch ex e x, (forall e, fst (touch e) = fst e) -> insert fst keqb hash t k mk touch = Ret (x, ex, e) -> nT x = 0).
    { intros k mk touch ex e x HT Hi. destruct (tbl t) as [bs|] eqn:Hbs.
      - eapply (insert_grows t m k mk touch bs); eauto.
      - (* the first insertion *)
        assert (Hst : started t = init 16) by (unfold started, isInit; now rewrite Hbs).
        unfold insert in Hi. destruct (lookup_cases fst keqb hash keqb_ok t k (proj1 HI)) as (bs0 & Hbs0 & HH). rewrite Hst in *.
        assert (Hall : forall j b, nth_error bs0 j = Some b -> bslot b = Empty).
        { intros j b Hj. apply nth_error_In in Hj. unfold init in Hbs0. cbn [tbl] in Hbs0. injection Hbs0 as <-.
          cbn in Hj. repeat (destruct Hj as [Hj|Hj]; [now subst b|]). destruct Hj. }
        destruct HH as [(i & b & e0 & HL & Hb & Hf & Hk)|(i & b & Hb & Hsl & HL & _ & _)]; [rewrite (Hall _ _ Hb) in Hf; discriminate|].
        rewrite HL in Hi. cbn [bind tbl] in Hi. assert (Hlt : (i < length bs0)%nat) by (apply nth_error_Some; congruence).
        rewrite nth_error_upd, Nat.eqb_refl, (proj2 (Nat.ltb_lt _ _) Hlt), (Hall _ _ Hb) in Hi. cbn [bslot nB nE nT] in Hi.
        apply bind_ret in Hi as (y & Hi & [= <- <- <-]). eapply may_rehash_nT; [|exact Hi]. reflexivity. }
    destruct o as [k|k v|k|k| | | | |n]; cbn in HA; try tauto; cbn [step] in HR; try (injection HR as <- _; auto; fail).
    - apply bind_ret in HR as ([[x ex] e] & Hi & [= <- _]). eapply Hins; [|exact Hi]. reflexivity.
    - apply bind_ret in HR as ([[x ex] e] & Hi & [= <- _]). eapply Hins; [|exact Hi]. reflexivity.
    - apply bind_ret in HR as (x & Hi & [= <- _]). auto.
    - apply bind_ret in HR as (x & Hi & [= <- _]). eapply may_rehash_nT; eauto.
  Qed.
  Lemma run_nT l : forall (t : table) m m' as_, models hash t m -> nE t + N.of_nat (length l) <= 2^28 -> nT t = 0 -> Forall adds l ->
    spec_run keqb dflt m l = Some (m', as_) -> exists t', run keqb hash dflt t l = Ret (t', as_) /\ nT t' = 0.
  Proof.
    change (2^28) with 268435456. induction l as [|o l IH]; cbn [spec_run run]; intros t m m' as_ HM Hn H0 HF HS.
    - injection HS as <- <-. eauto.
    - destruct (spec_step keqb dflt m o) as [[m1 a]|] eqn:E1; [|discriminate].
      destruct (spec_run keqb dflt m1 l) as [[m2 as2]|] eqn:E2; [|discriminate]. injection HS as <- <-.
      assert (Hn1 : nE t < 2^28) by (change (2^28) with 268435456; cbn [length] in Hn; lia).
      destruct (step_ok keqb hash keqb_ok dflt t m o m1 a HM Hn1 E1) as (t1 & HR & HM1 & Hn2). inversion HF as [|? ? HA HF']; subst.
      pose proof (step_nT t m o t1 a HM Hn1 H0 HA HR) as H1. rewrite HR. cbn [bind].
      destruct (IH t1 m1 m2 as2 HM1) as (t2 & HR2 & H2); auto; [cbn [length] in Hn; lia|].
      rewrite HR2. cbn [bind]. eauto.
  Qed.

  (** nothing is removed *)
  Lemma adds_keys (m : fmap K V) o m' a : adds o -> spec_step keqb dflt m o = Some (m', a) -> forall k, has keqb m k = true -> has keqb m' k = true.
  Proof.
    intros HA HS k Hk. destruct o as [k0|k0 v|k0|k0| | | | |n]; cbn in HA, HS; try tauto; try (injection HS as <- _; auto; fail).
    - unfold has in *. destruct (get keqb m k0) eqn:E; injection HS as <- _; auto. rewrite (get_put keqb keqb_ok). destruct (keqb k0 k); auto.
    - injection HS as <- _. unfold has in *. rewrite (get_put keqb keqb_ok). destruct (keqb k0 k); auto.
  Qed.
  Lemma adds_run_keys l : forall (m : fmap K V) m' as_, Forall adds l -> spec_run keqb dflt m l = Some (m', as_) ->
    forall k, has keqb m k = true -> has keqb m' k = true.
  Proof.
    induction l as [|o l IH]; cbn [spec_run]; intros m m' as_ HF HS k Hk; [injection HS as <- _; auto|].
    destruct (spec_step keqb dflt m o) as [[m1 a]|] eqn:E1; [|discriminate].
    destruct (spec_run keqb dflt m1 l) as [[m2 as2]|] eqn:E2; [|discriminate]. injection HS as <- _. inversion HF; subst.
    eapply IH; eauto. eapply adds_keys; eauto.
  Qed.
  Lemma adds_card l (m m' : fmap K V) as_ : NoDup (map fst m) -> Forall adds l -> spec_run keqb dflt m l = Some (m', as_) -> card m <= card m'.
  Proof.
    intros HN HF HS. unfold card. rewrite <- (map_length fst m'), <- (map_length fst m).
    assert (H : (length (map fst m) <= length (map fst m'))%nat); [|lia]. apply NoDup_incl_length; auto. intros k Hk.
    apply (has_in keqb keqb_ok). eapply adds_run_keys; eauto. unfold has. destruct (get keqb m k) eqn:G; auto.
    apply (get_None keqb keqb_ok) in G. tauto.
  Qed.

  Lemma step_adds (t : table) m o m' a bs : models hash t m -> nE t < 2^28 -> load_inv t -> nT t = 0 -> tbl t = Some bs ->
    adds o -> spec_step keqb dflt m o = Some (m', a) -> 4 * card m' <= 3 * nB t ->
    exists t' bs', step keqb hash dflt t o = Ret (t', a) /\ models hash t' m' /\ load_inv t' /\ nT t' = 0 /\ nB t' = nB t /\
      tbl t' = Some bs' /\ grows bs bs'.
  Proof.
    intros HM Hn HL H0 Hbs HA HS Hroom.
    destruct (step_ok keqb hash keqb_ok dflt t m o m' a HM Hn HS) as (t' & HR & HM' & _).
    pose proof (step_load keqb hash dflt keqb_ok t m o m' a t' HM Hn HL (adds_plain _ HA) HS HR) as HL'.
    pose proof (step_nT t m o t' a HM Hn H0 HA HR) as H0'. rewrite <- (models_card _ _ _ HM') in Hroom.
    assert (HT : nB t' = nB t /\ exists bs', tbl t' = Some bs' /\ grows bs bs').
    { pose proof HM as (HI & _ & _).
      destruct o as [k|k v|k|k| | | | |n]; cbn [step] in HR; cbn in HA; try tauto;
        try (injection HR as <- _; split; [auto|exists bs; split; [auto|apply grows_refl]]; fail).
      - apply bind_ret in HR as ([[x ex] e] & Hi & [= <- _]). eapply (insert_grows t m k _ (fun e => e)); eauto.
      - apply bind_ret in HR as ([[x ex] e] & Hi & [= <- _]). eapply (insert_grows t m k _ (fun e => (fst e, v))); eauto.
      - apply bind_ret in HR as (x & Hi & [= <- _]). split; auto. exists bs; split; [auto|apply grows_refl].
      - apply bind_ret in HR as (x & Hi & [= <- _]). unfold rehash in Hi.
        destruct HI as [HC _]. unfold CInv in HC. rewrite Hbs in HC. destruct HC as [[HB HE HT Hbig Hpos] Hem].
        pose proof (count_total bs). rewrite may_rehash_idle in Hi; [|auto|lia|apply HL].
        injection Hi as <-. split; auto. exists bs; split; [auto|apply grows_refl]. }
    destruct HT as (HB & bs' & Ht' & Hg). exists t', bs'. splits; auto.
  Qed.

  Lemma run_adds l : forall (t : table) m bs m' as_, models hash t m -> load_inv t -> nT t = 0 -> tbl t = Some bs ->
    Forall adds l -> spec_run keqb dflt m l = Some (m', as_) -> 4 * card m' <= 3 * nB t -> card m' < 2^28 ->
    exists t' bs', run keqb hash dflt t l = Ret (t', as_) /\ models hash t' m' /\ load_inv t' /\ nT t' = 0 /\ nB t' = nB t /\
      tbl t' = Some bs' /\ grows bs bs'.
  Proof.
    induction l as [|o l IH]; cbn [spec_run run]; intros t m bs m' as_ HM HL H0 Hbs HF HS Hroom Hc.
    - injection HS as <- <-. exists t, bs. pose proof (grows_refl bs). splits; auto.
    - pose proof (adds_card (o :: l) m m' as_ (proj1 (proj2 HM)) HF) as Hc0. cbn [spec_run] in Hc0.
      destruct (spec_step keqb dflt m o) as [[m1 a]|] eqn:E1; [|discriminate].
      destruct (spec_run keqb dflt m1 l) as [[m2 as2]|] eqn:E2; [|discriminate]. specialize (Hc0 HS). injection HS as <- <-. inversion HF as [|? ? HA HF']; subst.
      assert (Hn : nE t < 2^28) by (rewrite (models_card _ _ _ HM); lia).
      destruct (step_ok keqb hash keqb_ok dflt t m o m1 a HM Hn E1) as (t9 & _ & HM9 & _).
      pose proof (adds_card l m1 m2 as2 (proj1 (proj2 HM9)) HF' E2) as Hc1.
      destruct (step_adds t m o m1 a bs HM Hn HL H0 Hbs HA E1) as (t1 & bs1 & HR1 & HM1 & HL1 & H01 & HB1 & Hbs1 & Hg1); [lia|].
      destruct (IH t1 m1 bs1 m2 as2 HM1 HL1 H01 Hbs1 HF' E2) as (t2 & bs2 & HR2 & HM2 & HL2 & H02 & HB2 & Hbs2 & Hg2); [lia|auto|].
      exists t2, bs2. rewrite HR1. cbn [bind]. rewrite HR2. cbn [bind]. splits; auto; [lia|eapply grows_trans; eauto].
  Qed.

  Variable body : list entry -> list (op K V).
  Notation reaches := (reaches keqb dflt body).

  Lemma sweep_adds m B f : (forall seen, Forall adds (body seen)) ->
    (forall seen m1, reaches m seen m1 -> 4 * card m1 <= 3 * B /\ card m1 < 2^28) ->
    forall seen m1 (t : table) bs i b e, reaches m seen m1 -> models hash t m1 -> load_inv t -> nT t = 0 -> nB t = B ->
    tbl t = Some bs -> nth_error bs i = Some b -> bslot b = Full e ->
    (length bs <= f + i)%nat ->
    (forall k, In k (map fst seen) -> exists j b e, (j < i)%nat /\ nth_error bs j = Some b /\ bslot b = Full e /\ fst e = k) ->
    (forall k, has keqb m k = true -> In k (map fst seen) \/
       exists j b e, (i <= j)%nat /\ nth_error bs j = Some b /\ bslot b = Full e /\ fst e = k) ->
    exists t' seen' m', sweep keqb hash dflt body f t (Some i) seen = Ret (t', seen') /\
      reaches m seen' m' /\ (forall k, has keqb m k = true -> In k (map fst seen')) /\ models hash t' m' /\ load_inv t'.
  Proof.
    intros HO HQ. induction f as [|f IH]; intros seen m1 t bs i b e HR HM HL H0 HB Hbs Hb He Hf HA HC.
    - exfalso. assert (i < length bs)%nat by (apply nth_error_Some; congruence). lia.
    - assert (HG : get keqb m1 (fst e) = Some (snd e)).
      { eapply models_in; eauto. unfold tents. rewrite Hbs. apply in_ents. destruct e; eauto. }
      pose proof HM as (HI1 & _ & _). destruct HI1 as [_ HP1]. rewrite Hbs in HP1. destruct HP1 as [_ HND1].
      assert (HF : fresh keqb seen m1 e).
      { split; [auto|]. intros Hin. destruct (HA _ Hin) as (j & b1 & e1 & Hj & Hb1 & He1 & Hk).
        assert (j = i) by (eapply (ents_distinct bs HND1 j i b1 b e1 e); eauto). lia. }
      assert (HS2 : exists m2 as2, spec_run keqb dflt m1 (body (seen ++ [e])) = Some (m2, as2)).
      { apply spec_run_total. eapply Forall_impl; [|apply HO]. apply adds_plain. }
      destruct HS2 as (m2 & as2 & HS2). assert (HRe : reaches m (seen ++ [e]) m2) by (eapply R_visit; eauto).
      destruct (HQ _ _ HRe) as [Hroom Hcard]. rewrite <- HB in Hroom.
      destruct (run_adds _ t m1 bs m2 as2 HM HL H0 Hbs (HO _) HS2 Hroom Hcard) as (t2 & bs2 & HR2 & HM2 & HL2 & H02 & HB2 & Hbs2 & Hlen & Hkeep).
      cbn [sweep]. unfold deref at 1. rewrite Hbs, Hb, He. cbn [bind]. rewrite HR2. cbn [bind]. unfold advance. rewrite Hbs2.
      pose proof HM2 as (HI2 & _ & _). pose proof HI2 as [HC2 _]. unfold CInv in HC2. rewrite Hbs2 in HC2.
      destruct HC2 as [[HnB _ _ _ _] _]. rewrite HnB.
      assert (Hi : (i < length bs)%nat) by (apply nth_error_Some; congruence).
      assert (HA2 : forall k, In k (map fst (seen ++ [e])) -> exists j b e, (j <= i)%nat /\ nth_error bs2 j = Some b /\ bslot b = Full e /\ fst e = k).
      { intros k Hk. rewrite map_app in Hk. apply in_app_or in Hk as [Hk|[<-|[]]].
        - destruct (HA _ Hk) as (j & b1 & e1 & Hj & Hb1 & He1 & <-). destruct (Hkeep _ _ _ Hb1 He1) as (b3 & e3 & ? & ? & ?).
          exists j, b3, e3. splits; auto; lia.
        - destruct (Hkeep _ _ _ Hb He) as (b3 & e3 & ? & ? & ?). exists i, b3, e3. splits; auto; lia. }
      assert (HC3 : forall k, has keqb m k = true -> In k (map fst (seen ++ [e])) \/
        exists j b e, (i < j)%nat /\ nth_error bs2 j = Some b /\ bslot b = Full e /\ fst e = k).
      { intros k Hk. rewrite map_app, in_app_iff. destruct (HC k Hk) as [Hin|(j & b1 & e1 & Hj & Hb1 & He1 & <-)]; [auto|].
        destruct (Nat.eq_dec j i) as [->|].
        - left. right. rewrite Hb in Hb1. injection Hb1 as <-. rewrite He in He1. injection He1 as <-. cbn. auto.
        - right. destruct (Hkeep _ _ _ Hb1 He1) as (b3 & e3 & ? & ? & ?). exists j, b3, e3. splits; auto; lia. }
      destruct (advance_next bs2 (S (length bs2)) i) as [[-> HZ]|(j & b2 & e2 & -> & Hj & Hb2 & He2 & HZ)]; [lia|lia| |].
      + cbn [bind]. exists t2, (seen ++ [e]), m2.
        assert (Hall : forall k, has keqb m k = true -> In k (map fst (seen ++ [e]))).
        { intros k Hk. destruct (HC3 k Hk) as [|(j & b1 & e1 & Hj & Hb1 & He1 & _)]; auto. exfalso. exact (HZ j b1 e1 Hj Hb1 He1). }
        destruct f; cbn [sweep]; splits; auto.
      + cbn [bind].
        destruct (IH (seen ++ [e]) m2 t2 bs2 j b2 e2 HRe HM2 HL2 H02 ltac:(lia) Hbs2 Hb2 He2) as (t' & seen' & m' & HW & HX & HY & HM' & HL'); [lia| | |].
        * intros k Hk. destruct (HA2 k Hk) as (j' & b' & e' & Hj' & Hr). exists j', b', e'. split; [lia|exact Hr].
        * intros k Hk. destruct (HC3 k Hk) as [|(j' & b' & e' & Hj' & Hb' & He' & Hr)]; [auto|]. right. exists j', b', e'. splits; auto.
          destruct (Nat.le_gt_cases j j') as [Hle|Hgt]; auto. exfalso. exact (HZ j' b' e' (conj Hj' Hgt) Hb' He').
        * exists t', seen', m'. splits; auto.
  Qed.

  Lemma loop_adds m (t : table) : (forall seen, Forall adds (body seen)) ->
    (forall seen m1, reaches m seen m1 -> 4 * card m1 <= 3 * nB t /\ card m1 < 2^28) ->
    models hash t m -> load_inv t -> nT t = 0 ->
    exists t' seen m', loop keqb hash dflt body (N.to_nat (nB t)) t = Ret (t', seen) /\
      reaches m seen m' /\ (forall k, has keqb m k = true -> In k (map fst seen)) /\ models hash t' m' /\ load_inv t'.
  Proof.
    intros HO HQ HM HL H0. unfold loop, begin_iter. pose proof HM as (HI & HND & HP).
    pose proof (models_card _ _ _ HM) as Hcard.
    destruct (N.eqb_spec (nE t) 0) as [E0|E0].
    - assert (m = []) as ->. { unfold card in Hcard. destruct m; auto. cbn in Hcard. lia. }
      cbn [bind]. exists t, [], []. destruct (N.to_nat (nB t)); cbn; splits; auto; try constructor; intros k Hk; discriminate.
    - pose proof HI as [HC HPI]. unfold CInv in HC. destruct (tbl t) as [bs|] eqn:Hbs; [|lia].
      assert (He : exists j b e, (0 <= j)%nat /\ nth_error bs j = Some b /\ bslot b = Full e).
      { destruct HC as [[_ HnE _ _ _] _]. destruct (ents bs) as [|e l] eqn:Ee; [cbn in HnE; lia|].
        assert (Hin : In e (ents bs)) by (rewrite Ee; cbn; auto). apply in_ents in Hin as (j & b & H1 & H2). exists j, b, e. splits; auto. lia. }
      destruct (scan_next bs (length bs) 0 ltac:(lia) He) as (j & b & e & -> & Hj & Hb & Hf & HZ). cbn [bind].
      destruct HC as [[HnB _ _ _ _] _].
      destruct (sweep_adds m (nB t) (N.to_nat (nB t)) HO HQ [] m t bs j b e) as (t' & seen' & m' & HW & HX); auto.
      + constructor.
      + lia.
      + intros k [].
      + intros k Hk. right. apply (has_in keqb keqb_ok) in Hk. apply (Permutation_in _ (Permutation_map fst HP)) in Hk. unfold tents in Hk.
        rewrite Hbs in Hk. apply in_map_iff in Hk as (e0 & Hk & Hin). apply in_ents in Hin as (j' & b0 & Hb0 & He0). exists j', b0, e0. splits; auto.
        destruct (Nat.le_gt_cases j j') as [Hle|Hgt]; auto. exfalso. refine (HZ j' b0 e0 _ Hb0 He0). lia.
      + exists t', seen', m'. splits; auto; apply HX.
  Qed.
End Adds.

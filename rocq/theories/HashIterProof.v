(** Loops over a hash table that change it: lemmas behind HashIterProps.v. *)
From Verif Require Import Base HashSpec HashModel HashIterSpec HashIterModel HashProof HashProof2 HashProof3 HashProof5.
From Coq Require Import List NArith ZArith Lia Bool Permutation Arith.
From Coq Require Import ZifyBool ZifyNat ZifyN.
Import ListNotations.
Local Open Scope N_scope.

Section Quiet.
  Context {K V : Type}.
  Variable keqb : K -> K -> bool.
  Variable hash : K -> N.
  Variable dflt : V.
  Hypothesis keqb_ok : forall a b, reflect (a = b) (keqb a b).
  Notation entry := (K * V)%type.
  Notation bucket := (bucket entry).
  Notation table := (table entry).

  (** [bs'] arises from [bs] without moving or adding a key *)
  Definition still (bs bs' : list bucket) : Prop :=
    length bs' = length bs /\
    forall j b' e', nth_error bs' j = Some b' -> bslot b' = Full e' ->
      exists b e, nth_error bs j = Some b /\ bslot b = Full e /\ fst e = fst e'.

  Lemma still_refl bs : still bs bs.
  Proof. split; auto. intros. eauto. Qed.

  Lemma still_trans a b c : still a b -> still b c -> still a c.
  Proof.
    intros [L1 H1] [L2 H2]. split; [congruence|]. intros j b' e' Hb He.
    destruct (H2 _ _ _ Hb He) as (b1 & e1 & Hb1 & He1 & <-). eauto.
  Qed.

  Lemma still_upd bs i b x : nth_error bs i = Some b ->
    (forall e', bslot x = Full e' -> exists e, bslot b = Full e /\ fst e = fst e') -> still bs (upd bs i x).
  Proof.
    intros Hb HX. split; [apply upd_length|]. intros j b' e' Hj He.
    rewrite nth_error_upd in Hj. destruct (Nat.eqb_spec i j) as [<-|Hn]; [|eauto].
    destruct (Nat.ltb i (length bs)); [|discriminate]. injection Hj as <-.
    destruct (HX _ He) as (e & ? & ?). eauto.
  Qed.

  (** under the load bounds mayRehash leaves the table alone *)
  Lemma may_rehash_idle (t : table) : nB t < 2^29 -> nE t + nT t <= nB t -> load_ok t -> may_rehash t = Ret t.
  Proof.
    intros Hb Hs [L1 L2]. change (2^29) with 536870912 in Hb. unfold may_rehash.
    assert (E3 : u32 (nB t * 3) = nB t * 3) by (unfold u32; rewrite N.mod_small; lia).
    assert (E4 : u32 (nE t * 4) = nE t * 4) by (unfold u32; rewrite N.mod_small; lia).
    assert (Esub : sub32 (nB t) (nE t + nT t) = nB t - (nE t + nT t)).
    { unfold sub32, u32. rewrite (N.mod_small (nE t + nT t)) by lia.
      replace (nB t + 4294967296 - (nE t + nT t)) with (nB t - (nE t + nT t) + 1 * 4294967296) by lia.
      rewrite N.mod_add by lia. apply N.mod_small. lia. }
    rewrite Esub, E3, E4.
    assert (E8 : u32 ((nB t - (nE t + nT t)) * 8) = (nB t - (nE t + nT t)) * 8).
    { unfold u32. rewrite N.mod_small; lia. }
    rewrite E8.
    destruct (N.ltb_spec (nB t * 3) (nE t * 4)); [lia|].
    destruct (N.ltb_spec ((nB t - (nE t + nT t)) * 8) (nB t)); [lia|]. reflexivity.
  Qed.

  Lemma erase_still t k bs t' ex : CInv t -> load_ok t -> tbl t = Some bs ->
    erase fst keqb hash t k = Ret (t', ex) -> exists bs', tbl t' = Some bs' /\ still bs bs'.
  Proof.
    intros HC HL Hbs. unfold erase.
    destruct (find_key_cases fst keqb hash keqb_ok t k HC) as [(bs0 & i & b & e & Hbs' & -> & Hb & Hf & Hk)|[-> _]];
      cbn [bind]; [|intros [= <- _]; exists bs; split; [auto|apply still_refl]].
    rewrite Hbs in Hbs' |- *. injection Hbs' as <-. rewrite (set_slot_upd _ _ _ _ Hb).
    unfold CInv in HC. rewrite Hbs in HC. destruct HC as [[HB HE HT Hbig Hpos] Hem].
    change (2^29) with 536870912 in Hbig. destruct HL as [L1 L2].
    pose proof (count_total bs) as Hct.
    assert (Hin : (0 < length (ents bs))%nat).
    { assert (H : In e (ents bs)) by (apply in_ents; eauto). destruct (ents bs); [destruct H|cbn; lia]. }
    assert (EE : sub32 (nE t) 1 = nE t - 1).
    { unfold sub32, u32. rewrite (N.mod_small 1) by lia.
      replace (nE t + 4294967296 - 1) with (nE t - 1 + 1 * 4294967296) by lia.
      rewrite N.mod_add by lia. apply N.mod_small. lia. }
    assert (ET : u32 (nT t + 1) = nT t + 1) by (unfold u32; rewrite N.mod_small; lia).
    rewrite EE, ET. rewrite may_rehash_idle; cbn [nB nE nT]; [|change (2^29) with 536870912; lia|lia|unfold load_ok; cbn [nB nE nT]; lia].
    cbn [bind]. intros [= <- _]. cbn [tbl]. eexists. split; [reflexivity|].
    eapply still_upd; eauto. cbn. discriminate.
  Qed.

  Lemma insert_still t m k mk touch bs t' ex e : models hash t m -> has keqb m k = true -> tbl t = Some bs ->
    (forall e, fst (touch e) = fst e) ->
    insert fst keqb hash t k mk touch = Ret (t', ex, e) -> exists bs', tbl t' = Some bs' /\ still bs bs'.
  Proof.
    intros HM Hh Hbs HT. pose proof HM as (HI & _ & _). unfold insert.
    destruct (lookup_cases fst keqb hash keqb_ok t k (proj1 HI)) as (bs0 & Hbs0 & HH).
    assert (Hst : started t = t) by (unfold started, isInit; rewrite Hbs; auto).
    rewrite Hst in *. rewrite Hbs in Hbs0. injection Hbs0 as <-.
    destruct HH as [(i & b & e0 & -> & Hb & Hf & Hk)|(i & b & Hb & Hsl & _ & _ & Hno)].
    - cbn [bind]. rewrite Hbs, Hb, Hf. intros [= <- _ _]. cbn [tbl]. eexists. split; [reflexivity|].
      rewrite (set_slot_upd _ _ _ _ Hb). eapply still_upd; eauto. cbn. intros e' [= <-]. eauto.
    - exfalso. specialize (Hno HI). unfold has in Hh. rewrite (models_notin keqb hash keqb_ok t m k HM Hno) in Hh. discriminate.
  Qed.

  Lemma quiet_plain (m : fmap K V) o : quiet keqb m o -> plain o.
  Proof. destruct o; cbn; tauto. Qed.

  Lemma quiet_keys (m : fmap K V) o m' a : quiet keqb m o -> spec_step keqb dflt m o = Some (m', a) ->
    forall k, has keqb m' k = true -> has keqb m k = true.
  Proof.
    intros HQ HS k Hk. destruct o as [k0|k0 v|k0|k0| | | | |n]; cbn in HQ, HS; try tauto; try (injection HS as <- _; auto; fail).
    - unfold has in HQ. destruct (get keqb m k0); [|discriminate]. injection HS as <- _. auto.
    - injection HS as <- _. unfold has in *. rewrite (get_put keqb keqb_ok) in Hk.
      destruct (keqb_ok k0 k) as [E|_]; [rewrite <- E|]; auto.
    - injection HS as <- _. unfold has in *. rewrite (get_del keqb keqb_ok) in Hk. destruct (keqb k0 k); [discriminate|auto].
  Qed.

  Lemma quiet_card (m : fmap K V) o m' a : NoDup (map fst m') -> quiet keqb m o -> spec_step keqb dflt m o = Some (m', a) ->
    card m' <= card m.
  Proof.
    intros HN HQ HS. unfold card. rewrite <- (map_length fst m'), <- (map_length fst m).
    assert (H : (length (map fst m') <= length (map fst m))%nat); [|lia].
    apply NoDup_incl_length; auto. intros k Hk.
    assert (Hh : has keqb m k = true).
    { apply (quiet_keys m o m' a HQ HS). unfold has. destruct (get keqb m' k) eqn:G; auto.
      apply (get_None keqb keqb_ok) in G. tauto. }
    unfold has in Hh. destruct (in_dec (fun x y => reflect_dec _ _ (keqb_ok x y)) k (map fst m)) as [|Hni]; auto.
    apply (get_None keqb keqb_ok) in Hni. rewrite Hni in Hh. discriminate.
  Qed.

  Lemma step_quiet t m o m' a bs : models hash t m -> nE t < 2^28 -> load_inv t -> tbl t = Some bs ->
    quiet keqb m o -> spec_step keqb dflt m o = Some (m', a) ->
    exists t' bs', step keqb hash dflt t o = Ret (t', a) /\ models hash t' m' /\ nE t' <= nE t /\ load_inv t' /\
      tbl t' = Some bs' /\ still bs bs'.
  Proof.
    intros HM Hn HL Hbs HQ HS.
    destruct (step_ok keqb hash keqb_ok dflt t m o m' a HM Hn HS) as (t' & HR & HM' & _).
    pose proof (step_load keqb hash dflt keqb_ok t m o m' a t' HM Hn HL (quiet_plain _ _ HQ) HS HR) as HL'.
    assert (HnE : nE t' <= nE t).
    { rewrite (models_card _ _ _ HM), (models_card _ _ _ HM'). eapply quiet_card; eauto. apply HM'. }
    assert (HT : exists bs', tbl t' = Some bs' /\ still bs bs').
    { pose proof HM as (HI & _ & _).
      destruct o as [k|k v|k|k| | | | |n]; cbn [step] in HR; cbn in HQ; try tauto;
        try (injection HR as <- _; exists bs; split; [auto|apply still_refl]).
      - apply bind_ret in HR as ([[x ex] e] & Hi & [= <- _]). eapply (insert_still t m k _ (fun e => e)); eauto.
      - apply bind_ret in HR as ([[x ex] e] & Hi & [= <- _]). eapply (insert_still t m k _ (fun e => (fst e, v))); eauto.
      - apply bind_ret in HR as ([x ex] & Hi & [= <- _]). eapply erase_still; eauto; [apply HI|apply HL].
      - apply bind_ret in HR as (x & Hi & [= <- _]). exists bs; split; [auto|apply still_refl].
      - apply bind_ret in HR as (x & Hi & [= <- _]). unfold rehash in Hi.
        destruct HI as [HC _]. unfold CInv in HC. rewrite Hbs in HC. destruct HC as [[HB HE HT Hbig Hpos] Hem].
        pose proof (count_total bs). rewrite may_rehash_idle in Hi; [|auto|lia|apply HL].
        injection Hi as <-. exists bs; split; [auto|apply still_refl]. }
    destruct HT as (bs' & Ht' & Hst). exists t', bs'. splits; auto.
  Qed.

  Lemma quiet_total (m : fmap K V) o : quiet keqb m o -> exists m' a, spec_step keqb dflt m o = Some (m', a).
  Proof. intros HQ. apply spec_step_total. eapply quiet_plain; eauto. Qed.

  Lemma run_quiet l : forall t m bs, models hash t m -> nE t < 2^28 -> load_inv t -> tbl t = Some bs ->
    quiet_run keqb dflt m l ->
    exists t' bs' m' as_, run keqb hash dflt t l = Ret (t', as_) /\ spec_run keqb dflt m l = Some (m', as_) /\
      models hash t' m' /\ nE t' <= nE t /\ load_inv t' /\ tbl t' = Some bs' /\ still bs bs' /\
      (forall k, has keqb m' k = true -> has keqb m k = true).
  Proof.
    induction l as [|o l IH]; intros t m bs HM Hn HL Hbs HQ.
    - exists t, bs, m, []. cbn. pose proof (still_refl bs). splits; auto. lia.
    - cbn in HQ. destruct HQ as [HQ HQl]. destruct (quiet_total m o HQ) as (m1 & a & HS). rewrite HS in HQl.
      destruct (step_quiet t m o m1 a bs HM Hn HL Hbs HQ HS) as (t1 & bs1 & HR1 & HM1 & Hn1 & HL1 & Hbs1 & Hst1).
      destruct (IH t1 m1 bs1 HM1 ltac:(lia) HL1 Hbs1 HQl) as (t2 & bs2 & m2 & as2 & HR2 & HS2 & HM2 & Hn2 & HL2 & Hbs2 & Hst2 & HK).
      exists t2, bs2, m2, (a :: as2). cbn [run spec_run]. rewrite HR1, HS. cbn [bind]. rewrite HR2, HS2. cbn [bind].
      splits; auto; [lia|eapply still_trans; eauto|]. intros k Hk. eapply quiet_keys; eauto.
  Qed.

  (** advance goes to the next occupied bucket *)
  Lemma advance_next (bs : list bucket) f : forall i,
    (i < length bs)%nat -> (length bs - i <= f)%nat ->
    (advance_loop f bs (N.of_nat (length bs)) i = Ret None /\
     forall j b e, (i < j)%nat -> nth_error bs j = Some b -> bslot b <> Full e)
    \/ exists j b e, advance_loop f bs (N.of_nat (length bs)) i = Ret (Some j) /\ (i < j)%nat /\
         nth_error bs j = Some b /\ bslot b = Full e /\
         (forall j' b' e', (i < j' < j)%nat -> nth_error bs j' = Some b' -> bslot b' <> Full e').
  Proof.
    induction f as [|f IH]; intros i Hi Hf; [lia|]. cbn [advance_loop].
    destruct (N.eqb_spec (N.of_nat (length bs)) (N.of_nat (S i))) as [El|El].
    - left. split; auto. intros j b e Hj Hb. assert (j < length bs)%nat by (apply nth_error_Some; congruence). lia.
    - destruct (nth_error_ex bs (S i)) as (b & Hb); [lia|]. rewrite Hb.
      assert (Hskip : forall R, (forall e, bslot b <> Full e) ->
        ((R = Ret None /\ forall j b e, (S i < j)%nat -> nth_error bs j = Some b -> bslot b <> Full e)
         \/ exists j b e, R = Ret (Some j) /\ (S i < j)%nat /\ nth_error bs j = Some b /\ bslot b = Full e /\
              (forall j' b' e', (S i < j' < j)%nat -> nth_error bs j' = Some b' -> bslot b' <> Full e')) ->
        ((R = Ret None /\ forall j b e, (i < j)%nat -> nth_error bs j = Some b -> bslot b <> Full e)
         \/ exists j b e, R = Ret (Some j) /\ (i < j)%nat /\ nth_error bs j = Some b /\ bslot b = Full e /\
              (forall j' b' e', (i < j' < j)%nat -> nth_error bs j' = Some b' -> bslot b' <> Full e'))).
      { intros R HN [[-> HA]|(j & b1 & e1 & -> & Hj & Hb1 & He1 & HA)].
        - left. split; auto. intros j b1 e1 Hj Hb1. destruct (Nat.eq_dec j (S i)) as [->|]; [|apply (HA j); [lia|auto]].
          rewrite Hb in Hb1. injection Hb1 as <-. apply HN.
        - right. exists j, b1, e1. splits; auto; [lia|]. intros j' b' e' Hj' Hb'.
          destruct (Nat.eq_dec j' (S i)) as [->|]; [|apply (HA j'); [lia|auto]]. rewrite Hb in Hb'. injection Hb' as <-. apply HN. }
      destruct (bslot b) as [| |e] eqn:Eb.
      + apply Hskip; [discriminate|]. apply IH; lia.
      + apply Hskip; [discriminate|]. apply IH; lia.
      + right. exists (S i), b, e. splits; auto; lia.
  Qed.

  Lemma scan_next (bs : list bucket) f : forall i, (length bs - i <= f)%nat ->
    (exists j b e, (i <= j)%nat /\ nth_error bs j = Some b /\ bslot b = Full e) ->
    exists j b e, scan f bs i = Ret j /\ (i <= j)%nat /\ nth_error bs j = Some b /\ bslot b = Full e /\
      (forall j' b' e', (i <= j' < j)%nat -> nth_error bs j' = Some b' -> bslot b' <> Full e').
  Proof.
    induction f as [|f IH]; intros i Hf (j0 & b0 & e0 & Hj0 & Hb0 & He0).
    - assert (j0 < length bs)%nat by (apply nth_error_Some; congruence). lia.
    - assert (Hlt : (j0 < length bs)%nat) by (apply nth_error_Some; congruence).
      destruct (nth_error_ex bs i) as (b & Hb); [lia|]. cbn [scan]. rewrite Hb.
      assert (Hskip : (forall e, bslot b <> Full e) ->
        exists j b e, scan f bs (S i) = Ret j /\ (i <= j)%nat /\ nth_error bs j = Some b /\ bslot b = Full e /\
          (forall j' b' e', (i <= j' < j)%nat -> nth_error bs j' = Some b' -> bslot b' <> Full e')).
      { intros HN. destruct (IH (S i)) as (j & b1 & e1 & HR & Hj & Hb1 & He1 & HA); [lia| |].
        - exists j0, b0, e0. splits; auto. destruct (Nat.eq_dec j0 i) as [->|]; [|lia]. exfalso.
          rewrite Hb in Hb0. injection Hb0 as <-. apply (HN _ He0).
        - exists j, b1, e1. splits; auto; [lia|]. intros j' b' e' Hj' Hb'.
          destruct (Nat.eq_dec j' i) as [->|]; [|apply (HA j'); [lia|auto]]. rewrite Hb in Hb'. injection Hb' as <-. apply HN. }
      destruct (bslot b) as [| |e] eqn:Eb.
      + apply Hskip; discriminate.
      + apply Hskip; discriminate.
      + exists i, b, e. splits; auto; lia.
  Qed.

  Lemma ents_distinct (bs : list bucket) : NoDup (map fst (ents bs)) ->
    forall i j b b' e e', nth_error bs i = Some b -> nth_error bs j = Some b' -> bslot b = Full e -> bslot b' = Full e' ->
      fst e = fst e' -> i = j.
  Proof.
    induction bs as [|x bs IH]; intros HN [|i] [|j] b b' e e' Hi Hj He He' Hk; cbn in Hi, Hj; try discriminate; auto;
      rewrite ents_cons, map_app in HN.
    - exfalso. injection Hi as ->. rewrite He in HN. cbn in HN. inversion HN as [|? ? Hni _]; subst. apply Hni. rewrite Hk.
      apply in_map. apply in_ents. eauto.
    - exfalso. injection Hj as ->. rewrite He' in HN. cbn in HN. inversion HN as [|? ? Hni _]; subst. apply Hni. rewrite <- Hk.
      apply in_map. apply in_ents. eauto.
    - f_equal. eapply IH; eauto. destruct (bslot x); cbn in HN; auto. inversion HN; auto.
  Qed.

  Variable body : list entry -> list (op K V).
  Notation reaches := (reaches keqb dflt body).
  Notation obeys := (obeys keqb dflt body).

  Lemma reaches_keys m seen m1 : reaches m seen m1 -> obeys m -> NoDup (map fst seen) /\
    (forall k, has keqb m1 k = true -> has keqb m k = true) /\ (forall k, In k (map fst seen) -> has keqb m k = true).
  Proof.
    intros HR HO. induction HR as [|seen m1 e m2 as_ HR IH HF HS].
    - splits; [constructor|auto|intros k []].
    - destruct IH as (HN & HK & HI). pose proof (HO _ _ _ HR HF) as HQ. destruct HF as [HG Hni].
      rewrite map_app. cbn [map]. splits.
      + apply Permutation_NoDup with (fst e :: map fst seen); [apply Permutation_cons_append|constructor; auto].
      + intros k Hk. apply HK. clear - HS HQ Hk keqb_ok hash. revert m1 as_ HS HQ.
        generalize (body (seen ++ [e])). induction l as [|o l IH]; cbn; intros m1 as_ HS HQ; [congruence|].
        destruct HQ as [HQ HQl]. destruct (spec_step keqb dflt m1 o) as [[m3 a]|] eqn:E1; [|discriminate].
        destruct (spec_run keqb dflt m3 l) as [[m4 as4]|] eqn:E2; [|discriminate]. injection HS as <- <-.
        eapply quiet_keys; eauto.
      + intros k Hk. apply in_app_or in Hk as [Hk|[<-|[]]]; auto. apply HK. unfold has. rewrite HG. auto.
  Qed.

  Lemma has_in (m : fmap K V) k : has keqb m k = true -> In k (map fst m).
  Proof.
    unfold has. intros H. destruct (in_dec (fun x y => reflect_dec _ _ (keqb_ok x y)) k (map fst m)) as [|Hni]; auto.
    apply (get_None keqb keqb_ok) in Hni. rewrite Hni in H. discriminate.
  Qed.

  Lemma sweep_ok m f : obeys m ->
    forall seen m1 t bs i b e, reaches m seen m1 -> models hash t m1 -> nE t < 2^28 -> load_inv t ->
    tbl t = Some bs -> nth_error bs i = Some b -> bslot b = Full e ->
    (length m <= f + length seen)%nat ->
    (forall j b e, (j < i)%nat -> nth_error bs j = Some b -> bslot b = Full e -> In (fst e) (map fst seen)) ->
    (forall j b e, (i <= j)%nat -> nth_error bs j = Some b -> bslot b = Full e -> ~ In (fst e) (map fst seen)) ->
    exists t' seen' m', sweep keqb hash dflt body f t (Some i) seen = Ret (t', seen') /\
      reaches m seen' m' /\ all_seen keqb seen' m' /\ models hash t' m' /\ nE t' <= nE t /\ load_inv t'.
  Proof.
    intros HO. induction f as [|f IH]; intros seen m1 t bs i b e HR HM Hn HL Hbs Hb He Hf HA HB.
    - exfalso.
      assert (HG : get keqb m1 (fst e) = Some (snd e)).
      { eapply models_in; eauto. unfold tents. rewrite Hbs. apply in_ents. destruct e; eauto. }
      assert (HF : fresh keqb seen m1 e) by (split; [auto|eapply HB; eauto; lia]).
      destruct (reaches_keys m seen m1 HR HO) as (HN & HK & HI).
      assert (HX : (length (fst e :: map fst seen) <= length (map fst m))%nat).
      { apply NoDup_incl_length; [constructor; [apply HF|auto]|]. intros k [<-|Hk]; apply has_in; auto. apply HK.
        unfold has. rewrite HG. auto. }
      cbn [length] in HX. rewrite !map_length in HX. lia.
    - assert (HG : get keqb m1 (fst e) = Some (snd e)).
      { eapply models_in; eauto. unfold tents. rewrite Hbs. apply in_ents. destruct e; eauto. }
      assert (HF : fresh keqb seen m1 e) by (split; [auto|eapply HB; eauto; lia]).
      pose proof (HO _ _ _ HR HF) as HQ.
      destruct (run_quiet _ t m1 bs HM Hn HL Hbs HQ) as (t2 & bs2 & m2 & as2 & HR2 & HS2 & HM2 & Hn2 & HL2 & Hbs2 & Hst & HK2).
      assert (HRe : reaches m (seen ++ [e]) m2) by (eapply R_visit; eauto).
      cbn [sweep]. unfold deref at 1. rewrite Hbs, Hb, He. cbn [bind]. rewrite HR2. cbn [bind]. unfold advance. rewrite Hbs2.
      pose proof HM2 as (HI2 & _ & _). pose proof HI2 as [HC2 HP2]. unfold CInv in HC2. rewrite Hbs2 in HC2, HP2.
      destruct HC2 as [[HnB _ _ _ _] _]. rewrite HnB.
      pose proof Hst as [Hlen Hkeep]. assert (Hi : (i < length bs)%nat) by (apply nth_error_Some; congruence).
      pose proof HM as (HI1 & _ & _). destruct HI1 as [_ HP1]. rewrite Hbs in HP1. destruct HP1 as [_ HND1].
      assert (HA2 : forall j b e0, (j <= i)%nat -> nth_error bs2 j = Some b -> bslot b = Full e0 -> In (fst e0) (map fst (seen ++ [e]))).
      { intros j b0 e0 Hj Hb0 He0. destruct (Hkeep _ _ _ Hb0 He0) as (b1 & e1 & Hb1 & He1 & <-). rewrite map_app. apply in_or_app.
        destruct (Nat.eq_dec j i) as [->|]; [right; rewrite Hb in Hb1; injection Hb1 as <-; rewrite He in He1; injection He1 as <-; cbn; auto|].
        left. eapply HA; eauto. lia. }
      assert (HB2 : forall j b e0, (i < j)%nat -> nth_error bs2 j = Some b -> bslot b = Full e0 -> ~ In (fst e0) (map fst (seen ++ [e]))).
      { intros j b0 e0 Hj Hb0 He0 Hin. destruct (Hkeep _ _ _ Hb0 He0) as (b1 & e1 & Hb1 & He1 & Hk). rewrite map_app in Hin.
        rewrite <- Hk in Hin. apply in_app_or in Hin as [Hin|[Hin|[]]]; [eapply HB; [|exact Hb1|exact He1|exact Hin]; lia|].
        assert (i = j) by (eapply (ents_distinct bs HND1 i j b b1 e e1); eauto). lia. }
      destruct (advance_next bs2 (S (length bs2)) i) as [[-> HZ]|(j & b2 & e2 & -> & Hj & Hb2 & He2 & HZ)]; [lia|lia| |].
      + cbn [bind]. exists t2, (seen ++ [e]), m2. destruct f; cbn [sweep]; splits; auto.
        all: intros k Hk; apply has_in in Hk; pose proof HM2 as (_ & _ & HPerm);
          apply (Permutation_in _ (Permutation_map fst HPerm)) in Hk; unfold tents in Hk; rewrite Hbs2 in Hk;
          apply in_map_iff in Hk as (e0 & <- & Hin); apply in_ents in Hin as (j & b0 & Hb0 & He0);
          (destruct (Nat.le_gt_cases j i) as [Hle|Hgt]; [exact (HA2 j b0 e0 Hle Hb0 He0)|exfalso; exact (HZ j b0 e0 Hgt Hb0 He0)]).
      + cbn [bind].
        destruct (IH (seen ++ [e]) m2 t2 bs2 j b2 e2 HRe HM2 ltac:(lia) HL2 Hbs2 Hb2 He2) as (t' & seen' & m' & HW & HX & HY & HM' & Hn' & HL').
        * rewrite app_length. cbn [length]. lia.
        * intros j' b' e' Hj' Hb' He'. destruct (Nat.le_gt_cases j' i) as [Hle|Hgt]; [exact (HA2 j' b' e' Hle Hb' He')|exfalso; exact (HZ j' b' e' (conj Hgt Hj') Hb' He')].
        * intros j' b' e' Hj' Hb' He'. apply (HB2 j' b' e'); [lia|auto|auto].
        * exists t', seen', m'. splits; auto. lia.
  Qed.

  Lemma loop_ok m t : obeys m -> models hash t m -> nE t < 2^28 -> load_inv t ->
    exists t' seen m', loop keqb hash dflt body (N.to_nat (card m)) t = Ret (t', seen) /\
      reaches m seen m' /\ all_seen keqb seen m' /\ models hash t' m' /\ nE t' <= nE t /\ load_inv t'.
  Proof.
    intros HO HM Hn HL. unfold loop, begin_iter. pose proof HM as (HI & HND & HP).
    pose proof (models_card _ _ _ HM) as Hcard.
    destruct (N.eqb_spec (nE t) 0) as [E0|E0].
    - assert (m = []) as ->. { unfold card in Hcard. destruct m; auto. cbn in Hcard. lia. }
      cbn [bind]. exists t, [], []. cbn. splits; auto; [constructor| |lia]. intros k Hk. discriminate.
    - pose proof HI as [HC HPI]. unfold CInv in HC. destruct (tbl t) as [bs|] eqn:Hbs; [|lia].
      assert (He : exists j b e, (0 <= j)%nat /\ nth_error bs j = Some b /\ bslot b = Full e).
      { destruct HC as [[_ HnE _ _ _] _]. destruct (ents bs) as [|e l] eqn:Ee; [cbn in HnE; lia|].
        assert (Hin : In e (ents bs)) by (rewrite Ee; cbn; auto). apply in_ents in Hin as (j & b & H1 & H2). exists j, b, e. splits; auto. lia. }
      destruct (scan_next bs (length bs) 0 ltac:(lia) He) as (j & b & e & -> & Hj & Hb & Hf & HZ). cbn [bind].
      destruct (sweep_ok m (N.to_nat (card m)) HO [] m t bs j b e) as (t' & seen' & m' & HW & HX); auto.
      + constructor.
      + cbn [length]. unfold card. lia.
      + intros j' b' e' Hj' Hb' He'. exfalso. refine (HZ j' b' e' _ Hb' He'). lia.
      + exists t', seen', m'. splits; auto; apply HX.
  Qed.
End Quiet.

(** ** The whole history *)
Section Whole.
  Context {K V : Type}.
  Variable keqb : K -> K -> bool.
  Variable hash : K -> N.
  Variable dflt : V.
  Hypothesis keqb_ok : forall a b, reflect (a = b) (keqb a b).

  Lemma loop_reached body size l m as_ : size < 2^28 -> N.of_nat (length l) < 2^28 -> Forall plain l ->
    spec_run keqb dflt [] l = Some (m, as_) -> obeys keqb dflt body m ->
    exists t t' seen m', run keqb hash dflt (new_table size) l = Ret (t, as_) /\
      loop keqb hash dflt body (N.to_nat (card m)) t = Ret (t', seen) /\
      reaches keqb dflt body m seen m' /\ all_seen keqb seen m' /\
      (forall l2 m2 as2, N.of_nat (length l + length l2) <= 2^28 -> spec_run keqb dflt m' l2 = Some (m2, as2) ->
         exists t2, run keqb hash dflt t' l2 = Ret (t2, as2)).
  Proof.
    change (2^28) with 268435456. intros Hs Hl HF HS HO.
    destruct (reached keqb hash dflt keqb_ok size l m as_) as (t & HR & HM & _ & HL); auto; [change (2^28) with 268435456; lia|].
    assert (Hn : nE t <= N.of_nat (length l)).
    { rewrite (models_card _ _ _ HM). clear - HS keqb_ok.
      assert (G : forall l m0 m as_, spec_run keqb dflt m0 l = Some (m, as_) -> card m <= card m0 + N.of_nat (length l)).
      { clear - keqb_ok. induction l as [|o l IH]; cbn [spec_run]; intros m0 m as_ HS; [injection HS as <- _; cbn [length]; lia|].
        destruct (spec_step keqb dflt m0 o) as [[m1 a]|] eqn:E1; [|discriminate].
        destruct (spec_run keqb dflt m1 l) as [[m2 as2]|] eqn:E2; [|discriminate]. injection HS as <- _.
        specialize (IH _ _ _ E2). cbn [length].
        assert (Hd : forall k, card (del keqb m0 k) <= card m0).
        { intros k. unfold card. clear. induction m0 as [|[x y] m0 IHm]; cbn; [lia|]. destruct (keqb x k); cbn [length]; lia. }
        assert (card m1 <= card m0 + 1); [|lia].
        destruct o as [k|k v|k|k| | | | |n]; cbn [spec_step] in E1.
        - destruct (get keqb m0 k); injection E1 as <- _; [lia|]. pose proof (Hd k). unfold card, put in *. cbn [length]. lia.
        - injection E1 as <- _. pose proof (Hd k). unfold card, put in *. cbn [length]. lia.
        - injection E1 as <- _. pose proof (Hd k). lia.
        - injection E1 as <- _. lia.
        - injection E1 as <- _. lia.
        - injection E1 as <- _. lia.
        - injection E1 as <- _. unfold card. cbn [length]. lia.
        - injection E1 as <- _. lia.
        - destruct ((card m0 <? n) && (n <? 2^28)); [|discriminate]. injection E1 as <- _. lia. }
      specialize (G l [] m as_ HS). change (card []) with 0 in G. lia. }
    destruct (loop_ok keqb hash dflt keqb_ok body m t HO HM) as (t' & seen & m' & HW & HX & HY & HM' & Hn' & HL'); auto;
      [change (2^28) with 268435456; lia|].
    exists t, t', seen, m'. splits; auto. intros l2 m2 as2 Hl2 HS2.
    destruct (run_ok keqb hash keqb_ok dflt l2 t' m' m2 as2 HM') as (t2 & HR2 & _); eauto. change (2^28) with 268435456. lia.
  Qed.

  (** *** erasing the entries that satisfy a predicate *)
  Definition erase_if (p : K * V -> bool) (seen : list (K * V)) : list (op K V) :=
    match rev seen with
    | e :: _ => if p e then [OpErase (fst e)] else []
    | [] => []
    end.

  Lemma erase_if_last p seen e : erase_if p (seen ++ [e]) = if p e then [OpErase (fst e)] else [].
  Proof. unfold erase_if. rewrite rev_app_distr. reflexivity. Qed.

  Lemma erase_if_obeys p m : obeys keqb dflt (erase_if p) m.
  Proof.
    intros seen m1 e _ _. rewrite erase_if_last. destruct (p e); cbn; auto.
  Qed.

  Lemma erase_if_reaches p m seen m' : NoDup (map fst m) -> reaches keqb dflt (erase_if p) m seen m' ->
    NoDup (map fst seen) /\ NoDup (map fst m') /\ (forall e, In e seen -> In e m) /\
    (forall e, In e m' <-> In e m /\ ~ (In e seen /\ p e = true)).
  Proof.
    intros HN HR. induction HR as [|seen m1 e m2 as_ HR IH HF HS].
    - splits; auto; [constructor|intros e []|]. intros e. split; [intros; split; auto; intros [[] _]|tauto].
    - destruct IH as (H1 & H2 & H3 & H4). destruct HF as [HG Hni].
      assert (He1 : In e m1) by (destruct e; apply (get_Some keqb keqb_ok) in HG; auto).
      assert (Hem : In e m) by (apply H4; auto).
      rewrite erase_if_last in HS. splits.
      + rewrite map_app. cbn [map]. apply Permutation_NoDup with (fst e :: map fst seen); [apply Permutation_cons_append|constructor; auto].
      + destruct (p e); cbn in HS; injection HS as <- _; auto. apply (del_NoDup keqb); auto.
      + intros e0 Hin. apply in_app_or in Hin as [Hin|[<-|[]]]; auto.
      + intros e0. destruct (p e) eqn:Ep; cbn in HS; injection HS as <- _.
        * rewrite (in_del keqb keqb_ok), H4. split.
          -- intros [[Ha Hb] Hc]. split; auto. intros [Hin Hp]. apply in_app_or in Hin as [Hin|[<-|[]]]; auto.
          -- intros [Ha Hb]. split; [split; auto; intros [Hin Hp]; apply Hb; split; auto; apply in_or_app; auto|].
             intros Hk. assert (e0 = e) as -> by (apply (NoDup_map_inj fst m); auto). apply Hb. split; auto. apply in_or_app. cbn. auto.
        * rewrite H4. split.
          -- intros [Ha Hb]. split; auto. intros [Hin Hp]. apply in_app_or in Hin as [Hin|[<-|[]]]; auto. congruence.
          -- intros [Ha Hb]. split; auto. intros [Hin Hp]. apply Hb. split; auto. apply in_or_app; auto.
  Qed.

  Lemma erase_if_result p m seen m' : NoDup (map fst m) -> reaches keqb dflt (erase_if p) m seen m' -> all_seen keqb seen m' ->
    Permutation seen m /\ Permutation m' (filter (fun e => negb (p e)) m).
  Proof.
    intros HN HR HA. destruct (erase_if_reaches p m seen m' HN HR) as (H1 & H2 & H3 & H4).
    assert (HD : forall l : list (K * V), NoDup (map fst l) -> NoDup l) by (intros l; apply NoDup_map_inv).
    assert (Hall : forall e, In e m -> In e seen).
    { intros e Hin. destruct (in_dec (fun x y => reflect_dec _ _ (keqb_ok x y)) (fst e) (map fst seen)) as [Hk|Hk].
      - apply in_map_iff in Hk as (e1 & Hk & Hin1). assert (e1 = e) as -> by (apply (NoDup_map_inj fst m); auto). auto.
      - exfalso. apply Hk. apply HA. unfold has. assert (Hm' : In e m').
        { apply H4. split; auto. intros [Hs _]. apply Hk. apply in_map. auto. }
        destruct e as [k v]. apply (get_Some keqb keqb_ok) in Hm'; auto. cbn. rewrite Hm'. auto. }
    split.
    - apply NoDup_Permutation; auto. intros e. split; auto.
    - apply NoDup_Permutation; auto; [apply NoDup_filter; auto|]. intros e. rewrite H4, filter_In. split.
      + intros [Ha Hb]. split; auto. destruct (p e) eqn:Ep; auto. 
      + intros [Ha Hb]. split; auto. intros [_ Hp]. rewrite Hp in Hb. discriminate.
  Qed.
End Whole.

(** *** clear() inside the loop *)
Section Clear.
  Context {K V : Type}.
  Variable keqb : K -> K -> bool.
  Variable hash : K -> N.
  Variable dflt : V.
  Hypothesis keqb_ok : forall a b, reflect (a = b) (keqb a b).

  Lemma loop_clear size l m as_ f : size < 2^28 -> N.of_nat (length l) <= 2^28 ->
    spec_run keqb dflt [] l = Some (m, as_) -> 0 < card m ->
    exists t, run keqb hash dflt (new_table size) l = Ret (t, as_) /\
      loop keqb hash dflt (fun _ => [OpClear]) (S f) t = UB NullDeref.
  Proof.
    intros Hs Hl HS Hc. destruct (run_new_ok keqb hash keqb_ok dflt size l m as_ Hs Hl HS) as (t & HR & HM).
    exists t. split; auto. unfold loop, begin_iter. pose proof (models_card _ _ _ HM) as Hcard. pose proof HM as (HI & _ & _).
    destruct (N.eqb_spec (nE t) 0) as [E0|E0]; [lia|].
    pose proof HI as [HC _]. unfold CInv in HC. destruct (tbl t) as [bs|] eqn:Hbs; [|lia].
    assert (He : exists j b e, (0 <= j)%nat /\ nth_error bs j = Some b /\ bslot b = Full e).
    { destruct HC as [[_ HnE _ _ _] _]. destruct (ents bs) as [|e l0] eqn:Ee; [cbn in HnE; lia|].
      assert (Hin : In e (ents bs)) by (rewrite Ee; cbn; auto). apply in_ents in Hin as (j & b & H1 & H2). exists j, b, e. splits; auto. lia. }
    destruct (scan_next bs (length bs) 0 ltac:(lia) He) as (j & b & e & -> & Hj & Hb & Hf & HZ). cbn [bind].
    cbn [sweep]. unfold deref. rewrite Hbs, Hb, Hf. cbn [bind run step]. unfold clear.
    destruct (N.eqb_spec (nE t) 0); [lia|]. reflexivity.
  Qed.
End Clear.

(** Entries allocated and freed by hash tables: lemmas behind HashStorageProps.v. *)
From Verif Require Import Base HashSpec HashModel HashHeapSpec HashHeapModel HashStorageSpec HashProof HashProof2 HashHeapProof.
From Coq Require Import List NArith ZArith Lia Bool Permutation Arith.
From Coq Require Import ZifyBool ZifyNat ZifyN.
Import ListNotations.
Local Open Scope N_scope.

Section Count.
  Context {K V : Type}.

  (** allocated entries that were not freed *)
  Definition is_live (x : option (K * V)) : bool := match x with Some _ => true | None => false end.
  Definition cnt (h : heap (K := K) (V := V)) : N := N.of_nat (length (filter is_live h)).

  Definition sizes (l : list (table ptr)) : N := fold_right (fun t n => nE t + n) 0 l.

  Lemma cnt_app h x : cnt (h ++ x) = cnt h + cnt x.
  Proof. unfold cnt. rewrite filter_app, app_length. lia. Qed.

  Lemma cnt_all x : Forall (fun c => c <> None) x -> cnt x = N.of_nat (length x).
  Proof.
    unfold cnt. intros H. f_equal. induction H as [|[c|] x Hc Hx IH]; cbn; auto; congruence.
  Qed.

  Lemma cnt_upd h p c c' : nth_error h p = Some c ->
    cnt (upd h p c') + (if is_live c then 1 else 0) = cnt h + (if is_live c' then 1 else 0).
  Proof.
    unfold cnt. revert p. induction h as [|x h IH]; intros [|p] Hp; cbn in Hp; try discriminate.
    - injection Hp as ->. cbn. destruct (is_live c), (is_live c'); cbn [length]; lia.
    - specialize (IH _ Hp). cbn. destruct (is_live x); cbn [length]; lia.
  Qed.

  Lemma sizes_cons t l : sizes (t :: l) = nE t + sizes l.
  Proof. reflexivity. Qed.

  Lemma sizes_app a b : sizes (a ++ b) = sizes a + sizes b.
  Proof. unfold sizes. induction a; cbn; auto. rewrite IHa. lia. Qed.

  Lemma sizes_upd l i t t' : nth_error l i = Some t -> sizes (upd l i t') + nE t = sizes l + nE t'.
  Proof.
    revert i. induction l as [|x l IH]; intros [|i] Hi; cbn in Hi; try discriminate.
    - injection Hi as ->. cbn [upd]. rewrite !sizes_cons. lia.
    - specialize (IH _ Hi). cbn [upd]. rewrite !sizes_cons. lia.
  Qed.
End Count.

Section Step.
  Context {K V : Type}.
  Variable keqb : K -> K -> bool.
  Variable hash : K -> N.
  Hypothesis keqb_ok : forall a b, reflect (a = b) (keqb a b).
  Variable dflt : V.
  Variable k0 : K.
  Notation heap := (heap (K := K) (V := V)).
  Notation hkey := (hkey (V := V) k0).
  Notation R := (R hash dflt k0).
  Notation tab_ok := (tab_ok hash dflt k0).

  Lemma sizes_owned s (w : world K V) n : R s w n -> sizes (tbs s) = owned w.
  Proof.
    intros [_ HF _ _]. unfold owned. induction HF as [|t st l l' Ht HF IH]; auto.
    cbn. rewrite <- IH. rewrite (tab_ok_card _ _ _ _ _ _ Ht). reflexivity.
  Qed.

  Lemma free_count bs : forall (h h' : heap), NoDup (ents bs) -> (forall p, In p (ents bs) -> live h p) ->
    free_buckets h bs = Ret h' -> cnt h' + N.of_nat (length (ents bs)) = cnt h.
  Proof.
    induction bs as [|b bs IH]; intros h h' HN HL; cbn [free_buckets].
    - intros [= <-]. cbn. lia.
    - rewrite ents_cons in *. destruct (bslot b) as [| |p]; cbn [slot_ents app length] in *; try (apply IH; auto).
      inversion HN as [|? ? Hni HN']; subst. destruct (HL p) as (k & v & Hp); [cbn; auto|]. rewrite Hp. intros HR.
      apply IH in HR; auto.
      + pose proof (cnt_upd h p _ None Hp) as HC. cbn in HC. lia.
      + intros q Hq. destruct (HL q) as (k1 & v1 & Hq1); [cbn; auto|]. exists k1, v1.
        rewrite nth_error_upd_ne; auto. intros ->. auto.
  Qed.

  Lemma copy_count bs : forall (h h' : heap) bs', copy_buckets h bs = Ret (h', bs') ->
    cnt h' = cnt h + N.of_nat (length (ents bs)).
  Proof.
    induction bs as [|b bs IH]; intros h h' bs'; cbn [copy_buckets].
    - intros [= <- <-]. cbn. lia.
    - rewrite ents_cons. destruct (bslot b) as [| |p]; cbn [slot_ents app length].
      1,2: intros HR; apply bind_ret in HR as ([h1 r] & HR & [= <- _]); eapply IH; eauto.
      destruct (nth_error h p) as [[kv|]|]; try discriminate.
      intros HR; apply bind_ret in HR as ([h1 r] & HR & [= <- _]). apply IH in HR. rewrite HR, cnt_app. cbn. lia.
  Qed.

  Lemma copy_of_count ctor (h h' : heap) t t' : CInv t -> copy_of ctor h t = Ret (h', t') ->
    cnt h' = cnt h + nE t /\ nE t' = nE t.
  Proof.
    intros HC. pose proof (CInv_card _ HC) as Hcard. unfold copy_of, tents in *. destruct (tbl t) as [bs|].
    - destruct (ctor && (nE t =? 0)) eqn:E.
      + intros [= <- <-]. apply andb_prop in E as [_ E]. apply N.eqb_eq in E. split; auto. lia.
      + intros HR; apply bind_ret in HR as ([h1 r] & HR & [= <- <-]). apply copy_count in HR. cbn [nE]. split; auto. lia.
    - intros [= <- <-]. cbn [nE length] in *. split; auto. lia.
  Qed.

  Lemma step_count s w n o s' a w' : R s w n -> n < 2^28 -> wstep keqb dflt w o a w' ->
    hstep keqb hash dflt k0 s o = Ret (s', a) ->
    cnt (hp s') + sizes (tbs s) = cnt (hp s) + sizes (tbs s') + dropped w o.
  Proof.
    intros HR Hn HW HS.
    assert (Htab : forall i st, tab w i = Some st -> exists t, nth_error (tbs s) i = Some t /\ tab_ok (hp s) t st /\ nE t < 2^28).
    { intros i st Hi. destruct (R_tab _ _ _ _ _ _ _ _ HR Hi) as (t & H1 & H2 & H3). exists t. splits; auto. lia. }
    destruct o as [size|i k|p v|p|i k|i k|i|i|i|i m|i|i j|i|i j];
      cbn [hstep] in HS; unfold h_insert, h_find, h_erase, h_clear, h_rehash, h_rehash_to, h_copy, h_assign, h_move, h_move_assign, with_tab in HS;
      cbn [dropped].
    - injection HS as <- _. cbn [hp tbs]. rewrite sizes_app, sizes_cons. change (sizes []) with 0.
      assert (Hz : nE (new_table (E := ptr) size) = 0) by (unfold new_table, init; destruct (u32 size =? 0); reflexivity).
      rewrite Hz. lia.
    - assert (Hex : exists st, tab w i = Some st) by (inversion HW; subst; eauto). destruct Hex as (st & Hst).
      destruct (Htab _ _ Hst) as (t & Ht & (HI & _) & Hsm). rewrite Ht in HS.
      destruct (insert_ok (hkey (hp s)) keqb hash keqb_ok t k (length (hp s)) (fun e => e) (proj1 HI) Hsm)
        as (t' & ex & e & HE & _ & _ & _ & [(-> & HnE & _)|(-> & HnE & _)]); rewrite HE in HS; cbn [bind] in HS;
        injection HS as <- _; cbn [hp tbs]; pose proof (sizes_upd _ _ _ t' Ht); [lia|].
      rewrite cnt_app. change (cnt [Some (k, dflt)]) with 1. lia.
    - unfold h_write in HS. destruct (nth_error (hp s) p) as [[[k v0]|]|] eqn:Hp; try discriminate.
      injection HS as <- _. cbn [hp tbs]. pose proof (cnt_upd _ _ _ (Some (k, v)) Hp) as HC. cbn in HC. lia.
    - unfold h_read in HS. destruct (nth_error (hp s) p) as [[[k v0]|]|] eqn:Hp; try discriminate. injection HS as <- _. lia.
    - destruct (nth_error (tbs s) i); [|discriminate]. apply bind_ret in HS as (r & _ & [= <- _]). lia.
    - assert (Hex : exists st, tab w i = Some st) by (inversion HW; subst; eauto). destruct Hex as (st & Hst).
      destruct (Htab _ _ Hst) as (t & Ht & (HI & _ & _ & _ & HL) & Hsm). rewrite Ht in HS.
      destruct (erase_ok (hkey (hp s)) keqb hash keqb_ok t k (proj1 HI)) as (t' & ex & HE & _ & _ & HH); [change (2^28) with 268435456 in *; lia|].
      rewrite HE in HS. cbn [bind] in HS.
      destruct (find_entry_ok (hkey (hp s)) keqb hash keqb_ok t k HI) as [(e & Hin & Hk & HF)|[Hni HF]]; rewrite HF in HS; cbn [bind] in HS;
        injection HS as <- _; cbn [hp tbs]; pose proof (sizes_upd _ _ _ t' Ht).
      + destruct HH as [(-> & e1 & _ & _ & HnE & _)|(_ & _ & Hno)].
        * destruct (HL e Hin) as (k1 & v1 & He). pose proof (cnt_upd _ _ _ None He) as HC. cbn in HC. lia.
        * exfalso. apply (Hno HI). rewrite <- Hk. apply in_map. auto.
      + destruct HH as [(_ & e1 & Hk & HP & _)|(_ & -> & _)]; [|lia]. exfalso. apply Hni. rewrite <- Hk. apply in_map.
        eapply Permutation_in; [symmetry; exact HP|cbn; auto].
    - destruct (nth_error (tbs s) i); [|discriminate]. injection HS as <- _. lia.
    - assert (Hex : exists st, tab w i = Some st) by (inversion HW; subst; eauto). destruct Hex as (st & Hst).
      destruct (Htab _ _ Hst) as (t & Ht & (HI & _ & _ & _ & HL) & Hsm). rewrite Ht in HS.
      destruct (N.eqb_spec (nE t) 0) as [E0|E0]; [injection HS as <- _; lia|].
      pose proof (tents_NoDup hash k0 (hp s) t HI) as HND.
      pose proof (CInv_card _ (proj1 HI)) as Hcard. unfold tents in HND, HL, Hcard.
      destruct (tbl t) as [bs|] eqn:Hbs; [|discriminate]. apply bind_ret in HS as (h' & HF & [= <- _]). cbn [hp tbs].
      apply free_count in HF; auto. pose proof (sizes_upd _ _ _ (clear t) Ht) as HZ. unfold clear in *.
      destruct (N.eqb_spec (nE t) 0); [lia|]. change (nE null_table) with 0 in HZ. lia.
    - assert (Hex : exists st, tab w i = Some st) by (inversion HW; subst; eauto). destruct Hex as (st & Hst).
      destruct (Htab _ _ Hst) as (t & Ht & (HI & _) & Hsm). rewrite Ht in HS.
      apply bind_ret in HS as (t' & HE & [= <- _]). cbn [hp tbs put_tab]. pose proof (sizes_upd _ _ _ t' Ht).
      assert (nE t' = nE t); [|unfold put_tab; cbn [tbs hp]; lia].
      unfold rehash, may_rehash in HE. destruct (_ <? _); [|destruct (_ <? _)].
      + unfold do_rehash in HE. apply bind_ret in HE as (x & _ & [= <-]). reflexivity.
      + unfold do_rehash in HE. apply bind_ret in HE as (x & _ & [= <-]). reflexivity.
      + injection HE as <-. auto.
    - destruct (nth_error (tbs s) i) as [t|] eqn:Ht; [|discriminate].
      apply bind_ret in HS as (t' & HE & [= <- _]). unfold put_tab. cbn [hp tbs]. pose proof (sizes_upd _ _ _ t' Ht).
      unfold rehash_to, do_rehash in HE. apply bind_ret in HE as (x & _ & [= <-]). cbn [nE] in *. lia.
    - assert (Hex : exists st, tab w i = Some st) by (inversion HW; subst; eauto). destruct Hex as (st & Hst).
      destruct (Htab _ _ Hst) as (t & Ht & (HI & _) & Hsm). rewrite Ht in HS.
      apply bind_ret in HS as ([h' t'] & HE & [= <- _]). cbn [hp tbs]. apply copy_of_count in HE as [E1 E2]; [|apply HI].
      rewrite sizes_app, sizes_cons. change (sizes []) with 0. lia.
    - assert (HX : i <> j /\ (exists st, tab w i = Some st) /\ exists st, tab w j = Some st) by (inversion HW; subst; splits; eauto).
      destruct HX as (Hij & (st & Hi) & (st' & Hj)).
      destruct (Htab _ _ Hi) as (ti & Hti & HTi & _). destruct (Htab _ _ Hj) as (tj & Htj & (HIj & _) & _).
      rewrite Hti, Htj in HS. destruct (Nat.eqb_spec i j); [congruence|].
      apply bind_ret in HS as ([h' t'] & HE & [= <- _]). cbn [hp tbs]. apply copy_of_count in HE as [E1 E2]; [|apply HIj].
      rewrite Hi. rewrite <- (tab_ok_card _ _ _ _ _ _ HTi). pose proof (sizes_upd _ _ _ t' Hti). lia.
    - destruct (nth_error (tbs s) i) as [t|] eqn:Ht; [|discriminate]. injection HS as <- _. cbn [hp tbs].
      rewrite sizes_app. pose proof (sizes_upd _ _ _ null_table Ht) as HZ. change (nE null_table) with 0 in HZ. rewrite sizes_cons. change (sizes []) with 0. lia.
    - assert (HX : i <> j /\ (exists st, tab w i = Some st) /\ exists st, tab w j = Some st) by (inversion HW; subst; splits; eauto).
      destruct HX as (Hij & (st & Hi) & (st' & Hj)).
      destruct (Htab _ _ Hi) as (ti & Hti & HTi & _). destruct (Htab _ _ Hj) as (tj & Htj & _ & _).
      rewrite Hti, Htj in HS. destruct (Nat.eqb_spec i j); [congruence|]. injection HS as <- _. cbn [hp tbs].
      rewrite Hi. rewrite <- (tab_ok_card _ _ _ _ _ _ HTi).
      pose proof (sizes_upd _ _ _ tj Hti) as Z1.
      assert (Hj' : nth_error (upd (tbs s) i tj) j = Some tj) by (rewrite nth_error_upd_ne; auto).
      pose proof (sizes_upd _ _ _ null_table Hj') as Z2. change (nE null_table) with 0 in Z2. lia.
  Qed.

  Lemma run_count l : forall s w n c, R s w n -> n + N.of_nat (length l) <= 2^28 -> cnt (hp s) = owned w + c ->
    exists l1 l2 s' as_ w' d, l = l1 ++ l2 /\ hrun keqb hash dflt k0 s l1 = Ret (s', as_) /\
      wloss keqb dflt w l1 as_ w' d /\ R s' w' (n + N.of_nat (length l1)) /\
      match l2 with [] => True | o :: _ => ~ enabled keqb dflt w' o end /\
      cnt (hp s') = owned w' + c + d.
  Proof.
    induction l as [|o l IH]; intros s w n c HR Hn HC.
    - exists [], [], s, [], w, 0. cbn. rewrite N.add_0_r. splits; auto; [constructor|lia].
    - destruct (enabled_dec keqb hash keqb_ok dflt k0 s w n o HR) as [He|He].
      + cbn [length] in Hn.
        destruct (hstep_ok keqb hash keqb_ok dflt k0 s w n o HR ltac:(lia) He) as (s1 & a & w1 & Hs & Hw & HR1).
        pose proof (step_count s w n o s1 a w1 HR ltac:(lia) Hw Hs) as HX.
        rewrite (sizes_owned _ _ _ HR), (sizes_owned _ _ _ HR1) in HX.
        destruct (IH s1 w1 (n + 1) (c + dropped w o) HR1 ltac:(lia) ltac:(lia)) as (l1 & l2 & s' & as_ & w' & d & -> & Hrun & Hex & HR' & Hend & HF).
        exists (o :: l1), l2, s', (a :: as_), w', (dropped w o + d).
        cbn [app hrun]. rewrite Hs. cbn [bind]. rewrite Hrun. cbn [bind length]. splits; auto; [econstructor; eauto| |lia].
        replace (n + N.of_nat (S (length l1))) with (n + 1 + N.of_nat (length l1)) by lia. auto.
      + exists [], (o :: l), s, [], w, 0. cbn. rewrite N.add_0_r. splits; auto; [constructor|lia].
  Qed.

  Lemma wloss_wexec w l as_ w' d : wloss keqb dflt w l as_ w' d -> wexec keqb dflt w l as_ w'.
  Proof. induction 1; econstructor; eauto. Qed.

  Lemma wloss_zero w l as_ w' d : wloss keqb dflt w l as_ w' d -> Forall (fun o => ~ assigns o) l -> d = 0.
  Proof.
    induction 1 as [|w o a w1 l as_ w2 n HW HL IH]; intros HF; auto. inversion HF as [|? ? Ho Hl]; subst. rewrite (IH Hl).
    destruct o; cbn in *; try reflexivity; tauto.
  Qed.

  (** clearing every table *)
  Definition clear_all (n : nat) : list (wop K V) := map WClear (seq 0 n).

  Lemma clear_all_ok l : forall s w n, R s w n -> n + N.of_nat (length l) <= 2^28 -> Forall (fun i => (i < length (tabs w))%nat) l ->
    exists s' as_ w', hrun keqb hash dflt k0 s (map WClear l) = Ret (s', as_) /\ R s' w' (n + N.of_nat (length l)) /\
      length (tabs w') = length (tabs w) /\ cnt (hp s') + owned w = cnt (hp s) + owned w' /\
      (forall i st, tab w' i = Some st -> In i l -> smap st = []) /\
      (forall i st, tab w' i = Some st -> smap st = [] \/ tab w i = Some st).
  Proof.
    induction l as [|i l IH]; intros s w n HR Hn HF.
    - exists s, [], w. cbn. rewrite N.add_0_r. splits; auto; intros ? ? ? [].
    - inversion HF as [|? ? Hi Hl]; subst. cbn [length] in Hn.
      destruct (nth_error_ex (tabs w) i Hi) as ([m b] & Hst).
      assert (He : enabled keqb dflt w (WClear i)) by (eexists _, _; econstructor; eauto).
      destruct (hstep_ok keqb hash keqb_ok dflt k0 s w n (WClear i) HR ltac:(lia) He) as (s1 & a & w1 & Hs & Hw & HR1).
      pose proof (step_count s w n _ s1 a w1 HR ltac:(lia) Hw Hs) as HX. cbn [dropped] in HX.
      rewrite (sizes_owned _ _ _ HR), (sizes_owned _ _ _ HR1) in HX.
      assert (Hw1 : exists b', w1 = mkW (set_tab (tabs w) i (mkS [] b')) (next w)) by (inversion Hw; subst; eauto).
      destruct Hw1 as (b' & ->).
      assert (Hset : forall (ts : list (stab K V)) j x, length (set_tab ts j x) = length ts).
      { intros ts; induction ts; intros [|j] x; cbn; auto. }
      assert (Hnth : forall (ts : list (stab K V)) j x q st, nth_error (set_tab ts j x) q = Some st ->
        (q = j /\ st = x) \/ (nth_error ts q = Some st)).
      { intros ts; induction ts as [|y ts IHt]; intros [|j] x [|q] st Hq; cbn in Hq |- *; try discriminate; auto.
        - injection Hq as <-. auto.
        - destruct (IHt j x q st Hq) as [[-> ->]|]; auto. }
      destruct (IH s1 _ (n + 1) HR1 ltac:(lia)) as (s' & as_ & w' & Hrun & HR' & Hlen & HC & HZ1 & HZ2).
      { cbn [tabs]. rewrite Hset. auto. }
      cbn [tabs] in Hlen. rewrite Hset in Hlen.
      exists s', (a :: as_), w'. cbn [map hrun]. rewrite Hs. cbn [bind]. rewrite Hrun. cbn [bind length]. splits; auto.
      + replace (n + N.of_nat (S (length l))) with (n + 1 + N.of_nat (length l)) by lia. auto.
      + lia.
      + intros q st Hq [->|Hin]; [|eapply HZ1; eauto]. destruct (HZ2 q st Hq) as [|Hq1]; auto.
        unfold tab in Hq1. cbn [tabs] in Hq1.
        assert (Hsame : forall (ts : list (stab K V)) j x y, nth_error (set_tab ts j x) j = Some y -> y = x).
        { intros ts; induction ts as [|z ts IHt]; intros [|j] x y Hy; cbn in Hy; try discriminate; [congruence|eauto]. }
        apply Hsame in Hq1. subst st. reflexivity.
      + intros q st Hq. destruct (HZ2 q st Hq) as [|Hq1]; auto. unfold tab in Hq1 |- *. cbn [tabs] in Hq1.
        apply Hnth in Hq1 as [[-> ->]|]; auto.
  Qed.

  Lemma owned_zero (w : world K V) : (forall i st, tab w i = Some st -> smap st = []) -> owned w = 0.
  Proof.
    unfold owned, tab. generalize (tabs w). induction l as [|st l IH]; intros HH; cbn; auto.
    rewrite (HH 0%nat st eq_refl). rewrite IH; [reflexivity|]. intros i x Hx. apply (HH (S i) x Hx).
  Qed.

  Lemma storage l : N.of_nat (length l) + N.of_nat (length l) <= 2^28 ->
    exists l1 l2 s answers w lost, l = l1 ++ l2 /\ hrun keqb hash dflt k0 state0 l1 = Ret (s, answers) /\
      wloss keqb dflt world0 l1 answers w lost /\
      match l2 with [] => True | o :: _ => ~ enabled keqb dflt w o end /\
      cnt (hp s) = owned w + lost /\
      exists s' as_, hrun keqb hash dflt k0 s (clear_all (length (tabs w))) = Ret (s', as_) /\ cnt (hp s') = lost.
  Proof.
    change (2^28) with 268435456. intros Hl.
    destruct (run_count l state0 world0 0 0 (R0 hash dflt k0)) as (l1 & l2 & s & as_ & w & d & E & Hrun & HW & HR & Hend & HC);
      [change (2^28) with 268435456; lia|reflexivity|].
    exists l1, l2, s, as_, w, d. splits; auto; [lia|].
    assert (Hlen : (length (tabs w) <= length l1)%nat).
    { assert (G : forall w0 l as_ w' d, wloss keqb dflt w0 l as_ w' d -> (length (tabs w') <= length (tabs w0) + length l)%nat).
      { assert (Hset : forall (ts : list (stab K V)) j x, length (set_tab ts j x) = length ts).
        { intros ts; induction ts; intros [|j] x; cbn; auto. }
        induction 1 as [|w0 o a w1 l0 as0 w2 n0 Hs HL IH]; [cbn; lia|]. cbn [length].
        assert (length (tabs w1) <= length (tabs w0) + 1)%nat; [|lia].
        inversion Hs; subst; cbn [tabs]; rewrite ?app_length, ?Hset; cbn [length]; lia. }
      apply G in HW. cbn [tabs world0 length] in HW. lia. }
    assert (Hl1 : (length l1 <= length l)%nat) by (rewrite E, app_length; lia).
    destruct (clear_all_ok (seq 0 (length (tabs w))) s w _ HR) as (s' & as' & w' & Hrun' & _ & Hlen' & HC' & HZ & _).
    - rewrite seq_length. change (2^28) with 268435456. lia.
    - apply Forall_forall. intros i Hi. apply in_seq in Hi. lia.
    - exists s', as'. split; [exact Hrun'|].
      rewrite (owned_zero w') in HC'; [lia|]. intros i st Hi. eapply HZ; eauto. apply in_seq.
      assert (i < length (tabs w'))%nat by (apply nth_error_Some; unfold tab in Hi; congruence). lia.
  Qed.
End Step.

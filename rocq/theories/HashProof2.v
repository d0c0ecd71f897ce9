(** Refinement to finite maps, iteration, copies, chains, divergence. *)
From Verif Require Import Base HashModel HashSpec HashProof.
From Coq Require Import List NArith ZArith Lia Bool Permutation Arith.
From Coq Require Import ZifyBool ZifyNat ZifyN.
Import ListNotations.
Local Open Scope N_scope.

(** ** Finite map facts *)
Section FMapFacts.
  Context {K V : Type}.
  Variable keqb : K -> K -> bool.
  Hypothesis keqb_ok : forall a b, reflect (a = b) (keqb a b).
  Local Notation get := (get (V := V) keqb).
  Local Notation del := (del (V := V) keqb).

  Lemma get_None m k : get m k = None <-> ~ In k (map fst m).
  Proof.
    induction m as [|[k' v] m IH]; cbn; [tauto|].
    destruct (keqb_ok k' k) as [->|H]; [split; [discriminate|tauto]|]. rewrite IH. tauto.
  Qed.

  Lemma get_Some m k v : NoDup (map fst m) -> (get m k = Some v <-> In (k, v) m).
  Proof.
    induction m as [|[k' v'] m IH]; cbn; intros HN; [split; [discriminate|tauto]|].
    inversion HN as [|? ? Hni HN']; subst.
    destruct (keqb_ok k' k) as [->|H].
    - split.
      + intros [= ->]. auto.
      + intros [[= ->]|Hin]; auto. exfalso. apply Hni. apply (in_map fst) in Hin. exact Hin.
    - rewrite (IH HN'). split; auto. intros [[= -> ->]|Hin]; auto. congruence.
  Qed.

  Lemma del_notin m k : ~ In k (map fst m) -> del m k = m.
  Proof.
    induction m as [|[k' v] m IH]; cbn; auto. intros H.
    destruct (keqb_ok k' k) as [->|Hd]; [tauto|]. rewrite IH; tauto.
  Qed.

  Lemma in_del m k p : In p (del m k) <-> In p m /\ fst p <> k.
  Proof.
    induction m as [|[k' v] m IH]; cbn; [tauto|].
    destruct (keqb_ok k' k) as [->|Hd]; cbn; rewrite IH; split.
    - tauto.
    - intros [[<-|H] H2]; cbn in *; tauto.
    - intros [<-|H]; cbn; tauto.
    - tauto.
  Qed.

  Lemma del_NoDup m k : NoDup (map fst m) -> NoDup (map fst (del m k)).
  Proof.
    induction m as [|[k' v] m IH]; cbn; auto. intros HN. inversion HN as [|? ? Hni HN']; subst.
    destruct (keqb_ok k' k); auto. cbn. constructor; auto.
    intros Hin. apply Hni. apply in_map_iff in Hin as (p & Hp & Hin). apply in_del in Hin as [Hin _].
    rewrite <- Hp. apply in_map; auto.
  Qed.

  Lemma del_perm m k v l : NoDup (map fst m) -> Permutation m ((k, v) :: l) -> Permutation (del m k) l.
  Proof.
    intros HN HP.
    assert (HNl : NoDup (map fst ((k, v) :: l))).
    { eapply Permutation_NoDup; [apply Permutation_map; exact HP|auto]. }
    cbn in HNl. inversion HNl as [|? ? Hni HN']; subst.
    apply NoDup_Permutation.
    - apply (NoDup_map_inv fst). apply del_NoDup; auto.
    - apply (NoDup_map_inv fst). auto.
    - intros p. rewrite in_del. split.
      + intros [Hin Hne]. apply (Permutation_in _ HP) in Hin. destruct Hin as [<-|]; cbn in *; congruence.
      + intros Hin. split.
        * apply Permutation_sym in HP. eapply Permutation_in; [exact HP|]. cbn; auto.
        * intros <-. apply Hni. apply in_map; auto.
  Qed.

  Lemma put_NoDup (m : fmap K V) k v : NoDup (map fst m) -> NoDup (map fst (put keqb m k v)).
  Proof.
    intros HN. unfold put. cbn. constructor; [|apply del_NoDup; auto].
    intros Hin. apply in_map_iff in Hin as (p & Hp & Hin). apply in_del in Hin as [_ H]. congruence.
  Qed.

  Lemma get_put (m : fmap K V) k v k' : get (put keqb m k v) k' = if keqb k k' then Some v else get m k'.
  Proof.
    unfold put. cbn. destruct (keqb_ok k k') as [->|Hd]; auto.
    induction m as [|[k2 v2] m IH]; cbn; auto.
    destruct (keqb_ok k2 k) as [->|H2].
    - destruct (keqb_ok k k') as [->|]; [congruence|]. exact IH.
    - cbn. rewrite IH. reflexivity.
  Qed.

  Lemma get_del m k k' : get (del m k) k' = if keqb k k' then None else get m k'.
  Proof.
    destruct (keqb_ok k k') as [->|Hd].
    - apply get_None. intros Hin. apply in_map_iff in Hin as (p & Hp & Hin). apply in_del in Hin as [_ H]. congruence.
    - induction m as [|[k2 v2] m IH]; cbn; auto.
      destruct (keqb_ok k2 k) as [->|H2].
      + destruct (keqb_ok k k') as [->|]; [congruence|]. exact IH.
      + cbn. rewrite IH. reflexivity.
  Qed.

  Lemma perm_replace (m : fmap K V) (l1 l2 : list (K * V)) k v0 v : NoDup (map fst m) ->
    Permutation m (l1 ++ (k, v0) :: l2) -> Permutation (put keqb m k v) (l1 ++ (k, v) :: l2).
  Proof.
    intros HN HP. unfold put.
    rewrite <- Permutation_middle. constructor.
    apply del_perm with (v := v0); auto. rewrite HP. symmetry. apply Permutation_middle.
  Qed.

  Lemma get_perm m m' k : NoDup (map fst m) -> Permutation m m' -> get m k = get m' k.
  Proof.
    intros HN HP. assert (HN' : NoDup (map fst m')).
    { eapply Permutation_NoDup; [apply Permutation_map; exact HP|auto]. }
    destruct (get m k) as [v|] eqn:G.
    - symmetry. apply get_Some; auto. eapply Permutation_in; [exact HP|]. apply get_Some; auto.
    - symmetry. apply get_None. apply get_None in G. intros Hin. apply G.
      eapply Permutation_in; [apply Permutation_map; symmetry; exact HP|auto].
  Qed.
End FMapFacts.

(** ** Refinement *)
Section Refine.
  Context {K V : Type}.
  Variable keqb : K -> K -> bool.
  Variable hash : K -> N.
  Hypothesis keqb_ok : forall a b, reflect (a = b) (keqb a b).
  Variable dflt : V.
  Notation entry := (K * V)%type.
  Local Notation HInv := (HInv (E := entry) fst hash).

  (** table [t] stands for the finite map [m] *)
  Definition models (t : table entry) (m : fmap K V) : Prop :=
    HInv t /\ NoDup (map fst m) /\ Permutation m (tents t).

  Lemma models_card t m : models t m -> nE t = card m.
  Proof.
    intros (HI & _ & HP). rewrite (CInv_card _ (proj1 HI)). unfold card.
    rewrite (Permutation_length HP). reflexivity.
  Qed.

  Lemma models_notin t m k : models t m -> ~ In k (map fst (tents t)) -> get keqb m k = None.
  Proof.
    intros (_ & _ & HP) H. apply get_None; auto. intros Hin. apply H.
    eapply Permutation_in; [apply Permutation_map; exact HP|auto].
  Qed.

  Lemma models_in t m k v : models t m -> In (k, v) (tents t) -> get keqb m k = Some v.
  Proof.
    intros (_ & HN & HP) H. apply get_Some; auto. eapply Permutation_in; [symmetry; exact HP|auto].
  Qed.

  Lemma step_ok t m o m' a :
    models t m -> nE t < 2^28 -> spec_step keqb dflt m o = Some (m', a) ->
    exists t', step keqb hash dflt t o = Ret (t', a) /\ models t' m' /\ nE t' <= nE t + 1.
  Proof.
    intros HM Hsm HS. pose proof HM as (HI & HN & HP).
    destruct o as [k|k v|k|k| | | | |n]; cbn [spec_step] in HS; cbn [step].
    - destruct (insert_ok fst keqb hash keqb_ok t k (k, dflt) (fun e => e) (proj1 HI) Hsm)
        as (t' & ex & e & -> & HC & _ & _ & [(-> & HnE & l1 & [k0 v0] & l2 & He & Hk & -> & He' & HH)|(-> & HnE & -> & HP' & HH)]).
      + cbn in Hk. subst k0. cbn [bind].
        assert (G : get keqb m k = Some v0).
        { eapply models_in; eauto. rewrite He. apply in_or_app. cbn; auto. }
        rewrite G in HS. injection HS as <- <-. exists t'. split; [reflexivity|]. split; [|lia].
        split; [apply HH; auto|]. split; auto. rewrite He', <- He. auto.
      + cbn [bind]. destruct (HH HI) as [Hni HI'].
        rewrite (models_notin _ _ _ HM Hni) in HS. injection HS as <- <-.
        exists t'. split; [reflexivity|]. split; [|lia].
        split; [apply HI'; reflexivity|]. split; [apply put_NoDup; auto|].
        unfold put. rewrite del_notin; auto.
        * rewrite <- HP'. constructor. auto.
        * apply (get_None keqb keqb_ok). eapply models_notin; eauto.
    - destruct (insert_ok fst keqb hash keqb_ok t k (k, v) (fun e => (fst e, v)) (proj1 HI) Hsm)
        as (t' & ex & e & -> & HC & _ & _ & [(-> & HnE & l1 & [k0 v0] & l2 & He & Hk & -> & He' & HH)|(-> & HnE & -> & HP' & HH)]).
      + cbn in Hk. subst k0. cbn [bind].
        assert (G : get keqb m k = Some v0).
        { eapply models_in; eauto. rewrite He. apply in_or_app. cbn; auto. }
        unfold has in HS. rewrite G in HS. injection HS as <- <-. exists t'. split; [reflexivity|]. split; [|lia].
        split; [apply HH; auto|]. split; [apply put_NoDup; auto|].
        rewrite He'. cbn [fst]. eapply perm_replace; eauto. rewrite <- He. auto.
      + cbn [bind]. destruct (HH HI) as [Hni HI'].
        unfold has in HS. rewrite (models_notin _ _ _ HM Hni) in HS. injection HS as <- <-.
        exists t'. split; [reflexivity|]. split; [|lia].
        split; [apply HI'; reflexivity|]. split; [apply put_NoDup; auto|].
        unfold put. rewrite del_notin; auto.
        * rewrite <- HP'. constructor. auto.
        * apply (get_None keqb keqb_ok). eapply models_notin; eauto.
    - destruct (erase_ok fst keqb hash keqb_ok t k (proj1 HI)) as (t' & ex & -> & HC & _ & [(-> & [k0 v0] & Hk & HP' & HnE & HH)|(-> & -> & HH)]).
      { change (2^28) with 268435456 in *. lia. }
      + cbn in Hk. subst k0. cbn [bind].
        assert (G : get keqb m k = Some v0).
        { eapply models_in; eauto. eapply Permutation_in; [symmetry; exact HP'|]. cbn; auto. }
        unfold has in HS. rewrite G in HS. injection HS as <- <-. exists t'. split; [reflexivity|]. split; [|lia].
        split; [apply HH; auto|]. split; [apply del_NoDup; auto|].
        eapply del_perm; eauto. rewrite HP. exact HP'.
      + cbn [bind]. specialize (HH HI).
        unfold has in HS. rewrite (models_notin _ _ _ HM HH) in HS. injection HS as <- <-.
        exists t. split; [reflexivity|]. split; [|lia].
        rewrite del_notin; auto. apply (get_None keqb keqb_ok). eapply models_notin; eauto.
    - injection HS as <- <-.
      destruct (find_entry_ok fst keqb hash keqb_ok t k HI) as [([k0 v0] & Hin & Hk & ->)|[Hni ->]]; cbn [bind].
      + cbn in Hk. subst k0. rewrite (models_in _ _ _ _ HM Hin). exists t. split; [reflexivity|]. split; [exact HM|lia].
      + rewrite (models_notin _ _ _ HM Hni). exists t. split; [reflexivity|]. split; [exact HM|lia].
    - injection HS as <- <-. exists t. rewrite <- (models_card _ _ HM). split; auto. split; auto. lia.
    - injection HS as <- <-. exists t. rewrite <- (models_card _ _ HM). split; auto. split; auto. lia.
    - injection HS as <- <-. exists (clear t). split; auto. unfold clear.
      destruct (N.eqb_spec (nE t) 0) as [E0|E0].
      + split; [|lia]. split; auto. cbn. split; [constructor|].
        rewrite (CInv_card _ (proj1 HI)) in E0. destruct (tents t); [constructor|cbn in E0; lia].
      + split; [|cbn [null_table nE]; lia]. split; [|cbn; split; constructor]. apply null_ok.
    - injection HS as <- <-. unfold rehash.
      destruct (tbl t) as [bs|] eqn:Hb.
      + destruct (may_rehash_ok fst keqb hash keqb_ok t bs) as (t' & -> & HC & HP' & HnE & _ & _ & HH).
        { destruct HI as [HC HI]. unfold CInv in HC. rewrite Hb in HC. split; auto. split; [tauto|].
          change (2^28) with 268435456 in *. lia. }
        cbn [bind]. exists t'. split; auto. split; [|lia].
        destruct HI as [HC0 HI]. rewrite Hb in HI.
        split; [apply HH; tauto|]. split; auto. rewrite HP. auto.
      + unfold may_rehash. destruct HI as [HC HI]. pose proof HC as HC0. unfold CInv in HC. rewrite Hb in HC.
        destruct HC as (Z1 & Z2 & Z3). rewrite Z1, Z2, Z3. cbn. exists t. split; auto. split; auto. rewrite Z2. cbn. lia.
    - destruct (N.ltb_spec (card m) n) as [L1|L1]; [|discriminate].
      destruct (N.ltb_spec n (2^28)) as [L2|L2]; [|discriminate].
      cbn in HS. injection HS as <- <-.
      pose proof (models_card _ _ HM) as Hcard. change (2^28) with 268435456 in *.
      unfold rehash_to. replace (u32 n) with n by (unfold u32; rewrite N.mod_small; lia).
      destruct (do_rehash_ok fst keqb hash keqb_ok t n) as (t' & -> & HC & HP' & HnB & HnE & HnT & _ & HH & HH0);
        [apply CInv_card; apply HI|lia|change (2^29) with 536870912; lia|].
      cbn [bind]. exists t'. split; auto. split; [|lia].
      split; [|split; auto; rewrite HP; auto].
      destruct HI as [_ HI]. destruct (tbl t) as [bs|] eqn:Hb; [eapply HH; eauto; tauto|auto].
  Qed.

  Lemma run_ok l : forall t m m' as_,
    models t m -> nE t + N.of_nat (length l) <= 2^28 ->
    spec_run keqb dflt m l = Some (m', as_) ->
    exists t', run keqb hash dflt t l = Ret (t', as_) /\ models t' m'.
  Proof.
    induction l as [|o l IH]; cbn [spec_run run]; intros t m m' as_ HM Hsm HS.
    - injection HS as <- <-. eauto.
    - destruct (spec_step keqb dflt m o) as [[m1 a]|] eqn:E1; [|discriminate].
      destruct (spec_run keqb dflt m1 l) as [[m2 as2]|] eqn:E2; [|discriminate].
      injection HS as <- <-.
      cbn [length] in Hsm.
      destruct (step_ok t m o m1 a HM ltac:(lia) E1) as (t1 & -> & HM1 & Hn1). cbn [bind].
      destruct (IH t1 m1 m2 as2 HM1 ltac:(lia) E2) as (t2 & -> & HM2). cbn [bind]. eauto.
  Qed.

  Lemma models_new n : n < 2^28 -> models (new_table n) [] /\ nE (new_table (E := entry) n) = 0.
  Proof.
    intros Hn. destruct (new_table_ok (E := entry) fst hash n Hn) as (HI & _ & HE).
    split.
    - split; auto. rewrite HE. cbn. split; constructor.
    - rewrite (CInv_card _ (proj1 HI)), HE. reflexivity.
  Qed.

  Lemma run_new_ok size l m as_ :
    size < 2^28 -> N.of_nat (length l) <= 2^28 ->
    spec_run keqb dflt [] l = Some (m, as_) ->
    exists t, run keqb hash dflt (new_table size) l = Ret (t, as_) /\ models t m.
  Proof.
    intros Hs Hl HS. destruct (models_new size Hs) as [HM HE0].
    eapply run_ok; eauto. lia.
  Qed.
End Refine.

(** ** Iteration *)
Section Iter.
  Context {E : Type}.

  Lemma skipn_nth {A} (l : list A) i x : nth_error l i = Some x -> skipn i l = x :: skipn (S i) l.
  Proof.
    revert i; induction l; intros [|i] H; cbn in *; try discriminate; [congruence|].
    rewrite (IHl _ H). reflexivity.
  Qed.

  Lemma scan_ok (bs : list (bucket E)) f : forall i,
    (length bs - i <= f)%nat -> ents (skipn i bs) <> [] ->
    exists j b e, scan f bs i = Ret j /\ (i <= j)%nat /\ nth_error bs j = Some b /\ bslot b = Full e /\
      ents (skipn i bs) = ents (skipn j bs).
  Proof.
    induction f as [|f IH]; intros i Hf Hne.
    - assert (skipn i bs = []) as Hs by (apply skipn_all2; lia). rewrite Hs in Hne. cbn in Hne. congruence.
    - assert (i < length bs)%nat as Hi.
      { destruct (Nat.lt_ge_cases i (length bs)); auto. exfalso. apply Hne.
        rewrite skipn_all2 by lia. reflexivity. }
      destruct (nth_error_ex bs i Hi) as (b & Hb).
      rewrite (skipn_nth _ _ _ Hb) in *. rewrite ents_cons in *.
      cbn [scan]. rewrite Hb.
      destruct (bslot b) as [| |e] eqn:Eb; cbn [slot_ents app] in *.
      + destruct (IH (S i)) as (j & b' & e & -> & ? & ? & ? & ?); [lia|auto|]. exists j, b', e. repeat split; auto; lia.
      + destruct (IH (S i)) as (j & b' & e & -> & ? & ? & ? & ?); [lia|auto|]. exists j, b', e. repeat split; auto; lia.
      + exists i, b, e. repeat split; auto. rewrite (skipn_nth _ _ _ Hb), ents_cons, Eb. reflexivity.
  Qed.

  Lemma advance_loop_ok (bs : list (bucket E)) f : forall i,
    (i < length bs)%nat -> (length bs - i <= f)%nat ->
    (advance_loop f bs (N.of_nat (length bs)) i = Ret None /\ ents (skipn (S i) bs) = [])
    \/ exists j b e, advance_loop f bs (N.of_nat (length bs)) i = Ret (Some j) /\ (i < j)%nat /\
         nth_error bs j = Some b /\ bslot b = Full e /\ ents (skipn (S i) bs) = ents (skipn j bs).
  Proof.
    induction f as [|f IH]; intros i Hi Hf; [lia|].
    cbn [advance_loop].
    destruct (N.eqb_spec (N.of_nat (length bs)) (N.of_nat (S i))) as [El|El].
    - left. split; auto. rewrite skipn_all2 by lia. reflexivity.
    - destruct (nth_error_ex bs (S i)) as (b & Hb); [lia|]. rewrite Hb.
      rewrite (skipn_nth _ _ _ Hb), ents_cons.
      destruct (bslot b) as [| |e] eqn:Eb; cbn [slot_ents app].
      + destruct (IH (S i)) as [[-> ?]|(j & b' & e & -> & ? & ? & ? & ?)]; [lia|lia|auto|].
        right. exists j, b', e. repeat split; auto; lia.
      + destruct (IH (S i)) as [[-> ?]|(j & b' & e & -> & ? & ? & ? & ?)]; [lia|lia|auto|].
        right. exists j, b', e. repeat split; auto; lia.
      + right. exists (S i), b, e. repeat split; auto; try lia.
        rewrite (skipn_nth _ _ _ Hb), ents_cons, Eb. reflexivity.
  Qed.

  Lemma iterate_ok (t : table E) bs f : forall i b e,
    tbl t = Some bs -> nB t = N.of_nat (length bs) ->
    nth_error bs i = Some b -> bslot b = Full e ->
    (length (ents (skipn i bs)) <= f)%nat ->
    iterate f t (Some i) = Ret (ents (skipn i bs)).
  Proof.
    induction f as [|f IH]; intros i b e Ht HnB Hb He Hf.
    - rewrite (skipn_nth _ _ _ Hb), ents_cons, He in Hf. cbn in Hf. lia.
    - cbn [iterate]. unfold deref. rewrite Ht, Hb, He. cbn [bind]. unfold advance. rewrite Ht, HnB.
      rewrite (skipn_nth _ _ _ Hb), ents_cons, He in *. cbn [slot_ents app length] in *.
      assert (Hi : (i < length bs)%nat) by (apply nth_error_Some; congruence).
      destruct (advance_loop_ok bs (S (length bs)) i Hi ltac:(lia)) as [[-> Hnil]|(j & b' & e' & -> & Hij & Hb' & He' & Heq)].
      + cbn [bind]. rewrite Hnil. destruct f; reflexivity.
      + cbn [bind]. rewrite Heq in *. rewrite (IH j b' e'); auto. lia.
  Qed.

  Lemma traverse_ok (t : table E) f : CInv t -> (N.to_nat (nE t) <= f)%nat ->
    traverse f t = Ret (tents t).
  Proof.
    intros HC Hf. pose proof (CInv_card _ HC) as Hcard. unfold traverse, begin_iter.
    destruct (N.eqb_spec (nE t) 0) as [E0|E0].
    { cbn [bind]. destruct (tents t); [destruct f; reflexivity|cbn in Hcard; lia]. }
    unfold CInv in HC. unfold tents in *. destruct (tbl t) as [bs|] eqn:Hb.
    2: { cbn in Hcard. lia. }
    destruct HC as [HC _].
    destruct (scan_ok bs (length bs) 0) as (j & b & e & -> & _ & Hj & He & Heq).
    { lia. }
    { cbn [skipn]. intros Hnil. rewrite Hnil in Hcard. cbn in Hcard. lia. }
    cbn [bind]. cbn [skipn] in Heq. rewrite Heq. eapply iterate_ok; eauto.
    - apply HC.
    - rewrite <- Heq. lia.
  Qed.
End Iter.

(** Load bounds, divergence, rehash(n), chain iteration and count, copies. *)
From Verif Require Import Base HashModel HashSpec HashProof HashProof2.
From Coq Require Import List NArith ZArith Lia Bool Permutation Arith.
From Coq Require Import ZifyBool ZifyNat ZifyN.
Import ListNotations.
Local Open Scope N_scope.

(** ** Load bounds *)
Section Load.
  Context {K E : Type}.
  Variable ekey : E -> K.
  Variable keqb : K -> K -> bool.
  Variable hash : K -> N.
  Hypothesis keqb_ok : forall a b, reflect (a = b) (keqb a b).

  Definition good_size (n : N) : Prop := n = 0 \/ In n bucket_sizes \/ 196613 <= n.
  Definition load_inv (t : table E) : Prop := load_ok t /\ good_size (nB t).

  Lemma good_compute n : n < 2^31 -> good_size (compute_bucket_size n).
  Proof.
    intros H. unfold good_size, compute_bucket_size.
    destruct (find (fun s => n <? s) bucket_sizes) as [s|] eqn:F.
    - apply find_some in F. right; left; tauto.
    - right; right. change (2^31) with 2147483648 in H. unfold u32.
      rewrite N.mod_small by lia.
      unfold bucket_sizes in F. cbn [find] in F.
      repeat match type of F with context [n <? ?c] => destruct (N.ltb_spec n c); [discriminate|] end. lia.
  Qed.

  Lemma compute_gap n : n < 2^31 -> good_size n -> 0 < n -> n + 2 <= compute_bucket_size n.
  Proof.
    intros H [->|[Hin|Hb]] Hp; [lia| |].
    - unfold bucket_sizes in Hin. cbn in Hin.
      repeat (destruct Hin as [<-|Hin]; [vm_compute; discriminate|]). tauto.
    - unfold compute_bucket_size, bucket_sizes. cbn [find].
      repeat match goal with |- context [n <? ?c] => destruct (N.ltb_spec n c); [lia|] end.
      change (2^31) with 2147483648 in H. unfold u32. rewrite N.mod_small by lia. lia.
  Qed.

  Lemma do_rehash_fields (t : table E) n t' : do_rehash t n = Ret t' -> nB t' = n /\ nE t' = nE t /\ nT t' = 0.
  Proof. unfold do_rehash. intros H. apply bind_ret in H as (l & _ & [= <-]). cbn. auto. Qed.

  Lemma may_rehash_load (t : table E) bs t' :
    pre_rehash bs t -> good_size (nB t) -> 4 * nE t <= 3 * nB t + 4 ->
    may_rehash t = Ret t' -> load_inv t'.
  Proof.
    intros (Hbs & [HB HE HT Hbig Hpos] & Hsmall) Hg Hprev.
    change (2^29) with 536870912 in *. change (2^28) with 268435456 in *.
    pose proof (count_total bs) as Hct.
    unfold may_rehash.
    assert (E3 : u32 (nB t * 3) = nB t * 3) by (unfold u32; rewrite N.mod_small; lia).
    assert (E4 : u32 (nE t * 4) = nE t * 4) by (unfold u32; rewrite N.mod_small; lia).
    assert (Esub : sub32 (nB t) (nE t + nT t) = nB t - (nE t + nT t)).
    { unfold sub32, u32. rewrite (N.mod_small (nE t + nT t)) by lia.
      replace (nB t + 4294967296 - (nE t + nT t)) with (nB t - (nE t + nT t) + 1 * 4294967296) by lia.
      rewrite N.mod_add by lia. apply N.mod_small. lia. }
    rewrite Esub, E3, E4.
    assert (E8 : u32 ((nB t - (nE t + nT t)) * 8) = (nB t - (nE t + nT t)) * 8).
    { unfold u32. rewrite N.mod_small; lia. }
    rewrite E8.
    destruct (N.ltb_spec (nB t * 3) (nE t * 4)) as [L1|L1].
    { intros HR. apply do_rehash_fields in HR as (R1 & R2 & R3).
      pose proof (compute_gap (nB t)) as HG. change (2^31) with 2147483648 in HG.
      specialize (HG ltac:(lia) Hg ltac:(lia)).
      unfold load_inv, load_ok. rewrite R1, R2, R3. split; [lia|]. apply good_compute.
      change (2^31) with 2147483648. lia. }
    destruct (N.ltb_spec ((nB t - (nE t + nT t)) * 8) (nB t)) as [L2|L2].
    { intros HR. apply do_rehash_fields in HR as (R1 & R2 & R3).
      unfold load_inv, load_ok. rewrite R1, R2, R3. split; [lia|auto]. }
    intros [= <-]. unfold load_inv, load_ok. split; [lia|auto].
  Qed.

  Lemma load_started (t : table E) : CInv t -> load_inv t -> load_inv (started t).
  Proof.
    intros HC HL. unfold started, isInit. destruct (tbl t); auto.
    split; [vm_compute; split; discriminate|]. right; left. vm_compute. tauto.
  Qed.

  Lemma insert_load t k mk touch t' ex e : CInv t -> nE t < 2^28 -> load_inv t ->
    insert ekey keqb hash t k mk touch = Ret (t', ex, e) -> load_inv t'.
  Proof.
    intros HC Hsm HL. change (2^28) with 268435456 in *.
    pose proof (load_started t HC HL) as HLs.
    destruct (lookup_cases ekey keqb hash keqb_ok t k HC) as (bs & Hbs & HH). unfold insert.
    pose proof (started_C ekey hash t HC) as HCs. pose proof (started_nE t HC) as HnEs.
    pose proof HCs as HCs'. unfold CInv in HCs'. rewrite Hbs in HCs'.
    destruct HCs' as [[HB HE HT Hbig Hpos] Hem].
    destruct HH as [(i & b & e0 & -> & Hb & Hf & Hk)|(i & b & Hb & Hsl & -> & Hre & Hno)].
    - cbn [bind]. rewrite Hbs, Hb, Hf. intros [= <- _ _]. exact HLs.
    - cbn [bind tbl]. rewrite (nth_error_upd_eq _ _ _ _ Hb). cbn [bslot].
      set (h := u32 (hash k)). set (x := mkB h (Full mk)).
      assert (Hset : set_slot (upd bs i (mkB h (bslot b))) i (Full mk) = upd bs i x).
      { erewrite set_slot_upd by (eapply nth_error_upd_eq; eauto). cbn [bhash]. rewrite upd_upd. reflexivity. }
      pose proof (ents_upd _ _ _ x Hb) as P1.
      pose proof (tombs_upd _ _ _ x Hb) as P2. 
      unfold is_tomb in P2. cbn in P1, P2. pose proof (Permutation_length P1) as PL.
      pose proof (count_total bs) as Hct.
      change (2^29) with 536870912 in Hbig.
      destruct HLs as [[HL1 HL2] HLg].
      destruct Hsl as [Hsl|Hsl]; rewrite Hsl; rewrite Hsl in Hset; rewrite Hset; rewrite Hsl in PL, P2; cbn in PL, P2; cbn [nB nE nT];
        intros HR; apply bind_ret in HR as (t1 & HR & [= <- _ _]);
        (eapply may_rehash_load; [| | |exact HR]; cbn [tbl nB nE nT]; auto).
      1,3: split; [reflexivity|]; split; [constructor; cbn [nB nE nT]; try rewrite upd_length; auto|].
      all: cbn [nB nE nT]; try (change (2^28) with 268435456).
      all: try (assert (u32 (nE (started t) + 1) = nE (started t) + 1) as -> by (unfold u32; rewrite N.mod_small; lia)).
      all: try lia.
      unfold sub32, u32. rewrite HT. rewrite (N.mod_small 1) by lia.
      replace (N.of_nat (tombs bs) + 4294967296 - 1) with (N.of_nat (tombs (upd bs i x)) + 1 * 4294967296) by lia.
      rewrite N.mod_add by lia. apply N.mod_small. lia.
  Qed.

  Lemma erase_load t k t' ex : CInv t -> nE t < 2^28 -> load_inv t ->
    erase ekey keqb hash t k = Ret (t', ex) -> load_inv t'.
  Proof.
    intros HC Hsm HL. change (2^28) with 268435456 in *. unfold erase.
    destruct (find_key_cases ekey keqb hash keqb_ok t k HC) as [(bs & i & b & e & Hbs & -> & Hb & Hf & Hk)|[-> Hno]];
      [|cbn; intros [= <- _]; auto].
    cbn [bind]. rewrite Hbs. rewrite (set_slot_upd _ _ _ _ Hb).
    pose proof HC as HC'. unfold CInv in HC'. rewrite Hbs in HC'.
    destruct HC' as [[HB HE HT Hbig Hpos] Hem]. change (2^29) with 536870912 in Hbig.
    set (x := mkB (bhash b) Tomb).
    pose proof (ents_upd _ _ _ x Hb) as P1.
    pose proof (tombs_upd _ _ _ x Hb) as P2.
    unfold is_tomb in P2. rewrite Hf in P1, P2. cbn in P1, P2.
    pose proof (count_total bs) as Hct. pose proof (Permutation_length P1) as PL. cbn in PL.
    assert (EE : sub32 (nE t) 1 = N.of_nat (length (ents (upd bs i x)))).
    { unfold sub32, u32. rewrite HE. rewrite (N.mod_small 1) by lia.
      replace (N.of_nat (length (ents bs)) + 4294967296 - 1)
        with (N.of_nat (length (ents (upd bs i x))) + 1 * 4294967296) by lia.
      rewrite N.mod_add by lia. apply N.mod_small. lia. }
    destruct HL as [[HL1 HL2] HLg].
    intros HR; apply bind_ret in HR as (t1 & HR & [= <- _]).
    eapply may_rehash_load; [| | |exact HR]; cbn [tbl nB nE nT]; auto; [|lia].
    split; [reflexivity|]. split; [constructor; cbn [nB nE nT]; try rewrite upd_length; auto; try lia|].
    - unfold u32. rewrite N.mod_small; lia.
    - cbn [nE]. change (2^28) with 268435456. lia.
  Qed.

  Lemma rehash_load (t : table E) t' : CInv t -> nE t < 2^28 -> load_inv t ->
    rehash t = Ret t' -> load_inv t'.
  Proof.
    intros HC Hsm HL HR. unfold rehash in HR. unfold CInv in HC.
    destruct (tbl t) as [bs|] eqn:Hb.
    - destruct HL as [[HL1 HL2] HLg]. apply (may_rehash_load t bs t'); [| | |exact HR]; auto; [|lia].
      split; auto. split; [tauto|]. change (2^28) with 268435456 in *. lia.
    - unfold may_rehash in HR. destruct HC as (H1 & H2 & H3). rewrite H1, H2, H3 in HR. cbn in HR.
      injection HR as <-. auto.
  Qed.

  Lemma new_load n : n < 2^28 -> load_inv (new_table n).
  Proof.
    intros Hn. split.
    - apply (new_table_ok ekey hash n Hn).
    - change (2^28) with 268435456 in *. unfold new_table, u32. rewrite N.mod_small by lia.
      destruct (N.eqb_spec n 0); [left; reflexivity|].
      unfold init. destruct (N.eqb_spec n 0); [lia|]. cbn [nB].
      apply good_compute. change (2^31) with 2147483648. lia.
  Qed.
End Load.

(** ** Divergence: when the fuel (one full round) runs out, no fuel is enough *)
Section Diverge.
  Context {K E : Type}.
  Variable ekey : E -> K.
  Variable keqb : K -> K -> bool.
  Variable hash : K -> N.
  Hypothesis keqb_ok : forall a b, reflect (a = b) (keqb a b).

  Lemma all_round (P : nat -> Prop) B s :
    (s < B)%nat -> (forall j, (0 <= j < 0 + B)%nat -> P (pos B s j)) -> forall j, P (pos B s j).
  Proof.
    intros Hs H j. destruct (pos_cover B s (pos B s j) Hs) as (j' & Hj' & <-).
    - apply pos_lt. lia.
    - apply H. lia.
  Qed.

  Lemma find_loop_diverges bs k h i f : (i < length bs)%nat ->
    find_loop ekey keqb (length bs) bs k h i = Diverge -> find_loop ekey keqb f bs k h i = Diverge.
  Proof.
    intros Hi HD.
    assert (HB : (0 < length bs)%nat) by lia.
    destruct (find_loop_spec ekey keqb hash keqb_ok bs k h i (length bs) HB 0) as [(j' & _ & _ & HH)|[Hmiss _]].
    { rewrite pos_0 in HH by auto. destruct HH as [(? & ? & ? & ? & ? & ? & ?)|(? & ? & ? & ?)]; congruence. }
    pose proof (all_round (miss_at ekey k h bs) _ _ Hi Hmiss) as Hall.
    destruct (find_loop_spec ekey keqb hash keqb_ok bs k h i f HB 0) as [(j' & _ & _ & HH)|[_ HH]].
    - destruct (Hall j') as (b0 & Hb0 & Hne & Hno).
      destruct HH as [(b & e & Hb & Hf & Hh & Hk & _)|(b & Hb & He & _)]; rewrite Hb in Hb0; injection Hb0 as <-.
      + destruct (Hno e Hf); auto.
      + congruence.
    - rewrite pos_0 in HH by auto. exact HH.
  Qed.

  Lemma lookup_loop_diverges bs k h i ft f : (i < length bs)%nat ->
    lookup_loop ekey keqb (length bs) bs k h i ft = Diverge ->
    forall ft', lookup_loop ekey keqb f bs k h i ft' = Diverge.
  Proof.
    intros Hi HD ft'.
    assert (HB : (0 < length bs)%nat) by lia.
    destruct (lookup_loop_spec ekey keqb hash keqb_ok bs k h i (length bs) HB 0 ft) as [(j' & _ & _ & HH)|[Hmiss _]].
    { rewrite pos_0 in HH by auto. destruct HH as [(? & ? & ? & ? & ? & ? & ?)|(? & ? & ? & HH)]; [congruence|].
      destruct ft; [congruence|]. destruct HH as (? & ? & ? & ? & ? & ?). congruence. }
    pose proof (all_round (miss_at ekey k h bs) _ _ Hi Hmiss) as Hall.
    destruct (lookup_loop_spec ekey keqb hash keqb_ok bs k h i f HB 0 ft') as [(j' & _ & _ & HH)|[_ HH]].
    - destruct (Hall j') as (b0 & Hb0 & Hne & Hno).
      destruct HH as [(b & e & Hb & Hf & Hh & Hk & _)|(b & Hb & He & _)]; rewrite Hb in Hb0; injection Hb0 as <-.
      + destruct (Hno e Hf); auto.
      + congruence.
    - rewrite pos_0 in HH by auto. exact HH.
  Qed.

  Lemma place_loop_diverges (bs : list (bucket E)) h e i f : (i < length bs)%nat ->
    place_loop (length bs) bs h e i = Diverge -> place_loop f bs h e i = Diverge.
  Proof.
    intros Hi HD.
    assert (HB : (0 < length bs)%nat) by lia.
    destruct (place_loop_spec ekey keqb hash keqb_ok bs h e i (length bs) HB 0) as [(j' & b & _ & _ & _ & _ & HH)|[Hmiss _]].
    { rewrite pos_0 in HH by auto. congruence. }
    pose proof (all_round (nonempty_at bs) _ _ Hi Hmiss) as Hall.
    destruct (place_loop_spec ekey keqb hash keqb_ok bs h e i f HB 0) as [(j' & b & _ & _ & Hb & He & _)|[_ HH]].
    - destruct (Hall j') as (b0 & Hb0 & Hne). congruence.
    - rewrite pos_0 in HH by auto. exact HH.
  Qed.

  (** *** rehash(n) without room *)
  Lemma place_full bs h (e : E) : (0 < length bs)%nat -> empties bs = 0%nat ->
    place bs (N.of_nat (length bs)) h e = Diverge.
  Proof.
    intros HB He. unfold place. destruct (N.eqb_spec (N.of_nat (length bs)) 0); [lia|].
    pose proof (home_lt h bs HB) as Hs.
    destruct (place_loop_spec ekey keqb hash keqb_ok bs h e (N.to_nat (h mod N.of_nat (length bs))) (length bs) HB 0)
      as [(j' & b & _ & _ & Hb & Hem & _)|[_ HH]].
    - exfalso. assert (Hin : In b (filter is_empty bs)).
      { apply filter_In. split; [eapply nth_error_In; eauto|]. unfold is_empty. rewrite Hem. auto. }
      unfold empties in He. destruct (filter is_empty bs); [destruct Hin|discriminate He].
    - rewrite pos_0 in HH by auto. exact HH.
  Qed.

  Lemma rehash_loop_full old : forall new,
    (0 < length new)%nat -> (empties new < length (ents old))%nat ->
    rehash_loop (E := E) old new (N.of_nat (length new)) = Diverge.
  Proof.
    induction old as [|b old IH]; intros new Hn He; [cbn in He; lia|].
    rewrite ents_cons, app_length in He. cbn [rehash_loop].
    destruct (bslot b) as [| |e] eqn:Eb; cbn [slot_ents length] in He; [apply IH; auto..|].
    destruct (Nat.eq_dec (empties new) 0) as [E0|E0].
    - rewrite place_full by auto. reflexivity.
    - destruct (place_ok ekey keqb hash keqb_ok new (bhash b) e Hn) as (new' & -> & Hl & _ & _ & Hem & _); [lia|].
      cbn [bind]. rewrite <- Hl. apply IH; lia.
  Qed.

  Lemma rehash_to_small t n : CInv t -> 0 < n -> n < nE t -> rehash_to (E := E) t n = Diverge.
  Proof.
    intros HC Hn Hlt. pose proof (CInv_card _ HC) as Hc.
    assert (Hb : exists bs, tbl t = Some bs /\ nE t < 2^29).
    { unfold CInv in HC. destruct (tbl t) as [bs|]; [|lia]. exists bs. split; auto.
      destruct HC as [[] _]. pose proof (count_total bs). lia. }
    destruct Hb as (bs & Hbs & Hbig). change (2^29) with 536870912 in Hbig.
    unfold rehash_to, do_rehash. replace (u32 n) with n by (unfold u32; rewrite N.mod_small; lia).
    unfold tents in Hc. rewrite Hbs in *.
    pose proof (rehash_loop_full bs (repeat empty_bucket (N.to_nat n))) as HL.
    rewrite repeat_length, N2Nat.id in HL.
    rewrite HL; [reflexivity|lia|]. rewrite (empties_repeat (E := E)). lia.
  Qed.

  Lemma rehash_to_zero t : CInv t -> 0 < nE t -> rehash_to (E := E) t 0 = UB DivByZero.
  Proof.
    intros HC Hlt. pose proof (CInv_card _ HC) as Hc. unfold tents in Hc.
    unfold rehash_to, do_rehash. destruct (tbl t) as [bs|]; [|cbn in Hc; lia].
    cbn [u32]. change (u32 0) with 0. cbn [N.to_nat repeat].
    assert (Hl : (0 < length (ents bs))%nat) by lia. clear - Hl.
    assert (HH : rehash_loop bs [] 0 = UB DivByZero); [|rewrite HH; reflexivity].
    induction bs as [|b bs IH]; [cbn in Hl; lia|]. rewrite ents_cons, app_length in Hl. cbn [rehash_loop].
    destruct (bslot b); cbn in *; auto.
  Qed.

  Lemma rehash_to_exact t k : CInv t -> 0 < nE t -> ~ In k (map ekey (tents t)) ->
    exists t', rehash_to t (nE t) = Ret t' /\ Permutation (tents t) (tents t') /\
               find_key ekey keqb hash t' k = Diverge.
  Proof.
    intros HC Hp Hni. pose proof (CInv_card _ HC) as Hc.
    assert (Hb : exists bs, tbl t = Some bs /\ nE t < 2^29).
    { unfold CInv in HC. destruct (tbl t) as [bs|]; [|lia]. exists bs. split; auto.
      destruct HC as [[] _]. pose proof (count_total bs). lia. }
    destruct Hb as (bs & Hbs & Hbig). change (2^29) with 536870912 in Hbig.
    unfold tents in Hc, Hni |- * at 1. rewrite Hbs in *.
    unfold rehash_to, do_rehash. replace (u32 (nE t)) with (nE t) by (unfold u32; rewrite N.mod_small; lia).
    rewrite Hbs.
    (* place all but the last with room to spare, the last into the last bucket *)
    assert (Hgen : forall old new, (0 < length new)%nat -> (length (ents old) <= empties new)%nat ->
      exists bs', rehash_loop (E := E) old new (N.of_nat (length new)) = Ret bs' /\ length bs' = length new /\
        Permutation (ents old ++ ents new) (ents bs') /\ (empties new = length (ents old) + empties bs')%nat).
    { clear - ekey hash keqb_ok. induction old as [|b old IH]; intros new Hn He.
      { exists new. cbn. auto. }
      rewrite ents_cons, app_length in He. cbn [rehash_loop]. rewrite ents_cons, app_length.
      destruct (bslot b) as [| |e] eqn:Eb; cbn [slot_ents length app] in *; [apply IH; auto..|].
      destruct (place_ok ekey keqb hash keqb_ok new (bhash b) e Hn) as (new' & -> & Hl & HP & _ & Hem & _); [lia|].
      cbn [bind]. rewrite <- Hl.
      destruct (IH new') as (bs' & -> & Hl' & HP' & He'); [lia|lia|].
      exists bs'. split; auto. split; auto. split; [|lia].
      rewrite <- HP', <- HP. cbn. apply Permutation_middle. }
    destruct (Hgen bs (repeat empty_bucket (N.to_nat (nE t)))) as (bs' & Hr & Hl & HP & He).
    { rewrite repeat_length. lia. }
    { rewrite (empties_repeat (E := E)). lia. }
    rewrite repeat_length, N2Nat.id in Hr. rewrite Hr. cbn [bind].
    eexists. split; [reflexivity|]. rewrite (empties_repeat (E := E)) in He.
    rewrite (ents_repeat (E := E)), app_nil_r in HP. rewrite repeat_length in Hl.
    split; [exact HP|].
    unfold find_key. cbn [tbl nB]. destruct (N.eqb_spec (nE t) 0); [lia|].
    assert (HB : (0 < length bs')%nat) by lia.
    assert (Hlen : nE t = N.of_nat (length bs')) by lia. rewrite Hlen.
    set (h := u32 (hash k)).
    pose proof (home_lt h bs' HB) as Hs.
    set (s := N.to_nat (h mod N.of_nat (length bs'))) in *.
    destruct (find_loop_spec ekey keqb hash keqb_ok bs' k h s (length bs') HB 0) as [(j' & _ & _ & HH)|[_ HH]].
    - exfalso. destruct HH as [(b & e & Hb & Hf & _ & Hk & _)|(b & Hb & Hem & _)].
      + apply Hni. rewrite <- Hk. apply in_map. eapply Permutation_in; [symmetry; exact HP|].
        apply in_ents. eauto.
      + assert (Hin : In b (filter is_empty bs')).
        { apply filter_In. split; [eapply nth_error_In; eauto|]. unfold is_empty. rewrite Hem. auto. }
        assert (He0 : empties bs' = 0%nat) by lia.
        unfold empties in He0. destruct (filter is_empty bs'); [destruct Hin|discriminate He0].
    - rewrite pos_0 in HH by auto. exact HH.
  Qed.
End Diverge.

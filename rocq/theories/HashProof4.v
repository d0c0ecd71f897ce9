(** Chain iteration and count; copies. *)
From Verif Require Import Base HashModel HashSpec HashProof HashProof2 HashProof3.
From Coq Require Import List NArith ZArith Lia Bool Permutation Arith.
From Coq Require Import ZifyBool ZifyNat ZifyN.
Import ListNotations.
Local Open Scope N_scope.

(** ** Empty buckets keep hash 0 (calloc) *)
Section EInv.
  Context {K E : Type}.
  Variable ekey : E -> K.
  Variable keqb : K -> K -> bool.
  Variable hash : K -> N.
  Hypothesis keqb_ok : forall a b, reflect (a = b) (keqb a b).

  Definition einv_bs (bs : list (bucket E)) : Prop :=
    forall i b, nth_error bs i = Some b -> bslot b = Empty -> bhash b = 0.
  Definition einv (t : table E) : Prop :=
    match tbl t with None => True | Some bs => einv_bs bs end.

  Lemma einv_upd bs i x : einv_bs bs -> bslot x <> Empty -> einv_bs (upd bs i x).
  Proof.
    intros H Hx j b Hj He. rewrite nth_error_upd in Hj. destruct (Nat.eqb_spec i j) as [->|].
    - destruct (Nat.ltb j (length bs)); [|discriminate]. injection Hj as <-. congruence.
    - eapply H; eauto.
  Qed.

  Lemma einv_repeat n : einv_bs (repeat empty_bucket n).
  Proof. intros i b Hi _. apply nth_error_In, repeat_spec in Hi. subst. reflexivity. Qed.

  Lemma place_loop_einv f : forall (bs : list (bucket E)) h e i bs',
    place_loop f bs h e i = Ret bs' -> einv_bs bs -> einv_bs bs'.
  Proof.
    induction f as [|f IH]; intros bs h e i bs' H HE; [discriminate|]. cbn in H.
    destruct (nth_error bs i) as [b|]; [|discriminate].
    destruct (bslot b); [injection H as <-; apply einv_upd; auto; discriminate|eauto|eauto].
  Qed.

  Lemma rehash_loop_einv old : forall (new : list (bucket E)) n bs',
    rehash_loop old new n = Ret bs' -> einv_bs new -> einv_bs bs'.
  Proof.
    induction old as [|b old IH]; intros new n bs' H HE; cbn in H.
    - injection H as <-. auto.
    - destruct (bslot b); [eauto|eauto|]. apply bind_ret in H as (new' & Hp & H).
      eapply IH; eauto. unfold place in Hp. destruct (n =? 0); [discriminate|]. eapply place_loop_einv; eauto.
  Qed.

  Lemma do_rehash_einv (t : table E) n t' : do_rehash t n = Ret t' -> einv t'.
  Proof.
    unfold do_rehash. intros H. apply bind_ret in H as (new & Hr & [= <-]). cbn.
    eapply rehash_loop_einv; eauto. apply einv_repeat.
  Qed.

  Lemma may_rehash_einv (t : table E) t' : may_rehash t = Ret t' -> einv t -> einv t'.
  Proof.
    unfold may_rehash. destruct (_ <? _); [intros; eapply do_rehash_einv; eauto|].
    destruct (_ <? _); [intros; eapply do_rehash_einv; eauto|]. intros [= <-]. auto.
  Qed.

  Lemma insert_einv t k mk touch t' ex e : CInv t -> einv t ->
    insert ekey keqb hash t k mk touch = Ret (t', ex, e) -> einv t'.
  Proof.
    intros HC HE. destruct (lookup_cases ekey keqb hash keqb_ok t k HC) as (bs & Hbs & HH). unfold insert.
    assert (HEs : einv_bs bs).
    { unfold started, isInit in Hbs. unfold einv in HE. destruct (tbl t) eqn:Hb.
      - rewrite Hb in Hbs. injection Hbs as <-. auto.
      - cbn [init tbl] in Hbs. injection Hbs as <-. apply (einv_repeat 17). }
    destruct HH as [(i & b & e0 & -> & Hb & Hf & Hk)|(i & b & Hb & Hsl & -> & _ & _)].
    - cbn [bind]. rewrite Hbs, Hb, Hf. intros [= <- _ _]. cbn. rewrite (set_slot_upd _ _ _ _ Hb).
      apply einv_upd; auto. discriminate.
    - cbn [bind tbl]. rewrite (nth_error_upd_eq _ _ _ _ Hb). cbn [bslot].
      set (h := u32 (hash k)). set (x := mkB h (Full mk)).
      assert (Hset : set_slot (upd bs i (mkB h (bslot b))) i (Full mk) = upd bs i x).
      { erewrite set_slot_upd by (eapply nth_error_upd_eq; eauto). cbn [bhash]. rewrite upd_upd. reflexivity. }
      assert (Hx : einv_bs (upd bs i x)) by (apply einv_upd; auto; discriminate).
      destruct Hsl as [Hsl|Hsl]; rewrite Hsl in *; rewrite Hset;
        intros HR; apply bind_ret in HR as (t1 & HR & [= <- _ _]); eapply may_rehash_einv; eauto.
  Qed.

  Lemma erase_einv t k t' ex : CInv t -> einv t ->
    erase ekey keqb hash t k = Ret (t', ex) -> einv t'.
  Proof.
    intros HC HE. unfold erase.
    destruct (find_key_cases ekey keqb hash keqb_ok t k HC) as [(bs & i & b & e & Hbs & -> & Hb & Hf & Hk)|[-> Hno]];
      [|cbn; intros [= <- _]; auto].
    cbn [bind]. rewrite Hbs. rewrite (set_slot_upd _ _ _ _ Hb).
    intros HR; apply bind_ret in HR as (t1 & HR & [= <- _]); eapply may_rehash_einv; eauto.
    unfold einv in *. rewrite Hbs in HE. cbn. apply einv_upd; auto. discriminate.
  Qed.

  Lemma new_einv n : einv (new_table (E := E) n).
  Proof.
    unfold new_table. destruct (u32 n =? 0); [exact I|]. unfold init, einv. cbn [tbl]. apply einv_repeat.
  Qed.
End EInv.

Section EInvRun.
  Context {K V : Type}.
  Variable keqb : K -> K -> bool.
  Variable hash : K -> N.
  Hypothesis keqb_ok : forall a b, reflect (a = b) (keqb a b).
  Variable dflt : V.

  Lemma step_einv t o t' a : CInv t -> einv t -> step keqb hash dflt t o = Ret (t', a) -> einv t'.
  Proof.
    intros HC HE H. destruct o; cbn [step] in H;
      try (apply bind_ret in H as ([[t1 ex] e] & H & [= <- _]); solve [eapply insert_einv; eauto]);
      try (injection H as <- _; auto).
    - apply bind_ret in H as ([t1 ex] & H & [= <- _]). eapply erase_einv; eauto.
    - apply bind_ret in H as (r & H & [= <- _]). auto.
    - unfold clear. destruct (nE t =? 0); auto. exact I.
    - apply bind_ret in H as (r & H & [= <- _]). eapply may_rehash_einv; eauto.
    - apply bind_ret in H as (r & H & [= <- _]). eapply do_rehash_einv; eauto.
  Qed.

  Lemma run_einv l : forall t m m' as_ t', models hash t m -> einv t ->
    nE t + N.of_nat (length l) <= 2^28 ->
    spec_run keqb dflt m l = Some (m', as_) ->
    run keqb hash dflt t l = Ret (t', as_) -> einv t'.
  Proof.
    induction l as [|o l IH]; cbn [spec_run run]; intros t m m' as_ t' HM HE Hsm HS HR.
    - injection HR as <- _. auto.
    - destruct (spec_step keqb dflt m o) as [[m1 a]|] eqn:E1; [|discriminate].
      destruct (spec_run keqb dflt m1 l) as [[m2 as2]|] eqn:E2; [|discriminate].
      injection HS as <- <-. cbn [length] in Hsm.
      destruct (step_ok keqb hash keqb_ok dflt t m o m1 a HM ltac:(lia) E1) as (t1 & Hs1 & HM1 & Hn1).
      rewrite Hs1 in HR. cbn [bind] in HR. apply bind_ret in HR as ([t2 as3] & HR & [= <- <-]).
      eapply IH; eauto; [|lia]. eapply step_einv; eauto. apply HM.
  Qed.
End EInvRun.

(** ** Chains *)
Section Chain.
  Context {K E : Type}.
  Variable ekey : E -> K.
  Variable keqb : K -> K -> bool.
  Variable hash : K -> N.
  Hypothesis keqb_ok : forall a b, reflect (a = b) (keqb a b).

  Lemma pos_next_start B s j : (s < B)%nat -> (j < B)%nat ->
    Nat.eqb (pos B s (S j)) s = Nat.eqb (S j) B.
  Proof.
    intros Hs Hj. destruct (Nat.eqb_spec (S j) B) as [E1|E1].
    - apply Nat.eqb_eq. unfold pos. rewrite E1. replace (s + B)%nat with (s + 1 * B)%nat by lia.
      rewrite Nat.mod_add by lia. apply Nat.mod_small; lia.
    - apply Nat.eqb_neq. intros H. rewrite <- (pos_0 B s Hs) in H at 2.
      apply pos_inj in H; lia.
  Qed.

  (** a bucket at which the constructor loop goes on *)
  Definition pass_at (k : K) (h : N) (bs : list (bucket E)) (i : nat) : Prop :=
    exists b, nth_error bs i = Some b /\
      match bslot b with
      | Tomb => True
      | Empty => bhash b <> h
      | Full e => ~ (bhash b = h /\ ekey e = k)
      end.

  Lemma chain_begin_loop_spec bs k h s f : (s < length bs)%nat -> forall j,
    (j < length bs)%nat -> (length bs - j <= f)%nat ->
    let B := length bs in
    (exists j' b, (j <= j' < B)%nat /\ (forall j'', (j <= j'' < j')%nat -> pass_at k h bs (pos B s j'')) /\
       nth_error bs (pos B s j') = Some b /\
       ((exists e, bslot b = Full e /\ bhash b = h /\ ekey e = k /\
           chain_begin_loop ekey keqb f bs k h s (pos B s j) = Ret (Some (pos B s j')))
        \/ (bslot b = Empty /\ bhash b = h /\
           chain_begin_loop ekey keqb f bs k h s (pos B s j) = UB NullDeref)))
    \/ ((forall j', (j <= j' < B)%nat -> pass_at k h bs (pos B s j')) /\
        chain_begin_loop ekey keqb f bs k h s (pos B s j) = Ret None).
  Proof.
    intros Hs. induction f as [|f IH]; intros j Hj Hf B; [lia|].
    cbn [chain_begin_loop]. fold B.
    destruct (nth_error_ex bs (pos B s j)) as (b & Hb); [apply pos_lt; lia|].
    rewrite Hb. rewrite next_pos by lia.
    rewrite (Nat.eqb_sym s), pos_next_start by auto.
    assert (Hstep : pass_at k h bs (pos B s j) ->
      let r := if Nat.eqb (S j) B then Ret None else chain_begin_loop ekey keqb f bs k h s (pos B s (S j)) in
      (exists j' b, (j <= j' < B)%nat /\ (forall j'', (j <= j'' < j')%nat -> pass_at k h bs (pos B s j'')) /\
       nth_error bs (pos B s j') = Some b /\
       ((exists e, bslot b = Full e /\ bhash b = h /\ ekey e = k /\ r = Ret (Some (pos B s j')))
        \/ (bslot b = Empty /\ bhash b = h /\ r = UB NullDeref)))
      \/ ((forall j', (j <= j' < B)%nat -> pass_at k h bs (pos B s j')) /\ r = Ret None)).
    { intros Hp r. subst r. destruct (Nat.eqb_spec (S j) B) as [E1|E1].
      - right. split; auto. intros j' Hj'. replace j' with j by lia. auto.
      - destruct (IH (S j)) as [(j' & b' & Hj' & Hpass & HH)|[Hpass HH]]; [lia|lia| |].
        + left. exists j', b'. split; [lia|]. split; [|exact HH].
          intros j'' Hj''. destruct (Nat.eq_dec j'' j); [subst; auto|apply Hpass; lia].
        + right. split; [|exact HH]. intros j' Hj'. destruct (Nat.eq_dec j' j); [subst; auto|apply Hpass; lia]. }
    cbn zeta in Hstep.
    destruct (bslot b) as [| |e] eqn:Eb.
    - destruct (N.eqb_spec h (bhash b)) as [Eh|Eh].
      + left. exists j, b. split; [lia|]. split; [intros; lia|]. split; auto.
      + apply Hstep. exists b. rewrite Eb. split; auto.
    - apply Hstep. exists b. rewrite Eb. split; auto.
    - destruct (N.eqb_spec h (bhash b)) as [Eh|Eh]; destruct (keqb_ok (ekey e) k) as [Ek|Ek]; cbn [andb].
      1: { left. exists j, b. split; [lia|]. split; [intros; lia|]. split; auto. left. exists e. auto. }
      all: apply Hstep; exists b; rewrite Eb; split; auto; intros [? ?]; congruence.
  Qed.

  Definition hit (h : N) (b : bucket E) : bool :=
    match bslot b with Full _ => h =? bhash b | _ => false end.
  Definition hit_at (h : N) (bs : list (bucket E)) (i : nat) : bool :=
    match nth_error bs i with Some b => hit h b | None => false end.

  Lemma chain_advance_loop_spec (bs : list (bucket E)) h s f : (s < length bs)%nat -> forall j,
    (j < length bs)%nat -> (length bs - j <= f)%nat ->
    let B := length bs in
    (exists j', (j < j' < B)%nat /\ (forall j'', (j < j'' < j')%nat -> hit_at h bs (pos B s j'') = false) /\
       hit_at h bs (pos B s j') = true /\
       chain_advance_loop f bs h s (pos B s j) = Ret (Some (pos B s j')))
    \/ ((forall j'', (j < j'' < B)%nat -> hit_at h bs (pos B s j'') = false) /\
       chain_advance_loop f bs h s (pos B s j) = Ret None).
  Proof.
    intros Hs. induction f as [|f IH]; intros j Hj Hf B; [lia|].
    cbn [chain_advance_loop]. fold B. rewrite next_pos by lia. rewrite pos_next_start by auto.
    destruct (Nat.eqb_spec (S j) B) as [E1|E1].
    { right. split; auto. intros; lia. }
    destruct (nth_error_ex bs (pos B s (S j))) as (b & Hb); [apply pos_lt; lia|]. rewrite Hb.
    assert (Hat : hit_at h bs (pos B s (S j)) = hit h b) by (unfold hit_at; rewrite Hb; auto).
    assert (Hstep : hit h b = false ->
      (exists j', (j < j' < B)%nat /\ (forall j'', (j < j'' < j')%nat -> hit_at h bs (pos B s j'') = false) /\
        hit_at h bs (pos B s j') = true /\
        chain_advance_loop f bs h s (pos B s (S j)) = Ret (Some (pos B s j')))
      \/ ((forall j'', (j < j'' < B)%nat -> hit_at h bs (pos B s j'') = false) /\
        chain_advance_loop f bs h s (pos B s (S j)) = Ret None)).
    { intros Hh. destruct (IH (S j)) as [(j' & Hj' & Hno & HH)|[Hno HH]]; [lia|lia| |].
      - left. exists j'. split; [lia|]. split; [|exact HH].
        intros j'' Hj''. destruct (Nat.eq_dec j'' (S j)); [subst; congruence|apply Hno; lia].
      - right. split; [|exact HH].
        intros j'' Hj''. destruct (Nat.eq_dec j'' (S j)); [subst; congruence|apply Hno; lia]. }
    unfold hit in Hstep, Hat. destruct (bslot b) as [| |e] eqn:Eb; [apply Hstep; auto..|].
    destruct (h =? bhash b) eqn:Eh; [|apply Hstep; auto].
    left. exists (S j). split; [lia|]. split; [intros; lia|]. split; auto.
  Qed.

  Lemma filter_none {A} (p : A -> bool) l : (forall x, In x l -> p x = false) -> filter p l = [].
  Proof.
    induction l as [|x l IH]; cbn; auto. intros H. rewrite (H x) by auto. apply IH. auto.
  Qed.

  Lemma chain_collect_spec (bs : list (bucket E)) h s f : (s < length bs)%nat -> forall j,
    (j < length bs)%nat -> (length bs - j <= f)%nat ->
    let B := length bs in
    chain_collect f bs h s (pos B s j) =
    Ret (map (pos B s) (j :: filter (fun j' => hit_at h bs (pos B s j')) (seq (S j) (B - S j)))).
  Proof.
    intros Hs. induction f as [|f IH]; intros j Hj Hf B; [lia|].
    cbn [chain_collect].
    pose proof (chain_advance_loop_spec bs h s (length bs) Hs j Hj ltac:(lia)) as HA.
    cbn zeta in HA. fold B in HA. fold B.
    destruct HA as [(j' & Hj' & Hno & Hhit & ->)|[Hno ->]].
    - cbn [bind]. pose proof (IH j' ltac:(lia) ltac:(lia)) as IHj. cbn zeta in IHj. fold B in IHj. rewrite IHj. cbn [bind map]. do 3 f_equal.
      change (pos B s j' :: map (pos B s) (filter (fun j'0 => hit_at h bs (pos B s j'0)) (seq (S j') (B - S j'))))
        with (map (pos B s) (j' :: filter (fun j'0 => hit_at h bs (pos B s j'0)) (seq (S j') (B - S j')))).
      f_equal.
      replace (B - S j)%nat with ((j' - S j) + (1 + (B - S j')))%nat by lia.
      rewrite seq_app, filter_app.
      rewrite (filter_none _ (seq (S j) (j' - S j))); [|intros x Hx; apply in_seq in Hx; apply Hno; lia].
      replace (S j + (j' - S j))%nat with j' by lia. cbn [plus seq filter app]. rewrite Hhit. reflexivity.
    - cbn [bind map]. do 2 f_equal. rewrite filter_none; auto.
      intros x Hx. apply in_seq in Hx. apply Hno. fold B. lia.
  Qed.

  Lemma count_hits_round (bs : list (bucket E)) h s : (s < length bs)%nat ->
    length (filter (fun j => hit_at h bs (pos (length bs) s j)) (seq 0 (length bs)))
    = length (filter (hit h) bs).
  Proof.
    intros Hs. set (B := length bs).
    transitivity (length (filter (hit_at h bs) (map (pos B s) (seq 0 B)))).
    { induction (seq 0 B) as [|x l IH]; cbn; auto. destruct (hit_at h bs (pos B s x)); cbn; auto. }
    assert (HP : Permutation (map (pos B s) (seq 0 B)) (seq 0 B)).
    { apply NoDup_Permutation_bis.
      - assert (Hinj : forall l, NoDup l -> (forall x, In x l -> (x < B)%nat) -> NoDup (map (pos B s) l)).
        { induction l as [|x l IH]; cbn; intros HN Hl; [constructor|]. inversion HN; subst.
          constructor; auto. intros Hin. apply in_map_iff in Hin as (y & Hy & Hin).
          apply pos_inj in Hy; auto; subst; auto. }
        apply Hinj; [apply seq_NoDup|]. intros x Hx. apply in_seq in Hx. lia.
      - rewrite map_length. auto.
      - intros x Hx. apply in_map_iff in Hx as (y & <- & Hy). apply in_seq. pose proof (pos_lt B s y). lia. }
    assert (HPl : forall l l', Permutation l l' -> length (filter (hit_at h bs) l) = length (filter (hit_at h bs) l')).
    { intros l l' P. induction P; cbn; auto.
      - destruct (hit_at h bs x); cbn; auto.
      - destruct (hit_at h bs x), (hit_at h bs y); cbn; auto.
      - congruence. }
    rewrite (HPl _ _ HP). unfold B. clear.
    assert (Hgen : forall (l : list (bucket E)) k, (forall i, nth_error (skipn k bs) i = nth_error l i) ->
       length (filter (hit_at h bs) (seq k (length l))) = length (filter (hit h) l)).
    { induction l as [|b l IH]; cbn; intros k Hk; auto.
      assert (Hkb : nth_error bs k = Some b).
      { specialize (Hk 0%nat). cbn in Hk. rewrite <- Hk. clear. revert k.
        induction bs as [|x bs IH]; intros [|k]; cbn; auto. }
      assert (Hk' : forall i, nth_error (skipn (S k) bs) i = nth_error l i).
      { intros i. specialize (Hk (S i)). cbn in Hk. rewrite (skipn_nth _ _ _ Hkb) in Hk. exact Hk. }
      unfold hit_at at 1. rewrite Hkb. destruct (hit h b); cbn; rewrite (IH _ Hk'); auto. }
    apply (Hgen bs 0%nat). reflexivity.
  Qed.

  Lemma hits_entries (bs : list (bucket E)) h : pinv ekey hash bs ->
    length (filter (hit h) bs) = length (filter (fun e => u32 (hash (ekey e)) =? h) (ents bs)).
  Proof.
    intros HP.
    assert (H : forall b e, In b bs -> bslot b = Full e -> bhash b = u32 (hash (ekey e))).
    { intros b e Hb He. apply In_nth_error in Hb as (i & Hi). destruct (HP _ _ _ Hi He). auto. }
    clear HP. induction bs as [|b bs IH]; [reflexivity|]. cbn [filter].
    rewrite ents_cons, filter_app, app_length, <- IH by (intros; apply H; cbn; auto).
    unfold hit at 1. destruct (bslot b) as [| |e] eqn:Eb; cbn [slot_ents filter length plus]; auto.
    rewrite (H b e) by (cbn; auto). rewrite (N.eqb_sym h).
    destruct (u32 (hash (ekey e)) =? h); cbn; auto.
  Qed.

  Definition same_hash (t : table E) (k : K) : list E :=
    filter (fun e => u32 (hash (ekey e)) =? u32 (hash k)) (tents t).

  Lemma count_null t k : CInv t -> tbl t = None -> count ekey keqb hash t k = UB DivByZero.
  Proof.
    unfold CInv. intros HC Hb. rewrite Hb in HC. unfold count, chain_buckets, chain_begin.
    destruct HC as (-> & _). reflexivity.
  Qed.

  Lemma chain_begin_cases t k bs : HInv ekey hash t -> einv t -> tbl t = Some bs ->
    (exists i b e, nth_error bs i = Some b /\ bslot b = Full e /\ bhash b = u32 (hash k) /\ ekey e = k /\
        chain_begin ekey keqb hash t k = Ret (Some i))
    \/ (~ In k (map ekey (tents t)) /\ u32 (hash k) = 0 /\ chain_begin ekey keqb hash t k = UB NullDeref)
    \/ (~ In k (map ekey (tents t)) /\ u32 (hash k) <> 0 /\ chain_begin ekey keqb hash t k = Ret None).
  Proof.
    intros [HC HI] HE Hb. unfold CInv in HC. rewrite Hb in HC, HI. destruct HI as [HP HN].
    unfold einv in HE. rewrite Hb in HE.
    destruct HC as [[HB HnE HT Hbig Hpos] Hem]. unfold chain_begin. rewrite Hb.
    destruct (N.eqb_spec (nB t) 0) as [?|_]; [lia|]. rewrite HB.
    set (h := u32 (hash k)). pose proof (home_lt h bs Hpos) as Hs.
    set (s := N.to_nat (h mod N.of_nat (length bs))) in *.
    pose proof (chain_begin_loop_spec bs k h s (length bs) Hs 0 Hpos ltac:(lia)) as HH. cbn zeta in HH.
    rewrite (pos_0 _ _ Hs) in HH.
    assert (Habs : (exists j', (j' < length bs)%nat /\ (forall j'', (j'' < j')%nat -> pass_at k h bs (pos (length bs) s j'')) /\
                     (j' = length bs \/ exists b, nth_error bs (pos (length bs) s j') = Some b /\ bslot b = Empty))
                   \/ (forall j', (j' < length bs)%nat -> pass_at k h bs (pos (length bs) s j')) ->
                   ~ In k (map ekey (tents t))).
    { intros HA Hin. unfold tents in Hin. rewrite Hb in Hin. apply in_map_iff in Hin as (e & Hk & Hin).
      apply in_ents in Hin as (i & b' & Hi & Hf).
      destruct (HP _ _ _ Hi Hf) as [Hh (j & Hj & Hij & Hpath)].
      rewrite Hh, Hk in Hij, Hpath. fold h in Hij, Hpath. fold s in Hij, Hpath.
      assert (Hnp : ~ pass_at k h bs (pos (length bs) s j)).
      { intros (b2 & Hb2 & Hm). rewrite <- Hij, Hi in Hb2. injection Hb2 as <-. rewrite Hf in Hm. apply Hm.
        rewrite Hh, Hk. auto. }
      destruct HA as [(j' & Hj' & Hpass & Hend)|Hpass].
      - destruct (Nat.lt_trichotomy j j') as [L|[->|L]].
        + apply Hnp, Hpass; auto.
        + destruct Hend as [->|(b2 & Hb2 & He2)]; [lia|]. rewrite <- Hij, Hi in Hb2. congruence.
        + destruct Hend as [->|(b2 & Hb2 & He2)]; [lia|]. destruct (Hpath j' L) as (b3 & Hb3 & Hne). congruence.
      - apply Hnp, Hpass; auto. }
    destruct HH as [(j' & b & Hj' & Hpass & Hbj & [(e & Hf & Hh & Hk & ->)|(Hem' & Hh & ->)])|[Hpass ->]].
    - left. exists (pos (length bs) s j'), b, e. auto.
    - right; left. split; [|split; [|reflexivity]].
      + apply Habs. left. exists j'. split; [lia|]. split; [intros; apply Hpass; lia|]. right. eauto.
      + rewrite <- Hh. eapply HE; eauto.
    - right; right. split; [|split; [|reflexivity]].
      + apply Habs. right. intros; apply Hpass; lia.
      + intros Hh0. destruct (empties_ex _ Hem) as (i & b & Hi & Hbe).
        assert (Hil : (i < length bs)%nat) by (apply nth_error_Some; congruence).
        destruct (pos_cover (length bs) s i Hs Hil) as (j & Hj & Hp).
        destruct (Hpass j) as (b2 & Hb2 & Hm); [lia|]. rewrite Hp, Hi in Hb2. injection Hb2 as <-.
        rewrite Hbe in Hm. apply Hm. rewrite Hh0. eapply HE; eauto.
  Qed.

  Lemma count_cases t k bs : HInv ekey hash t -> einv t -> tbl t = Some bs ->
    (In k (map ekey (tents t)) /\ count ekey keqb hash t k = Ret (N.of_nat (length (same_hash t k))))
    \/ (~ In k (map ekey (tents t)) /\ u32 (hash k) = 0 /\ count ekey keqb hash t k = UB NullDeref)
    \/ (~ In k (map ekey (tents t)) /\ u32 (hash k) <> 0 /\ count ekey keqb hash t k = Ret 0).
  Proof.
    intros HI HE Hb. unfold count, chain_buckets.
    destruct (chain_begin_cases t k bs HI HE Hb) as [(i & b & e & Hi & Hf & Hh & Hk & ->)|[(Hni & H0 & ->)|(Hni & H0 & ->)]].
    - left. split.
      { unfold tents. rewrite Hb, <- Hk. apply in_map. apply in_ents. eauto. }
      cbn [bind]. rewrite Hb.
      assert (Hil : (i < length bs)%nat) by (apply nth_error_Some; congruence).
      pose proof (chain_collect_spec bs (u32 (hash k)) i (length bs) Hil 0 ltac:(lia) ltac:(lia)) as HCC.
      cbn zeta in HCC. rewrite (pos_0 _ _ Hil) in HCC. rewrite HCC. cbn [bind]. do 2 f_equal.
      rewrite map_length. unfold same_hash, tents. rewrite Hb.
      destruct HI as [_ HI]. rewrite Hb in HI. rewrite <- hits_entries by tauto.
      rewrite <- (count_hits_round bs (u32 (hash k)) i Hil).
      assert (Hseq : seq 0 (length bs) = 0%nat :: seq 1 (length bs - 1))
        by (destruct (length bs); [lia|cbn; rewrite Nat.sub_0_r; reflexivity]).
      assert (H0 : hit_at (u32 (hash k)) bs (pos (length bs) i 0) = true)
        by (unfold hit_at; rewrite (pos_0 _ _ Hil), Hi; unfold hit; rewrite Hf, Hh; apply N.eqb_refl).
      rewrite Hseq. cbn [filter]. rewrite H0. reflexivity.
    - right; left. auto.
    - right; right. auto.
  Qed.
End Chain.

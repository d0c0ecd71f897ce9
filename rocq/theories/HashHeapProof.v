(** The tables with heap allocated entries refine the specification of HashHeapSpec.v. *)
From Verif Require Import Base HashModel HashSpec HashProof HashProof2 HashHeapSpec HashHeapModel.
From Coq Require Import List NArith ZArith Lia Bool Permutation Arith.
From Coq Require Import ZifyBool ZifyNat ZifyN.
Import ListNotations.
Local Open Scope N_scope.

(** ** The table functions look only at the keys of the entries they hold *)
Section Ext.
  Context {K E : Type}.
  Variable keqb : K -> K -> bool.
  Variable hash : K -> N.
  Variables f g : E -> K.

  Definition agree (l : list E) : Prop := forall e, In e l -> f e = g e.

  Lemma agree_at (bs : list (bucket E)) i b e : agree (ents bs) ->
    nth_error bs i = Some b -> bslot b = Full e -> f e = g e.
  Proof. intros H Hi He. apply H. apply in_ents. eauto. Qed.

  Lemma find_loop_ext n (bs : list (bucket E)) k h : agree (ents bs) -> forall i,
    find_loop f keqb n bs k h i = find_loop g keqb n bs k h i.
  Proof.
    intros HA. induction n as [|n IH]; intros i; cbn; auto.
    destruct (nth_error bs i) as [b|] eqn:Hb; auto.
    destruct (bslot b) as [| |e] eqn:He; auto.
    rewrite (agree_at bs i b e HA Hb He), IH. reflexivity.
  Qed.

  Lemma lookup_loop_ext n (bs : list (bucket E)) k h : agree (ents bs) -> forall i ft,
    lookup_loop f keqb n bs k h i ft = lookup_loop g keqb n bs k h i ft.
  Proof.
    intros HA. induction n as [|n IH]; intros i ft; cbn; auto.
    destruct (nth_error bs i) as [b|] eqn:Hb; auto.
    destruct (bslot b) as [| |e] eqn:He; auto.
    rewrite (agree_at bs i b e HA Hb He), IH. reflexivity.
  Qed.

  Lemma find_key_ext t k : agree (tents t) -> find_key f keqb hash t k = find_key g keqb hash t k.
  Proof.
    unfold tents, find_key. destruct (tbl t); auto. intros HA. destruct (nB t =? 0); auto.
    apply find_loop_ext; auto.
  Qed.

  Lemma insert_ext t k mk touch : agree (tents t) ->
    insert f keqb hash t k mk touch = insert g keqb hash t k mk touch.
  Proof.
    intros HA. unfold insert, lookup_bucket_for. fold (started t).
    assert (HA' : agree (tents (started t))) by (rewrite started_ents; auto).
    unfold tents in HA'. destruct (tbl (started t)); auto. rewrite lookup_loop_ext; auto.
  Qed.

  Lemma HInv_ext t : agree (tents t) -> HInv f hash t -> HInv g hash t.
  Proof.
    intros HA [HC HI]. split; auto. unfold tents in HA. destruct (tbl t) as [bs|]; auto.
    destruct HI as [HP HN]. split.
    - intros i b e Hb He. destruct (HP i b e Hb He) as [Hh Hr]. split; auto.
      rewrite <- (agree_at bs i b e HA Hb He). auto.
    - rewrite <- (map_ext_in f g); auto.
  Qed.
End Ext.

Section Heap.
  Context {K V : Type}.
  Variable keqb : K -> K -> bool.
  Variable hash : K -> N.
  Hypothesis keqb_ok : forall a b, reflect (a = b) (keqb a b).
  Variable dflt : V.
  Variable k0 : K.

  Notation heap := (heap (K := K) (V := V)).
  Notation hkey := (hkey (V := V) k0).
  Notation state := (state (K := K) (V := V)).

  Definition live (h : heap) (p : ptr) : Prop := exists k v, nth_error h p = Some (Some (k, v)).
  Definition dec (h : heap) (p : ptr) : K * (ptr * V) :=
    match nth_error h p with Some (Some (k, v)) => (k, (p, v)) | _ => (k0, (p, dflt)) end.

  Lemma fst_dec h p : fst (dec h p) = hkey h p.
  Proof. unfold dec, HashHeapModel.hkey. destruct (nth_error h p) as [[[k v]|]|]; auto. Qed.
  Lemma ptr_dec h p : fst (snd (dec h p)) = p.
  Proof. unfold dec. destruct (nth_error h p) as [[[k v]|]|]; auto. Qed.

  Lemma live_lt h p : live h p -> (p < length h)%nat.
  Proof. intros (k & v & H). apply nth_error_Some. congruence. Qed.

  Definition tab_ok (h : heap) (t : table ptr) (s : stab K V) : Prop :=
    HInv (hkey h) hash t /\ bare s = negb (isInit t) /\ NoDup (map fst (smap s)) /\
    Permutation (smap s) (map (dec h) (tents t)) /\ (forall p, In p (tents t) -> live h p).

  Definition same_on (h h' : heap) (l : list ptr) : Prop :=
    forall p, In p l -> nth_error h' p = nth_error h p.

  Lemma same_on_agree h h' l : same_on h h' l -> agree (hkey h) (hkey h') l.
  Proof. intros H p Hp. unfold HashHeapModel.hkey. rewrite (H p Hp). reflexivity. Qed.

  Lemma same_on_dec h h' l : same_on h h' l -> map (dec h') l = map (dec h) l.
  Proof. intros H. apply map_ext_in. intros p Hp. unfold dec. rewrite (H p Hp). reflexivity. Qed.

  Lemma same_on_live h h' l p : same_on h h' l -> In p l -> live h p -> live h' p.
  Proof. intros H Hp (k & v & Hl). exists k, v. rewrite (H p Hp). auto. Qed.

  Lemma same_on_app h x l : (forall p, In p l -> live h p) -> same_on h (h ++ x) l.
  Proof. intros H p Hp. apply nth_error_app1. apply live_lt; auto. Qed.

  Lemma tab_ok_frame h h' t s : same_on h h' (tents t) -> tab_ok h t s -> tab_ok h' t s.
  Proof.
    intros HS (HI & Hb & HN & HP & HL). split; [|split; [|split; [|split]]]; auto.
    - eapply HInv_ext; [|exact HI]. apply same_on_agree; auto.
    - rewrite (same_on_dec h h'); auto.
    - intros p Hp. eapply same_on_live; eauto.
  Qed.

  Lemma tents_NoDup h t : HInv (hkey h) hash t -> NoDup (tents t).
  Proof.
    intros [_ HI]. unfold tents. destruct (tbl t); [|constructor].
    apply (NoDup_map_inv (hkey h)). tauto.
  Qed.

  Lemma tab_ok_get h t m b k p v : tab_ok h t (mkS m b) -> get keqb m k = Some (p, v) ->
    In p (tents t) /\ nth_error h p = Some (Some (k, v)).
  Proof.
    intros (HI & Hb & HN & HP & HL) G. cbn in *. apply get_Some in G; auto.
    apply (Permutation_in _ HP) in G. apply in_map_iff in G as (q & Hq & Hin).
    destruct (HL q Hin) as (k1 & v1 & Hl). unfold dec in Hq. rewrite Hl in Hq. injection Hq as -> -> ->. auto.
  Qed.

  Lemma tab_ok_in h t m b p : tab_ok h t (mkS m b) -> In p (tents t) ->
    exists k v, get keqb m k = Some (p, v) /\ nth_error h p = Some (Some (k, v)) /\ hkey h p = k.
  Proof.
    intros (HI & Hb & HN & HP & HL) Hin. cbn in *. destruct (HL p Hin) as (k & v & Hl).
    exists k, v. split; [|split]; auto.
    - apply get_Some; auto. eapply Permutation_in; [symmetry; exact HP|]. apply in_map_iff. exists p.
      split; auto. unfold dec. rewrite Hl. auto.
    - unfold HashHeapModel.hkey. rewrite Hl. auto.
  Qed.

  Lemma tab_ok_absent h t m b k : tab_ok h t (mkS m b) -> ~ In k (map (hkey h) (tents t)) ->
    get keqb m k = None.
  Proof.
    intros HT Hni. destruct (get keqb m k) as [[p v]|] eqn:G; auto. exfalso. apply Hni.
    destruct (tab_ok_get _ _ _ _ _ _ _ HT G) as [Hin Hl]. apply in_map_iff. exists p. split; auto.
    unfold HashHeapModel.hkey. rewrite Hl. auto.
  Qed.

  Lemma tab_ok_card h t s : tab_ok h t s -> nE t = card (smap s).
  Proof.
    intros (HI & _ & _ & HP & _). rewrite (CInv_card _ (proj1 HI)). unfold card.
    rewrite (Permutation_length HP), map_length. reflexivity.
  Qed.

  (** ** The relation between states *)
  Record R (s : state) (w : world K V) (n : N) : Prop := {
    r_next : next w = length (hp s);
    r_tabs : Forall2 (tab_ok (hp s)) (tbs s) (tabs w);
    r_sep : forall i j ti tj p, i <> j -> nth_error (tbs s) i = Some ti -> nth_error (tbs s) j = Some tj ->
            In p (tents ti) -> In p (tents tj) -> False;
    r_small : Forall (fun t => nE t <= n) (tbs s) }.

  Lemma R_tab s w n i st : R s w n -> tab w i = Some st ->
    exists t, nth_error (tbs s) i = Some t /\ tab_ok (hp s) t st /\ nE t <= n.
  Proof.
    intros HR Ht. destruct HR as [_ HF _ HS].
    assert (Hex : exists t, nth_error (tbs s) i = Some t /\ tab_ok (hp s) t st).
    { unfold tab in Ht. clear HS. revert i Ht. induction HF as [|x y l l' Hxy HF IH]; intros [|i] Ht; cbn in *; try discriminate.
      - injection Ht as <-. eauto.
      - eauto. }
    destruct Hex as (t & Hi & Hok). exists t. split; auto. split; auto.
    rewrite Forall_forall in HS. apply HS. eapply nth_error_In; eauto.
  Qed.

  Lemma Forall2_upd {A} (P : A -> stab K V -> Prop) l m i x y : Forall2 P l m -> P x y ->
    Forall2 P (upd l i x) (set_tab m i y).
  Proof. intros HF. revert i. induction HF; intros [|i] Hp; cbn; constructor; auto. Qed.

  Lemma Forall_upd {A} (P : A -> Prop) l i x : Forall P l -> P x -> Forall P (upd l i x).
  Proof. intros HF. revert i. induction HF; intros [|i] Hp; cbn; constructor; auto. Qed.

  Lemma Forall2_impl_l {A B} (P Q : A -> B -> Prop) l m : (forall x y, In x l -> P x y -> Q x y) ->
    Forall2 P l m -> Forall2 Q l m.
  Proof.
    intros H HF. induction HF; constructor; auto.
    - apply H; cbn; auto.
    - apply IHHF. intros; apply H; cbn; auto.
  Qed.

  Lemma Forall2_upd_frame (P Q : table ptr -> stab K V -> Prop) l m i x y :
    Forall2 P l m -> (forall j t s, j <> i -> nth_error l j = Some t -> P t s -> Q t s) -> Q x y ->
    Forall2 Q (upd l i x) (set_tab m i y).
  Proof.
    intros HF. revert i. induction HF as [|a b l m Hab HF IH]; intros i Hfr Hq; cbn; [destruct i; constructor|].
    destruct i as [|i].
    - constructor; auto. clear IH. 
      assert (Hfr' : forall j t s, nth_error l j = Some t -> P t s -> Q t s) by (intros j t s Hj; apply (Hfr (S j)); auto).
      clear Hfr. induction HF; constructor; auto.
      + apply (Hfr' O); auto.
      + apply IHHF. intros j. apply (Hfr' (S j)).
    - constructor.
      + apply (Hfr O a b); auto.
      + apply IH; auto. intros j t s Hj. apply (Hfr (S j)). congruence.
  Qed.

  (** replacing table [i], possibly changing the heap *)
  Lemma R_upd s w n i t st h' t' st' n' :
    R s w n -> nth_error (tbs s) i = Some t -> tab w i = Some st ->
    (forall j tj, j <> i -> nth_error (tbs s) j = Some tj -> same_on (hp s) h' (tents tj)) ->
    tab_ok h' t' st' ->
    (forall p, In p (tents t') -> In p (tents t) \/ (length (hp s) <= p)%nat) ->
    n <= n' -> nE t' <= n' ->
    R (mkSt h' (upd (tbs s) i t')) (mkW (set_tab (tabs w) i st') (length h')) n'.
  Proof.
    intros HR Hi Hw Hfr Hok Hown Hn HnE. destruct HR as [Hnx HF Hsep HS]. split; cbn.
    - reflexivity.
    - eapply Forall2_upd_frame; eauto. intros j tj sj Hj Hnth. apply tab_ok_frame. eauto.
    - assert (Hgt : forall j tj p, nth_error (tbs s) j = Some tj -> In p (tents tj) -> (p < length (hp s))%nat).
      { intros j tj p Hj Hp. apply live_lt.
        assert (Hex : exists sj, tab_ok (hp s) tj sj).
        { clear - HF Hj. revert j Hj. induction HF; intros [|j] Hj; cbn in *; try discriminate; [injection Hj as <-; eauto|eauto]. }
        destruct Hex as (sj & _ & _ & _ & _ & HL). auto. }
      assert (Hself : forall j tj p, j <> i -> nth_error (tbs s) j = Some tj -> In p (tents t') -> In p (tents tj) -> False).
      { intros j tj p Hj Hnth Hp Hp'. destruct (Hown p Hp) as [Hp0|Hge].
        - eapply (Hsep i j); eauto.
        - specialize (Hgt j tj p Hnth Hp'). lia. }
      intros a b ta tb p Hab Ha Hb Hpa Hpb.
      assert (Hil : (i < length (tbs s))%nat) by (apply nth_error_Some; congruence).
      rewrite nth_error_upd in Ha, Hb.
      destruct (Nat.eqb_spec i a) as [<-|]; destruct (Nat.eqb_spec i b) as [<-|]; try congruence.
      + destruct (Nat.ltb_spec i (length (tbs s))); [|lia]. injection Ha as <-. eauto.
      + destruct (Nat.ltb_spec i (length (tbs s))); [|lia]. injection Hb as <-. eauto.
      + eauto.
    - apply Forall_upd; auto. eapply Forall_impl; [|exact HS]. cbn. intros. lia.
  Qed.

  (** a new table at the end *)
  Lemma R_app s w n h' t' st' n' :
    R s w n ->
    (forall p, (p < length (hp s))%nat -> nth_error h' p = nth_error (hp s) p) ->
    tab_ok h' t' st' ->
    (forall p, In p (tents t') -> (length (hp s) <= p)%nat) ->
    n <= n' -> nE t' <= n' ->
    R (mkSt h' (tbs s ++ [t'])) (mkW (tabs w ++ [st']) (length h')) n'.
  Proof.
    intros HR Hfr Hok Hown Hn HnE. destruct HR as [Hnx HF Hsep HS].
    assert (Hlive : forall j tj p, nth_error (tbs s) j = Some tj -> In p (tents tj) -> (p < length (hp s))%nat).
    { intros j tj p Hj Hp. apply live_lt.
      assert (Hex : exists sj, tab_ok (hp s) tj sj).
      { clear - HF Hj. revert j Hj. induction HF; intros [|j] Hj; cbn in *; try discriminate; [injection Hj as <-; eauto|eauto]. }
      destruct Hex as (sj & _ & _ & _ & _ & HL). auto. }
    split; cbn; auto.
    - apply Forall2_app; [|constructor; auto].
      eapply Forall2_impl_l; [|exact HF]. intros t st Hin. apply tab_ok_frame.
      intros p Hp. apply Hfr. apply In_nth_error in Hin as (j & Hj). eauto.
    - intros a b ta tb p Hab Ha Hb Hpa Hpb.
      assert (Hcase : forall c tc, nth_error (tbs s ++ [t']) c = Some tc ->
         (nth_error (tbs s) c = Some tc) \/ (c = length (tbs s) /\ tc = t')).
      { intros c tc Hc. destruct (Nat.lt_ge_cases c (length (tbs s))) as [L|L].
        - rewrite nth_error_app1 in Hc; auto.
        - rewrite nth_error_app2 in Hc; auto. right. destruct (c - length (tbs s))%nat as [|d] eqn:D; cbn in Hc.
          + split; [lia|congruence].
          + destruct d; discriminate. }
      destruct (Hcase _ _ Ha) as [Ha'|[-> ->]]; destruct (Hcase _ _ Hb) as [Hb'|[-> ->]]; try congruence.
      + eauto.
      + specialize (Hown p Hpb). specialize (Hlive _ _ _ Ha' Hpa). lia.
      + specialize (Hown p Hpa). specialize (Hlive _ _ _ Hb' Hpb). lia.
    - apply Forall_app. split; [|constructor; auto]. eapply Forall_impl; [|exact HS]. cbn. intros. lia.
  Qed.

  Lemma set_tab_same {A} (l : list (stab A V)) i x : nth_error l i = Some x -> set_tab l i x = l.
  Proof. revert i; induction l; intros [|i] H; cbn in *; try discriminate; [congruence|rewrite IHl; auto]. Qed.

  Lemma R_upd_same s w n i t st t' n' :
    R s w n -> nth_error (tbs s) i = Some t -> tab w i = Some st ->
    tab_ok (hp s) t' st ->
    (forall p, In p (tents t') -> In p (tents t)) ->
    n <= n' -> nE t' <= n' ->
    R (mkSt (hp s) (upd (tbs s) i t')) w n'.
  Proof.
    intros HR Hi Hw Hok Hown Hn HnE.
    assert (Hws : w = mkW (set_tab (tabs w) i st) (length (hp s))).
    { rewrite <- (r_next _ _ _ HR). rewrite set_tab_same; auto. destruct w; auto. }
    rewrite Hws. eapply R_upd with (n := n); eauto. intros j tj _ _ p _. reflexivity.
  Qed.

  (** ** Copies *)
  Definition bsim (h h' : heap) (b b' : bucket ptr) : Prop :=
    bhash b' = bhash b /\
    match bslot b, bslot b' with
    | Empty, Empty => True
    | Tomb, Tomb => True
    | Full p, Full p' => exists kv, nth_error h p = Some (Some kv) /\ nth_error h' p' = Some (Some kv)
    | _, _ => False
    end.

  Lemma copy_buckets_ok bs : forall h, (forall p, In p (ents bs) -> live h p) ->
    exists x bs', copy_buckets h bs = Ret (h ++ x, bs') /\ Forall2 (bsim h (h ++ x)) bs bs' /\
      ents bs' = seq (length h) (length (ents bs)) /\ length x = length (ents bs).
  Proof.
    induction bs as [|b bs IH]; intros h HL.
    - exists [], []. rewrite app_nil_r. split; [reflexivity|]. split; [constructor|]. split; reflexivity.
    - cbn [copy_buckets]. rewrite ents_cons in *.
      assert (Hsame : forall s, bslot b = s -> slot_ents s = [] -> (s = Empty \/ s = Tomb) ->
        exists x bs', ('(h', r) <- copy_buckets h bs ;; Ret (h', b :: r)) = Ret (h ++ x, bs') /\
           Forall2 (bsim h (h ++ x)) (b :: bs) bs' /\
           ents bs' = seq (length h) (length (slot_ents s ++ ents bs)) /\ length x = length (slot_ents s ++ ents bs)).
      { intros s Hs Hse Hk. rewrite Hs, Hse in *. destruct (IH h HL) as (x & bs' & -> & HF & HE & Hx). cbn [bind].
        exists x, (b :: bs'). split; [reflexivity|]. split; [|split; auto].
        - constructor; auto. split; auto. rewrite Hs. destruct Hk as [-> | ->]; exact I.
        - rewrite ents_cons, Hs, Hse. auto. }
      destruct (bslot b) as [| |p] eqn:Hb; [apply Hsame; auto..|].
      clear Hsame. cbn [slot_ents app] in HL. destruct (HL p ltac:(cbn; auto)) as (k & v & Hp). rewrite Hp.
      destruct (IH (h ++ [Some (k, v)])) as (x & bs' & -> & HF & HE & Hx).
      { intros q Hq. destruct (HL q) as (k1 & v1 & Hq1); [cbn; auto|]. exists k1, v1.
        rewrite nth_error_app1; auto. apply nth_error_Some. congruence. }
      cbn [bind]. exists (Some (k, v) :: x), (mkB (bhash b) (Full (length h)) :: bs').
      rewrite <- app_assoc in *. cbn [app] in *. split; [reflexivity|]. split; [|split].
      + constructor.
        * split; auto. rewrite Hb. cbn. exists (k, v). split; auto.
          rewrite nth_error_app2, Nat.sub_diag; auto.
        * eapply Forall2_impl_l; [|exact HF]. intros b1 b2 Hin (Hh & Hs). split; auto.
          destruct (bslot b1) as [| |q1] eqn:E1, (bslot b2) as [| |q2]; cbn in Hs |- *; try contradiction; auto.
          destruct Hs as (kv & Hq1 & Hq2). exists kv. split; auto.
          destruct (HL q1) as (k1 & v1 & Hq3).
          { cbn. right. apply In_nth_error in Hin as (j & Hj). apply in_ents. eauto. }
          rewrite nth_error_app1 in Hq1; auto. apply nth_error_Some. congruence.
      + rewrite ents_cons. cbn [bslot slot_ents app length seq]. rewrite HE, app_length. cbn. do 2 f_equal. lia.
      + cbn. auto.
  Qed.

  Lemma bsim_facts h h' bs bs' : Forall2 (bsim h h') bs bs' ->
    length bs' = length bs /\ tombs bs' = tombs bs /\ empties bs' = empties bs /\
    length (ents bs') = length (ents bs) /\
    map (fun e => (fst e, snd (snd e))) (map (dec h') (ents bs')) = map (fun e => (fst e, snd (snd e))) (map (dec h) (ents bs)) /\
    (forall p, In p (ents bs') -> live h' p).
  Proof.
    induction 1 as [|b b' bs bs' [Hh Hs] HF IH]; [cbn; splits; auto; tauto|].
    destruct IH as (I1 & I2 & I3 & I4 & I5 & I6).
    rewrite !ents_cons, !tombs_cons, !empties_cons. unfold is_tomb, is_empty.
    destruct (bslot b) as [| |p], (bslot b') as [| |p']; try contradiction; cbn [slot_ents app length map].
    - splits; auto.
    - splits; auto.
    - destruct Hs as ([k v] & Hp & Hp'). splits; auto.
      + f_equal; auto. unfold dec. rewrite Hp, Hp'. reflexivity.
      + intros q [<-|Hq]; auto. exists k, v. auto.
  Qed.

  Lemma bsim_nth h h' bs bs' i b' : Forall2 (bsim h h') bs bs' -> nth_error bs' i = Some b' ->
    exists b, nth_error bs i = Some b /\ bsim h h' b b'.
  Proof.
    intros HF. revert i. induction HF; intros [|i] Hi; cbn in *; try discriminate.
    - injection Hi as <-. eauto.
    - eauto.
  Qed.
  Lemma bsim_nth' h h' bs bs' i b : Forall2 (bsim h h') bs bs' -> nth_error bs i = Some b ->
    exists b', nth_error bs' i = Some b' /\ bsim h h' b b'.
  Proof.
    intros HF. revert i. induction HF; intros [|i] Hi; cbn in *; try discriminate.
    - injection Hi as <-. eauto.
    - eauto.
  Qed.

  Lemma bsim_tab_ok h h' t bs bs' m : tbl t = Some bs -> Forall2 (bsim h h') bs bs' ->
    NoDup (ents bs') -> tab_ok h t (mkS m false) ->
    let t' := mkT (Some bs') (nB t) (nE t) (nT t) in
    let m' := map (dec h') (ents bs') in
    tab_ok h' t' (mkS m' false) /\
    (forall k, option_map snd (get keqb m' k) = option_map snd (get keqb m k)).
  Proof.
    intros Hb HF HND (HI & Hbare & HN & HP & HL) t' m'.
    destruct (bsim_facts _ _ _ _ HF) as (I1 & I2 & I3 & I4 & I5 & I6).
    cbn [smap bare] in *. unfold tents in HP. rewrite Hb in HP.
    assert (Hkeys : map fst m' = map fst (map (dec h) (ents bs))).
    { apply (f_equal (map fst)) in I5. rewrite !map_map in I5. cbn in I5. unfold m'. rewrite !map_map. exact I5. }
    assert (HNd : NoDup (map fst (map (dec h) (ents bs)))).
    { eapply Permutation_NoDup; [apply Permutation_map; exact HP|auto]. }
    split.
    - split; [|split; [|split; [|split]]]; cbn [bare smap t' tbl isInit tents negb]; auto.
      + destruct HI as [HC HI]. unfold CInv in HC. rewrite Hb in HC, HI.
        destruct HC as [[C1 C2 C3 C4 C5] C6]. split.
        * unfold CInv. cbn [tbl]. split; [|lia]. split; cbn [nB nE nT]; auto.
          -- rewrite I1. auto.
          -- rewrite I4. auto.
          -- rewrite I2. auto.
          -- rewrite I1. auto.
        * cbn [tbl]. destruct HI as [HPi HNi]. split.
          -- intros i b' p' Hi' Hf'. destruct (bsim_nth _ _ _ _ _ _ HF Hi') as (b & Hi & Hh & Hs).
             rewrite Hf' in Hs. destruct (bslot b) as [| |p] eqn:Hf; try contradiction.
             destruct Hs as ([k v] & Hp & Hp'). destruct (HPi i b p Hi Hf) as [Hhash (j & Hj & Hij & Hpath)].
             split.
             ++ rewrite Hh, Hhash. unfold HashHeapModel.hkey. rewrite Hp, Hp'. reflexivity.
             ++ rewrite Hh. exists j. rewrite I1. split; auto. split; auto.
                intros j' Hj'. destruct (Hpath j' Hj') as (b1 & Hb1 & Hne).
                destruct (bsim_nth' _ _ _ _ _ _ HF Hb1) as (b2 & Hb2 & _ & Hs2). exists b2. split; auto.
                intros He2. rewrite He2 in Hs2. destruct (bslot b1); auto.
          -- unfold m' in Hkeys. rewrite map_map in Hkeys. rewrite (map_ext _ _ (fst_dec h')) in Hkeys.
             rewrite Hkeys. auto.
      + rewrite Hkeys. auto.
    - intros k.
      assert (Hg : forall (l1 l2 : list (K * (ptr * V))),
        map (fun e => (fst e, snd (snd e))) l1 = map (fun e => (fst e, snd (snd e))) l2 ->
        option_map snd (get keqb l1 k) = option_map snd (get keqb l2 k)).
      { induction l1 as [|[ka [pa va]] l1 IH]; intros [|[kb [pb vb]] l2] He; cbn in He; try discriminate; auto.
        injection He as -> -> He. cbn. destruct (keqb kb k); auto. }
      rewrite (Hg m' (map (dec h) (ents bs))) by exact I5.
      rewrite (get_perm keqb keqb_ok m (map (dec h) (ents bs))); auto.
  Qed.

  Lemma copy_of_ok ctor h t m : tab_ok h t (mkS m false) ->
    exists x t' m', copy_of ctor h t = Ret (h ++ x, t') /\ tab_ok (h ++ x) t' (mkS m' false) /\
      fresh_copy keqb m m' (length h) (length (h ++ x)) /\
      (forall p, In p (tents t') -> (length h <= p)%nat) /\ nE t' = nE t.
  Proof.
    intros HT. pose proof HT as (HI & Hbare & HN & HP & HL). unfold copy_of. cbn [bare] in Hbare.
    unfold isInit in Hbare. destruct (tbl t) as [bs|] eqn:Hb; [|discriminate].
    destruct (ctor && (nE t =? 0)) eqn:Hc.
    - apply andb_prop in Hc as [-> Hz]. apply N.eqb_eq in Hz.
      pose proof (CInv_card _ (proj1 HI)) as Hcard. destruct (tents t) eqn:Ht; [|cbn in Hcard; lia].
      cbn in HP. apply Permutation_sym, Permutation_nil in HP. cbn in HP. subst m.
      exists [], t, []. rewrite app_nil_r. split; [reflexivity|]. split; [exact HT|]. split; [|split; auto].
      + split; [constructor|]. split; [reflexivity|]. split; [constructor|]. split; [discriminate|]. lia.
      + rewrite Ht. intros p [].
    - unfold tents in HL. rewrite Hb in HL. destruct (copy_buckets_ok bs h HL) as (x & bs' & -> & HF & HE & Hx). cbn [bind].
      assert (HND : NoDup (ents bs')) by (rewrite HE; apply seq_NoDup).
      pose proof (bsim_tab_ok h (h ++ x) t bs bs' m Hb HF HND HT) as HB. cbn zeta in HB. destruct HB as [HT' Hget].
      eexists x, _, _. split; [reflexivity|]. split; [exact HT'|]. split; [|split; [|reflexivity]].
      + destruct HT' as (_ & _ & HN' & HP' & HL'). cbn [smap] in *. split; auto. split; auto. split; [|split].
        * rewrite map_map. rewrite (map_ext _ (fun p => p) (ptr_dec (h ++ x))), map_id. auto.
        * intros k p v G. apply (get_Some keqb keqb_ok) in G; auto. apply in_map_iff in G as (q & Hq & Hin).
          pose proof (ptr_dec (h ++ x) q) as Hqp. rewrite Hq in Hqp. cbn in Hqp. subst q.
          rewrite HE in Hin. apply in_seq in Hin. rewrite app_length. lia.
        * rewrite app_length. lia.
      + unfold tents. cbn [tbl]. rewrite HE. intros p Hp. apply in_seq in Hp. lia.
  Qed.

  (** ** clear *)
  Lemma free_buckets_ok bs : forall h, NoDup (ents bs) -> (forall p, In p (ents bs) -> live h p) ->
    exists h', free_buckets h bs = Ret h' /\ length h' = length h /\
      forall p, ~ In p (ents bs) -> nth_error h' p = nth_error h p.
  Proof.
    induction bs as [|b bs IH]; intros h HN HL; cbn [free_buckets].
    - exists h. auto.
    - rewrite ents_cons in *. destruct (bslot b) as [| |p]; cbn [slot_ents app] in *; auto.
      inversion HN as [|? ? Hni HN']; subst. destruct (HL p) as (k & v & Hp); [cbn; auto|]. rewrite Hp.
      destruct (IH (upd h p None) HN') as (h' & -> & Hl & Hs).
      { intros q Hq. destruct (HL q) as (k1 & v1 & Hq1); [cbn; auto|]. exists k1, v1.
        rewrite nth_error_upd_ne; auto. intros ->. auto. }
      exists h'. split; auto. split; [rewrite Hl, upd_length; auto|].
      intros q Hq. rewrite Hs by (intros ?; apply Hq; cbn; auto). apply nth_error_upd_ne. intros ->. apply Hq. cbn; auto.
  Qed.

  (** ** One step *)
  Lemma set_nth_tab s w n i st : R s w n -> tab w i = Some st ->
    with_tab s i (A := state * wanswer K V) = fun f => match nth_error (tbs s) i with Some t => f t | None => UB OutOfBounds end.
  Proof. reflexivity. Qed.

  Lemma R_weaken s w n n' : R s w n -> n <= n' -> R s w n'.
  Proof.
    intros [H1 H2 H3 H4] Hn. split; auto. eapply Forall_impl; [|exact H4]. cbn; intros; lia.
  Qed.

  Lemma same_on_refl h l : same_on h h l.
  Proof. intros p _. reflexivity. Qed.

  (** heap growth keeps all tables *)
  Lemma R_same_on_app s w n x j tj : R s w n -> nth_error (tbs s) j = Some tj -> same_on (hp s) (hp s ++ x) (tents tj).
  Proof.
    intros [_ HF _ _] Hj. apply same_on_app.
    assert (Hex : exists sj, tab_ok (hp s) tj sj).
    { clear - HF Hj. revert j Hj. induction HF; intros [|j] Hj; cbn in *; try discriminate; [injection Hj as <-; eauto|eauto]. }
    destruct Hex as (sj & _ & _ & _ & _ & HL). auto.
  Qed.

  Lemma hstep_ok s w n o : R s w n -> n < 2^28 -> enabled keqb dflt w o ->
    exists s' a w', hstep keqb hash dflt k0 s o = Ret (s', a) /\ wstep keqb dflt w o a w' /\ R s' w' (n + 1).
  Proof.
    intros HR Hn (a0 & w0 & HW). pose proof (R_weaken s w n (n + 1) HR ltac:(lia)) as HR1.
    pose proof (r_next _ _ _ HR) as Hnext.
    inversion HW; subst; cbn [hstep]; unfold h_insert, h_find, h_erase, h_clear, h_rehash, h_rehash_to, h_copy, h_assign, h_move, h_move_assign, with_tab.
    - (* WNew *)
      eexists _, _, _. split; [reflexivity|]. split; [constructor; auto|].
      rewrite Hnext. destruct (new_table_ok (E := ptr) (hkey (hp s)) hash size H) as (HI & _ & HE).
      apply R_app with (n := n); auto; try lia.
      + split; [exact HI|]. cbn [bare smap]. split; [|rewrite HE; cbn; split; [constructor|split; [constructor|tauto]]].
        unfold new_table. replace (u32 size) with size by (unfold u32; rewrite N.mod_small; auto; change (2^28) with 268435456 in *; change (2^32) with 4294967296; lia).
        destruct (size =? 0); reflexivity.
      + rewrite HE. intros p [].
      + rewrite (CInv_card _ (proj1 HI)), HE. cbn. lia.
    - (* insert, present *)
      destruct (R_tab _ _ _ _ _ HR H) as (t & Hi & HT & HnE). rewrite Hi.
      destruct (insert_ok (hkey (hp s)) keqb hash keqb_ok t k (length (hp s)) (fun e => e) (proj1 (proj1 HT)) ltac:(lia))
        as (t' & ex & e & -> & HC & _ & Hin & [(-> & Hn' & l1 & e0 & l2 & He & Hk & -> & He' & HH)|(-> & _ & _ & _ & HH)]).
      + cbn [bind]. destruct (tab_ok_get _ _ _ _ _ _ _ HT H0) as [Hpin Hpl].
        destruct (tab_ok_in _ _ _ _ e0 HT) as (k1 & v1 & G1 & Hl1 & Hk1); [rewrite He; apply in_or_app; cbn; auto|].
        assert (k1 = k) as -> by congruence. rewrite G1 in H0. injection H0 as -> ->.
        eexists _, _, _. split; [reflexivity|]. split; [econstructor; eauto|].
        eapply R_upd_same with (n := n); eauto; try lia.
        * pose proof HT as (HI & Hbare & HN & HP & HL). split; [apply HH; auto|]. split.
          { cbn [bare] in *. rewrite Hbare, Hin. f_equal. unfold isInit. unfold tents in He.
            destruct (tbl t); auto. destruct l1; discriminate. }
          split; auto. rewrite He', <- He. auto.
        * intros q. rewrite He', <- He. auto.
      + exfalso. destruct (HH (proj1 HT)) as [Hni _]. apply (tab_ok_absent _ _ _ _ _ HT) in Hni. congruence.
    - (* insert, absent *)
      destruct (R_tab _ _ _ _ _ HR H) as (t & Hi & HT & HnE). rewrite Hi.
      set (h' := hp s ++ [Some (k, dflt)]).
      assert (HA : same_on (hp s) h' (tents t)) by (eapply R_same_on_app; eauto).
      rewrite (insert_ext keqb hash (hkey (hp s)) (hkey h')) by (apply same_on_agree; auto).
      pose proof (tab_ok_frame _ _ _ _ HA HT) as HT'.
      destruct (insert_ok (hkey h') keqb hash keqb_ok t k (length (hp s)) (fun e => e) (proj1 (proj1 HT')) ltac:(lia))
        as (t' & ex & e & -> & HC & _ & Hin & [(-> & Hn' & l1 & e0 & l2 & He & Hk & -> & He' & HH)|(-> & Hn' & -> & HP' & HH)]).
      + exfalso. destruct (tab_ok_in _ _ _ _ e0 HT') as (k1 & v1 & G1 & Hl1 & Hk1); [rewrite He; apply in_or_app; cbn; auto|].
        assert (k1 = k) as -> by congruence. congruence.
      + cbn [bind]. eexists _, _, _. split; [reflexivity|].
        assert (Hp : nth_error h' (length (hp s)) = Some (Some (k, dflt)))
          by (unfold h'; rewrite nth_error_app2, Nat.sub_diag; auto).
        split; [eapply SInsertNew with (p := length (hp s)); eauto; lia|].
        replace (S (length (hp s))) with (length h') by (unfold h'; rewrite app_length; cbn; lia).
        eapply R_upd with (n := n); eauto; try lia.
        * intros j tj _ Hj. eapply R_same_on_app; eauto.
        * destruct (HH (proj1 HT')) as [Hni HI']. pose proof HT' as (HI & Hbare & HN & HP & HL). cbn [smap bare] in *.
          split; [apply HI'; unfold HashHeapModel.hkey; rewrite Hp; auto|]. cbn [bare smap]. split; [rewrite Hin; auto|].
          split; [apply put_NoDup; auto|]. split.
          -- unfold put. rewrite del_notin; auto; [|apply (get_None keqb keqb_ok); auto].
             eapply Permutation_trans; [|apply Permutation_map; exact HP'].
             cbn [map]. assert (Hd : dec h' (length (hp s)) = (k, (length (hp s), dflt))) by (unfold dec; rewrite Hp; auto).
             rewrite Hd. constructor. auto.
          -- intros q Hq. apply (Permutation_in _ (Permutation_sym HP')) in Hq. destruct Hq as [<-|Hq]; auto.
             exists k, dflt. auto.
        * intros q Hq. apply (Permutation_in _ (Permutation_sym HP')) in Hq. destruct Hq as [<-|Hq]; auto.
    - (* write *)
      destruct (R_tab _ _ _ _ _ HR H) as (t & Hi & HT & HnE).
      destruct (tab_ok_get _ _ _ _ _ _ _ HT H0) as [Hpin Hpl]. unfold h_write. rewrite Hpl.
      eexists _, _, _. split; [reflexivity|]. split; [econstructor; eauto|].
      set (h' := upd (hp s) p (Some (k, v'))).
      assert (Hother : forall q, q <> p -> nth_error h' q = nth_error (hp s) q)
        by (intros q Hq; apply nth_error_upd_ne; auto).
      assert (Hself : nth_error h' p = Some (Some (k, v'))) by (unfold h'; erewrite nth_error_upd_eq; eauto).
      replace (next w) with (length h') by (unfold h'; rewrite upd_length; auto).
      rewrite <- (upd_same (tbs s) i t Hi).
      eapply R_upd with (n := n); eauto; try lia.
      + intros j tj Hj Hnth q Hq. apply Hother. intros ->. eapply (r_sep _ _ _ HR j i); eauto.
      + pose proof HT as (HI & Hbare & HN & HP & HL).
        assert (Hag : agree (hkey (hp s)) (hkey h') (tents t)).
        { intros q Hq. unfold HashHeapModel.hkey. destruct (Nat.eq_dec q p) as [->|Hne]; [rewrite Hself, Hpl; auto|rewrite Hother; auto]. }
        split; [eapply HInv_ext; eauto|]. cbn [bare smap] in *. split; auto. split; [apply put_NoDup; auto|]. split.
        * apply in_split in Hpin as (l1 & l2 & Hl). rewrite Hl in *.
          pose proof (tents_NoDup _ _ HI) as HNt. rewrite Hl in HNt. apply NoDup_remove_2 in HNt.
          rewrite map_app in *. cbn [map] in *.
          assert (Hd : dec h' p = (k, (p, v'))) by (unfold dec; rewrite Hself; auto).
          assert (Hd0 : dec (hp s) p = (k, (p, v))) by (unfold dec; rewrite Hpl; auto).
          rewrite Hd. rewrite Hd0 in HP.
          assert (Hs1 : map (dec h') l1 = map (dec (hp s)) l1).
          { apply same_on_dec. intros q Hq. apply Hother. intros ->. apply HNt. apply in_or_app; auto. }
          assert (Hs2 : map (dec h') l2 = map (dec (hp s)) l2).
          { apply same_on_dec. intros q Hq. apply Hother. intros ->. apply HNt. apply in_or_app; auto. }
          rewrite Hs1, Hs2. eapply perm_replace; eauto.
        * intros q Hq. destruct (HL q Hq) as (k1 & v1 & Hq1). destruct (Nat.eq_dec q p) as [->|Hne].
          -- exists k, v'. auto.
          -- exists k1, v1. rewrite Hother; auto.
    - (* read *)
      destruct (R_tab _ _ _ _ _ HR H) as (t & Hi & HT & HnE).
      destruct (tab_ok_get _ _ _ _ _ _ _ HT H0) as [Hpin Hpl]. unfold h_read. rewrite Hpl.
      eexists _, _, _. split; [reflexivity|]. split; [econstructor; eauto|]. auto.
    - (* find *)
      destruct (R_tab _ _ _ _ _ HR H) as (t & Hi & HT & HnE). rewrite Hi.
      exists s, (RFind (option_map fst (get keqb m k))), w0. split; [|split; auto].
      destruct (find_entry_ok (hkey (hp s)) keqb hash keqb_ok t k (proj1 HT)) as [(p & Hin & Hk & ->)|[Hni ->]]; cbn [bind].
      + destruct (tab_ok_in _ _ _ _ p HT Hin) as (k1 & v1 & G1 & Hl1 & Hk1).
        assert (k1 = k) as -> by congruence. rewrite G1. reflexivity.
      + rewrite (tab_ok_absent _ _ _ _ _ HT Hni). reflexivity.
    - (* erase *)
      destruct (R_tab _ _ _ _ _ HR H) as (t & Hi & HT & HnE). rewrite Hi.
      pose proof HT as (HI & Hbare & HN & HP & HL). cbn [smap bare] in *.
      destruct (erase_ok (hkey (hp s)) keqb hash keqb_ok t k (proj1 HI) ltac:(lia))
        as (t' & ex & He & HC & _ & HH). 
      destruct (find_entry_ok (hkey (hp s)) keqb hash keqb_ok t k HI) as [(p & Hin & Hk & ->)|[Hni ->]]; cbn [bind]; rewrite He; cbn [bind].
      + destruct HH as [(-> & e & Hek & HPe & HnE' & HI')|(_ & _ & Hno)].
        2: { exfalso. apply (Hno HI). rewrite <- Hk. apply in_map; auto. }
        assert (e = p) as ->.
        { destruct HI as [_ HIb]. unfold tents in *. destruct (tbl t) as [bs|]; [|destruct Hin].
          eapply (NoDup_map_inj (hkey (hp s))); [apply HIb| |auto|congruence].
          eapply Permutation_in; [symmetry; exact HPe|cbn; auto]. }
        destruct (tab_ok_in _ _ _ _ p HT Hin) as (k1 & v1 & G1 & Hl1 & Hk1).
        assert (k1 = k) as -> by congruence.
        eexists _, _, _. split; [reflexivity|]. split.
        { assert (Hhas : true = has keqb m k) by (unfold has; rewrite G1; auto). rewrite Hhas. econstructor; eauto. }
        set (h' := upd (hp s) p None).
        replace (next w) with (length h') by (unfold h'; rewrite upd_length; auto).
        assert (HNt : NoDup (p :: tents t')).
        { eapply Permutation_NoDup; [exact HPe|]. eapply tents_NoDup; eauto. }
        apply NoDup_cons_iff in HNt as [Hpni HNt'].
        assert (Hother : forall q, q <> p -> nth_error h' q = nth_error (hp s) q)
          by (intros q Hq; apply nth_error_upd_ne; auto).
        assert (Hsame : same_on (hp s) h' (tents t')) by (intros q Hq; apply Hother; intros ->; auto).
        eapply R_upd with (n := n); eauto; try lia.
        * intros j tj Hj Hnth q Hq. apply Hother. intros ->. eapply (r_sep _ _ _ HR j i); eauto.
        * split; [eapply HInv_ext; [apply same_on_agree; eauto|]; auto|]. cbn [bare smap].
          split. { rewrite Hbare. f_equal. transitivity true.
            - unfold isInit. unfold tents in Hin. destruct (tbl t); [auto|contradiction].
            - symmetry. assert (Hpos : tbl t' <> None).
              { clear - He Hin. unfold erase in He. apply bind_ret in He as (r & _ & He). destruct r; [|injection He as <-; unfold tents in Hin; intros Hn; rewrite Hn in Hin; auto].
                destruct (tbl t); [|discriminate]. apply bind_ret in He as (t1 & Hm & [= <-]).
                unfold may_rehash in Hm. destruct (_ <? _) in Hm.
                - apply bind_ret in Hm as (x & _ & [= <-]). discriminate.
                - destruct (_ <? _) in Hm; [apply bind_ret in Hm as (x & _ & [= <-]); discriminate|injection Hm as <-; discriminate]. }
              unfold isInit. destruct (tbl t'); [auto|congruence]. }
          split; [apply del_NoDup; auto|]. split.
          -- rewrite (same_on_dec (hp s) h'); auto. eapply (del_perm keqb keqb_ok) with (v := (p, v1)); auto.
             eapply Permutation_trans; [exact HP|]. eapply Permutation_trans; [apply Permutation_map; exact HPe|].
             cbn [map]. assert (Hd : dec (hp s) p = (k, (p, v1))) by (unfold dec; rewrite Hl1; auto). rewrite Hd. auto.
          -- intros q Hq. eapply same_on_live; eauto. apply HL. eapply Permutation_in; [symmetry; exact HPe|cbn; auto].
        * intros q Hq. left. eapply Permutation_in; [symmetry; exact HPe|cbn; auto].
      + destruct HH as [(-> & e & Hek & HPe & HnE' & HI')|(-> & -> & Hno)].
        { exfalso. apply Hni. rewrite <- Hek. apply in_map. eapply Permutation_in; [symmetry; exact HPe|cbn; auto]. }
        pose proof (tab_ok_absent _ _ _ _ _ HT Hni) as G.
        eexists _, _, _. split; [reflexivity|]. split.
        { assert (Hhas : false = has keqb m k) by (unfold has; rewrite G; auto). rewrite Hhas. econstructor; eauto. }
        rewrite Hnext. eapply R_upd with (n := n); eauto; try lia.
        * intros; apply same_on_refl.
        * rewrite (del_notin keqb keqb_ok); auto. apply (get_None keqb keqb_ok); auto.
    - (* size *)
      destruct (R_tab _ _ _ _ _ HR H) as (t & Hi & HT & HnE). rewrite Hi.
      exists s, (RSize (card m)), w0. rewrite (tab_ok_card _ _ _ HT). auto.
    - (* clear *)
      destruct (R_tab _ _ _ _ _ HR H) as (t & Hi & HT & HnE). rewrite Hi.
      pose proof HT as (HI & Hbare & HN & HP & HL). cbn [smap bare] in *.
      pose proof (tab_ok_card _ _ _ HT) as Hcard. cbn [smap] in Hcard.
      destruct (N.eqb_spec (nE t) 0) as [Hz|Hz].
      + assert (Hm : m = []) by (unfold card in Hcard; destruct m; auto; cbn in Hcard; lia). subst m.
        eexists _, _, _. split; [reflexivity|]. split; [econstructor; eauto|].
        cbn. rewrite (set_tab_same (tabs w) i _ H). destruct w; auto.
      + destruct (tbl t) as [bs|] eqn:Hb.
        2: { exfalso. apply Hz. rewrite (CInv_card _ (proj1 HI)). unfold tents. rewrite Hb. reflexivity. }
        assert (Hte : tents t = ents bs) by (unfold tents; rewrite Hb; auto).
        destruct (free_buckets_ok bs (hp s)) as (h' & -> & Hlen & Hoth).
        { rewrite <- Hte. eapply tents_NoDup; eauto. }
        { intros p Hp. apply HL. rewrite Hte. auto. }
        cbn [bind]. unfold clear. destruct (N.eqb_spec (nE t) 0); [congruence|].
        eexists _, _, _. split; [reflexivity|]. split; [econstructor; eauto|].
        rewrite <- Hcard. destruct (N.eqb_spec (nE t) 0); [congruence|]. rewrite Hnext, <- Hlen.
        eapply R_upd with (n := n); eauto; try (cbn [null_table nE]; lia).
        * intros j tj Hj Hnth q Hq. apply Hoth. rewrite <- Hte. intros Hq'. eapply (r_sep _ _ _ HR j i); eauto.
        * split; [apply null_ok|]. cbn. split; auto. split; [constructor|]. split; [constructor|tauto].
        * cbn. tauto.
    - (* rehash *)
      destruct (R_tab _ _ _ _ _ HR H) as (t & Hi & HT & HnE). rewrite Hi.
      pose proof HT as (HI & Hbare & HN & HP & HL). cbn [smap bare] in *.
      assert (Hre : exists t', rehash t = Ret t' /\ HInv (hkey (hp s)) hash t' /\ isInit t' = isInit t /\ Permutation (tents t) (tents t') /\ nE t' = nE t).
      { unfold rehash. destruct (tbl t) as [bs|] eqn:Hb.
        - destruct (may_rehash_ok (hkey (hp s)) keqb hash keqb_ok t bs) as (t' & -> & HC & HP' & HnE' & _ & Hin & HH).
          { destruct HI as [HC HI]. unfold CInv in HC. rewrite Hb in HC. split; auto. split; [tauto|].
            change (2^28) with 268435456 in *. lia. }
          exists t'. split; auto. destruct HI as [HC0 HI]. rewrite Hb in HI. split; [apply HH; tauto|].
          split; auto. unfold isInit at 2. rewrite Hb. auto.
        - exists t. unfold may_rehash. pose proof HI as [HC _]. unfold CInv in HC. rewrite Hb in HC.
          destruct HC as (Z1 & Z2 & Z3). rewrite Z1, Z2, Z3. split; [reflexivity|]. auto. }
      destruct Hre as (t' & -> & HI' & Hin & HP' & HnE'). cbn [bind].
      eexists _, _, _. split; [reflexivity|]. split; [econstructor; eauto|].
      unfold put_tab. eapply R_upd_same with (n := n); eauto; try lia.
      + split; auto. cbn [bare smap]. split; [congruence|]. split; auto. split.
        * eapply Permutation_trans; [exact HP|]. apply Permutation_map; auto.
        * intros q Hq. apply HL. eapply Permutation_in; [symmetry; exact HP'|auto].
      + intros q Hq. eapply Permutation_in; [symmetry; exact HP'|auto].
    - (* rehash to *)
      destruct (R_tab _ _ _ _ _ HR H) as (t & Hi & HT & HnE). rewrite Hi.
      pose proof HT as (HI & Hbare & HN & HP & HL). cbn [smap bare] in *.
      pose proof (tab_ok_card _ _ _ HT) as Hcard. cbn [smap] in Hcard. change (2^28) with 268435456 in *.
      unfold rehash_to. replace (u32 n0) with n0 by (unfold u32; rewrite N.mod_small; auto; change (2^32) with 4294967296; lia).
      destruct (do_rehash_ok (hkey (hp s)) keqb hash keqb_ok t n0) as (t' & -> & HC & HP' & HnB & HnE' & HnT & Hin & HH & HH0);
        [apply CInv_card; apply HI|lia|change (2^29) with 536870912; lia|].
      cbn [bind]. eexists _, _, _. split; [reflexivity|]. split; [econstructor; eauto|].
      rewrite Hnext. eapply R_upd with (n := n); eauto; try lia.
      + intros; apply same_on_refl.
      + split. { destruct HI as [_ HI]. destruct (tbl t) as [bs|] eqn:Hb; [eapply HH; eauto; tauto|auto]. }
        cbn [bare smap]. rewrite Hin. split; auto. split; auto. split.
        * eapply Permutation_trans; [exact HP|]. apply Permutation_map; auto.
        * intros q Hq. apply HL. eapply Permutation_in; [symmetry; exact HP'|auto].
      + intros q Hq. left. eapply Permutation_in; [symmetry; exact HP'|auto].
    - (* copy *)
      destruct (R_tab _ _ _ _ _ HR H) as (t & Hi & HT & HnE). rewrite Hi.
      destruct (copy_of_ok true _ _ _ HT) as (x & t' & m1 & -> & HT' & Hfresh & Hown & HnE'). cbn [bind].
      eexists _, _, _. split; [reflexivity|]. split; [econstructor; [..|rewrite Hnext; exact Hfresh]; eauto|].
      eapply R_app with (n := n); eauto; try lia.
      intros p Hp. apply nth_error_app1; auto.
    - (* assign *)
      destruct (R_tab _ _ _ _ _ HR H0) as (ti & Hi & HTi & HnEi). rewrite Hi.
      destruct (R_tab _ _ _ _ _ HR H1) as (tj & Hj & HTj & HnEj). rewrite Hj.
      destruct (Nat.eqb_spec i j); [congruence|].
      destruct (copy_of_ok false _ _ _ HTj) as (x & t' & m1 & -> & HT' & Hfresh & Hown & HnE'). cbn [bind].
      eexists _, _, _. split; [reflexivity|]. split; [econstructor; [..|rewrite Hnext; exact Hfresh]; eauto|].
      eapply R_upd with (n := n); eauto; try lia.
      intros a ta _ Ha. eapply R_same_on_app; eauto.
    - (* move *)
      destruct (R_tab _ _ _ _ _ HR H) as (t0 & Hi & HT & HnE). rewrite Hi.
      eexists _, _, _. split; [reflexivity|]. split; [econstructor; eauto|]. rewrite Hnext.
      assert (HR' : R (mkSt (hp s) (upd (tbs s) i null_table)) (mkW (set_tab (tabs w) i (mkS [] true)) (length (hp s))) n).
      { eapply R_upd with (n := n); eauto; try (cbn [null_table nE]; lia).
        - intros; apply same_on_refl.
        - split; [apply null_ok|]. cbn. split; auto. split; [constructor|]. split; [constructor|tauto].
        - cbn. tauto. }
      destruct HR' as [Q1 Q2 Q3 Q4]. cbn in *. split; cbn; auto.
      + apply Forall2_app; auto.
      + intros a b ta tb p Hab Ha Hb Hpa Hpb.
        assert (Hcase : forall c tc, nth_error (upd (tbs s) i null_table ++ [t0]) c = Some tc -> In p (tents tc) ->
           (c <> i /\ nth_error (tbs s) c = Some tc) \/ (c = length (tbs s) /\ tc = t0)).
        { intros c tc Hc Hpc. destruct (Nat.lt_ge_cases c (length (tbs s))) as [L|L].
          - rewrite nth_error_app1 in Hc by (rewrite upd_length; auto). rewrite nth_error_upd in Hc.
            destruct (Nat.eqb_spec i c) as [->|].
            + destruct (Nat.ltb c (length (tbs s))); [|discriminate]. injection Hc as <-. destruct Hpc.
            + auto.
          - rewrite nth_error_app2, upd_length in Hc by (rewrite upd_length; auto).
            destruct (c - length (tbs s))%nat as [|d] eqn:D; cbn in Hc.
            + right. split; [lia|congruence].
            + destruct d; discriminate. }
        destruct (Hcase _ _ Ha Hpa) as [[Hai Ha']|[-> ->]]; destruct (Hcase _ _ Hb Hpb) as [[Hbi Hb']|[-> ->]]; try congruence.
        * eapply (r_sep _ _ _ HR a b); eauto.
        * eapply (r_sep _ _ _ HR a i); eauto.
        * eapply (r_sep _ _ _ HR i b); eauto.
      + apply Forall_app. split; [|constructor; auto; lia]. eapply Forall_impl; [|exact Q4]. cbn; intros; lia.
    - (* move assign *)
      destruct (R_tab _ _ _ _ _ HR H0) as (ti & Hi & HTi & HnEi). rewrite Hi.
      destruct (R_tab _ _ _ _ _ HR H1) as (tj & Hj & HTj & HnEj). rewrite Hj.
      destruct (Nat.eqb_spec i j); [congruence|].
      eexists _, _, _. split; [reflexivity|]. split; [econstructor; eauto|]. rewrite Hnext.
      assert (Hil : (i < length (tbs s))%nat) by (apply nth_error_Some; congruence).
      assert (Hjl : (j < length (tbs s))%nat) by (apply nth_error_Some; congruence).
      split; cbn; auto.
      + apply Forall2_upd; [apply Forall2_upd; auto; apply HR|].
        split; [apply null_ok|]. cbn. split; auto. split; [constructor|]. split; [constructor|tauto].
      + assert (Hcase : forall c tc p, nth_error (upd (upd (tbs s) i tj) j null_table) c = Some tc -> In p (tents tc) ->
           c <> j /\ ((c = i /\ tc = tj) \/ (c <> i /\ nth_error (tbs s) c = Some tc))).
        { intros c tc p Hc Hp. rewrite nth_error_upd, upd_length in Hc. destruct (Nat.eqb_spec j c) as [->|Hjc].
          - destruct (Nat.ltb c (length (tbs s))); [|discriminate]. injection Hc as <-. destruct Hp.
          - split; auto. rewrite nth_error_upd in Hc. destruct (Nat.eqb_spec i c) as [->|].
            + destruct (Nat.ltb c (length (tbs s))); [|discriminate]. injection Hc as <-. auto.
            + auto. }
        intros a b ta tb p Hab Ha Hb Hpa Hpb.
        destruct (Hcase _ _ _ Ha Hpa) as [Haj [[-> ->]|[Hai Ha']]]; destruct (Hcase _ _ _ Hb Hpb) as [Hbj [[-> ->]|[Hbi Hb']]]; try congruence.
        * eapply (r_sep _ _ _ HR j b); eauto.
        * eapply (r_sep _ _ _ HR a j); eauto.
        * eapply (r_sep _ _ _ HR a b); eauto.
      + apply Forall_upd; [apply Forall_upd|cbn; lia]; [|lia].
        eapply Forall_impl; [|apply HR]. cbn; intros; lia.
  Qed.

  Lemma R0 : R state0 world0 0.
  Proof. split; cbn; auto. intros [|i] j ti tj p _ H; discriminate. Qed.

  Lemma owner_dec s w n p : R s w n ->
    (exists i k m b v, tab w i = Some (mkS m b) /\ get keqb m k = Some (p, v)) \/
    ~ (exists i k m b v, tab w i = Some (mkS m b) /\ get keqb m k = Some (p, v)).
  Proof.
    intros HR.
    assert (Hnd : forall i m b, tab w i = Some (mkS m b) -> NoDup (map fst m)).
    { intros i m b Ht. destruct (R_tab _ _ _ _ _ HR Ht) as (t & _ & (_ & _ & HN & _) & _). auto. }
    destruct (Exists_dec (fun st => Exists (fun e => fst (snd e) = p) (smap st)) (tabs w)) as [He|He].
    { intros st. apply Exists_dec. intros e. apply Nat.eq_dec. }
    - left. apply Exists_exists in He as (st & Hin & He). apply Exists_exists in He as ([k [q v]] & Hin2 & Hq).
      cbn in Hq. subst q. apply In_nth_error in Hin as (i & Hi). destruct st as [m b]. exists i, k, m, b, v.
      split; auto. apply get_Some; auto. eapply Hnd; eauto.
    - right. intros (i & k & m & b & v & Ht & G). apply He. apply Exists_exists. exists (mkS m b).
      split; [eapply nth_error_In; eauto|]. apply Exists_exists. exists (k, (p, v)). split; auto.
      apply get_Some in G; auto. eapply Hnd; eauto.
  Qed.

  Lemma enabled_dec s w n o : R s w n -> enabled keqb dflt w o \/ ~ enabled keqb dflt w o.
  Proof.
    intros HR. unfold enabled.
    assert (Htab : forall i, (exists m b, tab w i = Some (mkS m b)) \/ tab w i = None).
    { intros i. destruct (tab w i) as [[m b]|]; eauto. }
    destruct o as [size|i k|p v|p|i k|i k|i|i|i|i nn|i|i j|i|i j].
    - destruct (N.ltb_spec size (2^28)) as [L|L].
      + left. eexists _, _. constructor; auto.
      + right. intros (a & w' & HW). inversion HW; subst. lia.
    - destruct (Htab i) as [(m & b & Ht)|Ht]; [left|right; intros (a & w' & HW); inversion HW; congruence].
      destruct (get keqb m k) as [[p v]|] eqn:G; eexists _, _; [eapply SInsertOld; eauto|eapply SInsertNew; eauto].
    - destruct (owner_dec s w n p HR) as [(i & k & m & b & v0 & Ht & G)|Hno].
      + left. eexists _, _. econstructor; eauto.
      + right. intros (a & w' & HW). inversion HW; subst. apply Hno. eauto 10.
    - destruct (owner_dec s w n p HR) as [(i & k & m & b & v0 & Ht & G)|Hno].
      + left. eexists _, _. econstructor; eauto.
      + right. intros (a & w' & HW). inversion HW; subst. apply Hno. eauto 10.
    - destruct (Htab i) as [(m & b & Ht)|Ht]; [left; eexists _, _; econstructor; eauto|right; intros (a & w' & HW); inversion HW; congruence].
    - destruct (Htab i) as [(m & b & Ht)|Ht]; [left; eexists _, _; econstructor; eauto|right; intros (a & w' & HW); inversion HW; congruence].
    - destruct (Htab i) as [(m & b & Ht)|Ht]; [left; eexists _, _; econstructor; eauto|right; intros (a & w' & HW); inversion HW; congruence].
    - destruct (Htab i) as [(m & b & Ht)|Ht]; [left; eexists _, _; econstructor; eauto|right; intros (a & w' & HW); inversion HW; congruence].
    - destruct (Htab i) as [(m & b & Ht)|Ht]; [left; eexists _, _; econstructor; eauto|right; intros (a & w' & HW); inversion HW; congruence].
    - destruct (Htab i) as [(m & b & Ht)|Ht]; [|right; intros (a & w' & HW); inversion HW; congruence].
      destruct (N.ltb_spec (card m) nn) as [L1|L1]; [destruct (N.ltb_spec nn (2^28)) as [L2|L2]|].
      + left. eexists _, _. econstructor; eauto.
      + right; intros (a & w' & HW); inversion HW; lia.
      + right; intros (a & w' & HW); inversion HW as [| | | | | | | | | |? ? ? m1 b1 Ht1 Hc1| | | |]; subst. rewrite Ht in Ht1. injection Ht1 as <- <-. lia.
    - destruct (Htab i) as [(m & b & Ht)|Ht]; [|right; intros (a & w' & HW); inversion HW; congruence].
      destruct b; [right; intros (a & w' & HW); inversion HW; congruence|]. left.
      destruct (R_tab _ _ _ _ _ HR Ht) as (t & _ & HT & _).
      destruct (copy_of_ok true _ _ _ HT) as (x & t' & m1 & _ & _ & Hf & _).
      eexists _, _. econstructor; eauto. rewrite (r_next _ _ _ HR). eauto.
    - destruct (Nat.eq_dec i j); [right; intros (a & w' & HW); inversion HW; congruence|].
      destruct (Htab i) as [(mi & bi & Hti)|Ht]; [|right; intros (a & w' & HW); inversion HW; congruence].
      destruct (Htab j) as [(m & b & Ht)|Ht]; [|right; intros (a & w' & HW); inversion HW; congruence].
      destruct b; [right; intros (a & w' & HW); inversion HW; congruence|]. left.
      destruct (R_tab _ _ _ _ _ HR Ht) as (t & _ & HT & _).
      destruct (copy_of_ok true _ _ _ HT) as (x & t' & m1 & _ & _ & Hf & _).
      eexists _, _. econstructor; eauto. rewrite (r_next _ _ _ HR). eauto.
    - destruct (Htab i) as [(m & b & Ht)|Ht]; [left; eexists _, _; econstructor; eauto|right; intros (a & w' & HW); inversion HW; congruence].
    - destruct (Nat.eq_dec i j); [right; intros (a & w' & HW); inversion HW; congruence|].
      destruct (Htab i) as [(mi & bi & Hti)|Ht]; [|right; intros (a & w' & HW); inversion HW; congruence].
      destruct (Htab j) as [(m & b & Ht)|Ht]; [|right; intros (a & w' & HW); inversion HW; congruence].
      left; eexists _, _; econstructor; eauto.
  Qed.

  (** the history runs as the specification says, up to the first operation that has no meaning *)
  Lemma hrun_ok l : forall s w n, R s w n -> n + N.of_nat (length l) <= 2^28 ->
    exists l1 l2 s' as_ w', l = l1 ++ l2 /\ hrun keqb hash dflt k0 s l1 = Ret (s', as_) /\
      wexec keqb dflt w l1 as_ w' /\ R s' w' (n + N.of_nat (length l1)) /\
      match l2 with [] => True | o :: _ => ~ enabled keqb dflt w' o end.
  Proof.
    induction l as [|o l IH]; intros s w n HR Hn.
    - exists [], [], s, [], w. split; auto. split; [reflexivity|]. split; [constructor|]. split; auto.
      cbn. rewrite N.add_0_r. auto.
    - destruct (enabled_dec s w n o HR) as [He|He].
      + cbn [length] in Hn. destruct (hstep_ok s w n o HR ltac:(lia) He) as (s1 & a & w1 & Hs & Hw & HR1).
        destruct (IH s1 w1 (n + 1) HR1 ltac:(lia)) as (l1 & l2 & s' & as_ & w' & -> & Hrun & Hex & HR' & Hend).
        exists (o :: l1), l2, s', (a :: as_), w'. split; auto. split; [cbn; rewrite Hs; cbn; rewrite Hrun; reflexivity|].
        split; [econstructor; eauto|]. split; auto. cbn [length].
        replace (n + N.of_nat (S (length l1))) with (n + 1 + N.of_nat (length l1)) by lia. auto.
      + exists [], (o :: l), s, [], w. split; auto. split; [reflexivity|]. split; [constructor|]. split; auto.
        cbn. rewrite N.add_0_r. auto.
  Qed.
End Heap.

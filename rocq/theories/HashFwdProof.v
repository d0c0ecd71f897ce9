(** Proofs for C94: the entry iterators of HashTables are forward iterators. *)
From Verif Require Import Base HashSpec HashModel HashProof HashProof2 HashFwdSpec HashFwdModel.
From Coq Require Import List Arith NArith Bool Permutation Lia.
Import ListNotations.
Local Open Scope nat_scope.

Lemma Forall2_at {A B} (R : A -> B -> Prop) l l' : Forall2 R l l' -> forall i b,
  nth_error l' i = Some b -> exists a, nth_error l i = Some a /\ R a b.
Proof.
  induction 1 as [|x y l l' H HF IH]; intros [|i] b Hb; cbn in *; try discriminate.
  - injection Hb as <-. eauto.
  - eauto.
Qed.

Lemma Forall2_upd {A B} (R : A -> B -> Prop) l l' i a b :
  Forall2 R l l' -> R a b -> Forall2 R (upd l i a) (upd l' i b).
Proof. intros H HR. revert i. induction H; intros [|i]; cbn; constructor; auto. Qed.

Lemma Forall2_imp {A B} (R R' : A -> B -> Prop) l l' :
  (forall a b, R a b -> R' a b) -> Forall2 R l l' -> Forall2 R' l l'.
Proof. intros H. induction 1; constructor; auto. Qed.

Lemma firstn_more {A} (l : list A) i d : firstn (i + d) l = firstn i l ++ firstn d (skipn i l).
Proof.
  revert i; induction l as [|x l IH]; intros [|i]; cbn; auto.
  - destruct d; reflexivity.
  - rewrite IH. reflexivity.
Qed.

Section Ents.
  Context {E : Type}.
  Notation bucket := (bucket E).
  Implicit Types bs : list bucket.

  Definition before bs i : nat := length (ents (firstn i bs)).

  Lemma before_skip bs i : before bs i + length (ents (skipn i bs)) = length (ents bs).
  Proof. unfold before. rewrite <- app_length, <- ents_app, firstn_skipn. reflexivity. Qed.

  Lemma ents_at bs i b e : nth_error bs i = Some b -> bslot b = Full e ->
    nth_error (ents bs) (before bs i) = Some e.
  Proof.
    intros Hb He. rewrite <- (firstn_skipn i bs) at 1. rewrite ents_app.
    rewrite nth_error_app2 by (unfold before; lia). unfold before. rewrite Nat.sub_diag.
    rewrite (skipn_nth _ _ _ Hb), ents_cons, He. reflexivity.
  Qed.

  Lemma before_lt bs i j b e : nth_error bs i = Some b -> bslot b = Full e -> i < j ->
    before bs i < before bs j.
  Proof.
    intros Hb He Hij. unfold before.
    assert (firstn j bs = firstn i bs ++ firstn (j - i) (skipn i bs)) as ->.
    { rewrite <- firstn_more. f_equal. lia. }
    rewrite ents_app, app_length, (skipn_nth _ _ _ Hb).
    destruct (j - i) as [|d] eqn:Ed; [lia|]. cbn [firstn]. rewrite ents_cons, He. cbn. lia.
  Qed.

  Lemma before_inj bs i j b e b' e' :
    nth_error bs i = Some b -> bslot b = Full e -> nth_error bs j = Some b' -> bslot b' = Full e' ->
    before bs i = before bs j -> i = j.
  Proof.
    intros H1 H2 H3 H4 H5. destruct (Nat.lt_trichotomy i j) as [L|[->|L]]; auto.
    - pose proof (before_lt _ _ _ _ _ H1 H2 L). lia.
    - pose proof (before_lt _ _ _ _ _ H3 H4 L). lia.
  Qed.

  Lemma before_upd bs i b e h e' j : nth_error bs i = Some b -> bslot b = Full e ->
    before (upd bs i (mkB h (Full e'))) j = before bs j.
  Proof.
    revert i j; induction bs as [|x bs IH]; intros [|i] [|j] Hb He; cbn [upd nth_error] in *;
      try discriminate; auto.
    - injection Hb as ->. unfold before. cbn [firstn]. rewrite !ents_cons, He. reflexivity.
    - unfold before in *. cbn [firstn]. rewrite !ents_cons, !app_length. erewrite IH; eauto.
  Qed.

  Lemma ents_set bs i b e h e' : nth_error bs i = Some b -> bslot b = Full e ->
    ents (upd bs i (mkB h (Full e'))) = upd (ents bs) (before bs i) e'.
  Proof.
    revert i; induction bs as [|x bs IH]; intros [|i] Hb He; cbn [nth_error] in *; try discriminate.
    - injection Hb as ->. cbn [upd]. rewrite !ents_cons, He. reflexivity.
    - cbn [upd]. rewrite !ents_cons. erewrite IH; eauto. unfold before. cbn [firstn]. rewrite ents_cons.
      destruct (bslot x); reflexivity.
  Qed.

  Lemma map_upd_same {A B} (f : A -> B) l i x a : nth_error l i = Some x -> f a = f x ->
    map f (upd l i a) = map f l.
  Proof.
    revert i; induction l; intros [|i] H H'; cbn in *; try discriminate.
    - injection H as ->. rewrite H'. reflexivity.
    - erewrite IHl; eauto.
  Qed.
End Ents.

Section Proof.
  Context {K V : Type}.
  Variable keqb : K -> K -> bool.
  Variable hash : K -> N.
  Hypothesis keqb_ok : forall a b, reflect (a = b) (keqb a b).
  Notation entry := (K * V)%type.
  Local Notation HInv := (HInv (E := entry) fst hash).

  Lemma index_of_None (es : list entry) k : ~ In k (map fst es) -> index_of keqb es k = None.
  Proof.
    induction es as [|[k' v] es IH]; cbn; auto. intros H.
    destruct (keqb_ok k' k); [tauto|]. rewrite IH; auto.
  Qed.

  Lemma index_of_at (es : list entry) p e : NoDup (map fst es) -> nth_error es p = Some e ->
    index_of keqb es (fst e) = Some p.
  Proof.
    revert p; induction es as [|x es IH]; intros [|p] HN H; cbn in *; try discriminate.
    - injection H as ->. destruct (keqb_ok (fst e) (fst e)); congruence.
    - inversion HN as [|? ? Hx HN']; subst. destruct (keqb_ok (fst x) (fst e)) as [Ex|_].
      + exfalso. apply Hx. rewrite Ex. apply in_map. eapply nth_error_In; eauto.
      + rewrite (IH _ HN' H). reflexivity.
  Qed.

  Definition at_place (ts : list (table entry)) (i : hit) (u : place) : Prop :=
    match u with
    | None => i = null_it
    | Some (a, p) => exists t bs ix b e,
        i = (Some a, ix) /\ nth_error ts a = Some t /\ tbl t = Some bs /\
        nth_error bs ix = Some b /\ bslot b = Full e /\ p = before bs ix
    end.

  Definition shows (t : table entry) (es : list entry) : Prop := HInv t /\ tents t = es.

  Definition rel (s : fstate (K := K) (V := V)) (w : fworld) : Prop :=
    Forall2 shows (fst s) (fst w) /\ Forall2 (at_place (fst s)) (snd s) (snd w).

  Lemma begin_place t es a ts : shows t es -> nth_error ts a = Some t ->
    exists i, begin_iter t = Ret i /\ at_place ts (of_index a i) (at_pos es a 0).
  Proof.
    intros [HI HE] Ha. destruct HI as [HC _]. pose proof (CInv_card _ HC) as Hcard. unfold begin_iter.
    destruct (N.eqb_spec (nE t) 0) as [E0|E0].
    { exists None. split; auto. rewrite HE in Hcard. destruct es; [|cbn in Hcard; lia]. reflexivity. }
    unfold CInv in HC. unfold tents in *. destruct (tbl t) as [bs|] eqn:Hb.
    2: { cbn in Hcard. lia. }
    destruct (scan_ok bs (length bs) 0) as (j & b & e & -> & _ & Hj & He & Heq).
    { lia. }
    { cbn [skipn]. intros Hnil. rewrite Hnil in Hcard. cbn in Hcard. lia. }
    cbn [bind]. exists (Some j). split; auto. cbn [skipn] in Heq.
    unfold at_pos. destruct es as [|x es]; [rewrite HE in Hcard; cbn in Hcard; lia|]. cbn [nth_error].
    cbn. exists t, bs, j, b, e. repeat split; auto.
    pose proof (before_skip bs j). rewrite <- Heq in *. lia.
  Qed.

  Lemma find_place t es a k ts : shows t es -> nth_error ts a = Some t ->
    exists i, find_key fst keqb hash t k = Ret i /\
      at_place ts (of_index a i) (match index_of keqb es k with Some p => Some (a, p) | None => None end).
  Proof.
    intros [HI HE] Ha.
    destruct (find_key_cases fst keqb hash keqb_ok t k (proj1 HI)) as [(bs & i & b & e & Hb & -> & Hi & He & Hk)|[-> HN]].
    - exists (Some i). split; auto. subst k.
      assert (Hat : nth_error es (before bs i) = Some e).
      { rewrite <- HE. unfold tents. rewrite Hb. eapply ents_at; eauto. }
      rewrite (index_of_at es (before bs i) e); auto.
      + cbn. exists t, bs, i, b, e. repeat split; auto.
      + destruct HI as [_ HI]. unfold tents in HE. rewrite Hb in HI, HE. rewrite <- HE. apply HI.
    - exists None. split; auto. rewrite index_of_None; [reflexivity|]. rewrite <- HE. auto.
  Qed.

  Lemma advance_place ts ess a p es i :
    Forall2 shows ts ess -> nth_error ess a = Some es -> at_place ts i (Some (a, p)) ->
    exists j, it_advance ts i = Ret j /\ at_place ts j (at_pos es a (S p)).
  Proof.
    intros HF Hes (t & bs & ix & b & e & -> & Ht & Hb & Hix & He & ->).
    destruct (Forall2_at _ _ _ HF _ _ Hes) as (t' & Ht' & HI & HE).
    rewrite Ht in Ht'. injection Ht' as <-.
    unfold it_advance. cbn [fst snd]. rewrite Ht. unfold advance. rewrite Hb.
    destruct HI as [HC _]. unfold CInv in HC. rewrite Hb in HC. destruct HC as [[HB _ _ _ _] _]. rewrite HB.
    assert (Hlt : ix < length bs) by (apply nth_error_Some; congruence).
    unfold tents in HE. rewrite Hb in HE.
    pose proof (before_skip bs ix) as HS. rewrite (skipn_nth _ _ _ Hix), ents_cons, He in HS. cbn [slot_ents app length] in HS.
    destruct (advance_loop_ok bs (S (length bs)) ix Hlt) as [[-> Hnil]|(j & b' & e' & -> & Hj & Hb' & He' & Heq)]; [lia| |].
    - exists null_it. split; auto. unfold at_pos. rewrite Hnil in HS. cbn in HS.
      replace (nth_error es (S (before bs ix))) with (@None entry); [reflexivity|].
      symmetry. apply nth_error_None. rewrite <- HE. lia.
    - exists (Some a, j). split; auto.
      assert (Hbj : before bs j = S (before bs ix)).
      { pose proof (before_skip bs j). rewrite Heq in HS. lia. }
      unfold at_pos. rewrite <- HE, <- Hbj, (ents_at _ _ _ _ Hb' He').
      cbn. exists t, bs, j, b', e'. repeat split; auto.
  Qed.

  Lemma entry_place ts ess a p es i :
    Forall2 shows ts ess -> nth_error ess a = Some es -> at_place ts i (Some (a, p)) ->
    exists e, it_entry ts i = Ret e /\ nth_error es p = Some e.
  Proof.
    intros HF Hes (t & bs & ix & b & e & -> & Ht & Hb & Hix & He & ->).
    destruct (Forall2_at _ _ _ HF _ _ Hes) as (t' & Ht' & HI & HE).
    rewrite Ht in Ht'. injection Ht' as <-.
    exists e. unfold it_entry. cbn [fst snd]. rewrite Ht. unfold deref. rewrite Hb, Hix, He. split; auto.
    rewrite <- HE. unfold tents. rewrite Hb. eapply ents_at; eauto.
  Qed.

  Lemma equals_place ts i j u v : at_place ts i u -> at_place ts j v -> equals i j = place_eqb u v.
  Proof.
    destruct u as [[a p]|], v as [[a' p']|]; cbn [at_place place_eqb].
    - intros (t & bs & ix & b & e & -> & Ht & Hb & Hix & He & ->)
             (t' & bs' & ix' & b' & e' & -> & Ht' & Hb' & Hix' & He' & ->).
      unfold equals. cbn [fst snd]. destruct (Nat.eqb_spec a a') as [<-|]; auto. cbn [andb].
      assert (t' = t) as -> by congruence. assert (bs' = bs) as -> by congruence.
      destruct (Nat.eqb_spec ix ix') as [<-|Hn].
      + symmetry. apply Nat.eqb_refl.
      + symmetry. apply Nat.eqb_neq. intros Hc. apply Hn. eapply before_inj; eauto.
    - intros (t & bs & ix & b & e & -> & _) ->. reflexivity.
    - intros -> (t & bs & ix & b & e & -> & _). reflexivity.
    - intros -> ->. reflexivity.
  Qed.

  Lemma set_shows t es bs ix b e v :
    shows t es -> tbl t = Some bs -> nth_error bs ix = Some b -> bslot b = Full e ->
    shows (mkT (Some (upd bs ix (mkB (bhash b) (Full (fst e, v))))) (nB t) (nE t) (nT t))
          (upd es (before bs ix) (fst e, v)).
  Proof.
    intros [[HC HP] HE] Hb Hix He. unfold CInv in HC. unfold tents in HE. rewrite Hb in HC, HP, HE. subst es.
    destruct HC as [[C1 C2 C3 C4 C5] C6]. destruct HP as [HP HN].
    pose proof (ents_set bs ix b e (bhash b) (fst e, v) Hix He) as HS.
    pose proof (tombs_upd bs ix b (mkB (bhash b) (Full (fst e, v))) Hix) as HT.
    pose proof (empties_upd bs ix b (mkB (bhash b) (Full (fst e, v))) Hix) as HM.
    unfold is_tomb, is_empty in HT, HM. rewrite He in HT, HM. cbn [bslot] in HT, HM.
    destruct (HP ix b e Hix He) as [Hh Hr].
    split; [|unfold tents; cbn [tbl]; exact HS].
    split.
    - unfold CInv. cbn [tbl]. split; [constructor; cbn [nB nE nT]|].
      + rewrite upd_length. auto.
      + rewrite HS, upd_length. auto.
      + rewrite C3. f_equal. lia.
      + auto.
      + rewrite upd_length. auto.
      + lia.
    - cbn [tbl]. split.
      + eapply pinv_upd_full; eauto.
      + rewrite HS. erewrite map_upd_same; [exact HN|eapply ents_at; eauto|reflexivity].
  Qed.

  Lemma set_places ts a t bs ix b e v i u :
    nth_error ts a = Some t -> tbl t = Some bs -> nth_error bs ix = Some b -> bslot b = Full e ->
    at_place ts i u ->
    at_place (upd ts a (mkT (Some (upd bs ix (mkB (bhash b) (Full (fst e, v))))) (nB t) (nE t) (nT t))) i u.
  Proof.
    intros Ht Hb Hix He. destruct u as [[a' p]|]; cbn [at_place]; auto.
    intros (t' & bs' & ix' & b' & e' & -> & Ht' & Hb' & Hix' & He' & ->).
    destruct (Nat.eq_dec a a') as [<-|Hn].
    - assert (t' = t) as -> by congruence. assert (bs' = bs) as -> by congruence.
      destruct (Nat.eq_dec ix ix') as [<-|Hm].
      + do 5 eexists. split; [reflexivity|]. split; [eapply nth_error_upd_eq; eauto|]. split; [reflexivity|].
        split; [eapply nth_error_upd_eq; eauto|]. split; [reflexivity|]. erewrite before_upd; eauto.
      + do 5 eexists. split; [reflexivity|]. split; [eapply nth_error_upd_eq; eauto|]. split; [reflexivity|].
        split; [rewrite nth_error_upd_ne; eauto|]. split; [eauto|]. erewrite before_upd; eauto.
    - exists t', bs', ix', b', e'. rewrite nth_error_upd_ne by auto. repeat split; auto.
  Qed.

  Lemma fstep_ok s w o w' r : rel s w -> fspec_step keqb w o = Some (w', r) ->
    exists s', fstep keqb hash s o = Ret (s', r) /\ rel s' w'.
  Proof.
    destruct s as [ts is_], w as [ess vs]. intros [HT HV]. cbn [fst snd] in HT, HV.
    assert (Hstore : forall x i u, at_place ts i u -> rel (ts, upd is_ x i) (ess, replace vs x u)).
    { intros x i u Hu. split; cbn [fst snd]; auto. change @replace with @upd. apply Forall2_upd; auto. }
    assert (Hvar : forall x u, nth_error vs x = Some u -> exists i, var is_ x = Ret i /\ at_place ts i u).
    { intros x u Hx. destruct (Forall2_at _ _ _ HV _ _ Hx) as (i & Hi & Hu). exists i. unfold var. rewrite Hi. auto. }
    destruct o as [x|x a|x a|x a k|x y|x|x y|x y|x y|x|x v]; cbn [fspec_step fstep]; intros HS.
    - destruct (nth_error vs x) eqn:Hx; [|discriminate]. injection HS as <- <-.
      eexists. split; [reflexivity|]. apply Hstore. reflexivity.
    - destruct (nth_error ess a) as [es|] eqn:Ha; [|discriminate].
      destruct (nth_error vs x) eqn:Hx; [|discriminate]. injection HS as <- <-.
      destruct (Forall2_at _ _ _ HT _ _ Ha) as (t & Ht & Hsh). unfold table_at. rewrite Ht. cbn [bind].
      destruct (begin_place t es a ts Hsh Ht) as (i & -> & Hi). cbn [bind]. eexists. split; [reflexivity|]. auto.
    - destruct (nth_error ess a) as [es|] eqn:Ha; [|discriminate].
      destruct (nth_error vs x) eqn:Hx; [|discriminate]. injection HS as <- <-.
      eexists. split; [reflexivity|]. apply Hstore. reflexivity.
    - destruct (nth_error ess a) as [es|] eqn:Ha; [|discriminate].
      destruct (nth_error vs x) eqn:Hx; [|discriminate]. injection HS as <- <-.
      destruct (Forall2_at _ _ _ HT _ _ Ha) as (t & Ht & Hsh). unfold table_at. rewrite Ht. cbn [bind].
      destruct (find_place t es a k ts Hsh Ht) as (i & -> & Hi). cbn [bind]. eexists. split; [reflexivity|]. auto.
    - destruct (nth_error vs y) as [u|] eqn:Hy; [|discriminate].
      destruct (nth_error vs x) eqn:Hx; [|discriminate]. injection HS as <- <-.
      destruct (Hvar _ _ Hy) as (i & -> & Hi). cbn [bind]. eexists. split; [reflexivity|]. auto.
    - destruct (nth_error vs x) as [[[a p]|]|] eqn:Hx; [| |discriminate].
      + destruct (nth_error ess a) as [es|] eqn:Ha; [|discriminate]. injection HS as <- <-.
        destruct (Hvar _ _ Hx) as (i & -> & Hi). cbn [bind].
        destruct (advance_place ts ess a p es i HT Ha Hi) as (j & -> & Hj). cbn [guard bind].
        eexists. split; [reflexivity|]. auto.
      + injection HS as <- <-. destruct (Hvar _ _ Hx) as (i & -> & Hi). cbn [bind]. cbn in Hi. subst i.
        eexists. split; [reflexivity|]. split; auto.
    - destruct (nth_error vs x) as [u|] eqn:Hx; [|discriminate].
      destruct (nth_error vs y) as [[[a p]|]|] eqn:Hy; [| |discriminate].
      + destruct (nth_error ess a) as [es|] eqn:Ha; [|discriminate]. injection HS as <- <-.
        destruct (Hvar _ _ Hy) as (i & -> & Hi). cbn [bind].
        destruct (advance_place ts ess a p es i HT Ha Hi) as (j & -> & Hj). cbn [guard bind].
        eexists. split; [reflexivity|]. split; cbn [fst snd]; auto. change @replace with @upd.
        apply Forall2_upd; auto. apply Forall2_upd; auto.
      + injection HS as <- <-. destruct (Hvar _ _ Hy) as (i & -> & Hi). cbn [bind]. cbn in Hi. subst i.
        eexists. split; [reflexivity|]. split; auto.
    - destruct (nth_error vs x) as [u|] eqn:Hx; [|discriminate].
      destruct (nth_error vs y) as [v|] eqn:Hy; [|discriminate]. injection HS as <- <-.
      destruct (Hvar _ _ Hx) as (i & -> & Hi). destruct (Hvar _ _ Hy) as (j & -> & Hj). cbn [bind].
      rewrite (equals_place _ _ _ _ _ Hi Hj). eexists. split; [reflexivity|]. split; auto.
    - destruct (nth_error vs x) as [u|] eqn:Hx; [|discriminate].
      destruct (nth_error vs y) as [v|] eqn:Hy; [|discriminate]. injection HS as <- <-.
      destruct (Hvar _ _ Hx) as (i & -> & Hi). destruct (Hvar _ _ Hy) as (j & -> & Hj). cbn [bind].
      rewrite (equals_place _ _ _ _ _ Hi Hj). eexists. split; [reflexivity|]. split; auto.
    - destruct (nth_error vs x) as [[[a p]|]|] eqn:Hx; [| |discriminate].
      + destruct (nth_error ess a) as [es|] eqn:Ha; [|discriminate].
        destruct (Hvar _ _ Hx) as (i & -> & Hi). cbn [bind].
        destruct (entry_place ts ess a p es i HT Ha Hi) as ([k v] & -> & Hp). rewrite Hp in HS.
        injection HS as <- <-. cbn [guard bind fst snd]. eexists. split; [reflexivity|]. split; auto.
      + injection HS as <- <-. destruct (Hvar _ _ Hx) as (i & -> & Hi). cbn [bind]. cbn in Hi. subst i.
        eexists. split; [reflexivity|]. split; auto.
    - destruct (nth_error vs x) as [[[a p]|]|] eqn:Hx; [| |discriminate].
      + destruct (nth_error ess a) as [es|] eqn:Ha; [|discriminate].
        destruct (Hvar _ _ Hx) as (i & -> & Hi). cbn [bind].
        destruct (entry_place ts ess a p es i HT Ha Hi) as ([k v0] & He & Hp). rewrite Hp in HS.
        injection HS as <- <-. unfold it_set. rewrite He. cbn [bind].
        destruct Hi as (t & bs & ix & b & e & -> & Ht & Hb & Hix & Hse & ->). cbn [fst snd]. rewrite Ht, Hb.
        cbn [guard bind]. rewrite (set_slot_upd _ _ _ _ Hix).
        assert (e = (k, v0)) as ->.
        { unfold it_entry in He. cbn [fst snd] in He. rewrite Ht in He. unfold deref in He. rewrite Hb, Hix, Hse in He. congruence. }
        destruct (Forall2_at _ _ _ HT _ _ Ha) as (t' & Ht' & Hsh). rewrite Ht in Ht'. injection Ht' as <-.
        eexists. split; [reflexivity|]. split; cbn [fst snd].
        * change @replace with @upd. apply Forall2_upd; auto.
          exact (set_shows t es bs ix b (k, v0) v Hsh Hb Hix Hse).
        * eapply Forall2_imp; [|exact HV]. intros i u Hu.
          exact (set_places ts a t bs ix b (k, v0) v i u Ht Hb Hix Hse Hu).
      + injection HS as <- <-. destruct (Hvar _ _ Hx) as (i & -> & Hi). cbn [bind]. cbn in Hi. subst i.
        eexists. split; [reflexivity|]. split; auto.
  Qed.

  Lemma frun_ok l : forall s w w' rs, rel s w -> fspec_run keqb w l = Some (w', rs) ->
    exists s', frun keqb hash s l = Ret (s', rs) /\ rel s' w'.
  Proof.
    induction l as [|o l IH]; cbn [fspec_run frun]; intros s w w' rs HR HS.
    - injection HS as <- <-. eauto.
    - destruct (fspec_step keqb w o) as [[w1 r]|] eqn:H1; [|discriminate].
      destruct (fspec_run keqb w1 l) as [[w2 rs']|] eqn:H2; [|discriminate]. injection HS as <- <-.
      destruct (fstep_ok _ _ _ _ _ HR H1) as (s1 & -> & HR1). cbn [bind].
      destruct (IH _ _ _ _ HR1 H2) as (s2 & -> & HR2). cbn [bind]. eauto.
  Qed.

  Lemma places_start ts n : Forall2 (at_place ts) (repeat null_it n) (repeat None n).
  Proof. induction n; cbn; constructor; auto. reflexivity. Qed.

  Definition gives (t : table entry) (es : list entry) : Prop :=
    forall fuel, length es <= fuel -> traverse fuel t = Ret es.

  Lemma shows_gives t es : shows t es -> gives t es.
  Proof.
    intros [[HC _] <-] f Hf. apply traverse_ok; auto. rewrite (CInv_card _ HC). lia.
  Qed.

  Variable dflt : V.

  Definition history (h : N * list (op K V)) (m : fmap K V) : Prop :=
    (fst h < 2^28 /\ N.of_nat (length (snd h)) <= 2^28)%N /\
    exists answers, spec_run keqb dflt [] (snd h) = Some (m, answers).

  Definition built (h : N * list (op K V)) (t : table entry) : Prop :=
    exists answers, run keqb hash dflt (new_table (fst h)) (snd h) = Ret (t, answers).

  Lemma iterators hs ms : Forall2 history hs ms ->
    exists ts ess, Forall2 built hs ts /\ Forall2 (@Permutation _) ms ess /\ Forall2 gives ts ess /\
      forall n l ess' places rs,
        fspec_run keqb (ess, repeat None n) l = Some ((ess', places), rs) ->
        exists ts' is_, frun keqb hash (ts, repeat null_it n) l = Ret ((ts', is_), rs) /\
          Forall2 gives ts' ess'.
  Proof.
    intros HH.
    assert (exists ts ess, Forall2 built hs ts /\ Forall2 (@Permutation _) ms ess /\ Forall2 shows ts ess)
      as (ts & ess & HB & HP & HS).
    { induction HH as [|[size ops] m hs ms [[H1 H2] (answers & H3)] _ (ts & ess & HB & HP & HS)].
      - exists [], []. auto.
      - cbn [fst snd] in *.
        destruct (run_new_ok keqb hash keqb_ok dflt size ops m answers H1 H2 H3) as (t & HR & HI & HN & HM).
        exists (t :: ts), (tents t :: ess). repeat split; constructor; auto.
        + exists answers. exact HR.
        + split; auto. }
    exists ts, ess. split; [auto|]. split; [auto|]. split.
    { eapply Forall2_imp; [|exact HS]. apply shows_gives. }
    intros n l ess' places rs HX.
    destruct (frun_ok l (ts, repeat null_it n) (ess, repeat None n) (ess', places) rs) as ([ts' is_] & HF & HT & _); auto.
    - split; cbn; auto. apply places_start.
    - exists ts', is_. split; auto. eapply Forall2_imp; [|exact HT]. apply shows_gives.
  Qed.
End Proof.

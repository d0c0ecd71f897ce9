(** Invariants of the hash table and the lemmas behind HashProps.v. *)
From Verif Require Import Base HashModel.
From Coq Require Import List NArith ZArith Lia Bool Permutation Arith.
From Coq Require Import ZifyBool ZifyNat ZifyN.
Import ListNotations.
Local Open Scope nat_scope.
Ltac splits := repeat match goal with |- _ /\ _ => split end.

(** ** Arrays *)
Lemma upd_length {A} (l : list A) i a : length (upd l i a) = length l.
Proof. revert i; induction l; intros [|i]; cbn; auto. Qed.

Lemma nth_error_upd {A} (l : list A) i j a :
  nth_error (upd l i a) j =
  if Nat.eqb i j then (if Nat.ltb i (length l) then Some a else None) else nth_error l j.
Proof.
  revert i j; induction l as [|x l IH]; intros i j.
  - cbn [upd]. destruct (Nat.eqb_spec i j); auto. rewrite Tauto.if_same || idtac.
    destruct j; reflexivity.
  - destruct i, j; cbn [upd nth_error Nat.eqb]; auto.
    rewrite IH. destruct (Nat.eqb i j); auto.
Qed.

Lemma nth_error_upd_eq {A} (l : list A) i a b :
  nth_error l i = Some b -> nth_error (upd l i a) i = Some a.
Proof.
  intros H. rewrite nth_error_upd, Nat.eqb_refl.
  assert (i < length l) by (apply nth_error_Some; congruence).
  destruct (Nat.ltb_spec i (length l)); auto; lia.
Qed.

Lemma nth_error_upd_ne {A} (l : list A) i j a :
  i <> j -> nth_error (upd l i a) j = nth_error l j.
Proof. intros H. rewrite nth_error_upd. destruct (Nat.eqb_spec i j); congruence. Qed.

Lemma upd_split {A} (l : list A) i a x :
  nth_error l i = Some x ->
  exists l1 l2, l = l1 ++ x :: l2 /\ upd l i a = l1 ++ a :: l2 /\ length l1 = i.
Proof.
  revert i; induction l as [|y l IH]; intros [|i] H; cbn in *; try discriminate.
  - injection H as ->. exists [], l. auto.
  - destruct (IH _ H) as (l1 & l2 & -> & -> & <-). exists (y :: l1), l2. auto.
Qed.

Lemma upd_upd {A} (l : list A) i a b : upd (upd l i a) i b = upd l i b.
Proof. revert i; induction l; intros [|i]; cbn; auto. f_equal; auto. Qed.

Lemma upd_same {A} (l : list A) i a : nth_error l i = Some a -> upd l i a = l.
Proof. revert i; induction l; intros [|i]; cbn; intros; try discriminate; f_equal; auto; congruence. Qed.

Lemma nth_error_ex {A} (l : list A) i : i < length l -> exists x, nth_error l i = Some x.
Proof.
  intros H. destruct (nth_error l i) eqn:E; eauto.
  apply nth_error_None in E. lia.
Qed.

(** ** Cyclic positions *)
Definition pos (B s j : nat) : nat := (s + j) mod B.

Lemma pos_lt B s j : 0 < B -> pos B s j < B.
Proof. intros. unfold pos. apply Nat.mod_upper_bound. lia. Qed.

Lemma pos_0 B s : s < B -> pos B s 0 = s.
Proof. intros. unfold pos. rewrite Nat.add_0_r. apply Nat.mod_small; auto. Qed.

Lemma next_pos B s j : 0 < B -> next_idx B (pos B s j) = pos B s (S j).
Proof.
  intros HB. unfold next_idx, pos.
  replace (s + S j) with ((s + j) + 1) by lia.
  rewrite <- (Nat.add_mod_idemp_l (s + j) 1 B) by lia.
  pose proof (Nat.mod_upper_bound (s + j) B ltac:(lia)).
  destruct (Nat.eqb_spec (S ((s + j) mod B)) B) as [E|E].
  - replace ((s + j) mod B + 1) with B by lia. rewrite Nat.mod_same; lia.
  - rewrite (Nat.mod_small ((s + j) mod B + 1)); lia.
Qed.

Lemma pos_cover B s i : s < B -> i < B -> exists j, j < B /\ pos B s j = i.
Proof.
  intros Hs Hi. unfold pos.
  destruct (le_lt_dec s i).
  - exists (i - s). split; [lia|]. replace (s + (i - s)) with i by lia. apply Nat.mod_small; lia.
  - exists (i + B - s). split; [lia|].
    replace (s + (i + B - s)) with (i + 1 * B) by lia.
    rewrite Nat.mod_add by lia. apply Nat.mod_small; lia.
Qed.

Lemma pos_inj B s j j' : s < B -> j < B -> j' < B -> pos B s j = pos B s j' -> j = j'.
Proof.
  unfold pos. intros Hs Hj Hj' H.
  destruct (lt_dec (s + j) B), (lt_dec (s + j') B).
  - rewrite !Nat.mod_small in H by lia. lia.
  - rewrite (Nat.mod_small (s+j)) in H by lia.
    replace (s + j') with ((s + j' - B) + 1 * B) in H by lia.
    rewrite Nat.mod_add, Nat.mod_small in H by lia. lia.
  - rewrite (Nat.mod_small (s+j')) in H by lia.
    replace (s + j) with ((s + j - B) + 1 * B) in H by lia.
    rewrite Nat.mod_add, Nat.mod_small in H by lia. lia.
  - replace (s + j) with ((s + j - B) + 1 * B) in H by lia.
    replace (s + j') with ((s + j' - B) + 1 * B) in H by lia.
    rewrite !Nat.mod_add, !Nat.mod_small in H by lia. lia.
Qed.

(** ** compute_bucket_size *)
Local Open Scope N_scope.

Lemma compute_bucket_size_bounds n :
  n < 2^31 ->
  n < compute_bucket_size n /\ compute_bucket_size n <= n + 327714.
Proof.
  intros H. unfold compute_bucket_size, bucket_sizes. cbn [find].
  repeat match goal with |- context [n <? ?c] => destruct (N.ltb_spec n c); [lia|] end.
  unfold u32. change (2^31) with 2147483648 in H.
  rewrite N.mod_small by lia. lia.
Qed.

Section Counts.
  Context {E : Type}.
  Notation bucket := (bucket E).
  Notation table := (table E).

  (** *** Contents of a bucket array *)
  Definition slot_ents (s : slot E) : list E := match s with Full e => [e] | _ => [] end.
  Definition ents (bs : list bucket) : list E := flat_map (fun b => slot_ents (bslot b)) bs.
  Definition is_tomb (b : bucket) : bool := match bslot b with Tomb => true | _ => false end.
  Definition is_empty (b : bucket) : bool := match bslot b with Empty => true | _ => false end.
  Definition tombs (bs : list bucket) : nat := length (filter is_tomb bs).
  Definition empties (bs : list bucket) : nat := length (filter is_empty bs).

  Lemma ents_app b1 b2 : ents (b1 ++ b2) = (ents b1 ++ ents b2)%list.
  Proof. unfold ents. apply flat_map_app. Qed.
  Lemma tombs_app b1 b2 : tombs (b1 ++ b2) = (tombs b1 + tombs b2)%nat.
  Proof. unfold tombs. rewrite filter_app, app_length. reflexivity. Qed.
  Lemma empties_app b1 b2 : empties (b1 ++ b2) = (empties b1 + empties b2)%nat.
  Proof. unfold empties. rewrite filter_app, app_length. reflexivity. Qed.

  Lemma ents_cons b bs : ents (b :: bs) = (slot_ents (bslot b) ++ ents bs)%list.
  Proof. reflexivity. Qed.
  Lemma tombs_cons b bs : tombs (b :: bs) = ((if is_tomb b then 1 else 0) + tombs bs)%nat.
  Proof. unfold tombs. cbn. destruct (is_tomb b); reflexivity. Qed.
  Lemma empties_cons b bs : empties (b :: bs) = ((if is_empty b then 1 else 0) + empties bs)%nat.
  Proof. unfold empties. cbn. destruct (is_empty b); reflexivity. Qed.

  Lemma count_total bs : (length (ents bs) + tombs bs + empties bs = length bs)%nat.
  Proof.
    induction bs as [|b bs IH]; [reflexivity|].
    rewrite ents_cons, tombs_cons, empties_cons, app_length. cbn [length].
    unfold is_tomb, is_empty, slot_ents. destruct (bslot b); cbn; lia.
  Qed.

  Lemma in_ents bs e :
    In e (ents bs) <-> exists i b, nth_error bs i = Some b /\ bslot b = Full e.
  Proof.
    unfold ents. rewrite in_flat_map. split.
    - intros (b & Hb & He). apply In_nth_error in Hb as (i & Hi). exists i, b. split; auto.
      unfold slot_ents in He. destruct (bslot b); cbn in He; try tauto. destruct He as [->|[]]; reflexivity.
    - intros (i & b & Hi & Hb). exists b. split; [eapply nth_error_In; eauto|]. rewrite Hb. cbn; auto.
  Qed.

  Lemma empties_ex bs : (0 < empties bs)%nat ->
    exists i b, nth_error bs i = Some b /\ bslot b = Empty.
  Proof.
    unfold empties. intros H. destruct (filter is_empty bs) as [|b l] eqn:F; [cbn in H; lia|].
    assert (Hin : In b (filter is_empty bs)) by (rewrite F; cbn; auto).
    apply filter_In in Hin as [Hin Hb]. apply In_nth_error in Hin as (i & Hi).
    exists i, b. split; auto. unfold is_empty in Hb. destruct (bslot b); congruence.
  Qed.

  Lemma ents_repeat n : ents (repeat empty_bucket n) = [].
  Proof. induction n; cbn; auto. Qed.
  Lemma tombs_repeat n : tombs (repeat empty_bucket n) = 0%nat.
  Proof. induction n; cbn; auto. Qed.

  Definition nonempty_at (bs : list bucket) (i : nat) : Prop :=
    exists b, nth_error bs i = Some b /\ bslot b <> Empty.
  Lemma empties_repeat n : empties (repeat empty_bucket n) = n.
  Proof.
    pose proof (count_total (repeat empty_bucket n)). rewrite ents_repeat, tombs_repeat, repeat_length in H.
    cbn in H. auto.
  Qed.

  (** *** Count invariant *)
  Record cinv_bs (bs : list bucket) (t : table) : Prop := {
    c_nB : nB t = N.of_nat (length bs);
    c_nE : nE t = N.of_nat (length (ents bs));
    c_nT : nT t = N.of_nat (tombs bs);
    c_big : nB t < 2^29;
    c_pos : (0 < length bs)%nat }.

  (** [CInv t]: the counters are exact and at least one bucket has never been used. *)
  Definition CInv (t : table) : Prop :=
    match tbl t with
    | None => nB t = 0 /\ nE t = 0 /\ nT t = 0
    | Some bs => cinv_bs bs t /\ (0 < empties bs)%nat
    end.

  Definition tents (t : table) : list E := match tbl t with None => [] | Some bs => ents bs end.

  Lemma CInv_card t : CInv t -> nE t = N.of_nat (length (tents t)).
  Proof. unfold CInv, tents. destruct (tbl t); [intros [[] _]; auto|]. intros (_ & -> & _). reflexivity. Qed.

  (** *** Changing one bucket *)
  Lemma ents_upd (bs : list bucket) i b x : nth_error bs i = Some b ->
    Permutation (slot_ents (bslot b) ++ ents (upd bs i x)) (slot_ents (bslot x) ++ ents bs).
  Proof.
    intros H. destruct (upd_split bs i x b H) as (l1 & l2 & -> & -> & _).
    rewrite !ents_app, !ents_cons.
    rewrite !app_assoc.
    apply Permutation_trans with (slot_ents (bslot b) ++ slot_ents (bslot x) ++ ents l1 ++ ents l2)%list.
    - rewrite <- !app_assoc. apply Permutation_app_head.
      rewrite !app_assoc. apply Permutation_app_tail. apply Permutation_app_comm.
    - rewrite !app_assoc. apply Permutation_app_tail.
      rewrite <- !app_assoc.
      eapply Permutation_trans; [apply Permutation_app_comm|].
      rewrite <- !app_assoc. apply Permutation_app_head, Permutation_refl.
  Qed.

  Lemma tombs_upd (bs : list bucket) i b x : nth_error bs i = Some b ->
    ((if is_tomb b then 1 else 0) + tombs (upd bs i x) = (if is_tomb x then 1 else 0) + tombs bs)%nat.
  Proof.
    intros H. destruct (upd_split bs i x b H) as (l1 & l2 & -> & -> & _).
    rewrite !tombs_app, !tombs_cons. lia.
  Qed.

  Lemma empties_upd (bs : list bucket) i b x : nth_error bs i = Some b ->
    ((if is_empty b then 1 else 0) + empties (upd bs i x) = (if is_empty x then 1 else 0) + empties bs)%nat.
  Proof.
    intros H. destruct (upd_split bs i x b H) as (l1 & l2 & -> & -> & _).
    rewrite !empties_app, !empties_cons. lia.
  Qed.

  Lemma set_hash_upd (bs : list bucket) i b h : nth_error bs i = Some b -> set_hash bs i h = upd bs i (mkB h (bslot b)).
  Proof. intros H. unfold set_hash. rewrite H. reflexivity. Qed.
  Lemma set_slot_upd (bs : list bucket) i b s : nth_error bs i = Some b -> set_slot bs i s = upd bs i (mkB (bhash b) s).
  Proof. intros H. unfold set_slot. rewrite H. reflexivity. Qed.

  (** Load bounds re-established by mayRehash. *)
  Definition load_ok (t : table) : Prop := 4 * nE t <= 3 * nB t /\ nB t <= 8 * (nB t - (nE t + nT t)).

  Definition started (t : table) : table := if isInit t then t else init 16.

  Lemma started_ents t : tents (started t) = tents t.
  Proof.
    unfold started, isInit, tents. destruct (tbl t) eqn:Hb; [rewrite Hb; auto|].
    unfold init. cbn [tbl]. apply ents_repeat.
  Qed.
  Lemma started_nE t : CInv t -> nE (started t) = nE t.
  Proof. unfold started, isInit, CInv. destruct (tbl t) eqn:Hb; auto. intros (_ & -> & _). reflexivity. Qed.

  (** An empty bucket stops every full round. *)
  Lemma full_round_contra bs s :
    (s < length bs)%nat -> (0 < empties bs)%nat ->
    (forall j, (0 <= j < 0 + length bs)%nat -> nonempty_at bs (pos (length bs) s j)) -> False.
  Proof.
    intros Hs He H. destruct (empties_ex _ He) as (i & b & Hi & Hb).
    assert (Hil : (i < length bs)%nat) by (apply nth_error_Some; congruence).
    destruct (pos_cover (length bs) s i Hs Hil) as (j & Hj & Hp).
    destruct (H j) as (b' & Hb' & Hne); [lia|]. rewrite Hp in Hb'. congruence.
  Qed.

  (** State after the bucket is filled and before mayRehash: one bucket may be missing. *)
  Definition pre_rehash (bs : list bucket) (t : table) : Prop :=
    tbl t = Some bs /\ cinv_bs bs t /\ nE t <= 2^28.

End Counts.

Section Proofs.
  Context {K E : Type}.
  Variable ekey : E -> K.
  Variable keqb : K -> K -> bool.
  Variable hash : K -> N.
  Hypothesis keqb_ok : forall a b, reflect (a = b) (keqb a b).

  Notation bucket := (bucket E).
  Notation table := (table E).
  Local Notation lookup_loop := (lookup_loop ekey keqb).
  Local Notation find_loop := (find_loop ekey keqb).

  (** *** The probe loops *)
  Definition miss_at (k : K) (h : N) (bs : list bucket) (i : nat) : Prop :=
    exists b, nth_error bs i = Some b /\ bslot b <> Empty /\
              (forall e, bslot b = Full e -> ~ (bhash b = h /\ ekey e = k)).

  Lemma miss_nonempty k h bs i : miss_at k h bs i -> nonempty_at bs i.
  Proof. intros (b & ? & ? & _). exists b; auto. Qed.

  Lemma range_step (P : nat -> Prop) (j f : nat) :
    P j -> (forall j', (S j <= j' < S j + f)%nat -> P j') ->
    (forall j', (j <= j' < j + S f)%nat -> P j').
  Proof. intros H0 H j' Hj'. destruct (Nat.eq_dec j' j); [subst; auto|apply H; lia]. Qed.

  Lemma find_loop_spec bs k h s f : (0 < length bs)%nat -> forall j,
    let B := length bs in
    (exists j', (j <= j' < j + f)%nat /\
       (forall j'', (j <= j'' < j')%nat -> miss_at k h bs (pos B s j'')) /\
       ((exists b e, nth_error bs (pos B s j') = Some b /\ bslot b = Full e /\ bhash b = h /\ ekey e = k
          /\ find_loop f bs k h (pos B s j) = Ret (Some (pos B s j')))
        \/ (exists b, nth_error bs (pos B s j') = Some b /\ bslot b = Empty
          /\ find_loop f bs k h (pos B s j) = Ret None)))
    \/ ((forall j', (j <= j' < j + f)%nat -> miss_at k h bs (pos B s j'))
        /\ find_loop f bs k h (pos B s j) = Diverge).
  Proof.
    intros HB. induction f as [|f IH]; intros j B.
    { right. split; [intros; lia|reflexivity]. }
    cbn [HashModel.find_loop].
    destruct (nth_error_ex bs (pos B s j)) as (b & Hb); [apply pos_lt; auto|].
    rewrite Hb.
    assert (Hstep : miss_at k h bs (pos B s j) ->
      find_loop (S f) bs k h (pos B s j) = find_loop f bs k h (pos B s (S j)) ->
      (exists j', (j <= j' < j + S f)%nat /\
         (forall j'', (j <= j'' < j')%nat -> miss_at k h bs (pos B s j'')) /\
         ((exists b e, nth_error bs (pos B s j') = Some b /\ bslot b = Full e /\ bhash b = h /\ ekey e = k
            /\ find_loop (S f) bs k h (pos B s j) = Ret (Some (pos B s j')))
          \/ (exists b, nth_error bs (pos B s j') = Some b /\ bslot b = Empty
            /\ find_loop (S f) bs k h (pos B s j) = Ret None)))
      \/ ((forall j', (j <= j' < j + S f)%nat -> miss_at k h bs (pos B s j'))
          /\ find_loop (S f) bs k h (pos B s j) = Diverge)).
    { intros Hm ->. destruct (IH (S j)) as [(j' & Hj' & Hmiss & HH)|[Hmiss HH]].
      - left. exists j'. split; [lia|]. split; [|exact HH].
        intros j'' Hj''. destruct (Nat.eq_dec j'' j); [subst; auto|apply Hmiss; lia].
      - right. split; [|exact HH]. apply range_step; auto. }
    cbn [HashModel.find_loop] in Hstep. rewrite Hb in Hstep.
    destruct (bslot b) as [| |e] eqn:Eb.
    - left. exists j. split; [lia|]. split; [intros; lia|]. right. exists b. auto.
    - apply Hstep; [|rewrite next_pos by auto; reflexivity].
      exists b. rewrite Eb. split; auto. split; [discriminate|]. intros; discriminate.
    - destruct (N.eqb_spec h (bhash b)) as [Eh|Eh]; destruct (keqb_ok (ekey e) k) as [Ek|Ek]; cbn [andb] in *.
      1: { left. exists j. split; [lia|]. split; [intros; lia|]. left. exists b, e. auto. }
      all: (apply Hstep; [|rewrite next_pos by auto; reflexivity];
        exists b; rewrite Eb; split; auto; split; [discriminate|];
        intros e0 He0; injection He0 as <-; intros [? ?]; congruence).
  Qed.

  Lemma lookup_loop_spec bs k h s f : (0 < length bs)%nat -> forall j ft,
    let B := length bs in
    (exists j', (j <= j' < j + f)%nat /\
       (forall j'', (j <= j'' < j')%nat -> miss_at k h bs (pos B s j'')) /\
       ((exists b e, nth_error bs (pos B s j') = Some b /\ bslot b = Full e /\ bhash b = h /\ ekey e = k
          /\ lookup_loop f bs k h (pos B s j) ft = Ret (bs, pos B s j'))
        \/ (exists b, nth_error bs (pos B s j') = Some b /\ bslot b = Empty
          /\ match ft with
             | Some t => lookup_loop f bs k h (pos B s j) ft = Ret (set_hash bs t h, t)
             | None => exists t b', (j <= t <= j')%nat /\ nth_error bs (pos B s t) = Some b' /\
                        (bslot b' = Tomb \/ bslot b' = Empty) /\
                        lookup_loop f bs k h (pos B s j) ft = Ret (set_hash bs (pos B s t) h, pos B s t)
             end)))
    \/ ((forall j', (j <= j' < j + f)%nat -> miss_at k h bs (pos B s j'))
        /\ lookup_loop f bs k h (pos B s j) ft = Diverge).
  Proof.
    intros HB. induction f as [|f IH]; intros j ft B.
    { right. split; [intros; lia|reflexivity]. }
    cbn [HashModel.lookup_loop].
    destruct (nth_error_ex bs (pos B s j)) as (b & Hb); [apply pos_lt; auto|].
    rewrite Hb. change (length bs) with B. rewrite next_pos by auto.
    destruct (bslot b) as [| |e] eqn:Eb.
    - left. exists j. split; [lia|]. split; [intros; lia|]. right. exists b.
      split; auto. split; auto. destruct ft as [t|]; auto.
      exists j, b. split; [lia|]. auto.
    - assert (Hm : miss_at k h bs (pos B s j)).
      { exists b. rewrite Eb. split; auto. split; [discriminate|]. intros; discriminate. }
      destruct ft as [t|].
      + destruct (IH (S j) (Some t)) as [(j' & Hj' & Hmiss & HH)|[Hmiss HH]].
        * left. exists j'. split; [lia|]. split; [|exact HH].
          intros j'' Hj''. destruct (Nat.eq_dec j'' j); [subst; auto|apply Hmiss; lia].
        * right. split; [|exact HH]. apply range_step; auto.
      + destruct (IH (S j) (Some (pos B s j))) as [(j' & Hj' & Hmiss & HH)|[Hmiss HH]].
        * left. exists j'. split; [lia|].
          split; [intros j'' Hj''; destruct (Nat.eq_dec j'' j); [subst; auto|apply Hmiss; lia]|].
          destruct HH as [HH|(b' & Hb' & Eb' & HH)]; [left; exact HH|].
          right. exists b'. split; auto. split; auto. exists j, b. split; [lia|]. auto.
        * right. split; [|exact HH]. apply range_step; auto.
    - destruct (N.eqb_spec (bhash b) h) as [Eh|Eh]; destruct (keqb_ok (ekey e) k) as [Ek|Ek]; cbn [andb] in *.
      1: { left. exists j. split; [lia|]. split; [intros; lia|]. left. exists b, e. auto. }
      all: assert (Hm : miss_at k h bs (pos B s j)) by
        (exists b; rewrite Eb; split; auto; split; [discriminate|];
         intros e0 He0; injection He0 as <-; intros [? ?]; congruence).
      all: destruct (IH (S j) ft) as [(j' & Hj' & Hmiss & HH)|[Hmiss HH]];
        [ left; exists j'; split; [lia|];
          split; [intros j'' Hj''; destruct (Nat.eq_dec j'' j); [subst; auto|apply Hmiss; lia]|];
          destruct HH as [HH|(b' & Hb' & Eb' & HH)]; [left; exact HH|];
          right; exists b'; split; auto; split; auto;
          destruct ft as [t|]; [exact HH|];
          destruct HH as (t & b'' & Ht & HH); exists t, b''; split; [lia|exact HH]
        | right; split; [|exact HH]; apply range_step; auto ].
  Qed.

  Lemma place_loop_spec (bs : list bucket) h (e : E) s f : (0 < length bs)%nat -> forall j,
    let B := length bs in
    (exists j' b, (j <= j' < j + f)%nat /\
       (forall j'', (j <= j'' < j')%nat -> nonempty_at bs (pos B s j'')) /\
       nth_error bs (pos B s j') = Some b /\ bslot b = Empty /\
       place_loop f bs h e (pos B s j) = Ret (upd bs (pos B s j') (mkB h (Full e))))
    \/ ((forall j', (j <= j' < j + f)%nat -> nonempty_at bs (pos B s j'))
        /\ place_loop f bs h e (pos B s j) = Diverge).
  Proof.
    intros HB. induction f as [|f IH]; intros j B.
    { right. split; [intros; lia|reflexivity]. }
    cbn [place_loop].
    destruct (nth_error_ex bs (pos B s j)) as (b & Hb); [apply pos_lt; auto|].
    rewrite Hb. change (length bs) with B. rewrite next_pos by auto.
    assert (Hstep : bslot b <> Empty ->
      (exists j' b, (j <= j' < j + S f)%nat /\
       (forall j'', (j <= j'' < j')%nat -> nonempty_at bs (pos B s j'')) /\
       nth_error bs (pos B s j') = Some b /\ bslot b = Empty /\
       place_loop f bs h e (pos B s (S j)) = Ret (upd bs (pos B s j') (mkB h (Full e))))
      \/ ((forall j', (j <= j' < j + S f)%nat -> nonempty_at bs (pos B s j'))
        /\ place_loop f bs h e (pos B s (S j)) = Diverge)).
    { intros Hne. assert (nonempty_at bs (pos B s j)) by (exists b; auto).
      destruct (IH (S j)) as [(j' & b' & Hj' & Hmiss & HH)|[Hmiss HH]].
      - left. exists j', b'. split; [lia|]. split; [|exact HH].
        intros j'' Hj''. destruct (Nat.eq_dec j'' j); [subst; auto|apply Hmiss; lia].
      - right. split; [|exact HH]. apply range_step; auto. }
    destruct (bslot b) as [| |e0] eqn:Eb.
    - left. exists j, b. split; [lia|]. split; [intros; lia|]. auto.
    - apply Hstep. discriminate.
    - apply Hstep. discriminate.
  Qed.

  (** *** Path invariant *)
  Definition reach (bs : list bucket) (i : nat) (h : N) : Prop :=
    exists j, (j < length bs)%nat /\
      i = pos (length bs) (N.to_nat (h mod N.of_nat (length bs))) j /\
      forall j', (j' < j)%nat ->
        nonempty_at bs (pos (length bs) (N.to_nat (h mod N.of_nat (length bs))) j').

  Definition pinv (bs : list bucket) : Prop :=
    (forall i b e, nth_error bs i = Some b -> bslot b = Full e ->
       bhash b = u32 (hash (ekey e)) /\ reach bs i (bhash b)).

  Definition HInv (t : table) : Prop :=
    CInv t /\
    match tbl t with
    | None => True
    | Some bs => pinv bs /\ NoDup (map ekey (ents bs))
    end.

  Lemma home_lt (h : N) (bs : list bucket) :
    (0 < length bs)%nat -> (N.to_nat (h mod N.of_nat (length bs)) < length bs)%nat.
  Proof. intros. pose proof (N.mod_lt h (N.of_nat (length bs))). lia. Qed.

  Lemma reach_mono (bs : list bucket) i x j h : bslot x <> Empty -> reach bs j h -> reach (upd bs i x) j h.
  Proof.
    intros Hx (o & Ho & Hj & Hp). unfold reach. rewrite upd_length. exists o. split; auto. split; auto.
    intros j' Hj'. destruct (Hp j' Hj') as (b & Hb & Hne).
    destruct (Nat.eq_dec i (pos (length bs) (N.to_nat (h mod N.of_nat (length bs))) j')) as [->|Hd].
    - exists x. split; auto. eapply nth_error_upd_eq; eauto.
    - exists b. rewrite nth_error_upd_ne by auto. auto.
  Qed.

  Lemma pinv_upd_full (bs : list bucket) i b h e :
    pinv bs -> nth_error bs i = Some b ->
    h = u32 (hash (ekey e)) -> reach bs i h ->
    pinv (upd bs i (mkB h (Full e))).
  Proof.
    intros HP Hb Hh HR j b' e' Hj He'.
    rewrite nth_error_upd in Hj. destruct (Nat.eqb_spec i j) as [->|Hd].
    - destruct (Nat.ltb j (length bs)) eqn:L; [|discriminate]. injection Hj as <-. cbn in He'. injection He' as <-.
      cbn. split; auto. apply reach_mono; [discriminate|auto].
    - destruct (HP _ _ _ Hj He') as [H1 H2]. split; auto. apply reach_mono; [discriminate|auto].
  Qed.

  Lemma pinv_upd_tomb (bs : list bucket) i h :
    pinv bs -> pinv (upd bs i (mkB h Tomb)).
  Proof.
    intros HP j b' e' Hj He'.
    rewrite nth_error_upd in Hj. destruct (Nat.eqb_spec i j) as [->|Hd].
    - destruct (Nat.ltb j (length bs)) eqn:L; [|discriminate]. injection Hj as <-. discriminate He'.
    - destruct (HP _ _ _ Hj He') as [H1 H2]. split; auto. apply reach_mono; [discriminate|auto].
  Qed.

  (** *** Placing and rehashing *)
  Lemma place_ok (bs : list bucket) h e :
    (0 < length bs)%nat -> (0 < empties bs)%nat ->
    exists bs', place bs (N.of_nat (length bs)) h e = Ret bs' /\
      length bs' = length bs /\ Permutation (e :: ents bs) (ents bs') /\ tombs bs' = tombs bs /\
      (empties bs = S (empties bs'))%nat /\
      (pinv bs -> h = u32 (hash (ekey e)) -> pinv bs').
  Proof.
    intros HB He. unfold place.
    destruct (N.eqb_spec (N.of_nat (length bs)) 0) as [?|_]; [lia|].
    set (s := N.to_nat (h mod N.of_nat (length bs))).
    assert (Hs : (s < length bs)%nat) by (apply home_lt; auto).
    pose proof (place_loop_spec bs h e s (length bs) HB 0) as HPL. cbn zeta in HPL. rewrite (pos_0 (length bs) s Hs) in HPL.
    destruct (HPL) as [(j & b & Hj & Hpath & Hb & Hemp & ->)|[Hall _]];
      [|exfalso; eapply full_round_contra; eauto].
    eexists. split; [reflexivity|]. rewrite upd_length. split; auto.
    pose proof (ents_upd _ _ _ (mkB h (Full e)) Hb) as P1.
    pose proof (tombs_upd _ _ _ (mkB h (Full e)) Hb) as P2.
    pose proof (empties_upd _ _ _ (mkB h (Full e)) Hb) as P3.
    unfold is_tomb, is_empty in P2, P3. rewrite Hemp in P1, P2, P3. cbn in P1, P2, P3.
    split; [symmetry; exact P1|]. split; [lia|]. split; [lia|].
    intros HP Hh. eapply pinv_upd_full; eauto.
    exists j. split; [lia|]. split; auto. intros j' Hj'. apply Hpath. lia.
  Qed.

  Lemma rehash_loop_ok old : forall new,
    (0 < length new)%nat -> (length (ents old) < empties new)%nat ->
    exists bs', rehash_loop old new (N.of_nat (length new)) = Ret bs' /\
      length bs' = length new /\ Permutation (ents old ++ ents new) (ents bs') /\ tombs bs' = tombs new /\
      (empties new = length (ents old) + empties bs')%nat /\
      (pinv new -> (forall b e, In b old -> bslot b = Full e -> bhash b = u32 (hash (ekey e))) -> pinv bs').
  Proof.
    induction old as [|b old IH]; intros new Hn He.
    { exists new. cbn. split; [reflexivity|]. split; [reflexivity|]. split; [reflexivity|]. split; [reflexivity|]. split; [reflexivity|]. auto. }
    rewrite ents_cons in *. rewrite app_length in *.
    cbn [rehash_loop].
    assert (Hskip : slot_ents (bslot b) = [] ->
       exists bs', rehash_loop old new (N.of_nat (length new)) = Ret bs' /\
      length bs' = length new /\ Permutation ((slot_ents (bslot b) ++ ents old) ++ ents new) (ents bs') /\ tombs bs' = tombs new /\
      (empties new = length (slot_ents (bslot b)) + length (ents old) + empties bs')%nat /\
      (pinv new -> (forall b' e, In b' (b :: old) -> bslot b' = Full e -> bhash b' = u32 (hash (ekey e))) -> pinv bs')).
    { intros Hs. rewrite Hs in *. cbn in He. destruct (IH new Hn He) as (bs' & -> & ? & ? & ? & ? & Hp).
      exists bs'. splits; auto. intros HP HH. apply Hp; auto. intros. apply HH; cbn; auto. }
    destruct (bslot b) as [| |e] eqn:Eb; [apply Hskip; reflexivity..|].
    cbn [slot_ents length app] in *.
    destruct (place_ok new (bhash b) e Hn) as (new' & -> & Hl & HP & Ht & Hem & Hpi); [lia|].
    cbn [bind].
    rewrite <- Hl.
    destruct (IH new') as (bs' & -> & Hl' & HP' & Ht' & He' & Hpi'); [lia|lia|].
    exists bs'. split; auto. split; auto. split.
    { rewrite <- HP'. rewrite <- HP. cbn. apply Permutation_middle. }
    split; [congruence|]. split; [lia|].
    intros Hp HH. apply Hpi'.
    - apply Hpi; auto. apply HH; cbn; auto.
    - intros. apply HH; cbn; auto.
  Qed.

  Lemma pinv_repeat n : pinv (repeat empty_bucket n).
  Proof.
    intros i b e Hi He. apply nth_error_In in Hi. apply repeat_spec in Hi. subst. discriminate.
  Qed.

  Lemma do_rehash_ok t n :
    nE t = N.of_nat (length (tents t)) -> nE t < n -> n < 2^29 ->
    exists t', do_rehash t n = Ret t' /\ CInv t' /\ Permutation (tents t) (tents t') /\
      nB t' = n /\ nE t' = nE t /\ nT t' = 0 /\ isInit t' = true /\
      (forall bs, tbl t = Some bs -> pinv bs -> NoDup (map ekey (ents bs)) -> HInv t') /\
      (tbl t = None -> HInv t').
  Proof.
    intros HE Hn Hbig. unfold do_rehash.
    set (old := match tbl t with Some bs => bs | None => [] end).
    assert (Hold : ents old = tents t) by (unfold old, tents; destruct (tbl t); reflexivity).
    destruct (rehash_loop_ok old (repeat empty_bucket (N.to_nat n))) as (bs' & Hr & Hl & HP & Ht & He & Hpi).
    { rewrite repeat_length. lia. }
    { rewrite empties_repeat, Hold. lia. }
    rewrite repeat_length, N2Nat.id in Hr.
    rewrite repeat_length in Hl. rewrite ents_repeat, app_nil_r in HP. rewrite tombs_repeat in Ht.
    rewrite empties_repeat in He.
    rewrite Hr. cbn [bind]. eexists. split; [reflexivity|].
    assert (HC : CInv (mkT (Some bs') n (nE t) 0)).
    { unfold CInv. cbn. split; [constructor; cbn; try lia|].
      - rewrite HE. rewrite <- (Permutation_length HP), Hold. reflexivity.
      - rewrite Hold in He. lia. }
    split; [exact HC|]. split; [unfold tents; cbn; rewrite <- HP, Hold; reflexivity|].
    split; [reflexivity|]. split; [reflexivity|]. split; [reflexivity|]. split; [reflexivity|].
    split.
    - intros bs Hbs HPi HN. split; [exact HC|]. cbn. split.
      + apply Hpi; [apply pinv_repeat|]. unfold old. rewrite Hbs. intros b e Hb Hf.
        apply In_nth_error in Hb as (i & Hi). destruct (HPi _ _ _ Hi Hf). auto.
      + eapply Permutation_NoDup; [apply Permutation_map; exact HP|].
        rewrite Hold. unfold tents. rewrite Hbs. exact HN.
    - intros Hnone. split; [exact HC|]. cbn. split.
      + apply Hpi; [apply pinv_repeat|]. unfold old. rewrite Hnone. intros ? ? [].
      + eapply Permutation_NoDup; [apply Permutation_map; exact HP|].
        rewrite Hold. unfold tents. rewrite Hnone. constructor.
  Qed.

  Lemma may_rehash_ok t bs :
    pre_rehash bs t ->
    exists t', may_rehash t = Ret t' /\ CInv t' /\ Permutation (tents t) (tents t') /\
      nE t' = nE t /\ nB t <= nB t' /\ isInit t' = true /\
      (pinv bs -> NoDup (map ekey (ents bs)) -> HInv t').
  Proof.
    intros (Hbs & [HB HE HT Hbig Hpos] & Hsmall).
    change (2^29) with 536870912 in *. change (2^28) with 268435456 in *.
    pose proof (count_total bs) as Hct.
    assert (Hte : nE t = N.of_nat (length (tents t))) by (unfold tents; rewrite Hbs; auto).
    unfold may_rehash.
    assert (E3 : u32 (nB t * 3) = nB t * 3) by (unfold u32; rewrite N.mod_small; lia).
    assert (E4 : u32 (nE t * 4) = nE t * 4) by (unfold u32; rewrite N.mod_small; lia).
    assert (Esub : sub32 (nB t) (nE t + nT t) = nB t - (nE t + nT t)).
    { unfold sub32, u32. rewrite (N.mod_small (nE t + nT t)) by lia.
      replace (nB t + 4294967296 - (nE t + nT t)) with (nB t - (nE t + nT t) + 1 * 4294967296) by lia.
      rewrite N.mod_add by lia. apply N.mod_small. lia. }
    rewrite Esub, E3, E4.
    assert (E8 : u32 ((nB t - (nE t + nT t)) * 8) = (nB t - (nE t + nT t)) * 8).
    { unfold u32. rewrite N.mod_small; lia. }
    rewrite E8.
    destruct (N.ltb_spec (nB t * 3) (nE t * 4)) as [L1|L1].
    { pose proof (compute_bucket_size_bounds (nB t)) as HC. change (2^31) with 2147483648 in HC.
      destruct HC as [C1 C2]; [lia|].
      destruct (do_rehash_ok t (compute_bucket_size (nB t)) Hte) as (t' & -> & HCI & HP & HnB & HnE & HnT & Hin & Hh & _);
        [lia|lia|].
      exists t'. split; auto. split; auto. split; auto. split; auto. split; [lia|]. split; auto. intros ? ?; eapply Hh; eauto. }
    destruct (N.ltb_spec ((nB t - (nE t + nT t)) * 8) (nB t)) as [L2|L2].
    { destruct (do_rehash_ok t (nB t) Hte) as (t' & -> & HCI & HP & HnB & HnE & HnT & Hin & Hh & _); [lia|lia|].
      exists t'. split; auto. split; auto. split; auto. split; auto. split; [lia|]. split; auto. intros ? ?; eapply Hh; eauto. }
    exists t. split; auto.
    assert (CInv t).
    { unfold CInv. rewrite Hbs. split; [constructor; auto|]. lia. }
    split; auto. split; auto. split; auto. split; [lia|]. split; [unfold isInit; rewrite Hbs; auto|].
    intros. split; auto. rewrite Hbs. auto.
  Qed.

  Lemma init_ok (n : N) : n < 2^29 - 327714 -> HInv (init n) /\ load_ok (init (E := E) n) /\ tents (init (E := E) n) = [].
  Proof.
    intros Hn. change (2^29) with 536870912 in *. unfold init.
    set (b := if n =? 0 then 16 else compute_bucket_size n).
    assert (Hb : 0 < b < 536870912).
    { unfold b. destruct (N.eqb_spec n 0); [lia|].
      pose proof (compute_bucket_size_bounds n) as HC. change (2^31) with 2147483648 in HC. lia. }
    assert (HC : CInv (E := E) (mkT (Some (repeat empty_bucket (N.to_nat b))) b 0 0)).
    { unfold CInv. cbn. split; [constructor; cbn|].
      - rewrite repeat_length. lia.
      - rewrite ents_repeat. reflexivity.
      - rewrite tombs_repeat. reflexivity.
      - change (2^29) with 536870912. lia.
      - rewrite repeat_length. lia.
      - rewrite empties_repeat. lia. }
    split; [split; [exact HC|]|].
    - cbn. split; [apply pinv_repeat|]. rewrite ents_repeat. constructor.
    - split; [split; cbn [nB nE nT]; lia|]. unfold tents; cbn. apply ents_repeat.
  Qed.

  Lemma null_ok : HInv null_table /\ load_ok (null_table (E := E)) /\ tents (null_table (E := E)) = [].
  Proof. split; [|split; [split; cbn; lia|reflexivity]]. split; cbn; auto. Qed.

  Lemma new_table_ok n : n < 2^28 -> HInv (new_table n) /\ load_ok (new_table (E := E) n) /\ tents (new_table (E := E) n) = [].
  Proof.
    intros Hn. change (2^28) with 268435456 in *. unfold new_table, u32. rewrite N.mod_small by lia.
    destruct (N.eqb_spec n 0); [apply null_ok|]. apply init_ok. change (2^29) with 536870912. lia.
  Qed.

  (** *** find *)
  Lemma find_key_cases t k : CInv t ->
    (exists bs i b e, tbl t = Some bs /\ find_key ekey keqb hash t k = Ret (Some i) /\
       nth_error bs i = Some b /\ bslot b = Full e /\ ekey e = k)
    \/ (find_key ekey keqb hash t k = Ret None /\
        (HInv t -> ~ In k (map ekey (tents t)))).
  Proof.
    intros HC. unfold find_key. unfold CInv in HC.
    destruct (tbl t) as [bs|] eqn:Hbs.
    2: { right. split; auto. intros _. unfold tents. rewrite Hbs. cbn. auto. }
    destruct HC as [[HB HE HT Hbig Hpos] Hem].
    destruct (N.eqb_spec (nB t) 0) as [?|_]; [lia|].
    rewrite HB. set (h := u32 (hash k)). set (s := N.to_nat (h mod N.of_nat (length bs))).
    assert (Hs : (s < length bs)%nat) by (apply home_lt; auto).
    rewrite <- (pos_0 (length bs) s Hs).
    destruct (find_loop_spec bs k h s (length bs) Hpos 0) as [(j' & Hj' & Hmiss & HH)|[Hmiss _]].
    - destruct HH as [(b & e & Hb & Hf & Hh & Hk & Hr)|(b & Hb & Hemp & Hr)].
      + left. exists bs, (pos (length bs) s j'), b, e. auto.
      + right. split; auto. intros [_ HH]. rewrite Hbs in HH. destruct HH as [HP _].
        unfold tents. rewrite Hbs. intros Hin. apply in_map_iff in Hin as (e & Hk & Hin).
        apply in_ents in Hin as (i & b' & Hi & Hf).
        destruct (HP _ _ _ Hi Hf) as [Hh (j & Hj & Hij & Hpath)].
        rewrite Hh, Hk in Hij, Hpath. fold h in Hij, Hpath. fold s in Hij, Hpath.
        destruct (Nat.lt_trichotomy j j') as [L|[->|L]].
        * destruct (Hmiss j) as (b2 & Hb2 & _ & Hno); [lia|]. rewrite <- Hij, Hi in Hb2. injection Hb2 as <-.
          apply (Hno _ Hf). rewrite Hh, Hk. auto.
        * rewrite <- Hij, Hi in Hb. injection Hb as <-. congruence.
        * destruct (Hpath j' L) as (b2 & Hb2 & Hne). rewrite Hb in Hb2. congruence.
    - exfalso. eapply full_round_contra; eauto. intros j Hj. eapply miss_nonempty. apply Hmiss. exact Hj.
  Qed.

  Lemma NoDup_map_inj (l : list E) e e' :
    NoDup (map ekey l) -> In e l -> In e' l -> ekey e = ekey e' -> e = e'.
  Proof.
    induction l as [|x l IH]; cbn; [tauto|]. intros HN. inversion HN as [|? ? Hni HN']; subst.
    intros [->|H] [->|H'] Hk; auto.
    - exfalso. apply Hni. rewrite Hk. apply in_map. auto.
    - exfalso. apply Hni. rewrite <- Hk. apply in_map. auto.
  Qed.

  Lemma find_entry_ok t k : HInv t ->
    (exists e, In e (tents t) /\ ekey e = k /\ find_entry ekey keqb hash t k = Ret (Some e))
    \/ (~ In k (map ekey (tents t)) /\ find_entry ekey keqb hash t k = Ret None).
  Proof.
    intros HH. unfold find_entry. destruct (find_key_cases t k (proj1 HH)) as [(bs & i & b & e & Hbs & -> & Hb & Hf & Hk)|[-> Hno]].
    - left. exists e. cbn. rewrite Hbs, Hb, Hf. cbn. split; auto.
      unfold tents. rewrite Hbs. apply in_ents. eauto.
    - right. split; auto.
  Qed.

  (** *** lookupBucketFor *)
  Lemma started_C (t : table) : CInv t -> CInv (started t).
  Proof.
    intros HC. unfold started, isInit. destruct (tbl t) eqn:Hb; auto. apply init_ok.
    change (2^29) with 536870912. lia.
  Qed.
  Lemma started_H t : HInv t -> HInv (started t).
  Proof.
    intros HC. unfold started, isInit. destruct (tbl t) eqn:Hb; auto. apply init_ok.
    change (2^29) with 536870912. lia.
  Qed.
  Lemma lookup_cases t k : CInv t ->
    exists bs, tbl (started t) = Some bs /\
    ((exists i b e, lookup_bucket_for ekey keqb hash t k = Ret (started t, i) /\
        nth_error bs i = Some b /\ bslot b = Full e /\ ekey e = k)
     \/ (exists i b, nth_error bs i = Some b /\ (bslot b = Tomb \/ bslot b = Empty) /\
        lookup_bucket_for ekey keqb hash t k =
          Ret (mkT (Some (upd bs i (mkB (u32 (hash k)) (bslot b)))) (nB (started t)) (nE (started t)) (nT (started t)), i) /\
        reach bs i (u32 (hash k)) /\
        (HInv t -> ~ In k (map ekey (tents t))))).
  Proof.
    intros HC. unfold lookup_bucket_for.
    change (if isInit t then t else init 16) with (started t).
    pose proof (started_C t HC) as HC'.
    unfold CInv in HC'.
    assert (Hsome : exists bs, tbl (started t) = Some bs).
    { unfold started, isInit. destruct (tbl t) eqn:Hb; [rewrite Hb; eauto|]. cbn. eauto. }
    destruct Hsome as (bs & Hbs). rewrite Hbs in HC'. exists bs. split; [exact Hbs|].
    assert (Ht : started t = mkT (Some bs) (nB (started t)) (nE (started t)) (nT (started t))).
    { destruct (started t) as [x1 x2 x3 x4]. cbn in *. congruence. }
    rewrite Hbs.
    destruct HC' as [[HB HE HT Hbig Hpos] Hem].
    destruct (N.eqb_spec (nB (started t)) 0) as [?|_]; [lia|].
    rewrite HB. set (h := u32 (hash k)). set (s := N.to_nat (h mod N.of_nat (length bs))).
    assert (Hs : (s < length bs)%nat) by (apply home_lt; auto).
    rewrite <- (pos_0 (length bs) s Hs).
    destruct (lookup_loop_spec bs k h s (length bs) Hpos 0 None) as [(j' & Hj' & Hmiss & HH)|[Hmiss _]];
      [|exfalso; eapply full_round_contra; eauto; intros j Hj; eapply miss_nonempty; apply Hmiss; exact Hj].
    destruct HH as [(b & e & Hb & Hf & Hh & Hk & Hr)|(b & Hb & Hemp & (o & b' & Ho & Hb' & Hsl & Hr))].
    - left. exists (pos (length bs) s j'), b, e. rewrite Hr. cbn [bind].
      rewrite <- HB, <- Ht. auto.
    - right. exists (pos (length bs) s o), b'. split; auto. split; auto. rewrite Hr. cbn [bind].
      rewrite (set_hash_upd _ _ _ _ Hb'). split; auto. split.
      + exists o. split; [lia|]. split; auto. intros j2 Hj2. eapply miss_nonempty. apply Hmiss. lia.
      + intros HI. pose proof (started_H t HI) as [_ HI']. rewrite Hbs in HI'. destruct HI' as [HP _].
        rewrite <- started_ents. unfold tents. rewrite Hbs.
        intros Hin. apply in_map_iff in Hin as (e & Hk & Hin).
        apply in_ents in Hin as (i & b2 & Hi & Hf).
        destruct (HP _ _ _ Hi Hf) as [Hh (j & Hj & Hij & Hpath)].
        rewrite Hh, Hk in Hij, Hpath. fold h in Hij, Hpath. fold s in Hij, Hpath.
        destruct (Nat.lt_trichotomy j j') as [L|[->|L]].
        * destruct (Hmiss j) as (b3 & Hb3 & _ & Hno); [lia|]. rewrite <- Hij, Hi in Hb3. injection Hb3 as <-.
          apply (Hno _ Hf). rewrite Hh, Hk. auto.
        * rewrite <- Hij, Hi in Hb. injection Hb as <-. congruence.
        * destruct (Hpath j' L) as (b3 & Hb3 & Hne). rewrite Hb in Hb3. congruence.
  Qed.

  (** *** insert *)
  Lemma insert_ok t k mk touch : CInv t -> nE t < 2^28 ->
    exists t' ex e, insert ekey keqb hash t k mk touch = Ret (t', ex, e) /\ CInv t' /\
    nB (started t) <= nB t' /\ isInit t' = true /\
    ((ex = true /\ nE t' = nE t /\ exists l1 e0 l2, tents t = l1 ++ e0 :: l2 /\ ekey e0 = k /\ e = touch e0 /\
        tents t' = l1 ++ e :: l2 /\
        (HInv t -> ekey (touch e0) = ekey e0 -> HInv t'))
     \/ (ex = false /\ nE t' = nE t + 1 /\ e = mk /\ Permutation (mk :: tents t) (tents t') /\
        (HInv t -> ~ In k (map ekey (tents t)) /\ (ekey mk = k -> HInv t')))).
  Proof.
    intros HC Hsm. change (2^28) with 268435456 in *.
    destruct (lookup_cases t k HC) as (bs & Hbs & HL). unfold insert.
    pose proof (started_C t HC) as HCs. pose proof (started_nE t HC) as HnEs.
    pose proof HCs as HCs'. unfold CInv in HCs'. rewrite Hbs in HCs'.
    destruct HCs' as [[HB HE HT Hbig Hpos] Hem].
    change (2^29) with 536870912 in Hbig.
    destruct HL as [(i & b & e & -> & Hb & Hf & Hk)|(i & b & Hb & Hsl & -> & Hre & Hno)].
    - cbn [bind]. rewrite Hbs, Hb, Hf.
      eexists _, true, (touch e). split; [reflexivity|].
      rewrite (set_slot_upd _ _ _ _ Hb).
      set (x := mkB (bhash b) (Full (touch e))).
      pose proof (tombs_upd _ _ _ x Hb) as P2. pose proof (empties_upd _ _ _ x Hb) as P3.
      unfold is_tomb, is_empty in P2, P3. cbn in P2, P3. rewrite Hf in P2, P3.
      destruct (upd_split bs i x b Hb) as (b1 & b2 & Hsplit & Hupd & Hlen).
      assert (He1 : ents bs = (ents b1 ++ e :: ents b2)%list).
      { rewrite Hsplit, ents_app, ents_cons, Hf. reflexivity. }
      assert (He2 : ents (upd bs i x) = (ents b1 ++ touch e :: ents b2)%list).
      { rewrite Hupd, ents_app, ents_cons. reflexivity. }
      assert (HC' : CInv (mkT (Some (upd bs i x)) (nB (started t)) (nE (started t)) (nT (started t)))).
      { unfold CInv. cbn. split; [constructor; cbn; try rewrite upd_length; auto; try lia|lia].
        rewrite HE, He1, He2, !app_length. cbn. reflexivity. }
      split; [exact HC'|]. split; [cbn; lia|]. split; [reflexivity|].
      left. split; auto. split; [exact HnEs|].
      exists (ents b1), e, (ents b2). rewrite <- started_ents. unfold tents at 1 2. rewrite Hbs. cbn [tbl].
      split; auto. split; auto. split; auto. split; auto.
      intros HI Hkk. split; [exact HC'|]. cbn.
      pose proof (started_H t HI) as [_ HI']. rewrite Hbs in HI'. destruct HI' as [HP HN].
      split.
      + destruct (HP _ _ _ Hb Hf) as [Hh Hr]. eapply pinv_upd_full; eauto. congruence.
      + rewrite He2. rewrite He1 in HN. rewrite map_app in *. cbn in *. rewrite Hkk. exact HN.
    - cbn [bind tbl]. rewrite (nth_error_upd_eq _ _ _ _ Hb). cbn [bslot].
      set (h := u32 (hash k)).
      set (x := mkB h (Full mk)).
      assert (Hset : set_slot (upd bs i (mkB h (bslot b))) i (Full mk) = upd bs i x).
      { erewrite set_slot_upd by (eapply nth_error_upd_eq; eauto). cbn [bhash]. rewrite upd_upd. reflexivity. }
      pose proof (ents_upd _ _ _ x Hb) as P1.
      pose proof (tombs_upd _ _ _ x Hb) as P2. pose proof (empties_upd _ _ _ x Hb) as P3.
      unfold is_tomb, is_empty in P2, P3. cbn in P1, P2, P3.
      pose proof (count_total bs) as Hct. 
      assert (Hcommon : forall t1, tbl t1 = Some (upd bs i x) -> nB t1 = nB (started t) ->
         nE t1 = nE (started t) + 1 -> nT t1 = N.of_nat (tombs (upd bs i x)) ->
         slot_ents (bslot b) = [] ->
         exists t' , may_rehash t1 = Ret t' /\ CInv t' /\ nB (started t) <= nB t' /\ isInit t' = true /\
           nE t' = nE t + 1 /\ Permutation (mk :: tents t) (tents t') /\
           (HInv t -> ~ In k (map ekey (tents t)) /\ (ekey mk = k -> HInv t'))).
      { intros t1 Hb1 HB1 HE1 HT1 Hsl0. rewrite Hsl0 in P1. cbn in P1.
        destruct (may_rehash_ok t1 (upd bs i x)) as (t' & -> & HC1 & HP1 & HnE1 & HnB1 & Hin1 & HI1).
        { split; auto. split.
          - constructor; auto; try rewrite upd_length; auto; try (change (2^29) with 536870912); try lia.
            rewrite HE1, HE. rewrite (Permutation_length P1). cbn. lia.
          - change (2^28) with 268435456. lia. }
        exists t'. split; auto. split; auto. split; [lia|]. split; auto. split; [lia|]. split.
        - rewrite <- HP1. unfold tents at 2. rewrite Hb1. rewrite P1.
          rewrite <- (started_ents t). unfold tents. rewrite Hbs. reflexivity.
        - intros HI. split; [apply Hno; auto|]. intros Hmk. 
          pose proof (started_H t HI) as [_ HI']. rewrite Hbs in HI'. destruct HI' as [HP HN].
          apply HI1.
          + eapply pinv_upd_full; eauto. unfold h. congruence.
          + eapply Permutation_NoDup; [apply Permutation_map; symmetry; exact P1|].
            cbn. constructor; auto. rewrite Hmk. specialize (Hno HI).
            rewrite <- started_ents in Hno. unfold tents in Hno. rewrite Hbs in Hno. exact Hno. }
      assert (Hfin : forall t1, tbl t1 = Some (upd bs i x) -> nB t1 = nB (started t) ->
         nE t1 = nE (started t) + 1 -> nT t1 = N.of_nat (tombs (upd bs i x)) ->
         slot_ents (bslot b) = [] ->
         exists t' ex e, (t0 <- may_rehash t1 ;; Ret (t0, false, mk)) = Ret (t', ex, e) /\ CInv t' /\
           nB (started t) <= nB t' /\ isInit t' = true /\
           ((ex = true /\ nE t' = nE t /\ exists l1 e0 l2, tents t = l1 ++ e0 :: l2 /\ ekey e0 = k /\ e = touch e0 /\
               tents t' = l1 ++ e :: l2 /\ (HInv t -> ekey (touch e0) = ekey e0 -> HInv t'))
            \/ (ex = false /\ nE t' = nE t + 1 /\ e = mk /\ Permutation (mk :: tents t) (tents t') /\
               (HInv t -> ~ In k (map ekey (tents t)) /\ (ekey mk = k -> HInv t'))))).
      { intros t1 A1 A2 A3 A4 A5. destruct (Hcommon t1 A1 A2 A3 A4 A5) as (t' & -> & ? & ? & ? & ? & ? & ?).
        exists t', false, mk. split; [reflexivity|]. split; auto. split; auto. split; auto.
        right. auto. }
      destruct Hsl as [Hsl|Hsl]; rewrite Hsl; rewrite Hsl in Hset; rewrite Hset; rewrite Hsl in P1, P2, P3; cbn in P1, P2, P3; cbn [nB nE nT];
        apply Hfin; cbn [tbl nB nE nT]; auto; try (rewrite Hsl; reflexivity).
      + unfold u32. rewrite N.mod_small; lia.
      + unfold sub32, u32. rewrite HT. rewrite (N.mod_small 1) by lia.
        replace (N.of_nat (tombs bs) + 4294967296 - 1) with (N.of_nat (tombs (upd bs i x)) + 1 * 4294967296) by lia.
        rewrite N.mod_add by lia. apply N.mod_small. lia.
      + unfold u32. rewrite N.mod_small; lia.
      + rewrite HT. lia.
  Qed.

  (** *** erase *)
  Lemma erase_ok t k : CInv t -> nE t <= 2^28 ->
    exists t' ex, erase ekey keqb hash t k = Ret (t', ex) /\ CInv t' /\ nB t <= nB t' /\
      ((ex = true /\ exists e, ekey e = k /\ Permutation (tents t) (e :: tents t') /\ nE t = nE t' + 1 /\ (HInv t -> HInv t'))
       \/ (ex = false /\ t' = t /\ (HInv t -> ~ In k (map ekey (tents t))))).
  Proof.
    intros HC Hsm. change (2^28) with 268435456 in *. unfold erase.
    destruct (find_key_cases t k HC) as [(bs & i & b & e & Hbs & -> & Hb & Hf & Hk)|[-> Hno]];
      [|exists t, false; cbn; splits; auto; try lia; right; auto].
    cbn [bind]. rewrite Hbs. rewrite (set_slot_upd _ _ _ _ Hb).
    pose proof HC as HC'. unfold CInv in HC'. rewrite Hbs in HC'.
    destruct HC' as [[HB HE HT Hbig Hpos] Hem]. change (2^29) with 536870912 in Hbig.
    set (x := mkB (bhash b) Tomb).
    pose proof (ents_upd _ _ _ x Hb) as P1.
    pose proof (tombs_upd _ _ _ x Hb) as P2. pose proof (empties_upd _ _ _ x Hb) as P3.
    unfold is_tomb, is_empty in P2, P3. rewrite Hf in P1, P2, P3. cbn in P1, P2, P3.
    pose proof (count_total bs) as Hct. pose proof (count_total (upd bs i x)) as Hct'. rewrite upd_length in Hct'.
    pose proof (Permutation_length P1) as PL. cbn in PL.
    set (t1 := mkT (Some (upd bs i x)) (nB t) (sub32 (nE t) 1) (u32 (nT t + 1))).
    assert (EE : sub32 (nE t) 1 = N.of_nat (length (ents (upd bs i x)))).
    { unfold sub32, u32. rewrite HE. rewrite (N.mod_small 1) by lia.
      replace (N.of_nat (length (ents bs)) + 4294967296 - 1)
        with (N.of_nat (length (ents (upd bs i x))) + 1 * 4294967296) by lia.
      rewrite N.mod_add by lia. apply N.mod_small. lia. }
    destruct (may_rehash_ok t1 (upd bs i x)) as (t' & -> & HC1 & HP1 & HnE1 & HnB1 & Hin1 & HI1).
    { split; [reflexivity|]. split.
      - constructor; unfold t1; cbn [nB nE nT]; try rewrite upd_length; auto; try (change (2^29) with 536870912); try lia.
        unfold u32. rewrite N.mod_small; lia.
      - unfold t1. cbn [nE]. change (2^28) with 268435456. lia. }
    exists t', true. cbn [bind]. split; auto. split; auto. split; [exact HnB1|]. left. split; auto.
    exists e. split; auto. split.
    { unfold tents at 1. rewrite Hbs. rewrite <- P1. constructor. rewrite <- HP1. reflexivity. }
    split. { rewrite HnE1. unfold t1. cbn [nE]. lia. }
    intros [_ HI]. rewrite Hbs in HI. destruct HI as [HP HN]. apply HI1.
    - apply pinv_upd_tomb; auto.
    - apply (Permutation_map ekey) in P1. apply Permutation_sym in P1.
      apply (Permutation_NoDup P1) in HN. cbn in HN. inversion HN; auto.
  Qed.
End Proofs.

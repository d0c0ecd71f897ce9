(** How many buckets a search looks at: lemmas behind HashProbeProps.v. *)
From Verif Require Import Base HashSpec HashModel HashProof HashProof2 HashProbeSpec HashProbeModel.
From Coq Require Import List NArith ZArith Lia Bool Permutation Arith.
From Coq Require Import ZifyBool ZifyNat ZifyN.
Import ListNotations.
Local Open Scope N_scope.

(** ** The counted functions are those of the model *)
Section Counted.
  Context {K V : Type}.
  Variable keqb : K -> K -> bool.
  Variable hash : K -> N.
  Variable dflt : V.
  Notation entry := (K * V)%type.
  Notation bucket := (bucket entry).
  Notation table := (table entry).

  Definition uncounted {A} (r : outcome (A * N)) : outcome A := omap fst r.

  Lemma uncounted_more {A} (r : outcome (A * N)) : uncounted (one_more r) = uncounted r.
  Proof. destruct r as [[? ?]| | | |]; reflexivity. Qed.

  Lemma lookup_loop_same f : forall (bs : list bucket) k h i ft, uncounted (lookup_loop_p keqb f bs k h i ft) = lookup_loop fst keqb f bs k h i ft.
  Proof.
    induction f as [|f IH]; intros bs k h i ft; cbn [lookup_loop_p lookup_loop]; [reflexivity|].
    destruct (nth_error bs i) as [b|]; [|reflexivity]. destruct (bslot b) as [| |e].
    - destruct ft; reflexivity.
    - rewrite uncounted_more. apply IH.
    - destruct (_ && _); [reflexivity|]. rewrite uncounted_more. apply IH.
  Qed.
  Lemma lookup_same (t : table) k : uncounted (lookup_bucket_for_p keqb hash t k) = lookup_bucket_for fst keqb hash t k.
  Proof.
    unfold lookup_bucket_for_p, lookup_bucket_for. cbv zeta. destruct (tbl _) as [bs|]; [|reflexivity]. destruct (_ =? 0); [reflexivity|].
    rewrite <- lookup_loop_same. destruct (lookup_loop_p _ _ _ _ _ _ _) as [[[? ?] ?]| | | |]; reflexivity.
  Qed.
  Lemma find_loop_same f : forall (bs : list bucket) k h i, uncounted (find_loop_p keqb f bs k h i) = find_loop fst keqb f bs k h i.
  Proof.
    induction f as [|f IH]; intros bs k h i; cbn [find_loop_p find_loop]; [reflexivity|].
    destruct (nth_error bs i) as [b|]; [|reflexivity]. destruct (bslot b) as [| |e].
    - reflexivity.
    - rewrite uncounted_more. apply IH.
    - destruct (_ && _); [reflexivity|]. rewrite uncounted_more. apply IH.
  Qed.
  Lemma find_key_same (t : table) k : uncounted (find_key_p keqb hash t k) = find_key fst keqb hash t k.
  Proof.
    unfold find_key_p, find_key. destruct (tbl t) as [bs|]; [|reflexivity]. cbv zeta. destruct (_ =? 0); [reflexivity|]. apply find_loop_same.
  Qed.
  Lemma insert_same (t : table) k mk touch : uncounted (insert_p keqb hash t k mk touch) = insert fst keqb hash t k mk touch.
  Proof.
    unfold insert_p, insert. rewrite <- lookup_same. destruct (lookup_bucket_for_p keqb hash t k) as [[[t1 i] c]| | | |]; cbn [uncounted omap bind fst]; try reflexivity.
    destruct (tbl t1) as [bs|]; [|reflexivity]. destruct (nth_error bs i) as [b|]; [|reflexivity].
    destruct (bslot b); try reflexivity; destruct (may_rehash _); reflexivity.
  Qed.
  Lemma erase_same (t : table) k : uncounted (erase_p keqb hash t k) = erase fst keqb hash t k.
  Proof.
    unfold erase_p, erase. rewrite <- find_key_same. destruct (find_key_p keqb hash t k) as [[[i|] c]| | | |]; cbn [uncounted omap bind fst]; try reflexivity.
    destruct (tbl t) as [bs|]; [|reflexivity]. destruct (may_rehash _); reflexivity.
  Qed.
  Lemma find_same (t : table) k : uncounted (find_entry_p keqb hash t k) = find_entry fst keqb hash t k.
  Proof.
    unfold find_entry_p, find_entry. rewrite <- find_key_same. destruct (find_key_p keqb hash t k) as [[[i|] c]| | | |]; cbn [uncounted omap bind fst]; try reflexivity.
    destruct (deref t (Some i)); reflexivity.
  Qed.
  Lemma step_same t o : uncounted (step_p keqb hash dflt t o) = step keqb hash dflt t o.
  Proof.
    destruct o; cbn [step_p step]; try reflexivity.
    - rewrite <- insert_same. destruct (insert_p _ _ _ _ _ _) as [[[[? ?] ?] ?]| | | |]; reflexivity.
    - rewrite <- insert_same. destruct (insert_p _ _ _ _ _ _) as [[[[? ?] ?] ?]| | | |]; reflexivity.
    - rewrite <- erase_same. destruct (erase_p _ _ _ _) as [[[? ?] ?]| | | |]; reflexivity.
    - rewrite <- find_same. destruct (find_entry_p _ _ _ _) as [[? ?]| | | |]; reflexivity.
    - destruct (rehash t); reflexivity.
    - destruct (rehash_to t n); reflexivity.
  Qed.
  Lemma run_same l : forall t, uncounted (run_p keqb hash dflt t l) = run keqb hash dflt t l.
  Proof.
    induction l as [|o l IH]; intros t; cbn [run_p run]; [reflexivity|]. rewrite <- step_same.
    destruct (step_p keqb hash dflt t o) as [[[t1 a] c]| | | |]; cbn [uncounted omap bind fst]; try reflexivity.
    rewrite <- IH. destruct (run_p keqb hash dflt t1 l) as [[[? ?] ?]| | | |]; reflexivity.
  Qed.
  Lemma uncounted_ret {A} (r : outcome (A * N)) a : uncounted r = Ret a -> exists c, r = Ret (a, c).
  Proof. destruct r as [[x c]| | | |]; cbn; try discriminate. intros [= ->]. eauto. Qed.
End Counted.

(** ** Where the search ends *)
Section Bounds.
  Context {K V : Type}.
  Variable keqb : K -> K -> bool.
  Variable hash : K -> N.
  Variable dflt : V.
  Hypothesis keqb_ok : forall a b, reflect (a = b) (keqb a b).
  Notation entry := (K * V)%type.
  Notation bucket := (bucket entry).
  Notation table := (table entry).

  (** the search for [k] from position [s] on stops at position [s] + [j] *)
  Definition stops (bs : list bucket) (k : K) (s j : nat) : Prop :=
    exists b, nth_error bs (pos (length bs) s j) = Some b /\ (bslot b = Empty \/ exists e, bslot b = Full e /\ fst e = k).

  Lemma more_ret {A} (r : outcome (A * N)) a c : one_more r = Ret (a, c) -> exists c', r = Ret (a, c') /\ c = c' + 1.
  Proof. destruct r as [[x c']| | | |]; cbn; try discriminate. intros [= -> <-]. eauto. Qed.

  Lemma lookup_count f (bs : list bucket) k h s : (0 < length bs)%nat -> forall j ft r c,
    lookup_loop_p keqb f bs k h (pos (length bs) s j) ft = Ret (r, c) ->
    exists n, (n < f)%nat /\ c = N.of_nat (S n) /\ stops bs k s (j + n).
  Proof.
    intros HB. induction f as [|f IH]; intros j ft r c H; cbn [lookup_loop_p] in H; [discriminate|].
    destruct (nth_error bs (pos (length bs) s j)) as [b|] eqn:Eb; [|discriminate].
    rewrite next_pos in H by assumption. destruct (bslot b) as [| |e] eqn:Es.
    - exists 0%nat. rewrite Nat.add_0_r. split; [lia|]. split; [destruct ft; now injection H as _ <-|]. exists b. auto.
    - apply more_ret in H as (c' & H & ->). apply IH in H as (n & Hn & -> & Hst). exists (S n). split; [lia|]. split; [lia|]. now rewrite Nat.add_succ_r.
    - destruct (N.eqb_spec (bhash b) h); destruct (keqb_ok (fst e) k); cbn [andb] in H.
      1: { exists 0%nat. rewrite Nat.add_0_r. split; [lia|]. split; [now injection H as _ <-|]. exists b. eauto. }
      all: apply more_ret in H as (c' & H & ->); apply IH in H as (n' & Hn & -> & Hst); exists (S n'); split; [lia|]; split; [lia|]; now rewrite Nat.add_succ_r.
  Qed.
  Lemma find_count f (bs : list bucket) k h s : (0 < length bs)%nat -> forall j r c,
    find_loop_p keqb f bs k h (pos (length bs) s j) = Ret (r, c) ->
    exists n, (n < f)%nat /\ c = N.of_nat (S n) /\ stops bs k s (j + n).
  Proof.
    intros HB. induction f as [|f IH]; intros j r c H; cbn [find_loop_p] in H; [discriminate|].
    destruct (nth_error bs (pos (length bs) s j)) as [b|] eqn:Eb; [|discriminate].
    rewrite next_pos in H by assumption. destruct (bslot b) as [| |e] eqn:Es.
    - exists 0%nat. rewrite Nat.add_0_r. split; [lia|]. split; [now injection H as _ <-|]. exists b. auto.
    - apply more_ret in H as (c' & H & ->). apply IH in H as (n & Hn & -> & Hst). exists (S n). split; [lia|]. split; [lia|]. now rewrite Nat.add_succ_r.
    - destruct (N.eqb_spec h (bhash b)); destruct (keqb_ok (fst e) k); cbn [andb] in H.
      1: { exists 0%nat. rewrite Nat.add_0_r. split; [lia|]. split; [now injection H as _ <-|]. exists b. eauto. }
      all: apply more_ret in H as (c' & H & ->); apply IH in H as (n' & Hn & -> & Hst); exists (S n'); split; [lia|]; split; [lia|]; now rewrite Nat.add_succ_r.
  Qed.

  (** ** Entries in the way *)

  Definition hashed (h : N) (e : entry) : bool := u32 (hash (fst e)) =? h.

  (** the places of the entries satisfying [P] *)
  Fixpoint places (P : entry -> bool) (bs : list bucket) (i : nat) : list nat :=
    match bs with
    | [] => []
    | b :: bs' => match bslot b with Full e => if P e then [i] else [] | _ => [] end ++ places P bs' (S i)
    end.
  Lemma places_length P bs : forall i, length (places P bs i) = length (filter P (ents bs)).
  Proof.
    induction bs as [|b bs IH]; intros i; cbn [places]; [reflexivity|]. rewrite app_length, IH. unfold ents. cbn [flat_map].
    destruct (bslot b) as [| |e]; cbn [slot_ents app filter length]; auto. destruct (P e); reflexivity.
  Qed.
  Lemma places_in P bs : forall i x, In x (places P bs i) -> exists n b e, x = (i + n)%nat /\ nth_error bs n = Some b /\ bslot b = Full e /\ P e = true.
  Proof.
    induction bs as [|b bs IH]; intros i x H; cbn [places] in H; [destruct H|]. apply in_app_or in H as [H|H].
    - exists 0%nat, b. destruct (bslot b) as [| |e] eqn:Es; try destruct H. destruct (P e) eqn:EP; [|destruct H]. destruct H as [<-|[]].
      exists e. rewrite Nat.add_0_r. auto.
    - apply IH in H as (n & b' & e & -> & H). exists (S n), b', e. split; [lia|exact H].
  Qed.
  Lemma places_NoDup P bs : forall i, NoDup (places P bs i).
  Proof.
    induction bs as [|b bs IH]; intros i; cbn [places]; [constructor|].
    assert (H : ~ In i (places P bs (S i))). { intros H. apply places_in in H as (n & _ & _ & E & _). lia. }
    destruct (bslot b) as [| |e]; cbn [app]; auto. destruct (P e); cbn [app]; auto. now constructor.
  Qed.

  Lemma in_the_way (bs : list bucket) h s j :
    pinv fst hash bs -> s = N.to_nat (h mod N.of_nat (length bs)) -> (j < length bs)%nat -> (s < length bs)%nat ->
    (exists b, nth_error bs (pos (length bs) s j) = Some b /\ bslot b = Empty) ->
    (length (filter (hashed h) (ents bs)) <= j)%nat.
  Proof.
    intros HP -> Hj Hs (b & Hb & He). set (s := N.to_nat (h mod N.of_nat (length bs))) in *.
    rewrite <- (places_length _ bs 0), <- (seq_length j 0), <- (map_length (pos (length bs) s) (seq 0 j)).
    apply NoDup_incl_length; [apply places_NoDup|]. intros x Hx. apply places_in in Hx as (n & b' & e & -> & Hn & Hf & Hh).
    unfold hashed in Hh. apply N.eqb_eq in Hh. cbn [Nat.add]. destruct (HP _ _ _ Hn Hf) as [Eh (j' & Hj' & Ej & Hpath)]. rewrite Eh, Hh in Ej, Hpath. fold s in Ej, Hpath.
    apply in_map_iff. exists j'. split; [auto|]. apply in_seq. split; [lia|]. cbn. destruct (Nat.lt_trichotomy j' j) as [L|[->|L]]; auto; exfalso.
    - rewrite <- Ej in Hb. rewrite Hn in Hb. injection Hb as <-. congruence.
    - destruct (Hpath j L) as (b2 & Hb2 & Hne). rewrite Hb in Hb2. injection Hb2 as <-. auto.
  Qed.

  (** what is known of a search that looked at [c] buckets of [t] *)
  Definition looked (t : table) (k : K) (c : N) : Prop :=
    1 <= c /\ c <= nB t /\
    (HInv fst hash t -> ~ In k (map fst (tents t)) -> N.of_nat (length (filter (hashed (u32 (hash k))) (tents t))) < c).

  Lemma stops_looked (t : table) bs k n : tbl t = Some bs -> cinv_bs bs t -> (n < length bs)%nat ->
    stops bs k (N.to_nat (u32 (hash k) mod nB t)) n -> looked t k (N.of_nat (S n)).
  Proof.
    intros Hb [HB HE HT Hbig Hpos] Hn (b & Hnb & Hst). split; [lia|]. split; [rewrite HB; lia|]. intros [_ HI] Hni. rewrite Hb in HI. destruct HI as [HP _].
    unfold tents in *. rewrite Hb in *. rewrite HB in Hnb.
    enough ((length (filter (hashed (u32 (hash k))) (ents bs)) <= n)%nat) by lia.
    eapply in_the_way; [exact HP|reflexivity|exact Hn|apply home_lt; auto|]. exists b. split; [exact Hnb|].
    destruct Hst as [|(e & He & Hk)]; auto. exfalso. apply Hni. apply in_map_iff. exists e. split; auto. apply in_ents. eauto.
  Qed.

  Lemma lookup_looked (t : table) k t1 i c : CInv t -> lookup_bucket_for_p keqb hash t k = Ret (t1, i, c) -> looked (started t) k c.
  Proof.
    intros HC H. unfold lookup_bucket_for_p in H. change (if isInit t then t else init 16) with (started t) in H. cbv zeta in H.
    assert (HC' : CInv (started t)) by (eapply started_C; eauto). unfold CInv in HC'. destruct (tbl (started t)) as [bs|] eqn:Hb; [|discriminate].
    destruct HC' as [HC' _]. pose proof HC' as [HB HE HT Hbig Hpos]. destruct (N.eqb_spec (nB (started t)) 0); [lia|].
    apply bind_ret in H as ([[bs' i'] c'] & H & [= <- <- <-]).
    rewrite <- (pos_0 (length bs) (N.to_nat (u32 (hash k) mod nB (started t)))) in H by (rewrite HB; apply home_lt; auto).
    apply lookup_count in H as (n' & Hn & -> & Hst); [|assumption]. cbn [Nat.add] in Hst. eapply stops_looked; eauto.
  Qed.
  Lemma find_looked (t : table) k r c : CInv t -> find_key_p keqb hash t k = Ret (r, c) -> (tbl t = None /\ c = 0) \/ looked t k c.
  Proof.
    intros HC H. unfold find_key_p in H. unfold CInv in HC. destruct (tbl t) as [bs|] eqn:Hb; [|injection H as <- <-; auto]. right. cbv zeta in H.
    destruct HC as [HC' _]. pose proof HC' as [HB HE HT Hbig Hpos]. destruct (N.eqb_spec (nB t) 0); [lia|].
    rewrite <- (pos_0 (length bs) (N.to_nat (u32 (hash k) mod nB t))) in H by (rewrite HB; apply home_lt; auto).
    apply find_count in H as (n' & Hn & -> & Hst); [|assumption]. cbn [Nat.add] in Hst. eapply stops_looked; eauto.
  Qed.
  Lemma filter_perm (P : entry -> bool) l l' : Permutation l l' -> Permutation (filter P l) (filter P l').
  Proof.
    induction 1 as [|x l l' H IH|x y l|l l' l'' _ IH1 _ IH2]; cbn [filter].
    - constructor.
    - destruct (P x); auto.
    - destruct (P x), (P y); try apply Permutation_refl. constructor.
    - eapply Permutation_trans; eauto.
  Qed.

  Lemma filter_true (P : entry -> bool) l : (forall x, In x l -> P x = true) -> filter P l = l.
  Proof. induction l as [|x l IH]; intros H; [reflexivity|]. cbn [filter]. rewrite (H x) by (left; reflexivity). f_equal. apply IH. intros y Hy. apply H. right. exact Hy. Qed.

  Lemma looked_rivals t m k c : models hash t m -> looked t k c -> get keqb m k = None -> rivals hash m k < c.
  Proof.
    intros (HI & HN & HP) (_ & _ & HL) Hg. unfold rivals. erewrite Permutation_length; [apply HL; [exact HI|]|].
    - intros Hin. apply (get_None keqb keqb_ok) in Hg. apply Hg. eapply Permutation_in; [apply Permutation_map; symmetry; exact HP|exact Hin].
    - apply filter_perm. exact HP.
  Qed.

  Lemma looks_step t m o m' a : models hash t m -> nE t < 2^28 -> spec_step keqb dflt m o = Some (m', a) ->
    exists t' c, step_p keqb hash dflt t o = Ret (t', a, c) /\ models hash t' m' /\ nE t' <= nE t + 1 /\ c <= nB t' /\
      (forall k, searches o k -> get keqb m k = None -> rivals hash m k <= c).
  Proof.
    intros HM Hn HS. destruct (step_ok keqb hash keqb_ok dflt t m o m' a HM Hn HS) as (t' & HT & HM' & HE).
    pose proof HM as (HI & _ & _). pose proof (proj1 HI) as HC.
    rewrite <- step_same in HT. apply uncounted_ret in HT as (c & HT). exists t', c. split; [exact HT|]. split; [exact HM'|]. split; [exact HE|].
    assert (HMs : models hash (started t) m). { destruct HM as (_ & HN & HP). split; [now apply started_H|]. split; [exact HN|]. now rewrite started_ents. }
    assert (Hins : forall k mk touch t2 ex e c2, insert_p keqb hash t k mk touch = Ret (t2, ex, e, c2) -> c2 <= nB t2 /\ (get keqb m k = None -> rivals hash m k <= c2)).
    { intros k mk touch t2 ex e c2 Hi.
      destruct (insert_ok fst keqb hash keqb_ok t k mk touch HC Hn) as (t3 & ex3 & e3 & Hi3 & _ & HB & _ & _).
      rewrite <- insert_same, Hi in Hi3. cbn [uncounted omap bind fst] in Hi3. injection Hi3 as <- <- <-.
      unfold insert_p in Hi. apply bind_ret in Hi as ([[t1 i] c1] & Hl & Hi). apply lookup_looked in Hl; [|exact HC].
      assert (E : c1 = c2).
      { destruct (tbl t1) as [bs|]; [|discriminate]. destruct (nth_error bs i) as [b|]; [|discriminate].
        destruct (bslot b); [apply bind_ret in Hi as (? & _ & Hi)|apply bind_ret in Hi as (? & _ & Hi)|]; now injection Hi. }
      subst c1. split; [destruct Hl as (_ & Hl & _); lia|]. intros Hg. pose proof (looked_rivals _ _ _ _ HMs Hl Hg). lia. }
    assert (Hfind : forall k r c2, find_key_p keqb hash t k = Ret (r, c2) -> c2 <= nB t /\ (get keqb m k = None -> rivals hash m k <= c2)).
    { intros k r c2 Hf. apply find_looked in Hf as [[Hb ->]|Hl]; [| |exact HC].
      - split; [lia|]. intros _. destruct HM as (_ & _ & HP). unfold tents in HP. rewrite Hb in HP. apply Permutation_sym, Permutation_nil in HP. subst m. cbn. lia.
      - split; [apply Hl|]. intros Hg. pose proof (looked_rivals _ _ _ _ HM Hl Hg). lia. }
    destruct o as [k|k v|k|k| | | | |n]; cbn [step_p] in HT; cbn [searches].
    - apply bind_ret in HT as ([[[t2 ex] e] c2] & Hi & [= -> _ ->]). apply Hins in Hi as [H1 H2]. split; [exact H1|]. intros k' <-. exact H2.
    - apply bind_ret in HT as ([[[t2 ex] e] c2] & Hi & [= -> _ ->]). apply Hins in Hi as [H1 H2]. split; [exact H1|]. intros k' <-. exact H2.
    - apply bind_ret in HT as ([[t2 ex] c2] & Hi & [= -> _ ->]). assert (Hn' : nE t <= 2^28) by lia.
      destruct (erase_ok fst keqb hash keqb_ok t k HC Hn') as (t3 & ex3 & Hi3 & _ & HB & _).
      rewrite <- erase_same, Hi in Hi3. cbn [uncounted omap bind fst] in Hi3. injection Hi3 as <- <-.
      unfold erase_p in Hi. apply bind_ret in Hi as ([i c1] & Hf & Hi).
      assert (E : c1 = c). { destruct i as [i|]; [|now injection Hi]. destruct (tbl t) as [bs|]; [|discriminate]. apply bind_ret in Hi as (? & _ & Hi). now injection Hi. }
      subst c1. apply Hfind in Hf as [H1 H2]. split; [lia|]. intros k' <-. exact H2.
    - apply bind_ret in HT as ([r c2] & Hi & [= -> _ ->]). unfold find_entry_p in Hi. apply bind_ret in Hi as ([i c1] & Hf & Hi).
      assert (E : c1 = c). { destruct i as [i|]; [|now injection Hi]. apply bind_ret in Hi as (? & _ & Hi). now injection Hi. }
      subst c1. apply Hfind in Hf as [H1 H2]. split; [lia|]. intros k' <-. exact H2.
    - injection HT as _ _ <-. split; [lia|intros ? []].
    - injection HT as _ _ <-. split; [lia|intros ? []].
    - injection HT as _ _ <-. split; [lia|intros ? []].
    - apply bind_ret in HT as (x & _ & [= _ _ <-]). split; [lia|intros ? []].
    - apply bind_ret in HT as (x & _ & [= _ _ <-]). split; [lia|intros ? []].
  Qed.

  Lemma looks_run l : forall t m m' as_, models hash t m -> nE t + N.of_nat (length l) <= 2^28 -> spec_run keqb dflt m l = Some (m', as_) ->
    exists t' c, run_p keqb hash dflt t l = Ret (t', as_, c) /\ models hash t' m' /\ nE t' <= nE t + N.of_nat (length l).
  Proof.
    induction l as [|o l IH]; intros t m m' as_ HM Hn HS; cbn [spec_run] in HS.
    - injection HS as <- <-. exists t, 0. split; [reflexivity|]. split; [exact HM|lia].
    - destruct (spec_step keqb dflt m o) as [[m1 a]|] eqn:E1; [|discriminate]. destruct (spec_run keqb dflt m1 l) as [[m2 as2]|] eqn:E2; [|discriminate].
      injection HS as <- <-. cbn [length] in Hn. destruct (looks_step t m o m1 a HM ltac:(lia) E1) as (t1 & c1 & HT1 & HM1 & Hn1 & _).
      destruct (IH t1 m1 m2 as2 HM1 ltac:(lia) E2) as (t2 & c2 & HT2 & HM2 & Hn2). exists t2, (c1 + c2). cbn [run_p]. rewrite HT1. cbn [bind]. rewrite HT2. cbn [bind length].
      split; [reflexivity|]. split; [exact HM2|lia].
  Qed.

  (** a history, then one more call *)
  Lemma looks_after size l o m as_ m' a : size < 2^28 -> N.of_nat (length l) < 2^28 ->
    spec_run keqb dflt [] l = Some (m, as_) -> spec_step keqb dflt m o = Some (m', a) ->
    exists t c t' c', run_p keqb hash dflt (new_table size) l = Ret (t, as_, c) /\ step_p keqb hash dflt t o = Ret (t', a, c') /\
      c' <= nB t' /\ (forall k, searches o k -> get keqb m k = None -> rivals hash m k <= c').
  Proof.
    intros Hs Hl HS HS'. destruct (models_new (V := V) hash size Hs) as [HM HE].
    destruct (looks_run l (new_table size) [] m as_ HM ltac:(lia) HS) as (t & c & HT & HM1 & Hn).
    destruct (looks_step t m o m' a HM1 ltac:(lia) HS') as (t' & c' & HT' & _ & _ & H1 & H2). exists t, c, t', c'. auto.
  Qed.

  (** ** Keys with one hash *)
  Lemma flood h l : forall t m, models hash t m -> nE t + N.of_nat (length l) <= 2^28 ->
    NoDup (map fst l) -> (forall k, In k (map fst l) -> get keqb m k = None) ->
    (forall k, In k (map fst l) -> u32 (hash k) = h) -> (forall k, In k (map fst m) -> u32 (hash k) = h) ->
    exists t' as_ c, run_p keqb hash dflt t (map (fun p => OpSet (fst p) (snd p)) l) = Ret (t', as_, c) /\
      let n := N.of_nat (length l) in 2 * n * card m + n * n <= 2 * c + n.
  Proof.
    induction l as [|[k v] l IH]; intros t m HM Hn HD Hnew Hl Hm; cbn [map run_p length].
    { exists t, [], 0. split; [reflexivity|]. cbn zeta. lia. }
    cbn [map fst] in HD, Hnew, Hl. inversion HD as [|? ? HD1 HD2]; subst. cbn [length] in Hn.
    pose proof (Hnew k (or_introl eq_refl)) as Hg. set (m1 := put keqb m k v).
    assert (HS : spec_step keqb dflt m (OpSet k v) = Some (m1, ASet false)) by (cbn [spec_step]; unfold has; rewrite Hg; reflexivity).
    destruct (looks_step t m (OpSet k v) m1 _ HM ltac:(lia) HS) as (t1 & c1 & HT1 & HM1 & Hn1 & _ & Hr). specialize (Hr k eq_refl Hg).
    assert (Edel : del keqb m k = m). { apply del_notin; auto. apply (get_None keqb keqb_ok). exact Hg. }
    assert (Er : rivals hash m k = card m).
    { unfold rivals, card. f_equal. f_equal. clear - Hl Hm. assert (Hk : u32 (hash k) = h) by (apply Hl; left; reflexivity). clear Hl.
      apply filter_true. intros p Hp. change (u32 (hash (fst p)) =? u32 (hash k) = true). rewrite Hk, Hm by (apply in_map; exact Hp). apply N.eqb_refl. }
    destruct (IH t1 m1 HM1 ltac:(lia) HD2) as (t2 & as2 & c2 & HT2 & Hc).
    { intros k' Hk'. apply (get_None keqb keqb_ok). unfold m1, put. rewrite Edel. cbn [map fst]. intros [<-|Hin]; [contradiction|].
      revert Hin. apply (get_None keqb keqb_ok). apply Hnew. right. exact Hk'. }
    { intros k' Hk'. apply Hl. right. exact Hk'. }
    { unfold m1, put. rewrite Edel. cbn [map fst]. intros k' [<-|Hk']; [apply Hl; left; reflexivity|auto]. }
    cbn [fst snd]. rewrite HT1. cbn [bind]. rewrite HT2. cbn [bind]. exists t2, (ASet false :: as2), (c1 + c2). split; [reflexivity|].
    cbn zeta in *. assert (Ec : card m1 = card m + 1) by (unfold m1, put, card; rewrite Edel; cbn [length]; lia). rewrite Ec in Hc. nia.
  Qed.
End Bounds.

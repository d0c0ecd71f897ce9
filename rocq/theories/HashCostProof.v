(** How many entries rehashing moves: lemmas behind HashCostProps.v. *)
From Verif Require Import Base HashSpec HashModel HashAllocSpec HashIterSpec HashProof HashProof2 HashProof3 HashProof5 HashIterProof HashCostModel.
From Coq Require Import List NArith ZArith Lia Bool Permutation Arith.
From Coq Require Import ZifyBool ZifyNat ZifyN.
Import ListNotations.
Local Open Scope N_scope.

(** ** Bucket counts *)

Definition size_ok (n : N) : Prop := In n bucket_sizes \/ 327714 <= n.

(** the count from which a table grows to [n] *)
Definition before (n : N) : N :=
  if 327714 <=? n then n - 131101
  else match find (fun s => s <? n) (rev bucket_sizes) with Some s => s | None => 0 end.

(** moves paid for by each new entry *)
Definition rate (n : N) : N := if n <=? 196613 then 6 else n / 131101 + 1.

Lemma size_cases (P : N -> Prop) : Forall P bucket_sizes -> (forall n, 327714 <= n -> P n) -> forall n, size_ok n -> P n.
Proof. intros H1 H2 n [H|H]; [|auto]. rewrite Forall_forall in H1. auto. Qed.

Lemma rate_large n : 327714 <= n -> rate n = n / 131101 + 1.
Proof. intros H. unfold rate. destruct (N.leb_spec n 196613); [lia|reflexivity]. Qed.
Lemma before_large n : 327714 <= n -> before n = n - 131101.
Proof. intros H. unfold before. destruct (N.leb_spec 327714 n); [reflexivity|lia]. Qed.

Lemma grown_large n : 196613 <= n -> n < 2^31 -> compute_bucket_size n = n + 131101.
Proof.
  intros H1 H2. change (2^31) with 2147483648 in H2. unfold compute_bucket_size, bucket_sizes. cbn [find].
  repeat match goal with |- context [n <? ?c] => destruct (N.ltb_spec n c); [lia|] end. unfold u32. apply N.mod_small. lia.
Qed.

Lemma rate_pays n : size_ok n -> n <= rate n * (n - before n).
Proof.
  revert n. apply (size_cases (fun n => n <= rate n * (n - before n))).
  - repeat constructor; vm_compute; discriminate.
  - intros n H. rewrite rate_large, before_large by exact H. pose proof (N.div_mod n 131101 ltac:(discriminate)).
    pose proof (N.mod_lt n 131101 ltac:(discriminate)). nia.
Qed.

Lemma before_lt n : size_ok n -> before n < n.
Proof.
  revert n. apply (size_cases (fun n => before n < n)); [repeat constructor; reflexivity|]. intros n H. rewrite before_large by exact H. lia.
Qed.

Lemma grown n : n < 2^31 -> size_ok n -> size_ok (compute_bucket_size n) /\ before (compute_bucket_size n) = n.
Proof.
  intros Hn Hs. revert n Hs Hn. apply (size_cases (fun n => n < 2^31 -> size_ok (compute_bucket_size n) /\ before (compute_bucket_size n) = n)).
  - assert (H : Forall (fun n => n = 196613 \/ (In (compute_bucket_size n) bucket_sizes /\ before (compute_bucket_size n) = n)) bucket_sizes).
    { repeat (apply Forall_cons; [first [left; reflexivity|right; split; [vm_compute; tauto|reflexivity]]|]). apply Forall_nil. }
    refine (Forall_impl _ _ H). clear H.
    intros n [->|[H1 H2]] _.
    + rewrite grown_large; [|lia|reflexivity]. split; [right; lia|reflexivity].
    + split; [left; exact H1|exact H2].
  - intros n H Hn. rewrite grown_large; [|lia|exact Hn]. split; [right; lia|]. rewrite before_large; lia.
Qed.

Lemma compute_size n : n < 2^31 -> size_ok (compute_bucket_size n).
Proof.
  intros H. destruct (N.lt_ge_cases n 196613).
  - left. unfold compute_bucket_size. destruct (find (fun s => n <? s) bucket_sizes) as [s|] eqn:F; [apply find_some in F; tauto|].
    exfalso. pose proof (find_none _ _ F 196613 ltac:(vm_compute; tauto)) as H1. cbn beta in H1. lia.
  - right. rewrite grown_large by assumption. lia.
Qed.

Lemma grown_gap n : n < 2^31 -> size_ok n -> compute_bucket_size n * compute_bucket_size n <= n * n + 360000 * n.
Proof.
  intros Hn Hs. revert n Hs Hn. apply (size_cases (fun n => n < 2^31 -> compute_bucket_size n * compute_bucket_size n <= n * n + 360000 * n)).
  - repeat constructor; intros _; vm_compute; discriminate.
  - intros n H Hn. rewrite grown_large; [nia|lia|exact Hn].
Qed.

(** what each new key may cost when there are at most [n] *)
Definition allowance (n : N) : N := 4 * (19 + n / 49000).

Lemma rate_small n B : size_ok B -> 3 * before B < 4 * n -> 24 + 4 * rate B <= allowance n.
Proof.
  intros Hs H. unfold allowance. destruct (N.le_gt_cases B 196613) as [Hb|Hb].
  { unfold rate. destruct (N.leb_spec B 196613); lia. }
  destruct Hs as [Hs|Hs]; [exfalso; clear H n; unfold bucket_sizes in Hs; cbn in Hs; repeat (destruct Hs as [Hs|Hs]; [lia|]); destruct Hs|].
  rewrite rate_large by exact Hs. rewrite before_large in H by exact Hs.
  pose proof (N.div_mod B 131101 ltac:(discriminate)). pose proof (N.mod_lt B 131101 ltac:(discriminate)).
  pose proof (N.div_mod n 49000 ltac:(discriminate)). pose proof (N.mod_lt n 49000 ltac:(discriminate)). lia.
Qed.

Lemma rate_grown n B : B < 2^31 -> size_ok B -> 3 * B < 4 * n -> 28 + 4 * rate (compute_bucket_size B) + 3 * rate B <= allowance n.
Proof.
  intros HB Hs H. unfold allowance. destruct (N.lt_ge_cases B 196613) as [Hb|Hb].
  { assert (E : compute_bucket_size B <= 196613).
    { unfold compute_bucket_size. destruct (find (fun s => B <? s) bucket_sizes) as [s|] eqn:F.
      - apply find_some in F as [F _]. unfold bucket_sizes in F. cbn in F. repeat (destruct F as [F|F]; [lia|]). destruct F.
      - exfalso. pose proof (find_none _ _ F 196613 ltac:(vm_compute; tauto)) as H1. cbn beta in H1. lia. }
    unfold rate. destruct (N.leb_spec B 196613); [|lia]. destruct (N.leb_spec (compute_bucket_size B) 196613); lia. }
  rewrite grown_large by assumption. rewrite (rate_large (B + 131101)) by lia. replace (B + 131101) with (B + 1 * 131101) by lia.
  rewrite N.div_add by discriminate.
  assert (R : rate B <= 6 + B / 131101) by (unfold rate; destruct (N.leb_spec B 196613); lia).
  pose proof (N.div_mod B 131101 ltac:(discriminate)). pose proof (N.mod_lt B 131101 ltac:(discriminate)).
  pose proof (N.div_mod n 49000 ltac:(discriminate)). pose proof (N.mod_lt n 49000 ltac:(discriminate)). lia.
Qed.

(** ** The counted functions are those of the model *)
Section Counted.
  Context {K V : Type}.
  Variable keqb : K -> K -> bool.
  Variable hash : K -> N.
  Variable dflt : V.
  Notation entry := (K * V)%type.
  Notation bucket := (bucket entry).
  Notation table := (table entry).

  Definition dropped {A} (r : outcome (A * N)) : outcome A := omap fst r.

  Lemma loop_same old : forall new n, dropped (rehash_loop_c old new n) = rehash_loop (E := entry) old new n.
  Proof.
    induction old as [|b old IH]; intros new n; cbn [rehash_loop_c rehash_loop]; [reflexivity|].
    destruct (bslot b) as [| |e]; try apply IH. destruct (place new n (bhash b) e); cbn [bind]; try reflexivity.
    rewrite <- IH. destruct (rehash_loop_c old a n) as [[? ?]| | | |]; reflexivity.
  Qed.
  Lemma loop_count old : forall new n r c, rehash_loop_c (K := K) (V := V) old new n = Ret (r, c) -> c = N.of_nat (length (ents old)).
  Proof.
    induction old as [|b old IH]; intros new n r c H; cbn [rehash_loop_c] in H; [injection H as <- <-; reflexivity|].
    unfold ents in *. cbn [flat_map]. rewrite app_length. destruct (bslot b) as [| |e]; cbn [slot_ents length] in *; try (eapply IH; exact H).
    apply bind_ret in H as (new' & _ & H). apply bind_ret in H as ([r' c'] & H & [= <- <-]). apply IH in H. lia.
  Qed.

  Lemma do_same (t : table) n : dropped (do_rehash_c t n) = do_rehash t n.
  Proof.
    unfold do_rehash_c, do_rehash. rewrite <- loop_same. destruct (rehash_loop_c _ _ n) as [[? ?]| | | |]; reflexivity.
  Qed.
  Lemma do_count (t : table) n t' : do_rehash t n = Ret t' -> do_rehash_c t n = Ret (t', N.of_nat (length (tents t))).
  Proof.
    rewrite <- do_same. unfold do_rehash_c, tents. destruct (rehash_loop_c _ _ n) as [[r c]| | | |] eqn:E; try discriminate.
    apply loop_count in E. cbn. intros [= <-]. rewrite E. destruct (tbl t); reflexivity.
  Qed.
  Lemma may_same (t : table) : dropped (may_rehash_c t) = may_rehash t.
  Proof. unfold may_rehash_c, may_rehash. destruct (_ <? _); [apply do_same|]. destruct (_ <? _); [apply do_same|reflexivity]. Qed.

  Lemma insert_same (t : table) k mk touch : dropped (insert_c keqb hash t k mk touch) = insert fst keqb hash t k mk touch.
  Proof.
    unfold insert_c, insert. destruct (lookup_bucket_for fst keqb hash t k) as [[t1 i]| | | |]; cbn [bind]; try reflexivity.
    destruct (tbl t1) as [bs|]; [|reflexivity]. destruct (nth_error bs i) as [b|]; [|reflexivity].
    destruct (bslot b); try reflexivity; rewrite <- may_same; destruct (may_rehash_c _) as [[? ?]| | | |]; reflexivity.
  Qed.
  Lemma erase_same (t : table) k : dropped (erase_c keqb hash t k) = erase fst keqb hash t k.
  Proof.
    unfold erase_c, erase. destruct (find_key fst keqb hash t k) as [[i|]| | | |]; cbn [bind]; try reflexivity.
    destruct (tbl t) as [bs|]; [|reflexivity]. rewrite <- may_same. destruct (may_rehash_c _) as [[? ?]| | | |]; reflexivity.
  Qed.
  Lemma step_same t o : dropped (step_c keqb hash dflt t o) = step keqb hash dflt t o.
  Proof.
    destruct o; cbn [step_c step]; try reflexivity.
    - rewrite <- insert_same. destruct (insert_c _ _ _ _ _ _) as [[[[? ?] ?] ?]| | | |]; reflexivity.
    - rewrite <- insert_same. destruct (insert_c _ _ _ _ _ _) as [[[[? ?] ?] ?]| | | |]; reflexivity.
    - rewrite <- erase_same. destruct (erase_c _ _ _ _) as [[[? ?] ?]| | | |]; reflexivity.
    - destruct (find_entry _ _ _ _ _); reflexivity.
    - unfold rehash. rewrite <- may_same. destruct (may_rehash_c _) as [[? ?]| | | |]; reflexivity.
    - unfold rehash_to. rewrite <- do_same. destruct (do_rehash_c _ _) as [[? ?]| | | |]; reflexivity.
  Qed.
  Lemma run_same l : forall t, dropped (run_c keqb hash dflt t l) = run keqb hash dflt t l.
  Proof.
    induction l as [|o l IH]; intros t; cbn [run_c run]; [reflexivity|]. rewrite <- step_same.
    destruct (step_c keqb hash dflt t o) as [[[t1 a] c]| | | |]; cbn [dropped omap bind fst]; try reflexivity.
    rewrite <- IH. destruct (run_c keqb hash dflt t1 l) as [[[? ?] ?]| | | |]; reflexivity.
  Qed.
End Counted.

(** ** What a call does to the counters *)
Section Fields.
  Context {K V : Type}.
  Variable keqb : K -> K -> bool.
  Variable hash : K -> N.
  Variable dflt : V.
  Hypothesis keqb_ok : forall a b, reflect (a = b) (keqb a b).
  Notation entry := (K * V)%type.
  Notation bucket := (bucket entry).
  Notation table := (table entry).

  Lemma may_fields (t : table) bs t' : pre_rehash bs t -> may_rehash t = Ret t' ->
    (3 * nB t < 4 * nE t /\ nB t' = compute_bucket_size (nB t) /\ nE t' = nE t /\ nT t' = 0 /\ may_rehash_c t = Ret (t', nE t)) \/
    (4 * nE t <= 3 * nB t /\ 7 * nB t < 8 * (nE t + nT t) /\ nB t' = nB t /\ nE t' = nE t /\ nT t' = 0 /\ may_rehash_c t = Ret (t', nE t)) \/
    (4 * nE t <= 3 * nB t /\ 8 * (nE t + nT t) <= 7 * nB t /\ t' = t /\ may_rehash_c t = Ret (t, 0)).
  Proof.
    intros (Hbs & [HB HE HT Hbig Hpos] & Hsmall). change (2^29) with 536870912 in *. change (2^28) with 268435456 in *.
    pose proof (count_total bs) as Hct. unfold may_rehash, may_rehash_c.
    assert (E3 : u32 (nB t * 3) = nB t * 3) by (unfold u32; rewrite N.mod_small; lia).
    assert (E4 : u32 (nE t * 4) = nE t * 4) by (unfold u32; rewrite N.mod_small; lia).
    assert (Esub : sub32 (nB t) (nE t + nT t) = nB t - (nE t + nT t)).
    { unfold sub32, u32. rewrite (N.mod_small (nE t + nT t)) by lia.
      replace (nB t + 4294967296 - (nE t + nT t)) with (nB t - (nE t + nT t) + 1 * 4294967296) by lia.
      rewrite N.mod_add by lia. apply N.mod_small. lia. }
    rewrite Esub, E3, E4.
    assert (E8 : u32 ((nB t - (nE t + nT t)) * 8) = (nB t - (nE t + nT t)) * 8).
    { unfold u32. rewrite N.mod_small; lia. }
    rewrite E8.
    assert (ET : N.of_nat (length (tents t)) = nE t) by (unfold tents; rewrite Hbs; lia).
    destruct (N.ltb_spec (nB t * 3) (nE t * 4)) as [L1|L1].
    { intros HR. left. rewrite (do_count t _ t' HR), ET. apply do_rehash_fields in HR as (R1 & R2 & R3). splits; auto. lia. }
    destruct (N.ltb_spec ((nB t - (nE t + nT t)) * 8) (nB t)) as [L2|L2].
    { intros HR. right. left. rewrite (do_count t _ t' HR), ET. apply do_rehash_fields in HR as (R1 & R2 & R3). splits; auto; lia. }
    intros [= <-]. right. right. splits; auto; lia.
  Qed.

  (** the counters after an insertion: of a key that was there, or of a new one *)
  Definition grew (t t' : table) (c : N) : Prop :=
    exists E T, E = nE t + 1 /\ (T = nT t \/ T + 1 = nT t) /\
    ((3 * nB t < 4 * E /\ nB t' = compute_bucket_size (nB t) /\ nE t' = E /\ nT t' = 0 /\ c = E) \/
     (4 * E <= 3 * nB t /\ 7 * nB t < 8 * (E + T) /\ nB t' = nB t /\ nE t' = E /\ nT t' = 0 /\ c = E) \/
     (4 * E <= 3 * nB t /\ 8 * (E + T) <= 7 * nB t /\ nB t' = nB t /\ nE t' = E /\ nT t' = T /\ c = 0)).

  Lemma insert_fields (t : table) k mk touch t' ex e : CInv t -> nE t < 2^28 ->
    insert fst keqb hash t k mk touch = Ret (t', ex, e) ->
    exists c, insert_c keqb hash t k mk touch = Ret (t', ex, e, c) /\
      if ex then c = 0 /\ nB t' = nB t /\ nE t' = nE t /\ nT t' = nT t
      else grew (started t) t' c.
  Proof.
    intros HC Hsm. change (2^28) with 268435456 in *.
    destruct (lookup_cases fst keqb hash keqb_ok t k HC) as (bs & Hbs & HH). unfold insert, insert_c.
    pose proof (started_C fst hash t HC) as HCs. pose proof (started_nE t HC) as HnEs.
    pose proof HCs as HCs'. unfold CInv in HCs'. rewrite Hbs in HCs'.
    destruct HCs' as [[HB HE HT Hbig Hpos] Hem].
    destruct HH as [(i & b & e0 & -> & Hb & Hf & Hk)|(i & b & Hb & Hsl & -> & Hre & Hno)].
    - cbn [bind]. rewrite Hbs, Hb, Hf. intros [= <- <- <-]. exists 0. split; [reflexivity|]. cbn [nB nE nT].
      unfold started in *. destruct (isInit t) eqn:Ei; [auto|]. exfalso.
      unfold init in Hbs. match type of Hbs with tbl (mkT ?x _ _ _) = _ => change (x = Some bs) in Hbs end. injection Hbs as <-. apply nth_error_In in Hb. cbn [In] in Hb. repeat (destruct Hb as [<-|Hb]; [discriminate Hf|]). destruct Hb.
    - cbn [bind tbl]. rewrite (nth_error_upd_eq _ _ _ _ Hb). cbn [bslot].
      set (h := u32 (hash k)). set (x := mkB h (Full mk)).
      assert (Hset : set_slot (upd bs i (mkB h (bslot b))) i (Full mk) = upd bs i x).
      { erewrite set_slot_upd by (eapply nth_error_upd_eq; eauto). cbn [bhash]. rewrite upd_upd. reflexivity. }
      pose proof (ents_upd _ _ _ x Hb) as P1.
      pose proof (tombs_upd _ _ _ x Hb) as P2.
      unfold is_tomb in P2. cbn in P1, P2. pose proof (Permutation_length P1) as PL.
      pose proof (count_total bs) as Hct.
      change (2^29) with 536870912 in Hbig.
      assert (EU : u32 (nE (started t) + 1) = nE (started t) + 1) by (unfold u32; rewrite N.mod_small; lia).
      set (T := match bslot b with Tomb => sub32 (nT (started t)) 1 | _ => nT (started t) end).
      assert (HTt : (T = nT (started t) \/ T + 1 = nT (started t)) /\ T = N.of_nat (tombs (upd bs i x))).
      { unfold T. destruct Hsl as [Hsl|Hsl]; rewrite Hsl in *; cbn in PL, P2; [|split; [auto|lia]].
        assert (EX : sub32 (nT (started t)) 1 = N.of_nat (tombs (upd bs i x))); [|cbv iota; rewrite EX; split; [right|]; lia].
        unfold sub32, u32. rewrite HT. rewrite (N.mod_small 1) by lia.
        replace (N.of_nat (tombs bs) + 4294967296 - 1) with (N.of_nat (tombs (upd bs i x)) + 1 * 4294967296) by lia.
        rewrite N.mod_add by lia. apply N.mod_small. lia. }
      destruct HTt as [HT1 HT2].
      assert (PRE : pre_rehash (upd bs i x) (mkT (Some (upd bs i x)) (nB (started t)) (u32 (nE (started t) + 1)) T)).
      { split; [reflexivity|]. split; [constructor; cbn [nB nE nT]; try rewrite upd_length; auto|].
        - rewrite EU. destruct Hsl as [Hsl|Hsl]; rewrite Hsl in *; cbn in PL, P2; lia.
        - cbn [nE]. change (2^28) with 268435456. lia. }
      intros HR.
      assert (HM : may_rehash (mkT (Some (upd bs i x)) (nB (started t)) (u32 (nE (started t) + 1)) T) = Ret t' /\ ex = false /\ e = mk).
      { unfold T. destruct Hsl as [Hsl|Hsl]; rewrite Hsl in HR, Hset |- *; rewrite Hset in HR; cbn [nB nE nT] in HR; apply bind_ret in HR as (t1 & HR & [= <- <- <-]); auto. }
      destruct HM as (HM & -> & ->).
      assert (HMC : forall c, may_rehash_c (mkT (Some (upd bs i x)) (nB (started t)) (u32 (nE (started t) + 1)) T) = Ret (t', c) ->
        (match bslot b with
         | Full e1 => Ret (mkT (Some (set_slot (upd bs i (mkB h (bslot b))) i (Full (touch e1)))) (nB (started t)) (nE (started t)) (nT (started t)), true, touch e1, 0)
         | s => '(t2, c) <- may_rehash_c (mkT (Some (set_slot (upd bs i (mkB h (bslot b))) i (Full mk))) (nB (started t)) (u32 (nE (started t) + 1))
                 (match s with Tomb => sub32 (nT (started t)) 1 | _ => nT (started t) end)) ;; Ret (t2, false, mk, c)
         end) = Ret (t', false, mk, c)).
      { intros c. unfold T. destruct Hsl as [Hsl|Hsl]; rewrite Hsl in Hset |- *; rewrite Hset; intros ->; reflexivity. }
      destruct (may_fields _ _ _ PRE HM) as [(F1 & F2 & F3 & F4 & F5)|[(F1 & F2 & F3 & F4 & F5 & F6)|(F1 & F2 & -> & F4)]]; cbn [nB nE nT] in *; rewrite EU in *.
      + exists (nE (started t) + 1). split; [exact (HMC _ F5)|]. exists (nE (started t) + 1), T. splits; auto. left. splits; auto.
      + exists (nE (started t) + 1). split; [exact (HMC _ F6)|]. exists (nE (started t) + 1), T. splits; auto. right. left. splits; auto.
      + exists 0. split; [exact (HMC _ F4)|]. exists (nE (started t) + 1), T. splits; auto. right. right. splits; auto.
  Qed.

  (** ** Upper bound *)

  Definition psi (t : table) : N := rate (nB t) * (4 * nE t - 3 * before (nB t)).
  Definition phi (t : table) : N := 24 * (nE t + nT t) + psi t.
  Definition sized (t : table) : Prop := nB t = 0 \/ size_ok (nB t).

  Lemma started_phi t : CInv t -> sized t -> phi (started t) = phi t /\ size_ok (nB (started t)).
  Proof.
    intros HC HS. unfold started, isInit. unfold CInv in HC. destruct (tbl t) as [bs|].
    - destruct HC as [[HB HE HT Hbig Hpos] Hem]. split; [reflexivity|]. destruct HS as [HS|HS]; [lia|exact HS].
    - destruct HC as (C1 & C2 & C3). split; [|left; vm_compute; tauto]. unfold phi, psi. rewrite C1, C2, C3. reflexivity.
  Qed.

  Lemma grew_phi (t t' : table) c n : size_ok (nB t) -> nB t < 2^29 -> load_ok t -> grew t t' c -> nE t' <= n ->
    4 * c + phi t' <= phi t + allowance n /\ size_ok (nB t').
  Proof.
    intros HS HB [L1 L2] (E & T & -> & HT & HG) Hn. change (2^29) with 536870912 in HB.
    assert (HB31 : nB t < 2^31) by (change (2^31) with 2147483648; lia).
    pose proof (rate_pays _ HS) as HP. pose proof (before_lt _ HS) as HP2.
    unfold phi, psi. set (r := rate (nB t)) in *. set (p := before (nB t)) in *.
    assert (STEP : 4 * (nE t + 1) <= 3 * nB t -> nE t + 1 <= n -> 24 + r * (4 * (nE t + 1) - 3 * p) <= r * (4 * nE t - 3 * p) + allowance n).
    { intros H1 H2. destruct (N.le_gt_cases (4 * (nE t + 1)) (3 * p)) as [H|H].
      - replace (4 * (nE t + 1) - 3 * p) with 0 by lia. rewrite N.mul_0_r.
        enough (24 <= allowance n) by lia. unfold allowance. lia.
      - pose proof (rate_small n (nB t) HS ltac:(fold p; lia)) as HA. fold r in HA.
        assert (4 * (nE t + 1) - 3 * p <= (4 * nE t - 3 * p) + 4) by lia. nia. }
    destruct HG as [(F1 & F2 & F3 & F4 & ->)|[(F1 & F2 & F3 & F4 & F5 & ->)|(F1 & F2 & F3 & F4 & F5 & ->)]].
    - destruct (grown (nB t) HB31 HS) as [G1 G2]. rewrite F2, F3, F4, G2. split; [|exact G1].
      pose proof (rate_grown n (nB t) HB31 HS ltac:(lia)) as HA. fold r in HA.
      assert (H1 : 4 * (nE t + 1) - 3 * nB t <= 4) by lia.
      assert (H2 : rate (compute_bucket_size (nB t)) * (4 * (nE t + 1) - 3 * nB t) <= 4 * rate (compute_bucket_size (nB t))) by nia.
      assert (H3 : 3 * nB t <= r * (4 * nE t - 3 * p) + 3 * r).
      { assert (3 * (nB t - p) <= 4 * nE t - 3 * p + 3) by lia. nia. }
      lia.
    - rewrite F3, F4, F5. fold r p. split; [|exact HS]. specialize (STEP ltac:(lia) ltac:(lia)). lia.
    - rewrite F3, F4, F5. fold r p. split; [|exact HS]. specialize (STEP ltac:(lia) ltac:(lia)). lia.
  Qed.

  Lemma erase_fields (t : table) k t' ex : CInv t -> nE t < 2^28 -> load_inv t -> erase fst keqb hash t k = Ret (t', ex) ->
    erase_c keqb hash t k = Ret (t', ex, 0) /\ nB t' = nB t /\ nE t' <= nE t /\ nE t' + nT t' = nE t + nT t.
  Proof.
    intros HC Hsm HL. change (2^28) with 268435456 in Hsm. unfold erase, erase_c.
    destruct (find_key_cases fst keqb hash keqb_ok t k HC) as [(bs & i & b & e & Hbs & -> & Hb & Hf & Hk)|[-> _]];
      cbn [bind]; [|intros [= <- <-]; splits; auto; lia].
    rewrite Hbs. rewrite (set_slot_upd _ _ _ _ Hb).
    unfold CInv in HC. rewrite Hbs in HC. destruct HC as [[HB HE HT Hbig Hpos] Hem].
    change (2^29) with 536870912 in Hbig. destruct HL as [[L1 L2] _].
    pose proof (count_total bs) as Hct.
    pose proof (ents_upd _ _ _ (mkB (bhash b) Tomb) Hb) as P1. rewrite Hf in P1. cbn in P1.
    pose proof (tombs_upd _ _ _ (mkB (bhash b) Tomb) Hb) as P2. unfold is_tomb in P2. rewrite Hf in P2. cbn in P2.
    apply Permutation_length in P1. cbn [length] in P1.
    assert (EE : sub32 (nE t) 1 = nE t - 1).
    { unfold sub32, u32. rewrite (N.mod_small 1) by lia.
      replace (nE t + 4294967296 - 1) with (nE t - 1 + 1 * 4294967296) by lia.
      rewrite N.mod_add by lia. apply N.mod_small. lia. }
    assert (ET : u32 (nT t + 1) = nT t + 1) by (unfold u32; rewrite N.mod_small; lia).
    rewrite EE, ET. intros HR. apply bind_ret in HR as (t1 & HR & [= <- <-]).
    assert (PRE : pre_rehash (upd bs i (mkB (bhash b) Tomb)) (mkT (Some (upd bs i (mkB (bhash b) Tomb))) (nB t) (nE t - 1) (nT t + 1))).
    { split; [reflexivity|]. split; [constructor; cbn [nB nE nT]; try rewrite upd_length; auto; lia|]. cbn [nE]. change (2^28) with 268435456. lia. }
    destruct (may_fields _ _ _ PRE HR) as [(F1 & _)|[(_ & F2 & _)|(_ & _ & -> & F4)]]; cbn [nB nE nT] in *; try lia.
    rewrite F4. cbn [bind]. splits; auto; lia.
  Qed.

  (** each call: the entries moved are paid for by the allowance of a new key *)
  Lemma step_paid t (m : fmap K V) o m' a t' n : models hash t m -> nE t < 2^28 -> load_inv t -> sized t -> plain o ->
    spec_step keqb dflt m o = Some (m', a) -> step keqb hash dflt t o = Ret (t', a) -> nE t' <= n ->
    exists c, step_c keqb hash dflt t o = Ret (t', a, c) /\ sized t' /\
      4 * c + phi t' <= phi t + (if adds keqb m o then allowance n else 0).
  Proof.
    intros HM Hsm HL HZ HP HS HT Hn. pose proof HM as (HH & _ & _). pose proof (proj1 HH) as HC.
    assert (INS : forall k mk touch (g : bool -> entry -> answer V),
      '(t1, ex, e) <- insert fst keqb hash t k mk touch ;; Ret (t1, g ex e) = Ret (t', a) ->
      exists c, ('(t1, ex, e, c1) <- insert_c keqb hash t k mk touch ;; Ret (t1, g ex e, c1)) = Ret (t', a, c) /\ sized t' /\
        4 * c + phi t' <= phi t + (if negb (has keqb m k) then allowance n else 0)).
    { intros k mk touch g HX. apply bind_ret in HX as ([[x ex] e] & Hi & [= <- <-]).
      assert (Hex : ex = has keqb m k).
      { unfold has. destruct (insert_ok fst keqb hash keqb_ok t k mk touch HC Hsm) as (t2 & ex2 & e2 & HI2 & _ & _ & _ & HD).
        rewrite Hi in HI2. injection HI2 as <- <- <-.
        destruct HD as [(-> & _ & l1 & [k0 v0] & l2 & Ht & Hk & _)|(-> & _ & _ & _ & HX)].
        - cbn in Hk. subst k0. rewrite (models_in keqb hash keqb_ok t m k v0 HM); auto. rewrite Ht. apply in_or_app. cbn. auto.
        - rewrite (models_notin keqb hash keqb_ok t m k HM); auto. apply HX. auto. }
      destruct (insert_fields t k mk touch x ex e HC Hsm Hi) as (c & -> & HF). cbn [bind]. exists c. split; [reflexivity|]. rewrite <- Hex.
      destruct ex; cbn [negb].
      - destruct HF as (-> & F1 & F2 & F3). unfold sized, phi, psi. rewrite F1, F2, F3. split; [exact HZ|lia].
      - destruct (started_phi t HC HZ) as [<- HZ2].
        assert (HCs : CInv (started t)) by (eapply started_C; eauto).
        assert (HB : nB (started t) < 2^29).
        { unfold CInv in HCs. destruct (tbl (started t)) as [bs|] eqn:Eb; [destruct HCs as [[? ? ? ? ?] ?]; assumption|destruct HCs as (-> & _); reflexivity]. }
        destruct (grew_phi (started t) x c n HZ2 HB (proj1 (load_started t HC HL)) HF Hn) as [G1 G2]. split; [right; exact G2|exact G1]. }
    destruct o as [k|k v|k|k| | | | |s]; cbn [adds step_c step] in *.
    - apply (INS k (k, dflt) (fun e => e) (fun ex e => AInserted ex (snd e))). exact HT.
    - apply (INS k (k, v) (fun e => (fst e, v)) (fun ex e => ASet ex)). exact HT.
    - apply bind_ret in HT as ([x ex] & Hi & [= <- <-]). destruct (erase_fields t k x ex HC Hsm HL Hi) as (-> & F1 & F2 & F3). cbn [bind].
      exists 0. split; [reflexivity|]. unfold sized, phi, psi. rewrite F1, F3. split; [exact HZ|]. nia.
    - apply bind_ret in HT as (x & Hi & [= <- <-]). rewrite Hi. cbn [bind]. exists 0. splits; auto. lia.
    - injection HT as <- <-. exists 0. splits; auto. lia.
    - injection HT as <- <-. exists 0. splits; auto. lia.
    - injection HT as <- <-. exists 0. split; [reflexivity|]. unfold clear, sized, phi, psi. destruct (nE t =? 0); [split; [exact HZ|lia]|].
      split; [left; reflexivity|]. exact (N.le_0_l _).
    - apply bind_ret in HT as (x & Hi & [= <- <-]). unfold rehash in Hi.
      assert (HI : nB t < 2^29 /\ nE t + nT t <= nB t).
      { unfold CInv in HC. destruct (tbl t) as [bs|]; [|destruct HC as (-> & -> & ->); split; reflexivity || lia].
        destruct HC as [[HB HE HT Hbig Hpos] Hem]. pose proof (count_total bs). split; [exact Hbig|lia]. }
      destruct HI as [HI1 HI2]. rewrite may_rehash_idle in Hi; [|exact HI1|exact HI2|apply HL]. injection Hi as <-.
      assert (HC2 : may_rehash_c t = Ret (t, 0)).
      { pose proof (may_same t) as HS2. rewrite may_rehash_idle in HS2; [|exact HI1|exact HI2|apply HL]. unfold may_rehash_c in *.
        unfold CInv in HC. destruct (tbl t) as [bs|] eqn:Ebs.
        - assert (PRE : pre_rehash bs t) by (split; [exact Ebs|split; [exact (proj1 HC)|lia]]).
          pose proof (may_rehash_idle t HI1 HI2 (proj1 HL)) as HX. destruct HL as [[L1 L2] _].
          destruct (may_fields _ _ _ PRE HX) as [(F1 & _)|[(_ & F2 & _)|(_ & _ & _ & F4)]]; try lia. exact F4.
        - destruct HC as (C1 & C2 & C3). rewrite C1, C2, C3. reflexivity. }
      rewrite HC2. cbn [bind]. exists 0. splits; auto. lia.
    - destruct HP.
  Qed.

  Lemma run_paid l : forall t (m m' : fmap K V) as_ n, models hash t m -> load_inv t -> sized t -> nE t + N.of_nat (length l) <= 2^28 -> Forall plain l ->
    nE t + N.of_nat (additions keqb dflt m l) <= n -> spec_run keqb dflt m l = Some (m', as_) ->
    exists t' c, run_c keqb hash dflt t l = Ret (t', as_, c) /\ 4 * c + phi t' <= phi t + N.of_nat (additions keqb dflt m l) * allowance n.
  Proof.
    induction l as [|o l IH]; intros t m m' as_ n HM HL HZ Hl HP Hn HS.
    { cbn in *. injection HS as <- <-. exists t, 0. split; [reflexivity|lia]. }
    inversion HP as [|? ? HPo HPl]; subst. cbn [length] in Hl. change (2^28) with 268435456 in Hl.
    cbn [spec_run] in HS. destruct (spec_step keqb dflt m o) as [[m1 a]|] eqn:E1; [|discriminate].
    destruct (spec_run keqb dflt m1 l) as [[m2 as2]|] eqn:E2; [|discriminate]. injection HS as <- <-.
    assert (Hn1 : nE t < 2^28) by (change (2^28) with 268435456; lia).
    destruct (step_ok keqb hash keqb_ok dflt t m o m1 a HM Hn1 E1) as (t1 & HT & HM1 & HnE).
    pose proof (step_load keqb hash dflt keqb_ok t m o m1 a t1 HM Hn1 HL HPo E1 HT) as HL1.
    cbn [additions] in Hn |- *. rewrite E1 in Hn |- *.
    assert (HE1 : nE t1 <= nE t + (if adds keqb m o then 1 else 0)).
    { destruct (adds keqb m o) eqn:Ea; [exact HnE|]. rewrite (models_card hash t1 m1 HM1), (models_card hash t m HM).
      assert (HN : NoDup (map fst m)) by apply HM. assert (HN1 : NoDup (map fst m1)) by apply HM1.
      rewrite N.add_0_r. destruct o as [k|k v|k|k| | | | |s]; try (eapply (quiet_card keqb hash dflt keqb_ok); [exact HN1| |exact E1]; unfold quiet; cbn [adds] in Ea; first [exact I|now apply negb_false_iff]).
      - cbn in E1. injection E1 as <- <-. unfold card. cbn. lia.
      - destruct HPo. }
    destruct (step_paid t m o m1 a t1 n HM Hn1 HL HZ HPo E1 HT) as (c1 & HT1 & HZ1 & HC1).
    { destruct (adds keqb m o); lia. }
    destruct (IH t1 m1 m2 as2 n HM1 HL1 HZ1 ltac:(change (2^28) with 268435456; lia) HPl ltac:(destruct (adds keqb m o); lia) E2) as (t2 & c2 & HT2 & HC2).
    exists t2, (c1 + c2). cbn [run_c]. rewrite HT1. cbn [bind]. rewrite HT2. cbn [bind]. split; [reflexivity|].
    destruct (adds keqb m o); lia.
  Qed.

  Lemma new_sized size : size < 2^28 -> sized (new_table (E := entry) size) /\ phi (new_table size) = 0 /\ nT (new_table (E := entry) size) = 0.
  Proof.
    intros Hs. unfold new_table, sized, phi, psi. destruct (u32 size =? 0) eqn:E0; [split; [left; reflexivity|split; reflexivity]|].
    assert (Hz : size_ok (compute_bucket_size (u32 size))).
    { apply compute_size. unfold u32. change (2^28) with 268435456 in Hs. change (2^31) with 2147483648. rewrite N.mod_small; lia. }
    unfold init. rewrite E0. cbn [nB nE nT]. splits; auto. rewrite N.mul_0_r. cbn [N.sub]. now rewrite N.mul_0_r.
  Qed.

  Lemma moves_upper size l m as_ : size < 2^28 -> N.of_nat (length l) <= 2^28 -> Forall plain l -> spec_run keqb dflt [] l = Some (m, as_) ->
    exists t c, run_c keqb hash dflt (new_table size) l = Ret (t, as_, c) /\
      let n := N.of_nat (additions keqb dflt [] l) in c <= (19 + n / 49000) * n.
  Proof.
    intros Hs Hl HP HS. destruct (models_new (V := V) hash size Hs) as [HM HE]. destruct (new_sized size Hs) as (HZ & Hphi & _).
    destruct (run_paid l (new_table size) [] m as_ (N.of_nat (additions keqb dflt [] l)) HM (new_load fst hash size Hs) HZ) as (t & c & HR & HC); auto; try (rewrite HE; lia).
    exists t, c. split; [exact HR|]. cbv zeta. rewrite Hphi in HC. unfold allowance in HC. lia.
  Qed.

  (** ** Lower bound: new keys only *)
  Lemma run_fresh keys : forall t (m : fmap K V) c0, models hash t m -> nT t = 0 -> load_inv t -> sized t -> nE t + N.of_nat (length keys) <= 2^28 ->
    NoDup keys -> (forall k, In k keys -> ~ In k (map fst m)) -> nB t * nB t <= 289 + 480000 * c0 ->
    exists t' as_ c, run_c keqb hash dflt t (map OpInsert keys) = Ret (t', as_, c) /\ nE t' = nE t + N.of_nat (length keys) /\
      4 * nE t' <= 3 * nB t' /\ nB t' * nB t' <= 289 + 480000 * (c0 + c).
  Proof.
    induction keys as [|k keys IH]; intros t m c0 HM HT HL HZ Hn HD HI HB.
    { exists t, [], 0. destruct HL as [[L1 _] _]. cbn [length map run_c]. rewrite !N.add_0_r. splits; auto. }
    inversion HD as [|? ? HD1 HD2]; subst. cbn [length] in Hn. change (2^28) with 268435456 in Hn.
    assert (Hn1 : nE t < 2^28) by (change (2^28) with 268435456; lia).
    assert (Hg : get keqb m k = None).
    { destruct (get keqb m k) as [v|] eqn:Eg; [|reflexivity]. exfalso. apply (HI k (or_introl eq_refl)).
      clear - Eg keqb_ok. induction m as [|[k' v'] m IH]; [discriminate|]. cbn in *. destruct (keqb_ok k' k) as [->|]; auto. }
    assert (HS : spec_step keqb dflt m (OpInsert k) = Some (put keqb m k dflt, AInserted false dflt)) by (cbn; rewrite Hg; reflexivity).
    destruct (step_ok keqb hash keqb_ok dflt t m _ _ _ HM Hn1 HS) as (t1 & HT1 & HM1 & _).
    pose proof (step_load keqb hash dflt keqb_ok t m (OpInsert k) _ _ t1 HM Hn1 HL I HS HT1) as HL1.
    cbn [step] in HT1. apply bind_ret in HT1 as ([[x ex] e] & Hi & [= -> -> Hv]).
    pose proof HM as (HH & _ & _). pose proof (proj1 HH) as HC.
    destruct (insert_fields t k (k, dflt) (fun e => e) t1 false e HC Hn1 Hi) as (c1 & HI1 & HG).
    destruct (started_phi t HC HZ) as [_ HZs].
    assert (HCs : CInv (started t)) by (eapply started_C; eauto).
    assert (HBs : nB (started t) < 2^29).
    { unfold CInv in HCs. destruct (tbl (started t)) as [bs|] eqn:Eb; [destruct HCs as [[? ? ? ? ?] ?]; assumption|destruct HCs as (-> & _); reflexivity]. }
    assert (HEs : nE (started t) = nE t /\ nT (started t) = 0 /\ nB (started t) * nB (started t) <= 289 + 480000 * c0).
    { unfold started. destruct (isInit t) eqn:Ei; [auto|]. unfold CInv in HC. unfold isInit in Ei. destruct (tbl t); [discriminate|]. destruct HC as (_ & -> & _).
      splits; try reflexivity. change (nB (init (E := entry) 16)) with 17. lia. }
    destruct HEs as (HE1 & HE2 & HE3).
    assert (HZ1 : sized t1 /\ nT t1 = 0 /\ nE t1 = nE t + 1 /\ nB t1 * nB t1 <= 289 + 480000 * (c0 + c1)).
    { destruct HG as (E & T & -> & HTt & HG). change (2^29) with 536870912 in HBs.
      assert (HB31 : nB (started t) < 2^31) by (change (2^31) with 2147483648; lia).
      pose proof (grown_gap _ HB31 HZs) as Hgap. destruct (grown _ HB31 HZs) as [Hgs _].
      destruct HG as [(F1 & F2 & F3 & F4 & ->)|[(F1 & F2 & F3 & F4 & F5 & ->)|(F1 & F2 & F3 & F4 & F5 & ->)]].
      - unfold sized. rewrite F2, F3, F4. splits; auto; try lia.
      - exfalso. lia.
      - unfold sized. rewrite F3, F4, F5. splits; auto; lia. }
    destruct HZ1 as (HZ1 & HT2 & HE4 & HB1).
    destruct (IH t1 (put keqb m k dflt) (c0 + c1) HM1 HT2 HL1 HZ1 ltac:(change (2^28) with 268435456; lia) HD2) as (t2 & as2 & c2 & HR & R1 & R2 & R3); auto.
    { intros k' Hk' [H|H]; [cbn in H; subst; contradiction|]. apply (HI k' (or_intror Hk')).
      clear - H. induction m as [|[k1 v1] m IHm]; [destruct H|]. cbn in *. destruct (keqb k1 k); [right; auto|]. destruct H as [H|H]; [left; exact H|right; auto]. }
    exists t2, (AInserted false (snd e) :: as2), (c1 + c2). cbn [map run_c step_c]. rewrite HI1. cbn [bind]. rewrite HR. cbn [bind].
    splits; auto; [cbn [length]; lia|]. rewrite N.add_assoc. exact R3.
  Qed.

  Lemma moves_lower size keys : size <= 16 -> NoDup keys -> 14 <= N.of_nat (length keys) <= 2^28 ->
    exists t as_ c, run_c keqb hash dflt (new_table size) (map OpInsert keys) = Ret (t, as_, c) /\
      N.of_nat (length keys) * N.of_nat (length keys) <= 280000 * c.
  Proof.
    intros Hs HD Hn. assert (Hs2 : size < 2^28) by (change (2^28) with 268435456; lia). change (2^28) with 268435456 in Hn.
    destruct (models_new (V := V) hash size Hs2) as [HM HE]. destruct (new_sized size Hs2) as (HZ & _ & HT).
    assert (HB : nB (new_table (E := entry) size) * nB (new_table (E := entry) size) <= 289 + 480000 * 0).
    { unfold new_table. assert (Eu : u32 size = size) by (unfold u32; apply N.mod_small; lia). rewrite Eu. destruct (size =? 0) eqn:E0; [cbn; lia|].
      unfold init. rewrite E0. cbn [nB]. unfold compute_bucket_size, bucket_sizes. cbn [find].
      repeat match goal with |- context [size <? ?c] => destruct (N.ltb_spec size c); [lia|] end; lia. }
    destruct (run_fresh keys (new_table size) [] 0 HM HT (new_load fst hash size Hs2) HZ) as (t & as_ & c & HR & R1 & R2 & R3); auto.
    { rewrite HE. change (2^28) with 268435456. lia. }
    exists t, as_, c. split; [exact HR|]. rewrite HE in R1. set (n := N.of_nat (length keys)) in *. rewrite R1 in R2.
    assert (H1 : 16 * (n * n) <= 9 * (nB t * nB t)) by nia. assert (H2 : 196 <= n * n) by nia. lia.
  Qed.
End Fields.

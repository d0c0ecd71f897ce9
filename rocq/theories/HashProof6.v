(** Last steps towards the statements of HashProps.v. *)
From Verif Require Import Base HashModel HashSpec HashProof HashProof2 HashProof3 HashProof4 HashProof5.
From Coq Require Import List NArith ZArith Lia Bool Permutation Arith.
Import ListNotations.
Local Open Scope N_scope.

Section P.
  Context {K V : Type}.
  Variable keqb : K -> K -> bool.
  Variable hash : K -> N.
  Variable dflt : V.
  Hypothesis keqb_ok : forall a b, reflect (a = b) (keqb a b).

  Lemma spec_run_app l1 l2 : forall m0 m1 as1, spec_run keqb dflt m0 l1 = Some (m1, as1) ->
    spec_run keqb dflt m0 (l1 ++ l2) =
    match spec_run keqb dflt m1 l2 with Some (m2, as2) => Some (m2, as1 ++ as2) | None => None end.
  Proof.
    induction l1 as [|o l1 IH]; intros m0 m1 as1 E.
    - cbn [spec_run] in E. injection E as -> <-. cbn [app].
      destruct (spec_run keqb dflt m1 l2) as [[? ?]|]; reflexivity.
    - cbn [spec_run app] in *. destruct (spec_step keqb dflt m0 o) as [[mm a]|]; [|discriminate].
      destruct (spec_run keqb dflt mm l1) as [[mm' as2]|] eqn:E2; [|discriminate]. injection E as -> <-.
      rewrite (IH mm m1 as2 E2). destruct (spec_run keqb dflt m1 l2) as [[? ?]|]; reflexivity.
  Qed.

  Lemma ents_occupied (bs : list (bucket (K * V))) :
    length (ents bs) = length (filter (fun b => match bslot b with Full _ => true | _ => false end) bs).
  Proof.
    induction bs as [|b bs IH]; auto. rewrite ents_cons, app_length, IH. cbn [filter].
    destruct (bslot b); reflexivity.
  Qed.

  Lemma load_counts (t : table (K * V)) : CInv t -> load_ok t ->
    4 * occupied t <= 3 * N.of_nat (length (buckets t)) /\ N.of_nat (length (buckets t)) <= 8 * never_used t.
  Proof.
    unfold CInv, load_ok, occupied, never_used, buckets. destruct (tbl t) as [bs|].
    - intros [[HB HE HT Hbig Hpos] _] [H1 H2]. rewrite <- ents_occupied.
      change (length (filter (fun b => match bslot b with Empty => true | _ => false end) bs)) with (empties bs).
      pose proof (count_total bs). lia.
    - cbn. intros. lia.
  Qed.

  Lemma probes_end size l : size < 2^28 -> N.of_nat (length l) <= 2^28 -> Forall plain l ->
    exists t as_, run keqb hash dflt (new_table size) l = Ret (t, as_) /\
      (forall bs, tbl t = Some bs -> exists b, In b bs /\ bslot b = Empty) /\
      (forall k, count fst keqb hash t k <> Diverge /\ count fst keqb hash t k <> UB OutOfBounds).
  Proof.
    intros Hs Hl HF. destruct (spec_run_total keqb dflt l [] HF) as (m & as_ & Hr).
    destruct (reached keqb hash dflt keqb_ok size l m as_ Hs Hl Hr) as (t & HR & (HI & _) & HE & _).
    exists t, as_. split; auto. split.
    - intros bs Hb. pose proof (proj1 HI) as HC. unfold CInv in HC. rewrite Hb in HC.
      destruct (empties_ex bs (proj2 HC)) as (i & b & Hi & He). exists b. split; auto. eapply nth_error_In; eauto.
    - intros k. destruct (tbl t) as [bs|] eqn:Hb.
      + destruct (count_cases fst keqb hash keqb_ok t k bs HI HE Hb) as [(_ & ->)|[(_ & _ & ->)|(_ & _ & ->)]]; split; discriminate.
      + rewrite (count_null fst keqb hash t k (proj1 HI) Hb). split; discriminate.
  Qed.

  Lemma load_bounded size l : size < 2^28 -> N.of_nat (length l) <= 2^28 -> Forall plain l ->
    exists t as_, run keqb hash dflt (new_table size) l = Ret (t, as_) /\
      4 * occupied t <= 3 * N.of_nat (length (buckets t)) /\ N.of_nat (length (buckets t)) <= 8 * never_used t.
  Proof.
    intros Hs Hl HF. destruct (spec_run_total keqb dflt l [] HF) as (m & as_ & Hr).
    destruct (reached keqb hash dflt keqb_ok size l m as_ Hs Hl Hr) as (t & HR & (HI & _) & _ & HL).
    exists t, as_. split; auto. apply load_counts; [apply HI|]. apply (HL HF).
  Qed.

  Lemma iterate_short (t : table (K * V)) : CInv t -> forall n, (n < N.to_nat (nE t))%nat -> traverse n t = Diverge.
  Proof.
    intros HC n Hn.
    pose proof (traverse_ok t (N.to_nat (nE t)) HC (Nat.le_refl _)) as HT. pose proof (CInv_card _ HC) as Hc.
    unfold traverse in *. destruct (begin_iter t) as [it| | | |]; cbn [bind] in *; try discriminate.
    assert (G : forall f it l, iterate f t it = Ret l -> forall n, (n < length l)%nat -> iterate n t it = Diverge).
    { clear. induction f as [|f IH]; intros it l H n Hn; destruct it as [i|]; cbn in H; try discriminate;
        try (injection H as <-; cbn in Hn; lia).
      apply bind_ret in H as (e & He & H). apply bind_ret in H as (it' & Ha & H). apply bind_ret in H as (l' & Hl & H).
      injection H as <-. destruct n as [|n]; [reflexivity|]. cbn. cbn in He, Ha. rewrite He. cbn [bind]. rewrite Ha. cbn [bind].
      rewrite (IH _ _ Hl n); [reflexivity|]. cbn in Hn. lia. }
    eapply G; eauto. lia.
  Qed.

  Lemma iteration size l m as_ : size < 2^28 -> N.of_nat (length l) <= 2^28 -> spec_run keqb dflt [] l = Some (m, as_) ->
    exists t es, run keqb hash dflt (new_table size) l = Ret (t, as_) /\
      traverse (N.to_nat (card m)) t = Ret es /\ Permutation es m /\ NoDup (map fst es) /\
      (forall n, (n < N.to_nat (card m))%nat -> traverse n t = Diverge).
  Proof.
    intros Hs Hl Hr. destruct (reached keqb hash dflt keqb_ok size l m as_ Hs Hl Hr) as (t & HR & HM & _ & _).
    pose proof (models_card _ _ _ HM) as Hc. destruct HM as (HI & HN & HP).
    exists t, (tents t). rewrite <- Hc. split; auto. split; [apply traverse_ok; [apply HI|auto]|]. split; [apply Permutation_sym; auto|].
    split; [eapply Permutation_NoDup; [apply Permutation_map; eauto|auto]|]. intros. apply iterate_short; auto. apply HI.
  Qed.

  Lemma rehash_bad size l m as_ : size < 2^28 -> N.of_nat (length l) <= 2^28 -> spec_run keqb dflt [] l = Some (m, as_) ->
    0 < card m ->
    exists t, run keqb hash dflt (new_table size) l = Ret (t, as_) /\
      rehash_to t 0 = UB DivByZero /\
      (forall n, 0 < n < card m -> rehash_to t n = Diverge) /\
      (forall k, get keqb m k = None -> exists t', rehash_to t (card m) = Ret t' /\ find_entry fst keqb hash t' k = Diverge).
  Proof.
    intros Hs Hl Hr Hp. destruct (reached keqb hash dflt keqb_ok size l m as_ Hs Hl Hr) as (t & HR & HM & _ & _).
    pose proof (models_card _ _ _ HM) as Hc. destruct HM as (HI & HN & HP). rewrite <- Hc in *.
    exists t. split; auto. split; [apply rehash_to_zero; [apply HI|auto]|]. split.
    - intros n [H1 H2]. apply (rehash_to_small (K := K) fst keqb hash keqb_ok); auto. apply HI.
    - intros k Hk. destruct (rehash_to_exact fst keqb hash keqb_ok t k (proj1 HI) Hp) as (t' & H1 & _ & H2).
      + intros Hin. apply (get_None keqb keqb_ok) in Hk. apply Hk. 
        apply (Permutation_in _ (Permutation_map fst (Permutation_sym HP))). auto.
      + exists t'. split; auto. unfold find_entry. rewrite H2. reflexivity.
  Qed.

  Lemma count_reached size l m as_ : size < 2^28 -> N.of_nat (length l) <= 2^28 -> spec_run keqb dflt [] l = Some (m, as_) ->
    exists t, run keqb hash dflt (new_table size) l = Ret (t, as_) /\
      forall k,
       (0 < card m -> has keqb m k = true ->
          count fst keqb hash t k = Ret (N.of_nat (length (filter (fun e => u32 (hash (fst e)) =? u32 (hash k)) m)))) /\
       (0 < card m -> has keqb m k = false -> u32 (hash k) <> 0 -> count fst keqb hash t k = Ret 0) /\
       (has keqb m k = false -> u32 (hash k) = 0 ->
          count fst keqb hash t k = UB NullDeref \/ count fst keqb hash t k = UB DivByZero).
  Proof.
    intros Hs Hl Hr. destruct (reached keqb hash dflt keqb_ok size l m as_ Hs Hl Hr) as (t & HR & HM & HE & _).
    exists t. split; auto. intros k. pose proof (models_card _ _ _ HM) as Hc. destruct HM as (HI & HN & HP).
    assert (Hin : has keqb m k = true <-> In k (map fst (tents t))).
    { unfold has. rewrite <- (Permutation_map fst HP). pose proof (get_None keqb keqb_ok m k) as G.
      destruct (get keqb m k) as [v|] eqn:E; split; auto; try discriminate.
      - intros _. apply (get_Some keqb keqb_ok) in E; auto. apply (in_map fst) in E. auto.
      - intros Hi. exfalso. apply G; auto. }
    destruct (tbl t) as [bs|] eqn:Hb.
    - destruct (count_cases fst keqb hash keqb_ok t k bs HI HE Hb) as [(Hi & ->)|[(Hi & Hz & ->)|(Hi & Hz & ->)]].
      + split; [|split]; intros; try (apply Hin in Hi; congruence).
        do 2 f_equal. unfold same_hash. symmetry. apply Permutation_length. clear - HP.
        induction HP; cbn; auto; repeat match goal with |- context [if ?b then _ else _] => destruct b end; auto.
        * apply perm_swap.
        * eapply perm_trans; eauto.
      + split; [|split]; intros; auto; try contradiction. apply Hin in H0. contradiction.
      + split; [|split]; intros; auto; try contradiction. apply Hin in H0. contradiction.
    - pose proof (proj1 HI) as HC. pose proof HC as HC'. unfold CInv in HC'. rewrite Hb in HC'.
      split; [|split]; intros; try lia. right. apply count_null; auto.
  Qed.
End P.

(** Proofs for C95. *)
From Verif Require Import Base HashModel StringMapModel JsonSpec JsonModel JsonDenotes JsonProof2 JsonProof5 JsonLengthProof
  JsonPathSpec JsonPathModel.
From Coq Require Import List Arith NArith ZArith Bool Permutation Lia.
Import ListNotations.
Local Open Scope nat_scope.

Lemma cap_arr l : length l <= cap (AArr l).
Proof. cbn [cap]. induction l as [|x l IH]; [cbn; lia|]. rewrite sum_cons. cbn [length]. lia. Qed.
Lemma cap_in x l : In x l -> cap x <= cap (AArr l).
Proof.
  cbn [cap]. induction l as [|y l IH]; [intros []|]. rewrite sum_cons. intros [->|H]; [lia|]. specialize (IH H). lia.
Qed.
Lemma last_binding_in k a ms : last_binding k ms = Some a -> In (k, a) ms.
Proof.
  induction ms as [|[k' b] ms IH]; cbn; [discriminate|]. destruct (last_binding k ms).
  - intros [= ->]. auto.
  - destruct (bytes_eqb_spec k' k) as [->|]; [|discriminate]. intros [= ->]. auto.
Qed.
Lemma cap_member k a ms : In (k, a) ms -> cap a <= cap (AObj ms).
Proof.
  cbn [cap]. induction ms as [|[k' b] ms IH]; [intros []|]. rewrite sum_cons. cbn [fst snd].
  intros [[= -> ->]|H]; [lia|]. specialize (IH H). lia.
Qed.

Lemma in_keys k ms : In k (keys ms) <-> In k (map fst ms).
Proof.
  induction ms as [|[k' a] ms IH]; [reflexivity|]. cbn [keys map fst].
  destruct (existsb (bytes_eqb k') (keys ms)) eqn:E; cbn [In].
  - rewrite IH. split; auto. intros [<-|H]; auto. apply existsb_exists in E as (x & Hx & E).
    destruct (bytes_eqb_spec k' x) as [->|]; [|discriminate]. apply IH; auto.
  - rewrite IH. reflexivity.
Qed.

Lemma keys_distinct ms : N.of_nat (length (keys ms)) = distinct ms.
Proof.
  unfold distinct. f_equal. induction ms as [|[k a] ms IH]; [reflexivity|]. cbn [keys map fst nodup].
  destruct (existsb (bytes_eqb k) (keys ms)) eqn:E, (in_dec bytes_dec k (map fst ms)) as [Hi|Hi]; auto.
  - exfalso. apply Hi. apply in_keys. apply existsb_exists in E as (x & Hx & E).
    destruct (bytes_eqb_spec k x) as [->|]; [auto|discriminate].
  - exfalso. apply in_keys in Hi.
    assert (existsb (bytes_eqb k) (keys ms) = true); [|congruence].
    apply existsb_exists. exists k. split; auto. destruct (bytes_eqb_spec k k); congruence.
  - cbn [length]. congruence.
Qed.

Lemma Forall2_nth {A B} (R : A -> B -> Prop) l l' : Forall2 R l l' -> forall i b, nth_error l' i = Some b ->
  exists a, nth_error l i = Some a /\ R a b.
Proof.
  induction 1; intros [|i] b Hb; cbn in *; try discriminate; eauto. injection Hb as <-. eauto.
Qed.

Lemma see_denotes v a : denotes v a -> see v = found_here a.
Proof.
  destruct 1 as [| | |vs l HF|t ms HE _ _ _]; cbn [see found_here]; auto.
  - f_equal. clear -HF. induction HF; cbn; auto.
  - f_equal. rewrite HE, <- keys_distinct. lia.
Qed.

Lemma follow_five p : observe (JInt 5) p = Ret (follow (AInt 5) p).
Proof.
  unfold observe. induction p as [|[k|i] p IH]; cbn [walk follow value_key value_idx bind]; auto.
Qed.

Lemma observe_key v k p : observe v (Key k :: p) =
  match value_key v k with Ret w => observe w p | Throw OutOfRangeKey => Ret FNoKey
  | Throw OutOfRangeVector => Ret FNoIndex | Throw e => Throw e | UB u => UB u | Diverge => Diverge | Exit n => Exit n end.
Proof. unfold observe. cbn [walk]. destruct (value_key v k); reflexivity. Qed.
Lemma observe_index v i p : observe v (Index i :: p) =
  match value_idx v i with Ret w => observe w p | Throw OutOfRangeKey => Ret FNoKey
  | Throw OutOfRangeVector => Ret FNoIndex | Throw e => Throw e | UB u => UB u | Diverge => Diverge | Exit n => Exit n end.
Proof. unfold observe. cbn [walk]. destruct (value_idx v i); reflexivity. Qed.

Lemma observe_denotes p : forall v a, (N.of_nat (cap a) < 2^63)%N -> int_indices p -> denotes v a ->
  observe v p = Ret (follow a p).
Proof.
  induction p as [|x p IH]; intros v a Hc Hp Hd.
  - unfold observe. cbn [walk follow]. now rewrite (see_denotes v a Hd).
  - assert (Hp' : int_indices p) by (intros i Hi; apply Hp; right; auto).
    destruct x as [k|i].
    + rewrite observe_key. cbn [follow].
      destruct Hd as [z|b|s|vs l HF|t ms _ H1 H2 _]; cbn [value_key]; try apply follow_five.
      destruct (last_binding k ms) as [b|] eqn:E.
      * destruct (H1 _ _ E) as (v & -> & Hv). apply IH; auto.
        apply last_binding_in, cap_member in E. lia.
      * rewrite (H2 _ E). reflexivity.
    + rewrite observe_index. cbn [follow].
      destruct Hd as [z|b|s|vs l HF|t ms _ H1 H2 _]; try (cbn [value_idx]; apply follow_five).
      assert (Hl : length vs = length l) by (clear -HF; induction HF; cbn; auto).
      rewrite value_idx_arr; [|pose proof (cap_arr l); lia|apply Hp; left; auto].
      destruct (Z.ltb_spec i 0) as [Hi|Hi].
      { replace (0 <=? i)%Z with false by (symmetry; apply Z.leb_gt; lia). reflexivity. }
      replace (0 <=? i)%Z with true by (symmetry; apply Z.leb_le; lia). cbn [andb].
      destruct (nth_error l (Z.to_nat i)) as [b|] eqn:E.
      * destruct (Forall2_nth _ _ _ HF _ _ E) as (v & Hv & Hb).
        replace (i <? Z.of_nat (length vs))%Z with true.
        2: { symmetry. apply Z.ltb_lt. assert (Z.to_nat i < length vs) by (apply nth_error_Some; congruence). lia. }
        rewrite (nth_error_nth _ _ _ Hv). apply IH; auto.
        apply nth_error_In, cap_in in E. lia.
      * apply nth_error_None in E. replace (i <? Z.of_nat (length vs))%Z with false; [reflexivity|].
        symmetry. apply Z.ltb_ge. lia.
Qed.

Lemma path_found lay s a r : (N.of_nat (length s) < 2^28)%N -> gval (readable lay) s a r -> short_keys a ->
  exists v, parse lay s = Ret (true, v) /\ forall p, int_indices p -> observe v p = Ret (follow a p).
Proof.
  intros Hs Hg Hk. destruct (parse_exactly lay s Hs) as (ok & v & H1 & H2 & H3).
  assert (ok = true) by (apply H2; eauto). subst ok. exists v. split; auto. intros p Hp.
  apply observe_denotes; eauto.
  pose proof (text_length (readable lay) 6 s a r Hg (or_introl eq_refl)) as HL.
  change (2^63)%N with 9223372036854775808%N. change (2^28)%N with 268435456%N in Hs. lia.
Qed.

(** ** The order of members *)
Lemma binding_iff ms k a : NoDup (map fst ms) -> last_binding k ms = Some a <-> In (k, a) ms.
Proof.
  intros HN. split; [apply last_binding_in|].
  induction ms as [|[k' b] ms IH]; [intros []|]. cbn [last_binding map fst] in *. inversion HN as [|? ? Hk HN']; subst.
  intros [[= -> ->]|H].
  - destruct (last_binding k ms) as [c|] eqn:E.
    + exfalso. apply Hk. apply last_binding_in in E. apply (in_map fst) in E. auto.
    + destruct (bytes_eqb_spec k k); congruence.
  - rewrite (IH HN' H). reflexivity.
Qed.

Lemma keys_nodup ms : NoDup (map fst ms) -> length (keys ms) = length ms.
Proof.
  induction ms as [|[k a] ms IH]; [reflexivity|]. cbn [keys map fst]. intros H. inversion H as [|? ? Hk HN]; subst.
  destruct (existsb (bytes_eqb k) (keys ms)) eqn:E.
  - exfalso. apply Hk. apply in_keys. apply existsb_exists in E as (x & Hx & E).
    destruct (bytes_eqb_spec k x) as [->|]; [auto|discriminate].
  - cbn [length]. auto.
Qed.

Lemma follow_reordered p : forall a b, reordered a b -> follow a p = follow b p.
Proof.
  induction p as [|x p IH]; intros a b H.
  - destruct H as [a|l l' HF|ms ms1 ms' HN HP HF]; cbn [follow found_here]; auto.
    + f_equal. clear -HF. induction HF; cbn; auto.
    + f_equal. assert (HN1 : NoDup (map fst ms1)) by (eapply Permutation_NoDup; [apply Permutation_map; exact HP|auto]).
      assert (E : map fst ms' = map fst ms1) by (clear -HF; induction HF as [|? ? ? ? [H _]]; cbn; congruence).
      rewrite !keys_nodup by congruence. rewrite (Permutation_length HP).
      clear -HF. induction HF; cbn; auto.
  - destruct x as [k|i]; cbn [follow]; destruct H as [a|l l' HF|ms ms1 ms' HN HP HF]; auto.
    + assert (HN1 : NoDup (map fst ms1)) by (eapply Permutation_NoDup; [apply Permutation_map; exact HP|auto]).
      assert (HB : match last_binding k ms1, last_binding k ms' with
                   | Some a, Some b => reordered a b | None, None => True | _, _ => False end).
      { clear -HF. induction HF as [|[k1 a] [k2 b] l l' [E HR] HF IH]; cbn [last_binding]; auto. cbn [fst snd] in *. subst k2.
        destruct (last_binding k l), (last_binding k l'); try tauto. destruct (bytes_eqb k1 k); auto. }
      assert (E : last_binding k ms = last_binding k ms1).
      { destruct (last_binding k ms) as [a|] eqn:E.
        - symmetry. apply binding_iff; auto. apply binding_iff in E; auto. eapply Permutation_in; eauto.
        - destruct (last_binding k ms1) as [a|] eqn:E1; auto. apply binding_iff in E1; auto.
          apply (Permutation_in _ (Permutation_sym HP)) in E1. apply binding_iff in E1; auto. congruence. }
      rewrite E. destruct (last_binding k ms1), (last_binding k ms'); try tauto. auto.
    + destruct (i <? 0)%Z; auto. clear -HF IH. revert HF. generalize (Z.to_nat i) as n. intros n HF. revert n.
      induction HF as [|x y l l' HR HF IHF]; intros [|n]; cbn; auto.
Qed.

Lemma same_paths l1 l2 s1 s2 a1 a2 r1 r2 :
  (N.of_nat (length s1) < 2^28)%N -> (N.of_nat (length s2) < 2^28)%N ->
  gval (readable l1) s1 a1 r1 -> gval (readable l2) s2 a2 r2 -> short_keys a1 -> short_keys a2 -> reordered a1 a2 ->
  exists v1 v2, parse l1 s1 = Ret (true, v1) /\ parse l2 s2 = Ret (true, v2) /\
    forall p, int_indices p -> observe v1 p = observe v2 p.
Proof.
  intros H1 H2 G1 G2 K1 K2 HR.
  destruct (path_found l1 s1 a1 r1 H1 G1 K1) as (v1 & P1 & O1).
  destruct (path_found l2 s2 a2 r2 H2 G2 K2) as (v2 & P2 & O2).
  exists v1, v2. split; [auto|]. split; [auto|]. intros p Hp. rewrite O1, O2 by auto. f_equal. now apply follow_reordered.
Qed.

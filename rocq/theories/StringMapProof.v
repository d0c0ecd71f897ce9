(** StringMap refines a finite map for keys shorter than 65536 bytes; longer keys are lost. *)
From Verif Require Import Base HashSpec HashModel HasherModel StringMapSpec StringMapModel HashProof HashProof2.
From Coq Require Import List NArith Bool Lia Permutation.
Import ListNotations.
Local Open Scope N_scope.

Lemma bytes_eqb_ok : forall a b, reflect (a = b) (bytes_eqb a b).
Proof. intros a b. apply bytes_eqb_spec. Qed.

Lemma stored_key_short k : N.of_nat (length k) < 65536 -> stored_key k = k.
Proof.
  intros H. unfold stored_key, u16. rewrite N.mod_small by auto. rewrite Nat2N.id. apply firstn_all.
Qed.

Lemma stored_key_length k : N.of_nat (length (stored_key k)) < 65536.
Proof.
  unfold stored_key. rewrite firstn_length.
  assert (u16 (N.of_nat (length k)) < 65536) by (apply N.mod_lt; discriminate). lia.
Qed.

Section Proofs.
  Context {V : Type}.
  Variable dflt : V.
  Notation smap := (table (bytes * V)).

  Definition short (o : mop V) : Prop :=
    match mop_key o with Some k => N.of_nat (length k) < 65536 | None => True end.

  Lemma sm_step_ok (t : smap) m o : models hash_SDBM t m -> nE t < 2^28 -> short o ->
    exists t', sm_step dflt t o = Ret (t', snd (map_step dflt m o)) /\
               models hash_SDBM t' (fst (map_step dflt m o)) /\ nE t' <= nE t + 1.
  Proof.
    intros Hm Hn Hs. pose proof (models_card _ _ _ Hm) as Hc.
    unfold short in Hs. destruct o as [k v|k|k|k|k| |]; cbn [mop_key] in Hs; cbn [sm_step map_step fst snd].
    - destruct (step_ok bytes_eqb hash_SDBM bytes_eqb_ok dflt t m (OpSet k v) _ _ Hm Hn eq_refl) as (t' & H1 & H2 & H3).
      exists t'. split; auto. unfold sm_set. rewrite stored_key_short by auto. cbn [step] in H1.
      destruct (insert fst bytes_eqb hash_SDBM t k (k, v) (fun e => (fst e, v))) as [[[x b] e]| | | |]; cbn in *; try discriminate.
      injection H1 as -> _. reflexivity.
    - unfold sm_read. rewrite stored_key_short by auto.
      assert (HH : exists m' a, spec_step bytes_eqb dflt m (OpInsert k) = Some (m', a)).
      { cbn. destruct (get bytes_eqb m k); eauto. }
      destruct HH as (m' & a & HH).
      destruct (step_ok bytes_eqb hash_SDBM bytes_eqb_ok dflt t m (OpInsert k) _ _ Hm Hn HH) as (t' & H1 & H2 & H3).
      cbn [step] in H1. 
      destruct (insert fst bytes_eqb hash_SDBM t k (k, dflt) (fun e => e)) as [[[x b] e]| | | |]; cbn in H1; try discriminate.
      injection H1 as -> <-. exists t'. cbn [bind]. cbn in HH.
      destruct (get bytes_eqb m k); injection HH as <- <- ->; auto.
    - destruct (step_ok bytes_eqb hash_SDBM bytes_eqb_ok dflt t m (OpFind k) _ _ Hm Hn eq_refl) as (t' & H1 & H2 & H3).
      exists t. split; [|split; auto; lia]. cbn [step] in H1. unfold sm_at.
      destruct (find_entry fst bytes_eqb hash_SDBM t k) as [[e|]| | | |]; cbn in *; try discriminate;
        injection H1 as _ <-; reflexivity.
    - destruct (step_ok bytes_eqb hash_SDBM bytes_eqb_ok dflt t m (OpErase k) _ _ Hm Hn eq_refl) as (t' & H1 & H2 & H3).
      exists t'. split; auto. cbn [step] in H1. unfold sm_erase.
      destruct (erase fst bytes_eqb hash_SDBM t k) as [[x b]| | | |]; cbn in *; try discriminate.
      injection H1 as -> ->. reflexivity.
    - destruct (step_ok bytes_eqb hash_SDBM bytes_eqb_ok dflt t m (OpFind k) _ _ Hm Hn eq_refl) as (t' & H1 & H2 & H3).
      exists t. split; [|split; auto; lia]. cbn [step] in H1. unfold sm_find.
      destruct (find_entry fst bytes_eqb hash_SDBM t k) as [[e|]| | | |]; cbn in *; try discriminate;
        injection H1 as _ <-; reflexivity.
    - exists t. rewrite Hc. split; auto. split; auto. lia.
    - exists t. rewrite Hc. split; auto. split; auto. lia.
  Qed.

  Lemma sm_run_ok l : forall (t : smap) m, models hash_SDBM t m -> nE t + N.of_nat (length l) <= 2^28 ->
    Forall short l ->
    exists t', sm_run dflt t l = Ret (t', snd (map_run dflt m l)) /\ models hash_SDBM t' (fst (map_run dflt m l)).
  Proof.
    change (2^28) with 268435456.
    induction l as [|o l IH]; intros t m Hm Hn Hs.
    - exists t. auto.
    - cbn [length] in Hn. inversion Hs as [|x y Ho Hl]; subst.
      destruct (sm_step_ok t m o Hm) as (t1 & H1 & H2 & H3); auto; [change (2^28) with 268435456; lia|].
      destruct (IH t1 (fst (map_step dflt m o)) H2) as (t2 & H4 & H5); auto; [lia|].
      exists t2. cbn [sm_run map_run]. rewrite H1. cbn [bind]. rewrite H4. cbn [bind].
      destruct (map_step dflt m o) as [m1 a]. cbn [fst snd] in *.
      destruct (map_run dflt m1 l) as [m2 as_]. cbn [fst snd] in *. auto.
  Qed.

  (** any history, any keys: no undefined behaviour, and every stored key is shorter than 65536 *)
  Definition kshort (t : smap) : Prop := forall e, In e (tents t) -> N.of_nat (length (fst e)) < 65536.

  Lemma sm_step_any (t : smap) o : CInv t -> kshort t -> nE t < 2^28 ->
    exists t' a, sm_step dflt t o = Ret (t', a) /\ CInv t' /\ kshort t' /\ nE t' <= nE t + 1.
  Proof.
    intros HC Hk Hn.
    assert (Hfind : forall k, exists r, find_entry fst bytes_eqb hash_SDBM t k = Ret r).
    { intros k. unfold find_entry.
      destruct (find_key_cases fst bytes_eqb hash_SDBM bytes_eqb_ok t k HC) as [(bs & i & b & e & Hb & -> & Hi & Hf & _)|[-> _]]; cbn [bind].
      - unfold deref. rewrite Hb, Hi, Hf. cbn. eauto.
      - eauto. }
    assert (Hins : forall k mk touch, N.of_nat (length (fst mk)) < 65536 -> (forall e, fst (touch e) = fst e) ->
      exists t' ex e, insert fst bytes_eqb hash_SDBM t k mk touch = Ret (t', ex, e) /\ CInv t' /\ kshort t' /\ nE t' <= nE t + 1).
    { intros k mk touch Hmk Ht.
      destruct (insert_ok fst bytes_eqb hash_SDBM bytes_eqb_ok t k mk touch HC Hn) as (t' & ex & e & H1 & H2 & _ & _ & H3).
      exists t', ex, e. split; auto. split; auto.
      destruct H3 as [(-> & HE & l1 & e0 & l2 & Ht0 & Hk0 & -> & Ht' & _)|(-> & HE & -> & HP & _)]; split; try lia.
      - intros x Hx. rewrite Ht' in Hx. apply in_app_or in Hx as [Hx|[<-|Hx]].
        + apply Hk. rewrite Ht0. apply in_or_app. auto.
        + rewrite Ht. apply Hk. rewrite Ht0. apply in_or_app. cbn. auto.
        + apply Hk. rewrite Ht0. apply in_or_app. cbn. auto.
      - intros x Hx. apply (Permutation_in _ (Permutation_sym HP)) in Hx as [<-|Hx]; auto. }
    destruct o as [k v|k|k|k|k| |]; cbn [sm_step].
    - destruct (Hins k (stored_key k, v) (fun e => (fst e, v))) as (t' & ex & e & H1 & H2); [apply stored_key_length|auto|].
      unfold sm_set. rewrite H1. cbn. eauto.
    - destruct (Hins k (stored_key k, dflt) (fun e => e)) as (t' & ex & e & H1 & H2); [apply stored_key_length|auto|].
      unfold sm_read. rewrite H1. cbn. eauto.
    - destruct (Hfind k) as (r & Hr). unfold sm_at. rewrite Hr. exists t. cbn [bind].
      destruct r; eexists; (split; [reflexivity|]); split; auto; split; auto; lia.
    - destruct (erase_ok fst bytes_eqb hash_SDBM bytes_eqb_ok t k HC) as (t' & ex & H1 & H2 & _ & H3); [lia|].
      unfold sm_erase. rewrite H1. cbn. exists t'. eexists. split; eauto. split; auto.
      destruct H3 as [(-> & e & _ & HP & HE & _)|(-> & -> & _)]; split; auto; try lia.
      intros x Hx. apply Hk. apply (Permutation_in _ (Permutation_sym HP)). cbn. auto.
    - destruct (Hfind k) as (r & Hr). unfold sm_find. rewrite Hr. cbn. exists t. eexists. split; eauto. split; auto. split; auto. lia.
    - exists t. eexists. split; eauto. split; auto. split; auto. lia.
    - exists t. eexists. split; eauto. split; auto. split; auto. lia.
  Qed.

  Lemma sm_run_any l : forall (t : smap), CInv t -> kshort t -> nE t + N.of_nat (length l) <= 2^28 ->
    exists t' as_, sm_run dflt t l = Ret (t', as_) /\ CInv t' /\ kshort t' /\ length as_ = length l.
  Proof.
    change (2^28) with 268435456.
    induction l as [|o l IH]; intros t HC Hk Hn.
    - exists t, []. auto.
    - cbn [length] in Hn. destruct (sm_step_any t o HC Hk) as (t1 & a & H1 & H2 & H3 & H4); [change (2^28) with 268435456; lia|].
      destruct (IH t1 H2 H3) as (t2 & as_ & H5 & H6 & H7 & H8); [lia|].
      exists t2, (a :: as_). cbn [sm_run]. rewrite H1. cbn [bind]. rewrite H5. cbn. auto.
  Qed.

  Lemma sm_new_any n : n < 2^28 -> CInv (sm_new (V := V) n) /\ kshort (sm_new n) /\ nE (sm_new (V := V) n) = 0.
  Proof.
    intros Hn. destruct (models_new (K := bytes) (V := V) hash_SDBM n Hn) as [(H1 & H2 & H3) H4].
    split; [apply H1|]. split; auto.
    intros e He. unfold sm_new in He. apply (Permutation_in _ (Permutation_sym H3)) in He. destruct He.
  Qed.

  Lemma long_never_found (t : smap) k : CInv t -> kshort t -> 65536 <= N.of_nat (length k) ->
    sm_at t k = Throw OutOfRangeKey /\ sm_find t k = Ret None /\ sm_erase t k = Ret (t, false).
  Proof.
    intros HC Hk Hl.
    destruct (find_key_cases fst bytes_eqb hash_SDBM bytes_eqb_ok t k HC) as [(bs & i & b & e & Hb & Hfk & Hi & Hf & He)|[Hfk _]].
    - exfalso. assert (Hin : In e (tents t)).
      { unfold tents. rewrite Hb. apply in_ents. exists i, b. auto. }
      apply Hk in Hin. rewrite He in Hin. lia.
    - unfold sm_at, sm_find, sm_erase, find_entry, erase. rewrite Hfk. cbn. auto.
  Qed.
End Proofs.

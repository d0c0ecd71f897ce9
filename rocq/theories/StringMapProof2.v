(** Maps keep their buckets; copies. *)
From Verif Require Import Base HashSpec HashModel HashProof HashProof2 HasherModel StringMapSpec StringMapModel StringMapProof.
From Coq Require Import List NArith Bool Lia.
Import ListNotations.

Lemma short_all {V} h : (forall o k, In o h -> mop_key o = Some k -> (N.of_nat (length k) < 65536)%N) -> Forall (short (V := V)) h.
Proof.
  intros H. apply Forall_forall. intros o Ho. unfold short. destruct (mop_key o) eqn:E; auto. now apply (H o).
Qed.

Lemma may_rehash_some {V} (t t' : table (bytes * V)) : may_rehash t = Ret t' -> tbl t <> None -> tbl t' <> None.
Proof.
  unfold may_rehash, do_rehash. intros H Hn.
  destruct (_ <? _)%N; [|destruct (_ <? _)%N; [|injection H as <-; exact Hn]];
    apply bind_ret in H as (new & _ & H); injection H as <-; discriminate.
Qed.

Lemma insert_some {V} (t t' : table (bytes * V)) k mk touch ex e :
  insert fst bytes_eqb hash_SDBM t k mk touch = Ret (t', ex, e) -> tbl t' <> None.
Proof.
  unfold insert. intros H. apply bind_ret in H as ([t1 i] & _ & H).
  destruct (tbl t1) as [bs|]; [|discriminate]. destruct (nth_error bs i) as [b|]; [|discriminate].
  destruct (bslot b).
  - apply bind_ret in H as (t2 & H2 & H). injection H as <- _ _. apply may_rehash_some in H2; auto. discriminate.
  - apply bind_ret in H as (t2 & H2 & H). injection H as <- _ _. apply may_rehash_some in H2; auto. discriminate.
  - injection H as <- _ _. discriminate.
Qed.

Lemma sm_step_some {V} (dflt : V) (t t' : table (bytes * V)) o a : sm_step dflt t o = Ret (t', a) -> tbl t <> None -> tbl t' <> None.
Proof.
  destruct o as [k v|k|k|k|k| |]; cbn [sm_step]; intros H Hn.
  - apply bind_ret in H as (t1 & H1 & H). injection H as <- _. apply bind_ret in H1 as ([[t2 ex] e] & H1 & H). injection H as <-.
    eapply insert_some; eauto.
  - apply bind_ret in H as ([t1 v] & H1 & H). injection H as <- _. apply bind_ret in H1 as ([[t2 ex] e] & H1 & H). injection H as <- _.
    eapply insert_some; eauto.
  - destruct (sm_at t k); try discriminate; injection H as <- _; auto.
  - apply bind_ret in H as ([t1 b] & H1 & H). injection H as <- _. unfold sm_erase, erase in H1.
    apply bind_ret in H1 as ([i|] & _ & H1); [|injection H1 as <- _; auto].
    destruct (tbl t) as [bs|]; [|discriminate]. apply bind_ret in H1 as (t2 & H2 & H). injection H as <- _.
    apply may_rehash_some in H2; auto. discriminate.
  - apply bind_ret in H as (r & _ & H). injection H as <- _. auto.
  - injection H as <- _. auto.
  - injection H as <- _. auto.
Qed.

Lemma sm_run_some {V} (dflt : V) h : forall (t t' : table (bytes * V)) as_, sm_run dflt t h = Ret (t', as_) -> tbl t <> None -> tbl t' <> None.
Proof.
  induction h as [|o h IH]; intros t t' as_ H Hn; cbn [sm_run] in H.
  - injection H as <- _. auto.
  - apply bind_ret in H as ([t1 a] & H1 & H). apply bind_ret in H as ([t2 as2] & H2 & H). injection H as <- _.
    eapply IH; eauto. eapply sm_step_some; eauto.
Qed.

Lemma copy_table_same {E} (cp : E -> E) (t : table E) : tbl t <> None -> (forall e, In e (tents t) -> cp e = e) ->
  copy_table true cp t = t.
Proof.
  intros Hb He. unfold copy_table. unfold tents in He. destruct t as [[bs|] b e d]; cbn [tbl nB nE nT] in *; [|congruence].
  do 2 f_equal. clear Hb. induction bs as [|[h s] bs IH]; cbn [map bhash bslot]; auto. rewrite IH.
  - f_equal. f_equal. destruct (e =? 0)%N; auto. destruct s; cbn; auto. f_equal. apply He. cbn. auto.
  - intros x Hx. apply He. rewrite ents_cons. apply in_or_app. auto.
Qed.

Lemma map_step_card {V} (dflt : V) m o : (card (fst (map_step dflt m o)) <= card m + 1)%N.
Proof.
  assert (Hd : forall k, (card (del bytes_eqb m k) <= card m)%N).
  { intros k. unfold card. assert (length (del bytes_eqb m k) <= length m)%nat; [|lia].
    induction m as [|[k' v] m IH]; cbn [del length]; [lia|]. destruct (bytes_eqb k' k); cbn [length]; lia. }
  assert (Hp : forall k v, (card (put bytes_eqb m k v) <= card m + 1)%N).
  { intros k v. specialize (Hd k). unfold put, card in *. cbn [length]. lia. }
  destruct o; cbn [map_step fst]; try lia; auto.
  - destruct (get bytes_eqb m k); cbn [fst]; auto. lia.
  - specialize (Hd k). lia.
Qed.

Lemma map_run_card {V} (dflt : V) h : forall m, (card (fst (map_run dflt m h)) <= card m + N.of_nat (length h))%N.
Proof.
  induction h as [|o h IH]; intros m; cbn [map_run length]; [cbn; lia|]. pose proof (map_step_card dflt m o) as H.
  destruct (map_step dflt m o) as [m' a]. cbn [fst] in H. specialize (IH m'). destruct (map_run dflt m' h) as [m'' as_]. cbn [fst] in *. lia.
Qed.

Lemma sm_reached {V} (dflt : V) size h t answers : (0 < size < 2^28)%N ->
  (forall o k, In o h -> mop_key o = Some k -> (N.of_nat (length k) < 65536)%N) ->
  (N.of_nat (length h) <= 2^28)%N -> sm_run dflt (sm_new size) h = Ret (t, answers) ->
  models hash_SDBM t (fst (map_run dflt [] h)) /\ kshort t /\ tbl t <> None /\ (nE t <= N.of_nat (length h))%N.
Proof.
  intros Hsz Hk Hl Hr. destruct (models_new (K := bytes) (V := V) hash_SDBM size ltac:(lia)) as [Hm0 HE0].
  destruct (sm_run_ok dflt h (sm_new size) [] Hm0) as (t' & H1 & H2); [unfold sm_new; rewrite HE0; exact Hl|auto using short_all|].
  rewrite Hr in H1. injection H1 as <- _. split; auto.
  destruct (sm_new_any (V := V) size ltac:(lia)) as (HC & Hks & He).
  destruct (sm_run_any dflt h (sm_new size) HC Hks) as (t'' & as'' & H3 & H4 & H5 & _).
  { rewrite He, N.add_0_l. exact Hl. }
  rewrite Hr in H3. injection H3 as <- <-. split; auto. split.
  - eapply sm_run_some; eauto. unfold sm_new, new_table. unfold u32. rewrite N.mod_small by (change (2^28)%N with 268435456%N in Hsz; lia).
    destruct (N.eqb_spec size 0); [lia|discriminate].
  - rewrite (models_card _ _ _ H2). pose proof (map_run_card dflt h []) as H. change (card (@nil (bytes * V))) with 0%N in H. lia.
Qed.

(** A copy, by the copy or the move constructor, answers every further history like the original. *)
Lemma sm_copy_ok {V} (dflt : V) size h h' t answers : (0 < size < 2^28)%N ->
  (forall o k, In o (h ++ h') -> mop_key o = Some k -> (N.of_nat (length k) < 65536)%N) ->
  (N.of_nat (length (h ++ h')) <= 2^28)%N -> sm_run dflt (sm_new size) h = Ret (t, answers) ->
  sm_copy t = t /\ sm_move t = t /\
  exists t', sm_run dflt t h' = Ret (t', snd (map_run dflt (fst (map_run dflt [] h)) h')).
Proof.
  intros Hsz Hk Hl Hr. rewrite app_length in Hl.
  destruct (sm_reached dflt size h t answers) as (H1 & H2 & H3 & H4); auto.
  { intros o k Ho. apply Hk, in_or_app. auto. }
  { lia. }
  assert (Hc : copy_table true (fun e : bytes * V => (stored_key (fst e), snd e)) t = t).
  { apply copy_table_same; auto. intros [k v] He. cbn [fst snd]. rewrite stored_key_short; auto. apply (H2 (k, v) He). }
  split; [exact Hc|]. split; [exact Hc|].
  destruct (sm_run_ok dflt h' t _ H1) as (t' & H5 & _); eauto; [lia|].
  apply short_all. intros o k Ho. apply Hk, in_or_app. auto.
Qed.

(** The value built for a text is the one the text denotes. *)
From Verif Require Import Base HashSpec HashModel HashProof HashProof2 HasherModel StringMapSpec StringMapModel StringMapProof
  JsonSpec JsonModel JsonDenotes JsonProof JsonProof2.
From Coq Require Import List NArith ZArith Bool Lia Permutation.
From Coq.Init Require Import Byte.
From Coq.Strings Require Import Byte.
Import ListNotations.

Lemma sequence_map {A B} (f : A -> outcome B) l vs : sequence (map f l) = Ret vs -> Forall2 (fun a v => f a = Ret v) l vs.
Proof.
  revert vs. induction l as [|a l IH]; intros vs H; cbn in H.
  - injection H as <-. constructor.
  - apply bind_ret in H as (v & H1 & H). apply bind_ret in H as (r & H2 & H). injection H as <-. constructor; auto.
Qed.

(** objects have at most 2^28 members *)
Fixpoint fits (a : ast) : Prop :=
  match a with
  | AArr l => fold_right (fun x p => fits x /\ p) True l
  | AObj ms => (N.of_nat (length ms) <= 2^28)%N /\ fold_right (fun m p => fits (snd m) /\ p) True ms
  | _ => True
  end.

Lemma gval_fits lits s a r : gval lits s a r -> (N.of_nat (length s) <= 2^28)%N -> fits a.
Proof.
  revert s a r. apply (gval_ind2 lits (fun s a r => (N.of_nat (length s) <= 2^28)%N -> fits a)
    (fun s l r => (N.of_nat (length s) <= 2^28)%N -> fold_right (fun x p => fits x /\ p) True l)
    (fun s l r => (N.of_nat (length s) <= 2^28)%N -> fold_right (fun m p => fits (snd m) /\ p) True l)); intros; cbn [fits fold_right snd]; auto.
  - apply H1. rewrite app_length in H2. cbn [length] in H2. lia.
  - cbn. split; [lia|auto].
  - rewrite app_length in H2. cbn [length] in H2. split; [|apply H1; lia].
    apply gmembers_len in H0. lia.
  - split; auto. apply H3. apply gval_len in H. rewrite app_length in H. cbn [length] in H. lia.
  - split; auto. apply H1. apply gkey_len in H. lia.
  - apply gkey_len in H. split; [apply H1; lia|]. apply H4. apply gval_len in H0. rewrite app_length in H0. cbn [length] in H0. lia.
Qed.

Definition put_all (kvs : list (bytes * jvalue)) (m : list (bytes * jvalue)) : list (bytes * jvalue) :=
  fold_left (fun m p => put bytes_eqb m (fst p) (snd p)) kvs m.

Lemma fill_models kvs : forall t m, models hash_SDBM t m -> (nE t + N.of_nat (length kvs) <= 2^28)%N ->
  Forall (fun p => (N.of_nat (length (fst p)) < 65536)%N) kvs ->
  exists t', fill kvs t = Ret t' /\ models hash_SDBM t' (put_all kvs m).
Proof.
  induction kvs as [|[k v] kvs IH]; intros t m Hm Hn Hk.
  - exists t. auto.
  - inversion Hk as [|x y Hk1 Hk2]; subst. cbn [fst length] in *.
    destruct (sm_step_ok JUndef t m (MSet k v) Hm) as (t1 & H1 & H2 & H3); [lia|exact Hk1|].
    cbn [sm_step map_step fst snd] in *. apply bind_ret in H1 as (t1' & Hs & H1). injection H1 as ->.
    destruct (IH t1 (put bytes_eqb m k v) H2) as (t2 & H4 & H5); auto; [lia|].
    exists t2. cbn [fill]. rewrite Hs. cbn [bind]. auto.
Qed.

Fixpoint last_val (k : bytes) (kvs : list (bytes * jvalue)) : option jvalue :=
  match kvs with
  | [] => None
  | (k', v) :: kvs' => match last_val k kvs' with Some b => Some b | None => if bytes_eqb k' k then Some v else None end
  end.

Lemma get_put_all kvs : forall m k, get bytes_eqb (put_all kvs m) k = match last_val k kvs with Some v => Some v | None => get bytes_eqb m k end.
Proof.
  induction kvs as [|[k' v] kvs IH]; intros m k; cbn [put_all fold_left last_val fst snd]; auto.
  change (fold_left _ kvs ?x) with (put_all kvs x). rewrite IH. destruct (last_val k kvs); auto.
  rewrite (get_put _ bytes_eqb_ok). destruct (bytes_eqb k' k); auto.
Qed.

Lemma in_keys_put (m : list (bytes * jvalue)) k v x : In x (map fst (put bytes_eqb m k v)) <-> x = k \/ In x (map fst m).
Proof.
  unfold put. cbn [map fst In]. split.
  - intros [<-|H]; auto. apply in_map_iff in H as (p & <- & Hp). apply (in_del _ bytes_eqb_ok) in Hp as [Hp _]. right. now apply in_map.
  - intros [->|H]; auto. destruct (bytes_dec k x) as [->|Hn]; auto. right.
    apply in_map_iff in H as (p & <- & Hp). apply in_map. apply (in_del _ bytes_eqb_ok). auto.
Qed.

Lemma put_all_NoDup kvs : forall m, NoDup (map fst m) -> NoDup (map fst (put_all kvs m)).
Proof.
  induction kvs as [|[k v] kvs IH]; intros m Hm; cbn [put_all fold_left fst snd]; auto. apply IH. now apply (put_NoDup _ bytes_eqb_ok).
Qed.

Lemma in_keys_put_all kvs : forall m x, In x (map fst (put_all kvs m)) <-> In x (map fst kvs) \/ In x (map fst m).
Proof.
  induction kvs as [|[k v] kvs IH]; intros m x; cbn [put_all fold_left fst snd map In]; [tauto|].
  change (fold_left _ kvs ?y) with (put_all kvs y). rewrite IH, in_keys_put. intuition congruence.
Qed.

Lemma card_put_all kvs : card (put_all kvs []) = N.of_nat (length (nodup bytes_dec (map fst kvs))).
Proof.
  unfold card. f_equal. rewrite <- (map_length fst). apply Nat.le_antisymm; apply NoDup_incl_length.
  - apply put_all_NoDup. constructor.
  - intros x Hx. apply in_keys_put_all in Hx as [Hx|[]]. now apply nodup_In.
  - apply NoDup_nodup.
  - intros x Hx. apply nodup_In in Hx. apply in_keys_put_all. auto.
Qed.

Lemma sm_at_models (t : table (bytes * jvalue)) m k : models hash_SDBM t m ->
  sm_at t k = match get bytes_eqb m k with Some v => Ret v | None => Throw OutOfRangeKey end.
Proof.
  intros Hm. unfold sm_at.
  destruct (find_entry_ok fst bytes_eqb hash_SDBM bytes_eqb_ok t k (proj1 Hm)) as [(e & Hin & Hk & ->)|(Hno & ->)]; cbn [bind].
  - destruct e as [k' v]. cbn in Hk. subst k'. now rewrite (models_in _ hash_SDBM bytes_eqb_ok t m k v Hm Hin).
  - now rewrite (models_notin _ hash_SDBM bytes_eqb_ok t m k Hm Hno).
Qed.

Lemma last_rel (R : ast -> jvalue -> Prop) ms kvs : Forall2 (fun m p => fst m = fst p /\ R (snd m) (snd p)) ms kvs ->
  forall k, match last_binding k ms, last_val k kvs with
            | Some a, Some v => R a v
            | None, None => True
            | _, _ => False
            end.
Proof.
  induction 1 as [|[k1 a] [k2 v] ms kvs [Hk HR] HF IH]; intros k; cbn [last_binding last_val]; auto.
  cbn [fst snd] in *. subst k2. specialize (IH k).
  destruct (last_binding k ms), (last_val k kvs); auto; try tauto. destruct (bytes_eqb k1 k); auto.
Qed.

Lemma Forall2_impl' {A B} (P Q : A -> B -> Prop) l l' : Forall (fun a => forall b, P a b -> Q a b) l -> Forall2 P l l' -> Forall2 Q l l'.
Proof. intros H HF. induction HF; inversion H; subst; constructor; auto. Qed.

Lemma Forall2_flip' {A B} (P : A -> B -> Prop) l l' : Forall2 P l l' -> Forall2 (fun b a => P a b) l' l.
Proof. induction 1; constructor; auto. Qed.

Lemma fold_and {A} (P : A -> Prop) l : fold_right (fun x p => P x /\ p) True l <-> Forall P l.
Proof. induction l as [|a l IH]; cbn; split; auto; [intros [H1 H2]; constructor; tauto|inversion 1; subst; tauto]. Qed.

Lemma build_denotes a : forall v, build a = Ret v -> fits a -> short_keys a -> denotes v a.
Proof.
  induction a as [z|b|s|l IH|ms IH] using ast_ind2; intros v Hb Hf Hs; cbn [build] in Hb.
  - injection Hb as <-. constructor.
  - injection Hb as <-. constructor.
  - injection Hb as <-. constructor.
  - apply bind_ret in Hb as (vs & H1 & H2). injection H2 as <-. apply sequence_map in H1.
    cbn [fits short_keys] in Hf, Hs. apply fold_and in Hf. apply fold_and in Hs.
    constructor. apply Forall2_flip'. eapply Forall2_impl'; [|exact H1].
    rewrite Forall_forall in *. intros a Ha v' Hv. apply IH; auto.
  - apply bind_ret in Hb as (kvs & H1 & H2). apply bind_ret in H2 as (t & H2 & H3). injection H3 as <-. apply sequence_map in H1.
    cbn [fits short_keys] in Hf, Hs. destruct Hf as [Hn Hf].
    apply (fold_and (fun m => fits (snd m))) in Hf.
    apply (fold_and (fun m => ((N.of_nat (length (fst m)) < 65536)%N /\ short_keys (snd m)))) in Hs.
    assert (HR : Forall2 (fun m p => fst m = fst p /\ denotes (snd p) (snd m)) ms kvs).
    { eapply Forall2_impl'; [|exact H1]. rewrite Forall_forall in *. intros m Hm p Hp.
      apply bind_ret in Hp as (v' & Hv & Hp). injection Hp as <-. cbn. split; auto. apply IH; auto. now apply Hs. }
    assert (Hlen : length ms = length kvs) by (clear -HR; induction HR; cbn; congruence).
    assert (Hkeys : map fst ms = map fst kvs).
    { clear -HR. induction HR as [|x y ? ? [H _] ? IHR]; cbn; congruence. }
    assert (Hsk : Forall (fun p => (N.of_nat (length (fst p)) < 65536)%N) kvs).
    { assert (Forall (fun k => (N.of_nat (length k) < 65536)%N) (map fst kvs)).
      { rewrite <- Hkeys. apply Forall_map. eapply Forall_impl; [|exact Hs]. intros m [H _]. exact H. }
      apply Forall_map in H. exact H. }
    destruct (models_new (K := bytes) (V := jvalue) hash_SDBM 8 eq_refl) as [Hm0 HE0].
    destruct (fill_models kvs (sm_new 8) [] Hm0) as (t' & Ht & Hm); auto.
    { unfold sm_new. rewrite HE0. rewrite N.add_0_l. rewrite Hlen in Hn. exact Hn. }
    rewrite H2 in Ht. injection Ht as <-.
    constructor.
    + rewrite (models_card _ _ _ Hm), card_put_all. unfold distinct. now rewrite Hkeys.
    + intros k a Hl. rewrite (sm_at_models t _ k Hm), get_put_all.
      pose proof (last_rel (fun a v => denotes v a) ms kvs HR k) as Hr. rewrite Hl in Hr. destruct (last_val k kvs); [eauto|tauto].
    + intros k Hl. rewrite (sm_at_models t _ k Hm), get_put_all.
      pose proof (last_rel (fun a v => denotes v a) ms kvs HR k) as Hr. rewrite Hl in Hr. destruct (last_val k kvs); [tauto|reflexivity].
    + exists (tents t). destruct Hm as (HI & HN & HP). split; [apply traverse_ok; [apply HI|auto]|].
      assert (HN' : NoDup (map fst (tents t))) by (eapply Permutation_NoDup; [apply Permutation_map, HP|auto]).
      split; auto. intros k v. rewrite (sm_at_models t (put_all kvs []) k) by (splits; auto; apply HI).
      rewrite (get_perm _ bytes_eqb_ok _ (tents t)) by auto. split.
      * intros Hin. apply (get_Some _ bytes_eqb_ok) in Hin; auto. now rewrite Hin.
      * intros Hr. apply (get_Some _ bytes_eqb_ok); auto. destruct (get bytes_eqb (tents t) k); congruence.
Qed.

(** ------------------------------------------------------------------ layouts *)

Lemma good_layout_lits lay : good_layout lay -> forall b, layout_lits lay b = true.
Proof. intros [H1 H2] []; cbn; unfold addr_ok; apply N.ltb_lt; cbn; lia. Qed.

Lemma gval_lits l1 l2 s a r : (forall b, l1 b = true -> l2 b = true) -> gval l1 s a r -> gval l2 s a r.
Proof.
  intros Hl. revert s a r. apply (gval_ind2 l1 (fun s a r => gval l2 s a r) (fun s l r => gelems l2 s l r) (fun s l r => gmembers l2 s l r));
    intros; econstructor; eauto.
Qed.

Lemma gval_nobool l1 l2 s a r : gval l1 s a r -> ~ has_bool a -> gval l2 s a r.
Proof.
  revert s a r. apply (gval_ind2 l1 (fun s a r => ~ has_bool a -> gval l2 s a r)
    (fun s l r => ~ fold_right (fun x p => has_bool x \/ p) False l -> gelems l2 s l r)
    (fun s l r => ~ fold_right (fun m p => has_bool (snd m) \/ p) False l -> gmembers l2 s l r));
    intros; cbn [has_bool fold_right snd] in *; try (econstructor; eauto; fail); try tauto.
Qed.

Lemma parse_good lay s : (N.of_nat (length s) < 2^28)%N -> good_layout lay ->
    (exists a r v, gval documented s a r /\ build a = Ret v /\ wfj v /\ parse lay s = Ret (true, v)) \/
    ((forall a r, ~ gval documented s a r) /\ parse lay s = Ret (false, JUndef)).
Proof.
  intros Hs Hg. pose proof (good_layout_lits lay Hg) as HL.
  destruct (parse_ok lay s Hs) as [(a & r & v & H1 & H2 & H3 & H4)|(H1 & H2)].
  - left. exists a, r, v. splits; auto. eapply gval_lits; [|exact H1]. reflexivity.
  - right. split; auto. intros a r H. apply (H1 a r). eapply gval_lits; [|exact H]. auto.
Qed.

(** the part of the text that was read is a text of the same value *)
Lemma gval_prefix lits s a r : gval lits s a r ->
  exists p, s = p ++ r /\ forall r', ~ starts_with_digit r' -> gval lits (p ++ r') a r'.
Proof.
  assert (Hch : forall s cs r, gchars s cs r -> exists p, s = p ++ r /\ forall r', gchars (p ++ r') cs r').
  { induction 1 as [r0|e c s0 cs r0 He H (p & -> & IH)|h1 h2 h3 h4 n1 n2 n3 n4 s0 cs r0 E1 E2 E3 E4 H (p & -> & IH)|c s0 cs r0 Hc1 Hc2 H (p & -> & IH)].
    - exists [x22]. split; auto. intros. constructor.
    - exists (x5c :: e :: p). split; auto. intros. cbn. now constructor.
    - exists (x5c :: x75 :: h1 :: h2 :: h3 :: h4 :: p). split; auto. intros. cbn. now constructor.
    - exists (c :: p). split; auto. intros. cbn. now constructor. }
  assert (Hn : forall s n r, gnat s n r -> exists p, s = p ++ r /\ forall r', ~ starts_with_digit r' -> gnat (p ++ r') n r').
  { destruct 1 as [r0|d ds r0 H1 H2 H3 H4].
    - exists [x30]. split; auto. intros. constructor.
    - exists (d :: ds). split; auto. intros. cbn. now constructor. }
  assert (Hk : forall s k r, gkey s k r -> exists p, s = p ++ r /\ forall r', gkey (p ++ r') k r').
  { destruct 1 as [w s0 k w' r0 Hw H Hw']. apply Hch in H as (p & -> & H).
    exists (w ++ x22 :: p ++ w' ++ [x3a]). split.
    - rewrite <- !app_assoc. cbn. now rewrite <- !app_assoc.
    - intros r'. rewrite <- app_assoc. cbn. rewrite <- !app_assoc. econstructor; eauto. }
  assert (Hsep : forall w c q, white w -> ~ digit c -> ~ starts_with_digit (w ++ c :: q)).
  { intros w c q Hw Hc (d & s' & H & Hd). destruct w as [|e w]; injection H as -> _; auto.
    inversion Hw as [|x y Hx _]; subst. apply digit_cases in Hd. apply wsb_ok in Hx. destruct Hd; congruence. }
  assert (N1 : ~ digit x2c) by (unfold digit; cbn; lia).
  assert (N2 : ~ digit x5d) by (unfold digit; cbn; lia).
  assert (N3 : ~ digit x7d) by (unfold digit; cbn; lia).
  revert s a r. apply (gval_ind2 lits (fun s a r => exists p, s = p ++ r /\ forall r', ~ starts_with_digit r' -> gval lits (p ++ r') a r')
    (fun s l r => exists p, s = p ++ r /\ forall r', gelems lits (p ++ r') l r')
    (fun s l r => exists p, s = p ++ r /\ forall r', gmembers lits (p ++ r') l r')).
  - intros w b r Hw Hb. exists (w ++ literal b). split; [now rewrite app_assoc|]. intros. rewrite <- app_assoc. now constructor.
  - intros w s n r Hw H. apply Hn in H as (p & -> & H). exists (w ++ p). split; [now rewrite app_assoc|]. intros. rewrite <- app_assoc. constructor; auto.
  - intros w s n r Hw H. apply Hn in H as (p & -> & H). exists (w ++ x2d :: p). split; [now rewrite <- app_assoc|]. intros. rewrite <- app_assoc. cbn. constructor; auto.
  - intros w s n r Hw H. apply Hch in H as (p & -> & H). exists (w ++ x22 :: p). split; [now rewrite <- app_assoc|]. intros. rewrite <- app_assoc. cbn. constructor; auto.
  - intros w w' r Hw Hw'. exists (w ++ x5b :: w' ++ [x5d]). split; [rewrite <- !app_assoc; cbn; now rewrite <- app_assoc|]. intros. rewrite <- app_assoc. cbn. rewrite <- app_assoc. now constructor.
  - intros w s l r Hw _ (p & -> & H). exists (w ++ x5b :: p). split; [now rewrite <- app_assoc|]. intros. rewrite <- app_assoc. cbn. constructor; auto.
  - intros w w' r Hw Hw'. exists (w ++ x7b :: w' ++ [x7d]). split; [rewrite <- !app_assoc; cbn; now rewrite <- app_assoc|]. intros. rewrite <- app_assoc. cbn. rewrite <- app_assoc. now constructor.
  - intros w s l r Hw _ (p & -> & H). exists (w ++ x7b :: p). split; [now rewrite <- app_assoc|]. intros. rewrite <- app_assoc. cbn. constructor; auto.
  - intros s a w r _ (p & -> & H) Hw. exists (p ++ w ++ [x5d]). split; [now rewrite <- !app_assoc|]. intros. rewrite <- !app_assoc. cbn. eapply GE_last; eauto.
  - intros s a w s' l r _ (p & -> & H) Hw _ (p' & -> & H'). exists (p ++ w ++ x2c :: p'). split; [now rewrite <- !app_assoc|]. intros. rewrite <- !app_assoc. cbn. eapply GE_cons; eauto.
  - intros s k s' a w r Hg _ (p & -> & H) Hw. apply Hk in Hg as (p0 & -> & H0). exists (p0 ++ p ++ w ++ [x7d]). split; [now rewrite <- !app_assoc|]. intros. rewrite <- !app_assoc. cbn. eapply GM_last; eauto.
  - intros s k s' a w s'' l r Hg _ (p & -> & H) Hw _ (p' & -> & H'). apply Hk in Hg as (p0 & -> & H0). exists (p0 ++ p ++ w ++ x2c :: p'). split; [now rewrite <- !app_assoc|]. intros. rewrite <- !app_assoc. cbn. eapply GM_cons; eauto.
Qed.

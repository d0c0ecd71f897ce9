(** Proofs about the consensus tool. *)
From Verif Require Import Base JsonSpec JsonModel JsonDenotes JsonProof JsonProof2 JsonProof3 JsonProof4 JsonProof5 ConsensusModel.
From Coq Require Import List Arith NArith ZArith Bool Lia.
From Coq.Init Require Import Byte.
Import ListNotations.

Lemma bytes_eqb_eq a b : bytes_eqb a b = true <-> a = b.
Proof. destruct (bytes_eqb_spec a b); split; congruence. Qed.

Lemma casecmp_ok p q : casecmp p q = true <-> p = q.
Proof.
  unfold casecmp. destruct p as [a b c], q as [a' b' c']; cbn. rewrite !andb_true_iff, Z.eqb_eq, !bytes_eqb_eq.
  split; [intros ((-> & ->) & ->); reflexivity|intros [= -> -> ->]; auto].
Qed.

Section Tool.
  Variable utf8 : bytes -> bool.
  Variable launch : nat -> list bytes -> option proc.
  Variables rands randh : nat -> nat -> bytes -> option bytes.
  Variable file : bytes -> option bytes.

  Definition clean (p : proc) : Prop := utf8 (stdout p) = true /\ utf8 (stderr p) = true.

  (** rounds after the first *)
  Lemma rounds args p n : forall k c, (1 <= c)%nat -> clean p ->
    (exists k', repeat_loop utf8 launch args n k (mkTC (Some p) c true) = Some (k', true)) <->
    (2 <= c + n)%nat /\ forall j, (j < n)%nat -> launch (k + j)%nat args = Some p.
  Proof.
    induction n as [|n IH]; intros k c Hc Hp; cbn [repeat_loop].
    - unfold tc_summarize. cbn [count same]. split.
      + intros (k' & [= _ H]). destruct (Nat.leb_spec c 1); cbn in H; try discriminate. split; [lia|]. intros j Hj. lia.
      + intros (H & _). exists k. destruct (Nat.leb_spec c 1); [lia|]. reflexivity.
    - split.
      + intros (k' & H). destruct (launch k args) as [q|] eqn:El; [|discriminate]. cbn [optbind] in H. unfold tc_finish in H. cbn [tc_start count first same] in H.
        destruct (utf8 (stdout q) && utf8 (stderr q)) eqn:Eu; [|discriminate]. destruct (Nat.eqb_spec (S c) 1); [lia|]. cbn [optbind fst snd] in H.
        destruct (casecmp p q) eqn:Ec.
        * apply casecmp_ok in Ec as <-. destruct (IH (S k) (S c)) as [IH1 _]; [lia|exact Hp|]. destruct IH1 as (_ & IH1); [eauto|]. split; [lia|].
          intros [|j] Hj; [now rewrite Nat.add_0_r|]. rewrite <- (IH1 j) by lia. f_equal. lia.
        * unfold tc_summarize in H. cbn [same] in H. rewrite orb_true_r in H. discriminate.
      + intros (_ & H). pose proof (H 0%nat ltac:(lia)) as H0. rewrite Nat.add_0_r in H0. rewrite H0. cbn [optbind]. unfold tc_finish. cbn [tc_start count first same].
        destruct Hp as [Hp1 Hp2]. rewrite Hp1, Hp2. cbn [andb]. destruct (Nat.eqb_spec (S c) 1); [lia|]. rewrite (proj2 (casecmp_ok p p) eq_refl). cbn [optbind fst snd].
        apply IH; [lia|split; auto|]. split; [lia|]. intros j Hj. rewrite <- (H (S j)) by lia. f_equal. lia.
  Qed.

  Lemma repeat_ok args n k : (1 < n)%nat ->
    (exists k', repeat_loop utf8 launch args n k tc_new = Some (k', true)) <->
    exists p, clean p /\ forall j, (j < n)%nat -> launch (k + j)%nat args = Some p.
  Proof.
    intros Hn. destruct n as [|n]; [lia|]. cbn [repeat_loop]. split.
    - intros (k' & H). destruct (launch k args) as [p|] eqn:El; [|discriminate]. cbn [optbind] in H. unfold tc_finish in H. cbn [tc_start tc_new count first same Nat.eqb] in H.
      destruct (utf8 (stdout p)) eqn:Eu1; [|discriminate]. destruct (utf8 (stderr p)) eqn:Eu2; [|discriminate]. cbn [andb optbind fst snd] in H.
      assert (Hp : clean p) by (split; auto). exists p. split; [exact Hp|]. destruct (rounds args p n (S k) 1) as [R _]; [lia|exact Hp|]. destruct R as (_ & R); [eauto|].
      intros [|j] Hj; [now rewrite Nat.add_0_r|]. rewrite <- (R j) by lia. f_equal. lia.
    - intros (p & [Hp1 Hp2] & H). pose proof (H 0%nat ltac:(lia)) as H0. rewrite Nat.add_0_r in H0. rewrite H0. cbn [optbind]. unfold tc_finish. cbn [tc_start tc_new count first same Nat.eqb].
      rewrite Hp1, Hp2. cbn [andb optbind fst snd]. apply (rounds args p n (S k) 1); [lia|split; auto|]. split; [lia|]. intros j Hj. rewrite <- (H (S j)) by lia. f_equal. lia.
  Qed.

  (** a successful repetition starts [n] processes *)
  Lemma repeat_count args n : forall k t k', repeat_loop utf8 launch args n k t = Some (k', true) -> k' = (k + n)%nat.
  Proof.
    induction n as [|n IH]; intros k t k' H; cbn [repeat_loop] in H.
    - injection H as <- _. lia.
    - destruct (launch k args) as [p|]; [|discriminate]. cbn [optbind] in H. destruct (tc_finish utf8 (tc_start t) p) as [[t' b]|] eqn:Ef; [|discriminate]. cbn [optbind fst snd] in H.
      destruct b; [apply IH in H; lia|]. exfalso. injection H as _ H. unfold tc_finish in Ef. destruct (_ && _); [|discriminate]. destruct (Nat.eqb _ 1); [discriminate|].
      destruct (first (tc_start t)); [|discriminate]. injection Ef as Ef Eb. rewrite Eb in Ef. subst t'. unfold tc_summarize in H. cbn [same negb] in H. rewrite orb_true_r in H. discriminate.
  Qed.

  Definition case_ok (n : nat) (i k : nat) (so : bytes) (args : list bytes) : Prop :=
    exists op params p, start_test rands randh file i args = Some (op, params) /\ op <> [] /\ clean p /\
      forall j, (j < n)%nat -> launch (k + j)%nat [eni_run; so; op; params] = Some p.

  (** once something went wrong the verdict is not true *)
  Lemma run_bad n tests : forall i k r, (n_run r < n_tests r \/ 0 < n_failed r)%nat -> (n_run r <= n_tests r)%nat -> run_loop utf8 launch rands randh file n tests i k r <> Some true.
  Proof.
    induction tests as [|[so args] tests IH]; intros i k r Hr Hle; cbn [run_loop].
    - unfold tr_summarize. destruct (Nat.eqb_spec (n_tests r) (n_run r)); cbn; [|discriminate]. destruct (Nat.eqb_spec (n_failed r) 0); cbn; [lia|discriminate].
    - assert (Hs : (n_run (tr_start r) < n_tests (tr_start r) \/ 0 < n_failed (tr_start r))%nat) by (cbn; lia).
      destruct (start_test rands randh file i args) as [[[|c op] params]|]; try (apply IH; [exact Hs|cbn; lia]).
      destruct (repeat_loop _ _ _ _ _ _) as [[k' b]|]; [|discriminate]. cbn [optbind fst snd]. apply IH; cbn; [|lia]. destruct b; lia.
  Qed.

  Lemma run_ok n tests : (1 < n)%nat -> forall i k r, n_run r = n_tests r -> n_failed r = 0%nat ->
    run_loop utf8 launch rands randh file n tests i k r = Some true <->
    forall m so args, nth_error tests m = Some (so, args) -> case_ok n (i + m) (k + m * n) so args.
  Proof.
    intros Hn. induction tests as [|[so args] tests IH]; intros i k r H1 H2; cbn [run_loop].
    - split; [intros _ [|m] so args H; discriminate|]. intros _. unfold tr_summarize. rewrite H1, H2, Nat.eqb_refl. reflexivity.
    - split.
      + intros H. destruct (start_test rands randh file i args) as [[[|c op] params]|] eqn:Es; try (exfalso; revert H; apply run_bad; cbn; lia).
        destruct (repeat_loop utf8 launch [eni_run; so; c :: op; params] n k tc_new) as [[k' b]|] eqn:Er; [|discriminate]. cbn [optbind fst snd] in H.
        destruct b; [|exfalso; revert H; apply run_bad; cbn; lia]. pose proof (repeat_count _ _ _ _ _ Er) as Hk. subst k'.
        assert (Hc : exists k', repeat_loop utf8 launch [eni_run; so; c :: op; params] n k tc_new = Some (k', true)) by eauto. apply (repeat_ok _ _ _ Hn) in Hc as (p & Hp & Hc).
        pose proof (proj1 (IH (S i) (k + n)%nat (tr_finish (tr_start r) true) ltac:(cbn; lia) ltac:(cbn; lia)) H) as H'. clear H. rename H' into H. intros [|m] so' args' Hm; cbn [nth_error] in Hm.
        * injection Hm as <- <-. rewrite !Nat.add_0_r. exists (c :: op), params, p. split; [exact Es|]. split; [discriminate|]. split; [exact Hp|exact Hc].
        * specialize (H m so' args' Hm). replace (i + S m)%nat with (S i + m)%nat by lia. replace (k + S m * n)%nat with (k + n + m * n)%nat by lia. exact H.
      + intros H. destruct (H 0%nat so args eq_refl) as (op & params & p & Es & Hop & Hp & Hl). rewrite !Nat.add_0_r in *. rewrite Es. destruct op as [|c op]; [congruence|].
        destruct (proj2 (repeat_ok [eni_run; so; c :: op; params] n k Hn)) as (k' & Er); [eauto|]. pose proof (repeat_count _ _ _ _ _ Er) as Hk. subst k'. rewrite Er. cbn [optbind fst snd].
        apply (proj2 (IH (S i) (k + n)%nat (tr_finish (tr_start r) true) ltac:(cbn; lia) ltac:(cbn; lia))). intros m so' args' Hm. specialize (H (S m) so' args' Hm). replace (S i + m)%nat with (i + S m)%nat by lia. replace (k + n + m * n)%nat with (k + S m * n)%nat by lia. exact H.
  Qed.

  Lemma status_ok n members :
    exit_status utf8 launch rands randh file n members = 0%Z <->
    (1 < n)%Z /\ forall m so args, nth_error (tests_of (loads members)) m = Some (so, args) -> case_ok (Z.to_nat n) m (m * Z.to_nat n) so args.
  Proof.
    unfold exit_status, run_tests. destruct (Z.ltb_spec 1 n) as [Hn|Hn].
    - pose proof (run_ok (Z.to_nat n) (tests_of (loads members)) ltac:(lia) 0 0 tr_new eq_refl eq_refl) as R. cbn [Nat.add] in R.
      destruct (run_loop _ _ _ _ _ _ _ _ _ _) as [[|]|]; (split; [intros H|intros (_ & H)]); try discriminate; try reflexivity.
      + split; [exact Hn|]. exact (proj1 R eq_refl).
      + discriminate (proj2 R H).
      + discriminate (proj2 R H).
    - split; [discriminate|]. intros (H & _). lia.
  Qed.
End Tool.

(** descriptions that name no path twice are run as listed *)
Lemma dict_fresh d k v : ~ In k (map fst d) -> dict_set d k v = d ++ [(k, v)].
Proof.
  induction d as [|[k' v'] d IH]; intros H; cbn [dict_set app]; auto. cbn in H. destruct (bytes_eqb k' k) eqn:E; [apply bytes_eqb_eq in E; subst; tauto|]. now rewrite IH by tauto.
Qed.
Lemma loads_nodup members : NoDup (map fst members) -> loads members = members.
Proof.
  unfold loads. intros H. assert (G : forall d, NoDup (map fst (d ++ members)) -> fold_left (fun d m => dict_set d (fst m) (snd m)) members d = d ++ members).
  { clear H. induction members as [|[k v] ms IH]; intros d Hd; cbn [fold_left]; [now rewrite app_nil_r|]. cbn [fst snd]. rewrite dict_fresh.
    - rewrite IH; rewrite <- app_assoc; [reflexivity|exact Hd].
    - rewrite map_app in Hd. apply NoDup_remove_2 in Hd. intros Hin. apply Hd. apply in_or_app. auto. }
  apply (G []). exact H.
Qed.

(** ------------------------------------------------------------------ the parameters *)

Definition plain (s : bytes) : Prop := ~ In x22 s /\ ~ In x5c s.

Lemma plain_cons c s : plain (c :: s) <-> (c <> x22 /\ c <> x5c) /\ plain s.
Proof. unfold plain. cbn. intuition congruence. Qed.

Lemma plain_gchars s r : plain s -> gchars (s ++ x22 :: r) s r.
Proof. induction s as [|c s IH]; intros H; cbn [app]; [constructor|]. apply plain_cons in H as ((H1 & H2) & H). apply GC_plain; auto. Qed.

Lemma gchars_tight s cs r : gchars s cs r -> (length cs + length r + 1 <= length s)%nat /\ ((length cs + length r + 1 = length s)%nat -> plain cs).
Proof.
  induction 1 as [r|e c s cs r He H [IH1 IH2]|h1 h2 h3 h4 n1 n2 n3 n4 s cs r E1 E2 E3 E4 H [IH1 IH2]|c s cs r Hc1 Hc2 H [IH1 IH2]]; cbn [length] in *.
  - split; [lia|]. intros _. split; intros [].
  - split; lia.
  - split; lia.
  - split; [lia|]. intros Hl. apply plain_cons. split; [auto|]. apply IH2. lia.
Qed.

Definition weight (ss : list bytes) : nat := fold_right (fun s n => (length s + 3 + n)%nat) 0%nat ss.

Section Params.
  Variable lits : bool -> bool.

  Lemma gstr_tight s cs r : gval lits s (AStr cs) r -> (length cs + length r + 2 <= length s)%nat /\ ((length cs + length r + 2 = length s)%nat -> plain cs).
  Proof. inversion 1 as [| | |w s' cs' r' Hw Hc| | | |]; subst. rewrite app_length. cbn [length]. destruct (gchars_tight _ _ _ Hc) as [H1 H2]. split; [lia|]. intros Hl. apply H2. lia. Qed.

  Lemma gelems_tight ss : forall s r, gelems lits s (map AStr ss) r -> (weight ss + length r <= length s)%nat /\ ((weight ss + length r = length s)%nat -> Forall plain ss).
  Proof.
    induction ss as [|x ss IH]; intros s r H; cbn [map] in H; [inversion H|].
    inversion H as [s0 a w r0 Hv Hw E1 E2|s0 a w s' l r0 Hv Hw He E1]; subst.
    - destruct ss; [|discriminate]. destruct (gstr_tight _ _ _ Hv) as [H1 H2]. rewrite app_length in *. cbn [length weight fold_right] in *. split; [lia|]. intros Hl. constructor; [apply H2; lia|constructor].
    - destruct (IH _ _ He) as [H3 H4]. destruct (gstr_tight _ _ _ Hv) as [H1 H2]. rewrite app_length in *. cbn [length weight fold_right] in *. fold (weight ss) in *. split; [lia|]. intros Hl. constructor; [apply H2; lia|apply H4; lia].
  Qed.

  Lemma join_length ss : ss <> [] -> (length (join_commas (map (fun x => x22 :: x ++ [x22]) ss)) + 1 = weight ss)%nat.
  Proof.
    induction ss as [|x ss IH]; intros H; [congruence|]. destruct ss as [|y ss].
    - cbn. rewrite app_length. cbn. lia.
    - specialize (IH ltac:(discriminate)). change (map _ (x :: y :: ss)) with ((x22 :: x ++ [x22]) :: map (fun x => x22 :: x ++ [x22]) (y :: ss)).
      cbn [weight fold_right]. fold (weight (y :: ss)). cbn [join_commas map] in *. rewrite !app_length in *. cbn [length] in *. rewrite !app_length in *. cbn [length weight fold_right] in *. fold (weight ss) in *. lia.
  Qed.

  Lemma gelems_plain ss : forall r, ss <> [] -> Forall plain ss -> gelems lits (join_commas (map (fun x => x22 :: x ++ [x22]) ss) ++ x5d :: r) (map AStr ss) r.
  Proof.
    induction ss as [|x ss IH]; intros r H HF; [congruence|]. inversion HF as [|x' ss' Hx Hss]; subst. destruct ss as [|y ss].
    - cbn [map join_commas app]. rewrite <- app_assoc. cbn [app]. apply (GE_last _ _ _ []); [|constructor]. apply (G_str _ []); [constructor|]. cbn [app]. now apply plain_gchars.
    - specialize (IH r ltac:(discriminate) Hss). cbn [map join_commas] in *. rewrite <- app_comm_cons, <- app_assoc. rewrite <- app_comm_cons. rewrite <- app_assoc. cbn [app] in *.
      eapply (GE_cons _ _ _ []); [|constructor|exact IH]. apply (G_str _ []); [constructor|]. cbn [app]. now apply plain_gchars.
  Qed.

  Lemma gval_plain ss : Forall plain ss -> gval lits (params_text ss) (AArr (map AStr ss)) [].
  Proof.
    intros H. unfold params_text. destruct ss as [|x ss].
    - apply (G_arr0 _ [] [] []); constructor.
    - apply (G_arr _ []); [constructor|]. apply gelems_plain; [discriminate|exact H].
  Qed.
End Params.

Lemma build_str a s : build a = Ret (JStr s) -> a = AStr s.
Proof.
  destruct a as [z|b|t|l|ms]; cbn [build]; intros H; try discriminate.
  - now injection H as ->.
  - apply bind_ret in H as (vs & _ & H). discriminate.
  - apply bind_ret in H as (vs & _ & H). apply bind_ret in H as (t & _ & H). discriminate.
Qed.
Lemma build_strs l : forall ss, sequence (map build l) = Ret (map JStr ss) -> l = map AStr ss.
Proof.
  induction l as [|a l IH]; intros ss H; cbn [map sequence] in H.
  - injection H as H. destruct ss; [reflexivity|discriminate].
  - apply bind_ret in H as (v & Hv & H). apply bind_ret in H as (vs & Hvs & H). injection H as H. destruct ss as [|s ss]; [discriminate|]. injection H as -> ->.
    apply build_str in Hv as ->. cbn [map]. f_equal. now apply IH.
Qed.
Lemma sequence_strs ss : sequence (map build (map AStr ss)) = Ret (map JStr ss).
Proof. induction ss as [|s ss IH]; cbn [map sequence build bind]; auto. rewrite IH. reflexivity. Qed.

Lemma params_ok lay ss : (N.of_nat (length (params_text ss)) < 2^28)%N ->
  parse lay (params_text ss) = Ret (true, JArr (map JStr ss)) <-> Forall plain ss.
Proof.
  intros Hs. split.
  - intros H. destruct (parse_ok lay _ Hs) as [(a & r & v & Hg & Hb & _ & Hp)|(_ & Hp)]; rewrite H in Hp; [|discriminate]. injection Hp as <-.
    destruct a as [z|b|t|l|ms]; cbn [build] in Hb; try discriminate.
    2:{ apply bind_ret in Hb as (vs & _ & Hb). apply bind_ret in Hb as (t & _ & Hb). discriminate. }
    apply bind_ret in Hb as (vs & Hvs & Hb). injection Hb as ->. apply build_strs in Hvs as ->. destruct ss as [|x ss]; [constructor|].
    pose proof (join_length (x :: ss) ltac:(discriminate)) as HJ. apply gval_core in Hg. unfold params_text in Hg. revert HJ Hg. generalize (join_commas (map (fun x => x22 :: x ++ [x22]) (x :: ss))). intros J HJ Hg. cbn in Hg. destruct Hg as [(s' & _ & E & _)|(l & E & Hl)]; [discriminate|]. injection E as <-. change (AStr x :: map AStr ss) with (map AStr (x :: ss)) in Hl.
    destruct (gelems_tight _ _ _ _ Hl) as [H1 H2]. apply H2. rewrite app_length in *. cbn [length] in *. lia.
  - intros H. eapply parse_exact; [exact Hs|apply (gval_plain _ ss H)|]. cbn [build]. now rewrite sequence_strs.
Qed.

(** random parameters *)
Section Random.
  Variables rands randh : nat -> nat -> bytes -> option bytes.
  Variable file : bytes -> option bytes.
  Hypothesis rands_plain : forall i j n s, rands i j n = Some s -> plain s.
  Hypothesis randh_plain : forall i j n s, randh i j n = Some s -> plain s.

  Lemma random_plain i args : (forall a, In a args -> exists r, a = x73 :: r \/ a = x68 :: r) -> forall j l, expand_args rands randh file i j args = Some l -> Forall plain l /\ length l = length args.
  Proof.
    induction args as [|a args IH]; intros Ha j l H; cbn [expand_args] in H.
    - injection H as <-. split; constructor.
    - destruct (expand_arg rands randh file i j a) as [x|] eqn:Ex; [|discriminate]. cbn [optbind] in H. destruct (expand_args rands randh file i (S j) args) as [l'|] eqn:El; [|discriminate]. injection H as <-.
      destruct (IH (fun b Hb => Ha b (or_intror Hb)) _ _ El) as [H1 H2]. split; [|cbn; lia]. constructor; [|exact H1].
      destruct (Ha a (or_introl eq_refl)) as (r & [->| ->]); cbn in Ex; eauto.
  Qed.
End Random.

(** rstrip removes exactly the newlines at the end *)
Lemma rstrip_iff s r : rstrip_lf s = r <-> (exists n, s = r ++ repeat x0a n) /\ forall r', r <> r' ++ [x0a].
Proof.
  assert (E : forall s, exists n, s = rstrip_lf s ++ repeat x0a n).
  { clear. induction s as [|c s [n IH]]; [exists 0; reflexivity|]. cbn [rstrip_lf]. destruct (rstrip_lf s) as [|d r].
    - destruct (beqb_spec c x0a) as [->|_]; [exists (S n)|exists n]; cbn in *; congruence.
    - exists n. cbn [app]. cbn [app] in IH. congruence. }
  assert (L : forall s r', rstrip_lf s <> r' ++ [x0a]).
  { clear. induction s as [|c s IH]; intros r' H; cbn [rstrip_lf] in H; [destruct r'; discriminate|].
    destruct (rstrip_lf s) as [|d r].
    - destruct (beqb_spec c x0a) as [->|N]; [destruct r'; discriminate|]. destruct r' as [|x r']; [injection H as ->; contradiction|].
      injection H as _ H. destruct r'; discriminate.
    - destruct r' as [|x r']; [discriminate|]. injection H as -> H. exact (IH r' H). }
  split; [intros <-; auto|]. intros ((n & ->) & H).
  induction r as [|c r IH].
  - clear H. induction n as [|n IH]; [reflexivity|]. cbn [app repeat rstrip_lf] in *. rewrite IH. reflexivity.
  - cbn [app rstrip_lf]. destruct r as [|d r].
    + assert (E0 : rstrip_lf ([] ++ repeat x0a n) = []) by (apply IH; intros [|? ?]; discriminate). rewrite E0.
      destruct (beqb_spec c x0a) as [->|_]; [exfalso; exact (H [] eq_refl)|reflexivity].
    + rewrite IH; [reflexivity|]. intros r' Hr. apply (H (c :: r')). cbn. now rewrite Hr.
Qed.

(** How long a printed text can be: lemmas behind JsonLengthProps.v. *)
From Verif Require Import Base HashSpec HashModel HashProof HasherModel StringMapModel StringMapProof JsonSpec JsonModel JsonDenotes JsonProof JsonProof2 JsonProof3 JsonProof4 JsonProof5 JsonNormalProof.
From Coq Require Import List NArith ZArith Bool Lia Permutation.
From Coq.Init Require Import Byte.
From Coq.Strings Require Import Byte.
Import ListNotations.

(** ** Numbers *)
Lemma decimal_upper l : Forall digit l -> (decimal l < 10 ^ N.of_nat (length l))%N.
Proof.
  induction l as [|d l IH] using rev_ind; intros H; [reflexivity|]. apply Forall_app in H as [H Hd]. rewrite decimal_snoc, app_length. cbn [length].
  replace (N.of_nat (length l + 1)) with (N.succ (N.of_nat (length l))) by lia. rewrite N.pow_succ_r'.
  assert (digit_value d < 10)%N by (apply digit_value_lt; now inversion Hd). specialize (IH H). nia.
Qed.
Lemma decimal_lower l : l <> [] -> no_zero l -> Forall digit l -> (10 ^ N.of_nat (length l - 1) <= decimal l)%N.
Proof.
  induction l as [|d l IH] using rev_ind; [congruence|]. intros _ Hz Hd. rewrite decimal_snoc, app_length. cbn [length].
  replace (length l + 1 - 1) with (length l) by lia. apply Forall_app in Hd as [Hd1 Hd2]. destruct l as [|e l].
  - cbn [app] in Hz. assert (0 < digit_value d)%N by (apply digit_positive; [now inversion Hd2|apply (Hz d []); reflexivity]). cbn. lia.
  - assert (H : (10 ^ N.of_nat (length (e :: l) - 1) <= decimal (e :: l))%N) by (apply IH; [discriminate|eapply no_zero_app; exact Hz|exact Hd1]).
    replace (N.of_nat (length (e :: l))) with (N.succ (N.of_nat (length (e :: l) - 1))) by (cbn [length]; lia). rewrite N.pow_succ_r'. lia.
Qed.
Lemma dec_text_nonempty n : 1 <= length (dec_text n).
Proof. destruct (dec_text_shape n) as [[-> _]|(_ & H & _)]; [reflexivity|]. destruct (dec_text n); [congruence|cbn; lia]. Qed.
Lemma dec_text_upper n ds : ds <> [] -> Forall digit ds -> (n <= decimal ds)%N -> length (dec_text n) <= length ds.
Proof.
  intros Hne Hd Hn. destruct (dec_text_shape n) as [[-> _]|(Z & H & _)]; [destruct ds; [congruence|cbn; lia]|].
  pose proof (decimal_lower (dec_text n) H Z (dec_text_digits n)) as L. rewrite dec_text_decimal in L. pose proof (decimal_upper ds Hd) as U.
  pose proof (dec_text_nonempty n). destruct (Nat.le_gt_cases (length (dec_text n)) (length ds)) as [|Hgt]; auto. exfalso.
  assert (10 ^ N.of_nat (length ds) <= 10 ^ N.of_nat (length (dec_text n) - 1))%N by (apply N.pow_le_mono_r; lia). lia.
Qed.
Lemma dec_text_mono n m : (n <= m)%N -> length (dec_text n) <= length (dec_text m).
Proof.
  intros H. apply dec_text_upper; [|apply dec_text_digits|now rewrite dec_text_decimal]. pose proof (dec_text_nonempty m). destruct (dec_text m); [cbn in *; lia|discriminate].
Qed.
Lemma reduced_text z : length (int_text (reduce256 z)) <= length (int_text z).
Proof.
  unfold reduce256. assert (Hb : (0 <= Z.abs z mod 2^256 <= Z.abs z)%Z).
  { split; [apply Z.mod_pos_bound; reflexivity|apply Z.mod_le; [lia|reflexivity]]. }
  revert Hb. generalize (Z.abs z mod 2^256)%Z. intros y Hy. unfold int_text. destruct (Z.ltb_spec z 0).
  - rewrite Z.sgn_neg by lia. destruct (Z.ltb_spec (-1 * y) 0); cbn [length]; [apply le_n_S|apply le_S]; apply dec_text_mono; lia.
  - destruct (Z.eq_dec z 0) as [->|]; [reflexivity|]. rewrite Z.sgn_pos by lia. destruct (Z.ltb_spec (1 * y) 0); [lia|]. apply dec_text_mono. lia.
Qed.

(** ** What a value prints *)
Definition wlen (v : jvalue) : nat := match print v with Ret t => length t | _ => 0 end.
Definition we (e : bytes * jvalue) : nat := length (fst e) + 2 + wlen (snd e).

(** what the value of a text prints at most *)
Fixpoint cap (a : ast) : nat :=
  match a with
  | AInt z => length (int_text z)
  | ABool b => length (literal b)
  | AStr s => 2 + length (flat_map print_char s)
  | AArr l => 2 + list_sum (map (fun x => 1 + cap x) l)
  | AObj ms => 4 + list_sum (map (fun m => length (fst m) + 2 + cap (snd m)) ms)
  end.

Lemma sum_cons {A} (f : A -> nat) x l : list_sum (map f (x :: l)) = f x + list_sum (map f l).
Proof. reflexivity. Qed.
Lemma commas_length ts : length (commas ts) <= list_sum (map (fun t => 1 + length t) ts).
Proof.
  induction ts as [|t ts IH]; [cbn; lia|]. rewrite sum_cons. destruct ts as [|t' ts]; [cbn; lia|].
  change (commas (t :: t' :: ts)) with (t ++ x2c :: commas (t' :: ts)). rewrite app_length. cbn [length]. unfold bytes in *. lia.
Qed.

Lemma perm_sum {A} (f : A -> nat) l l' : Permutation l l' -> list_sum (map f l) = list_sum (map f l').
Proof. induction 1; rewrite ?sum_cons; lia. Qed.

Lemma stored_key_le k : length (stored_key k) <= length k.
Proof. unfold stored_key. rewrite firstn_length. lia. Qed.

Lemma set_sum (t t' : table (bytes * jvalue)) k v : CInv t -> (nE t < 2^28)%N -> sm_set t k v = Ret t' ->
  CInv t' /\ (nE t' <= nE t + 1)%N /\ list_sum (map we (tents t')) <= list_sum (map we (tents t)) + we (k, v).
Proof.
  intros HC Hn H. unfold sm_set in H.
  destruct (insert_ok fst bytes_eqb hash_SDBM bytes_eqb_ok t k (stored_key k, v) (fun e => (fst e, v)) HC Hn) as (t1 & ex & e & H1 & H2 & _ & _ & H3).
  rewrite H1 in H. cbn [bind] in H. injection H as <-. split; [exact H2|].
  destruct H3 as [(-> & HE & l1 & e0 & l2 & Ht0 & Hk0 & -> & Ht' & _)|(-> & HE & -> & HP & _)].
  - split; [lia|]. rewrite Ht0, Ht', !map_app, !list_sum_app. rewrite ?sum_cons. unfold we at 2. cbn [fst snd]. rewrite Hk0. unfold we at 6. cbn [fst snd]. lia.
  - split; [lia|]. rewrite <- (perm_sum we _ _ HP). rewrite ?sum_cons. unfold we at 1 4. cbn [fst snd]. pose proof (stored_key_le k). lia.
Qed.
Lemma fill_sum kvs : forall t t', CInv t -> (nE t + N.of_nat (length kvs) <= 2^28)%N -> fill kvs t = Ret t' ->
  CInv t' /\ list_sum (map we (tents t')) <= list_sum (map we (tents t)) + list_sum (map we kvs).
Proof.
  induction kvs as [|[k v] kvs IH]; intros t t' HC Hn H; cbn [fill] in H.
  - injection H as <-. split; [exact HC|]. cbn. lia.
  - apply bind_ret in H as (t1 & H1 & H). cbn [length] in Hn. destruct (set_sum t t1 k v HC) as (HC1 & Hn1 & Hs); [lia|exact H1|].
    destruct (IH t1 t' HC1) as (HC2 & Hs2); [lia|exact H|]. split; [exact HC2|]. rewrite ?sum_cons in *. lia.
Qed.
Lemma print_obj_length t : CInv t -> wlen (JObj t) <= 4 + list_sum (map we (tents t)).
Proof.
  intros HC. unfold wlen. rewrite print_obj by exact HC. destruct (sequence _) as [ts| | | |] eqn:E; cbn [bind]; try lia. apply sequence_map in E.
  cbn [length]. rewrite app_length. cbn [length]. pose proof (commas_length ts) as Hc.
  assert (list_sum (map (fun t => 1 + length t) ts) <= list_sum (map we (tents t))); [|lia]. clear Hc.
  induction E as [|e x es xs He _ IH]; [cbn; lia|]. rewrite ?sum_cons. apply bind_ret in He as (p & Hp & He). injection He as <-.
  unfold we at 1. unfold wlen. rewrite Hp, app_length. cbn [length]. lia.
Qed.

Lemma build_length a : forall v, build a = Ret v -> fits a -> wlen v <= cap a.
Proof.
  induction a as [z|b|s|l IH|ms IH] using ast_ind2; intros v Hb Hf; cbn [build] in Hb.
  - injection Hb as <-. apply reduced_text.
  - injection Hb as <-. destruct b; reflexivity.
  - injection Hb as <-. unfold wlen. cbn [print cap length]. rewrite app_length. cbn [length]. lia.
  - apply bind_ret in Hb as (vs & H1 & H2). injection H2 as <-. apply sequence_map in H1. cbn [fits] in Hf. apply fold_and in Hf.
    unfold wlen. cbn [print cap]. destruct (sequence _) as [ts| | | |] eqn:E; cbn [bind]; try lia. apply sequence_map in E. cbn [length]. rewrite app_length. cbn [length].
    pose proof (commas_length ts) as Hc. assert (list_sum (map (fun t => 1 + length t) ts) <= list_sum (map (fun x => 1 + cap x) l)); [|lia]. clear Hc.
    revert ts E. induction H1 as [|a v l vs Ha H1 IH1]; intros ts E; inversion E as [|? t ? ts' Ht E']; subst; [cbn; lia|].
    inversion IH as [|? ? IHa IHl]; subst. inversion Hf as [|? ? Hfa Hfl]; subst. rewrite ?sum_cons.
    specialize (IH1 IHl Hfl ts' E'). specialize (IHa v Ha Hfa). unfold wlen in IHa. rewrite Ht in IHa. unfold bytes in *. lia.
  - apply bind_ret in Hb as (kvs & H1 & H2). apply bind_ret in H2 as (t & H2 & H3). injection H3 as <-. apply sequence_map in H1.
    cbn [fits] in Hf. destruct Hf as [Hn Hf]. apply (fold_and (fun m => fits (snd m))) in Hf.
    assert (Hl : length ms = length kvs) by (clear -H1; induction H1; cbn; congruence).
    destruct (sm_new8 (V := jvalue)) as (N1 & _ & _ & N4 & N5).
    destruct (fill_sum kvs (sm_new 8) t N1) as [HC Hs]; [rewrite N4; lia|exact H2|]. rewrite N5 in Hs. change (list_sum (map we [])) with 0 in Hs.
    pose proof (print_obj_length t HC). cbn [cap].
    assert (list_sum (map we kvs) <= list_sum (map (fun m => length (fst m) + 2 + cap (snd m)) ms)); [|lia]. clear - H1 IH Hf.
    induction H1 as [|m p ms kvs Hm H1 IH1]; [cbn; lia|]. inversion IH as [|? ? IHa IHl]; subst. inversion Hf as [|? ? Hfa Hfl]; subst. rewrite ?sum_cons.
    apply bind_ret in Hm as (v & Hv & Hm). injection Hm as <-. specialize (IHa v Hv Hfa). specialize (IH1 IHl Hfl). change (we (fst m, v)) with (length (fst m) + 2 + wlen v). unfold bytes in *. lia.
Qed.

(** ** What a text can hold *)
Definition above (lo : N) (s : bytes) : Prop := forall c, In c s -> (lo <= bval c)%N.
(** the factors *)
Definition factor (f : nat) (s : bytes) : Prop := f = 6 \/ f = 3 /\ above 32 s.

Lemma factor_range f s : factor f s -> 3 <= f.
Proof. unfold factor. lia. Qed.
Lemma factor_incl f s s' : (forall c, In c s' -> In c s) -> factor f s -> factor f s'.
Proof. intros H [->|[-> Ha]]; [now left|right]. split; auto. intros c Hc. auto. Qed.

Lemma print_char_length c : length (print_char c) <= 6.
Proof. unfold print_char. destruct (_ || _); [cbn; lia|]. destruct (_ && _); cbn; lia. Qed.
Lemma print_char_above c : (32 <= bval c)%N -> length (print_char c) <= 2.
Proof.
  intros H. unfold print_char. destruct (_ || _); [cbn; lia|]. destruct (_ && _) eqn:E; [|cbn; lia]. exfalso.
  apply andb_true_iff in E as [E1 E2]. unfold schar in *. fold (bval c) in *. pose proof (bval_lt c). destruct (Z.ltb_spec (Z.of_N (bval c)) 128); lia.
Qed.

Lemma chars_length f s cs r : gchars s cs r -> factor f s -> length (flat_map print_char cs) + f + f * length r <= f * length s.
Proof.
  induction 1 as [r|e c s cs r Hin Hg IH|h1 h2 h3 h4 n1 n2 n3 n4 s cs r _ _ _ _ Hg IH|c s cs r _ _ Hg IH]; intros Hf; cbn [flat_map length]; pose proof (factor_range _ _ Hf) as H3.
  - lia.
  - rewrite app_length. pose proof (print_char_length c). assert (Hs : factor f s) by (eapply factor_incl; [|exact Hf]; cbn; auto 10). specialize (IH Hs). lia.
  - rewrite app_length. pose proof (print_char_length (byte_of_N (((n1 * 16 + n2) * 16 + n3) * 16 + n4))). assert (Hs : factor f s) by (eapply factor_incl; [|exact Hf]; cbn; auto 10). specialize (IH Hs). lia.
  - rewrite app_length. assert (Hs : factor f s) by (eapply factor_incl; [|exact Hf]; cbn; auto 10). specialize (IH Hs). destruct Hf as [->|[-> Ha]].
    + pose proof (print_char_length c). lia.
    + pose proof (print_char_above c (Ha c (or_introl eq_refl))). lia.
Qed.
Lemma chars_in s cs r : gchars s cs r -> forall c, In c r -> In c s.
Proof. induction 1; intros x Hx; cbn; auto 10. Qed.
Lemma nat_in s n r : gnat s n r -> forall c, In c r -> In c s.
Proof. destruct 1; intros c Hc; cbn; rewrite ?in_app_iff; auto. Qed.
Lemma nat_length s n r : gnat s n r -> length (dec_text n) + length r <= length s.
Proof.
  destruct 1 as [r|d ds r Hd Hz Hds _]; [cbn; lia|]. cbn [length]. rewrite app_length.
  pose proof (dec_text_upper (decimal (d :: ds)) (d :: ds) ltac:(discriminate) ltac:(now constructor) ltac:(lia)) as H. cbn [length] in H. lia.
Qed.
Lemma key_in s k r : gkey s k r -> forall c, In c r -> In c s.
Proof.
  destruct 1 as [w s k w' r _ H _]. intros c Hc. apply in_app_iff. right. right. apply (chars_in _ _ _ H). apply in_app_iff. right. now right.
Qed.
Lemma key_length s k r : gkey s k r -> length k + 3 + length r <= length s.
Proof. destruct 1 as [w s k w' r _ H _]. apply gchars_cslen in H. rewrite !app_length in *. cbn [length] in *. lia. Qed.
Lemma gval_in lits s a r : gval lits s a r -> forall c, In c r -> In c s.
Proof.
  revert s a r. apply (gval_ind2 lits (fun s a r => forall c, In c r -> In c s) (fun s l r => forall c, In c r -> In c s) (fun s l r => forall c, In c r -> In c s)); intros.
  - rewrite !in_app_iff. auto.
  - apply in_app_iff. right. eapply nat_in; eauto.
  - apply in_app_iff. right. right. eapply nat_in; eauto.
  - apply in_app_iff. right. right. eapply chars_in; eauto.
  - apply in_app_iff. right. right. apply in_app_iff. right. now right.
  - apply in_app_iff. right. right. auto.
  - apply in_app_iff. right. right. apply in_app_iff. right. now right.
  - apply in_app_iff. right. right. auto.
  - apply H0. apply in_app_iff. right. now right.
  - apply H0. apply in_app_iff. right. right. auto.
  - eapply key_in; [exact H|]. apply H1. apply in_app_iff. right. now right.
  - eapply key_in; [exact H|]. apply H1. apply in_app_iff. right. right. auto.
Qed.

Lemma text_length lits f s a r : gval lits s a r -> factor f s -> cap a + f * length r <= f * length s.
Proof.
  revert s a r. apply (gval_ind2 lits (fun s a r => factor f s -> cap a + f * length r <= f * length s)
    (fun s l r => factor f s -> list_sum (map (fun x => 1 + cap x) l) + f * length r <= f * length s)
    (fun s ms r => factor f s -> list_sum (map (fun m => length (fst m) + 2 + cap (snd m)) ms) + 1 + f * length r <= f * length s)).
  - intros w b r _ _ Hf. apply factor_range in Hf. cbn [cap]. rewrite !app_length. destruct b; cbn; nia.
  - intros w s n r _ H Hf. apply factor_range in Hf. cbn [cap]. apply nat_length in H. unfold int_text. destruct (Z.ltb_spec (Z.of_N n) 0); [lia|]. rewrite N2Z.id, app_length. nia.
  - intros w s n r _ H Hf. apply factor_range in Hf. cbn [cap]. apply nat_length in H. unfold int_text. rewrite app_length. cbn [length].
    destruct (Z.ltb_spec (- Z.of_N n) 0); [rewrite Z.opp_involutive, N2Z.id; cbn [length]; nia|]. assert (n = 0)%N by lia. subst n. cbn in H |- *. nia.
  - intros w s cs r _ H Hf. pose proof (factor_range _ _ Hf). apply (chars_length f) in H; [|eapply factor_incl; [|exact Hf]; intros; apply in_app_iff; right; now right].
    cbn [cap]. rewrite app_length. cbn [length]. nia.
  - intros w w' r _ _ Hf. apply factor_range in Hf. cbn [cap map list_sum fold_right]. rewrite app_length. cbn [length]. rewrite app_length. cbn [length]. nia.
  - intros w s l r _ _ IH Hf. pose proof (factor_range _ _ Hf). specialize (IH ltac:(eapply factor_incl; [|exact Hf]; intros; apply in_app_iff; right; now right)).
    cbn [cap]. rewrite app_length. cbn [length]. nia.
  - intros w w' r _ _ Hf. apply factor_range in Hf. cbn [cap map list_sum fold_right]. rewrite app_length. cbn [length]. rewrite app_length. cbn [length]. nia.
  - intros w s ms r _ _ IH Hf. pose proof (factor_range _ _ Hf). specialize (IH ltac:(eapply factor_incl; [|exact Hf]; intros; apply in_app_iff; right; now right)).
    cbn [cap]. rewrite app_length. cbn [length]. nia.
  - intros s a w r _ IH _ Hf. specialize (IH Hf). pose proof (factor_range _ _ Hf). rewrite app_length in IH. rewrite ?sum_cons; cbn [length] in *; unfold list_sum, map, fold_right. nia.
  - intros s a w s' l r Hg IH _ _ IH2 Hf. specialize (IH Hf). pose proof (factor_range _ _ Hf).
    specialize (IH2 ltac:(eapply factor_incl; [|exact Hf]; intros; eapply gval_in; [exact Hg|]; apply in_app_iff; right; now right)).
    rewrite app_length in IH. rewrite ?sum_cons; cbn [length] in *. nia.
  - intros s k s' a w r Hk Hg IH _ Hf. pose proof (factor_range _ _ Hf). specialize (IH ltac:(eapply factor_incl; [|exact Hf]; intros; eapply key_in; eauto)).
    apply key_length in Hk. rewrite app_length in IH. rewrite ?sum_cons; cbn [length fst snd] in *; unfold list_sum, map, fold_right. nia.
  - intros s k s' a w s'' ms r Hk Hg IH _ _ IH2 Hf. pose proof (factor_range _ _ Hf). specialize (IH ltac:(eapply factor_incl; [|exact Hf]; intros; eapply key_in; eauto)).
    specialize (IH2 ltac:(eapply factor_incl; [|exact Hf]; intros; eapply key_in; [exact Hk|]; eapply gval_in; [exact Hg|]; apply in_app_iff; right; now right)).
    apply key_length in Hk. rewrite app_length in IH. rewrite ?sum_cons; cbn [length fst snd] in *. nia.
Qed.

Lemma printed_length f lay s v t : (N.of_nat (length s) < 2^28)%N -> factor f s -> parse lay s = Ret (true, v) -> print v = Ret t -> length t <= f * length s.
Proof.
  intros Hl Hf Hp Ht. destruct (parse_ok lay s Hl) as [(a & r & v' & Hg & Hb & _ & H)|(_ & H)]; rewrite H in Hp; [|discriminate]. injection Hp as <-.
  assert (Hfits : fits a) by (apply (gval_fits _ _ _ _ Hg); lia).
  pose proof (build_length a v' Hb Hfits) as H1. unfold wlen in H1. rewrite Ht in H1. pose proof (text_length _ f _ _ _ Hg Hf). nia.
Qed.

(** ** Texts that reach the bounds *)
Lemma chars_times (u : bytes) (c : byte) n : (forall s cs r, gchars s cs r -> gchars (u ++ s) (c :: cs) r) -> gchars (concat (repeat u n) ++ [x22]) (repeat c n) [].
Proof. intros H. induction n as [|n IH]; cbn [repeat concat]; [constructor|]. rewrite <- app_assoc. auto. Qed.
Lemma times_length (u : bytes) n : length (concat (repeat u n)) = n * length u.
Proof. induction n as [|n IH]; cbn [repeat concat]; [reflexivity|]. rewrite app_length, IH. reflexivity. Qed.
Lemma print_times c n : length (flat_map print_char (repeat c n)) = n * length (print_char c).
Proof. induction n as [|n IH]; cbn [repeat flat_map]; [reflexivity|]. rewrite app_length, IH. reflexivity. Qed.

Lemma long_print lay u c n : (forall s cs r, gchars s cs r -> gchars (u ++ s) (c :: cs) r) -> length (print_char c) = 6 -> (N.of_nat (n * length u + 2) < 2^28)%N ->
  exists v t, parse lay (x22 :: concat (repeat u n) ++ [x22]) = Ret (true, v) /\ print v = Ret t /\ length t = 6 * n + 2.
Proof.
  intros Hu Hc Hn. exists (JStr (repeat c n)). eexists. split; [|split; [reflexivity|]].
  - apply (parse_exact lay _ (AStr (repeat c n)) []); [|apply (G_str _ []); [constructor|now apply chars_times]|reflexivity].
    cbn [length]. rewrite app_length, times_length. cbn [length]. lia.
  - cbn [length]. rewrite app_length, print_times, Hc. cbn [length]. lia.
Qed.

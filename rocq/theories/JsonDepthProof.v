(** How much stack the parser needs. *)
From Verif Require Import Base HashModel StringMapModel JsonSpec JsonModel JsonProof JsonProof2 JsonDenotes JsonProof3 JsonProof5 JsonDepthSpec JsonDepthModel.
From Coq Require Import List NArith ZArith Bool Lia.
From Coq.Init Require Import Byte.
Import ListNotations.

(** ** what is left is a suffix *)
Definition suffix (r s : bytes) : Prop := exists p, s = p ++ r.

Lemma suffix_refl s : suffix s s.
Proof. now exists []. Qed.
Lemma suffix_trans a b c : suffix a b -> suffix b c -> suffix a c.
Proof. intros [p ->] [q ->]. exists (q ++ p). now rewrite app_assoc. Qed.
Lemma suffix_cons x s : suffix s (x :: s).
Proof. now exists [x]. Qed.
#[local] Hint Resolve suffix_refl suffix_cons : core.

Lemma opens_suffix r s : suffix r s -> opens r <= opens s.
Proof. intros [p ->]. unfold opens. rewrite filter_app, app_length. lia. Qed.

Lemma advance_suffix s n r : advance s n = Ret r -> suffix r s.
Proof. unfold advance. destruct (Nat.leb n (length s)); [|discriminate]. intros [= <-]. exists (firstn n s). now rewrite firstn_skipn. Qed.

Lemma skip_suffix s r : skip_ws s = Ret r -> suffix r s.
Proof. rewrite skip_ws_eq. intros [= <-]. destruct (drop_ws_split s) as (w & _ & H). now exists w. Qed.

Lemma have_suffix c s b r : have c s = Ret (b, r) -> suffix r s.
Proof.
  unfold have. destruct (read s 0) as [h| | | |]; cbn; try discriminate. destruct (beqb h c).
  - destruct (advance s 1) eqn:E; cbn; try discriminate. intros [= <- <-]. eapply advance_suffix; eauto.
  - intros [= <- <-]. auto.
Qed.

Lemma have_if_suffix p s buf b r buf' : have_if p s buf = Ret (b, r, buf') -> suffix r s.
Proof.
  unfold have_if. destruct (read s 0) as [h| | | |]; cbn; try discriminate. destruct (p h).
  - destruct (advance s 1) eqn:E; cbn; try discriminate. intros [= <- <- <-]. eapply advance_suffix; eauto.
  - intros [= <- <- <-]. auto.
Qed.

Lemma expect_suffix c msg s r : expect c msg s = Ret r -> suffix r s.
Proof. unfold expect. destruct (have c s) as [[[] s']| | | |] eqn:E; cbn; try discriminate. intros [= <-]. eapply have_suffix; eauto. Qed.

Lemma expect_pat_suffix e p pat msg s r : expect_pat e p pat msg s = Ret r -> suffix r s.
Proof.
  unfold expect_pat, have_pat. destruct (have_pat_loop e p 0 pat s) as [[]| | | |]; cbn; try discriminate.
  destruct (advance s (length pat)) eqn:E; cbn; try discriminate. intros [= <-]. eapply advance_suffix; eauto.
Qed.

Lemma digits_suffix f : forall s buf r buf', digits_loop f s buf = Ret (r, buf') -> suffix r s.
Proof.
  induction f as [|f IH]; cbn; intros s buf r buf'; [discriminate|].
  destruct (have_if is_digit s buf) as [[[[] s1] b1]| | | |] eqn:E; cbn; try discriminate; apply have_if_suffix in E.
  - intros H. apply IH in H. eapply suffix_trans; eauto.
  - intros [= <- <-]. auto.
Qed.

Lemma int_part_suffix s buf b r buf' : parse_int_part s buf = Ret (b, r, buf') -> suffix r s.
Proof.
  unfold parse_int_part. destruct (have_if is_pos_digit s buf) as [[[[] s1] b1]| | | |] eqn:E; cbn [bind]; try discriminate; apply have_if_suffix in E.
  - destruct (digits_loop (S (length s1)) s1 b1) as [[s2 b2]| | | |] eqn:E2; cbn [bind]; try discriminate. intros [= <- <- <-].
    apply digits_suffix in E2. eapply suffix_trans; eauto.
  - intros [= <- <- <-]. auto.
Qed.

Lemma escape_suffix s c r : parse_escape s = Ret (c, r) -> suffix r s.
Proof.
  assert (Hcode : forall s c r, parse_codepoint s = Ret (c, r) -> suffix r s).
  { clear. intros s c r. unfold parse_codepoint. destruct (valid_code_loop 4 0 s) as [[]| | | |]; cbn [bind]; try discriminate.
    destruct (advance s 4) eqn:E; cbn [bind]; try discriminate. intros [= <- <-]. eapply advance_suffix; eauto. }
  unfold parse_escape.
  do 8 (match goal with
    | |- bind (have ?x ?t) _ = _ -> _ => let E := fresh "E" in destruct (have x t) as [[[] ?]| | | |] eqn:E; cbn [bind]; try discriminate; apply have_suffix in E
    end; [intros [= <- <-]; eauto 12 using suffix_trans|]).
  match goal with
    | |- bind (have ?x ?t) _ = _ -> _ => let E := fresh "E" in destruct (have x t) as [[[] ?]| | | |] eqn:E; cbn [bind]; try discriminate; apply have_suffix in E
    end.
  intros H. apply Hcode in H. eauto 12 using suffix_trans.
Qed.

Lemma string_loop_suffix f : forall s str r str', string_loop f s str = Ret (r, str') -> suffix r s.
Proof.
  induction f as [|f IH]; cbn; intros s str r str'; [discriminate|].
  destruct (have x22 s) as [[[] s1]| | | |] eqn:E; cbn [bind]; try discriminate; apply have_suffix in E.
  { intros [= <- <-]. auto. }
  destruct (Nat.eqb (length s1) 0); [discriminate|].
  destruct (have x5c s1) as [[[] s2]| | | |] eqn:E2; cbn [bind]; try discriminate; apply have_suffix in E2.
  - destruct (parse_escape s2) as [[c s3]| | | |] eqn:E3; cbn [bind]; try discriminate. apply escape_suffix in E3. intros H. apply IH in H. eauto using suffix_trans.
  - destruct (read s2 0); cbn [bind]; try discriminate. destruct (advance s2 1) eqn:E3; cbn [bind]; try discriminate. apply advance_suffix in E3.
    intros H. apply IH in H. eauto using suffix_trans.
Qed.

Ltac bindcase :=
  match goal with
  | |- bind ?m _ = _ -> _ => let E := fresh "E" in destruct m eqn:E; cbn [bind]; try discriminate
  end.

Lemma parse_string_suffix k s c b r c' : parse_string k s c = Ret (b, r, c') -> suffix r s.
Proof.
  unfold parse_string. bindcase. apply skip_suffix in E. bindcase. destruct a0 as [[] s2]; apply have_suffix in E0.
  - bindcase. destruct a0 as [s3 str]. apply string_loop_suffix in E1. bindcase. intros [= <- <- <-]. eauto using suffix_trans.
  - intros [= <- <- <-]. eauto using suffix_trans.
Qed.

Lemma parse_boolean_suffix lay s c b r c' : parse_boolean lay s c = Ret (b, r, c') -> suffix r s.
Proof.
  unfold parse_boolean. bindcase. apply skip_suffix in E. bindcase. destruct a0 as [[] s2]; apply have_suffix in E0.
  - bindcase. apply expect_pat_suffix in E1. bindcase. intros [= <- <- <-]. eauto using suffix_trans.
  - bindcase. destruct a0 as [[] s3]; apply have_suffix in E1.
    + bindcase. apply expect_pat_suffix in E2. bindcase. intros [= <- <- <-]. eauto using suffix_trans.
    + intros [= <- <- <-]. eauto using suffix_trans.
Qed.

Lemma parse_number_suffix s c b r c' : parse_number s c = Ret (b, r, c') -> suffix r s.
Proof.
  unfold parse_number. bindcase. apply skip_suffix in E. bindcase. destruct a0 as [[st s2] b2]; apply have_if_suffix in E0.
  bindcase. destruct a0 as [[z s3] b3]; apply have_if_suffix in E1.
  bindcase. destruct a0 as [[ok s4] b4]. assert (suffix s4 s3).
  { destruct z; [injection E2 as <- <- <-; auto|eapply int_part_suffix; eauto]. }
  destruct ok; [bindcase|destruct st; [discriminate|]]; intros [= <- <- <-]; eauto using suffix_trans.
Qed.

Section Loops.
  Variable pv : bytes -> cbs -> outcome (bytes * cbs).
  Hypothesis Hpv : forall s c r c', pv s c = Ret (r, c') -> suffix r s.

  Lemma elems_suffix f : forall s c r c', elems_loop pv f s c = Ret (r, c') -> suffix r s.
  Proof.
    induction f as [|f IH]; cbn; intros s c r c'; [discriminate|].
    bindcase. destruct a as [s1 c1]. apply Hpv in E. bindcase. apply skip_suffix in E0. bindcase. destruct a0 as [[] s3]; apply have_suffix in E1.
    - intros H. apply IH in H. eauto using suffix_trans.
    - intros [= <- <-]. eauto using suffix_trans.
  Qed.
  Lemma members_suffix f : forall s c r c', members_loop pv f s c = Ret (r, c') -> suffix r s.
  Proof.
    induction f as [|f IH]; cbn; intros s c r c'; [discriminate|].
    bindcase. destruct a as [[[] s1] c1]; [|discriminate]. apply parse_string_suffix in E. bindcase. apply skip_suffix in E0. bindcase. apply expect_suffix in E1.
    bindcase. destruct a1 as [s4 c4]. apply Hpv in E2. bindcase. apply skip_suffix in E3. bindcase. destruct a2 as [[] s5]; apply have_suffix in E4.
    - intros H. apply IH in H. eauto 8 using suffix_trans.
    - intros [= <- <-]. eauto 8 using suffix_trans.
  Qed.
  Lemma array_suffix s c b r c' : parse_array pv s c = Ret (b, r, c') -> suffix r s.
  Proof.
    unfold parse_array. bindcase. apply skip_suffix in E. bindcase. destruct a0 as [[] s2]; apply have_suffix in E0; [|intros [= <- <- <-]; eauto using suffix_trans].
    bindcase. apply skip_suffix in E1. bindcase. destruct a1 as [[] s3]; apply have_suffix in E2.
    - bindcase. intros [= <- <- <-]. eauto using suffix_trans.
    - bindcase. destruct a1 as [s4 c4]. apply elems_suffix in E3. bindcase. apply expect_suffix in E4. bindcase. intros [= <- <- <-]. eauto 8 using suffix_trans.
  Qed.
  Lemma object_suffix s c b r c' : parse_object pv s c = Ret (b, r, c') -> suffix r s.
  Proof.
    unfold parse_object. bindcase. apply skip_suffix in E. bindcase. destruct a0 as [[] s2]; apply have_suffix in E0; [|intros [= <- <- <-]; eauto using suffix_trans].
    bindcase. apply skip_suffix in E1. bindcase. destruct a1 as [[] s3]; apply have_suffix in E2.
    - bindcase. intros [= <- <- <-]. eauto using suffix_trans.
    - bindcase. destruct a1 as [s4 c4]. apply members_suffix in E3. bindcase. apply expect_suffix in E4. bindcase. intros [= <- <- <-]. eauto 8 using suffix_trans.
  Qed.
End Loops.

Lemma value_suffix lay f : forall s c r c', parse_value lay f s c = Ret (r, c') -> suffix r s.
Proof.
  induction f as [|f IH]; cbn [parse_value]; intros s c r c'; [discriminate|].
  bindcase. destruct a as [[b s1] c1]. apply (object_suffix _ IH) in E. destruct b; [intros [= <- <-]; auto|].
  bindcase. destruct a as [[b s2] c2]. apply (array_suffix _ IH) in E0. destruct b; [intros [= <- <-]; eauto using suffix_trans|].
  bindcase. destruct a as [[b s3] c3]. apply parse_string_suffix in E1. destruct b; [intros [= <- <-]; eauto using suffix_trans|].
  bindcase. destruct a as [[b s4] c4]. apply parse_boolean_suffix in E2. destruct b; [intros [= <- <-]; eauto using suffix_trans|].
  bindcase. destruct a as [[b s5] c5]. apply parse_number_suffix in E3. destruct b; [intros [= <- <-]; eauto 8 using suffix_trans|discriminate].
Qed.

(** ** room for as many calls as there are brackets is enough *)
Section Agree.
  Variables pv1 pv2 : bytes -> cbs -> outcome (bytes * cbs).
  Variable n : nat.
  Hypothesis Hsame : forall s c, opens s < n -> pv1 s c = pv2 s c.
  Hypothesis Hsfx : forall s c r c', pv1 s c = Ret (r, c') -> suffix r s.

  Lemma bind_ext {A B} (m : outcome A) (k1 k2 : A -> outcome B) : (forall a, m = Ret a -> k1 a = k2 a) -> bind m k1 = bind m k2.
  Proof. destruct m; cbn; auto. Qed.

  Lemma elems_agree f : forall s c, opens s < n -> elems_loop pv1 f s c = elems_loop pv2 f s c.
  Proof.
    induction f as [|f IH]; intros s c Hs; cbn; auto. rewrite <- (Hsame s c Hs). apply bind_ext. intros [s1 c1] E. apply Hsfx, opens_suffix in E.
    apply bind_ext. intros s2 E2. apply skip_suffix, opens_suffix in E2. apply bind_ext. intros [[] s3] E3; auto. apply have_suffix, opens_suffix in E3. apply IH. lia.
  Qed.
  Lemma members_agree f : forall s c, opens s < n -> members_loop pv1 f s c = members_loop pv2 f s c.
  Proof.
    induction f as [|f IH]; intros s c Hs; cbn; auto. apply bind_ext. intros [[[] s1] c1] E; auto. apply parse_string_suffix, opens_suffix in E.
    apply bind_ext. intros s2 E2. apply skip_suffix, opens_suffix in E2. apply bind_ext. intros s3 E3. apply expect_suffix, opens_suffix in E3.
    rewrite <- Hsame by lia. apply bind_ext. intros [s4 c4] E4. apply Hsfx, opens_suffix in E4.
    apply bind_ext. intros s5 E5. apply skip_suffix, opens_suffix in E5. apply bind_ext. intros [[] s6] E6; auto. apply have_suffix, opens_suffix in E6. apply IH. lia.
  Qed.
  Lemma have_open x s r : x = x5b \/ x = x7b -> have x s = Ret (true, r) -> opens r < opens s.
  Proof.
    intros Hx. rewrite have_eq by (destruct Hx; subst; discriminate). destruct s as [|ch t]; [discriminate|].
    destruct (beqb_spec ch x) as [->|]; [|discriminate]. intros [= <-]. unfold opens. cbn [filter]. destruct Hx as [-> | ->]; cbn; lia.
  Qed.
  Lemma array_agree s c : opens s <= n -> parse_array pv1 s c = parse_array pv2 s c.
  Proof.
    intros Hs. unfold parse_array. apply bind_ext. intros s1 E1. apply skip_suffix, opens_suffix in E1. apply bind_ext. intros [[] s2] E2; auto.
    apply have_open in E2; auto. apply bind_ext. intros s3 E3. apply skip_suffix, opens_suffix in E3. apply bind_ext. intros [[] s4] E4; auto. apply have_suffix, opens_suffix in E4.
    rewrite elems_agree by lia. reflexivity.
  Qed.
  Lemma object_agree s c : opens s <= n -> parse_object pv1 s c = parse_object pv2 s c.
  Proof.
    intros Hs. unfold parse_object. apply bind_ext. intros s1 E1. apply skip_suffix, opens_suffix in E1. apply bind_ext. intros [[] s2] E2; auto.
    apply have_open in E2; auto. apply bind_ext. intros s3 E3. apply skip_suffix, opens_suffix in E3. apply bind_ext. intros [[] s4] E4; auto. apply have_suffix, opens_suffix in E4.
    rewrite members_agree by lia. reflexivity.
  Qed.
End Agree.

Lemma value_agree lay f1 : forall f2 s c, opens s < f1 -> opens s < f2 -> parse_value lay f1 s c = parse_value lay f2 s c.
Proof.
  induction f1 as [|f1 IH]; intros f2 s c H1 H2; [lia|]. destruct f2 as [|f2]; [lia|].
  set (n := Nat.min f1 f2).
  assert (Hsame : forall s c, opens s < n -> parse_value lay f1 s c = parse_value lay f2 s c) by (intros; apply IH; subst n; lia).
  cbn [parse_value]. rewrite (object_agree (parse_value lay f1) (parse_value lay f2) n Hsame (value_suffix lay f1)) by (subst n; lia).
  apply bind_ext. intros [[[] s1] c1] E; auto. apply object_suffix, opens_suffix in E; [|apply value_suffix].
  rewrite (array_agree (parse_value lay f1) (parse_value lay f2) n Hsame (value_suffix lay f1)) by (subst n; lia). reflexivity.
Qed.

Lemma opens_length s : opens s <= length s.
Proof. unfold opens. induction s as [|c s IH]; cbn; [lia|]. destruct (_ || _); cbn; lia. Qed.

Lemma parse_in_enough room lay s : opens s < room -> parse_in room lay s = parse lay s.
Proof. intros H. unfold parse_in, parse. rewrite (value_agree lay room (S (length s))); auto. pose proof (opens_length s). lia. Qed.

(** ** a run of brackets needs room for each *)
Lemma open_run lay d : forall c, parse_value lay d (repeat x5b d) c = Diverge.
Proof.
  induction d as [|d IH]; intros c; [reflexivity|]. cbn [parse_value repeat].
  unfold parse_object. rewrite skip_ws_eq. cbn [bind]. rewrite drop_ws_cons by reflexivity. rewrite have_eq by discriminate.
  replace (beqb x5b x7b) with false by reflexivity. cbn [bind].
  unfold parse_array. rewrite skip_ws_eq. cbn [bind]. rewrite drop_ws_cons by reflexivity. rewrite have_eq by discriminate. rewrite beqb_refl. cbn [bind].
  assert (Hd : drop_ws (repeat x5b d) = repeat x5b d) by (destruct d; reflexivity).
  rewrite skip_ws_eq. cbn [bind]. rewrite Hd. rewrite have_eq by discriminate.
  assert (Hloop : forall k, elems_loop (parse_value lay d) (S k) (repeat x5b d) (begin_array c) = Diverge) by (intros; cbn [elems_loop]; now rewrite IH).
  destruct d as [|d]; cbn [repeat].
  - cbn [bind]. now rewrite Hloop.
  - replace (beqb x5b x5d) with false by reflexivity. cbn [bind]. change (x5b :: repeat x5b d) with (repeat x5b (S d)). now rewrite Hloop.
Qed.

Lemma parse_in_run room lay : parse_in room lay (repeat x5b room) = Diverge.
Proof. unfold parse_in. now rewrite open_run. Qed.

(** ** texts of the grammar: exactly the levels *)
Definition maxl (l : list nat) : nat := fold_right Nat.max 0 l.

Section Exact.
  Variable lay : layout.
  Notation L := (layout_lits lay).

  Lemma value_ret s a r F c : gval L s a r -> (N.of_nat F <= 2^28)%N -> length s < F -> cbok (length s) c ->
    exists v c', wfj v /\ set_parent c v = Ret c' /\ parse_value lay F s c = Ret (r, c').
  Proof.
    intros Hg HF Hs Hc. destruct (parse_value_ok lay F HF s c Hs Hc) as [(a' & r' & v & c' & Hg' & _ & Hw & Hset & Hp)|(Hno & _)]; [|exfalso; eapply Hno; eauto].
    destruct (gval_det _ _ _ _ _ _ Hg Hg') as [<- <-]. eauto.
  Qed.

  Lemma set_parent_next c v c' n m : cbok n c -> wfj v -> set_parent c v = Ret c' -> m < n -> cbok m c'.
  Proof.
    intros Hc Hw Hs Hm. destruct (set_parent_ok m c v) as (c2 & H1 & H2); auto; [eapply cbok_mono; [|exact Hc]; lia|].
    rewrite Hs in H1. injection H1 as <-. exact H2.
  Qed.

  Section Step.
    Variable n : nat.
    Hypothesis IH : forall s a r f F c, length s < n -> gval L s a r -> (N.of_nat F <= 2^28)%N -> length s < F -> cbok (length s) c ->
      parse_value lay f s c = if levels a <=? f then parse_value lay F s c else Diverge.

    Lemma elems_exact f F k : forall s l r c, length s < n -> gelems L s l r -> (N.of_nat F <= 2^28)%N -> length s < F -> cbok (length s) c ->
      elems_loop (parse_value lay f) k s c = if maxl (map levels l) <=? f then elems_loop (parse_value lay F) k s c else Diverge.
    Proof.
      induction k as [|k IHk]; intros s l r c Hn Hg HF Hs Hc; [cbn; now destruct (_ <=? _)|].
      apply gelems_shape in Hg as (a & s1 & l' & Ha & -> & Haft). cbn [elems_loop map maxl fold_right]. fold (maxl (map levels l')).
      destruct (value_ret s a s1 F c) as (v & c' & Hw & Hset & Hp); auto.
      rewrite (IH s a s1 f F c) by auto. rewrite Hp.
      destruct (Nat.leb_spec (levels a) f) as [H1|H1]; [|destruct (Nat.leb_spec (Nat.max (levels a) (maxl (map levels l'))) f); [lia|reflexivity]].
      cbn [bind]. pose proof (gval_len _ _ _ _ Ha) as Hl. rewrite skip_ws_eq. cbn [bind]. rewrite have_eq by discriminate. pose proof (drop_ws_length s1) as Hd.
      destruct (drop_ws s1) as [|ch t]; cbn in Haft; [tauto|]. cbn [length] in Hd.
      destruct (beqb ch x2c); cbn [bind].
      - rewrite (IHk t l' r c') by (auto; try lia; eapply set_parent_next; eauto; lia).
        destruct (Nat.leb_spec (maxl (map levels l')) f), (Nat.leb_spec (Nat.max (levels a) (maxl (map levels l'))) f); auto; lia.
      - destruct (beqb ch x5d); [|tauto]. destruct Haft as [-> ->]. cbn [map maxl fold_right].
        destruct (Nat.leb_spec (Nat.max (levels a) 0) f); auto; lia.
    Qed.

    Lemma members_exact f F k : forall s ms r v0 k0 st rt, length s < n -> gmembers L s ms r -> (N.of_nat F <= 2^28)%N -> length s < F -> cbok (length s) (mkC ((v0, k0) :: st) rt) ->
      members_loop (parse_value lay f) k s (mkC ((v0, k0) :: st) rt) =
      if maxl (map (fun m => levels (snd m)) ms) <=? f then members_loop (parse_value lay F) k s (mkC ((v0, k0) :: st) rt) else Diverge.
    Proof.
      induction k as [|k IHk]; intros s ms r v0 k0 st rt Hn Hg HF Hs Hc; [cbn; now destruct (_ <=? _)|].
      apply gmembers_shape in Hg as (key & s0 & a & s1 & l' & Hk & Ha & -> & Haft). cbn [members_loop map maxl fold_right snd].
      fold (maxl (map (fun m : bytes * ast => levels (snd m)) l')). set (M := maxl (map (fun m : bytes * ast => levels (snd m)) l')) in *.
      assert (Heq : forall (m : outcome step_result) (k : bytes * cbs -> outcome (bytes * cbs)),
        bind m (fun '(b, s, c) => if b then s <- skip_ws s ;; s <- expect x3a no_colon s ;; k (s, c) else Throw (ParserError no_key)) =
        bind (bind m (fun '(b, s, c) => if b then s <- skip_ws s ;; s <- expect x3a no_colon s ;; Ret (s, c) else Throw (ParserError no_key))) k).
      { intros m k1. destruct m as [[[[] s'] c]| | | |]; cbn [bind]; auto. destruct (skip_ws s'); cbn [bind]; auto. destruct (expect x3a no_colon a0); auto. }
      rewrite (Heq _ (fun '(s, c) => '(s, c) <- parse_value lay f s c ;; s <- skip_ws s ;; '(b, s) <- have x2c s ;; if b then members_loop (parse_value lay f) k s c else Ret (s, c))).
      rewrite (Heq _ (fun '(s, c) => '(s, c) <- parse_value lay F s c ;; s <- skip_ws s ;; '(b, s) <- have x2c s ;; if b then members_loop (parse_value lay F) k s c else Ret (s, c))).
      clear Heq.
      destruct (key_ok s (mkC ((v0, k0) :: st) rt) v0 k0 st eq_refl) as [(key' & s0' & Hk' & Hp0)|(Hno & _)]; [|exfalso; eapply Hno; eauto].
      destruct (gkey_det _ _ _ _ _ Hk Hk') as [<- <-]. rewrite Hp0. cbn [bind root]. pose proof (gkey_len _ _ _ Hk) as Hlk.
      assert (Hc0 : cbok (length s0) (mkC ((v0, key) :: st) rt)).
      { eapply cbok_mono with (n := length s); [lia|]. inversion Hc; subst. constructor; auto. }
      destruct (value_ret s0 a s1 F (mkC ((v0, key) :: st) rt)) as (v & c' & Hw & Hset & Hp); auto; [lia|].
      rewrite (IH s0 a s1 f F (mkC ((v0, key) :: st) rt)) by (auto; lia). rewrite Hp.
      destruct (Nat.leb_spec (levels a) f) as [H1|H1]; [|destruct (Nat.leb_spec (Nat.max (levels a) M) f); [lia|reflexivity]].
      cbn [bind]. pose proof (gval_len _ _ _ _ Ha) as Hl. rewrite skip_ws_eq. cbn [bind]. rewrite have_eq by discriminate. pose proof (drop_ws_length s1) as Hd.
      destruct (drop_ws s1) as [|ch t]; cbn in Haft; [tauto|]. cbn [length] in Hd.
      assert (Hsh : exists v1 st1, c' = mkC ((v1, key) :: st1) rt).
      { unfold set_parent in Hset. cbn [stack root] in Hset. destruct v0; try (injection Hset as <-; eauto; fail).
        destruct (sm_set t0 key (jcopy (jcopy v))); cbn in Hset; try discriminate. injection Hset as <-. eauto. }
      assert (Hc' : forall m, m < length s0 -> cbok m c') by (intros; eapply set_parent_next; eauto).
      destruct (beqb ch x2c); cbn [bind].
      - destruct Hsh as (v1 & st1 & ->). rewrite (IHk t l' r v1 key st1 rt) by (auto; try lia; apply Hc'; lia). fold M.
        destruct (Nat.leb_spec M f), (Nat.leb_spec (Nat.max (levels a) M) f); auto; lia.
      - destruct (beqb ch x7d); [|tauto]. destruct Haft as [-> ->]. subst M. cbn [map maxl fold_right].
        destruct (Nat.leb_spec (Nat.max (levels a) 0) f); auto; lia.
    Qed.
  End Step.

  Lemma core_head ch t a r : core L (ch :: t) a r -> ch <> x7b -> ch <> x5b -> levels a = 1.
  Proof.
    intros H H1 H2. cbn in H. rewrite (beqb_neq ch x7b), (beqb_neq ch x5b) in H by auto.
    destruct (beqb ch x22); [destruct H as (? & -> & _); reflexivity|].
    destruct (beqb ch x74); [destruct H as (_ & _ & ->); reflexivity|].
    destruct (beqb ch x66); [destruct H as (_ & _ & ->); reflexivity|].
    destruct (beqb ch x2d); destruct H as (? & -> & _); reflexivity.
  Qed.

  Lemma if_bind {A B} (b : bool) (m : outcome A) (k : A -> outcome B) : bind (if b then m else Diverge) k = if b then bind m k else Diverge.
  Proof. now destruct b. Qed.

  Lemma gelems_drop t l r : gelems L t l r <-> gelems L (drop_ws t) l r.
  Proof.
    rewrite !gelems_shape. split; intros (a & s1 & l' & Hv & Hrest); exists a, s1, l'; (split; [|exact Hrest]); apply core_gval; apply gval_core in Hv.
    - rewrite drop_ws_idem. exact Hv.
    - rewrite drop_ws_idem in Hv. exact Hv.
  Qed.
  Lemma gmembers_drop t l r : gmembers L t l r <-> gmembers L (drop_ws t) l r.
  Proof.
    rewrite !gmembers_shape. split; intros (k & s0 & a & s1 & l' & Hk & Hrest); exists k, s0, a, s1, l'; (split; [|exact Hrest]);
      apply gkey_shape; apply gkey_shape in Hk as (q1 & q2 & Hk & Hk2); exists q1, q2; (split; [|exact Hk2]).
    - rewrite drop_ws_idem. exact Hk.
    - rewrite drop_ws_idem in Hk. exact Hk.
  Qed.

  Lemma object_true pv s t c b r c' : drop_ws s = x7b :: t -> parse_object pv s c = Ret (b, r, c') -> b = true.
  Proof.
    intros Hd. unfold parse_object. rewrite skip_ws_eq. cbn [bind]. rewrite Hd. rewrite have_eq by discriminate. rewrite beqb_refl. cbn [bind].
    bindcase. bindcase. destruct a0 as [[] s3]; bindcase; [intros [= <- <- <-]; auto|]. destruct a0 as [s4 c4]. bindcase. bindcase. intros [= <- <- <-]; auto.
  Qed.

  Lemma value_exact n : forall s a r f F c, length s < n -> gval L s a r -> (N.of_nat F <= 2^28)%N -> length s < F -> cbok (length s) c ->
    parse_value lay f s c = if levels a <=? f then parse_value lay F s c else Diverge.
  Proof.
    induction n as [|n IH]; intros s a r f F c Hn Hg HF Hs Hc; [lia|].
    assert (Hpos : 1 <= levels a) by (destruct a; cbn; lia).
    destruct f as [|f]; [destruct (Nat.leb_spec (levels a) 0); [lia|reflexivity]|].
    destruct F as [|F]; [lia|].
    apply gval_core in Hg. pose proof (drop_ws_length s) as Hl. destruct (drop_ws s) as [|ch t] eqn:Ed; [destruct Hg|]. cbn [length] in Hl.
    assert (Hws : wsb ch = false).
    { pose proof (drop_ws_idem s) as Hi. rewrite Ed in Hi. cbn in Hi. destruct (wsb ch) eqn:E; auto.
      pose proof (drop_ws_length t). rewrite Hi in H. cbn in H. lia. }
    destruct (beqb_spec ch x7b) as [->|N1].
    { (* object *)
      assert (Hob : parse_object (parse_value lay f) s c = if levels a <=? S f then parse_object (parse_value lay F) s c else Diverge).
      { unfold parse_object. rewrite skip_ws_eq. cbn [bind]. rewrite Ed. rewrite have_eq by discriminate. rewrite beqb_refl. cbn [bind].
        rewrite skip_ws_eq. cbn [bind]. rewrite have_eq by discriminate. pose proof (drop_ws_length t) as Hl2.
        cbn in Hg. destruct Hg as [(s' & Hd2 & -> & ->)|(ms & -> & Hm)].
        - rewrite Hd2. rewrite beqb_refl. reflexivity.
        - apply gmembers_drop in Hm. destruct (drop_ws t) as [|ch2 u] eqn:E2.
          { apply gmembers_shape in Hm as (k & s0 & a' & s1 & l' & H & _). apply gkey_shape in H as (q1 & q2 & H & _). discriminate. }
          assert (N2 : ch2 <> x7d).
          { intros ->. eapply core_close_obj; [|exact Hm]. reflexivity. }
          rewrite (beqb_neq ch2 x7d) by auto. cbn [bind length] in *.
          unfold begin_object. rewrite jcopy_id by apply wfj_new_object.
          destruct (sm_new8 (V := jvalue)) as (S1 & S2 & S3 & S4 & S5).
          rewrite (members_exact n IH f F _ (ch2 :: u) ms r new_object [] (stack c) (root c)); auto; cbn [length]; try lia.
          2:{ constructor; cbn [stack].
              - split; [apply wfj_new_object|]. cbn [fst]. unfold new_object. rewrite S4. lia.
              - eapply cbok_mono; [|exact Hc]. lia. }
          cbn [levels]. fold (maxl (map (fun m : bytes * ast => levels (snd m)) ms)). rewrite if_bind. reflexivity. }
      cbn [parse_value]. rewrite Hob. rewrite if_bind. destruct (levels a <=? S f); auto.
      apply bind_ext. intros [[b s1] c1] E. apply (object_true _ _ t) in E; auto. now subst. }
    assert (Hno : forall pv, parse_object pv s c = Ret (false, ch :: t, c)).
    { intros pv. unfold parse_object. rewrite skip_ws_eq. cbn [bind]. rewrite Ed. rewrite have_eq by discriminate. rewrite (beqb_neq ch x7b) by auto. reflexivity. }
    cbn [parse_value]. rewrite !Hno. cbn [bind].
    destruct (beqb_spec ch x5b) as [->|N2].
    { (* array *)
      assert (Har : parse_array (parse_value lay f) (x5b :: t) c = if levels a <=? S f then parse_array (parse_value lay F) (x5b :: t) c else Diverge).
      { unfold parse_array. rewrite skip_ws_eq. cbn [bind]. rewrite drop_ws_cons by auto. rewrite have_eq by discriminate. rewrite beqb_refl. cbn [bind].
        rewrite skip_ws_eq. cbn [bind]. rewrite have_eq by discriminate. pose proof (drop_ws_length t) as Hl2.
        cbn in Hg. destruct Hg as [(s' & Hd2 & -> & ->)|(l & -> & Hm)].
        - rewrite Hd2. rewrite beqb_refl. reflexivity.
        - apply gelems_drop in Hm. destruct (drop_ws t) as [|ch2 u] eqn:E2.
          { apply gelems_shape in Hm as (a' & s1 & l' & H & _). apply gval_core in H. destruct H. }
          assert (N2 : ch2 <> x5d).
          { intros ->. eapply core_close; [|exact Hm]. reflexivity. }
          rewrite (beqb_neq ch2 x5d) by auto. cbn [bind length] in *.
          rewrite (elems_exact n IH f F _ (ch2 :: u) l r (begin_array c)); auto; cbn [length]; try lia.
          2:{ unfold begin_array. constructor; cbn [stack].
              - split; cbn; auto. constructor. intros v [].
              - eapply cbok_mono; [|exact Hc]. lia. }
          cbn [levels]. fold (maxl (map levels l)). rewrite if_bind. reflexivity. }
      rewrite Har, if_bind. reflexivity. }
    rewrite (core_head ch t a r) by auto. cbn [Nat.leb].
    assert (Hna : forall pv, parse_array pv (ch :: t) c = Ret (false, ch :: t, c)).
    { intros pv. unfold parse_array. rewrite skip_ws_eq. cbn [bind]. rewrite drop_ws_cons by auto. rewrite have_eq by discriminate. rewrite (beqb_neq ch x5b) by auto. reflexivity. }
    rewrite !Hna. reflexivity.
  Qed.

  Lemma parse_in_exact room s a r : (N.of_nat (length s) < 2^28)%N -> gval L s a r ->
    parse_in room lay s = if levels a <=? room then parse lay s else Diverge.
  Proof.
    intros Hs Hg. unfold parse_in, parse. rewrite (value_exact (S (length s)) s a r room (S (length s)) (mkC [] JUndef)) by (auto; try lia; constructor).
    now destruct (levels a <=? room).
  Qed.
End Exact.

Lemma nest_grammar lits n r : gval lits (repeat x5b (S n) ++ repeat x5d (S n) ++ r) (Nat.iter n (fun a => AArr [a]) (AArr [])) r.
Proof.
  revert r. induction n as [|n IH]; intros r.
  - apply (G_arr0 lits [] [] r); constructor.
  - cbn [Nat.iter nat_rect]. change (repeat x5b (S (S n))) with (x5b :: repeat x5b (S n)). cbn [app].
    apply (G_arr lits [] _ [_] r); [constructor|]. apply (GE_last lits _ _ []); [|constructor].
    specialize (IH (x5d :: r)). cbn [app].
    replace (repeat x5d (S (S n)) ++ r) with (repeat x5d (S n) ++ x5d :: r); [exact IH|].
    clear. generalize (S n). intros m. induction m; cbn; auto. now rewrite IHm.
Qed.
Lemma nest_levels n : levels (Nat.iter n (fun a => AArr [a]) (AArr [])) = S n.
Proof. induction n as [|n IH]; [reflexivity|]. change (Nat.iter (S n) (fun a => AArr [a]) (AArr [])) with (AArr [Nat.iter n (fun a => AArr [a]) (AArr [])]). cbn [levels map fold_right]. rewrite IH. lia. Qed.

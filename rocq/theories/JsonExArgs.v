(** Missing and wrongly typed arguments of the JSON example: lemmas behind the theorem C55_json_refuted. *)
From Verif Require Import Base JsonSpec JsonModel JsonDenotes EniModel EniProof CryptoModel JsonExSpec JsonExModel JsonExProof3.
From Coq Require Import List NArith ZArith Bool Lia.
From Coq.Init Require Import Byte.
From Coq.Strings Require Import Byte.
Import ListNotations.

Section Args.
  Variable jsmn : bytes -> Z -> Z -> outcome (Z * list token).
  Variable to_int : Z -> Z.
  Variable inner : bytes -> layout.

  Lemma str_here vs i v : (Z.of_nat i < 18446744073709551616)%Z -> nth_error vs i = Some v -> str_arg vs (Z.of_nat i) = to_string v.
  Proof. intros Hi H. unfold str_arg. rewrite (arg_nth _ i v) by assumption. reflexivity. Qed.
  Lemma int_here vs i v : (Z.of_nat i < 18446744073709551616)%Z -> nth_error vs i = Some v -> int_arg to_int vs (Z.of_nat i) = (z <- to_integer v ;; Ret (to_int z)).
  Proof. intros Hi H. unfold int_arg. rewrite (arg_nth _ i v) by assumption. reflexivity. Qed.
  Lemma arg_missing vs i : (Z.of_nat i < 18446744073709551616)%Z -> nth_error vs i = None -> arg_at vs (Z.of_nat i) = Throw OutOfRangeVector.
  Proof.
    intros Hi H. unfold arg_at, value_idx. rewrite Z.mod_small by lia. apply nth_error_None in H.
    destruct (N.leb_spec (N.of_nat (length vs)) (Z.to_N (Z.of_nat i))); [reflexivity|lia].
  Qed.

  Lemma not_text v a : denotes v a -> ~ fits a Text -> to_string v = UB TypeConfusion.
  Proof. intros D H. inversion D; subst; try reflexivity. exfalso. apply H. exact I. Qed.
  Lemma not_number v a : denotes v a -> ~ fits a Number -> to_integer v = UB TypeConfusion.
  Proof. intros D H. inversion D; subst; try reflexivity. exfalso. apply H. exact I. Qed.
  Lemma is_text v a : denotes v a -> fits a Text -> exists s, a = AStr s /\ v = JStr s.
  Proof. intros D H. destruct a; try destruct H. inversion D; subst. eauto. Qed.
  Lemma is_number v a : denotes v a -> fits a Number -> exists z, to_integer v = Ret z.
  Proof. intros D H. destruct a; try destruct H. inversion D; subst. cbn. eauto. Qed.

  (** what is wrong with the arguments from the [i]-th on *)
  Definition bad_from (k : kind) (rest : list ast) (x : outcome (option bytes)) : Prop :=
    (rest = [] /\ x = Throw OutOfRangeVector) \/ (exists a l, rest = a :: l /\ ~ fits a k /\ x = UB TypeConfusion).

  Lemma bad_text {A} vs i rest vr x (f : bytes -> outcome A) : (Z.of_nat i < 18446744073709551616)%Z ->
    (forall j, nth_error vs (i + j) = nth_error vr j) -> Forall2 denotes vr rest -> bad_from Text rest x ->
    (s <- str_arg vs (Z.of_nat i) ;; f s) = match x with Throw e => Throw e | UB u => UB u | Diverge => Diverge | Exit n => Exit n | Ret _ => Diverge end.
  Proof.
    intros Hi Hn HF [[-> ->]|(a & l & -> & Ha & ->)]; inversion HF; subst; specialize (Hn O); rewrite Nat.add_0_r in Hn; cbn in Hn.
    - unfold str_arg. rewrite arg_missing by assumption. reflexivity.
    - erewrite str_here by eassumption. erewrite not_text by eassumption. reflexivity.
  Qed.
  Lemma bad_number {A} vs i rest vr x (f : Z -> outcome A) : (Z.of_nat i < 18446744073709551616)%Z ->
    (forall j, nth_error vs (i + j) = nth_error vr j) -> Forall2 denotes vr rest -> bad_from Number rest x ->
    (s <- int_arg to_int vs (Z.of_nat i) ;; f s) = match x with Throw e => Throw e | UB u => UB u | Diverge => Diverge | Exit n => Exit n | Ret _ => Diverge end.
  Proof.
    intros Hi Hn HF [[-> ->]|(a & l & -> & Ha & ->)]; inversion HF; subst; specialize (Hn O); rewrite Nat.add_0_r in Hn; cbn in Hn.
    - unfold int_arg. rewrite arg_missing by assumption. reflexivity.
    - erewrite int_here by eassumption. erewrite not_number by eassumption. reflexivity.
  Qed.

  Lemma request_bad good rest k x vs : Forall2 denotes vs (good ++ rest) ->
    Forall2 fits good (firstn (length good) (wanted (good ++ rest))) -> nth_error (wanted (good ++ rest)) (length good) = Some k ->
    bad_from k rest x -> json_request jsmn to_int inner vs = x.
  Proof.
    intros HF HG Hk Hx. apply Forall2_app_inv_r in HF as (vg & vr & Hg & Hr & ->).
    assert (Hsub : forall j, nth_error (vg ++ vr) (length vg + j) = nth_error vr j).
    { intros j. rewrite nth_error_app2 by lia. f_equal. lia. }
    assert (HX : match x with Throw e => Throw e | UB u => UB u | Diverge => Diverge | Exit n => Exit n | Ret _ => Diverge end = x).
    { destruct Hx as [[_ ->]|(? & ? & _ & _ & ->)]; reflexivity. }
    unfold json_request.
    destruct good as [|a0 good].
    { inversion Hg; subst. cbn [app length] in *. assert (k = Text).
      { unfold wanted in Hk. destruct rest as [|[s|z|b|l0|l0] ?]; cbn in Hk; congruence. }
      subst k. change 0%Z with (Z.of_nat 0). erewrite bad_text; [exact HX|lia|exact Hsub|eassumption|eassumption]. }
    inversion Hg as [|v0 ? vg0 ? D0 Hg0]; subst. cbn [app length] in *.
    assert (F0 : fits a0 Text).
    { unfold wanted in HG. cbn [app firstn] in HG. inversion HG; assumption. }
    destruct (is_text _ _ D0 F0) as (op & -> & ->). cbn [wanted] in *.
    change 0%Z with (Z.of_nat 0). rewrite (str_here _ 0 (JStr op)) by (try reflexivity; lia). cbn [to_string bind].
    destruct good as [|a1 good].
    { inversion Hg0; subst. cbn in Hk. injection Hk as <-. change 1%Z with (Z.of_nat 1). erewrite bad_text; [exact HX|lia|exact Hsub|eassumption|eassumption]. }
    inversion Hg0 as [|v1 ? vg1 ? D1 Hg1]; subst. cbn [length firstn app] in *. inversion HG as [|? ? ? ? _ HG1]; subst. inversion HG1 as [|? ? ? ? F1 HG2]; subst.
    destruct (is_text _ _ D1 F1) as (data & -> & ->).
    change 1%Z with (Z.of_nat 1). rewrite (str_here _ 1 (JStr data)) by (try reflexivity; lia). cbn [to_string bind].
    destruct good as [|a2 good].
    { inversion Hg1; subst. cbn in Hk. injection Hk as <-. change 2%Z with (Z.of_nat 2). erewrite bad_number; [exact HX|lia|exact Hsub|eassumption|eassumption]. }
    inversion Hg1 as [|v2 ? vg2 ? D2 Hg2]; subst. cbn [length firstn app] in *. inversion HG2 as [|? ? ? ? F2 HG3]; subst.
    destruct (is_number _ _ D2 F2) as (b & E2). change 2%Z with (Z.of_nat 2). rewrite (int_here _ 2 v2) by (try reflexivity; lia). rewrite E2. cbn [bind].
    destruct good as [|a3 good].
    { inversion Hg2; subst. cbn in Hk. injection Hk as <-. change 3%Z with (Z.of_nat 3). erewrite bad_number; [exact HX|lia|exact Hsub|eassumption|eassumption]. }
    inversion Hg2 as [|v3 ? vg3 ? D3 Hg3]; subst. cbn [length firstn app] in *. inversion HG3 as [|? ? ? ? F3 HG4]; subst.
    destruct (is_number _ _ D3 F3) as (e & E3). change 3%Z with (Z.of_nat 3). rewrite (int_here _ 3 v3) by (try reflexivity; lia). rewrite E3. cbn [bind].
    unfold wanted, fifth in *. cbn [app nth_error] in Hk.
    assert (Eq : bytes_eqb op n_arrayGet = true -> bytes_eqb op n_parseString = false /\ bytes_eqb op n_parseArray = false).
    { intros H. destruct (bytes_eqb_spec op n_arrayGet); [|discriminate]. subst. split; reflexivity. }
    assert (Eo : bytes_eqb op n_objectGet = true -> bytes_eqb op n_parseString = false /\ bytes_eqb op n_parseArray = false /\ bytes_eqb op n_arrayGet = false).
    { intros H. destruct (bytes_eqb_spec op n_objectGet); [|discriminate]. subst. split; [|split]; reflexivity. }
    change op_arrayGet with n_arrayGet in *. change op_objectGet with n_objectGet in *.
    destruct (bytes_eqb op n_arrayGet) eqn:EA.
    - destruct (Eq eq_refl) as [-> ->]. destruct good as [|a4 good]; [|exfalso; cbn in Hk; destruct good; discriminate Hk].
      inversion Hg3; subst. cbn in Hk. injection Hk as <-. change 4%Z with (Z.of_nat 4). erewrite bad_number; [exact HX|lia|exact Hsub|eassumption|eassumption].
    - destruct (bytes_eqb op n_objectGet) eqn:EO; [|exfalso; cbn in Hk; destruct good; discriminate Hk].
      destruct (Eo eq_refl) as (-> & -> & _). destruct good as [|a4 good]; [|exfalso; cbn in Hk; destruct good; discriminate Hk].
      inversion Hg3; subst. cbn in Hk. injection Hk as <-. change 4%Z with (Z.of_nat 4). erewrite bad_text; [exact HX|lia|exact Hsub|eassumption|eassumption].
  Qed.

  Lemma json_bad_args lay buf good rest k r : (N.of_nat (length (cstr buf)) < 2^28)%N -> gval (readable lay) (cstr buf) (AArr (good ++ rest)) r ->
    Forall short_keys (good ++ rest) -> Forall2 fits good (firstn (length good) (wanted (good ++ rest))) ->
    nth_error (wanted (good ++ rest)) (length good) = Some k ->
    (rest = [] -> c_gas (json_op jsmn to_int inner) lay buf = Throw OutOfRangeVector /\ c_run (json_op jsmn to_int inner) lay buf = Throw OutOfRangeVector) /\
    (forall a l, rest = a :: l -> ~ fits a k ->
       c_gas (json_op jsmn to_int inner) lay buf = UB TypeConfusion /\ c_run (json_op jsmn to_int inner) lay buf = UB TypeConfusion).
  Proof.
    intros Hs Hg Hk HG Hn. destruct (protocol (json_op jsmn to_int inner) lay buf _ r Hs Hg Hk) as (vs & Hf & -> & ->). cbn [oparse json_op oinit]. split.
    - intros E. rewrite (request_bad good rest k (Throw OutOfRangeVector) vs Hf HG Hn) by (left; auto). split; reflexivity.
    - intros a l E Ha. rewrite (request_bad good rest k (UB TypeConfusion) vs Hf HG Hn) by (right; eauto). split; reflexivity.
  Qed.
End Args.

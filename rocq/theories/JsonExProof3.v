(** The JSON example through the C interface, and the statements used by JsonExProps.v. *)
From Verif Require Import Base JsonSpec JsonModel JsonDenotes JsonProof JsonProof2 JsonProof3 EniModel EniProof CryptoModel CryptoProof CliModel JsonExSpec JsonExModel JsonExProof JsonExProof2.
From Coq Require Import List NArith ZArith Bool Lia Arith.
From Coq.Init Require Import Byte.
From Coq.Strings Require Import Byte.
Import ListNotations.
Local Open Scope Z_scope.


Lemma reduce_int z : is_int z -> reduce256 z = z.
Proof.
  intros [H1 H2]. unfold reduce256. rewrite Z.mod_small.
  - rewrite Z.mul_comm. apply Z.abs_sgn.
  - split; [lia|]. apply Z.le_lt_trans with 2147483648; [lia|reflexivity].
Qed.

Lemma den_str v s : denotes v (AStr s) -> v = JStr s.
Proof. inversion 1. reflexivity. Qed.
Lemma den_int v z : denotes v (AInt z) -> v = JInt (reduce256 z).
Proof. inversion 1. reflexivity. Qed.

Lemma arg_nth l i v : Z.of_nat i < 18446744073709551616 -> nth_error l i = Some v -> arg_at l (Z.of_nat i) = Ret v.
Proof.
  intros Hl H. assert (Hi : (i < length l)%nat) by (apply nth_error_Some; congruence). unfold arg_at, value_idx. rewrite Z.mod_small by lia. replace (Z.to_N (Z.of_nat i)) with (N.of_nat i) by lia.
  destruct (N.leb_spec (N.of_nat (length l)) (N.of_nat i)); [lia|]. rewrite Nnat.Nat2N.id, H. reflexivity.
Qed.
Lemma arg_none l i : (Z.of_nat i < 18446744073709551616) -> (length l <= i)%nat -> arg_at l (Z.of_nat i) = Throw OutOfRangeVector.
Proof.
  intros Hl H. unfold arg_at, value_idx. rewrite Z.mod_small by lia. replace (Z.to_N (Z.of_nat i)) with (N.of_nat i) by lia. destruct (N.leb_spec (N.of_nat (length l)) (N.of_nat i)); [reflexivity|lia].
Qed.

  Lemma data_len lay buf op data l r : gval (readable lay) (cstr buf) (AArr (AStr op :: AStr data :: l)) r -> (length data <= length (cstr buf))%nat.
  Proof.
    intros H. inversion H as [| | | |? ? ? Hw|? s ? ? Hw He| |]; subst. rewrite app_length. cbn [length].
    inversion He as [|? ? w1 s' ? ? Hv1 Hw1 He1]; subst. clear He. assert (Hs' : (length s' <= length s)%nat).
    { apply gval_prefix in Hv1 as (p & -> & _). rewrite !app_length. cbn [length]. lia. }
    assert (Hd : (length data <= length s')%nat). { inversion He1 as [? ? ? ? Hv2 Hw2|? ? ? ? ? ? Hv2 Hw2 He2]; subst; now apply gval_str_le in Hv2. }
    lia.
  Qed.

Section Example.
  Variable jsmn : bytes -> Z -> Z -> outcome (Z * list token).
  Variable to_int : Z -> Z.
  Variable inner : bytes -> layout.
  Hypothesis to_int_ok : forall z, is_int z -> to_int z = z.

  Lemma json_answer lay buf l r t : (N.of_nat (length (cstr buf)) < 2^28)%N -> gval (readable lay) (cstr buf) (AArr l) r -> Forall short_keys l ->
    (forall vs, Forall2 denotes vs l -> json_request jsmn to_int inner vs = Ret (Some t)) ->
    c_run (json_op jsmn to_int inner) lay buf = Ret (Some (strings_text [t])) /\ c_gas (json_op jsmn to_int inner) lay buf = Ret (u64 (N.of_nat (length t) * 10)).
  Proof.
    intros Hs Hg Hk H. destruct (protocol (json_op jsmn to_int inner) lay buf _ r Hs Hg Hk) as (vs & Hf & -> & ->). cbn [oparse json_op oinit ogas orun]. rewrite (H vs Hf). cbn [fail bind app].
    split; [|reflexivity]. change (JArr [JStr t]) with (JArr (map JStr [t])). rewrite print_strings. cbn [bind]. now rewrite cstr_strings.
  Qed.

  Lemma json_other lay buf l r : (N.of_nat (length (cstr buf)) < 2^28)%N -> gval (readable lay) (cstr buf) (AArr l) r -> Forall short_keys l ->
    forall (x : outcome (option bytes)), (forall t, x <> Ret (Some t)) -> (forall vs, Forall2 denotes vs l -> json_request jsmn to_int inner vs = x) ->
    c_run (json_op jsmn to_int inner) lay buf = x.
  Proof.
    intros Hs Hg Hk x Hx H. destruct (protocol (json_op jsmn to_int inner) lay buf _ r Hs Hg Hk) as (vs & Hf & _ & ->). cbn [oparse json_op oinit ogas orun]. rewrite (H vs Hf).
    destruct x as [[t|]| | | |]; cbn [fail bind]; auto. exfalso. eapply Hx. reflexivity.
  Qed.

  Lemma request_eq vs op data b e l : Forall2 denotes vs (AStr op :: AStr data :: AInt b :: AInt e :: l) -> is_int b -> is_int e ->
    exists vs', Forall2 denotes vs' l /\ vs = JStr op :: JStr data :: JInt b :: JInt e :: vs' /\
    json_request jsmn to_int inner vs =
      (if bytes_eqb op n_parseString then raw <- sub_string data b e ;; r <- parse_string_fn inner raw ;; Ret (Some r)
       else if bytes_eqb op n_parseArray then r <- parse_array_fn jsmn data b e ;; Ret (Some r)
       else if bytes_eqb op n_arrayGet then i <- int_arg to_int vs 4 ;; r <- array_get jsmn data b e i ;; Ret (Some r)
       else if bytes_eqb op n_objectGet then k <- str_arg vs 4 ;; r <- object_get jsmn inner data b e k ;; Ret (Some r)
       else Ret None).
  Proof.
    intros H Hb He. inversion H as [|v1 ? vs1 ? D1 H1]; subst. inversion H1 as [|v2 ? vs2 ? D2 H2]; subst. inversion H2 as [|v3 ? vs3 ? D3 H3]; subst. inversion H3 as [|v4 ? vs4 ? D4 H4]; subst.
    apply den_str in D1 as ->. apply den_str in D2 as ->. apply den_int in D3 as ->. apply den_int in D4 as ->. rewrite !reduce_int by auto.
    exists vs4. split; auto. split; auto. unfold json_request at 1. rewrite str_arg0, str_arg1. cbn [bind].
    assert (E2 : int_arg to_int (JStr op :: JStr data :: JInt b :: JInt e :: vs4) 2 = Ret b).
    { unfold int_arg. change 2 with (Z.of_nat 2). rewrite (arg_nth _ 2 (JInt b)) by (try reflexivity; lia). cbn [bind to_integer]. now rewrite to_int_ok. }
    assert (E3 : int_arg to_int (JStr op :: JStr data :: JInt b :: JInt e :: vs4) 3 = Ret e).
    { unfold int_arg. change 3 with (Z.of_nat 3). rewrite (arg_nth _ 3 (JInt e)) by (try reflexivity; lia). cbn [bind to_integer]. now rewrite to_int_ok. }
    rewrite E2. cbn [bind]. rewrite E3. reflexivity.
  Qed.

  Lemma fifth_int op data b e z vs' : is_int z -> int_arg to_int (JStr op :: JStr data :: JInt b :: JInt e :: JInt z :: vs') 4 = Ret z.
  Proof.
    intros Hz. unfold int_arg. change 4 with (Z.of_nat 4). rewrite (arg_nth _ 4 (JInt z)) by (try reflexivity; lia). cbn [bind to_integer]. now rewrite to_int_ok.
  Qed.
  Lemma fifth_str op data b e k vs' : str_arg (JStr op :: JStr data :: JInt b :: JInt e :: JStr k :: vs') 4 = Ret k.
  Proof.
    unfold str_arg. change 4 with (Z.of_nat 4). rewrite (arg_nth _ 4 (JStr k)) by (try reflexivity; lia). reflexivity.
  Qed.

  (** the four requests *)
  Lemma request_parse_string vs data b e l : Forall2 denotes vs (AStr n_parseString :: AStr data :: AInt b :: AInt e :: l) -> is_int b -> is_int e ->
    json_request jsmn to_int inner vs = (raw <- sub_string data b e ;; r <- parse_string_fn inner raw ;; Ret (Some r)).
  Proof. intros H Hb He. destruct (request_eq _ _ _ _ _ _ H Hb He) as (vs' & _ & _ & ->). reflexivity. Qed.
  Lemma request_parse_array vs data b e l : Forall2 denotes vs (AStr n_parseArray :: AStr data :: AInt b :: AInt e :: l) -> is_int b -> is_int e ->
    json_request jsmn to_int inner vs = (r <- parse_array_fn jsmn data b e ;; Ret (Some r)).
  Proof. intros H Hb He. destruct (request_eq _ _ _ _ _ _ H Hb He) as (vs' & _ & _ & ->). reflexivity. Qed.
  Lemma request_array_get vs data b e i l : Forall2 denotes vs (AStr n_arrayGet :: AStr data :: AInt b :: AInt e :: AInt i :: l) -> is_int b -> is_int e -> is_int i ->
    json_request jsmn to_int inner vs = (r <- array_get jsmn data b e i ;; Ret (Some r)).
  Proof.
    intros H Hb He Hi. destruct (request_eq _ _ _ _ _ _ H Hb He) as (vs' & Hf & -> & ->). inversion Hf as [|v ? vs2 ? D Hf2]; subst. apply den_int in D as ->. rewrite reduce_int by auto.
    rewrite fifth_int by auto. reflexivity.
  Qed.
  Lemma request_object_get vs data b e k l : Forall2 denotes vs (AStr n_objectGet :: AStr data :: AInt b :: AInt e :: AStr k :: l) -> is_int b -> is_int e ->
    json_request jsmn to_int inner vs = (r <- object_get jsmn inner data b e k ;; Ret (Some r)).
  Proof.
    intros H Hb He. destruct (request_eq _ _ _ _ _ _ H Hb He) as (vs' & Hf & -> & ->). inversion Hf as [|v ? vs2 ? D Hf2]; subst. apply den_str in D as ->. rewrite fifth_str. reflexivity.
  Qed.
  Lemma request_unknown vs op data b e l : Forall2 denotes vs (AStr op :: AStr data :: AInt b :: AInt e :: l) -> is_int b -> is_int e ->
    ~ In op [n_parseString; n_parseArray; n_arrayGet; n_objectGet] -> json_request jsmn to_int inner vs = Ret None.
  Proof.
    intros H Hb He Hn. destruct (request_eq _ _ _ _ _ _ H Hb He) as (vs' & _ & _ & ->). cbn [In] in Hn.
    destruct (bytes_eqb_spec op n_parseString); [intuition congruence|]. destruct (bytes_eqb_spec op n_parseArray); [intuition congruence|].
    destruct (bytes_eqb_spec op n_arrayGet); [intuition congruence|]. destruct (bytes_eqb_spec op n_objectGet); [intuition congruence|]. reflexivity.
  Qed.

  Lemma strs l : Forall short_keys l <-> fold_right (fun x p => short_keys x /\ p) True l.
  Proof. symmetry. apply fold_and. Qed.


  Lemma op_array_get lay buf data b e l lb le i it more r :
    (N.of_nat (length (cstr buf)) < 2^28)%N -> gval (readable lay) (cstr buf) (AArr (AStr n_arrayGet :: AStr data :: AInt b :: AInt e :: AInt (Z.of_nat i) :: more)) r -> Forall short_keys more ->
    document data b e (Arr l lb le) -> jsmn_answers jsmn data b e (Arr l lb le) -> nth_error l i = Some it ->
    c_run (json_op jsmn to_int inner) lay buf = Ret (Some (strings_text [range_text it])) /\ c_gas (json_op jsmn to_int inner) lay buf = Ret 160%N.
  Proof.
    intros Hs Hg Hk Hd Hj Hi. pose proof (data_len _ _ _ _ _ _ Hg) as Hl. change (2^28)%N with 268435456%N in *. pose proof (document_nonneg _ _ _ _ Hd) as Hn. unfold len in Hn. cbn [begin_of end_of] in Hn.
    pose proof (document_child _ _ _ _ it Hd (nth_error_In _ _ Hi)) as Hch. cbn [begin_of end_of] in Hch.
    assert (Hii : (i < length l)%nat) by (apply nth_error_Some; congruence).
    assert (Hil : Z.of_nat i <= 2147483647).
    { (* each element takes at least a byte *)
      destruct Hd as (pre & s & w & post & -> & -> & -> & Hv & _). assert (Hlen : Z.of_nat (length l) <= len s).
      { inversion Hv as [| |? w0 w' ? Hw0 Hw'|? w0 s0 ? ? Hw0 He| |]; subst; [cbn; apply len_pos|]. rewrite len_app, len_cons. pose proof (len_pos w0).
        assert (Hx : forall p s l r, ielems p s l r -> Z.of_nat (length l) <= len s).
        { clear. induction 1 as [p s it w r H Hw|p s it w s' l r H Hw H' IH]; cbn [length].
          - apply ival_places in H as (w0 & t & -> & _ & Hl & _). rewrite !len_app. pose proof (len_pos w0). unfold len at 2. pose proof (len_pos (w ++ x5d :: r)). rewrite len_app in *. lia.
          - apply ival_places in H as (w0 & t & -> & _ & Hl & _). rewrite !len_app, len_cons. pose proof (len_pos w0). pose proof (len_pos w). pose proof (len_pos t). lia. }
        apply Hx in He. lia. }
      rewrite !app_length in Hl. unfold len in Hlen. lia. }
    destruct (json_answer lay buf _ r (range_text it) Hs Hg) as [-> ->].
    - repeat constructor; auto.
    - intros vs Hf. rewrite (request_array_get _ _ _ _ _ _ Hf) by (unfold is_int; lia). rewrite (array_get_ok jsmn data b e l lb le i it Hd Hj ltac:(lia) Hi). reflexivity.
    - split; reflexivity.
  Qed.

  Lemma op_parse_array lay buf data b e l lb le more r :
    (N.of_nat (length (cstr buf)) < 2^28)%N -> gval (readable lay) (cstr buf) (AArr (AStr n_parseArray :: AStr data :: AInt b :: AInt e :: more)) r -> Forall short_keys more ->
    document data b e (Arr l lb le) -> jsmn_answers jsmn data b e (Arr l lb le) ->
    c_run (json_op jsmn to_int inner) lay buf = Ret (Some (strings_text [concat (map range_text l)])).
  Proof.
    intros Hs Hg Hk Hd Hj. pose proof (data_len _ _ _ _ _ _ Hg) as Hl. change (2^28)%N with 268435456%N in *. pose proof (document_nonneg _ _ _ _ Hd) as Hn. unfold len in Hn. cbn [begin_of end_of] in Hn.
    pose proof (document_self _ _ _ _ Hd) as Hd2. pose proof (document_ival _ _ _ _ Hd2) as (pre & t & post & _ & Hp1 & Hp2 & _). cbn [begin_of end_of] in *. pose proof (len_pos t).
    apply (json_answer lay buf _ r (concat (map range_text l)) Hs Hg).
    - repeat constructor; auto.
    - intros vs Hf. rewrite (request_parse_array _ _ _ _ _ Hf) by (unfold is_int; lia). rewrite (parse_array_ok _ _ _ _ _ _ _ Hd Hj) by lia. reflexivity.
  Qed.

  Lemma op_object_get lay buf data b e ms ob oe k more r :
    (N.of_nat (length (cstr buf)) < 2^28)%N -> gval (readable lay) (cstr buf) (AArr (AStr n_objectGet :: AStr data :: AInt b :: AInt e :: AStr k :: more)) r -> Forall short_keys more ->
    document data b e (Obj ms ob oe) -> jsmn_answers jsmn data b e (Obj ms ob oe) ->
    c_run (json_op jsmn to_int inner) lay buf = Ret (Some (strings_text [match last_member k ms with Some it => range_text it | None => repeat x30 16 end])) /\
    c_gas (json_op jsmn to_int inner) lay buf = Ret 160%N.
  Proof.
    intros Hs Hg Hk Hd Hj. pose proof (data_len _ _ _ _ _ _ Hg) as Hl. change (2^28)%N with 268435456%N in *. pose proof (document_nonneg _ _ _ _ Hd) as Hn. unfold len in Hn. cbn [begin_of end_of] in Hn.
    pose proof (document_self _ _ _ _ Hd) as Hd2. pose proof (document_ival _ _ _ _ Hd2) as (pre & t & post & _ & Hp1 & Hp2 & _). cbn [begin_of end_of] in *. pose proof (len_pos t).
    destruct (json_answer lay buf _ r (match last_member k ms with Some it => range_text it | None => repeat x30 16 end) Hs Hg) as [-> ->].
    - repeat constructor; auto.
    - intros vs Hf. rewrite (request_object_get _ _ _ _ _ _ Hf) by (unfold is_int; lia). rewrite (object_get_ok _ _ _ _ _ _ _ _ _ Hd Hj) by (change (2^28)%N with 268435456%N; lia). reflexivity.
    - split; auto. destruct (last_member k ms); reflexivity.
  Qed.

  Lemma op_parse_string lay buf data b e cs se more r :
    (N.of_nat (length (cstr buf)) < 2^28)%N -> gval (readable lay) (cstr buf) (AArr (AStr n_parseString :: AStr data :: AInt b :: AInt e :: more)) r -> Forall short_keys more ->
    document data b e (Str cs b se) -> ~ In NUL (firstn (Z.to_nat e) data) ->
    c_run (json_op jsmn to_int inner) lay buf = Ret (Some (strings_text [cs])).
  Proof.
    intros Hs Hg Hk Hd Hnul. pose proof (data_len _ _ _ _ _ _ Hg) as Hl. change (2^28)%N with 268435456%N in *. pose proof (document_nonneg _ _ _ _ Hd) as Hn. unfold len in Hn. cbn [begin_of end_of] in Hn.
    pose proof (document_self _ _ _ _ Hd) as Hd2. pose proof (document_ival _ _ _ _ Hd2) as (pre & t & post & _ & Hp1 & Hp2 & _). cbn [begin_of end_of] in *. pose proof (len_pos t).
    apply (json_answer lay buf _ r cs Hs Hg).
    - repeat constructor; auto.
    - intros vs Hf. rewrite (request_parse_string _ _ _ _ _ Hf) by (unfold is_int; lia).
      destruct (parse_string_range inner data b e cs b se Hd eq_refl Hnul ltac:(change (2^28)%N with 268435456%N; lia)) as (raw & -> & E). cbn [bind]. rewrite E. reflexivity.
  Qed.
End Example.

(** ** Statements used by JsonExProps.v *)

Lemma encode_range t : is_int (fst (text_range t)) -> is_int (snd (text_range t)) -> encode_token t = Ret (hex8 (fst (text_range t)) ++ hex8 (snd (text_range t))).
Proof.
  unfold is_int, encode_token, text_range. destruct (t_type t); cbn [fst snd]; intros H1 H2; rewrite !int_add_ok by lia; cbn [bind]; do 2 f_equal; f_equal; lia.
Qed.

Lemma encode_overflow t : ~ (is_int (fst (text_range t)) /\ is_int (snd (text_range t))) -> encode_token t = UB IntOverflow.
Proof.
  unfold is_int, encode_token, text_range, int_add.
  assert (Hd : forall c, ((-2147483648 <=? c) && (c <=? 2147483647) = true <-> -2147483648 <= c <= 2147483647)%Z) by (intros c; rewrite andb_true_iff, !Z.leb_le; tauto).
  intros H.
  match goal with |- context [if ?c1 then Ret ?v1 else _] => destruct c1 eqn:E1; [|reflexivity] end. cbn [bind].
  match goal with |- context [if ?c1 then Ret ?v1 else _] => destruct c1 eqn:E2; [|reflexivity] end. exfalso. apply H. apply Hd in E1. apply Hd in E2. destruct (t_type t); cbn [fst snd] in *; lia.
Qed.

Lemma hex8_mod z : hex_number (hex8 z) = Some (Z.to_N (z mod 4294967296)).
Proof.
  replace (hex8 z) with (hex8 (z mod 4294967296)); [apply hex8_number; apply Z.mod_pos_bound; reflexivity|]. unfold hex8. now rewrite Z.mod_mod.
Qed.

Lemma encode_spells t : is_int (fst (text_range t)) -> is_int (snd (text_range t)) ->
  exists h, encode_token t = Ret h /\ spells_range h (fst (text_range t) mod 4294967296) (snd (text_range t) mod 4294967296).
Proof.
  intros H1 H2. eexists. split; [now apply encode_range|]. split; [reflexivity|].
  change (firstn 8 (hex8 ?b ++ hex8 ?e)) with (hex8 b). change (skipn 8 (hex8 ?b ++ hex8 ?e)) with (hex8 e). rewrite !hex8_mod. auto.
Qed.

Lemma hex8_inj a b : is_int a -> is_int b -> hex8 a = hex8 b -> a = b.
Proof.
  unfold is_int. intros Ha Hb E. assert (E2 : a mod 4294967296 = b mod 4294967296).
  { pose proof (hex8_mod a) as E1. rewrite E, hex8_mod in E1. injection E1 as E1. pose proof (Z.mod_pos_bound a 4294967296 eq_refl). pose proof (Z.mod_pos_bound b 4294967296 eq_refl). lia. }
  pose proof (Z.div_mod a 4294967296 ltac:(lia)). pose proof (Z.div_mod b 4294967296 ltac:(lia)). pose proof (Z.mod_pos_bound a 4294967296 eq_refl). pose proof (Z.mod_pos_bound b 4294967296 eq_refl). lia.
Qed.

Lemma encode_ret t h : encode_token t = Ret h -> is_int (fst (text_range t)) /\ is_int (snd (text_range t)) /\ h = hex8 (fst (text_range t)) ++ hex8 (snd (text_range t)).
Proof.
  intros E. assert (Hd : forall z, is_int z \/ ~ is_int z) by (intros z; unfold is_int; lia).
  destruct (Hd (fst (text_range t))) as [H1|H1]; [destruct (Hd (snd (text_range t))) as [H2|H2]|].
  - rewrite encode_range in E by auto. split; auto. split; auto. congruence.
  - rewrite encode_overflow in E by tauto. discriminate.
  - rewrite encode_overflow in E by tauto. discriminate.
Qed.

Lemma encode_lossless ts ts' hs hs' : Forall2 (fun t h => encode_token t = Ret h) ts hs -> Forall2 (fun t h => encode_token t = Ret h) ts' hs' ->
  concat hs = concat hs' -> map text_range ts = map text_range ts'.
Proof.
  intros H. revert ts' hs'. induction H as [|t h ts hs Ht H IH]; intros ts' hs' H' E.
  - inversion H' as [|t' h' ts2 hs2 Ht' H2]; subst; auto. apply encode_ret in Ht' as (_ & _ & ->). discriminate E.
  - inversion H' as [|t' h' ts2 hs2 Ht' H2]; subst. { apply encode_ret in Ht as (_ & _ & ->). discriminate E. }
    apply encode_ret in Ht as (I1 & I2 & ->). apply encode_ret in Ht' as (I1' & I2' & ->). cbn [concat] in E. rewrite <- !app_assoc in E.
    assert (E1 := f_equal (firstn 8) E). assert (E2 := f_equal (fun x => firstn 8 (skipn 8 x)) E). assert (E3 := f_equal (skipn 16) E).
    change (firstn 8 (hex8 ?b ++ ?e)) with (hex8 b) in E1. cbn beta in E2. change (firstn 8 (skipn 8 (hex8 ?b ++ hex8 ?e ++ ?r))) with (hex8 e) in E2. change (skipn 16 (hex8 ?b ++ hex8 ?e ++ ?r)) with r in E3.
    cbn [map]. f_equal; [|eapply IH; eauto]. apply hex8_inj in E1; auto. apply hex8_inj in E2; auto. destruct (text_range t), (text_range t'). cbn in *. congruence.
Qed.

  Lemma range_spells data b e root it : document data b e root -> child it root -> e <= 2147483647 -> spells_range (range_text it) (begin_of it) (end_of it).
  Proof. intros H Hc He. destruct (child_ok _ _ _ _ _ H Hc He). apply spells_hex8; lia. Qed.

Section Statements.
  Variable jsmn : bytes -> Z -> Z -> outcome (Z * list token).
  Variable inner : bytes -> layout.


  Lemma array_children data b e l lb le : document data b e (Arr l lb le) -> jsmn_answers jsmn data b e (Arr l lb le) -> e <= 2147483647 ->
    exists h, parse_array_fn jsmn data b e = Ret h /\ length h = (16 * length l)%nat /\
      forall i it, nth_error l i = Some it ->
        array_get jsmn data b e (Z.of_nat i) = Ret (firstn 16 (skipn (16 * i) h)) /\
        spells_range (firstn 16 (skipn (16 * i) h)) (begin_of it) (end_of it) /\
        document data (begin_of it) (end_of it) it.
  Proof.
    intros H Hj He. exists (concat (map range_text l)). split; [now apply (parse_array_ok jsmn data b e l lb le)|].
    assert (Hf : Forall (fun h : bytes => length h = 16%nat) (map range_text l)). { apply Forall_forall. intros h Hh. apply in_map_iff in Hh as (it & <- & _). reflexivity. }
    split. { rewrite (concat_len 16) by auto. now rewrite map_length. }
    intros i it Hi. rewrite (concat_16 (map range_text l) Hf i (range_text it)) by (rewrite nth_error_map, Hi; reflexivity). pose proof (nth_error_In _ _ Hi) as Hin.
    split; [now apply (array_get_ok jsmn data b e l lb le)|]. split; [now apply (range_spells data b e (Arr l lb le))|]. now apply (document_child data b e (Arr l lb le)).
  Qed.

  Lemma object_member data b e ms ob oe k : document data b e (Obj ms ob oe) -> jsmn_answers jsmn data b e (Obj ms ob oe) -> (N.of_nat (length data) < 2^28)%N ->
    exists h, object_get jsmn inner data b e k = Ret h /\
      match last_member k ms with
      | Some it => spells_range h (begin_of it) (end_of it) /\ document data (begin_of it) (end_of it) it
      | None => h = repeat x30 16
      end.
  Proof.
    intros H Hj Hl. eexists. split; [now apply object_get_ok with (ms := ms) (ob := ob) (oe := oe)|]. destruct (last_member k ms) as [it|] eqn:E; [|reflexivity].
    destruct (last_member_in _ _ _ E) as (m & Hm & Ei). assert (Hc : child it (Obj ms ob oe)) by (cbn; eauto). pose proof (document_nonneg _ _ _ _ H) as N. unfold len in N. change (2^28)%N with 268435456%N in Hl.
    split; [apply (range_spells data b e (Obj ms ob oe)); auto; lia|]. now apply (document_child data b e (Obj ms ob oe)).
  Qed.
End Statements.

Section Bad.
  Variable jsmn : bytes -> Z -> Z -> outcome (Z * list token).
  Variable to_int : Z -> Z.
  Variable inner : bytes -> layout.
  Hypothesis to_int_ok : forall z, is_int z -> to_int z = z.

  Lemma bad_index lay buf data b e l lb le i more r : (N.of_nat (length (cstr buf)) < 2^28)%N ->
    gval (readable lay) (cstr buf) (AArr (AStr n_arrayGet :: AStr data :: AInt b :: AInt e :: AInt i :: more)) r -> Forall short_keys more ->
    document data b e (Arr l lb le) -> jsmn_answers jsmn data b e (Arr l lb le) -> is_int i -> i < 0 \/ Z.of_nat (length l) <= i ->
    c_run (json_op jsmn to_int inner) lay buf = UB OutOfBounds.
  Proof.
    intros Hs Hg Hk Hd Hj Hi Hb. pose proof (data_len _ _ _ _ _ _ Hg) as Hl. change (2^28)%N with 268435456%N in *. pose proof (document_nonneg _ _ _ _ Hd) as Hn. unfold len in Hn. cbn [begin_of end_of] in Hn.
    pose proof (document_self _ _ _ _ Hd) as Hd2. pose proof (document_ival _ _ _ _ Hd2) as (pre & t & post & _ & Hp1 & Hp2 & _). cbn [begin_of end_of] in *. pose proof (len_pos t).
    apply (json_other jsmn to_int inner lay buf _ r Hs Hg).
    - repeat constructor; auto.
    - discriminate.
    - intros vs Hf. rewrite (request_array_get jsmn to_int inner to_int_ok _ _ _ _ _ _ Hf) by (try exact Hi; unfold is_int; lia). rewrite (array_get_bad jsmn data b e l lb le i Hd Hj Hb). reflexivity.
  Qed.

  Lemma bad_document lay buf data b e op more r n ts : (N.of_nat (length (cstr buf)) < 2^28)%N ->
    gval (readable lay) (cstr buf) (AArr (AStr op :: AStr data :: AInt b :: AInt e :: more)) r -> Forall short_keys more ->
    is_int b -> is_int e -> jsmn data b e = Ret (n, ts) -> n <= 0 -> op = n_parseArray ->
    c_run (json_op jsmn to_int inner) lay buf = if n =? 0 then UB OutOfBounds else Throw StdLengthError.
  Proof.
    intros Hs Hg Hk Hb He Hj Hn ->. apply (json_other jsmn to_int inner lay buf _ r Hs Hg).
    - repeat constructor; auto.
    - destruct (n =? 0); discriminate.
    - intros vs Hf. rewrite (request_parse_array jsmn to_int inner to_int_ok _ _ _ _ _ Hf Hb He). unfold parse_array_fn, array_tokens, internal_parse. rewrite Hj. cbn [bind].
      destruct (Z.ltb_spec n 0); [destruct (Z.eqb_spec n 0); [lia|reflexivity]|]. assert (n = 0) by lia. subst n. reflexivity.
  Qed.

  (** a key token whose surroundings are not in the text *)
  Lemma bad_key lay buf data b e k more r t0 t1 t2 ts : (N.of_nat (length (cstr buf)) < 2^28)%N ->
    gval (readable lay) (cstr buf) (AArr (AStr n_objectGet :: AStr data :: AInt b :: AInt e :: AStr k :: more)) r -> Forall short_keys more ->
    is_int b -> is_int e -> jsmn data b e = Ret (Z.of_nat (length (t0 :: t1 :: t2 :: ts)), t0 :: t1 :: t2 :: ts) ->
    t_start t0 <= t_start t1 <= t_end t0 -> t_end t1 <= t_start t2 <= t_end t0 ->
    is_int (t_start t1 - 1) -> is_int (t_end t1 + 1) ->
    ~ (0 <= t_start t1 - 1 <= t_end t1 + 1 /\ t_end t1 <= Z.of_nat (length data)) ->
    c_run (json_op jsmn to_int inner) lay buf = UB OutOfBounds.
  Proof.
    intros Hs Hg Hk Hb He Hj H1 H2 Hi1 Hi2 Hn. apply (json_other jsmn to_int inner lay buf _ r Hs Hg).
    - repeat constructor; auto.
    - discriminate.
    - intros vs Hf. rewrite (request_object_get jsmn to_int inner to_int_ok _ _ _ _ _ _ Hf Hb He). unfold object_get, object_tokens, internal_parse. rewrite Hj. cbn [bind].
      destruct (Z.ltb_spec (Z.of_nat (length (t0 :: t1 :: t2 :: ts))) 0); [lia|]. rewrite Nat2Z.id, firstn_app, Nat.sub_diag, firstn_all, firstn_O, app_nil_r.
      cbn [bind object_scan].
      destruct (Z.ltb_spec (t_start t1) (t_start t0)); [lia|]. destruct (Z.ltb_spec (t_end t0) (t_start t1)); [lia|].
      destruct (Z.ltb_spec (t_start t2) (t_end t1)); [lia|]. destruct (Z.ltb_spec (t_end t0) (t_start t2)); [lia|].
      unfold get_key. rewrite !int_add_ok by (unfold is_int in *; lia). cbn [bind].
      destruct (Z.leb_spec 0 (t_start t1 + -1)); cbn [andb]; [|reflexivity].
      destruct (Z.leb_spec (t_start t1 + -1) (t_end t1 + 1)); cbn [andb]; [|reflexivity].
      destruct (Z.leb_spec (t_end t1 + 1) (Z.of_nat (length data) + 1)); cbn [andb]; [|reflexivity]. lia.
  Qed.

  (** tokens counted by the first call and not written by the second *)
  Lemma unfilled lay buf data b e k more r n : (N.of_nat (length (cstr buf)) < 2^28)%N ->
    gval (readable lay) (cstr buf) (AArr (AStr n_objectGet :: AStr data :: AInt b :: AInt e :: AStr k :: more)) r -> Forall short_keys more ->
    is_int b -> is_int e -> jsmn data b e = Ret (n, []) -> 3 <= n ->
    c_run (json_op jsmn to_int inner) lay buf = UB OutOfBounds.
  Proof.
    intros Hs Hg Hk Hb He Hj Hn. apply (json_other jsmn to_int inner lay buf _ r Hs Hg).
    - repeat constructor; auto.
    - discriminate.
    - intros vs Hf. rewrite (request_object_get jsmn to_int inner to_int_ok _ _ _ _ _ _ Hf Hb He). unfold object_get, object_tokens, internal_parse. rewrite Hj. cbn [bind].
      destruct (Z.ltb_spec n 0); [lia|]. replace (Z.to_nat n) with (S (S (S (Z.to_nat (n - 3))))) by lia. reflexivity.
  Qed.

  Lemma bad_offset lay buf data b e more r : (N.of_nat (length (cstr buf)) < 2^28)%N ->
    gval (readable lay) (cstr buf) (AArr (AStr n_parseString :: AStr data :: AInt b :: AInt e :: more)) r -> Forall short_keys more ->
    is_int b -> is_int e -> b < 0 \/ Z.of_nat (length data) < b ->
    c_run (json_op jsmn to_int inner) lay buf = Throw StdOutOfRange.
  Proof.
    intros Hs Hg Hk Hb He Ho. apply (json_other jsmn to_int inner lay buf _ r Hs Hg).
    - repeat constructor; auto.
    - discriminate.
    - intros vs Hf. rewrite (request_parse_string jsmn to_int inner to_int_ok _ _ _ _ _ Hf Hb He). unfold sub_string. pose proof (cstr_le inner data) as Hc.
      destruct (Z.ltb_spec b 0); [reflexivity|]. destruct (Z.ltb_spec (Z.of_nat (length (cstr data))) b); [reflexivity|lia].
  Qed.

  Lemma unknown_op lay buf op data b e more r : (N.of_nat (length (cstr buf)) < 2^28)%N ->
    gval (readable lay) (cstr buf) (AArr (AStr op :: AStr data :: AInt b :: AInt e :: more)) r -> Forall short_keys more ->
    is_int b -> is_int e -> ~ In op [n_parseString; n_parseArray; n_arrayGet; n_objectGet] ->
    c_run (json_op jsmn to_int inner) lay buf = Ret None /\ c_gas (json_op jsmn to_int inner) lay buf = Ret 1500%N.
  Proof.
    intros Hs Hg Hk Hb He Ho. destruct (protocol (json_op jsmn to_int inner) lay buf _ r Hs Hg) as (vs & Hf & -> & ->). { repeat constructor; auto. }
    cbn [oparse json_op oinit]. rewrite (request_unknown jsmn to_int inner to_int_ok _ _ _ _ _ _ Hf Hb He Ho). split; reflexivity.
  Qed.

  (** parseString of something that is not a string *)
  Lemma not_a_string lay buf data b e more r a r' : (N.of_nat (length (cstr buf)) < 2^28)%N ->
    gval (readable lay) (cstr buf) (AArr (AStr n_parseString :: AStr data :: AInt b :: AInt e :: more)) r -> Forall short_keys more ->
    is_int b -> is_int e -> 0 <= b <= len (cstr data) -> gval (readable (inner (firstn (Z.to_nat e) (skipn (Z.to_nat b) (cstr data))))) (firstn (Z.to_nat e) (skipn (Z.to_nat b) (cstr data))) a r' -> 0 <= e -> (forall s, a <> AStr s) -> 
    c_run (json_op jsmn to_int inner) lay buf = UB TypeConfusion.
  Proof.
    intros Hs Hg Hk Hb He Ho Ha He0 Hns. pose proof (data_len _ _ _ _ _ _ Hg) as Hl. apply (json_other jsmn to_int inner lay buf _ r Hs Hg).
    - repeat constructor; auto.
    - discriminate.
    - intros vs Hf. rewrite (request_parse_string jsmn to_int inner to_int_ok _ _ _ _ _ Hf Hb He). unfold sub_string. unfold len in Ho.
      destruct (Z.ltb_spec b 0); [lia|]. destruct (Z.ltb_spec (Z.of_nat (length (cstr data))) b); [lia|]. cbn [orb]. destruct (Z.ltb_spec e 0); [lia|]. cbn [bind].
      set (raw := firstn (Z.to_nat e) (skipn (Z.to_nat b) (cstr data))) in *.
      assert (Hr : (N.of_nat (length raw) < 2^28)%N). { unfold raw. rewrite firstn_length, skipn_length. pose proof (cstr_le inner data). lia. }
      unfold parse_string_fn. destruct (parse_ok (inner raw) raw Hr) as [(a' & r2 & v & Hg' & Hbd & _ & ->)|[Hn _]].
      + cbn [bind]. assert (Hgr : gval (layout_lits (inner raw)) raw a r') by (eapply gval_lits; [|exact Ha]; intros []; cbn; unfold addr_ok; auto).
        destruct (gval_det _ _ _ _ _ _ Hg' Hgr) as [-> _]. assert (Hts : to_string v = UB TypeConfusion); [|now rewrite Hts].
        destruct a; cbn [build] in Hbd.
        * injection Hbd as <-. reflexivity.
        * injection Hbd as <-. reflexivity.
        * exfalso. eapply Hns. reflexivity.
        * apply bind_ret in Hbd as (vs' & _ & E). injection E as <-. reflexivity.
        * apply bind_ret in Hbd as (vs' & _ & E). apply bind_ret in E as (t & _ & E). injection E as <-. reflexivity.
      + exfalso. eapply Hn. eapply gval_lits; [|exact Ha]. intros []; cbn; unfold addr_ok; auto.
  Qed.
End Bad.

Lemma one_string s : one_string_text (strings_text [s]) s.
Proof. intros lits. apply (strings_gval lits [s]). Qed.

  Lemma small_end lay buf op data b e root more r : (N.of_nat (length (cstr buf)) < 2^28)%N ->
    gval (readable lay) (cstr buf) (AArr (AStr op :: AStr data :: AInt b :: AInt e :: more)) r -> document data b e root -> e <= 2147483647 /\ (N.of_nat (length data) < 2^28)%N.
  Proof.
    intros Hs Hg Hd. pose proof (data_len _ _ _ _ _ _ Hg) as Hl. change (2^28)%N with 268435456%N in *. pose proof (document_nonneg _ _ _ _ Hd) as Hn. unfold len in Hn. lia.
  Qed.

Section Calls.
  Variable jsmn : bytes -> Z -> Z -> outcome (Z * list token).
  Variable to_int : Z -> Z.
  Variable inner : bytes -> layout.
  Hypothesis to_int_ok : forall z, is_int z -> to_int z = z.


  Lemma call_array_get lay buf data b e l lb le i it more r :
    (N.of_nat (length (cstr buf)) < 2^28)%N -> gval (readable lay) (cstr buf) (AArr (AStr n_arrayGet :: AStr data :: AInt b :: AInt e :: AInt (Z.of_nat i) :: more)) r -> Forall short_keys more ->
    document data b e (Arr l lb le) -> jsmn_answers jsmn data b e (Arr l lb le) -> nth_error l i = Some it ->
    exists out h, c_run (json_op jsmn to_int inner) lay buf = Ret (Some out) /\ one_string_text out h /\ spells_range h (begin_of it) (end_of it) /\
      c_gas (json_op jsmn to_int inner) lay buf = Ret 160%N.
  Proof.
    intros Hs Hg Hk Hd Hj Hi. destruct (small_end _ _ _ _ _ _ _ _ _ Hs Hg Hd) as [He _]. destruct (op_array_get jsmn to_int inner to_int_ok _ _ _ _ _ _ _ _ _ _ _ _ Hs Hg Hk Hd Hj Hi) as [H1 H2].
    exists (strings_text [range_text it]), (range_text it). split; auto. split; [apply one_string|]. split; auto. apply (range_spells data b e (Arr l lb le)); auto. cbn. eauto using nth_error_In.
  Qed.

  Lemma call_parse_array lay buf data b e l lb le more r :
    (N.of_nat (length (cstr buf)) < 2^28)%N -> gval (readable lay) (cstr buf) (AArr (AStr n_parseArray :: AStr data :: AInt b :: AInt e :: more)) r -> Forall short_keys more ->
    document data b e (Arr l lb le) -> jsmn_answers jsmn data b e (Arr l lb le) ->
    exists out h, c_run (json_op jsmn to_int inner) lay buf = Ret (Some out) /\ one_string_text out h /\ length h = (16 * length l)%nat /\
      forall i it, nth_error l i = Some it -> spells_range (firstn 16 (skipn (16 * i) h)) (begin_of it) (end_of it).
  Proof.
    intros Hs Hg Hk Hd Hj. destruct (small_end _ _ _ _ _ _ _ _ _ Hs Hg Hd) as [He _]. pose proof (op_parse_array jsmn to_int inner to_int_ok _ _ _ _ _ _ _ _ _ _ Hs Hg Hk Hd Hj) as H1.
    destruct (array_children jsmn data b e l lb le Hd Hj He) as (h & E & Hl & Hc). rewrite (parse_array_ok jsmn data b e l lb le Hd Hj He) in E. injection E as E. rewrite E in H1.
    exists (strings_text [h]), h. split; auto. split; [apply one_string|]. split; auto. intros i it Hi. now apply Hc.
  Qed.

  Lemma call_object_get lay buf data b e ms ob oe k more r :
    (N.of_nat (length (cstr buf)) < 2^28)%N -> gval (readable lay) (cstr buf) (AArr (AStr n_objectGet :: AStr data :: AInt b :: AInt e :: AStr k :: more)) r -> Forall short_keys more ->
    document data b e (Obj ms ob oe) -> jsmn_answers jsmn data b e (Obj ms ob oe) ->
    exists out h, c_run (json_op jsmn to_int inner) lay buf = Ret (Some out) /\ one_string_text out h /\
      match last_member k ms with Some it => spells_range h (begin_of it) (end_of it) | None => h = repeat x30 16 end /\
      c_gas (json_op jsmn to_int inner) lay buf = Ret 160%N.
  Proof.
    intros Hs Hg Hk Hd Hj. destruct (small_end _ _ _ _ _ _ _ _ _ Hs Hg Hd) as [He Hl]. destruct (op_object_get jsmn to_int inner to_int_ok _ _ _ _ _ _ _ _ _ _ _ Hs Hg Hk Hd Hj) as [H1 H2].
    destruct (object_member jsmn inner data b e ms ob oe k Hd Hj Hl) as (h & E & Hc). rewrite (object_get_ok jsmn inner data b e ms ob oe k Hd Hj Hl) in E.
    eexists _, _. split; [exact H1|]. split; [apply one_string|]. split; auto. injection E as E. destruct (last_member k ms) as [it|]; [|auto]. destruct Hc as [Hc _]. rewrite <- E in Hc. exact Hc.
  Qed.

  Lemma call_parse_string lay buf data b e cs se more r :
    (N.of_nat (length (cstr buf)) < 2^28)%N -> gval (readable lay) (cstr buf) (AArr (AStr n_parseString :: AStr data :: AInt b :: AInt e :: more)) r -> Forall short_keys more ->
    document data b e (Str cs b se) -> ~ In NUL (firstn (Z.to_nat e) data) ->
    exists out, c_run (json_op jsmn to_int inner) lay buf = Ret (Some out) /\ one_string_text out cs.
  Proof.
    intros Hs Hg Hk Hd Hn. exists (strings_text [cs]). split; [|apply one_string]. now apply (op_parse_string jsmn to_int inner to_int_ok lay buf data b e cs se more r).
  Qed.
End Calls.

(** Properties C01-C13, C52 and C59: json::Parser, json::Value printing and access.

    Texts are shorter than 2^28 bytes: the hash tables behind objects count with 32 bits. *)
From Coq Require Import String.
From Verif Require Import Base HashSpec HashModel StringMapSpec StringMapModel HasherModel JsonSpec JsonRfcSpec JsonModel JsonDenotes JsonLaySpec JsonLayProof.
From Verif Require Import HashProof HashProof2 StringMapProof StringMapProof2 JsonProof JsonProof2 JsonProof3 JsonProof4 JsonProof5 JsonProof6.
From Coq Require Import List NArith ZArith Bool Lia.
From Coq.Init Require Import Byte.
From Coq.Strings Require Import Byte.
Import ListNotations.
Local Open Scope list_scope.

(** byte strings for the examples; [q] is the double quote *)
Definition T (s : string) : bytes := list_byte_of_string s.
Definition q : bytes := [x22].
(** a layout in which the literals lie below the text, and one in which they lie above *)
Definition low : layout := mkL 1000 10 20.
Definition high : layout := mkL 1000 2000 2010.

(** ** C01: no undefined behaviour, no divergence, no escaping exception *)
Theorem C01_parser_total :
  forall lay s, (N.of_nat (length s) < 2^28)%N ->
    exists ok v, parse lay s = Ret (ok, v) /\ (ok = false -> v = JUndef).
Proof. exact parse_total. Qed.
Print Assumptions C01_parser_total.

(** truncated, with NULs, with an escape cut off by the end *)
Example C01_example :
  map (parse low) [T "{" ++ q ++ T "a" ++ q ++ T ":[1,[2"; q ++ [NUL] ++ q; q ++ T "\u12"; T "tru"; []; [x22; x5c]]
  = [Ret (false, JUndef); Ret (true, JStr [NUL]); Ret (false, JUndef); Ret (false, JUndef); Ret (false, JUndef); Ret (false, JUndef)].
Proof. vm_compute. reflexivity. Qed.

(** ** C02: the language *)

(** In every layout: accepted are the texts that start with a value of the documented grammar in
    which only the readable boolean literals occur, and the root holds that value. *)
Theorem C02_grammar_any_layout :
  forall lay s, (N.of_nat (length s) < 2^28)%N ->
    exists ok v,
      parse lay s = Ret (ok, v) /\
      (ok = true <-> exists a r, gval (readable lay) s a r) /\
      (forall a r, gval (readable lay) s a r -> short_keys a -> denotes v a).
Proof. exact parse_exactly. Qed.
Print Assumptions C02_grammar_any_layout.

(** The documented grammar, when the literals lie below the end of the text.  Missing: the other
    layouts (see the refutation), and the contents of objects with a key of 65536 bytes or more. *)
Theorem C02_grammar_partial :
  forall lay s, (N.of_nat (length s) < 2^28)%N -> good_layout lay ->
    exists ok v,
      parse lay s = Ret (ok, v) /\
      (ok = true <-> exists a r, gval documented s a r) /\
      (forall a r, gval documented s a r -> short_keys a -> denotes v a).
Proof. exact parse_documented. Qed.
Print Assumptions C02_grammar_partial.

(** With the literal above the text, every text starting with true is rejected. *)
Theorem C02_grammar_refuted :
  forall lay r, (a_end lay <= a_rue lay + 2)%N ->
    gval documented (literal true ++ r) (ABool true) r /\
    parse lay (literal true ++ r) = Ret (false, JUndef).
Proof.
  intros lay r H. split; [|now apply bad_layout_rejects].
  apply (G_bool documented [] true r); [constructor|reflexivity].
Qed.
Print Assumptions C02_grammar_refuted.

Definition ex_text : bytes :=
  T " {" ++ q ++ T "a" ++ q ++ T " : [1, -20,[ ],{}] , " ++ q ++ T "b\n" ++ q ++ T ":true," ++ q ++ T "a" ++ q ++ T ":" ++ q ++ T "x" ++ [x5c] ++ T "u0041" ++ q ++ T "} tail".
Example C02_example :
  exists t, parse low ex_text = Ret (true, JObj t) /\ nE t = 2%N /\
    sm_at t (T "a") = Ret (JStr (T "xA")) /\ sm_at t [x62; x0a] = Ret (JBool true) /\
    parse high ex_text = Ret (false, JUndef).
Proof. eexists. split; [vm_compute; reflexivity|]. vm_compute. repeat split. Qed.

(** ** C03: one reading at most *)
Theorem C03_unambiguous :
  forall s a r a' r', gval documented s a r -> gval documented s a' r' -> a = a' /\ r = r'.
Proof. exact (gval_det documented). Qed.
Print Assumptions C03_unambiguous.

Example C03_example : gval documented (T "[0,12]3") (AArr [AInt 0; AInt 12]) (T "3").
Proof.
  apply (G_arr documented [] (T "0,12]3")); [constructor|].
  apply (GE_cons documented (T "0,12]3") (AInt 0) [] (T "12]3")); [|constructor|].
  - apply (G_nat documented [] (T "0,12]3") 0); constructor.
  - apply (GE_last documented (T "12]3") (AInt 12) []); [|constructor].
    apply (G_nat documented [] (T "12]3") 12 (T "]3")); [constructor|].
    apply (GN_pos x31 [x32] (T "]3")).
    + vm_compute. split; discriminate.
    + discriminate.
    + repeat constructor; vm_compute; discriminate.
    + intros (c & s' & E & H1 & H2). injection E as <- _. apply H2. reflexivity.
Qed.

(** ** C04: the rest of the text is not looked at *)
Theorem C04_whole_input_refuted :
  exists s v, parse low s = Ret (true, v) /\ ~ exists a w, gval documented s a w /\ white w.
Proof.
  exists (T "1 x"), (JInt 1). split; [vm_compute; reflexivity|]. intros (a & w & Hg & Hw).
  assert (H1 : gval documented (T "1 x") (AInt 1) (T " x")).
  { apply (G_nat documented [] (T "1 x") 1); [constructor|].
    apply (GN_pos x31 [] (T " x")); [split; vm_compute; discriminate|discriminate|constructor|].
    intros (c & s' & E & H1 & _). injection E as <- _. apply H1. reflexivity. }
  destruct (gval_det _ _ _ _ _ _ Hg H1) as [_ ->].
  inversion Hw as [|x l _ H2]. inversion H2 as [|y l' H3 _]. subst.
  cbn in H3. destruct H3 as [H3|[H3|[H3|[H3|[]]]]]; discriminate.
Qed.
Print Assumptions C04_whole_input_refuted.

(** What success does say: the text has a non-empty prefix that is a complete text of the value. *)
Theorem C04_whole_input_partial :
  forall lay s v, (N.of_nat (length s) < 2^28)%N -> parse lay s = Ret (true, v) ->
    exists p r, s = p ++ r /\ p <> [] /\ (exists a, gval documented p a []) /\ parse lay p = Ret (true, v).
Proof. exact success_prefix. Qed.
Print Assumptions C04_whole_input_partial.

Example C04_example : parse low (T "[7]]]") = Ret (true, JArr [JInt 7]).
Proof. vm_compute. reflexivity. Qed.

(** ** C05: the addresses matter, for booleans only *)
Theorem C05_layout_refuted :
  exists s v, parse low s = Ret (true, v) /\ parse high s = Ret (false, JUndef).
Proof. exists (T "[true]"), (JArr [JBool true]). vm_compute. auto. Qed.
Print Assumptions C05_layout_refuted.

(** Missing: texts with booleans. *)
Theorem C05_layout_partial :
  forall l1 l2 s, (N.of_nat (length s) < 2^28)%N -> (forall a r, gval documented s a r -> ~ has_bool a) ->
    parse l1 s = parse l2 s.
Proof. exact two_layouts. Qed.
Print Assumptions C05_layout_partial.

(** Exactly when: two layouts read a text alike unless it is of the documented grammar and one of them, but not the other, can
    read all the booleans in it. *)
Theorem C05_layout_exact :
  forall l1 l2 s, (N.of_nat (length s) < 2^28)%N ->
    (parse l1 s = parse l2 s <->
     forall a r, gval documented s a r ->
       ((forall b, occurs b a -> readable l1 b = true) <-> (forall b, occurs b a -> readable l2 b = true))).
Proof. exact same_reading. Qed.
Print Assumptions C05_layout_exact.

Example C05_example :
  let s := T "[" ++ q ++ T "true" ++ q ++ T "]" in
  (forall a r, gval documented s a r -> ~ has_bool a) /\
  parse low s = Ret (true, JArr [JStr (T "true")]) /\ parse high s = Ret (true, JArr [JStr (T "true")]).
Proof.
  split; [|vm_compute; auto]. intros a r Hg.
  assert (H : gval documented (T "[" ++ q ++ T "true" ++ q ++ T "]") (AArr [AStr (T "true")]) []).
  { apply (G_arr documented [] (q ++ T "true" ++ q ++ T "]")); [constructor|].
    apply (GE_last documented _ (AStr (T "true")) []); [|constructor].
    apply (G_str documented [] (T "true" ++ q ++ T "]")); [constructor|].
    repeat (apply GC_plain; [discriminate|discriminate|]). apply (GC_end (T "]")). }
  destruct (gval_det _ _ _ _ _ _ Hg H) as [-> _]. cbn. tauto.
Qed.

(** ** C06: strings survive printing and parsing *)
Theorem C06_string_round_trip :
  forall lay s, exists t, print (JStr s) = Ret t /\ parse lay t = Ret (true, JStr s).
Proof. exact string_round_trip. Qed.
Print Assumptions C06_string_round_trip.

Example C06_example :
  print (JStr [x61; x22; x5c; x00; x1f; x7f; xe9; x0a]) =
  Ret (q ++ [x61; x5c; x22; x5c; x5c] ++ [x5c] ++ T "u0000" ++ [x5c] ++ T "u001F" ++ [x7f; xe9] ++ [x5c] ++ T "u000A" ++ q).
Proof. vm_compute. reflexivity. Qed.

(** ** C07: integers, booleans, strings and arrays survive printing and parsing *)

(** The property, except for booleans read in a layout with the literals above the text. *)
Theorem C07_round_trip_partial :
  forall lay v, simple v -> good_layout lay \/ ~ holds_bool v ->
    exists t, print v = Ret t /\ (exists a, gval documented t a []) /\
      ((N.of_nat (length t) < 2^28)%N -> parse lay t = Ret (true, v)).
Proof. exact simple_round_trip. Qed.
Print Assumptions C07_round_trip_partial.

Theorem C07_round_trip_refuted :
  exists lay t, print (JBool true) = Ret t /\ parse lay t = Ret (false, JUndef).
Proof. exists high, (T "true"). vm_compute. auto. Qed.
Print Assumptions C07_round_trip_refuted.

(** different values print differently *)
Theorem C07_print_injective :
  forall v1 v2 t, simple v1 -> simple v2 -> print v1 = Ret t -> print v2 = Ret t -> v1 = v2.
Proof. exact simple_inj. Qed.
Print Assumptions C07_print_injective.

Example C07_example :
  let v := JArr [JInt (-(2^255)); JArr []; JArr [JBool false; JStr (T "a,b]")]; JInt 0] in
  simple v /\ (t <- print v ;; parse low t) = Ret (true, v).
Proof.
  split; [|vm_compute; reflexivity].
  constructor. intros v Hv. cbn in Hv.
  repeat (destruct Hv as [<-|Hv]); try destruct Hv; try (constructor; vm_compute; reflexivity).
  - constructor. intros v [].
  - constructor. intros v [<-|[<-|[]]]; constructor.
Qed.

(** ** C08: objects do not survive *)
Theorem C08_object_round_trip_refuted :
  exists t answers tx, sm_run JUndef (sm_new 8) [MSet (T "a") (JInt 1)] = Ret (t, answers) /\
    print (JObj t) = Ret tx /\ forall lay, parse lay tx = Ret (false, JUndef).
Proof. do 3 eexists. split; [vm_compute; reflexivity|]. split; [vm_compute; reflexivity|]. intros lay. vm_compute. reflexivity. Qed.
Print Assumptions C08_object_round_trip_refuted.

(** No object with members survives, whatever the members (keys without quotes). *)
Theorem C08_object_never_round_trips :
  forall lay t tx, buildable (fun k => ~ In x22 k) (JObj t) -> (0 < nE t)%N ->
    print (JObj t) = Ret tx -> (N.of_nat (length tx) < 2^28)%N ->
    parse lay tx = Ret (false, JUndef) \/ parse lay tx = Ret (true, new_object).
Proof. intros lay t tx. apply buildable_obj_parse. auto. Qed.
Print Assumptions C08_object_never_round_trips.

(** The only object for which the property holds is the empty one. *)
Theorem C08_object_round_trip_partial :
  forall lay, exists tx, print new_object = Ret tx /\ parse lay tx = Ret (true, new_object).
Proof.
  intros lay. exists [x7b; x0a; x0a; x7d]. split; [vm_compute; reflexivity|].
  apply (parse_exact lay [x7b; x0a; x0a; x7d] (AObj []) []); [vm_compute; reflexivity| |reflexivity].
  apply (G_obj0 _ [] [x0a; x0a] []); [constructor|]. repeat apply Forall_cons; try apply Forall_nil; unfold white_char; cbn; auto.
Qed.
Print Assumptions C08_object_round_trip_partial.

(** both alternatives occur *)
Example C08_example :
  (t <- sm_set (sm_new 8) (T "a") (JInt 1) ;; tx <- print (JObj t) ;; Ret (tx, parse low tx))
  = Ret (T "{" ++ [x0a] ++ T "a:1" ++ [x0a] ++ T "}", Ret (false, JUndef)) /\
  (t <- sm_set (sm_new 8) (T "}") (JInt 1) ;; tx <- print (JObj t) ;; parse low tx) = Ret (true, new_object).
Proof. split; vm_compute; reflexivity. Qed.

(** ** C09: no NUL in printed text *)
Theorem C09_no_nul :
  forall v t, buildable (fun k => ~ In NUL k) v -> print v = Ret t -> ~ In NUL t.
Proof. exact buildable_nonul. Qed.
Print Assumptions C09_no_nul.

Example C09_example :
  let v := JArr [JStr [NUL; x41]; JUndef; JInt (-5)] in
  buildable (fun k => ~ In NUL k) v /\ print v = Ret (T "[" ++ q ++ [x5c] ++ T "u0000A" ++ q ++ T ",,-5]").
Proof.
  split; [|vm_compute; reflexivity].
  constructor. intros v [<-|[<-|[<-|[]]]]; constructor.
Qed.

(** ** C10: 256-bit integers *)
Theorem C10_integers_parse :
  forall lay neg s n r, (N.of_nat (length s) < 2^27)%N -> gnat s n r ->
    parse lay (sign neg ++ s) = Ret (true, JInt (reduce256 (signed neg n))) /\
    ((n < 2^256)%N -> parse lay (sign neg ++ s) = Ret (true, JInt (signed neg n))).
Proof.
  intros lay neg s n r Hs Hg. pose proof (int_parse lay neg s n r Hs Hg) as H. split; [exact H|].
  intros Hn. rewrite H. do 3 f_equal. apply reduce256_small. assert (Z.of_N n < 2^256)%Z by (change (2^256)%Z with (Z.of_N (2^256)); lia).
  unfold signed. destruct neg; lia.
Qed.
Print Assumptions C10_integers_parse.

Theorem C10_integers_print :
  forall z, exists t, print (JInt z) = Ret t /\ gval documented t (AInt z) [] /\
    ((z < 0)%Z -> exists t', t = x2d :: t') /\ ((0 <= z)%Z -> exists c t', t = c :: t' /\ digit c).
Proof. exact int_print. Qed.
Print Assumptions C10_integers_print.

(** 2^256 + 7, written with a minus sign *)
Example C10_example :
  parse high (T "-115792089237316195423570985008687907853269984665640564039457584007913129639943")
  = Ret (true, JInt (-7)) /\
  parse high (T "115792089237316195423570985008687907853269984665640564039457584007913129639935")
  = Ret (true, JInt (2^256 - 1)).
Proof. vm_compute. auto. Qed.

(** ** C11: duplicate keys *)
Theorem C11_last_binding :
  forall lay s ms r, (N.of_nat (length s) < 2^28)%N -> gval (readable lay) s (AObj ms) r -> short_keys (AObj ms) ->
    exists t, parse lay s = Ret (true, JObj t) /\ nE t = distinct ms /\
      (forall k, match last_binding k ms with
                 | Some a => exists v, value_key (JObj t) k = Ret v /\ denotes v a
                 | None => value_key (JObj t) k = Throw OutOfRangeKey
                 end).
Proof. exact object_parse. Qed.
Print Assumptions C11_last_binding.

Example C11_example :
  let s := T "{" ++ q ++ T "k" ++ q ++ T ":1," ++ q ++ T "l" ++ q ++ T ":2," ++ q ++ T "k" ++ q ++ T ":3}" in
  exists t, parse high s = Ret (true, JObj t) /\ nE t = 2%N /\ value_key (JObj t) (T "k") = Ret (JInt 3) /\
    value_key (JObj t) (T "m") = Throw OutOfRangeKey.
Proof. eexists. split; [vm_compute; reflexivity|]. vm_compute. auto. Qed.

(** ** C12: \u escapes *)

(** Codes up to 255 become the byte of that value (which is the character in Latin-1).
    Missing: the other codes. *)
Theorem C12_codes_partial :
  forall lay h1 h2 h3 h4 n, spells h1 h2 h3 h4 n -> (n < 256)%N ->
    exists c, parse lay ([x22; x5c; x75; h1; h2; h3; h4; x22]) = Ret (true, JStr [c]) /\ bval c = n.
Proof.
  intros lay h1 h2 h3 h4 n H Hn. exists (byte_of_N n). split; [now apply code_parse|].
  rewrite bval_byte_of_N. now apply N.mod_small.
Qed.
Print Assumptions C12_codes_partial.

(** Every code above 255 gives the same string as a code below 256. *)
Theorem C12_codes_refuted :
  forall lay h1 h2 h3 h4 n, spells h1 h2 h3 h4 n -> (256 <= n)%N ->
    exists v, parse lay [x22; x5c; x75; h1; h2; h3; h4; x22] = Ret (true, v) /\
              parse lay [x22; x5c; x75; x30; x30; h3; h4; x22] = Ret (true, v).
Proof.
  intros lay h1 h2 h3 h4 n H _. exists (JStr [byte_of_N n]). split; [now apply code_parse|].
  destruct H as (n1 & n2 & n3 & n4 & E1 & E2 & E3 & E4 & ->).
  assert (Hs : spells x30 x30 h3 h4 (n3 * 16 + n4)).
  { exists 0%N, 0%N, n3, n4. repeat split; auto. }
  rewrite (code_parse lay _ _ _ _ _ Hs). do 4 f_equal. apply bval_inj. rewrite !bval_byte_of_N.
  replace (((n1 * 16 + n2) * 16 + n3) * 16 + n4)%N with (n3 * 16 + n4 + (n1 * 16 + n2) * 256)%N by lia.
  rewrite N.mod_add by discriminate. reflexivity.
Qed.
Print Assumptions C12_codes_refuted.

(** U+20AC and U+00AC *)
Example C12_example :
  spells x32 x30 x41 x63 8364 /\
  parse low (q ++ [x5c] ++ T "u20Ac" ++ q) = Ret (true, JStr [xac]) /\ parse low (q ++ [x5c] ++ T "u00ac" ++ q) = Ret (true, JStr [xac]).
Proof. split; [exists 2%N, 0%N, 10%N, 12%N; repeat split|vm_compute; auto]. Qed.

(** ** C13: accessors *)
Theorem C13_index :
  forall l i, (N.of_nat (length l) < 2^63)%N -> (-(2^31) <= i < 2^31)%Z ->
    value_idx (JArr l) i =
    if ((0 <=? i) && (i <? Z.of_nat (length l)))%Z then Ret (nth (Z.to_nat i) l JUndef) else Throw OutOfRangeVector.
Proof. exact value_idx_arr. Qed.
Print Assumptions C13_index.

Theorem C13_key :
  forall h t answers,
    sm_run JUndef (sm_new 8) h = Ret (t, answers) -> (N.of_nat (length h) <= 2^28)%N ->
    (forall o k, In o h -> mop_key o = Some k -> (N.of_nat (length k) < 65536)%N) ->
    forall k, value_key (JObj t) k =
              match get bytes_eqb (fst (map_run JUndef [] h)) k with
              | Some v => Ret v
              | None => Throw OutOfRangeKey
              end.
Proof. intros h t as_ Hr Hl Hs. eapply value_key_obj; eauto using short_all. Qed.
Print Assumptions C13_key.

(** On any other type the result is not the undefined value but the integer 5, for every value, key and
    index: the value meant to be undefined is made by the constructor from int. *)
Theorem C13_other_types_refuted :
  exists v k i, value_key v k = Ret (JInt 5) /\ value_idx v i = Ret (JInt 5).
Proof. exists JUndef, [], 0%Z. split; reflexivity. Qed.
Print Assumptions C13_other_types_refuted.

Theorem C13_other_types_partial :
  forall v k i,
    (match v with JObj _ => True | _ => value_key v k = Ret (JInt 5) end) /\
    (match v with JArr _ => True | _ => value_idx v i = Ret (JInt 5) end).
Proof. intros [] k i; split; reflexivity || exact I. Qed.
Print Assumptions C13_other_types_partial.

Example C13_example :
  let v := JArr [JInt 4; JInt 5] in
  value_idx v 1 = Ret (JInt 5) /\ value_idx v 2 = Throw OutOfRangeVector /\ value_idx v (-1) = Throw OutOfRangeVector /\
  (t <- sm_set (sm_new 8) (T "k") (JInt 9) ;; value_key (JObj t) (T "k")) = Ret (JInt 9).
Proof. vm_compute. auto. Qed.

(** ** C52: printing never fails *)
Theorem C52_print_total :
  (forall v, buildable (fun _ => True) v -> exists t, print v = Ret t) /\
  (forall lay s v, (N.of_nat (length s) < 2^28)%N -> parse lay s = Ret (true, v) -> exists t, print v = Ret t).
Proof. split; [exact (buildable_print (fun _ => True))|exact parse_print]. Qed.
Print Assumptions C52_print_total.

Example C52_example :
  (r <- parse low ex_text ;; print (snd r)) = Ret (T "{" ++ [x0a] ++ T "a:" ++ q ++ T "xA" ++ q ++ T ",b" ++ [x0a] ++ T ":true" ++ [x0a] ++ T "}")
  \/ (r <- parse low ex_text ;; print (snd r)) = Ret (T "{" ++ [x0a] ++ T "b" ++ [x0a] ++ T ":true,a:" ++ q ++ T "xA" ++ q ++ [x0a] ++ T "}").
Proof. vm_compute. auto. Qed.

(** ** C59: printed text is standard JSON *)

(** Values made of integers, booleans, strings and arrays print as RFC 8259 text: control characters, the
    quotation mark and the backslash appear escaped.  Missing: objects and undefined values. *)
Theorem C59_standard_partial :
  forall v, simple v -> exists t, print v = Ret t /\ rfc_value t.
Proof. exact simple_rfc. Qed.
Print Assumptions C59_standard_partial.

(** No object with a member prints as RFC 8259 text (unless a key contains quotation marks itself), since
    keys are not quoted. *)
Theorem C59_standard_refuted :
  forall t tx, buildable (fun k => ~ In x22 k) (JObj t) -> (0 < nE t)%N -> print (JObj t) = Ret tx -> ~ rfc_value tx.
Proof. exact object_not_rfc. Qed.
Print Assumptions C59_standard_refuted.

Example C59_example :
  let v := JArr [JStr [x1f; x22; x5c; x7f; x80]; JInt (-7); JArr []; JBool true] in
  simple v /\ print v = Ret (T "[" ++ q ++ [x5c] ++ T "u001F" ++ [x5c; x22; x5c; x5c; x7f; x80] ++ q ++ T ",-7,[],true]").
Proof.
  split; [|vm_compute; reflexivity].
  constructor. intros v [<-|[<-|[<-|[<-|[]]]]]; constructor; [reflexivity|]. intros v [].
Qed.

(** the hypotheses of C59_standard_refuted are met *)
Example C59_example_object :
  let h := [MSet (T "a") (JInt 1)] in
  exists t answers, sm_run JUndef (sm_new 8) h = Ret (t, answers) /\
    buildable (fun k => ~ In x22 k) (JObj t) /\ (0 < nE t)%N /\
    print (JObj t) = Ret (T "{" ++ [x0a] ++ T "a:1" ++ [x0a] ++ T "}").
Proof.
  intros h. destruct (sm_run JUndef (sm_new 8) h) as [[t as_]| | | |] eqn:E; vm_compute in E; try discriminate.
  injection E as <- <-. do 2 eexists. split; [reflexivity|]. split; [|split; vm_compute; reflexivity].
  apply (B_obj _ h _ [MUnit]).
  - intros k v [H|[]]. injection H as <- <-. constructor.
  - intros o k [<-|[]] H. injection H as <-. intros [H|[]]. discriminate.
  - intros o k [<-|[]] H. injection H as <-. reflexivity.
  - discriminate.
  - vm_compute. reflexivity.
Qed.

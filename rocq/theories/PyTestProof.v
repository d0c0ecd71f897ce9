(** Proofs for C108: the assertions of the JSON tests. *)
From Coq Require Import String.
From Verif Require Import Base CryptoModel JsonSpec JsonModel JsonProof JsonProof3 JsonProof4 JsonDenotes JsonStdSpec JsonStdProof PyClientModel PyClientProof EniModel EniProof CliSpec CliModel CliProof ToolsProof
  JsonExSpec JsonExModel JsonExProof JsonExProof2 JsonExProof3 PyClientProof2 PyTestModel.
From Coq Require Import List Arith NArith ZArith Bool Lia.
From Coq.Init Require Import Byte.
From Coq.Strings Require Import Byte.
Import ListNotations.
Local Open Scope nat_scope.
Local Open Scope list_scope.

Lemma client_call repr strict lay path ops name c args :
  (N.of_nat (length path) < 2^31)%N -> is_option path = false -> (N.of_nat (length name) < 2^31)%N -> is_option name = false ->
  NoDup (map fst ops) -> In (name, c) ops ->
  all_ascii (VArr args) -> supported (VArr args) -> ~ has_bool (in_utf8 (VArr args)) ->
  let t := dumps repr (VArr args) in (N.of_nat (length t) < 2^28)%N ->
  cstr t = t /\ gval (readable lay) t (in_utf8 (VArr args)) [] /\
  forall out, c_run c lay t = Ret (Some out) ->
    main_run strict (one_library lay path ops) (command_line repr (list_byte_of_string "eni_run") path name (VArr args)) = Ret (0%Z, out ++ [x0a]).
Proof.
  intros Hp Ho Hnl Hno Hd Hi Hall Hsup Hb t Hlen. unfold command_line. fold t.
  assert (Low : forall l, Forall ascii l -> Forall scalar l) by (intros l; apply Forall_impl; unfold ascii, scalar; lia).
  assert (Huni : unicode (VArr args)).
  { clear -Hall Low. revert Hall. generalize (VArr args). intros v. induction v as [|b|z|m e|s|l IH|ms IH] using tree_all; cbn; auto.
    - induction IH as [|x l Hx _ IHl]; cbn; tauto.
    - induction IH as [|[k x] l Hx _ IHl]; cbn in *; [tauto|]. intros [[H1 H2] H3]. repeat split; auto. }
  destruct (dumps_sent repr (VArr args) Huni (supported_no_reals _ Hsup)) as (_ & [_ HA] & Hgr). fold t in HA, Hgr. specialize (HA Hall).
  pose proof (proj1 ascii_all _ _ _ HA Hsup) as G. apply (gval_nobool _ (readable lay)) in G; [|exact Hb].
  assert (Hc : cstr t = t) by (apply cstr_id; now apply graph_nonul).
  assert (Hpos : positionals [path; name; t] [path; name; t]).
  { assert (Et : exists t', t = x5b :: t') by (subst t; cbn [dumps]; eauto). destruct Et as (t' & Et).
    assert (Hdd : ~ In double_dash [path; name; t]).
    { intros [X|[X|[X|[]]]]; [rewrite X in Ho; discriminate|rewrite X in Hno; discriminate|rewrite Et in X; discriminate]. }
    pose proof (P_without _ Hdd) as HP. unfold non_options in HP. cbn [filter] in HP. rewrite Ho, Hno in HP. rewrite Et in HP |- *. exact HP. }
  assert (Hargs : forall a, In a (tl [list_byte_of_string "eni_run"; path; name; t]) -> (N.of_nat (length a) < 2^31)%N).
  { cbn [tl]. change (2^28)%N with 268435456%N in Hlen. change (2^31)%N with 2147483648%N in *. intros a [<-|[<-|[<-|[]]]]; [exact Hp|exact Hnl|lia]. }
  destruct (cli_library strict lay path ops _ _ _ t Hargs Hd Hi Hpos) as (R & _). split; [exact Hc|]. split; [exact G|exact R].
Qed.

(** ------------------------------------------------------------------ hexadecimal digits in a Python string *)

Definition lowc (c : byte) : Prop := (bval c < 128)%N.
Lemma codes_ascii h : Forall lowc h -> Forall ascii (codes h).
Proof. intros H. unfold codes. now apply Forall_map. Qed.
Lemma answers_one h u : Forall lowc h -> answers (Ret (0%Z, strings_text [h] ++ [x0a])) u <-> u = VArr [VStr (codes h)].
Proof.
  intros H. unfold answers. split.
  - intros (out & E & L). injection E as <-. apply loads_one_string in L as (cs & -> & E & Hs). do 3 f_equal. apply ascii_text_inj; auto; [now apply codes_ascii|]. now rewrite codes_bytes.
  - intros ->. eexists. split; [reflexivity|]. apply loads_one_string. exists (codes h). split; [reflexivity|]. split.
    + rewrite ascii_text by now apply codes_ascii. apply codes_bytes.
    + eapply Forall_impl; [|apply codes_ascii, H]. unfold ascii, scalar. lia.
Qed.
Lemma hex_char_low n : (n < 16)%N -> lowc (hex_char n).
Proof. intros H. unfold lowc. assert (E : forall k, k < 16 -> (bval (hex_char (N.of_nat k)) < 128)%N) by (intros k Hk; do 16 (destruct k as [|k]; [reflexivity|]); lia).
  specialize (E (N.to_nat n)). rewrite N2Nat.id in E. apply E. lia. Qed.
Lemma hex8_low z : Forall lowc (hex8 z).
Proof. unfold hex8. apply Forall_map, Forall_forall. intros i _. apply hex_char_low. apply N.mod_lt. discriminate. Qed.
Lemma range_low it : Forall lowc (range_text it).
Proof. apply Forall_app. split; apply hex8_low. Qed.

Section Tests.
  Variable int16 : list N -> option Z.
  Hypothesis int16_ok : forall h n, length h = 8 -> hex_number h = Some n -> int16 (map bval h) = Some (Z.of_N n).

  Lemma u32_hex8 z : (0 <= z < 4294967296)%Z -> u32hex2int int16 (codes (hex8 z)) = Some z.
  Proof.
    intros Hz. unfold u32hex2int, codes. rewrite map_length, hex8_length. cbn [Nat.eqb]. rewrite (int16_ok (hex8 z) (Z.to_N z)); [|reflexivity|now apply hex8_number]. f_equal. lia.
  Qed.

  (** the words of a string of eight digits each *)
  Definition words (zs : list Z) : bytes := concat (map hex8 zs).
  Lemma words_low zs : Forall lowc (words zs).
  Proof. unfold words. induction zs as [|z zs IH]; cbn [map concat]; [constructor|]. apply Forall_app. split; [apply hex8_low|exact IH]. Qed.
  Lemma words_at zs : forall i, firstn 8 (skipn (8 * i) (words zs)) = match nth_error zs i with Some z => hex8 z | None => [] end.
  Proof.
    induction zs as [|z zs IH]; intros i.
    - unfold words. cbn [map concat]. rewrite skipn_nil. now destruct i.
    - destruct i as [|i]; [reflexivity|]. replace (8 * S i) with (8 + 8 * i) by lia. cbn [nth_error]. rewrite <- IH. reflexivity.
  Qed.
  Lemma codes_slice n m h : firstn n (skipn m (codes h)) = codes (firstn n (skipn m h)).
  Proof. unfold codes. now rewrite skipn_map, firstn_map. Qed.

  Lemma slices zs i : Forall (fun z => 0 <= z < 4294967296)%Z zs ->
    u32hex2int int16 (firstn 8 (skipn (8 * i) (codes (words zs)))) = nth_error zs i.
  Proof.
    intros H. rewrite codes_slice, words_at. destruct (nth_error zs i) as [z|] eqn:E; [|reflexivity]. apply u32_hex8. apply nth_error_In in E. rewrite Forall_forall in H. now apply H.
  Qed.

  Lemma prefix_iff (zs ex : list Z) : map (nth_error zs) (seq 0 (length ex)) = map Some ex <-> exists rest, zs = ex ++ rest.
  Proof.
    revert zs. induction ex as [|x ex IH]; intros zs; cbn [length seq map].
    - split; [intros _; now exists zs|reflexivity].
    - rewrite <- seq_shift, map_map. split.
      + intros E. injection E as E1 E2. destruct zs as [|z zs]; [discriminate|]. injection E1 as ->. cbn [nth_error] in E2. change (fun x0 : nat => nth_error zs x0) with (nth_error zs) in E2. apply IH in E2 as (rest & ->). now exists rest.
      + intros (rest & ->). cbn [nth_error app]. f_equal. apply IH. now exists rest.
  Qed.

  Lemma ranges_iff zs ex : Forall (fun z => 0 <= z < 4294967296)%Z zs ->
    assert_ranges int16 (Ret (0%Z, strings_text [words zs] ++ [x0a])) ex <-> exists rest, zs = ex ++ rest.
  Proof.
    intros H. rewrite <- prefix_iff. unfold assert_ranges. rewrite (map_ext (nth_error zs) (fun i => u32hex2int int16 (firstn 8 (skipn (8 * i) (codes (words zs))))) (fun i => eq_sym (slices zs i H))). split.
    - intros (s & more & A & E). apply answers_one in A; [|apply words_low]. injection A as -> _. exact E.
    - intros E. exists (codes (words zs)), []. split; [|exact E]. now apply answers_one; [apply words_low|].
  Qed.
  Lemma range_iff b e x y : (0 <= b < 4294967296)%Z -> (0 <= e < 4294967296)%Z ->
    assert_range int16 (Ret (0%Z, strings_text [hex8 b ++ hex8 e] ++ [x0a])) x y <-> x = b /\ y = e.
  Proof.
    intros Hb He. pose proof (u32_hex8 b Hb) as Eb. pose proof (u32_hex8 e He) as Ee. unfold assert_range.
    assert (F : firstn 8 (codes (hex8 b ++ hex8 e)) = codes (hex8 b)) by reflexivity. assert (S : skipn 8 (codes (hex8 b ++ hex8 e)) = codes (hex8 e)) by reflexivity.
    assert (L : Forall lowc (hex8 b ++ hex8 e)) by (apply Forall_app; split; apply hex8_low). split.
    - intros (s & more & A & E1 & E2). apply answers_one in A; [|exact L]. assert (Es : s = codes (hex8 b ++ hex8 e)) by congruence. subst s. rewrite F, Eb in E1. rewrite S, Ee in E2. injection E1 as ->. injection E2 as ->. auto.
    - intros [-> ->]. exists (codes (hex8 b ++ hex8 e)), []. split; [now apply answers_one|]. now rewrite F, S.
  Qed.

  Variable jsmn : bytes -> Z -> Z -> outcome (Z * list token).
  Variable to_int : Z -> Z.
  Variable inner : bytes -> layout.
  Hypothesis to_int_ok : forall z, is_int z -> to_int z = z.

  Section Call.
    Variables (repr : Z -> Z -> bytes) (strict : bool) (lay : layout) (path name : bytes) (ops : list (bytes * opclass)).
    Hypothesis Hp : (N.of_nat (length path) < 2^31)%N.
    Hypothesis Ho : is_option path = false.
    Hypothesis Hnl : (N.of_nat (length name) < 2^31)%N.
    Hypothesis Hno : is_option name = false.
    Hypothesis Hd : NoDup (map fst ops).
    Hypothesis Hi : In (name, json_op jsmn to_int inner) ops.

    Definition ask (input : list tree) : outcome (Z * bytes) :=
      main_run strict (one_library lay path ops) (command_line repr (list_byte_of_string "eni_run") path name (VArr input)).

    Lemma ask_ok input out : all_ascii (VArr input) -> supported (VArr input) -> ~ has_bool (in_utf8 (VArr input)) ->
      (N.of_nat (length (dumps repr (VArr input))) < 2^28)%N ->
      (forall buf, (N.of_nat (length (cstr buf)) < 2^28)%N -> gval (readable lay) (cstr buf) (in_utf8 (VArr input)) [] -> c_run (json_op jsmn to_int inner) lay buf = Ret (Some out)) ->
      ask input = Ret (0%Z, out ++ [x0a]).
    Proof.
      intros H1 H2 H3 H4 H5. destruct (client_call repr strict lay path ops name _ input Hp Ho Hnl Hno Hd Hi H1 H2 H3 H4) as (Hc & G & R).
      apply R. apply H5; rewrite Hc; assumption.
    Qed.

    Lemma doc_small nm doc rest : all_ascii (VArr (VStr nm :: VStr doc :: rest)) -> supported (VArr (VStr nm :: VStr doc :: rest)) -> ~ has_bool (in_utf8 (VArr (VStr nm :: VStr doc :: rest))) ->
      (N.of_nat (length (dumps repr (VArr (VStr nm :: VStr doc :: rest)))) < 2^28)%N -> (len (map byte_of_N doc) <= 2147483647)%Z.
    Proof.
      intros H1 H2 H3 H4. destruct (client_call repr strict lay path ops name _ _ Hp Ho Hnl Hno Hd Hi H1 H2 H3 H4) as (Hc & G & _).
      rewrite <- Hc in G, H4. cbn [in_utf8 map] in G. apply data_len in G. rewrite (ascii_text doc) in G by (cbn in H1; tauto).
      change (2^28)%N with 268435456%N in H4. unfold len. lia.
    Qed.

    Lemma ask_array_get doc b e l lb le i it :
      Forall ascii doc -> document (map byte_of_N doc) b e (Arr l lb le) -> jsmn_answers jsmn (map byte_of_N doc) b e (Arr l lb le) -> nth_error l i = Some it ->
      let input := [VStr (codes n_arrayGet); VStr doc; VInt b; VInt e; VInt (Z.of_nat i)] in
      (N.of_nat (length (dumps repr (VArr input))) < 2^28)%N ->
      forall x y, assert_range int16 (ask input) x y <-> x = begin_of it /\ y = end_of it.
    Proof.
      intros Ad HD HJ Hn input Hlen x y. assert (An : Forall ascii (codes n_arrayGet)) by (vm_compute; repeat constructor).
      assert (He : (e <= 2147483647)%Z).
      { destruct (document_nonneg _ _ _ _ HD) as (_ & _ & _ & He). etransitivity; [exact He|]. eapply doc_small; [| | |exact Hlen]; cbn; auto 10; tauto. }
      rewrite (ask_ok input (strings_text [range_text it])); auto.
      - destruct (child_ok _ _ _ _ it HD) as [B1 B2]; [cbn; eapply nth_error_In; eauto|exact He|]. unfold range_text. apply range_iff; lia.
      - subst input; cbn; auto 10.
      - subst input; cbn; auto 10.
      - subst input; cbn; tauto.
      - intros buf Hs Hg. subst input. cbn [in_utf8 map] in Hg. rewrite !ascii_text, codes_bytes in Hg by assumption.
        eapply (op_array_get jsmn to_int inner to_int_ok lay buf); eauto.
    Qed.

    Lemma ask_object_get doc b e ms ob oe k :
      Forall ascii doc -> Forall ascii k -> document (map byte_of_N doc) b e (Obj ms ob oe) -> jsmn_answers jsmn (map byte_of_N doc) b e (Obj ms ob oe) ->
      let input := [VStr (codes n_objectGet); VStr doc; VInt b; VInt e; VStr k] in
      (N.of_nat (length (dumps repr (VArr input))) < 2^28)%N ->
      forall x y, assert_range int16 (ask input) x y <->
        match last_member (map byte_of_N k) ms with Some it => x = begin_of it /\ y = end_of it | None => x = 0%Z /\ y = 0%Z end.
    Proof.
      intros Ad Ak HD HJ input Hlen x y. assert (An : Forall ascii (codes n_objectGet)) by (vm_compute; repeat constructor).
      assert (He : (e <= 2147483647)%Z).
      { destruct (document_nonneg _ _ _ _ HD) as (_ & _ & _ & He). etransitivity; [exact He|]. eapply doc_small; [| | |exact Hlen]; cbn; auto 10; tauto. }
      rewrite (ask_ok input (strings_text [match last_member (map byte_of_N k) ms with Some it => range_text it | None => repeat x30 16 end])); auto.
      - destruct (last_member (map byte_of_N k) ms) as [it|] eqn:E.
        + destruct (child_ok _ _ _ _ it HD) as [B1 B2]; [|exact He|].
          { cbn. clear -E. induction ms as [|[[k' p] v] ms IH]; [discriminate|]. cbn [last_member] in E. destruct (last_member (map byte_of_N k) ms) as [it'|].
            - injection E as ->. destruct (IH eq_refl) as (m & H1 & H2). exists m. split; [now right|exact H2].
            - destruct (bytes_eqb k' (map byte_of_N k)); [|discriminate]. injection E as ->. exists (k', p, it). split; [now left|now left]. }
          unfold range_text. apply range_iff; lia.
        + change (repeat x30 16) with (hex8 0 ++ hex8 0). apply range_iff; lia.
      - subst input; cbn; auto 10.
      - subst input; cbn; auto 10.
      - subst input; cbn; tauto.
      - intros buf Hs Hg. subst input. cbn [in_utf8 map] in Hg. rewrite !ascii_text, codes_bytes in Hg by assumption.
        eapply (op_object_get jsmn to_int inner to_int_ok lay buf); eauto.
    Qed.

    Definition ends (l : list item) : list Z := flat_map (fun it => [begin_of it; end_of it]) l.
    Lemma ends_words l : concat (map range_text l) = words (ends l).
    Proof. unfold words, ends. induction l as [|it l IH]; [reflexivity|]. cbn [map concat flat_map app]. rewrite IH. unfold range_text. now rewrite <- app_assoc. Qed.

    Lemma ask_parse_array doc b e l lb le :
      Forall ascii doc -> document (map byte_of_N doc) b e (Arr l lb le) -> jsmn_answers jsmn (map byte_of_N doc) b e (Arr l lb le) ->
      let input := [VStr (codes n_parseArray); VStr doc; VInt b; VInt e] in
      (N.of_nat (length (dumps repr (VArr input))) < 2^28)%N ->
      forall expected, assert_ranges int16 (ask input) expected <-> exists rest, ends l = expected ++ rest.
    Proof.
      intros Ad HD HJ input Hlen x. assert (An : Forall ascii (codes n_parseArray)) by (vm_compute; repeat constructor).
      assert (He : (e <= 2147483647)%Z).
      { destruct (document_nonneg _ _ _ _ HD) as (_ & _ & _ & He). etransitivity; [exact He|]. eapply doc_small; [| | |exact Hlen]; cbn; auto 10; tauto. }
      rewrite (ask_ok input (strings_text [concat (map range_text l)])); auto.
      - rewrite ends_words. apply ranges_iff. apply Forall_flat_map, Forall_forall. intros it Hin. destruct (child_ok _ _ _ _ it HD) as [B1 B2]; [exact Hin|exact He|]. repeat constructor; lia.
      - subst input; cbn; auto 10.
      - subst input; cbn; auto 10.
      - subst input; cbn; tauto.
      - intros buf Hs Hg. subst input. cbn [in_utf8 map] in Hg. rewrite !ascii_text, codes_bytes in Hg by assumption.
        eapply (op_parse_array jsmn to_int inner to_int_ok lay buf); eauto.
    Qed.
  End Call.
End Tests.

Lemma ask_parse_string jsmn to_int inner : (forall z, is_int z -> to_int z = z) ->
  forall repr strict lay path ops name pre s post cs,
  (N.of_nat (length path) < 2^31)%N -> is_option path = false -> (N.of_nat (length name) < 2^31)%N -> is_option name = false ->
  NoDup (map fst ops) -> In (name, json_op jsmn to_int inner) ops ->
  Forall (fun c => 0 < c < 128)%N (pre ++ 34%N :: s) -> Forall ascii post -> rchars any_code (map byte_of_N s) cs [] ->
  let input := VArr [VStr (codes n_parseString); VStr (pre ++ (34%N :: s) ++ post); VInt (Z.of_nat (length pre)); VInt (Z.of_nat (length pre + length (34%N :: s)))] in
  (N.of_nat (length (dumps repr input)) < 2^28)%N ->
  let ran := main_run strict (one_library lay path ops) (command_line repr (list_byte_of_string "eni_run") path name input) in
  (assert_returns ran (VArr [VStr cs]) <-> Forall ascii cs) /\
  (Forall ascii cs -> forall output, assert_returns ran output -> output = VArr [VStr cs]).
Proof.
  intros Hi repr strict lay path ops name pre s post cs H1 H2 H3 H4 H5 H6 H7 H8 H9 input H10 ran.
  destruct (client_parse_string jsmn to_int inner Hi repr strict lay path ops name pre s post cs H1 H2 H3 H4 H5 H6 H7 H8 H9 H10) as (out & R & A & B).
  assert (E : forall v, assert_returns ran v <-> loads out v).
  { intros v. unfold assert_returns, answers. split.
    - intros (v' & (out' & R' & L) & ->). unfold ran in R'. assert (X : Ret (0%Z, out) = Ret (0%Z, out')) by (rewrite <- R; exact R'). injection X as <-. exact L.
    - intros L. exists v. split; [|reflexivity]. exists out. split; [exact R|exact L]. }
  split.
  - rewrite E. split; [|intros Ha; now apply A].
    intros L. assert (D : {Forall ascii cs} + {~ Forall ascii cs}) by (apply Forall_dec; intros x; unfold ascii; destruct (N.ltb x 128) eqn:X; [left; now apply N.ltb_lt|right; apply N.ltb_ge in X; lia]).
    destruct D as [D|D]; [exact D|]. now destruct (B D).
  - intros Ha v Hv. apply E in Hv. now apply A.
Qed.

(** Cases that meet the hypotheses of theorems about the operations and the tools: each is the theorem, applied. *)
From Coq Require Import String.
From Verif Require Import Base JsonSpec JsonModel JsonDenotes JsonProof4 EniModel EniProps CryptoSpec CryptoModel CryptoHeapModel CryptoHeapSpec CryptoProps CryptoHeapProps CryptoFaultModel CryptoFaultSpec CryptoFaultProps
  ScryptModel ScryptSpec Sha256 ScryptProps JsonExSpec JsonExModel JsonExProps JsonChainSpec JsonChainProps CliSpec CliModel CliProps JsonFaultSpec CliErrModel CliErrProps ConsensusModel ToolsProps.
From Coq Require Import List NArith ZArith Bool Lia.
From Coq.Init Require Import Byte.
From Coq.Strings Require Import Byte.
Import ListNotations.
Import ScryptSpec.
Local Open Scope list_scope.
Local Notation T := EniProps.T.
Local Notation low := EniProps.low.

(** ["aB\n", 5] and its grammar; 5 is not looked at *)
Definition greeting : list jvalue := [JStr [x61; x42; x0a]; JInt 5].
Lemma greeting_written : written low (as_text greeting) [AStr [x61; x42; x0a]; AInt 5].
Proof. exact (as_text_written greeting ltac:(is_simple) eq_refl eq_refl). Qed.

Example C32_reverse_case :
  c_gas reverse_op low (as_text greeting) = Ret 30%N /\
  exists t, c_run reverse_op low (as_text greeting) = Ret (Some t) /\ gval documented t (AArr [AStr [x0a; x42; x61]]) [].
Proof. destruct greeting_written as (Hs & r & Hg). exact (C32_reverse low _ _ _ _ Hs Hg). Qed.
Example C32_involution_case :
  exists t t', c_run reverse_op low (as_text greeting) = Ret (Some t) /\ (N.of_nat (length t) < 2^28)%N /\
    c_run reverse_op low t = Ret (Some t') /\ gval documented t' (AArr [AStr [x61; x42; x0a]]) [].
Proof.
  destruct greeting_written as (Hs & r & Hg). destruct (c_run reverse_op low (as_text greeting)) as [[t|]| | | |] eqn:E; try (vm_compute in E; discriminate).
  assert (Hl : (N.of_nat (length t) < 2^28)%N) by (vm_compute in E; injection E as <-; reflexivity).
  destruct (C32_involution low low _ _ _ _ t Hs Hg E Hl) as (t' & E' & Hg'). exists t, t'. auto.
Qed.

(** encryption and decryption of one byte with the textbook key *)
Definition to_encrypt : list jvalue := [JStr (T "PUB"); JStr [x0a]].
Lemma to_encrypt_written : written low (as_text to_encrypt) [AStr (T "PUB"); AStr [x0a]].
Proof. exact (as_text_written to_encrypt ltac:(is_simple) eq_refl eq_refl). Qed.
Definition to_decrypt : list jvalue := [JStr (T "PRIV"); JStr (T "01f9"); JBool true].
Lemma to_decrypt_written : written low (as_text to_decrypt) [AStr (T "PRIV"); AStr (T "01f9"); ABool true].
Proof. exact (as_text_written to_decrypt ltac:(repeat (first [apply Forall_nil | apply Forall_cons; [constructor|]])) eq_refl eq_refl). Qed.

Example C35_operations_case :
  exists t h, c_run (encrypt_op textbook) low (as_text to_encrypt) = Ret (Some t) /\ gval documented t (AArr [AStr h]) [] /\ hex_text h [x01; xf9] /\
    (h = T "01f9" -> exists t', c_run (decrypt_op textbook) low (as_text to_decrypt) = Ret (Some t') /\ gval documented t' (AArr [AStr [x0a]]) []).
Proof.
  destruct to_encrypt_written as (Hs & r & Hg). destruct (C35_operations_partial textbook low low _ _ _ _ r tt [x01; xf9] Hs Hg (Forall_nil _) eq_refl eq_refl) as (t & h & E & Ht & Hh & Hback).
  exists t, h. split; [exact E|]. split; [exact Ht|]. split; [exact Hh|]. intros ->. destruct to_decrypt_written as (Hs' & r' & Hg').
  apply (Hback (as_text to_decrypt) _ _ r' tt Hs' Hg'); [repeat constructor|reflexivity|reflexivity|exact textbook_inverse|intros [H|[]]; discriminate|cbn; lia].
Qed.
Example C88_same_result_case :
  exists t t', c_run (encrypt_op textbook) low (as_text to_encrypt) = Ret (Some t) /\ c_run (encrypt_op textbook) low (as_text to_encrypt) = Ret (Some t') /\
    length t = 8%nat /\ (t = t' <-> forall i, (i < 2)%nat -> nth i [x0a] NUL = nth i [x0a] NUL).
Proof.
  destruct to_encrypt_written as (Hs & r & Hg).
  exact (C88_same_result textbook tt tt low low _ _ _ _ _ _ _ _ r r [x01; xf9] [x01; xf9] Hs Hs Hg (Forall_nil _) Hg (Forall_nil _) eq_refl eq_refl textbook_inverse eq_refl eq_refl).
Qed.

(** a call that encrypts, and one without a message, which throws *)
Definition no_message : list jvalue := [JStr (T "PUB")].
Lemma no_message_written : written low (as_text no_message) [AStr (T "PUB")].
Proof. exact (as_text_written no_message ltac:(is_simple) eq_refl eq_refl). Qed.
Example C72_calls_case :
  let l := [(mkRC Encrypt Start low (as_text to_encrypt), [AStr (T "PUB"); AStr [x0a]], ResultIs (Some (T "[" ++ [x22] ++ T "01f9" ++ [x22] ++ T "]")));
            (mkRC Encrypt GetGas low (as_text no_message), [AStr (T "PUB")], Threw OutOfRangeVector)] in
  Forall (proper textbook) l /\
  exists L', h_calls textbook (ledger0 textbook) (map (fun x => fst (fst x)) l) = Ret (L', map snd l) /\
    more textbook (ledger0 textbook) L' (mkLeft 2 1 1).
Proof.
  intros l. assert (H : Forall (proper textbook) l).
  { destruct to_encrypt_written as (Hs & r & Hg). destruct no_message_written as (Hs' & r' & Hg').
    apply Forall_cons; [|apply Forall_cons; [|constructor]]; (split; [assumption|]); (split; [eexists; eassumption|]); (split; [repeat constructor|vm_compute; reflexivity]). }
  split; [exact H|]. exact (C72_calls_exact textbook l H (ledger0 textbook)).
Qed.

(** three runs, the first without a buffer, the second without memory in OpenSSL; no memory for the BIO; no message, and
    the second key cannot be read; three calls of C functions, the second of which gets no buffer *)
Example C101_served_case :
  fates (but [2; 4]) 2 [GetGas; Start; Start; Start] = [(GetGas, Fine); (Start, NoBuffer); (Start, NoWork); (Start, Fine)] /\
  exists L' n', f_object textbook (but [2; 4]) Encrypt low (as_text to_encrypt) [GetGas; Start; Start; Start] (ledger0 textbook) 0 =
    Ret (L', n', [GasIs 20; Threw StdBadAlloc; ResultIs None; ResultIs (Some (lone (T "01f9")))]) /\ more textbook (ledger0 textbook) L' (mkLeft 1 2 0).
Proof.
  split; [reflexivity|]. destruct to_encrypt_written as (Hs & r & Hg).
  exact (C101_served textbook (but [2; 4]) Encrypt low _ _ _ _ r [GetGas; Start; Start; Start] [GasIs 20; ResultIs (Some (lone (T "01f9")))] (ledger0 textbook) 0 Hs Hg (Forall_nil _) eq_refl eq_refl eq_refl eq_refl eq_refl).
Qed.
Example C101_refused_case :
  exists L' n', f_object textbook (but [0]) Encrypt low (as_text to_encrypt) [GetGas; Start] (ledger0 textbook) 0 = Ret (L', n', [GasIs 1500; ResultIs None]) /\
    more textbook (ledger0 textbook) L' (mkLeft 0 0 0).
Proof.
  destruct to_encrypt_written as (Hs & r & Hg).
  exact (C101_refused textbook (but [0]) Encrypt low _ _ _ r [GetGas; Start] (ledger0 textbook) 0 Hs Hg (Forall_cons (AStr [x0a]) (I : short_keys (AStr [x0a])) (Forall_nil _)) (or_introl eq_refl)).
Qed.
Example C101_lacking_case :
  exists L' n', f_object textbook (but [3]) Encrypt low (as_text no_message) [GetGas; Start; Start] (ledger0 textbook) 0 = Ret (L', n', [Threw OutOfRangeVector; ResultIs None; ResultIs None]) /\
    more textbook (ledger0 textbook) L' (mkLeft 2 0 1).
Proof.
  destruct no_message_written as (Hs & r & Hg).
  refine (C101_lacking textbook (but [3]) Encrypt low _ _ r [GetGas; Start; Start] (ledger0 textbook) 0 1 Hs Hg eq_refl _ _ _).
  - cbn. lia.
  - intros i Hi. replace i with 0 by lia. auto.
  - auto.
Qed.
Example C101_calls_case :
  let ok := (mkRC Encrypt Start low (as_text to_encrypt), [AStr (T "PUB"); AStr [x0a]], ResultIs (Some (lone (T "01f9")))) in
  let l := [ok; ok; (mkRC Encrypt GetGas low (as_text no_message), [AStr (T "PUB")], Threw OutOfRangeVector)] in
  Forall (proper textbook) l /\
  (exists L' n', f_calls textbook (but [6]) (ledger0 textbook) 0 (map (fun x => fst (fst x)) l) =
     Ret (L', n', [ResultIs (Some (lone (T "01f9"))); Threw StdBadAlloc; Threw OutOfRangeVector]) /\ alive textbook L' = 2) /\
  exists L' n', f_calls textbook (but [6]) (ledger0 textbook) 7 (map (fun x => fst (fst x)) l) = Ret (L', n', map snd l) /\ more textbook (ledger0 textbook) L' (mkLeft 3 2 1).
Proof.
  intros ok l. assert (H : Forall (proper textbook) l).
  { destruct to_encrypt_written as (Hs & r & Hg). destruct no_message_written as (Hs' & r' & Hg').
    apply Forall_cons; [|apply Forall_cons; [|apply Forall_cons; [|constructor]]]; (split; [assumption|]); (split; [eexists; eassumption|]); (split; [repeat constructor|vm_compute; reflexivity]). }
  split; [exact H|]. split.
  - destruct (C101_calls textbook (but [6]) l H (ledger0 textbook) 0) as (L' & n' & answers & E & _ & Ha & _).
    assert (Ea : match f_calls textbook (but [6]) (ledger0 textbook) 0 (map (fun x => fst (fst x)) l) with Ret (_, _, a) => a | _ => [] end =
      [ResultIs (Some (lone (T "01f9"))); Threw StdBadAlloc; Threw OutOfRangeVector]) by (vm_compute; reflexivity).
    rewrite E in Ea. subst answers. exists L', n'. split; [exact E|exact Ha].
  - refine (C101_recovered textbook (but [6]) l H (ledger0 textbook) 7 _). intros m Hm. unfold but. cbn [existsb]. assert (E : Nat.eqb m 6 = false) by (apply Nat.eqb_neq; lia). now rewrite E.
Qed.

(** a header of three digits *)
Definition short_header : list jvalue := [JStr (T "1fF")].
Lemma short_header_written : written low (as_text short_header) [AStr (T "1fF")].
Proof. exact (as_text_written short_header ltac:(is_simple) eq_refl eq_refl). Qed.
Lemma short_header_ok : accepted (T "1fF") /\ header_bytes (T "1fF") (x01 :: xff :: repeat x00 78).
Proof. split; [split; [cbn; lia|repeat constructor; discriminate]|exact (proj1 (proj2 (proj2 (proj2 C37_example))))]. Qed.
Example C37_result_case :
  let hd := x01 :: xff :: repeat x00 78 in
  exists t d, c_run (scrypt_op sha256 1000) low (as_text short_header) = Ret (Some t) /\ gval documented t (AArr [AStr d]) [] /\
              hex_text d (scrypt sha256 hd hd 1024 1 1 32) /\ Forall lower_hex d.
Proof.
  intros hd. destruct short_header_written as (Hs & r & Hg). exact (C37_result sha256 sha256_length 1000 eq_refl low _ _ _ r hd Hs Hg (proj1 short_header_ok) (proj2 short_header_ok)).
Qed.

(** requests to the JSON example *)
Lemma hello_asked op more : Forall simple more -> cstr (as_text ([JStr op; JStr hello; JInt 0; JInt 19] ++ more)) = as_text ([JStr op; JStr hello; JInt 0; JInt 19] ++ more) ->
  (N.of_nat (length (as_text ([JStr op; JStr hello; JInt 0; JInt 19] ++ more))) <? 2^28)%N = true ->
  written low (as_text ([JStr op; JStr hello; JInt 0; JInt 19] ++ more)) (AStr op :: AStr hello :: AInt 0 :: AInt 19 :: map ast_of more).
Proof. intros Hm Hc Hn. refine (as_text_written ([JStr op; JStr hello; JInt 0; JInt 19] ++ more) _ Hc Hn). apply Forall_app. split; [is_simple|exact Hm]. Qed.
Example C46_parseArray_case :
  exists out h, c_run the_op low (as_text [JStr n_parseArray; JStr hello; JInt 0; JInt 19]) = Ret (Some out) /\ one_string_text out h /\ length h = 32%nat /\
    forall i it, nth_error [Str (T "Hello") 1 8; Str (T "World!") 10 18] i = Some it -> spells_range (firstn 16 (skipn (16 * i) h)) (begin_of it) (end_of it).
Proof.
  destruct (hello_asked n_parseArray [] (Forall_nil _) eq_refl eq_refl) as (Hs & r & Hg).
  exact (C46_parseArray some_jsmn (fun z => z) (fun _ => low) (fun z _ => eq_refl) low _ hello 0 19 _ _ _ [] r Hs Hg (Forall_nil _) hello_document eq_refl).
Qed.
Example C46_arrayGet_case :
  exists out h, c_run the_op low (as_text [JStr n_arrayGet; JStr hello; JInt 0; JInt 19; JInt 1]) = Ret (Some out) /\ one_string_text out h /\
    spells_range h 10 18 /\ c_gas the_op low (as_text [JStr n_arrayGet; JStr hello; JInt 0; JInt 19; JInt 1]) = Ret 160%N.
Proof.
  destruct (hello_asked n_arrayGet [JInt 1] ltac:(is_simple) eq_refl eq_refl) as (Hs & r & Hg).
  exact (C46_arrayGet some_jsmn (fun z => z) (fun _ => low) (fun z _ => eq_refl) low _ hello 0 19 _ _ _ 1%nat (Str (T "World!") 10 18) [] r Hs Hg (Forall_nil _) hello_document eq_refl eq_refl).
Qed.
Example C57_index_case : c_run the_op low (as_text [JStr n_arrayGet; JStr hello; JInt 0; JInt 19; JInt (-1)]) = UB OutOfBounds.
Proof.
  destruct (hello_asked n_arrayGet [JInt (-1)] ltac:(is_simple) eq_refl eq_refl) as (Hs & r & Hg).
  refine (C57_index_refuted some_jsmn (fun z => z) (fun _ => low) (fun z _ => eq_refl) low _ hello 0 19 _ _ _ (-1)%Z [] r Hs Hg (Forall_nil _) hello_document eq_refl _ _); [split; discriminate|now left].
Qed.
Example C48_objectGet_case :
  let buf := as_text [JStr n_objectGet; JStr thing; JInt 0; JInt 30; JStr (T "a")] in
  exists out h, c_run the_op low buf = Ret (Some out) /\ one_string_text out h /\ spells_range h 25 29 /\ c_gas the_op low buf = Ret 160%N.
Proof.
  destruct (as_text_written [JStr n_objectGet; JStr thing; JInt 0; JInt 30; JStr (T "a")] ltac:(is_simple) eq_refl eq_refl) as (Hs & r & Hg).
  exact (C48_objectGet some_jsmn (fun z => z) (fun _ => low) (fun z _ => eq_refl) low _ thing 0 30 _ _ _ (T "a") [] r Hs Hg (Forall_nil _) thing_document eq_refl).
Qed.

(** command lines *)
Definition reverse_line : list bytes := [T "eni_run"; T "lib.so"; T "reverse"; as_text greeting].
Lemma three lib op params : is_option lib = false -> is_option op = false -> is_option params = false -> positionals [lib; op; params] [lib; op; params].
Proof.
  intros H1 H2 H3. pose proof (P_without [lib; op; params]) as P. unfold non_options in P. cbn [filter] in P. rewrite H1, H2, H3 in P. apply P.
  intros [->|[->|[->|[]]]]; discriminate.
Qed.
Lemma short_args (l : list bytes) : forallb (fun a => (N.of_nat (length a) <? 2^31)%N) l = true -> forall a, In a l -> (N.of_nat (length a) < 2^31)%N.
Proof. intros H a Ha. rewrite forallb_forall in H. now apply N.ltb_lt, H. Qed.
Lemma lib1_distinct : NoDup (map fst lib1).
Proof. constructor; [intros [H|[]]; discriminate|]. constructor; [intros []|constructor]. Qed.
Example C81_reverse_case :
  exists t, main_run true (one_library low (T "lib.so") lib1) reverse_line = Ret (0%Z, t ++ [x0a]) /\ gval documented t (AArr [AStr [x0a; x42; x61]]) [].
Proof.
  destruct greeting_written as (Hs & r & Hg).
  refine (C81_reverse true low (T "lib.so") lib1 reverse_line _ _ _ r (short_args (tl reverse_line) eq_refl) lib1_distinct _ (three (T "lib.so") (T "reverse") (as_text greeting) eq_refl eq_refl eq_refl) Hs Hg). right. now left.
Qed.
Example C81_rsa_case :
  exists t h, main_run true (one_library low (T "rsa.so") [(T "enc", encrypt_op textbook); (T "dec", decrypt_op textbook)]) [T "eni_run"; T "rsa.so"; T "enc"; as_text to_encrypt] = Ret (0%Z, t ++ [x0a]) /\
    gval documented t (AArr [AStr h]) [] /\ hex_text h [x01; xf9].
Proof.
  destruct to_encrypt_written as (Hs & r & Hg).
  destruct (C81_rsa true textbook low low (T "rsa.so") [(T "enc", encrypt_op textbook); (T "dec", decrypt_op textbook)] [T "eni_run"; T "rsa.so"; T "enc"; as_text to_encrypt] (T "enc") (T "dec") (as_text to_encrypt)
    (T "PUB") [x0a] [] r tt [x01; xf9] (short_args [T "rsa.so"; T "enc"; as_text to_encrypt] eq_refl)) as (t & h & H1 & H2 & H3 & _); try (eexists _, _; eauto); auto.
  - constructor; [intros [H|[]]; discriminate|]. constructor; [intros []|constructor].
  - now left.
  - right. now left.
  - exact (three (T "rsa.so") (T "enc") (as_text to_encrypt) eq_refl eq_refl eq_refl).
Qed.
(** a text that is not JSON *)
Definition cut_off : bytes := T "[" ++ [x22] ++ T "abc".
Lemma cut_off_bad : bad_val (readable low) cut_off "unterminated string"%string.
Proof.
  refine (B_array _ [] ([x22] ++ T "abc") _ (Forall_nil _) _ _).
  - intros [|c w'] r Hw E; [discriminate|]. inversion Hw as [|? ? Hc]; subst. injection E as <- _. cbn in Hc. intuition discriminate.
  - apply BE_value. apply (B_string _ [] (T "abc")); [constructor|]. vm_compute. repeat (apply BC_after_plain; [discriminate|discriminate|]). apply BC_end.
Qed.
Example C87_message_case :
  main_run true (one_library low (T "lib.so") lib1) [T "eni_run"; T "lib.so"; T "reverse"; cut_off] = Exit 87 /\
  run_stderr low (T "lib.so") lib1 [T "eni_run"; T "lib.so"; T "reverse"; cut_off] = Ret (T "unterminated string").
Proof.
  refine (proj1 (C87_message true low (T "lib.so") lib1 [T "eni_run"; T "lib.so"; T "reverse"; cut_off] (T "reverse") reverse_op cut_off _ (short_args [T "lib.so"; T "reverse"; cut_off] eq_refl) lib1_distinct _ (three (T "lib.so") (T "reverse") cut_off eq_refl eq_refl eq_refl) _ eq_refl cut_off_bad)); [right; now left|].
  intros H. vm_compute in H. intuition discriminate.
Qed.
(** two arguments are not three *)
Lemma not_three l lib op params : ~ In double_dash l -> length (non_options l) <> 3 -> ~ positionals l [lib; op; params].
Proof.
  intros Hd Hn H. inversion H as [args H1 E1 E2|pre post H1 E1 E2]; subst; [rewrite E2 in Hn; now apply Hn|].
  apply Hd. apply in_or_app. right. now left.
Qed.
Example C87_usage_case :
  main_run true (one_library low (T "lib.so") lib1) [T "eni_run"; T "lib.so"; T "reverse"; T "-x"] = Ret (1%Z, []) /\
  exists more, run_stderr low (T "lib.so") lib1 [T "eni_run"; T "lib.so"; T "reverse"; T "-x"] =
    Ret (T "NAME" ++ [x0a; x09] ++ T "eni_run - run the ENI operation and print the result in JSON format" ++ [x0a; x0a] ++
         T "SYNOPSIS" ++ [x0a; x09] ++ T "eni_run <LIBPATH> <OP> <JSON>" ++ x0a :: more).
Proof.
  refine (proj1 (C87_usage true low (T "lib.so") lib1 [T "eni_run"; T "lib.so"; T "reverse"; T "-x"] (short_args [T "lib.so"; T "reverse"; T "-x"] eq_refl) _)). intros lib op params. apply not_three; [|discriminate].
  intros H. vm_compute in H. intuition discriminate.
Qed.

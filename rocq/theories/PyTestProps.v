(** Property C108: the range assertions of the JSON tests.

    [assert_range int16 ran x y] and [assert_ranges int16 ran expected]: the assertion passes when the run [ran] of eni_run ends so;
    [int16] is Python's int(b, 16), of which only the value of eight hexadecimal digits is used.  The document is ASCII. *)
From Coq Require Import String.
From Verif Require Import Base JsonSpec JsonModel JsonDenotes JsonStdSpec PyClientModel EniModel CliSpec CliModel JsonExSpec JsonExModel PyTestModel PyTestProof.
From Verif Require JsonExProps.
From Coq Require Import List NArith ZArith Bool Lia.
From Coq.Init Require Import Byte.
From Coq.Strings Require Import Byte.
Import ListNotations.
Local Open Scope list_scope.

Definition T (s : string) : bytes := list_byte_of_string s.
Definition low : layout := mkL 1000 10 20.
(** a word as a Python string *)
Definition word (s : string) : list N := map bval (T s).

(** arrayGet: the test passes exactly for the range of that element. *)
Theorem C108_arrayGet :
  forall int16, (forall h n, length h = 8%nat -> hex_number h = Some n -> int16 (map bval h) = Some (Z.of_N n)) ->
  forall jsmn to_int inner, (forall z, is_int z -> to_int z = z) ->
  forall repr strict lay path name ops,
    (N.of_nat (length path) < 2^31)%N -> is_option path = false -> (N.of_nat (length name) < 2^31)%N -> is_option name = false ->
    NoDup (map fst ops) -> In (name, json_op jsmn to_int inner) ops ->
  forall doc b e l lb le i it,
    Forall ascii doc -> document (map byte_of_N doc) b e (Arr l lb le) -> jsmn_answers jsmn (map byte_of_N doc) b e (Arr l lb le) -> nth_error l i = Some it ->
    let input := VArr [VStr (word "arrayGet"); VStr doc; VInt b; VInt e; VInt (Z.of_nat i)] in
    (N.of_nat (length (dumps repr input)) < 2^28)%N ->
    forall x y, assert_range int16 (main_run strict (one_library lay path ops) (command_line repr (T "eni_run") path name input)) x y <->
                x = begin_of it /\ y = end_of it.
Proof. exact ask_array_get. Qed.
Print Assumptions C108_arrayGet.

(** objectGet: exactly for the range of the last member of that name, and for (0, 0) where there is none. *)
Theorem C108_objectGet :
  forall int16, (forall h n, length h = 8%nat -> hex_number h = Some n -> int16 (map bval h) = Some (Z.of_N n)) ->
  forall jsmn to_int inner, (forall z, is_int z -> to_int z = z) ->
  forall repr strict lay path name ops,
    (N.of_nat (length path) < 2^31)%N -> is_option path = false -> (N.of_nat (length name) < 2^31)%N -> is_option name = false ->
    NoDup (map fst ops) -> In (name, json_op jsmn to_int inner) ops ->
  forall doc b e ms ob oe k,
    Forall ascii doc -> Forall ascii k -> document (map byte_of_N doc) b e (Obj ms ob oe) -> jsmn_answers jsmn (map byte_of_N doc) b e (Obj ms ob oe) ->
    let input := VArr [VStr (word "objectGet"); VStr doc; VInt b; VInt e; VStr k] in
    (N.of_nat (length (dumps repr input)) < 2^28)%N ->
    forall x y, assert_range int16 (main_run strict (one_library lay path ops) (command_line repr (T "eni_run") path name input)) x y <->
                match last_member (map byte_of_N k) ms with
                | Some it => x = begin_of it /\ y = end_of it
                | None => x = 0%Z /\ y = 0%Z
                end.
Proof. exact ask_object_get. Qed.
Print Assumptions C108_objectGet.

(** parseArray: the test passes exactly when what it expects begins the list of all ranges; further elements go unnoticed. *)
Theorem C108_parseArray :
  forall int16, (forall h n, length h = 8%nat -> hex_number h = Some n -> int16 (map bval h) = Some (Z.of_N n)) ->
  forall jsmn to_int inner, (forall z, is_int z -> to_int z = z) ->
  forall repr strict lay path name ops,
    (N.of_nat (length path) < 2^31)%N -> is_option path = false -> (N.of_nat (length name) < 2^31)%N -> is_option name = false ->
    NoDup (map fst ops) -> In (name, json_op jsmn to_int inner) ops ->
  forall doc b e l lb le,
    Forall ascii doc -> document (map byte_of_N doc) b e (Arr l lb le) -> jsmn_answers jsmn (map byte_of_N doc) b e (Arr l lb le) ->
    let input := VArr [VStr (word "parseArray"); VStr doc; VInt b; VInt e] in
    (N.of_nat (length (dumps repr input)) < 2^28)%N ->
    forall expected, assert_ranges int16 (main_run strict (one_library lay path ops) (command_line repr (T "eni_run") path name input)) expected <->
                     exists rest, flat_map (fun it => [begin_of it; end_of it]) l = expected ++ rest.
Proof. exact ask_parse_array. Qed.
Print Assumptions C108_parseArray.

(** parseString: the test that expects what Python reads from the literal passes exactly if that is ASCII, and then expects the
    only thing it can pass with ([s] is the literal without its opening quotation mark, [cs] what it means). *)
Theorem C108_parseString :
  forall jsmn to_int inner, (forall z, is_int z -> to_int z = z) ->
  forall repr strict lay path ops name pre s post cs,
    (N.of_nat (length path) < 2^31)%N -> is_option path = false -> (N.of_nat (length name) < 2^31)%N -> is_option name = false ->
    NoDup (map fst ops) -> In (name, json_op jsmn to_int inner) ops ->
    Forall (fun c => 0 < c < 128)%N (pre ++ 34%N :: s) -> Forall ascii post -> rchars any_code (map byte_of_N s) cs [] ->
    let input := VArr [VStr (word "parseString"); VStr (pre ++ (34%N :: s) ++ post);
                       VInt (Z.of_nat (length pre)); VInt (Z.of_nat (length pre + length (34%N :: s)))] in
    (N.of_nat (length (dumps repr input)) < 2^28)%N ->
    let ran := main_run strict (one_library lay path ops) (command_line repr (T "eni_run") path name input) in
    (assert_returns ran (VArr [VStr cs]) <-> Forall ascii cs) /\
    (Forall ascii cs -> forall output, assert_returns ran output -> output = VArr [VStr cs]).
Proof. exact ask_parse_string. Qed.
Print Assumptions C108_parseString.

(** what is used of int(b, 16) *)
Definition some_int16 (b : list N) : option Z := option_map Z.of_N (hex_number (map byte_of_N b)).
Lemma some_int16_ok h n : length h = 8%nat -> hex_number h = Some n -> some_int16 (map bval h) = Some (Z.of_N n).
Proof. intros _ H. unfold some_int16. rewrite PyClientProof2.codes_bytes. now rewrite H. Qed.

(** [hello] is an array of two strings: a test that expects the first alone passes *)
Example C108_example :
  let doc := map bval JsonExProps.hello in
  let ops := [(T "json", json_op JsonExProps.some_jsmn (fun z => z) (fun _ => low))] in
  let run v := main_run true (one_library low (T "lib.so") ops) (command_line (fun _ _ => []) (T "eni_run") (T "lib.so") (T "json") v) in
  Forall ascii doc /\ document (map byte_of_N doc) 0 19 JsonExProps.hello_item /\ jsmn_answers JsonExProps.some_jsmn (map byte_of_N doc) 0 19 JsonExProps.hello_item /\
  (forall x y, assert_range some_int16 (run (VArr [VStr (word "arrayGet"); VStr doc; VInt 0; VInt 19; VInt 1])) x y <-> x = 10%Z /\ y = 18%Z) /\
  assert_ranges some_int16 (run (VArr [VStr (word "parseArray"); VStr doc; VInt 0; VInt 19])) [1; 8; 10; 18]%Z /\
  assert_ranges some_int16 (run (VArr [VStr (word "parseArray"); VStr doc; VInt 0; VInt 19])) [1; 8]%Z /\
  ~ assert_ranges some_int16 (run (VArr [VStr (word "parseArray"); VStr doc; VInt 0; VInt 19])) [1; 8; 10; 18; 20]%Z.
Proof.
  assert (Hd : map byte_of_N (map bval JsonExProps.hello) = JsonExProps.hello) by (vm_compute; reflexivity).
  assert (HD : document (map byte_of_N (map bval JsonExProps.hello)) 0 19 JsonExProps.hello_item) by (rewrite Hd; exact JsonExProps.hello_document).
  assert (HJ : jsmn_answers JsonExProps.some_jsmn (map byte_of_N (map bval JsonExProps.hello)) 0 19 JsonExProps.hello_item) by (vm_compute; reflexivity).
  assert (HA : Forall ascii (map bval JsonExProps.hello)) by (vm_compute; repeat constructor).
  intros doc ops run. split; [exact HA|]. split; [exact HD|]. split; [exact HJ|].
  assert (HN : NoDup (map fst ops)) by (repeat constructor; auto).
  assert (P : forall expected, assert_ranges some_int16 (run (VArr [VStr (word "parseArray"); VStr doc; VInt 0; VInt 19])) expected <-> exists rest, [1; 8; 10; 18]%Z = expected ++ rest).
  { intros expected. apply (C108_parseArray some_int16 some_int16_ok JsonExProps.some_jsmn (fun z => z) (fun _ => low) (fun _ _ => eq_refl) (fun _ _ => []) true low (T "lib.so") (T "json") ops eq_refl eq_refl eq_refl eq_refl HN (or_introl eq_refl) doc 0 19 _ _ _ HA HD HJ). vm_compute. reflexivity. }
  split; [|split; [|split]].
  - intros x y. apply (C108_arrayGet some_int16 some_int16_ok JsonExProps.some_jsmn (fun z => z) (fun _ => low) (fun _ _ => eq_refl) (fun _ _ => []) true low (T "lib.so") (T "json") ops eq_refl eq_refl eq_refl eq_refl HN (or_introl eq_refl) doc 0 19 _ _ _ 1 _ HA HD HJ eq_refl). vm_compute. reflexivity.
  - apply P. now exists [].
  - apply P. now exists [10; 18]%Z.
  - rewrite P. intros (rest & E). discriminate E.
Qed.

(** two question marks and then a literal: the word Hi is returned, the letter e with an accent is not *)
Example C108_example_string :
  let ops := [(T "json", json_op JsonExProps.some_jsmn (fun z => z) (fun _ => low))] in
  let run s n := main_run true (one_library low (T "lib.so") ops) (command_line (fun _ _ => []) (T "eni_run") (T "lib.so") (T "json")
                   (VArr [VStr (word "parseString"); VStr (word "??" ++ (34%N :: s) ++ word "!"); VInt 2; VInt n])) in
  assert_returns (run (word "Hi" ++ [34%N]) 6%Z) (VArr [VStr (word "Hi")]) /\
  ~ assert_returns (run (word "\u00e9" ++ [34%N]) 10%Z) (VArr [VStr [233%N]]).
Proof.
  intros ops run. assert (HN : NoDup (map fst ops)) by (repeat constructor; auto). split.
  - refine (proj2 (proj1 (C108_parseString JsonExProps.some_jsmn (fun z => z) (fun _ => low) (fun _ _ => eq_refl) (fun _ _ => []) true low (T "lib.so") ops (T "json") (word "??") (word "Hi" ++ [34%N]) (word "!") (word "Hi") eq_refl eq_refl eq_refl eq_refl HN (or_introl eq_refl) _ _ _ _)) _).
    + vm_compute. repeat constructor.
    + vm_compute. repeat constructor.
    + change (map byte_of_N (word "Hi" ++ [34%N])) with [x48; x69; x22]. change (word "Hi") with [72; 105]%N.
      assert (Raw : forall c t cs r, (32 <= c < 128)%N -> c <> 34%N -> c <> 92%N -> rchars any_code t cs r -> rchars any_code (utf8 c ++ t) (c :: cs) r) by (intros; apply R_raw; auto; unfold scalar; lia).
      apply (Raw 72%N [x69; x22]); [lia|discriminate|discriminate|]. apply (Raw 105%N [x22]); [lia|discriminate|discriminate|]. constructor.
    + vm_compute. reflexivity.
    + vm_compute. repeat constructor.
  - intros A. refine (_ (proj1 (proj1 (C108_parseString JsonExProps.some_jsmn (fun z => z) (fun _ => low) (fun _ _ => eq_refl) (fun _ _ => []) true low (T "lib.so") ops (T "json") (word "??") (word "\u00e9" ++ [34%N]) (word "!") [233%N] eq_refl eq_refl eq_refl eq_refl HN (or_introl eq_refl) _ _ _ _)) A)).
    + intros H. inversion H as [|x l H1 H2]. vm_compute in H1. discriminate H1.
    + vm_compute. repeat constructor.
    + vm_compute. repeat constructor.
    + change (map byte_of_N (word "\u00e9" ++ [34%N])) with (x5c :: x75 :: [x30; x30; x65; x39] ++ [x22]). apply R_code; [exact (Quad x30 x30 x65 x39 0 0 14 9 eq_refl eq_refl eq_refl eq_refl)|left; reflexivity|exact I|constructor].
    + vm_compute. reflexivity.
Qed.

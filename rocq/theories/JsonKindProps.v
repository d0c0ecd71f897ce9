(** Property C109: the JSON example and documents of another kind.

    [document data b e root]: the bytes [b, e) of [data] are a text of [root]; [jsmn_answers]: jsmn gives its documented tokens.
    [parts root]: what stands directly inside, in the order of the text (JsonKindSpec.v). *)
From Coq Require Import String.
From Verif Require Import Base JsonSpec JsonModel JsonDenotes EniModel JsonExSpec JsonExModel JsonKindSpec JsonProof2 JsonKindProof.
From Verif Require JsonExProps.
From Coq Require Import List NArith ZArith Bool Lia.
From Coq.Init Require Import Byte.
From Coq.Strings Require Import Byte.
Import ListNotations.

Definition T (s : string) : bytes := list_byte_of_string s.
Definition q : bytes := [x22].
Definition low : layout := mkL 1000 10 20.

(** parseArray answers every document: an object with the ranges of its keys and values, a string or number with none. *)
Theorem C109_parseArray_refuted :
  forall jsmn to_int inner, (forall z, is_int z -> to_int z = z) ->
  forall lay buf data b e root more r, (N.of_nat (length (cstr buf)) < 2^28)%N ->
    gval (readable lay) (cstr buf) (AArr (AStr n_parseArray :: AStr data :: AInt b :: AInt e :: more)) r -> Forall short_keys more ->
    document data b e root -> jsmn_answers jsmn data b e root ->
    exists out h, c_run (json_op jsmn to_int inner) lay buf = Ret (Some out) /\ one_string_text out h /\ length h = 16 * length (parts root) /\
      forall i it, nth_error (parts root) i = Some it -> spells_range (firstn 16 (skipn (16 * i) h)) (begin_of it) (end_of it).
Proof. exact call_kind_array. Qed.
Print Assumptions C109_parseArray_refuted.

(** arrayGet counts keys and values, and reads outside the vector of tokens for every index into a string or number. *)
Theorem C109_arrayGet_refuted :
  forall jsmn to_int inner, (forall z, is_int z -> to_int z = z) ->
  forall lay buf data b e root i more r, (N.of_nat (length (cstr buf)) < 2^28)%N ->
    gval (readable lay) (cstr buf) (AArr (AStr n_arrayGet :: AStr data :: AInt b :: AInt e :: AInt i :: more)) r -> Forall short_keys more ->
    document data b e root -> jsmn_answers jsmn data b e root -> is_int i ->
    (forall n it, i = Z.of_nat n -> nth_error (parts root) n = Some it ->
       exists out h, c_run (json_op jsmn to_int inner) lay buf = Ret (Some out) /\ one_string_text out h /\ spells_range h (begin_of it) (end_of it)) /\
    ((i < 0 \/ Z.of_nat (length (parts root)) <= i)%Z -> c_run (json_op jsmn to_int inner) lay buf = UB OutOfBounds).
Proof. exact call_kind_get. Qed.
Print Assumptions C109_arrayGet_refuted.

(** objectGet takes the elements of an array two by two, as keys and values: *)
Theorem C109_objectGet_array_refuted :
  forall jsmn to_int inner, (forall z, is_int z -> to_int z = z) ->
  forall lay buf data b e l lb le ps rest k more r, (N.of_nat (length (cstr buf)) < 2^28)%N ->
    gval (readable lay) (cstr buf) (AArr (AStr n_objectGet :: AStr data :: AInt b :: AInt e :: AStr k :: more)) r -> Forall short_keys more ->
    document data b e (Arr l lb le) -> jsmn_answers jsmn data b e (Arr l lb le) -> paired inner data l ps rest -> length rest <= 1 ->
    exists out h, c_run (json_op jsmn to_int inner) lay buf = Ret (Some out) /\ one_string_text out h /\
      match last_pair k ps with Some it => spells_range h (begin_of it) (end_of it) | None => h = repeat x30 16 end.
Proof. exact call_kind_pairs. Qed.
Print Assumptions C109_objectGet_array_refuted.

(** an element that is no string but read by the parser is used as a string all the same; *)
Theorem C109_objectGet_confused_refuted :
  forall jsmn to_int inner, (forall z, is_int z -> to_int z = z) ->
  forall lay buf data b e l lb le ps it v rest k more r, (N.of_nat (length (cstr buf)) < 2^28)%N ->
    gval (readable lay) (cstr buf) (AArr (AStr n_objectGet :: AStr data :: AInt b :: AInt e :: AStr k :: more)) r -> Forall short_keys more ->
    document data b e (Arr l lb le) -> jsmn_answers jsmn data b e (Arr l lb le) -> paired inner data l ps (it :: v :: rest) -> confused inner data it ->
    c_run (json_op jsmn to_int inner) lay buf = UB TypeConfusion.
Proof. exact kind_object_ub. Qed.
Print Assumptions C109_objectGet_confused_refuted.

(** there is no third case *)
Theorem C109_array_cases :
  forall inner data b e l lb le, document data b e (Arr l lb le) -> (N.of_nat (length data) < 2^28)%N ->
    exists ps rest, paired inner data l ps rest /\ (length rest <= 1 \/ exists it v rest', rest = it :: v :: rest' /\ confused inner data it).
Proof. exact paired_or_confused. Qed.
Print Assumptions C109_array_cases.

(** objectGet says of strings and numbers what it says of an object without that member. *)
Theorem C109_objectGet_scalar_refuted :
  forall jsmn to_int inner, (forall z, is_int z -> to_int z = z) ->
  forall lay buf data b e root k more r, (N.of_nat (length (cstr buf)) < 2^28)%N ->
    gval (readable lay) (cstr buf) (AArr (AStr n_objectGet :: AStr data :: AInt b :: AInt e :: AStr k :: more)) r -> Forall short_keys more ->
    document data b e root -> jsmn_answers jsmn data b e root -> (exists x y, root = Prim x y) \/ (exists s x y, root = Str s x y) ->
    exists out, c_run (json_op jsmn to_int inner) lay buf = Ret (Some out) /\ one_string_text out (repeat x30 16).
Proof. exact call_kind_scalar. Qed.
Print Assumptions C109_objectGet_scalar_refuted.

(** an object asked for as an array, the array of strings Hello and World! asked for the member Hello, and a string *)
Example C109_example :
  let str := q ++ T "x" ++ q in
  let jsmn d b e := if bytes_eqb d str then Ret (1%Z, tokens_of (Str (T "x") 0 3)) else JsonExProps.some_jsmn d b e in
  let op := json_op jsmn (fun z => z) (fun _ => low) in
  document JsonExProps.thing 0 30 JsonExProps.thing_item /\ document JsonExProps.hello 0 19 JsonExProps.hello_item /\ document str 0 3 (Str (T "x") 0 3) /\
  jsmn_answers jsmn JsonExProps.thing 0 30 JsonExProps.thing_item /\ jsmn_answers jsmn JsonExProps.hello 0 19 JsonExProps.hello_item /\ jsmn_answers jsmn str 0 3 (Str (T "x") 0 3) /\
  paired (fun _ => low) JsonExProps.hello (parts JsonExProps.hello_item) [(T "Hello", Str (T "World!") 10 18)] [] /\
  c_run op low (JsonExProps.ask (T "parseArray") JsonExProps.thing (T "0,30")) =
    JsonExProps.answer (T "0000000100000004000000050000000d0000000e00000016000000190000001d") /\
  c_run op low (JsonExProps.ask (T "arrayGet") JsonExProps.thing (T "0,30,2")) = JsonExProps.answer (T "0000000e00000016") /\
  c_run op low (JsonExProps.ask (T "objectGet") JsonExProps.hello (T "0,19," ++ q ++ T "Hello" ++ q)) = JsonExProps.answer (T "0000000a00000012") /\
  c_run op low (JsonExProps.ask (T "objectGet") str (T "0,3," ++ q ++ T "k" ++ q)) = JsonExProps.answer (T "0000000000000000") /\
  c_run op low (JsonExProps.ask (T "parseArray") str (T "0,3")) = JsonExProps.answer [] /\
  c_run op low (JsonExProps.ask (T "arrayGet") str (T "0,3,0")) = UB OutOfBounds.
Proof.
  intros str jsmn op. split; [exact JsonExProps.thing_document|]. split; [exact JsonExProps.hello_document|]. split.
  { exists [], str, [], []. split; [reflexivity|]. split; [reflexivity|]. split; [reflexivity|]. split; [|constructor].
    refine (I_str 0 [] (T "x" ++ q) (T "x") [] _ _); [constructor|]. vm_compute. JsonExProps.chars. }
  split; [vm_compute; reflexivity|]. split; [vm_compute; reflexivity|]. split; [vm_compute; reflexivity|]. split; [vm_compute; repeat constructor|].
  repeat split; vm_compute; reflexivity.
Qed.

(** [1,2] has the member 2 under the empty key; with a blank before the 1 the call is undefined *)
Lemma unread s : (N.of_nat (length s) < 2^28)%N -> parse low s = Ret (false, JUndef) -> forall a r, ~ gval (readable low) s a r.
Proof. intros Hs Hp. destruct (parse_ok low s Hs) as [(a & r & v & _ & _ & _ & E)|(H & _)]; [rewrite Hp in E; discriminate E|exact H]. Qed.
Example C109_example_numbers :
  let close := T "[1,2]" in let apart := T "[ 1,2]" in
  let ci := Arr [Prim 1 2; Prim 3 4] 0 5 in let ai := Arr [Prim 2 3; Prim 4 5] 0 6 in
  let jsmn d b e := if bytes_eqb d close then Ret (3%Z, tokens_of ci) else if bytes_eqb d apart then Ret (3%Z, tokens_of ai) else JsonExProps.some_jsmn d b e in
  let op := json_op jsmn (fun z => z) (fun _ => low) in
  document close 0 5 ci /\ document apart 0 6 ai /\ jsmn_answers jsmn close 0 5 ci /\ jsmn_answers jsmn apart 0 6 ai /\
  paired (fun _ => low) close (parts ci) [([], Prim 3 4)] [] /\ confused (fun _ => low) apart (Prim 2 3) /\
  c_run op low (JsonExProps.ask (T "objectGet") close (T "0,5," ++ q ++ q)) = JsonExProps.answer (T "0000000300000004") /\
  c_run op low (JsonExProps.ask (T "objectGet") close (T "0,5," ++ q ++ T "1" ++ q)) = JsonExProps.answer (T "0000000000000000") /\
  c_run op low (JsonExProps.ask (T "objectGet") apart (T "0,6," ++ q ++ q)) = UB TypeConfusion.
Proof.
  intros close apart ci ai jsmn op. assert (H1 : primitive (T "1")) by (vm_compute; apply Pr_number; [|constructor]; left; unfold digit; vm_compute; split; discriminate).
  assert (H2 : primitive (T "2")) by (vm_compute; apply Pr_number; [|constructor]; left; unfold digit; vm_compute; split; discriminate).
  split; [|split; [|split; [|split; [|split; [|split]]]]].
  - exists [], close, [], []. split; [reflexivity|]. split; [reflexivity|]. split; [reflexivity|]. split; [|constructor].
    refine (I_arr 0 [] (tl close) _ [] _ _); [constructor|]. refine (IE_cons 1 _ _ [] (T "2]") _ _ _ _ _); [|constructor|].
    + refine (I_prim 1 [] (T "1") (T ",2]") _ H1). constructor.
    + refine (IE_last 3 _ _ [] [] _ _); [|constructor]. refine (I_prim 3 [] (T "2") (T "]") _ H2). constructor.
  - exists [], apart, [], []. split; [reflexivity|]. split; [reflexivity|]. split; [reflexivity|]. split; [|constructor].
    refine (I_arr 0 [] (tl apart) _ [] _ _); [constructor|]. refine (IE_cons 1 _ _ [] (T "2]") _ _ _ _ _); [|constructor|].
    + refine (I_prim 1 (T " ") (T "1") (T ",2]") _ H1). vm_compute. JsonExProps.blank.
    + refine (IE_last 4 _ _ [] [] _ _); [|constructor]. refine (I_prim 4 [] (T "2") (T "]") _ H2). constructor.
  - vm_compute; reflexivity.
  - vm_compute; reflexivity.
  - apply Pd_two; [|constructor]. apply K_unread; [exact (fun x => x)|]. apply unread; vm_compute; reflexivity.
  - split; [exact (fun x => x)|]. destruct (parse_ok low (around apart (Prim 2 3)) ltac:(vm_compute; reflexivity)) as [(a & r & v & Hg & _)|(_ & E)]; [exists a, r; exact Hg|vm_compute in E; discriminate E].
  - repeat split; vm_compute; reflexivity.
Qed.

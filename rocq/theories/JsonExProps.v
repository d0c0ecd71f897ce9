(** Properties C46-C48, C55, C56, C57: the JSON example.

    jsmn is not part of the repository: the theorems assume of it only [jsmn_answers], that it gave the documented
    tokens for the text at hand.  The conversion of an s256 to int gives the number itself where it is an int.
    Documents are full JSON texts ([document]); request texts are shorter than 2^28 bytes (see JsonProps.v). *)
From Coq Require Import String.
From Verif Require Import Base JsonSpec JsonModel JsonDenotes EniModel EniProps JsonExSpec JsonExModel JsonExProof3 JsonExArgs.
From Coq Require Import List NArith ZArith Bool Lia.
From Coq.Init Require Import Byte.
From Coq.Strings Require Import Byte.
Import ListNotations.
Local Open Scope list_scope.

(** ** C46: the elements of an array *)

(** parseArray gives one range of sixteen digits for each element, in order; arrayGet gives the i-th of them; the
    range is exactly the text of the element, and can be used in a further request. *)
Theorem C46_children :
  forall jsmn data b e l lb le,
    document data b e (Arr l lb le) -> jsmn_answers jsmn data b e (Arr l lb le) -> (e <= 2147483647)%Z ->
    exists h, parse_array_fn jsmn data b e = Ret h /\ length h = 16 * length l /\
      forall i it, nth_error l i = Some it ->
        array_get jsmn data b e (Z.of_nat i) = Ret (firstn 16 (skipn (16 * i) h)) /\
        spells_range (firstn 16 (skipn (16 * i) h)) (begin_of it) (end_of it) /\
        document data (begin_of it) (end_of it) it.
Proof. exact array_children. Qed.
Print Assumptions C46_children.

(** the same for the exported operation *)
Theorem C46_parseArray :
  forall jsmn to_int inner, (forall z, is_int z -> to_int z = z) ->
  forall lay buf data b e l lb le more r, (N.of_nat (length (cstr buf)) < 2^28)%N ->
    gval (readable lay) (cstr buf) (AArr (AStr n_parseArray :: AStr data :: AInt b :: AInt e :: more)) r -> Forall short_keys more ->
    document data b e (Arr l lb le) -> jsmn_answers jsmn data b e (Arr l lb le) ->
    exists out h, c_run (json_op jsmn to_int inner) lay buf = Ret (Some out) /\ one_string_text out h /\ length h = 16 * length l /\
      forall i it, nth_error l i = Some it -> spells_range (firstn 16 (skipn (16 * i) h)) (begin_of it) (end_of it).
Proof. exact call_parse_array. Qed.
Print Assumptions C46_parseArray.

Theorem C46_arrayGet :
  forall jsmn to_int inner, (forall z, is_int z -> to_int z = z) ->
  forall lay buf data b e l lb le i it more r, (N.of_nat (length (cstr buf)) < 2^28)%N ->
    gval (readable lay) (cstr buf) (AArr (AStr n_arrayGet :: AStr data :: AInt b :: AInt e :: AInt (Z.of_nat i) :: more)) r -> Forall short_keys more ->
    document data b e (Arr l lb le) -> jsmn_answers jsmn data b e (Arr l lb le) -> nth_error l i = Some it ->
    exists out h, c_run (json_op jsmn to_int inner) lay buf = Ret (Some out) /\ one_string_text out h /\
      spells_range h (begin_of it) (end_of it) /\ c_gas (json_op jsmn to_int inner) lay buf = Ret 160%N.
Proof. exact call_array_get. Qed.
Print Assumptions C46_arrayGet.

(** ** C47: the encoding of a token.  Missing: string tokens at the ends of the int range, see [C47_lossless_refuted]. *)
Theorem C47_lossless_partial :
  (forall t, is_int (fst (text_range t)) -> is_int (snd (text_range t)) ->
     exists h, encode_token t = Ret h /\ spells_range h (fst (text_range t) mod 2^32) (snd (text_range t) mod 2^32)) /\
  (forall ts ts' hs hs', Forall2 (fun t h => encode_token t = Ret h) ts hs -> Forall2 (fun t h => encode_token t = Ret h) ts' hs' ->
     concat hs = concat hs' -> map text_range ts = map text_range ts').
Proof. exact (conj encode_spells encode_lossless). Qed.
Print Assumptions C47_lossless_partial.

(** every other token has no encoding: signed overflow *)
Theorem C47_lossless_refuted :
  (forall t, ~ (is_int (fst (text_range t)) /\ is_int (snd (text_range t))) -> encode_token t = UB IntOverflow) /\
  (let t := mkTok TString 0 2147483647 in is_int (t_start t) /\ is_int (t_end t) /\ encode_token t = UB IntOverflow).
Proof. split; [exact encode_overflow|]. unfold is_int. cbn. repeat split; lia. Qed.
Print Assumptions C47_lossless_refuted.

(** ** C48: the members of an object *)

(** objectGet gives the range of the value of the last member with the key, after escapes are decoded, and sixteen
    zeros if there is none. *)
Theorem C48_member :
  forall jsmn inner data b e ms ob oe k,
    document data b e (Obj ms ob oe) -> jsmn_answers jsmn data b e (Obj ms ob oe) -> (N.of_nat (length data) < 2^28)%N ->
    exists h, object_get jsmn inner data b e k = Ret h /\
      match last_member k ms with
      | Some it => spells_range h (begin_of it) (end_of it) /\ document data (begin_of it) (end_of it) it
      | None => h = repeat x30 16
      end.
Proof. exact object_member. Qed.
Print Assumptions C48_member.

Theorem C48_objectGet :
  forall jsmn to_int inner, (forall z, is_int z -> to_int z = z) ->
  forall lay buf data b e ms ob oe k more r, (N.of_nat (length (cstr buf)) < 2^28)%N ->
    gval (readable lay) (cstr buf) (AArr (AStr n_objectGet :: AStr data :: AInt b :: AInt e :: AStr k :: more)) r -> Forall short_keys more ->
    document data b e (Obj ms ob oe) -> jsmn_answers jsmn data b e (Obj ms ob oe) ->
    exists out h, c_run (json_op jsmn to_int inner) lay buf = Ret (Some out) /\ one_string_text out h /\
      match last_member k ms with Some it => spells_range h (begin_of it) (end_of it) | None => h = repeat x30 16 end /\
      c_gas (json_op jsmn to_int inner) lay buf = Ret 160%N.
Proof. exact call_object_get. Qed.
Print Assumptions C48_objectGet.

(** ** C56: parseString.  Missing: documents with a NUL before the end of the string, see [C56_refuted]. *)
Theorem C56_parseString_partial :
  forall jsmn to_int inner, (forall z, is_int z -> to_int z = z) ->
  forall lay buf data b e cs se more r, (N.of_nat (length (cstr buf)) < 2^28)%N ->
    gval (readable lay) (cstr buf) (AArr (AStr n_parseString :: AStr data :: AInt b :: AInt e :: more)) r -> Forall short_keys more ->
    document data b e (Str cs b se) -> ~ In NUL (firstn (Z.to_nat e) data) ->
    exists out, c_run (json_op jsmn to_int inner) lay buf = Ret (Some out) /\ one_string_text out cs.
Proof. exact call_parse_string. Qed.
Print Assumptions C56_parseString_partial.

(** ** C57: bad requests *)

(** an operation that does not exist is refused *)
Theorem C57_refused_partial :
  forall jsmn to_int inner, (forall z, is_int z -> to_int z = z) ->
  forall lay buf op data b e more r, (N.of_nat (length (cstr buf)) < 2^28)%N ->
    gval (readable lay) (cstr buf) (AArr (AStr op :: AStr data :: AInt b :: AInt e :: more)) r -> Forall short_keys more ->
    is_int b -> is_int e -> ~ In op [T "parseString"; T "parseArray"; T "arrayGet"; T "objectGet"] ->
    c_run (json_op jsmn to_int inner) lay buf = Ret None /\ c_gas (json_op jsmn to_int inner) lay buf = Ret 1500%N.
Proof. exact unknown_op. Qed.
Print Assumptions C57_refused_partial.

(** arrayGet outside the array reads outside the vector of tokens *)
Theorem C57_index_refuted :
  forall jsmn to_int inner, (forall z, is_int z -> to_int z = z) ->
  forall lay buf data b e l lb le i more r, (N.of_nat (length (cstr buf)) < 2^28)%N ->
    gval (readable lay) (cstr buf) (AArr (AStr n_arrayGet :: AStr data :: AInt b :: AInt e :: AInt i :: more)) r -> Forall short_keys more ->
    document data b e (Arr l lb le) -> jsmn_answers jsmn data b e (Arr l lb le) -> is_int i -> (i < 0 \/ Z.of_nat (length l) <= i)%Z ->
    c_run (json_op jsmn to_int inner) lay buf = UB OutOfBounds.
Proof. exact bad_index. Qed.
Print Assumptions C57_index_refuted.

(** jsmn's error codes are not looked at *)
Theorem C57_document_refuted :
  forall jsmn to_int inner, (forall z, is_int z -> to_int z = z) ->
  forall lay buf data b e op more r n ts, (N.of_nat (length (cstr buf)) < 2^28)%N ->
    gval (readable lay) (cstr buf) (AArr (AStr op :: AStr data :: AInt b :: AInt e :: more)) r -> Forall short_keys more ->
    is_int b -> is_int e -> jsmn data b e = Ret (n, ts) -> (n <= 0)%Z -> op = n_parseArray ->
    c_run (json_op jsmn to_int inner) lay buf = if (n =? 0)%Z then UB OutOfBounds else Throw StdLengthError.
Proof. exact bad_document. Qed.
Print Assumptions C57_document_refuted.

(** nor is the result of jsmn's second call: objectGet with tokens that were counted but not written takes the text
    around position 0 for a key *)
Theorem C57_unfilled_refuted :
  forall jsmn to_int inner, (forall z, is_int z -> to_int z = z) ->
  forall lay buf data b e k more r n, (N.of_nat (length (cstr buf)) < 2^28)%N ->
    gval (readable lay) (cstr buf) (AArr (AStr n_objectGet :: AStr data :: AInt b :: AInt e :: AStr k :: more)) r -> Forall short_keys more ->
    is_int b -> is_int e -> jsmn data b e = Ret (n, []) -> (3 <= n)%Z ->
    c_run (json_op jsmn to_int inner) lay buf = UB OutOfBounds.
Proof. exact unfilled. Qed.
Print Assumptions C57_unfilled_refuted.

(** in general: the first key is copied with one character on either side, wherever jsmn put it *)
Theorem C57_key_refuted :
  forall jsmn to_int inner, (forall z, is_int z -> to_int z = z) ->
  forall lay buf data b e k more r t0 t1 t2 ts, (N.of_nat (length (cstr buf)) < 2^28)%N ->
    gval (readable lay) (cstr buf) (AArr (AStr n_objectGet :: AStr data :: AInt b :: AInt e :: AStr k :: more)) r -> Forall short_keys more ->
    is_int b -> is_int e -> jsmn data b e = Ret (Z.of_nat (length (t0 :: t1 :: t2 :: ts)), t0 :: t1 :: t2 :: ts) ->
    (t_start t0 <= t_start t1 <= t_end t0)%Z -> (t_end t1 <= t_start t2 <= t_end t0)%Z ->
    is_int (t_start t1 - 1) -> is_int (t_end t1 + 1) ->
    ~ (0 <= t_start t1 - 1 <= t_end t1 + 1 /\ t_end t1 <= Z.of_nat (length data))%Z ->
    c_run (json_op jsmn to_int inner) lay buf = UB OutOfBounds.
Proof. exact bad_key. Qed.
Print Assumptions C57_key_refuted.

(** parseString outside the text throws through the C interface; parseString of anything but a string uses it as a string *)
Theorem C57_offset_refuted :
  forall jsmn to_int inner, (forall z, is_int z -> to_int z = z) ->
  forall lay buf data b e more r, (N.of_nat (length (cstr buf)) < 2^28)%N ->
    gval (readable lay) (cstr buf) (AArr (AStr n_parseString :: AStr data :: AInt b :: AInt e :: more)) r -> Forall short_keys more ->
    is_int b -> is_int e -> (b < 0 \/ Z.of_nat (length data) < b)%Z ->
    c_run (json_op jsmn to_int inner) lay buf = Throw StdOutOfRange.
Proof. exact bad_offset. Qed.
Print Assumptions C57_offset_refuted.

Theorem C57_type_refuted :
  forall jsmn to_int inner, (forall z, is_int z -> to_int z = z) ->
  forall lay buf data b e more r a r', (N.of_nat (length (cstr buf)) < 2^28)%N ->
    gval (readable lay) (cstr buf) (AArr (AStr n_parseString :: AStr data :: AInt b :: AInt e :: more)) r -> Forall short_keys more ->
    is_int b -> is_int e -> (0 <= b <= len (cstr data))%Z ->
    gval (readable (inner (firstn (Z.to_nat e) (skipn (Z.to_nat b) (cstr data))))) (firstn (Z.to_nat e) (skipn (Z.to_nat b) (cstr data))) a r' ->
    (0 <= e)%Z -> (forall s, a <> AStr s) ->
    c_run (json_op jsmn to_int inner) lay buf = UB TypeConfusion.
Proof. exact not_a_string. Qed.
Print Assumptions C57_type_refuted.

(** ** Concrete cases *)

(** the array of tests t0008, t0009: two strings *)
Definition hello : bytes := T "[" ++ q ++ T "Hello" ++ q ++ T ", " ++ q ++ T "World!" ++ q ++ T "]".
Definition hello_item : item := Arr [Str (T "Hello") 1 8; Str (T "World!") 10 18] 0 19.
(** an object with nested values, a repeated key and an escape in a key *)
Definition thing : bytes := T "{" ++ q ++ T "a" ++ q ++ T ":[-1, {}]," ++ q ++ T "\u0061" ++ q ++ T " : null}".
Definition thing_item : item :=
  Obj [(T "a", (1, 4)%Z, Arr [Prim 6 8; Obj [] 10 12] 5 13); (T "a", (14, 22)%Z, Prim 25 29)] 0 30.

Ltac digit_of c := let v := eval vm_compute in (match hex_value c with Some n => n | None => 0%N end) in exact v.
Ltac chars := repeat first
  [ apply GC_end
  | match goal with |- gchars (_ :: _ :: ?a :: ?b :: ?c :: ?d :: ?s) (_ :: ?cs) ?r =>
      refine (GC_code a b c d ltac:(digit_of a) ltac:(digit_of b) ltac:(digit_of c) ltac:(digit_of d) s cs r _ _ _ _ _); [reflexivity|reflexivity|reflexivity|reflexivity|] end
  | apply GC_plain; [discriminate|discriminate|] ].
Ltac blank := repeat (constructor; [cbn; tauto|]); constructor.

Lemma hello_document : document hello 0 19 hello_item.
Proof.
  exists [], hello, [], []. split; [reflexivity|]. split; [reflexivity|]. split; [reflexivity|]. split; [|constructor].
  refine (I_arr 0 [] (tl hello) _ [] _ _); [constructor|].
  refine (IE_cons 1 _ _ [] (T " " ++ q ++ T "World!" ++ q ++ T "]") _ _ _ _ _); [|constructor|].
  - refine (I_str 1 [] (T "Hello" ++ q) (T "Hello") (T ", " ++ q ++ T "World!" ++ q ++ T "]") _ _); [constructor|]. vm_compute. chars.
  - refine (IE_last 9 _ _ [] [] _ _); [|constructor]. refine (I_str 9 (T " ") (T "World!" ++ q) (T "World!") (T "]") _ _); [vm_compute; blank|]. vm_compute. chars.
Qed.

Lemma thing_document : document thing 0 30 thing_item.
Proof.
  exists [], thing, [], []. split; [reflexivity|]. split; [reflexivity|]. split; [reflexivity|]. split; [|constructor].
  refine (I_obj 0 [] (tl thing) _ [] _ _); [constructor|].
  refine (IM_cons 1 [] (T "a" ++ q) (T "a") [] (T "[-1, {}]," ++ q ++ T "\u0061" ++ q ++ T " : null}") _ [] (q ++ T "\u0061" ++ q ++ T " : null}") _ _ _ _ _ _ _ _).
  - constructor.
  - vm_compute. chars.
  - constructor.
  - refine (I_arr 5 [] (T "-1, {}]," ++ q ++ T "\u0061" ++ q ++ T " : null}") _ (T "," ++ q ++ T "\u0061" ++ q ++ T " : null}") _ _); [constructor|].
    refine (IE_cons 6 _ _ [] (T " {}]," ++ q ++ T "\u0061" ++ q ++ T " : null}") _ _ _ _ _); [|constructor|].
    + refine (I_prim 6 [] (T "-1") (T "," ++ T " {}]," ++ q ++ T "\u0061" ++ q ++ T " : null}") _ _); [constructor|]. vm_compute. apply Pr_number; [now right|]. constructor; [|constructor]. left. unfold digit. vm_compute. split; discriminate.
    + refine (IE_last 9 _ _ [] (T "," ++ q ++ T "\u0061" ++ q ++ T " : null}") _ _); [|constructor]. refine (I_obj0 9 (T " ") [] (T "]" ++ (T "," ++ q ++ T "\u0061" ++ q ++ T " : null}")) _ _); [vm_compute; blank|constructor].
  - constructor.
  - refine (IM_last 14 [] (T "\u0061" ++ q) (T "a") (T " ") (T " null}") _ [] [] _ _ _ _ _).
    + constructor.
    + vm_compute. chars.
    + vm_compute. blank.
    + refine (I_prim 24 (T " ") (T "null") (T "}") _ _); [vm_compute; blank|]. apply Pr_null.
    + constructor.
Qed.

(** a tokenizer that knows these documents and a part of one *)
Definition some_jsmn (data : bytes) (b e : Z) : outcome (Z * list token) :=
  if bytes_eqb data hello then Ret (3%Z, tokens_of hello_item)
  else if bytes_eqb data thing && (b =? 0)%Z then Ret (7%Z, tokens_of thing_item)
  else if bytes_eqb data thing && (b =? 5)%Z then Ret (3%Z, tokens_of (Arr [Prim 6 8; Obj [] 10 12] 5 13))
  else Ret ((-2)%Z, []).

Example C46_example :
  jsmn_answers some_jsmn hello 0 19 hello_item /\ document hello 0 19 hello_item /\
  parse_array_fn some_jsmn hello 0 19 = Ret (T "00000001000000080000000a00000012") /\
  array_get some_jsmn hello 0 19 0 = Ret (T "0000000100000008") /\
  array_get some_jsmn hello 0 19 1 = Ret (T "0000000a00000012") /\
  array_get some_jsmn hello 0 19 2 = UB OutOfBounds /\
  parse_array_fn some_jsmn thing 5 13 = Ret (T "00000006000000080000000a0000000c").
Proof.
  split; [vm_compute; reflexivity|]. split; [exact hello_document|]. repeat split; vm_compute; reflexivity.
Qed.

Example C47_example :
  encode_token (mkTok TString 1 0) = Ret (T "0000000000000001") /\
  encode_token (mkTok TObject 305419896 (-1)) = Ret (T "12345678ffffffff").
Proof. split; vm_compute; reflexivity. Qed.

(** the second member of [thing] hides the first *)
Example C48_example :
  jsmn_answers some_jsmn thing 0 30 thing_item /\ document thing 0 30 thing_item /\
  last_member (T "a") (match thing_item with Obj ms _ _ => ms | _ => [] end) = Some (Prim 25 29) /\
  object_get some_jsmn (fun _ => low) thing 0 30 (T "a") = Ret (T "000000190000001d") /\
  object_get some_jsmn (fun _ => low) thing 0 30 (T "b") = Ret (T "0000000000000000").
Proof.
  split; [vm_compute; reflexivity|]. split; [exact thing_document|]. repeat split; vm_compute; reflexivity.
Qed.

(** requests through the C interface; [ask] writes the request *)
Definition esc (s : bytes) : bytes := flat_map (fun c => if bytes_eqb [c] q then x5c :: q else if bytes_eqb [c] [x5c] then [x5c; x5c] else [c]) s.
Definition ask (op data rest : bytes) : bytes := T "[" ++ q ++ op ++ q ++ T "," ++ q ++ esc data ++ q ++ T "," ++ rest ++ T "]".
Definition answer (s : bytes) : outcome (option bytes) := Ret (Some (T "[" ++ q ++ s ++ q ++ T "]")).
Definition the_op : opclass := json_op some_jsmn (fun z => z) (fun _ => low).
Example C56_example :
  c_run the_op low (ask (T "parseString") (q ++ T "Hello World!" ++ q) (T "0,14")) = answer (T "Hello World!") /\
  c_run the_op low (ask (T "parseString") thing (T "14,22")) = answer (T "a") /\
  c_run the_op low (ask (T "arrayGet") hello (T "0,19,1")) = answer (T "0000000a00000012") /\
  c_gas the_op low (ask (T "arrayGet") hello (T "0,19,1")) = Ret 160%N /\
  c_run the_op low (ask (T "objectGet") thing (T "0,30," ++ q ++ T "a" ++ q)) = answer (T "000000190000001d").
Proof. repeat split; vm_compute; reflexivity. Qed.

(** a NUL in front of the string, written as an escape in the request: the copy of the text ends there *)
Theorem C56_refuted :
  let data := x00 :: q ++ T "x" ++ q in
  let buf := T "[" ++ q ++ T "parseString" ++ q ++ T "," ++ q ++ T "\u0000\" ++ q ++ T "x\" ++ q ++ q ++ T ",1,4]" in
  document data 1 4 (Str (T "x") 1 4) /\ parse low buf = Ret (true, JArr [JStr (T "parseString"); JStr data; JInt 1; JInt 4]) /\
  c_run the_op low buf = Throw StdOutOfRange.
Proof.
  cbv zeta. split; [|split; vm_compute; reflexivity].
  exists [x00], (q ++ T "x" ++ q), [], []. split; [reflexivity|]. split; [reflexivity|]. split; [reflexivity|]. split; [|constructor].
  refine (I_str 1 [] (T "x" ++ q) (T "x") [] _ _); [constructor|]. vm_compute. chars.
Qed.
Print Assumptions C56_refuted.

(** a tokenizer that counts three tokens and then stops at the brace, and ones with a key beyond the text and with
    a key that ends before it begins *)
Definition with_tokens (n : Z) (ts : list token) : opclass := json_op (fun _ _ _ => Ret (n, ts)) (fun z => z) (fun _ => low).
Example C57_example_keys :
  let buf := ask (T "objectGet") (T "}1 2 3") (T "0,6," ++ q ++ T "k" ++ q) in
  c_run (with_tokens 3 []) low buf = UB OutOfBounds /\
  c_run (with_tokens 3 [mkTok TObject 0 9; mkTok TString 2 7; mkTok TPrimitive 8 9]) low buf = UB OutOfBounds /\
  c_run (with_tokens 3 [mkTok TObject 0 9; mkTok TString 4 1; mkTok TPrimitive 5 6]) low buf = UB OutOfBounds.
Proof. repeat split; vm_compute; reflexivity. Qed.

Example C57_example :
  c_run the_op low (ask (T "Delete") hello (T "0,19")) = Ret None /\
  c_gas the_op low (ask (T "Delete") hello (T "0,19")) = Ret 1500%N /\
  c_run the_op low (ask (T "arrayGet") hello (T "0,19,2")) = UB OutOfBounds /\
  c_run the_op low (ask (T "arrayGet") hello (T "0,19,-1")) = UB OutOfBounds /\
  c_run the_op low (ask (T "parseArray") (T "[") (T "0,1")) = Throw StdLengthError /\
  c_run the_op low (ask (T "parseString") (T "x") (T "2,1")) = Throw StdOutOfRange /\
  c_run the_op low (ask (T "parseString") hello (T "0,19")) = UB TypeConfusion.
Proof. repeat split; vm_compute; reflexivity. Qed.

(** ** C55: missing and wrongly typed arguments — refuted for the JSON example *)

(** [wanted] are the kinds of arguments a request needs (two strings, two numbers, and for arrayGet a number, for
    objectGet a string).  Whatever comes before it is as wanted: where the next argument is missing, an exception
    leaves both C functions; where it is of another kind, it is used as if it were of the wanted one. *)
Theorem C55_json_refuted :
  forall jsmn to_int inner lay buf good rest k r, (N.of_nat (length (cstr buf)) < 2^28)%N ->
    gval (readable lay) (cstr buf) (AArr (good ++ rest)) r -> Forall short_keys (good ++ rest) ->
    Forall2 fits good (firstn (length good) (wanted (good ++ rest))) -> nth_error (wanted (good ++ rest)) (length good) = Some k ->
    (rest = [] -> c_gas (json_op jsmn to_int inner) lay buf = Throw OutOfRangeVector /\
       c_run (json_op jsmn to_int inner) lay buf = Throw OutOfRangeVector) /\
    (forall a l, rest = a :: l -> ~ fits a k ->
       c_gas (json_op jsmn to_int inner) lay buf = UB TypeConfusion /\ c_run (json_op jsmn to_int inner) lay buf = UB TypeConfusion).
Proof. exact json_bad_args. Qed.
Print Assumptions C55_json_refuted.

(** the index of arrayGet is missing, and the key of objectGet is a number; parseArray needs no fifth argument *)
Example C55_json_example :
  c_run the_op low (ask (T "arrayGet") hello (T "0,19")) = Throw OutOfRangeVector /\
  c_gas the_op low (ask (T "objectGet") hello (T "0,19,7")) = UB TypeConfusion /\
  wanted [AStr (T "arrayGet"); AStr hello; AInt 0; AInt 19] = [Text; Text; Number; Number; Number] /\
  wanted [AStr (T "objectGet"); AStr hello; AInt 0; AInt 19] = [Text; Text; Number; Number; Text] /\
  wanted [AStr (T "parseArray"); AStr hello; AInt 0; AInt 19] = [Text; Text; Number; Number].
Proof. repeat split; vm_compute; reflexivity. Qed.

(** Model of /repo/examples/eni/json/eni_json.cpp.

    jsmn is a git submodule that is not part of the repository: its jsmn_parse is a parameter.  Integers are
    C ints; the conversion of an s256 to int is a parameter as well. *)
From Verif Require Import Base JsonModel EniModel CryptoModel CliModel JsonExSpec.
From Coq Require Import List NArith ZArith Bool.
From Coq.Init Require Import Byte.
From Coq.Strings Require Import Byte.
Import ListNotations.

Section JsonExample.
  (** jsmn_parse on data from position start to end: the count returned by the first call and the contents
      of the token array after the second *)
  Variable jsmn : bytes -> Z -> Z -> outcome (Z * list token).
  (** (int) of an s256 *)
  Variable to_int : Z -> Z.
  (** addresses met by the json::Parser made for a string *)
  Variable inner : bytes -> layout.

  (** 14-18 parseString *)
  Definition parse_string_fn (raw : bytes) : outcome bytes :=
    '(ok, root) <- parse (inner raw) raw ;;
    if ok then to_string root else Ret [].

  (** a value-initialised jsmntok_t, eni_json.cpp:25, 99 *)
  Definition zero_token : token := mkTok TUndefined 0 0.

  (** 19-31 internalParse: std::vector(len) converts a negative count to a huge size *)
  Definition internal_parse (data : bytes) (start end_ : Z) : outcome (list token) :=
    '(n, ts) <- jsmn data start end_ ;;
    if (n <? 0)%Z then Throw StdLengthError
    else Ret (firstn (Z.to_nat n) (ts ++ repeat zero_token (Z.to_nat n))).

  (** 35-36 int arithmetic *)
  Definition int_add (a b : Z) : outcome Z :=
    let c := (a + b)%Z in
    if ((-2147483648 <=? c) && (c <=? 2147483647))%Z then Ret c else UB IntOverflow.
  (** %08x of an int *)
  Definition hex8 (z : Z) : bytes :=
    let n := Z.to_N (z mod 4294967296)%Z in
    map (fun i => hex_char ((n / 16 ^ i) mod 16)%N) [7; 6; 5; 4; 3; 2; 1; 0]%N.
  (** 32-39 encodeToken *)
  Definition encode_token (t : token) : outcome bytes :=
    let s := match t_type t with TString => 1%Z | _ => 0%Z end in
    b <- int_add (t_start t) (- s) ;;
    e <- int_add (t_end t) s ;;
    Ret (hex8 b ++ hex8 e).

  (** 45-54 the loop of arrayTokens *)
  Fixpoint array_scan (ts : list token) (after before : Z) : list token :=
    match ts with
    | [] => []
    | t :: ts' =>
        if (t_start t <? after)%Z then array_scan ts' after before
        else if (before <? t_start t)%Z then []
        else t :: array_scan ts' (t_end t) before
    end.
  (** 40-56 arrayTokens; tokens[0] of an empty vector is undefined *)
  Definition array_tokens (data : bytes) (start end_ : Z) : outcome (list token) :=
    ts <- internal_parse data start end_ ;;
    match ts with
    | [] => UB OutOfBounds
    | t :: ts' => Ret (array_scan ts' (t_start t) (t_end t))
    end.
  (** 57-63 parseArray *)
  Definition parse_array_fn (data : bytes) (start end_ : Z) : outcome bytes :=
    ts <- array_tokens data start end_ ;;
    hs <- sequence (map encode_token ts) ;;
    Ret (concat hs).
  (** 64-67 arrayGet; vector::operator[] has no check *)
  Definition array_get (data : bytes) (start end_ index : Z) : outcome bytes :=
    ts <- array_tokens data start end_ ;;
    if (index <? 0)%Z then UB OutOfBounds else
    match nth_error ts (Z.to_nat index) with
    | Some t => encode_token t
    | None => UB OutOfBounds
    end.

  (** 75-78 getkey: std::string(first, last); the terminating NUL may be read *)
  Definition get_key (data : bytes) (t : token) : outcome bytes :=
    b <- int_add (t_start t) (-1) ;;
    e <- int_add (t_end t) 1 ;;
    if (0 <=? b)%Z && (b <=? e)%Z && (e <=? Z.of_nat (length data) + 1)%Z
    then parse_string_fn (firstn (Z.to_nat (e - b)) (skipn (Z.to_nat b) (data ++ [NUL])))
    else UB OutOfBounds.
  (** 79-93 the loop of objectTokens; [key] is tokens[key_token], [None] for key_token == 0.  The map is a list
      of assignments, newest first. *)
  Fixpoint object_scan (data : bytes) (ts : list token) (after before : Z) (key : option token)
           (m : list (bytes * token)) : outcome (list (bytes * token)) :=
    match ts with
    | [] => Ret m
    | t :: ts' =>
        if (t_start t <? after)%Z then object_scan data ts' after before key m
        else if (before <? t_start t)%Z then Ret m
        else match key with
             | None => object_scan data ts' (t_end t) before (Some t) m
             | Some kt => k <- get_key data kt ;; object_scan data ts' (t_end t) before None ((k, t) :: m)
             end
    end.
  (** 69-95 objectTokens *)
  Definition object_tokens (data : bytes) (start end_ : Z) : outcome (list (bytes * token)) :=
    ts <- internal_parse data start end_ ;;
    match ts with
    | [] => UB OutOfBounds
    | t :: ts' => object_scan data ts' (t_start t) (t_end t) None []
    end.
  (** std::map::operator[]: a missing key is bound to a value-initialised token *)
  Definition map_get (k : bytes) (m : list (bytes * token)) : token :=
    match find (fun p => bytes_eqb (fst p) k) m with
    | Some (_, t) => t
    | None => zero_token
    end.
  (** 97-100 objectGet *)
  Definition object_get (data : bytes) (start end_ : Z) (key : bytes) : outcome bytes :=
    m <- object_tokens data start end_ ;;
    encode_token (map_get key m).

  (** Value.h:51 toInteger: no look at the type *)
  Definition to_integer (v : jvalue) : outcome Z :=
    match v with
    | JInt z => Ret z
    | _ => UB TypeConfusion
    end.
  (** eni_json.cpp:113-114, 120 *)
  Definition int_arg (args : list jvalue) (i : Z) : outcome Z := v <- arg_at args i ;; z <- to_integer v ;; Ret (to_int z).

  (** eni_json.cpp:116 std::string(const char-pointer, begin, end) is the constructor (string, position, count): the text up to
      the first NUL, from [begin] on, at most [end] characters; negative ints become huge *)
  Definition sub_string (data : bytes) (pos n : Z) : outcome bytes :=
    let s := cstr data in
    if (pos <? 0)%Z || (Z.of_nat (length s) <? pos)%Z then Throw StdOutOfRange
    else let rest := skipn (Z.to_nat pos) s in
         Ret (if (n <? 0)%Z then rest else firstn (Z.to_nat n) rest).

  (** the operation names, eni_json.cpp:115, 117, 119, 121 *)
  Definition n_parseString : bytes := [x70; x61; x72; x73; x65; x53; x74; x72; x69; x6e; x67].
  (** eni_json.cpp:117 *)
  Definition n_parseArray : bytes := [x70; x61; x72; x73; x65; x41; x72; x72; x61; x79].
  (** eni_json.cpp:119 *)
  Definition n_arrayGet : bytes := [x61; x72; x72; x61; x79; x47; x65; x74].
  (** eni_json.cpp:121 *)
  Definition n_objectGet : bytes := [x6f; x62; x6a; x65; x63; x74; x47; x65; x74].

  (** 110-127 parse; [None] for false *)
  Definition json_request (args : list jvalue) : outcome (option bytes) :=
    op <- str_arg args 0 ;;
    data <- str_arg args 1 ;;
    begin <- int_arg args 2 ;;
    end_ <- int_arg args 3 ;;
    if bytes_eqb op n_parseString then raw <- sub_string data begin end_ ;; r <- parse_string_fn raw ;; Ret (Some r)
    else if bytes_eqb op n_parseArray then r <- parse_array_fn data begin end_ ;; Ret (Some r)
    else if bytes_eqb op n_arrayGet then i <- int_arg args 4 ;; r <- array_get data begin end_ i ;; Ret (Some r)
    else if bytes_eqb op n_objectGet then k <- str_arg args 4 ;; r <- object_get data begin end_ k ;; Ret (Some r)
    else Ret None.

  (** 103-138 class JSON *)
  Definition json_op : opclass :=
    mkOp bytes []
      (fun s args => fail s (json_request args) (fun r => match r with Some t => (t, Ret true) | None => (s, Ret false) end))
      (fun s => Ret (u64 (N.of_nat (length s) * 10)))                     (* 129 gas *)
      (fun s l => (s, l ++ [JStr s], Ret true)).                          (* 131-134 run *)
End JsonExample.

(** Model of json::Value, json::Array, json::Object, json::Callbacks and json::Parser
    (/repo/include/eni/json, /repo/lib/json).

    Values are held by value (the heap behind json::Value is modelled separately, see ValueModel.v).
    An array is the sequence held by its eni::Vector (see VectorModel.v); an object is the hash table
    of StringMapModel.v.  Allocation is assumed to succeed and the C++ stack to be large enough.

    The parser's cursor is represented by the bytes from the cursor to the end of the string. *)
From Coq Require Import String.
From Verif Require Import Base HashModel HasherModel StringMapModel.
From Coq Require Import List NArith ZArith Bool.
From Coq.Init Require Import Byte.
From Coq.Strings Require Import Byte.
Import ListNotations.

(** Value.h:23-83, the type tag (Type.h:14-20) with its payload. *)
Inductive jvalue : Type :=
| JUndef
| JInt (z : Z)
| JBool (b : bool)
| JStr (s : bytes)
| JArr (l : list jvalue)
| JObj (t : table (bytes * jvalue)).

(** Value.cpp:19-40 copy constructor and 169-192 copy assignment: the content of the new value. *)
Fixpoint jcopy (v : jvalue) : jvalue :=
  match v with
  | JUndef => JUndef
  | JInt z => JInt z
  | JBool b => JBool b
  | JStr s => JStr s
  | JArr l => JArr (map jcopy l)
  | JObj t => JObj (copy_table true (fun e => (stored_key (fst e), jcopy (snd e))) t)
  end.

(** Array.cpp:12-14, Object.cpp:11-13 with StringMap.h:42 (8 buckets asked for). *)
Definition new_array : jvalue := JArr [].
(** Object.cpp:11-13 with StringMap.h:42 (8 buckets asked for) *)
Definition new_object : jvalue := JObj (sm_new 8).

(** ------------------------------------------------------------------ accessors *)

(** Value.cpp:17 [static Value g_NullValue(UNDEF)].  Type is an unscoped enum (Type.h:13-20) and Value
    has no constructor from it (Value.h:26-38): the enumerator is promoted and [Value(int)] chosen
    (Value.cpp:58-61), so this is the integer 5, the number of UNDEF. *)
Definition null_value : jvalue := JInt 5.

(** Value.cpp:198-204 operator[](const string&) const; Object's const operator[] is at(). *)
Definition value_key (v : jvalue) (k : bytes) : outcome jvalue :=
  match v with
  | JObj t => sm_at t k
  | _ => Ret null_value
  end.

(** Value.cpp:206-212 operator[](int) const; Array.h:29; Vector.tcc:172-188 at: the int is converted
    to size_t. *)
Definition value_idx (v : jvalue) (i : Z) : outcome jvalue :=
  match v with
  | JArr l =>
      let n := Z.to_N (i mod 18446744073709551616)%Z in
      if (N.of_nat (length l) <=? n)%N then Throw OutOfRangeVector
      else match nth_error l (N.to_nat n) with Some x => Ret x | None => UB OutOfBounds end
  | _ => Ret null_value
  end.

(** ------------------------------------------------------------------ integers *)

(** eni::s256 is boost's int256_t (eni_types.h:29): sign and magnitude, the magnitude on 256 bits,
    unchecked.  Construction from decimal text, digit by digit. *)
Definition mag256 (n : N) : N := (n mod 2^256)%N.
(** Callbacks.h:39 eni::s256 i(s), the digits *)
Definition s256_digits (ds : bytes) : N :=
  fold_left (fun n d => mag256 (mag256 (n * 10) + (bval d - 48)))%N ds 0%N.
(** Callbacks.h:39 eni::s256 i(s), with the sign *)
Definition s256_of_string (s : bytes) : Z :=
  match s with
  | c :: ds => if beqb c x2d then (- Z.of_N (s256_digits ds))%Z else Z.of_N (s256_digits s)
  | [] => 0%Z
  end.

(** [os << i]: canonical decimal.  Value.cpp:128 *)
Fixpoint dec_loop (fuel : nat) (n : N) (acc : bytes) : bytes :=
  match fuel with
  | O => acc
  | S f =>
      let acc := byte_of_N (48 + n mod 10) :: acc in
      if (n <? 10)%N then acc else dec_loop f (n / 10)%N acc
  end.
(** Value.cpp:128, without the sign *)
Definition dec_text (n : N) : bytes := dec_loop (S (N.size_nat n)) n [].
(** Value.cpp:128 *)
Definition int_text (z : Z) : bytes :=
  if (z <? 0)%Z then x2d :: dec_text (Z.to_N (- z)) else dec_text (Z.to_N z).

(** ------------------------------------------------------------------ printing *)

(** one digit of [%X]: Value.cpp:142 *)
Definition hex_digit (n : N) : byte := byte_of_N (if n <? 10 then 48 + n else 55 + n)%N.

(** Value.cpp:136-147, one character of a string; [char] is signed. *)
Definition print_char (c : byte) : bytes :=
  if beqb c x22 || beqb c x5c then [x5c; c]
  else if (0 <=? schar c)%Z && (schar c <? 32)%Z
  then [x5c; x75; x30; x30; hex_digit (bval c / 16); hex_digit (bval c mod 16)]   (* \u and %04X *)
  else [c].

(** Array.cpp:31-34 and Object.cpp:29-38: separators *)
Fixpoint commas (l : list bytes) : bytes :=
  match l with
  | [] => []
  | [x] => x
  | x :: l' => x ++ x2c :: commas l'
  end.

(** Apply [f] to every entry of a table, in place; used only to let [print] recurse through the
    iteration of an object.  (Not code.) *)
Definition tmap {E E' : Type} (f : E -> E') (t : table E) : table E' :=
  mkT (match tbl t with
       | None => None
       | Some bs => Some (map (fun b => mkB (bhash b)
                                 (match bslot b with
                                  | Empty => Empty | Tomb => Tomb | Full e => Full (f e) end)) bs)
       end) (nB t) (nE t) (nT t).

(** One after the other (plumbing, not code) *)
Fixpoint sequence {A} (l : list (outcome A)) : outcome (list A) :=
  match l with
  | [] => Ret []
  | x :: l' => a <- x ;; r <- sequence l' ;; Ret (a :: r)
  end.

(** Value.cpp:124-161 Value::print, Array.cpp:27-36 Array::print, Object.cpp:26-41 Object::print. *)
Fixpoint print (v : jvalue) : outcome bytes :=
  match v with
  | JUndef => Ret []
  | JInt z => Ret (int_text z)
  | JBool b => Ret (if b then [x74; x72; x75; x65] else [x66; x61; x6c; x73; x65])
  | JStr s => Ret (x22 :: flat_map print_char s ++ [x22])
  | JArr l => ts <- sequence (map print l) ;; Ret (x5b :: commas ts ++ [x5d])
  | JObj t =>
      es <- traverse (S (N.to_nat (nE t))) (tmap (fun e => (fst e, print (snd e))) t) ;;
      ts <- sequence (map (fun e => p <- snd e ;; Ret (fst e ++ x3a :: p)) es) ;;
      Ret (x7b :: x0a :: commas ts ++ [x0a; x7d])
  end.

(** ------------------------------------------------------------------ callbacks *)

(** Callbacks.h:104-105 m_Stack (top first) and m_Root. *)
Record cbs : Type := mkC { stack : list (jvalue * bytes); root : jvalue }.

(** Callbacks.h:80-93 set_parent; [pV] is passed by value, hence a copy at every call. *)
Definition set_parent (c : cbs) (v : jvalue) : outcome cbs :=
  let pV := jcopy v in
  match stack c with
  | [] => Ret (mkC [] (jcopy pV))
  | (par, key) :: st =>
      match par with
      | JObj t => t' <- sm_set t key (jcopy pV) ;; Ret (mkC ((JObj t', key) :: st) (root c))
      | JArr l => Ret (mkC ((JArr (l ++ [jcopy pV]), key) :: st) (root c))
      | _ => Ret c
      end
  end.

(** Callbacks.h:31-34 *)
Definition on_boolean (c : cbs) (b : bool) : outcome cbs := set_parent c (JBool b).
(** Callbacks.h:36-42 *)
Definition on_number (c : cbs) (s : bytes) : outcome cbs := set_parent c (JInt (s256_of_string s)).
(** Callbacks.h:44-53; back() of an empty vector is undefined *)
Definition on_string (c : cbs) (s : bytes) (isKey : bool) : outcome cbs :=
  if isKey then
    match stack c with
    | [] => UB OutOfBounds
    | (v, _) :: st => Ret (mkC ((v, s) :: st) (root c))
    end
  else set_parent c (JStr s).
(** Callbacks.h:55-59 and 67-71 *)
Definition begin_array (c : cbs) : cbs := mkC ((jcopy new_array, [] : bytes) :: stack c) (root c).
(** Callbacks.h:67-71 *)
Definition begin_object (c : cbs) : cbs := mkC ((jcopy new_object, [] : bytes) :: stack c) (root c).
(** Callbacks.h:61-65 and 73-77 *)
Definition end_container (c : cbs) : outcome cbs :=
  match stack c with
  | [] => UB OutOfBounds
  | (v, _) :: st => set_parent (mkC st (root c)) (jcopy v)
  end.

(** ------------------------------------------------------------------ scanner *)

(** Addresses that the scanner compares: m_End, and the literals [rue] and [alse].  Parser.h:263 *)
Record layout : Type := mkL { a_end : N; a_rue : N; a_alse : N }.

(** [m_It[i]]; index 0 at the end of the string is the terminating NUL.  E.g. Parser.h:233, 263 *)
Definition read (s : bytes) (i : nat) : outcome byte :=
  match nth_error s i with
  | Some c => Ret c
  | None => if Nat.eqb i (length s) then Ret NUL else UB OutOfBounds
  end.

(** [m_It += n]: Parser.h:234, 265 *)
Definition advance (s : bytes) (n : nat) : outcome bytes :=
  if Nat.leb n (length s) then Ret (skipn n s) else UB PastTheEnd.

(** Parser.h:232-238 have(char) *)
Definition have (c : byte) (s : bytes) : outcome (bool * bytes) :=
  h <- read s 0 ;;
  if beqb h c then s' <- advance s 1 ;; Ret (true, s') else Ret (false, s).

(** Parser.h:240-247 have(pred, vector) and 249-256 have(char, vector) *)
Definition have_if (p : byte -> bool) (s buf : bytes) : outcome (bool * bytes * bytes) :=
  h <- read s 0 ;;
  if p h then s' <- advance s 1 ;; Ret (true, s', buf ++ [h]) else Ret (false, s, buf).

(** Parser.h:292-294 *)
Definition is_digit (c : byte) : bool := ((48 <=? schar c) && (schar c <=? 57))%Z.
(** Parser.h:295-297 *)
Definition is_pos_digit (c : byte) : bool := ((49 <=? schar c) && (schar c <=? 57))%Z.

(** Parser.h:260-267 have(const char* ), the loop: the bound test compares the pattern's address, not the
    cursor, with m_End. *)
Fixpoint have_pat_loop (aend apat : N) (i : nat) (pat s : bytes) : outcome bool :=
  match pat with
  | [] => Ret true
  | c :: pat' =>
      if (aend <=? apat + N.of_nat i)%N then Ret false else
      h <- read s i ;;
      if beqb c h then have_pat_loop aend apat (S i) pat' s else Ret false
  end.
(** Parser.h:260-267 have(const char* ) *)
Definition have_pat (aend apat : N) (pat s : bytes) : outcome (bool * bytes) :=
  b <- have_pat_loop aend apat 0 pat s ;;
  if b then s' <- advance s (length pat) ;; Ret (true, s') else Ret (false, s).

(** The texts handed to parse_error: Parser.h:66, 72, 77, 93, 109, 139, 156, 158, 162, 207, 211. *)
Definition no_value : string := "expected value".
(** Parser.h:72 *)
Definition no_true : string := "expected 'true'".
(** Parser.h:77 *)
Definition no_false : string := "expected 'false'".
(** Parser.h:93 *)
Definition no_digits : string := "expected digits after -".
(** Parser.h:109 *)
Definition no_quote : string := "unterminated string".
(** Parser.h:139 *)
Definition no_bracket : string := "expected ']' or ','".
(** Parser.h:156 *)
Definition no_key : string := "expected key string".
(** Parser.h:158 *)
Definition no_colon : string := "expected ':'".
(** Parser.h:162 *)
Definition no_brace : string := "expected '}' or ','".
(** Parser.h:207 *)
Definition bad_escape : string := "invalid escape sequence".
(** Parser.h:211 *)
Definition bad_code : string := "invalid code number".

(** Parser.h:269-280 expect; 282-285 parse_error *)
Definition expect (c : byte) (msg : string) (s : bytes) : outcome bytes :=
  '(b, s') <- have c s ;; if b then Ret s' else Throw (ParserError msg).
(** Parser.h:276-280 expect(const char* , ...) *)
Definition expect_pat (aend apat : N) (pat : bytes) (msg : string) (s : bytes) : outcome bytes :=
  '(b, s') <- have_pat aend apat pat s ;; if b then Ret s' else Throw (ParserError msg).

(** Parser.h:170-172 skip_ws; the loop runs once per white space character. *)
Fixpoint skip_ws_loop (fuel : nat) (s : bytes) : outcome bytes :=
  match fuel with
  | O => Diverge
  | S f =>
      '(b1, s) <- have x20 s ;; if b1 then skip_ws_loop f s else
      '(b2, s) <- have x09 s ;; if b2 then skip_ws_loop f s else
      '(b3, s) <- have x0a s ;; if b3 then skip_ws_loop f s else
      '(b4, s) <- have x0d s ;; if b4 then skip_ws_loop f s else
      Ret s
  end.
(** Parser.h:170-172 skip_ws *)
Definition skip_ws (s : bytes) : outcome bytes := skip_ws_loop (S (length s)) s.

(** Parser.h:183-185 parse_digits *)
Fixpoint digits_loop (fuel : nat) (s buf : bytes) : outcome (bytes * bytes) :=
  match fuel with
  | O => Diverge
  | S f =>
      '(b, s, buf) <- have_if is_digit s buf ;;
      if b then digits_loop f s buf else Ret (s, buf)
  end.

(** Parser.h:174-180 parse_int_part *)
Definition parse_int_part (s buf : bytes) : outcome (bool * bytes * bytes) :=
  '(b, s, buf) <- have_if is_pos_digit s buf ;;
  if b then '(s, buf) <- digits_loop (S (length s)) s buf ;; Ret (true, s, buf)
  else Ret (false, s, buf).

(** Parser.h:221-223, one character of valid_code *)
Definition is_hex (c : byte) : bool :=
  (((48 <=? schar c) && (schar c <=? 57)) || ((97 <=? schar c) && (schar c <=? 102))
   || ((65 <=? schar c) && (schar c <=? 70)))%Z.
(** Parser.h:219-227, the loop of valid_code *)
Fixpoint valid_code_loop (n i : nat) (s : bytes) : outcome bool :=
  match n with
  | O => Ret true
  | S n' => c <- read s i ;; if is_hex c then valid_code_loop n' (S i) s else Ret false
  end.

(** sscanf of four hexadecimal digits: Parser.h:215 *)
Definition hex_digit_value (c : byte) : N :=
  (if bval c <=? 57 then bval c - 48 else if bval c <=? 70 then bval c - 55 else bval c - 87)%N.
(** Parser.h:212-215 *)
Definition scan_hex (ds : bytes) : N := fold_left (fun n d => n * 16 + hex_digit_value d)%N ds 0%N.

(** Parser.h:210-217 parse_codepoint; the int is returned as a char. *)
Definition parse_codepoint (s : bytes) : outcome (byte * bytes) :=
  ok <- valid_code_loop 4 0 s ;;
  if ok then s' <- advance s 4 ;; Ret (byte_of_N (scan_hex (firstn 4 s)), s')
  else Throw (ParserError bad_code).

(** Parser.h:187-209 parse_escape *)
Definition parse_escape (s : bytes) : outcome (byte * bytes) :=
  '(b, s) <- have x22 s ;; if b then Ret (x22, s) else
  '(b, s) <- have x5c s ;; if b then Ret (x5c, s) else
  '(b, s) <- have x2f s ;; if b then Ret (x2f, s) else
  '(b, s) <- have x62 s ;; if b then Ret (x08, s) else
  '(b, s) <- have x66 s ;; if b then Ret (x0c, s) else
  '(b, s) <- have x6e s ;; if b then Ret (x0a, s) else
  '(b, s) <- have x72 s ;; if b then Ret (x0d, s) else
  '(b, s) <- have x74 s ;; if b then Ret (x09, s) else
  '(b, s) <- have x75 s ;; if b then parse_codepoint s else
  Throw (ParserError bad_escape).

(** Parser.h:107-119, the loop of parse_string *)
Fixpoint string_loop (fuel : nat) (s str : bytes) : outcome (bytes * bytes) :=
  match fuel with
  | O => Diverge
  | S f =>
      '(b, s) <- have x22 s ;;
      if b then Ret (s, str) else
      if Nat.eqb (length s) 0 then Throw (ParserError no_quote) else
      '(b, s) <- have x5c s ;;
      if b then '(c, s) <- parse_escape s ;; string_loop f s (str ++ [c])
      else c <- read s 0 ;; s <- advance s 1 ;; string_loop f s (str ++ [c])
  end.

(** ------------------------------------------------------------------ parser *)

(** What the functions below give: the answer, the cursor m_It, the callbacks (plumbing, not code) *)
Definition step_result : Type := bool * bytes * cbs.

(** Parser.h:101-122 parse_string *)
Definition parse_string (isKey : bool) (s : bytes) (c : cbs) : outcome step_result :=
  s <- skip_ws s ;;
  '(b, s) <- have x22 s ;;
  if b then
    '(s, str) <- string_loop (S (length s)) s [] ;;
    c <- on_string c str isKey ;;
    Ret (true, s, c)
  else Ret (false, s, c).

(** Parser.h:69-82 parse_boolean *)
Definition parse_boolean (lay : layout) (s : bytes) (c : cbs) : outcome step_result :=
  s <- skip_ws s ;;
  '(b, s) <- have x74 s ;;
  if b then
    s <- expect_pat (a_end lay) (a_rue lay) [x72; x75; x65] no_true s ;;
    c <- on_boolean c true ;; Ret (true, s, c)
  else
  '(b, s) <- have x66 s ;;
  if b then
    s <- expect_pat (a_end lay) (a_alse lay) [x61; x6c; x73; x65] no_false s ;;
    c <- on_boolean c false ;; Ret (true, s, c)
  else Ret (false, s, c).

(** Parser.h:84-99 parse_number *)
Definition parse_number (s : bytes) (c : cbs) : outcome step_result :=
  s <- skip_ws s ;;
  '(started, s, str) <- have_if (fun h => beqb h x2d) s [] ;;
  '(zero, s, str) <- have_if (fun h => beqb h x30) s str ;;
  '(ok, s, str) <- (if zero then Ret (true, s, str) else parse_int_part s str) ;;
  if ok then c <- on_number c str ;; Ret (true, s, c)
  else if started then Throw (ParserError no_digits) else Ret (false, s, c).

Section Containers.
  Variable parse_value : bytes -> cbs -> outcome (bytes * cbs).

  (** Parser.h:135-138, the do-while loop of parse_array *)
  Fixpoint elems_loop (fuel : nat) (s : bytes) (c : cbs) : outcome (bytes * cbs) :=
    match fuel with
    | O => Diverge
    | S f =>
        '(s, c) <- parse_value s c ;;
        s <- skip_ws s ;;
        '(b, s) <- have x2c s ;;
        if b then elems_loop f s c else Ret (s, c)
    end.

  (** Parser.h:124-142 parse_array *)
  Definition parse_array (s : bytes) (c : cbs) : outcome step_result :=
    s <- skip_ws s ;;
    '(b, s) <- have x5b s ;;
    if b then
      let c := begin_array c in
      s <- skip_ws s ;;
      '(b, s) <- have x5d s ;;
      if b then c <- end_container c ;; Ret (true, s, c)
      else
        '(s, c) <- elems_loop (S (length s)) s c ;;
        s <- expect x5d no_bracket s ;;
        c <- end_container c ;; Ret (true, s, c)
    else Ret (false, s, c).

  (** Parser.h:154-161, the do-while loop of parse_object *)
  Fixpoint members_loop (fuel : nat) (s : bytes) (c : cbs) : outcome (bytes * cbs) :=
    match fuel with
    | O => Diverge
    | S f =>
        '(b, s, c) <- parse_string true s c ;;
        if b then
          s <- skip_ws s ;;
          s <- expect x3a no_colon s ;;
          '(s, c) <- parse_value s c ;;
          s <- skip_ws s ;;
          '(b, s) <- have x2c s ;;
          if b then members_loop f s c else Ret (s, c)
        else Throw (ParserError no_key)
    end.

  (** Parser.h:144-165 parse_object *)
  Definition parse_object (s : bytes) (c : cbs) : outcome step_result :=
    s <- skip_ws s ;;
    '(b, s) <- have x7b s ;;
    if b then
      let c := begin_object c in
      s <- skip_ws s ;;
      '(b, s) <- have x7d s ;;
      if b then c <- end_container c ;; Ret (true, s, c)
      else
        '(s, c) <- members_loop (S (length s)) s c ;;
        s <- expect x7d no_brace s ;;
        c <- end_container c ;; Ret (true, s, c)
    else Ret (false, s, c).
End Containers.

(** Parser.h:60-67 parse_value; [fuel] bounds the nesting depth. *)
Fixpoint parse_value (lay : layout) (fuel : nat) (s : bytes) (c : cbs) : outcome (bytes * cbs) :=
  match fuel with
  | O => Diverge
  | S f =>
      '(b, s, c) <- parse_object (parse_value lay f) s c ;; if b then Ret (s, c) else
      '(b, s, c) <- parse_array (parse_value lay f) s c ;; if b then Ret (s, c) else
      '(b, s, c) <- parse_string false s c ;; if b then Ret (s, c) else
      '(b, s, c) <- parse_boolean lay s c ;; if b then Ret (s, c) else
      '(b, s, c) <- parse_number s c ;; if b then Ret (s, c) else
      Throw (ParserError no_value)
  end.

(** Parser.h:44-54 (constructor), 56-58 (operator bool), 166-168 (getRoot): the verdict and the root.
    When the parser throws, m_Root is what it was: only set_parent with an empty stack writes it, and
    nothing is parsed after that. *)
Definition parse (lay : layout) (s : bytes) : outcome (bool * jvalue) :=
  match parse_value lay (S (length s)) s (mkC [] JUndef) with
  | Ret (_, c) => Ret (true, root c)
  | Throw (ParserError _) => Ret (false, JUndef)
  | Throw e => Throw e
  | UB u => UB u
  | Diverge => Diverge
  | Exit n => Exit n
  end.

(** What the constructor has written on standard error when it returns: nothing, or the text of the one call of parse_error
    (Parser.h:282-285), which throws. *)
Definition parse_stderr (lay : layout) (s : bytes) : outcome string :=
  match parse_value lay (S (List.length s)) s (mkC [] JUndef) with
  | Ret _ => Ret EmptyString
  | Throw (ParserError msg) => Ret msg
  | Throw e => Throw e
  | UB u => UB u
  | Diverge => Diverge
  | Exit n => Exit n
  end.

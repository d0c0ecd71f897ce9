(** The parser of JsonModel.v, counting how often it reads a character of the text: every *m_It and m_It[i] of
    /repo/include/eni/json/Parser.h.  The functions are those of JsonModel.v with the count beside the outcome, also
    beside an exception; JsonReadProof.v proves that without the counts they are the same.  What the callbacks do with the
    strings, numbers and values is not counted. *)
From Coq Require Import String.
From Verif Require Import Base JsonModel.
From Coq Require Import List NArith ZArith Bool.
From Coq.Init Require Import Byte.
From Coq.Strings Require Import Byte.
Import ListNotations.
Local Open Scope list_scope.

(** the reads made, and how it went  (plumbing, not code) *)
Definition counted (A : Type) : Type := (nat * outcome A)%type.
(** No read (plumbing, not code) *)
Definition free {A} (r : outcome A) : counted A := (0, r).
(** One after the other; the reads add up (plumbing, not code) *)
Definition cbind {A B} (m : counted A) (f : A -> counted B) : counted B :=
  match snd m with
  | Ret a => let r := f a in (fst m + fst r, snd r)
  | Throw e => (fst m, Throw e)
  | UB u => (fst m, UB u)
  | Diverge => (fst m, Diverge)
  | Exit n => (fst m, Exit n)
  end.
Notation "x <~ m ;; f" := (cbind m (fun x => f)) (at level 61, m at next level, right associativity).
Notation "' p <~ m ;; f" := (cbind m (fun p => f)) (at level 61, p pattern, m at next level, right associativity).

(** one read, e.g. Parser.h:233 *)
Definition read_c (s : bytes) (i : nat) : counted byte := (1, read s i).

(** Parser.h:232-238 have(char) *)
Definition have_c (c : byte) (s : bytes) : counted (bool * bytes) :=
  h <~ read_c s 0 ;;
  if beqb h c then s' <~ free (advance s 1) ;; free (Ret (true, s')) else free (Ret (false, s)).

(** Parser.h:240-247 have(pred, vector), which reads the character again to store it; 249-256 have(char, vector) does not, but
    is counted in the same way *)
Definition have_if_c (p : byte -> bool) (s buf : bytes) : counted (bool * bytes * bytes) :=
  h <~ read_c s 0 ;;
  if p h then h <~ read_c s 0 ;; s' <~ free (advance s 1) ;; free (Ret (true, s', buf ++ [h])) else free (Ret (false, s, buf)).

(** Parser.h:260-267 have(const char* ) *)
Fixpoint have_pat_loop_c (aend apat : N) (i : nat) (pat s : bytes) : counted bool :=
  match pat with
  | [] => free (Ret true)
  | c :: pat' =>
      if (aend <=? apat + N.of_nat i)%N then free (Ret false) else
      h <~ read_c s i ;;
      if beqb c h then have_pat_loop_c aend apat (S i) pat' s else free (Ret false)
  end.
(** Parser.h:260-267 have(const char* ) *)
Definition have_pat_c (aend apat : N) (pat s : bytes) : counted (bool * bytes) :=
  b <~ have_pat_loop_c aend apat 0 pat s ;;
  if b then s' <~ free (advance s (length pat)) ;; free (Ret (true, s')) else free (Ret (false, s)).

(** Parser.h:269-273 expect *)
Definition expect_c (c : byte) (msg : string) (s : bytes) : counted bytes :=
  '(b, s') <~ have_c c s ;; if b then free (Ret s') else free (Throw (ParserError msg)).
(** Parser.h:276-280 expect(const char* , ...) *)
Definition expect_pat_c (aend apat : N) (pat : bytes) (msg : string) (s : bytes) : counted bytes :=
  '(b, s') <~ have_pat_c aend apat pat s ;; if b then free (Ret s') else free (Throw (ParserError msg)).

(** Parser.h:170-172 skip_ws *)
Fixpoint skip_ws_loop_c (fuel : nat) (s : bytes) : counted bytes :=
  match fuel with
  | O => free Diverge
  | S f =>
      '(b1, s) <~ have_c x20 s ;; if b1 then skip_ws_loop_c f s else
      '(b2, s) <~ have_c x09 s ;; if b2 then skip_ws_loop_c f s else
      '(b3, s) <~ have_c x0a s ;; if b3 then skip_ws_loop_c f s else
      '(b4, s) <~ have_c x0d s ;; if b4 then skip_ws_loop_c f s else
      free (Ret s)
  end.
(** Parser.h:170-172 skip_ws *)
Definition skip_ws_c (s : bytes) : counted bytes := skip_ws_loop_c (S (length s)) s.

(** Parser.h:183-185 parse_digits *)
Fixpoint digits_loop_c (fuel : nat) (s buf : bytes) : counted (bytes * bytes) :=
  match fuel with
  | O => free Diverge
  | S f =>
      '(b, s, buf) <~ have_if_c is_digit s buf ;;
      if b then digits_loop_c f s buf else free (Ret (s, buf))
  end.

(** Parser.h:174-180 parse_int_part *)
Definition parse_int_part_c (s buf : bytes) : counted (bool * bytes * bytes) :=
  '(b, s, buf) <~ have_if_c is_pos_digit s buf ;;
  if b then '(s, buf) <~ digits_loop_c (S (length s)) s buf ;; free (Ret (true, s, buf))
  else free (Ret (false, s, buf)).

(** Parser.h:219-227 valid_code: up to six reads of each character *)
Fixpoint valid_code_loop_c (n i : nat) (s : bytes) : counted bool :=
  match n with
  | O => free (Ret true)
  | S n' => c <~ (6, read s i) ;; if is_hex c then valid_code_loop_c n' (S i) s else free (Ret false)
  end.

(** Parser.h:210-217 parse_codepoint: the four characters are copied *)
Definition parse_codepoint_c (s : bytes) : counted (byte * bytes) :=
  ok <~ valid_code_loop_c 4 0 s ;;
  if ok then s' <~ (4, advance s 4) ;; free (Ret (byte_of_N (scan_hex (firstn 4 s)), s'))
  else free (Throw (ParserError bad_code)).

(** Parser.h:187-209 parse_escape *)
Definition parse_escape_c (s : bytes) : counted (byte * bytes) :=
  '(b, s) <~ have_c x22 s ;; if b then free (Ret (x22, s)) else
  '(b, s) <~ have_c x5c s ;; if b then free (Ret (x5c, s)) else
  '(b, s) <~ have_c x2f s ;; if b then free (Ret (x2f, s)) else
  '(b, s) <~ have_c x62 s ;; if b then free (Ret (x08, s)) else
  '(b, s) <~ have_c x66 s ;; if b then free (Ret (x0c, s)) else
  '(b, s) <~ have_c x6e s ;; if b then free (Ret (x0a, s)) else
  '(b, s) <~ have_c x72 s ;; if b then free (Ret (x0d, s)) else
  '(b, s) <~ have_c x74 s ;; if b then free (Ret (x09, s)) else
  '(b, s) <~ have_c x75 s ;; if b then parse_codepoint_c s else
  free (Throw (ParserError bad_escape)).

(** Parser.h:107-119, the loop of parse_string *)
Fixpoint string_loop_c (fuel : nat) (s str : bytes) : counted (bytes * bytes) :=
  match fuel with
  | O => free Diverge
  | S f =>
      '(b, s) <~ have_c x22 s ;;
      if b then free (Ret (s, str)) else
      if Nat.eqb (length s) 0 then free (Throw (ParserError no_quote)) else
      '(b, s) <~ have_c x5c s ;;
      if b then '(c, s) <~ parse_escape_c s ;; string_loop_c f s (str ++ [c])
      else c <~ read_c s 0 ;; s <~ free (advance s 1) ;; string_loop_c f s (str ++ [c])
  end.

(** Parser.h:101-122 parse_string *)
Definition parse_string_c (isKey : bool) (s : bytes) (c : cbs) : counted step_result :=
  s <~ skip_ws_c s ;;
  '(b, s) <~ have_c x22 s ;;
  if b then
    '(s, str) <~ string_loop_c (S (length s)) s [] ;;
    c <~ free (on_string c str isKey) ;;
    free (Ret (true, s, c))
  else free (Ret (false, s, c)).

(** Parser.h:69-82 parse_boolean *)
Definition parse_boolean_c (lay : layout) (s : bytes) (c : cbs) : counted step_result :=
  s <~ skip_ws_c s ;;
  '(b, s) <~ have_c x74 s ;;
  if b then
    s <~ expect_pat_c (a_end lay) (a_rue lay) [x72; x75; x65] no_true s ;;
    c <~ free (on_boolean c true) ;; free (Ret (true, s, c))
  else
  '(b, s) <~ have_c x66 s ;;
  if b then
    s <~ expect_pat_c (a_end lay) (a_alse lay) [x61; x6c; x73; x65] no_false s ;;
    c <~ free (on_boolean c false) ;; free (Ret (true, s, c))
  else free (Ret (false, s, c)).

(** Parser.h:84-99 parse_number *)
Definition parse_number_c (s : bytes) (c : cbs) : counted step_result :=
  s <~ skip_ws_c s ;;
  '(started, s, str) <~ have_if_c (fun h => beqb h x2d) s [] ;;
  '(zero, s, str) <~ have_if_c (fun h => beqb h x30) s str ;;
  '(ok, s, str) <~ (if zero then free (Ret (true, s, str)) else parse_int_part_c s str) ;;
  if ok then c <~ free (on_number c str) ;; free (Ret (true, s, c))
  else if started then free (Throw (ParserError no_digits)) else free (Ret (false, s, c)).

Section Containers.
  Variable parse_value_c : bytes -> cbs -> counted (bytes * cbs).

  (** Parser.h:135-138, the do-while loop of parse_array *)
  Fixpoint elems_loop_c (fuel : nat) (s : bytes) (c : cbs) : counted (bytes * cbs) :=
    match fuel with
    | O => free Diverge
    | S f =>
        '(s, c) <~ parse_value_c s c ;;
        s <~ skip_ws_c s ;;
        '(b, s) <~ have_c x2c s ;;
        if b then elems_loop_c f s c else free (Ret (s, c))
    end.

  (** Parser.h:124-142 parse_array *)
  Definition parse_array_c (s : bytes) (c : cbs) : counted step_result :=
    s <~ skip_ws_c s ;;
    '(b, s) <~ have_c x5b s ;;
    if b then
      let c := begin_array c in
      s <~ skip_ws_c s ;;
      '(b, s) <~ have_c x5d s ;;
      if b then c <~ free (end_container c) ;; free (Ret (true, s, c))
      else
        '(s, c) <~ elems_loop_c (S (length s)) s c ;;
        s <~ expect_c x5d no_bracket s ;;
        c <~ free (end_container c) ;; free (Ret (true, s, c))
    else free (Ret (false, s, c)).

  (** Parser.h:154-161, the do-while loop of parse_object *)
  Fixpoint members_loop_c (fuel : nat) (s : bytes) (c : cbs) : counted (bytes * cbs) :=
    match fuel with
    | O => free Diverge
    | S f =>
        '(b, s, c) <~ parse_string_c true s c ;;
        if b then
          s <~ skip_ws_c s ;;
          s <~ expect_c x3a no_colon s ;;
          '(s, c) <~ parse_value_c s c ;;
          s <~ skip_ws_c s ;;
          '(b, s) <~ have_c x2c s ;;
          if b then members_loop_c f s c else free (Ret (s, c))
        else free (Throw (ParserError no_key))
    end.

  (** Parser.h:144-165 parse_object *)
  Definition parse_object_c (s : bytes) (c : cbs) : counted step_result :=
    s <~ skip_ws_c s ;;
    '(b, s) <~ have_c x7b s ;;
    if b then
      let c := begin_object c in
      s <~ skip_ws_c s ;;
      '(b, s) <~ have_c x7d s ;;
      if b then c <~ free (end_container c) ;; free (Ret (true, s, c))
      else
        '(s, c) <~ members_loop_c (S (length s)) s c ;;
        s <~ expect_c x7d no_brace s ;;
        c <~ free (end_container c) ;; free (Ret (true, s, c))
    else free (Ret (false, s, c)).
End Containers.

(** Parser.h:60-67 parse_value *)
Fixpoint parse_value_c (lay : layout) (fuel : nat) (s : bytes) (c : cbs) : counted (bytes * cbs) :=
  match fuel with
  | O => free Diverge
  | S f =>
      '(b, s, c) <~ parse_object_c (parse_value_c lay f) s c ;; if b then free (Ret (s, c)) else
      '(b, s, c) <~ parse_array_c (parse_value_c lay f) s c ;; if b then free (Ret (s, c)) else
      '(b, s, c) <~ parse_string_c false s c ;; if b then free (Ret (s, c)) else
      '(b, s, c) <~ parse_boolean_c lay s c ;; if b then free (Ret (s, c)) else
      '(b, s, c) <~ parse_number_c s c ;; if b then free (Ret (s, c)) else
      free (Throw (ParserError no_value))
  end.

(** Parser.h:44-54 the constructor: the reads and the outcome as of [parse] *)
Definition parse_c (lay : layout) (s : bytes) : counted (bool * jvalue) :=
  let r := parse_value_c lay (S (length s)) s (mkC [] JUndef) in
  (fst r, match snd r with
          | Ret (_, c) => Ret (true, root c)
          | Throw (ParserError _) => Ret (false, JUndef)
          | Throw e => Throw e
          | UB u => UB u
          | Diverge => Diverge
          | Exit n => Exit n
          end).

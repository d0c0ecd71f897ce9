(** What is wrong with a text that does not begin with a value, and what the parser is to say about it: the counterpart of
    the grammar of JsonSpec.v.  Nothing here refers to the parser; the sentences are those a user sees. *)
From Coq Require Import String.
From Verif Require Import Base JsonSpec.
From Coq Require Import List NArith ZArith Bool.
From Coq.Init Require Import Byte.
From Coq.Strings Require Import Byte.
Import ListNotations.

(** [s] is at its end or goes on with none of the characters [cs]. *)
Definition none_of (cs : list byte) (s : bytes) : Prop := match s with [] => True | c :: _ => ~ In c cs end.

Definition whites : list byte := [x20; x09; x0a; x0d].
Definition digits : list byte := [x30; x31; x32; x33; x34; x35; x36; x37; x38; x39].

(** Four hexadecimal digits. *)
Definition four_hex (s : bytes) : Prop :=
  exists h1 h2 h3 h4 r, s = h1 :: h2 :: h3 :: h4 :: r /\ Forall (fun h => hex_value h <> None) [h1; h2; h3; h4].

(** [bad_chars s m]: the rest [s] of a string, after the opening quote or some characters, goes wrong. *)
Inductive bad_chars : bytes -> string -> Prop :=
| BC_end : bad_chars [] "unterminated string"%string
| BC_escape s : none_of (x75 :: map fst short_escapes) s -> bad_chars (x5c :: s) "invalid escape sequence"%string
| BC_code s : ~ four_hex s -> bad_chars (x5c :: x75 :: s) "invalid code number"%string
| BC_after_escape e c s m : In (e, c) short_escapes -> bad_chars s m -> bad_chars (x5c :: e :: s) m
| BC_after_code h1 h2 h3 h4 s m : four_hex [h1; h2; h3; h4] -> bad_chars s m ->
    bad_chars (x5c :: x75 :: h1 :: h2 :: h3 :: h4 :: s) m
| BC_after_plain c s m : c <> x22 -> c <> x5c -> bad_chars s m -> bad_chars (c :: s) m.

(** a key and its colon *)
Inductive bad_key : bytes -> string -> Prop :=
| BK_none w s : white w -> none_of (x22 :: whites) s -> bad_key (w ++ s) "expected key string"%string
| BK_string w s m : white w -> bad_chars s m -> bad_key (w ++ x22 :: s) m
| BK_colon w s k w' r : white w -> gchars s k (w' ++ r) -> white w' -> none_of (x3a :: whites) r ->
    bad_key (w ++ x22 :: s) "expected ':'"%string.

(** the letters of a boolean after the first *)
Definition literal_rest (b : bool) : bytes := tl (literal b).

Section Faults.
  Variable lits : bool -> bool.

  (** [bad_val s m]: no value stands at the beginning of [s], and the first thing wrong is what [m] says. *)
  Inductive bad_val : bytes -> string -> Prop :=
  | B_none w s : white w -> none_of ([x7b; x5b; x22; x74; x66; x2d] ++ digits ++ whites) s -> bad_val (w ++ s) "expected value"%string
  | B_literal w b s : white w -> lits b = false \/ (forall r, s <> literal_rest b ++ r) ->
      bad_val (w ++ (if b then x74 else x66) :: s) (if b then "expected 'true'"%string else "expected 'false'"%string)
  | B_minus w s : white w -> none_of digits s -> bad_val (w ++ x2d :: s) "expected digits after -"%string
  | B_string w s m : white w -> bad_chars s m -> bad_val (w ++ x22 :: s) m
  | B_array w s m : white w -> (forall w' r, white w' -> s <> w' ++ x5d :: r) -> bad_elems s m -> bad_val (w ++ x5b :: s) m
  | B_object w s m : white w -> (forall w' r, white w' -> s <> w' ++ x7d :: r) -> bad_members s m -> bad_val (w ++ x7b :: s) m
  (** the elements of an array that is not empty *)
  with bad_elems : bytes -> string -> Prop :=
  | BE_value s m : bad_val s m -> bad_elems s m
  | BE_after s a w r : gval lits s a (w ++ r) -> white w -> none_of (x2c :: x5d :: whites) r -> bad_elems s "expected ']' or ','"%string
  | BE_next s a w s' m : gval lits s a (w ++ x2c :: s') -> white w -> bad_elems s' m -> bad_elems s m
  (** the members of an object that is not empty *)
  with bad_members : bytes -> string -> Prop :=
  | BM_key s m : bad_key s m -> bad_members s m
  | BM_value s k s' m : gkey s k s' -> bad_val s' m -> bad_members s m
  | BM_after s k s' a w r : gkey s k s' -> gval lits s' a (w ++ r) -> white w -> none_of (x2c :: x7d :: whites) r ->
      bad_members s "expected '}' or ','"%string
  | BM_next s k s' a w s'' m : gkey s k s' -> gval lits s' a (w ++ x2c :: s'') -> white w -> bad_members s'' m -> bad_members s m.
End Faults.

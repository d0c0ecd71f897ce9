(** The parser on a machine with a finite call stack. *)
From Verif Require Import Base JsonModel.
From Coq Require Import List NArith ZArith Bool.
Import ListNotations.

(** Parser.h:44-67, 124-165: parse_value calls parse_object and parse_array, which call parse_value for their elements, and
    no other function of the parser calls itself directly or indirectly.  [room] is the number of calls of parse_value the
    stack has room for at the same time; the call that finds no room is [Diverge] here: the process is killed, nothing is
    thrown and nothing is returned.  Otherwise as [parse] in JsonModel.v, which has room for as many calls as the text has
    bytes and one more.  The recursion of copying, destroying and printing values is not counted. *)
Definition parse_in (room : nat) (lay : layout) (s : bytes) : outcome (bool * jvalue) :=
  match parse_value lay room s (mkC [] JUndef) with
  | Ret (_, c) => Ret (true, root c)
  | Throw (ParserError _) => Ret (false, JUndef)
  | Throw e => Throw e
  | UB u => UB u
  | Diverge => Diverge
  | Exit n => Exit n
  end.

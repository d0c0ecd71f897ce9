(** The assertions of the JSON tests: test/jsontests/__init__.py:20-42, on top of eni_xx (PyClientModel.v).

    An assertion passes or raises an exception; the definitions say when it passes.  int(b, 16) is Python's and a parameter;
    None is an exception. *)
From Verif Require Import Base JsonStdSpec PyClientModel.
From Coq Require Import List NArith ZArith Bool.
From Coq.Init Require Import Byte.
Import ListNotations.

(** test/jsontests/__init__.py:28-32; equality of the values is that of Python on lists of strings *)
Definition assert_returns (ran : outcome (Z * bytes)) (output : tree) : Prop := exists v, answers ran v /\ v = output.

Section Tests.
  (** int(b, 16) *)
  Variable int16 : list N -> option Z.

  (** test/jsontests/__init__.py:20-22 *)
  Definition u32hex2int (b : list N) : option Z := if Nat.eqb (length b) 8 then int16 b else None.

  (** test/jsontests/__init__.py:34-37 *)
  Definition assert_range (ran : outcome (Z * bytes)) (expected_begin expected_end : Z) : Prop :=
    exists s more, answers ran (VArr (VStr s :: more)) /\
      u32hex2int (firstn 8 s) = Some expected_begin /\ u32hex2int (skipn 8 s) = Some expected_end.

  (** test/jsontests/__init__.py:39-42; a slice of a string ends with the string *)
  Definition assert_ranges (ran : outcome (Z * bytes)) (expected : list Z) : Prop :=
    exists s more, answers ran (VArr (VStr s :: more)) /\
      map (fun i => u32hex2int (firstn 8 (skipn (8 * i) s))) (seq 0 (length expected)) = map Some expected.
End Tests.

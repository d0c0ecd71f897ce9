(** What the description of a test asks for, read off docs and consensus.py:83-104 without the model. *)
From Verif Require Import Base.
From Coq Require Import List Bool.
From Coq.Init Require Import Byte.
Import ListNotations.

Section Asked.
  (** the random strings and hexadecimal strings drawn for argument [j] of test [i], given the text of the length; the
      contents of files *)
  Variables rands randh : nat -> nat -> bytes -> option bytes.
  Variable file : bytes -> option bytes.

  (** [s] is what argument [j] of test [i], written [a] in the description, asks for: what [s:] and [h:] are followed by is
      the length of a random string, what [f:] is followed by the name of a file, whose newlines at the end do not count.
      The second character is not looked at. *)
  Inductive asked (i j : nat) (a s : bytes) : Prop :=
  | asked_string : nth_error a 0 = Some x73 -> rands i j (skipn 2 a) = Some s -> asked i j a s
  | asked_hex : nth_error a 0 = Some x68 -> randh i j (skipn 2 a) = Some s -> asked i j a s
  | asked_file text n : nth_error a 0 = Some x66 -> file (skipn 2 a) = Some text -> text = s ++ repeat x0a n ->
      (forall s', s <> s' ++ [x0a]) -> asked i j a s.
End Asked.
